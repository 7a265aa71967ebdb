(** NoGlueLimitCountingScanner::Glue: the table and the array of actions. *)
From Coq Require Import List Bool Arith NArith Lia.
From Verif Require Import Util Spec PartitionModel PartitionProofs FsmModel DetermineModel DetGeneric DetProofs RunModel RunSpec ScannerModel
  ScannerProofs ScannerCompile GlueModel GlueTable GlueProofs CountModel CountSpec CountApi RunProofs CountProofs SimpleProofs LoadedProofs LoadedGlue CountBuild AdvModel AdvRun CountUser NgModel NgApi NgTable.
Import ListNotations.
Local Open Scope N_scope.

(** ** The table without the actions *)
Lemma map_upd_const : forall A B (g : A -> B) y L i, map g (upd i (fun _ => y) L) = upd i (fun _ => g y) (map g L).
Proof. intros A B g y. induction L as [|x L IH]; intros [|i]; cbn; auto. f_equal. apply IH. Qed.
Lemma strip_set_djump : forall s f c t a, set_djump (strip s) f c t 0 = let* s' := set_djump s f c t a in Ok (strip s').
Proof.
  intros s f c t a. unfold set_djump. change (transition_index (strip s)) with (transition_index s). change (state_size (strip s)) with (state_size s). cbn [strip d_jumps]. rewrite map_length.
  destruct (transition_index s (N.of_nat f) c <? N.of_nat (length (d_jumps s))); [|reflexivity]. cbn [bind]. f_equal. unfold strip, set_jumps. cbn [d_states d_nletters d_regexps d_initial d_buf d_letters d_jumps d_tags d_owned d_null].
  f_equal. rewrite map_upd_const. reflexivity.
Qed.
Lemma strip_set_dtag : forall s q v, set_dtag (strip s) q v = let* s' := set_dtag s q v in Ok (strip s').
Proof. intros s q v. unfold set_dtag. cbn [strip d_tags]. destruct (q <? length (d_tags s))%nat; reflexivity. Qed.
Lemma strip_init : forall b n p q k, init_loaded b n p q 0 = let* s := init_loaded b n p q k in Ok (strip s).
Proof.
  intros b n p q k. unfold init_loaded. destruct (two32 <=? N.of_nat n); [reflexivity|]. cbn [bind]. unfold strip. cbn [d_states d_nletters d_regexps d_initial d_buf d_letters d_jumps d_tags d_owned d_null].
  replace (map (fun j : N * N => (fst j, 0)) (repeat (0, 0) (n * part_size p))) with (repeat (0, 0) (n * part_size p)) by (induction (n * part_size p)%nat as [|m IH]; cbn; [auto|f_equal; auto]).
  reflexivity.
Qed.
Lemma foldm_commute : forall S S' A (h : S -> S') (f : S -> A -> res S) (f' : S' -> A -> res S') L s, (forall s x, In x L -> f' (h s) x = let* s' := f s x in Ok (h s')) ->
  foldm f' L (h s) = let* s' := foldm f L s in Ok (h s').
Proof.
  intros S S' A h f f'. induction L as [|x L IH]; intros s H; cbn [foldm]; [reflexivity|]. rewrite H by (left; auto). destruct (f s x) as [s1| | |]; cbn [bind]; auto.
  apply IH. intros; apply H; right; auto.
Qed.
Lemma strip_count : forall s, d_count (strip s) = 0.
Proof. intros s. unfold d_count. cbn. destruct (d_null s); reflexivity. Qed.
Lemma strip_accept : forall b l r p states, dglue_accept b (strip l) (strip r) p states = let* s := dglue_accept b l r p states in Ok (strip s).
Proof.
  intros b l r p states. unfold dglue_accept. rewrite !strip_count. cbn [N.add]. rewrite (strip_init b (length states) p 0 (d_count l + d_count r)).
  destruct (init_loaded b (length states) p 0 (d_count l + d_count r)) as [s0| | |]; cbn [bind]; auto.
  rewrite (foldm_commute _ _ _ strip (fun s '(i, st) => let* v := dglue_tag l r st in set_dtag s i v)); [reflexivity|].
  intros s [i st] _. change (dglue_tag (strip l) (strip r) st) with (dglue_tag l r st). destruct (dglue_tag l r st); cbn [bind]; auto. apply strip_set_dtag.
Qed.
Lemma strip_glue_next : forall l r st c, dglue_next (strip l) (strip r) st c = dglue_next l r st c.
Proof.
  intros l r st c. unfold dglue_next. rewrite !strip_next. destruct (d_next l (fst st) c) as [[a x]| | |]; cbn [bind]; auto. destruct (d_next r (snd st) c) as [[b y]| | |]; cbn [bind]; auto.
Qed.

(** ** The array *)
Definition dec (acts : list N) (a : N) (rs is : list N) : Prop :=
  a = 0 /\ rs = [] /\ is = [] \/ 0 < a /\ exists p q, ids_at acts a = Ok (rs, p) /\ ids_at acts p = Ok (is, q) /\ a < p.
Lemma ids_at_app : forall acts x pos r, ids_at acts pos = Ok r -> ids_at (acts ++ x) pos = Ok r.
Proof.
  intros acts x pos r E. unfold ids_at in *. destruct (nth_error acts (N.to_nat pos)) as [k|] eqn:K; [|discriminate E].
  assert (H : (N.to_nat pos < length acts)%nat) by (apply nth_error_Some; congruence). rewrite nth_error_app1 by auto. rewrite K. cbv zeta in *.
  destruct (N.eqb_spec (N.of_nat (length (firstn (N.to_nat k) (skipn (S (N.to_nat pos)) acts)))) k) as [L|L]; [|discriminate E].
  assert (L2 : (N.to_nat k <= length (skipn (S (N.to_nat pos)) acts))%nat) by (rewrite firstn_length in L; lia).
  rewrite skipn_app, firstn_app. replace (N.to_nat k - length (skipn (S (N.to_nat pos)) acts))%nat with 0%nat by lia. rewrite firstn_O, app_nil_r.
  rewrite (proj2 (N.eqb_eq _ _) L). exact E.
Qed.
Lemma ids_at_new : forall acts ids x, ids_at (acts ++ (N.of_nat (length ids) :: ids) ++ x) (N.of_nat (length acts)) = Ok (ids, N.of_nat (length acts) + 1 + N.of_nat (length ids)).
Proof.
  intros acts ids x. unfold ids_at. rewrite Nat2N.id. rewrite nth_error_app2 by lia. rewrite Nat.sub_diag. cbn [app nth_error]. cbv zeta. rewrite Nat2N.id.
  rewrite skipn_app. rewrite skipn_all2 by lia. replace (S (length acts) - length acts)%nat with 1%nat by lia. cbn [skipn app].
  rewrite firstn_app, Nat.sub_diag, firstn_O, app_nil_r, firstn_all. rewrite N.eqb_refl. reflexivity.
Qed.
Lemma ids_at_next : forall acts pos ids p, ids_at acts pos = Ok (ids, p) -> pos < p.
Proof.
  intros acts pos ids p E. unfold ids_at in E. destruct (nth_error acts (N.to_nat pos)) as [k|]; [|discriminate E]. cbv zeta in E. destruct (_ =? k); [|discriminate E]. injection E as _ <-. lia.
Qed.
Lemma ids_at_upd : forall acts f pos, 0 < pos -> ids_at (upd 0 f acts) pos = ids_at acts pos.
Proof.
  intros [|x acts] f pos H; [reflexivity|]. cbn [upd]. unfold ids_at. replace (N.to_nat pos) with (S (Nat.pred (N.to_nat pos))) by lia. reflexivity.
Qed.
Lemma dec_app : forall acts x a rs is, dec acts a rs is -> dec (acts ++ x) a rs is.
Proof. intros acts x a rs is [H|(H & p & q & H1 & H2 & H3)]; [left; auto|right]. split; auto. exists p, q. splits; auto; apply ids_at_app; auto. Qed.
Lemma dec_upd : forall acts f a rs is, dec acts a rs is -> dec (upd 0 f acts) a rs is.
Proof. intros acts f a rs is [H|(H & p & q & H1 & H2 & H3)]; [left; auto|right]. split; auto. exists p, q. rewrite !ids_at_upd by lia. auto. Qed.
Lemma dec_new : forall acts rs is, (0 < length acts)%nat -> dec (acts ++ (N.of_nat (length rs) :: rs) ++ (N.of_nat (length is) :: is)) (N.of_nat (length acts)) rs is.
Proof.
  intros acts rs is H. right. split; [lia|]. pose proof (ids_at_new acts rs (N.of_nat (length is) :: is)) as A.
  pose proof (ids_at_new (acts ++ (N.of_nat (length rs) :: rs)) is []) as B. rewrite app_nil_r in B. rewrite <- app_assoc in B. rewrite app_length in B. cbn [length] in B.
  replace (N.of_nat (length acts + S (length rs))) with (N.of_nat (length acts) + 1 + N.of_nat (length rs)) in B by lia. eexists _, _. split; [exact A|]. split; [exact B|]. lia.
Qed.
Lemma ids_eqb_ok : forall a b, ids_eqb a b = true <-> a = b.
Proof.
  induction a as [|x a IH]; intros [|y b]; cbn; split; intros H; try discriminate H; auto.
  - apply andb_true_iff in H as [H1 H2]. apply N.eqb_eq in H1. apply IH in H2. subst. reflexivity.
  - injection H as -> ->. rewrite N.eqb_refl. apply IH. reflexivity.
Qed.
Lemma glue_find_in : forall rs is m v, glue_find (rs, is) m = Some v -> In (rs, is, v) m.
Proof.
  intros rs is. induction m as [|[[r i] v'] m IH]; intros v E; cbn in E; [discriminate E|].
  destruct (ids_eqb rs r && ids_eqb is i) eqn:B.
  - injection E as ->. apply andb_true_iff in B as [B1 B2]. apply ids_eqb_ok in B1, B2. subst. left. reflexivity.
  - right. auto.
Qed.

Section Fill.
  Variables l r : nscanner.
  Variable states : list (N * N).
  Variable K : nat.
  Variable s0 : loaded.
  Variable all : list (nat * nat * N).
  Hypothesis Keys : forall f t c, In (f, t, c) all -> exists st rs is, nth_error states f = Some st /\ glue_key l r st c = Ok (rs, is) /\ (length rs + length is <= K)%nat.
  Lemma connect_sync : forall g e, In e all ->
    dglue_connect (strip (n_base l)) (strip (n_base r)) states (strip (g_sc g)) e = let* g' := n_connect l r states g e in Ok (strip (g_sc g')).
  Proof.
    intros g [[f t] c] I. destruct (Keys f t c I) as (st & rs & is & Hst & Hk & Hl).
    unfold dglue_connect, n_connect. rewrite Hst. pose proof Hk as Hk'. unfold glue_key in Hk'. apply bind_ok in Hk' as (x & X & Hk'). apply bind_ok in Hk' as ([r1 i1] & _ & Hk'). apply bind_ok in Hk' as (y & Y & _).
      assert (AX : action_of (strip (n_base l)) (fst st) c = Ok 0).
      { unfold action_of in *. change (transition_index (strip (n_base l)) (state_idx (strip (n_base l)) (fst st)) c) with (transition_index (n_base l) (state_idx (n_base l) (fst st)) c). cbn [strip d_jumps]. rewrite nth_error_map.
        destruct (nth_error (d_jumps (n_base l)) _); [reflexivity|discriminate X]. }
      assert (AY : action_of (strip (n_base r)) (snd st) c = Ok 0).
      { unfold action_of in *. change (transition_index (strip (n_base r)) (state_idx (strip (n_base r)) (snd st)) c) with (transition_index (n_base r) (state_idx (n_base r) (snd st)) c). cbn [strip d_jumps]. rewrite nth_error_map.
        destruct (nth_error (d_jumps (n_base r)) _); [reflexivity|discriminate Y]. }
      rewrite AX, AY. cbn [bind]. rewrite strip_count. change (N.lor 0 (N.shiftl 0 0 mod two32)) with 0. rewrite Hk. cbn [bind].
      assert (SD : forall v m acts, set_djump (strip (g_sc g)) f c t 0 = let* g' := (let* s1 := set_djump (g_sc g) f c t v in Ok (mkG s1 m acts)) in Ok (strip (g_sc g'))).
      { intros v m acts. rewrite (strip_set_djump _ _ _ _ v). destruct (set_djump (g_sc g) f c t v); reflexivity. }
      destruct (rs ++ is); [apply SD|]. destruct (glue_find (rs, is) (g_map g)); apply SD.
  Qed.
  Lemma fill_sync : forall todo g, incl todo all ->
    foldm (dglue_connect (strip (n_base l)) (strip (n_base r)) states) todo (strip (g_sc g)) = let* g' := foldm (n_connect l r states) todo g in Ok (strip (g_sc g')).
  Proof.
    induction todo as [|e todo IH]; intros g I; cbn [foldm]; [reflexivity|].
    rewrite connect_sync by (apply I; left; auto). destruct (n_connect l r states g e) as [g1| | |]; cbn [bind]; auto. apply IH. intros x Hx. apply I. right. auto.
  Qed.
  Hypothesis Slots : forall f t c f' t' c', In (f, t, c) all -> In (f', t', c') all -> slot s0 f c = slot s0 f' c' -> f = f' /\ c = c'.
  Hypothesis Small : N.of_nat (1 + length all * (2 + K)) < two32.

  Definition fill_inv (done : list (nat * nat * N)) (g : gstate) : Prop :=
    (0 < length (g_acts g))%nat /\ (length (g_acts g) <= 1 + length done * (2 + K))%nat /\
    d_nletters (g_sc g) = d_nletters s0 /\ d_letters (g_sc g) = d_letters s0 /\
    (forall rs is v, In (rs, is, v) (g_map g) -> dec (g_acts g) v rs is) /\
    (forall f t c st rs is, In (f, t, c) done -> nth_error states f = Some st -> glue_key l r st c = Ok (rs, is) ->
      exists sh a, nth_error (d_jumps (g_sc g)) (slot s0 f c) = Some (sh, a) /\ dec (g_acts g) a rs is).
  Lemma set_djump_at : forall s f c t a s', d_nletters s = d_nletters s0 -> d_letters s = d_letters s0 -> set_djump s f c t a = Ok s' ->
    d_nletters s' = d_nletters s0 /\ d_letters s' = d_letters s0 /\ exists sh, nth_error (d_jumps s') (slot s0 f c) = Some (sh, a) /\
    forall k, k <> slot s0 f c -> nth_error (d_jumps s') k = nth_error (d_jumps s) k.
  Proof.
    intros s f c t a s' E1 E2 E. unfold set_djump in E. destruct (N.ltb_spec (transition_index s (N.of_nat f) c) (N.of_nat (length (d_jumps s)))) as [L|L]; [|discriminate E].
    cbv zeta in E. apply ok_inj in E. subst s'. cbn [set_jumps d_nletters d_letters d_jumps]. splits; auto.
    assert (SL : N.to_nat (transition_index s (N.of_nat f) c) = slot s0 f c) by (unfold transition_index, slot; rewrite E1, E2; lia). rewrite SL.
    eexists. split.
    - rewrite nth_error_upd. rewrite Nat.eqb_refl. destruct (nth_error (d_jumps s) (slot s0 f c)) as [[x y]|] eqn:Z; [reflexivity|]. apply nth_error_None in Z. lia.
    - intros k Hk. rewrite nth_error_upd. destruct (Nat.eqb_spec k (slot s0 f c)); [congruence|reflexivity].
  Qed.
  Lemma fill_step : forall done g e, incl (e :: done) all -> fill_inv done g -> (length done < length all)%nat ->
    forall g', n_connect l r states g e = Ok g' -> fill_inv (e :: done) g'.
  Proof.
    intros done g [[f t] c] I (L0 & L1 & E1 & E2 & M & D) LA. destruct (Keys f t c (I _ (or_introl eq_refl))) as (st & rs & is & Hst & Hk & Hl).
    assert (KS : (length (g_acts g) < N.to_nat two32)%nat) by nia.
    assert (Common : forall v acts m s1, set_djump (g_sc g) f c t v = Ok s1 -> (forall a rs is, dec (g_acts g) a rs is -> dec acts a rs is) -> dec acts v rs is ->
      (length (g_acts g) <= length acts <= length (g_acts g) + 2 + K)%nat -> (forall rs is v, In (rs, is, v) m -> dec acts v rs is) -> fill_inv ((f, t, c) :: done) (mkG s1 m acts)).
    { intros v acts m s1 ES Mono Dv LL Mm. destruct (set_djump_at _ _ _ _ _ _ E1 E2 ES) as (F1 & F2 & sh & F3 & F4). unfold fill_inv. cbn [g_acts g_sc g_map length]. splits; auto; try lia.
      intros f' t' c' st' rs' is' H1 H2 H3. destruct (Nat.eq_dec (slot s0 f' c') (slot s0 f c)) as [Q|Q].
      - assert (H1' : In (f', t', c') all) by (apply I; exact H1). destruct (Slots f' t' c' f t c H1' (I _ (or_introl eq_refl)) Q) as [-> ->]. rewrite H2 in Hst. injection Hst as ->. rewrite H3 in Hk. injection Hk as -> ->.
        exists sh, v. split; auto.
      - rewrite F4 by auto. destruct H1 as [H1|H1]; [injection H1 as -> -> ->; congruence|]. destruct (D f' t' c' st' rs' is' H1 H2 H3) as (sh' & a' & A1 & A2). exists sh', a'. auto. }
    intros g' E. unfold n_connect in E. rewrite Hst in E. rewrite Hk in E. cbn [bind] in E. destruct (rs ++ is) as [|z zs] eqn:RI.
      + apply bind_ok in E as (s1 & E & E'). apply ok_inj in E'. subst g'. apply app_eq_nil in RI as [-> ->]. apply (Common 0); auto; try lia. left. auto.
      + destruct (glue_find (rs, is) (g_map g)) as [v|] eqn:GF.
        * apply bind_ok in E as (s1 & E & E'). apply ok_inj in E'. subst g'. apply (Common v); auto; try lia. apply M. apply glue_find_in. exact GF.
        * cbv zeta in E. apply bind_ok in E as (s1 & E & E'). apply ok_inj in E'. subst g'.
          assert (Q1 : N.of_nat (length rs) < two32) by nia. assert (Q2 : N.of_nat (length is) < two32) by nia. assert (Q3 : N.of_nat (length (g_acts g)) < two32) by lia.
          rewrite (N.mod_small _ _ Q3) in E. rewrite (N.mod_small _ _ Q1), (N.mod_small _ _ Q2), (N.mod_small _ _ Q3).
          apply (Common (N.of_nat (length (g_acts g)))); auto.
          -- intros; apply dec_app; auto.
          -- apply dec_new. exact L0.
          -- rewrite app_length. change (length ((N.of_nat (length rs) :: rs) ++ N.of_nat (length is) :: is)) with (S (length (rs ++ N.of_nat (length is) :: is))). rewrite app_length. cbn [length]. lia.
          -- intros rs' is' v' [H|H].
             ++ injection H as <- <- <-. apply dec_new. exact L0.
             ++ apply dec_app. apply M. exact H.
  Qed.
  Lemma fill_all : forall todo done g, incl todo all -> incl done all -> (length done + length todo <= length all)%nat -> fill_inv done g ->
    forall g', foldm (n_connect l r states) todo g = Ok g' -> fill_inv (rev todo ++ done) g'.
  Proof.
    induction todo as [|e todo IH]; intros done g I1 I2 L I g' E; cbn [foldm] in E.
    - apply ok_inj in E. subst g'. exact I.
    - cbn [length] in L. apply bind_ok in E as (g1 & E1 & E).
      assert (S1 : fill_inv (e :: done) g1) by (apply (fill_step done g e); auto; [intros x [<-|Hx]; [apply I1; left; auto|apply I2; auto]|lia]).
      cbn [rev]. rewrite <- app_assoc. apply (IH (e :: done) g1); auto.
      + intros x Hx. apply I1. right. auto.
      + intros x [<-|Hx]; [apply I1; left; auto|apply I2; auto].
      + cbn [length]. lia.
  Qed.
End Fill.
