(** NoGlueLimitCountingScanner::Glue: what the result of gluing does. *)
From Coq Require Import List Bool Arith NArith Lia.
From Verif Require Import Util Spec PartitionModel PartitionProofs FsmModel DetermineModel DetGeneric DetProofs RunModel RunSpec ScannerModel
  ScannerProofs ScannerCompile GlueModel GlueTable GlueProofs CountModel CountSpec CountApi RunProofs CountProofs SimpleProofs LoadedProofs LoadedGlue CountBuild AdvModel AdvRun CountUser NgModel NgApi NgTable NgGlue.
Import ListNotations.
Local Open Scope N_scope.

(** ** Reading actions *)
Definition ids_ok (n : N) (l : list N) : Prop := NoDup l /\ Forall (fun i => i < n) l.
Lemma ids_len : forall n l, ids_ok n l -> (length l <= N.to_nat n)%nat.
Proof.
  intros n l [ND F]. rewrite <- (seq_length (N.to_nat n) 0). rewrite <- (map_length N.of_nat (seq 0 (N.to_nat n))). apply NoDup_incl_length; auto.
  intros x Hx. rewrite Forall_forall in F. specialize (F x Hx). apply in_map_iff. exists (N.to_nat x). split; [lia|]. apply in_seq. lia.
Qed.
Lemma ids_nil : forall n, ids_ok n [].
Proof. intros n. split; constructor. Qed.
Lemma ids_app : forall n m a b, ids_ok n a -> ids_ok m b -> ids_ok (n + m) (a ++ map (fun i => i + n) b).
Proof.
  intros n m a b [A1 A2] [B1 B2]. rewrite Forall_forall in A2, B2. split.
  - assert (X : NoDup (map (fun i => i + n) b)) by (apply FinFun.Injective_map_NoDup; auto; intros x y H; lia).
    revert X. generalize (map_length (fun i => i + n) b). intros _ X. induction a as [|x a IH]; cbn [app]; auto. inversion A1; subst. constructor.
    + rewrite in_app_iff. intros [H|H]; [contradiction|]. apply in_map_iff in H as (y & <- & Hy). specialize (A2 (y + n) (or_introl eq_refl)). lia.
    + apply IH; auto. intros y Hy. apply A2. right. auto.
  - apply Forall_forall. intros x Hx. apply in_app_iff in Hx as [Hx|Hx]; [specialize (A2 x Hx); lia|]. apply in_map_iff in Hx as (y & <- & Hy). specialize (B2 y Hy). lia.
Qed.
Lemma map_shift : forall l0 l n shift, map (fun i => (i + 0) mod two32) l0 = l -> Forall (fun i => i < n) l -> n + shift < two32 ->
  map (fun i => (i + shift) mod two32) l0 = map (fun i => i + shift) l.
Proof.
  intros l0 l n shift <- F S. rewrite map_map. apply map_ext_in. intros i Hi. rewrite Forall_forall in F. specialize (F ((i + 0) mod two32)).
  assert (H : (i + 0) mod two32 < n) by (apply F; apply in_map_iff; eauto). rewrite N.add_0_r in *. rewrite <- N.add_mod_idemp_l by discriminate.
  apply N.mod_small. revert H. generalize (i mod two32). intros; lia.
Qed.
Lemma get_shift : forall s a shift rs is n, get_actions s a 0 = Ok (rs, is) -> ids_ok n rs -> ids_ok n is -> n + shift < two32 ->
  get_actions s a shift = Ok (map (fun i => i + shift) rs, map (fun i => i + shift) is).
Proof.
  intros s a shift rs is n E [_ R] [_ I] S. unfold get_actions in *. destruct (a =? 0); [injection E as <- <-; reflexivity|].
  destruct (n_acts s) as [acts|].
  - apply bind_ok in E as ([r0 p] & E1 & E). apply bind_ok in E as ([i0 q] & E2 & E). rewrite E1. cbn [bind]. rewrite E2. cbn [bind]. injection E as E3 E4.
    rewrite (map_shift r0 rs n shift E3 R S), (map_shift i0 is n shift E4 I S). reflexivity.
  - injection E as <- <-. destruct (N.land a ResetAction =? 0), (N.land a IncrementAction =? 0); reflexivity.
Qed.
(** What an action stands for *)
Definition reads (s : nscanner) (a : N) (rs is : list N) : Prop :=
  match n_acts s with
  | Some acts => dec acts a rs is
  | None => rs = (if N.land a ResetAction =? 0 then [] else [0]) /\ is = (if N.land a IncrementAction =? 0 then [] else [0])
  end.
Lemma reads_get : forall s n a rs is, reads s a rs is -> ids_ok n rs -> ids_ok n is -> n <= two32 -> get_actions s a 0 = Ok (rs, is).
Proof.
  intros s n a rs is D [_ R] [_ I] H. unfold get_actions, reads in *. destruct (n_acts s) as [acts|].
  - destruct D as [(-> & -> & ->)|(Z & p & q & H1 & H2 & _)]; [reflexivity|].
    destruct (N.eqb_spec a 0) as [Z0|Z0]; [lia|]. rewrite H1. cbn [bind]. rewrite H2. cbn [bind].
    assert (X : forall l, Forall (fun i => i < n) l -> map (fun i => (i + 0) mod two32) l = l).
    { induction 1 as [|x l Hx Hl IH]; cbn [map]; auto. rewrite IH, N.add_0_r, N.mod_small; auto. lia. }
    rewrite !X by auto. reflexivity.
  - destruct D as [-> ->]. destruct (N.eqb_spec a 0) as [->|Z]; reflexivity.
Qed.

(** The first element is the number of elements, so copying keeps the whole array. *)
Definition acts_full (s : nscanner) : Prop := forall a, n_acts s = Some a -> a <> [] /\ N.to_nat (hd 0 a) = length a.
(** Every entry of the table can be read. *)
Definition decodes (s : nscanner) : Prop := nplaced s -> forall x c, dlive (n_base s) x -> letter c ->
  exists a rs is, action_of (n_base s) x c = Ok a /\ reads s a rs is /\ ids_ok (n_count s) rs /\ ids_ok (n_count s) is.
Lemma action_class : forall s x c c', nth (N.to_nat c) (d_letters s) 0 = nth (N.to_nat c') (d_letters s) 0 -> action_of s x c = action_of s x c'.
Proof. intros s x c c' E. unfold action_of, transition_index. rewrite E. reflexivity. Qed.

Section Glue.
  Variables l r : nscanner.
  Hypothesis Tl : table_ok (n_base l).
  Hypothesis Tr : table_ok (n_base r).
  Hypothesis Pl : nplaced l.
  Hypothesis Pr : nplaced r.
  Hypothesis Dl : decodes l.
  Hypothesis Dr : decodes r.
  Hypothesis Cnt : n_count l + n_count r < two32.
  Let L := strip (n_base l).
  Let R := strip (n_base r).
  Let p := glue_letters (d_letters (n_base l)) (d_letters (n_base r)).
  Let ls := part_list p.
  Let nx (st : N * N) (c : N) : N * N := okd (0, 0) (dglue_next L R st c).
  Let V (st : N * N) : Prop := dlive L (fst st) /\ dlive R (snd st).
  Let init : N * N := (d_initial (n_base l), d_initial (n_base r)).

  Lemma count0 : d_count L + d_count R <= 16.
  Proof. unfold L, R. rewrite !strip_count. lia. Qed.
  Lemma key_ok : forall st c, V st -> letter c -> exists x y r1 i1 r2 i2, action_of (n_base l) (fst st) c = Ok x /\ action_of (n_base r) (snd st) c = Ok y /\
    reads l x r1 i1 /\ reads r y r2 i2 /\ ids_ok (n_count l) r1 /\ ids_ok (n_count l) i1 /\ ids_ok (n_count r) r2 /\ ids_ok (n_count r) i2 /\
    glue_key l r st c = Ok (r1 ++ map (fun i => i + n_count l) r2, i1 ++ map (fun i => i + n_count l) i2).
  Proof.
    intros st c [V1 V2] Hc. destruct (Dl Pl (fst st) c V1 Hc) as (x & r1 & i1 & X1 & X2 & X3 & X4). destruct (Dr Pr (snd st) c V2 Hc) as (y & r2 & i2 & Y1 & Y2 & Y3 & Y4).
    exists x, y, r1, i1, r2, i2. splits; auto. unfold glue_key. apply (reads_get _ (n_count l)) in X2; auto; [|lia]. apply (reads_get _ (n_count r)) in Y2; auto; [|lia]. rewrite X1. cbn [bind]. rewrite X2. cbn [bind]. rewrite Y1. cbn [bind].
    rewrite N.mod_small by lia. rewrite (get_shift r y (n_count l) r2 i2 (n_count r)) by (auto; lia). reflexivity.
  Qed.
  Lemma key_class : forall st c c', letter c -> part_rep p c = Some c' -> glue_key l r st c = glue_key l r st c'.
  Proof.
    intros st c c' Hc Rp. destruct (glue_letters_ok (d_letters (n_base l)) (d_letters (n_base r))) as (Wp & _ & Eq). fold p in Wp, Eq.
    pose proof (part_rep_rep _ _ _ Wp Rp) as R'. destruct (Eq _ _ _ _ Rp R') as [E _]. specialize (E eq_refl). unfold letters_eq in E. apply andb_true_iff in E as [E1 E2].
    apply N.eqb_eq in E1, E2. unfold glue_key. rewrite (action_class (n_base l) (fst st) c c' E1), (action_class (n_base r) (snd st) c c' E2). reflexivity.
  Qed.

  (** What the result is *)
  Definition ng_as (s : nscanner) (states : list (N * N)) : Prop :=
    glued_as L R (strip (n_base s)) states /\ n_compat s = false /\ d_null (n_base s) = false /\ n_count s = n_count l + n_count r /\
    (d_nletters (n_base s) <= 256 -> nsmall s -> forall i st c, nth_error states i = Some st -> letter c -> exists sh a rs is,
      nth_error (d_jumps (n_base s)) (slot (n_base s) i c) = Some (sh, a) /\ glue_key l r st c = Ok (rs, is) /\ reads s a rs is) /\
    (d_nletters (n_base s) <= 256 -> nsmall s -> acts_full s).

  Variables (max b1 b2 : N).
  Lemma n_accept_ok : forall states tr, N.of_nat (length states) < two32 -> det_good _ init nx (fun _ => true) ls max states tr (length states) -> map fst tr = seq 0 (length states) ->
    exists s, (let* s := dglue_accept b1 (n_base l) (n_base r) p states in
        let* g := foldm (n_connect l r states) (det_connects ls tr) (mkG s [] [1]) in Ok (n_copy b2 (n_success g))) = Ok s /\ ng_as s states.
  Proof.
    intros states tr L32 G TR. pose proof (proj1 Pl) as Pl'. pose proof (proj1 Pr) as Pr'.
    destruct (dglue_ok L R Tl Tr Pl' Pr' count0 max b1 b2 states tr L32 G) as (s' & E & GA).
    change (glue_letters (d_letters L) (d_letters R)) with p in E. change (part_list p) with ls in E.
    unfold L, R in E. rewrite strip_accept in E. apply bind_ok in E as (x & E1 & E). apply bind_ok in E1 as (s0 & E1 & Ex). apply ok_inj in Ex. subst x.
    rewrite E1. cbn [bind]. destruct (glue_letters_ok (d_letters (n_base l)) (d_letters (n_base r))) as (Wp & All & _). fold p in Wp, All.
    destruct (dls_facts L R) as [LI LN]. change (glue_letters (d_letters L) (d_letters R)) with p in LI, LN. change (part_list p) with ls in LI, LN.
    pose proof (det_connects_in _ init nx (fun _ => true) ls LN LI max states tr G) as CI.
    assert (GV : forall st, In st states -> V st).
    { intros st H. apply (dg_reach _ _ _ _ _ _ _ _ _ G) in H. induction H as [|s c i H IH _ Hin]; [apply (dinit_V L R Tl Tr)|].
      destruct (dls_letter L R c i Hin) as [Hc _]. destruct (pair_step L R Tl Tr Pl' Pr' s c IH Hc) as (x & y & _ & _ & H1 & _). exact H1. }
    assert (LL : forall c i, In (c, i) ls -> letter c /\ part_rep p c = Some c /\ cls_of p c = i) by exact (dls_letter L R).
    set (all := det_connects ls tr) in *. set (K := (2 * N.to_nat (n_count l + n_count r))%nat).
    assert (Keys : forall f t c, In (f, t, c) all -> exists st rs is, nth_error states f = Some st /\ glue_key l r st c = Ok (rs, is) /\ (length rs + length is <= K)%nat).
    { intros f t c H. apply CI in H as (st & i & H1 & _ & H2 & _). destruct (LL _ _ H2) as (Hc & _). assert (Vs : V st) by (apply GV; eapply nth_error_In; eauto).
      destruct (key_ok st c Vs Hc) as (x & y & r1 & i1 & r2 & i2 & _ & _ & _ & _ & K1 & K2 & K3 & K4 & K5). exists st. do 2 eexists. split; [exact H1|]. split; [exact K5|].
      pose proof (ids_len _ _ (ids_app _ _ _ _ K1 K3)). pose proof (ids_len _ _ (ids_app _ _ _ _ K2 K4)). unfold K. lia. }
    pose proof (fill_sync l r states K all Keys all (mkG s0 [] [1]) (incl_refl _)) as FS. cbn [g_sc] in FS. rewrite FS in E. clear FS.
    apply bind_ok in E as (x & E & E'). apply bind_ok in E as (g & E2 & Ex). apply ok_inj in Ex. subst x. apply ok_inj in E'.
    rewrite E2. cbn [bind]. eexists. split; [reflexivity|].
    assert (SB : strip (n_base (n_copy b2 (n_success g))) = s') by (rewrite <- E'; cbn [n_copy n_success n_base]; apply strip_copy).
    assert (S0 : d_nletters s0 = N.of_nat (part_size p) /\ d_letters s0 = fill_bytes p /\ d_count s0 = n_count l + n_count r /\ d_owned s0 = true).
    { unfold dglue_accept in E1. apply bind_ok in E1 as (z & Z1 & Z2). unfold init_loaded in Z1. destruct (two32 <=? N.of_nat (length states)); [discriminate Z1|]. cbv zeta in Z1. apply ok_inj in Z1. subst z.
      assert (FT : forall LS z z', foldm (fun s '(i, st) => let* v := dglue_tag (n_base l) (n_base r) st in set_dtag s i v) LS z = Ok z' -> exists T, z' = set_dtags z T).
      { clear. induction LS as [|[i st] LS IH]; intros z z' H; cbn [foldm] in H.
        - apply ok_inj in H. subst z'. exists (d_tags z). destruct z; reflexivity.
        - apply bind_ok in H as (z1 & H1 & H2). apply bind_ok in H1 as (v & _ & H1). unfold set_dtag in H1. destruct (i <? length (d_tags z))%nat; [|discriminate H1]. apply ok_inj in H1. subst z1.
          apply IH in H2 as [T ->]. exists T. reflexivity. }
      apply FT in Z2 as [T ->]. unfold d_count at 1. cbn [set_dtags d_nletters d_letters d_null d_regexps d_owned]. fold (n_count l) (n_count r). rewrite (N.mod_small _ _ Cnt). auto. }
    assert (CN : forall LS g g', foldm (n_connect l r states) LS g = Ok g' -> d_count (g_sc g') = d_count (g_sc g) /\ d_owned (g_sc g') = d_owned (g_sc g)).
    { clear. induction LS as [|[[f t] c] LS IH]; intros g g' H; cbn [foldm] in H; [apply ok_inj in H; subst; auto|].
      apply bind_ok in H as (g1 & H1 & H2). apply IH in H2 as [-> ->]. unfold n_connect in H1. destruct (nth_error states f); [|discriminate H1]. apply bind_ok in H1 as ([rs is] & _ & H1).
      assert (X : forall s a s', set_djump s f c t a = Ok s' -> d_count s' = d_count s /\ d_owned s' = d_owned s).
      { intros s a s' H. unfold set_djump in H. destruct (_ <? _); [|discriminate H]. cbv zeta in H. apply ok_inj in H. subst s'. auto. }
      destruct (rs ++ is); [|destruct (glue_find (rs, is) (g_map g))]; cbv zeta in H1; apply bind_ok in H1 as (s1 & H1 & Ex); apply ok_inj in Ex; subst g1; cbn [g_sc]; eapply X; eauto. }
    destruct S0 as (S1 & S2 & S3 & S4). destruct (CN _ _ _ E2) as [C1 C2]. cbn [g_sc] in C1, C2.
    pose proof GA as (G1 & G2 & G3 & G4 & G5 & G6 & G7 & G8 & G9 & G10 & G11).
    assert (CP : copy_loaded b2 (g_sc g) = mkLoaded (d_states (g_sc g)) (d_nletters (g_sc g)) (d_regexps (g_sc g)) (b2 + MaxChar + (d_initial (g_sc g) - d_base (g_sc g))) b2 (d_letters (g_sc g)) (d_jumps (g_sc g)) (d_tags (g_sc g)) true false).
    { unfold copy_loaded. rewrite C2, S4. reflexivity. }
    assert (F : forall q, n_count (n_copy b2 (n_success q)) = d_count (copy_loaded b2 (g_sc q))) by reflexivity.
    assert (CC : n_count (n_copy b2 (n_success g)) = n_count l + n_count r).
    { rewrite F. pose proof G2 as NU. rewrite <- E', <- strip_copy in NU. cbn [strip d_null] in NU. rewrite CP in NU |- *.
      assert (NG : d_null (g_sc g) = false).
      { assert (X : forall LS g g', foldm (n_connect l r states) LS g = Ok g' -> d_null (g_sc g') = d_null (g_sc g)).
        { clear. induction LS as [|[[f t] c] LS IH]; intros g g' H; cbn [foldm] in H; [apply ok_inj in H; subst; auto|].
          apply bind_ok in H as (g1 & H1 & H2). apply IH in H2 as ->. unfold n_connect in H1. destruct (nth_error states f); [|discriminate H1]. apply bind_ok in H1 as ([rs is] & _ & H1).
          assert (X : forall s a s', set_djump s f c t a = Ok s' -> d_null s' = d_null s).
          { intros s a s' H. unfold set_djump in H. destruct (_ <? _); [|discriminate H]. cbv zeta in H. apply ok_inj in H. subst s'. auto. }
          destruct (rs ++ is); [|destruct (glue_find (rs, is) (g_map g))]; cbv zeta in H1; apply bind_ok in H1 as (s1 & H1 & Ex); apply ok_inj in Ex; subst g1; cbn [g_sc]; eapply X; eauto. }
        rewrite (X _ _ _ E2). cbn [g_sc]. unfold dglue_accept in E1. apply bind_ok in E1 as (z & Z1 & Z2). unfold init_loaded in Z1. destruct (two32 <=? N.of_nat (length states)); [discriminate Z1|]. cbv zeta in Z1. apply ok_inj in Z1. subst z.
        assert (FT : forall LS z z', foldm (fun s '(i, st) => let* v := dglue_tag (n_base l) (n_base r) st in set_dtag s i v) LS z = Ok z' -> d_null z' = d_null z).
        { clear. induction LS as [|[i st] LS IH]; intros z z' H; cbn [foldm] in H; [apply ok_inj in H; subst z'; auto|].
          apply bind_ok in H as (z1 & H1 & H2). apply bind_ok in H1 as (v & _ & H1). unfold set_dtag in H1. destruct (i <? length (d_tags z))%nat; [|discriminate H1]. apply ok_inj in H1. subst z1. apply IH in H2. exact H2. }
        rewrite (FT _ _ _ Z2). reflexivity. }
      unfold d_count in C1 at 1 |- *. rewrite NG in C1. cbn [d_null d_regexps]. rewrite C1. exact S3. }
    split; [rewrite SB; exact GA|]. split; [reflexivity|]. split; [rewrite <- SB in G2; exact G2|]. split; [exact CC|].
    (* the actions *)
    match goal with |- ?X /\ ?Y => enough (Z : d_nletters (n_base (n_copy b2 (n_success g))) <= 256 -> nsmall (n_copy b2 (n_success g)) ->
      (forall i st c, nth_error states i = Some st -> letter c -> exists sh a rs is, nth_error (d_jumps (n_base (n_copy b2 (n_success g)))) (slot (n_base (n_copy b2 (n_success g))) i c) = Some (sh, a) /\
        glue_key l r st c = Ok (rs, is) /\ reads (n_copy b2 (n_success g)) a rs is) /\ acts_full (n_copy b2 (n_success g))) by (split; intros Z1 Z2; apply (Z Z1 Z2)) end.
    intros H256 HS. cbn [n_copy n_success n_base] in H256. rewrite CP in H256. cbn [d_nletters] in H256.
    assert (NL : d_nletters (g_sc g) = N.of_nat (part_size p)).
    { rewrite <- E' in G5. rewrite <- strip_copy, CP in G5. cbn [strip d_nletters] in G5. exact G5. }
    assert (ST : d_states (g_sc g) = N.of_nat (length states)).
    { rewrite <- E' in G4. rewrite <- strip_copy, CP in G4. cbn [strip d_states] in G4. exact G4. }
    rewrite NL in H256.
    assert (LA : (length all <= length states * part_size p)%nat).
    { unfold all, det_connects. rewrite <- (seq_length (length states) 0), <- TR, map_length. rewrite <- (part_list_length p). fold ls. clear - LN LI.
      induction tr as [|[f rw] tr IH]; cbn [flat_map length]; [lia|]. rewrite app_length, map_length, combine_length. destruct (invletters_ok _ LN LI) as [IL _]. rewrite IL. lia. }
    assert (Small : N.of_nat (1 + length all * (2 + K)) < two32).
    { unfold nsmall in HS. rewrite CC in HS. cbn [n_copy n_success n_base] in HS. rewrite CP in HS. cbn [d_states d_nletters] in HS. rewrite NL, ST in HS. unfold K. nia. }
    assert (CLS : forall a a', part_rep p a = Some a' -> nth (N.to_nat a) (fill_bytes p) 0 = N.of_nat (cls_of p a)).
    { intros a a' Ra. destruct (fill_bytes_ok p a a' Wp Ra) as [A B]. apply nth_error_nth with (d := 0) in A. rewrite A. apply N.mod_small. lia. }
    assert (LT0 : forall x, In x (d_letters s0) -> x < d_nletters s0).
    { rewrite S1, S2. intros x. apply fill_bytes_lt; auto. apply (part_pos L R). exact count0. }
    assert (NP0 : 0 < d_nletters s0) by (rewrite S1; pose proof (part_pos L R count0) as PP; change (glue_letters (d_letters L) (d_letters R)) with p in PP; lia).
    assert (Slots : forall f t c f' t' c', In (f, t, c) all -> In (f', t', c') all -> slot s0 f c = slot s0 f' c' -> f = f' /\ c = c').
    { intros f t c f' t' c' H1 H2 Q. apply CI in H1 as (_ & k1 & _ & _ & H1 & _). apply CI in H2 as (_ & k2 & _ & _ & H2 & _).
      destruct (slot_inj s0 _ _ _ _ LT0 NP0 Q) as [-> Q2]. split; auto. destruct (LL _ _ H1) as (_ & R1 & Q1). destruct (LL _ _ H2) as (_ & R2 & Q3).
      rewrite S2, (CLS c c R1), (CLS c' c' R2) in Q2. apply Nat2N.inj in Q2. apply (part_list_in p _ _ Wp) in H1 as [m1 H1]. apply (part_list_in p _ _ Wp) in H2 as [m2 H2].
      assert (k1 = k2) by congruence. clear Q1 Q3. subst k2. apply (wp_inj _ Wp c c' k1 m1 m2); auto. }
    assert (FI : fill_inv l r states K s0 [] (mkG s0 [] [1])).
    { unfold fill_inv. cbn [g_acts g_sc g_map length]. splits; auto; try lia. - intros rs is v []. - intros f t c st rs is []. }
    pose proof (fill_all l r states K s0 all Keys Slots Small all [] (mkG s0 [] [1]) (incl_refl _) (incl_nil_l _) ltac:(cbn [length]; lia) FI g E2) as FA.
    destruct FA as (A1 & A2 & A3 & A4 & A5 & A6). rewrite app_nil_r in A2, A6. rewrite rev_length in A2.
    assert (LG : N.of_nat (length (g_acts g)) < two32) by lia.
    assert (AC : n_acts (n_copy b2 (n_success g)) = Some (upd 0 (fun _ => N.of_nat (length (g_acts g)) mod two32) (g_acts g))).
    { cbn [n_copy n_success n_acts option_map]. f_equal. destruct (g_acts g) as [|x xs] eqn:GE; [cbn in A1; lia|]. cbn [upd hd]. rewrite (N.mod_small _ _ LG). rewrite Nat2N.id.
      apply firstn_all2. cbn [length]. lia. }
    split; [|intros q Q; rewrite AC in Q; injection Q as <-; destruct (g_acts g) as [|x xs] eqn:GE; [cbn in A1; lia|]; cbn [upd hd]; rewrite (N.mod_small _ _ LG), Nat2N.id; split; [discriminate|reflexivity]].
    intros i st c Hi Hc. destruct (All c Hc) as [c' Rc]. pose proof (part_rep_rep _ _ _ Wp Rc) as R'.
    assert (Hc' : letter c') by (apply (wp_range _ Wp _ _ R')).
    assert (Vs : V st) by (apply GV; eapply nth_error_In; eauto).
    destruct (key_ok st c' Vs Hc') as (x & y & r1 & i1 & r2 & i2 & _ & _ & _ & _ & K1 & K2 & K3 & K4 & K5).
    assert (J0 : exists t, In (i, t, c') all).
    { assert (RD : In (nx st c') states).
      { apply (det_good_all _ init nx (fun _ => true) ls max states tr G). apply (part_list_rep p c' Wp) in R' as [k R'].
        eapply dreach_next; eauto. apply (dg_reach _ _ _ _ _ _ _ _ _ G). eapply nth_error_In; eauto. }
      apply In_nth_error in RD as [t RD]. exists t. apply CI. apply (part_list_rep p c' Wp) in R' as [k R']. exists st, k. splits; auto. }
    destruct J0 as [t J0]. destruct (A6 i t c' st _ _ (proj1 (in_rev _ _) J0) Hi K5) as (sh & a & B1 & B2). exists sh, a. do 2 eexists. split; [|split; [rewrite (key_class st c c' Hc Rc); exact K5|]].
    - cbn [n_copy n_success n_base]. rewrite CP. unfold slot. cbn [d_nletters d_letters d_jumps]. rewrite A3, A4, S1, S2.
      rewrite <- B1. f_equal. unfold slot. rewrite S1, S2. rewrite (CLS c c' Rc), (CLS c' c' R').
      replace (cls_of p c') with (cls_of p c); [reflexivity|]. unfold cls_of, part_index. unfold part_rep in Rc, R'. rewrite Rc, R'. reflexivity.
    - unfold reads. rewrite AC. apply dec_upd. exact B2.
  Qed.

  Theorem n_glue_cases : forall null maxSize, max = dlimit maxSize -> max + 1 < two32 -> exists s, n_glue b1 b2 null l r maxSize = Ok s /\
    ((exists states, ng_as s states /\ ~ many (n_base l) (n_base r) (max + 2)) \/ s = null /\ many (n_base l) (n_base r) (max + 2)).
  Proof.
    intros null maxSize M0 M. unfold n_glue. fold (dlimit maxSize). rewrite <- M0. fold p ls init. pose proof (proj1 Pl) as Pl'. pose proof (proj1 Pr) as Pr'.
    assert (MN : max <> 0) by (rewrite M0; unfold dlimit; destruct (N.eqb_spec maxSize 0); [discriminate|auto]).
    assert (Nx : forall s c i, V s -> In (c, i) ls -> dglue_next (n_base l) (n_base r) s c = Ok (nx s c) /\ V (nx s c)).
    { intros s c i Vs H0. destruct (dls_letter L R c i H0) as [Hc _]. destruct (pair_step L R Tl Tr Pl' Pr' s c Vs Hc) as (x & y & _ & _ & V1 & _ & _ & E). split; [|exact V1].
      rewrite <- strip_glue_next. exact E. }
    rewrite (detm_run_eq _ pair_eqb (dglue_next (n_base l) (n_base r)) nx ls V Nx init max (dinit_V L R Tl Tr)). cbn [bind].
    destruct (dls_facts L R) as [LI LN].
    pose proof (det_run_ok _ pair_eqb init nx (fun _ => true) ls pair_eqb_ok LN LI max) as D.
    destruct (det_run pair_eqb init nx (fun _ => true) ls max) as [states tr| |] eqn:ED.
    - destruct D as [G SZ].
      assert (TR : map fst tr = seq 0 (length states)) by (unfold det_run in ED; eapply det_loop_order; eauto; cbn [length]; lia).
      destruct (n_accept_ok states tr ltac:(lia) G TR) as (s & E & A). exists s. split; [exact E|]. left. exists states. split; auto.
      intros MY. apply strip_many in MY. fold L R in MY. destruct MY as (Q & ND & QL & HQ). pose proof (proj1 A) as GA. assert (I : incl Q states).
      { intros [a b] H0. apply HQ in H0 as (w & Hw & H1 & H2). destruct (run2_ok L R Tl Tr Pl' Pr' w init (dinit_V L R Tl Tr) Hw) as [R1 R2]. unfold init in R1, R2. cbn [fst snd] in R1, R2.
        unfold L in H1. unfold R in H2. cbn [strip d_initial] in H1, H2. fold L in H1. fold R in H2. rewrite H1 in R1. rewrite H2 in R2. apply ok_inj in R1, R2. fold init in R1, R2. replace (a, b) with (run2 L R init w); [|rewrite R1, R2; apply surjective_pairing].
        apply (run2_in L R (strip (n_base s)) states GA); auto. destruct GA as (_ & _ & _ & _ & _ & _ & N0 & _). eapply nth_error_In; exact N0. }
      pose proof (NoDup_incl_length ND I). lia.
    - exists null. split; auto. right. split; auto. apply strip_many. fold L R. destruct D as (Q & D1 & D2 & D3). exists Q. splits; auto. intros a b H0.
      destruct (dreach_run2 L R _ (D3 _ H0)) as (w & Hw & E). exists w. destruct (run2_ok L R Tl Tr Pl' Pr' w init (dinit_V L R Tl Tr) Hw) as [R1 R2]. unfold L, R in E. cbn [strip d_initial] in E. fold L R init in E. rewrite E in R1, R2. auto.
    - destruct D.
  Qed.
End Glue.
