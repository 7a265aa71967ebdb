(** Import, concatenation, union, repetition, reversal. *)
From Coq Require Import List Bool Arith NArith Lia Sorting.
From Verif Require Import Util Spec PartitionModel PartitionProofs FsmModel Nfa NfaOps FsmSem FsmBasics FsmOps.
Import ListNotations.

(** ** Expanding letter classes *)
Definition rep_or_self (p : partition) (c : N) : N := match part_rep p c with Some r => r | None => c end.

Section Expand.
  Definition exp_inner (rep : N) (tg : list nat) (ms : list N) (r : row) : row :=
    fold_left (fun r c => if N.eqb c rep then r else minsert c tg r) ms r.

  Lemma exp_inner_find : forall rep tg ms r c,
    mfind c (exp_inner rep tg ms r) =
    match mfind c r with
    | Some s => Some s
    | None => if smem c ms && negb (N.eqb c rep) then Some tg else None
    end.
  Proof.
    unfold exp_inner. induction ms as [|x ms IH]; intros r c; cbn [fold_left smem].
    - destruct (mfind c r); auto.
    - rewrite IH. destruct (N.eqb_spec x rep) as [->|Hne].
      + destruct (mfind c r); auto. destruct (keqb_spec c rep) as [->|]; cbn; auto.
        rewrite N.eqb_refl. rewrite !andb_false_r. auto.
      + rewrite mfind_minsert. destruct (keqb_spec c x) as [->|Hcx].
        * destruct (mfind x r); auto. cbn. destruct (N.eqb_spec x rep); [congruence|]. reflexivity.
        * destruct (mfind c r); auto.
  Qed.

  Lemma exp_inner_sorted : forall rep tg ms r, msorted r -> msorted (exp_inner rep tg ms r).
  Proof.
    unfold exp_inner. induction ms as [|x ms IH]; intros r H; cbn; auto. apply IH.
    destruct (N.eqb x rep); auto. apply minsert_sorted; auto.
  Qed.

  Definition exp_step (r : row) (e : N * (nat * list N)) : row :=
    let '(rep, (_, ms)) := e in
    match mfind rep r with None => r | Some tg => exp_inner rep tg ms r end.

  Lemma expand_row_eq : forall p r, expand_row p r = fold_left exp_step (pset p) r.
  Proof. reflexivity. Qed.

  Lemma exp_fold : forall l r,
    NoDup (map fst l) ->
    (forall rep i ms rep' i' ms' c, In (rep, (i, ms)) l -> In (rep', (i', ms')) l -> In c ms -> In c ms' -> rep = rep') ->
    (forall rep i ms, In (rep, (i, ms)) l -> In rep ms) ->
    let r' := fold_left exp_step l r in
    (forall c s, mfind c r = Some s -> mfind c r' = Some s) /\
    (forall c rep i ms, mfind c r = None -> In (rep, (i, ms)) l -> In c ms -> c <> rep -> mfind c r' = mfind rep r) /\
    (forall c, mfind c r = None -> (forall rep i ms, In (rep, (i, ms)) l -> In c ms -> c = rep) -> mfind c r' = None).
  Proof.
    induction l as [|[rep0 [i0 ms0]] l IH]; intros r ND HD HS; cbn [fold_left].
    - splits; auto. cbn; tauto.
    - inversion ND as [|? ? ND1 ND2]; subst.
      destruct (IH (exp_step r (rep0, (i0, ms0)))) as [A [B C]]; clear IH; auto.
      { intros. eapply HD; try (right; eassumption); eauto. }
      { intros. eapply HS; right; eauto. }
      assert (X : forall c, mfind c (exp_step r (rep0, (i0, ms0))) =
        match mfind c r with Some s => Some s | None =>
          if smem c ms0 && negb (N.eqb c rep0) then mfind rep0 r else None end).
      { intros c. cbn [exp_step]. destruct (mfind rep0 r) as [tg|] eqn:F.
        - apply exp_inner_find.
        - destruct (mfind c r); auto. destruct (smem c ms0 && negb (N.eqb c rep0)); auto. }
      splits.
      + intros c s H. apply A. rewrite X, H. auto.
      + intros c rep i ms H Hin Hc Hne. destruct Hin as [[= -> -> ->]|Hin].
        * assert (Y : mfind c (exp_step r (rep, (i, ms))) = mfind rep r).
          { rewrite X, H. apply smem_in in Hc. rewrite Hc. apply N.eqb_neq in Hne. rewrite Hne. reflexivity. }
          destruct (mfind rep r) as [s|] eqn:F; [apply A; auto|].
          apply C; auto. intros rep' i' ms' Hin' Hc'. assert (rep = rep').
          { eapply HD; [left; reflexivity|right; exact Hin'|exact Hc|exact Hc']. }
          subst rep'. exfalso. apply ND1. apply in_map_iff. exists (rep, (i', ms')); auto.
        * assert (Hr0 : rep <> rep0).
          { intros ->. apply ND1. apply in_map_iff. exists (rep0, (i, ms)); auto. }
          assert (Hc0 : smem c ms0 = false).
          { apply smem_false. intros Hc0. apply Hr0. eapply HD; [right; exact Hin|left; reflexivity|exact Hc|exact Hc0]. }
          rewrite (B c rep i ms); auto.
          -- rewrite X. destruct (mfind rep r); auto.
             assert (Hrep : smem rep ms0 = false).
             { apply smem_false. intros Hc1. apply Hr0. eapply HD; [right; exact Hin|left; reflexivity|eapply HS; right; exact Hin|exact Hc1]. }
             rewrite Hrep. auto.
          -- rewrite X, H, Hc0. auto.
      + intros c H Hno. apply C.
        * rewrite X, H. destruct (smem c ms0 && negb (N.eqb c rep0)) eqn:Y; auto.
          apply andb_true_iff in Y as [Y1 Y2]. apply smem_in in Y1.
          rewrite (Hno rep0 i0 ms0) in Y2; [|left; auto|auto]. rewrite N.eqb_refl in Y2. discriminate.
        * intros. eapply Hno; [right|]; eauto.
  Qed.

  Lemma pset_classes : forall p, wf_part p ->
    NoDup (map fst (pset p)) /\
    (forall rep i ms rep' i' ms' c, In (rep, (i, ms)) (pset p) -> In (rep', (i', ms')) (pset p) -> In c ms -> In c ms' -> rep = rep') /\
    (forall rep i ms, In (rep, (i, ms)) (pset p) -> In rep ms) /\
    (forall c rep i ms, In (rep, (i, ms)) (pset p) -> In c ms -> part_rep p c = Some rep) /\
    (forall c rep, part_rep p c = Some rep -> exists i ms, In (rep, (i, ms)) (pset p) /\ In c ms).
  Proof.
    intros p W.
    assert (X : forall c rep i ms, In (rep, (i, ms)) (pset p) -> In c ms -> part_rep p c = Some rep).
    { intros c rep i ms H Hc. apply msorted_find in H; [|apply W]. apply (wp_inv _ W). eauto. }
    split; [|split; [|split; [|split]]]; auto.
    - pose proof (wp_ssorted _ W) as S. clear X. induction S as [|a l S IH F]; cbn; constructor; auto.
      rewrite Forall_forall in F. intros Hin. apply in_map_iff in Hin as [b [Eb Hb]]. apply F in Hb.
      rewrite Eb in Hb. apply N.ltb_lt in Hb. lia.
    - intros. assert (Some rep = Some rep') by (erewrite <- (X c rep), <- (X c rep'); eauto). congruence.
    - intros rep i ms H. apply msorted_find in H; [|apply W]. eapply wp_self; eauto.
    - intros c rep H. apply (wp_inv _ W) in H as [i [ms [H1 H2]]]. apply mfind_in in H1. eauto.
  Qed.

  Lemma expand_row_find : forall p r c, wf_part p ->
    mfind c (expand_row p r) =
    match mfind c r with
    | Some s => Some s
    | None => match part_rep p c with Some rep => mfind rep r | None => None end
    end.
  Proof.
    intros p r c W. rewrite expand_row_eq. destruct (pset_classes p W) as [P1 [P2 [P3 [P4 P5]]]].
    destruct (exp_fold (pset p) r P1 P2 P3) as [A [B C]].
    destruct (mfind c r) as [s|] eqn:F; [apply A; auto|].
    destruct (part_rep p c) as [rep|] eqn:R.
    - destruct (N.eq_dec c rep) as [->|Hne].
      + rewrite F. apply C; auto. intros rep' i ms H1 H2. apply (P4 _ _ _ _ H1) in H2. congruence.
      + destruct (P5 _ _ R) as [i [ms [H1 H2]]]. eapply B; eauto.
    - apply C; auto. intros rep i ms H1 H2. apply (P4 _ _ _ _ H1) in H2. congruence.
  Qed.

  Lemma expand_row_ok : forall p n r, wf_part p -> row_ok n r -> row_ok n (expand_row p r).
  Proof.
    intros p n r W [A B]. split.
    - rewrite expand_row_eq. revert r A B. induction (pset p) as [|[rep [i ms]] l IH]; intros r A B; cbn [fold_left]; auto.
      assert (S : msorted (exp_step r (rep, (i, ms)))).
      { cbn. destruct (mfind rep r); auto. apply exp_inner_sorted; auto. }
      clear B. revert S. generalize (exp_step r (rep, (i, ms))). clear -IH.
      intros r S. clear IH. revert r S. induction l as [|[rep' [i' ms']] l IH]; intros r S; cbn [fold_left]; auto.
      apply IH. cbn. destruct (mfind rep' r); auto. apply exp_inner_sorted; auto.
    - intros c s. rewrite expand_row_find by auto. destruct (mfind c r) eqn:F; [intros [= <-]; eauto|].
      destruct (part_rep p c) eqn:R; [|discriminate]. intros H. destruct (B _ _ H) as [X Y]. split; auto.
      apply (wp_range _ W) in R. tauto.
  Qed.

  Lemma expand_row_get : forall p r c q, wf_part p ->
    (forall rep, part_rep p c = Some rep -> mfind c r <> None -> (In q (row_get r c) <-> In q (row_get r rep))) ->
    (In q (row_get (expand_row p r) c) <-> In q (row_get r (rep_or_self p c))).
  Proof.
    intros p r c q W H. unfold row_get at 1. rewrite expand_row_find by auto. unfold rep_or_self.
    destruct (part_rep p c) as [rep|] eqn:R.
    - destruct (mfind c r) as [s|] eqn:F.
      + rewrite <- H; auto; [|congruence]. unfold row_get. rewrite F. tauto.
      + tauto.
    - unfold row_get; destruct (mfind c r); tauto.
  Qed.
End Expand.

(** ** Import *)
Definition shifted (f rhs : fsm) (p : nat) (c : N) (q : nat) : Prop :=
  exists p' q', p = p' + size f /\ q = q' + size f /\ edge rhs p' c q'.

Record imported (f rhs g : fsm) : Prop := {
  im_size : size g = size f + size rhs;
  im_init : initial g = initial f;
  im_fin : finals g = finals f;
  im_let : letters g = part_empty;
  im_raw : forall p c q, raw g p c q <-> edge f p c q \/ shifted f rhs p c q;
  im_alt : isAlt g = isAlt f;
  im_rows : rows_ok g
}.

Lemma nth_map_nil : forall (h : row -> row) l p, h [] = [] -> nth p (map h l) [] = h (nth p l []).
Proof. intros h l p H. rewrite <- H at 1. apply map_nth. Qed.

Lemma expand_row_nil : forall p, expand_row p [] = [].
Proof. intros p. unfold expand_row. induction (pset p) as [|[rep [i ms]] l IH]; cbn; auto. Qed.

Lemma row_get_shift : forall k r c, row_get (shift_row k r) c = map (fun q => q + k) (row_get r c).
Proof. intros k r c. unfold row_get, shift_row. rewrite mfind_mmap. destruct (mfind c r); reflexivity. Qed.

Lemma map_shift_sorted : forall k s, ssorted s -> ssorted (map (fun q => q + k) s).
Proof.
  intros k s H; induction H as [|a s H IH F]; cbn [map]; constructor; auto.
  apply Forall_forall. intros b Hb. apply in_map_iff in Hb as [x [<- Hx]].
  rewrite Forall_forall in F. apply F in Hx. apply Nat.ltb_lt in Hx. apply Nat.ltb_lt. lia.
Qed.

Lemma shift_row_ok : forall k n r, row_ok n r -> row_ok (k + n) (shift_row k r).
Proof.
  intros k n r [A B]. split; [apply mmap_sorted; auto|]. intros c s. unfold shift_row. rewrite mfind_mmap.
  destruct (mfind c r) as [s0|] eqn:F; [|discriminate]. intros [= <-]. destruct (B _ _ F) as [X [Y Z]].
  split; auto. split; [apply map_shift_sorted; auto|]. intros q Hq. apply in_map_iff in Hq as [x [<- Hx]].
  apply Z in Hx. lia.
Qed.

Lemma row_at_import_own : forall f rhs p, p < size f -> row_at (import_fsm f rhs) p = expand_row (letters f) (row_at f p).
Proof.
  intros f rhs p H. unfold row_at, import_fsm; cbn [trans]. rewrite app_nth1 by (rewrite map_length; auto).
  apply nth_map_nil. apply expand_row_nil.
Qed.
Lemma row_at_import_foreign : forall f rhs p, size f <= p ->
  row_at (import_fsm f rhs) p = expand_row (letters rhs) (shift_row (size f) (row_at rhs (p - size f))).
Proof.
  intros f rhs p H. unfold row_at, import_fsm; cbn [trans]. rewrite app_nth2 by (rewrite map_length; auto).
  rewrite map_length.
  rewrite (nth_map_nil (fun r => expand_row (letters rhs) (shift_row (size f) r))); auto.
  cbn. apply expand_row_nil.
Qed.

Lemma import_ok : forall f rhs, wf f -> wf rhs -> imported f rhs (import_fsm f rhs).
Proof.
  intros f rhs W1 W2. constructor; try reflexivity.
  - unfold size; cbn. rewrite app_length, !map_length. reflexivity.
  - intros p c q. unfold raw. destruct (lt_dec p (size f)) as [Hp|Hp].
    + rewrite row_at_import_own by auto. rewrite expand_row_get.
      * split; [left; auto|]. intros [H|[p' [q' [-> _]]]]; [auto|lia].
      * apply W1.
      * intros rep Hr Hpr. apply (wf_coh _ W1 p c rep Hr Hpr).
    + rewrite row_at_import_foreign by lia. rewrite expand_row_get.
      * rewrite row_get_shift, in_map_iff. split.
        -- intros [x [<- Hx]]. right. exists (p - size f), x. splits; auto; lia.
        -- intros [H|[p' [q' [-> [-> H]]]]]; [apply edge_bound in H; auto; lia|].
           replace (p' + size f - size f) with p' by lia. exists q'. split; auto.
      * apply W2.
      * intros rep Hr Hpr. rewrite !row_get_shift, !in_map_iff.
        assert (Hpr' : pres rhs (p - size f) c).
        { unfold pres, shift_row in *. rewrite mfind_mmap in Hpr. destruct (mfind c (row_at rhs (p - size f))); cbn in *; congruence. }
        split; intros [x [<- Hx]]; exists x; split; auto; apply (wf_coh _ W2 (p - size f) c rep Hr Hpr'); auto.
  - intros p. assert (Es : size (import_fsm f rhs) = size f + size rhs) by (unfold size; cbn; rewrite app_length, !map_length; reflexivity).
    rewrite Es. destruct (lt_dec p (size f)) as [Hp|Hp].
    + rewrite row_at_import_own by auto. apply row_ok_mono with (size f); [lia|]. apply expand_row_ok; apply W1.
    + rewrite row_at_import_foreign by lia. apply expand_row_ok; [apply W2|]. apply shift_row_ok, W2.
Qed.

(** ** Concatenation *)
Lemma row_at_in : forall f p c q, rows_ok f ->
  (raw f p c q <-> exists tos, In (c, tos) (row_at f p) /\ In q tos).
Proof.
  intros f p c q W. unfold raw, row_get. destruct (W p) as [S _]. split.
  - destruct (mfind c (row_at f p)) as [s|] eqn:F; [|intros []]. intros H. exists s; split; auto. apply mfind_in; auto.
  - intros [tos [H1 H2]]. apply (msorted_find S) in H1. rewrite H1; auto.
Qed.

Lemma fold_set_final_in : forall n l g, 
  let g' := fold_left (fun g q => set_final g (q + n) true) l g in
  (forall x, In x (finals g') <-> In x (finals g) \/ exists q, In q l /\ x = q + n) /\
  (ssorted (finals g) -> ssorted (finals g')) /\
  trans g' = trans g /\ letters g' = letters g /\ initial g' = initial g /\ isAlt g' = isAlt g.
Proof.
  induction l as [|a l IH]; intros g; cbn [fold_left].
  - repeat split; auto. intros [H|[q [[] _]]]; auto.
  - destruct (IH (set_final g (a + n) true)) as [A [B [C [D [E F]]]]]. repeat split; auto.
    + intros H. apply A in H as [H|[q [H1 H2]]].
      * cbn in H. apply sadd_in in H as [->|H]; auto. right. exists a; split; auto. left; auto.
      * right. exists q; split; auto. right; auto.
    + intros H. apply A. cbn. rewrite sadd_in. destruct H as [H|[q [[->|H1] H2]]]; auto. right; eauto.
    + intros H. apply B. cbn. apply sadd_sorted; auto.
Qed.

Lemma cat_structure : forall f rhs, wf f -> wf rhs ->
  let g := fsm_cat f rhs in
  size g = size f + size rhs /\ initial g = initial f /\ letters g = part_empty /\ isAlt g = false /\
  rows_ok g /\ ssorted (finals g) /\ determined g = false /\
  (forall x, In x (finals g) <-> exists q, In q (finals rhs) /\ x = q + size f) /\
  (forall p c q, raw g p c q <-> edge f p c q \/ shifted f rhs p c q \/
     (In p (finals f) /\ exists q', q = q' + size f /\ edge rhs (initial rhs) c q')).
Proof.
  intros f rhs W1 W2. pose proof (import_ok f rhs W1 W2) as I. unfold fsm_cat.
  set (f1 := import_fsm f rhs) in *. set (n := size f) in *.
  set (r := row_at f1 (n + initial rhs)).
  assert (A : adds f1 (fold_left (fun g '(c, tos) => fold_left (fun g to => connect_final g to c) tos g) r f1)
     (fun p c q => In p (finals f) /\ raw f1 (n + initial rhs) c q)).
  { eapply adds_ext.
    - apply adds_fold with (S := fun ct p c q => In p (finals f) /\ c = fst ct /\ In q (snd ct)).
      intros g [c tos] T Hct A. cbn [fst snd].
      assert (Hr : row_ok (size f1) r) by apply (im_rows _ _ _ I). destruct Hr as [Sr Br].
      apply (msorted_find Sr) in Hct. destruct (Br _ _ Hct) as [Hc [_ Hq]].
      eapply adds_ext.
      + apply adds_fold with (S := fun to p c' q => In p (finals f) /\ c' = c /\ q = to).
        intros g' to T' Hto A'.
        assert (Ef : finals g' = finals f) by (rewrite (ad_fin _ _ _ A'), (ad_fin _ _ _ A); apply (im_fin _ _ _ I)).
        assert (Eg : size g' = size f1) by (rewrite (ad_size _ _ _ A'), (ad_size _ _ _ A); auto).
        rewrite <- Ef. apply connect_final_adds; auto.
        * rewrite Ef, Eg, (im_size _ _ _ I). intros q Hf. apply (wf_fin _ W1) in Hf. lia.
        * rewrite Eg. auto.
      + cbn beta. intros p c' q. split.
        * intros [x [H1 [H2 [-> ->]]]]; auto.
        * intros [H1 [-> H2]]; eauto.
    - cbn beta. intros p c q. rewrite row_at_in by apply (im_rows _ _ _ I). split.
      + intros [[c' tos] [H1 [H2 [-> H3]]]]; eauto.
      + intros [H1 [tos [H2 H3]]]. exists (c, tos); auto. }
  set (f2 := fold_left _ r f1) in *. clearbody f2.
  set (f3 := set_outputs f2 _).
  destruct (fold_set_final_in n (finals rhs) (clear_final f3)) as [B1 [B2 [B3 [B4 [B5 B6]]]]].
  set (f4 := fold_left _ (finals rhs) (clear_final f3)) in *. cbv zeta.
  assert (Rw : forall p, row_at (clear_hints (set_determined f4 false)) p = row_at f2 p).
  { intros p. unfold row_at. cbn [clear_hints set_isAlt set_determined trans]. rewrite B3. reflexivity. }
  assert (Sz : size (clear_hints (set_determined f4 false)) = n + size rhs).
  { unfold size. cbn [clear_hints set_isAlt set_determined trans]. rewrite B3. change (size f2 = n + size rhs).
    rewrite (ad_size _ _ _ A). apply (im_size _ _ _ I). }
  assert (Ro : rows_ok (clear_hints (set_determined f4 false))).
  { intros p. rewrite Rw, Sz. pose proof (ad_rows _ _ _ A (im_rows _ _ _ I) p) as R.
    rewrite (ad_size _ _ _ A), (im_size _ _ _ I) in R. exact R. }
  splits; auto.
  - cbn. rewrite B5. cbn. rewrite (ad_init _ _ _ A). apply (im_init _ _ _ I).
  - cbn. rewrite B4. cbn. rewrite (ad_let _ _ _ A). apply (im_let _ _ _ I).
  - cbn. apply B2. constructor.
  - intros x. cbn. rewrite B1. cbn. tauto.
  - intros p c q. unfold raw at 1. rewrite Rw. split; intros H. { apply (ad_raw _ _ _ A) in H as [H|[H1 H2]].
    + apply (im_raw _ _ _ I) in H. tauto.
    + right; right. split; auto. apply (im_raw _ _ _ I) in H2 as [H2|[p' [q' [E1 [E2 H2]]]]].
      * apply edge_bound in H2; auto. lia.
      * exists q'. split; auto. assert (p' = initial rhs) by (unfold n in *; lia). subst; auto. }
    apply (ad_raw _ _ _ A). destruct H as [H|[H|[H1 [q' [-> H2]]]]].
    + left. apply (im_raw _ _ _ I). auto.
    + left. apply (im_raw _ _ _ I). auto.
    + right. split; auto. apply (im_raw _ _ _ I). right. exists (initial rhs), q'. splits; auto. unfold n; lia.
Qed.

Lemma raw_uncompressed : forall f p c q, letters f = part_empty -> (edge f p c q <-> raw f p c q).
Proof. intros f p c q H. rewrite edge_raw, erep_empty; auto. tauto. Qed.

Lemma fsm_cat_wf : forall f rhs, wf f -> wf rhs -> wf (fsm_cat f rhs) /\ uncompressed (fsm_cat f rhs).
Proof.
  intros f rhs W1 W2. destruct (cat_structure f rhs W1 W2) as [A [B [C [D [E [F [_ [G H]]]]]]]].
  split; [constructor|]; auto.
  - rewrite A, B. pose proof (wf_init _ W1); lia.
  - intros q Hq. apply G in Hq as [x [Hx ->]]. apply (wf_fin _ W2) in Hx. rewrite A. lia.
  - apply uncompressed_letters; auto.
  - apply uncompressed_coherent; auto.
  - apply uncompressed_bcoherent; auto.
  - intros X. rewrite D in X; discriminate.
Qed.

Section CatLang.
  Variables (f rhs : fsm).
  Hypothesis (W1 : wf f) (W2 : wf rhs).
  Lemma cat_edge : forall p c q, edge (fsm_cat f rhs) p c q <-> edge f p c q \/
     (exists p' q', p = p' + size f /\ q = q' + size f /\ edge rhs p' c q') \/
     (In p (finals f) /\ exists q', q = q' + size f /\ edge rhs (initial rhs) c q').
  Proof.
    destruct (cat_structure f rhs W1 W2) as [A [B [C [D [E [F [_ [G H]]]]]]]].
    intros p c q. rewrite raw_uncompressed by auto. apply H.
  Qed.
  Lemma cat_accepts : forall w, accepts (fsm_cat f rhs) w <->
    nfa_lang (edge (fsm_cat f rhs)) (initial f) (fun q => exists q', q = q' + size f /\ In q' (finals rhs)) w.
  Proof.
    destruct (cat_structure f rhs W1 W2) as [A [B [C [D [E [F [_ [G H]]]]]]]].
    intros w. rewrite accepts_nfa, B. split; intros [q [P Q]]; exists q; split; auto.
    - apply G in Q as [x [X Y]]; eauto.
    - destruct Q as [x [X Y]]. apply G; eauto.
  Qed.

  Lemma fsm_cat_sound : forall w, accepts (fsm_cat f rhs) w -> L_cat (accepts f) (accepts rhs) w.
  Proof.
    intros w H. apply cat_accepts in H.
    apply (nfa_cat_sound (edge f) (edge rhs) (edge (fsm_cat f rhs)) (size f) (initial f) (initial rhs)
             (fun q => In q (finals f)) (fun q => In q (finals rhs))) in H; auto; try apply W1.
    - intros p c q Hpq. eapply edge_bound; eauto.
    - apply cat_edge.
  Qed.
  Lemma fsm_cat_complete : forall u v, accepts f u -> accepts rhs v ->
    v <> [] \/ ~ In (initial rhs) (finals rhs) -> accepts (fsm_cat f rhs) (u ++ v).
  Proof.
    intros u v H1 H2 H3. apply cat_accepts.
    eapply (nfa_cat_complete (edge f) (edge rhs) (edge (fsm_cat f rhs)) (size f) (initial f) (initial rhs)
             (fun q => In q (finals f)) (fun q => In q (finals rhs))); eauto.
    apply cat_edge.
  Qed.
  Lemma fsm_cat_lang : ~ In (initial rhs) (finals rhs) ->
    lang_eq (accepts (fsm_cat f rhs)) (L_cat (accepts f) (accepts rhs)).
  Proof.
    intros H w; split; [apply fsm_cat_sound|]. intros [u [v [-> [A B]]]]. apply fsm_cat_complete; auto.
  Qed.
End CatLang.

(** ** Repetition *)
Lemma fsm_times_loop_ok : forall f n ret, wf f -> wf ret -> ~ In (initial f) (finals f) -> uncompressed ret ->
  wf (fsm_times_loop f n ret) /\ uncompressed (fsm_times_loop f n ret) /\
  lang_eq (accepts (fsm_times_loop f n ret)) (L_cat (accepts ret) (L_pow (accepts f) n)).
Proof.
  intros f n; induction n as [|n IH]; intros ret W WR H U; cbn [fsm_times_loop].
  - split; [auto|split; [auto|]]. apply lang_eq_sym, L_cat_eps_r.
  - destruct (fsm_cat_wf ret f WR W) as [WC UC]. destruct (IH _ W WC H UC) as [A [B C]].
    split; [auto|split; [auto|]]. eapply lang_eq_trans; [exact C|].
    eapply lang_eq_trans; [apply L_cat_ext; [apply fsm_cat_lang; auto|apply lang_eq_refl]|].
    eapply lang_eq_trans; [apply L_cat_assoc|]. apply L_cat_ext; [apply lang_eq_refl|]. apply L_pow_shift.
Qed.

Lemma fsm_times_ok : forall f n, wf f -> ~ In (initial f) (finals f) ->
  wf (fsm_times f n) /\ uncompressed (fsm_times f n) /\
  lang_eq (accepts (fsm_times f n)) (L_pow (accepts f) n).
Proof.
  intros f n W H. unfold fsm_times. destruct (fsm_times_loop_ok f n fsm_new W fsm_new_wf H eq_refl) as [A [B C]].
  split; [auto|split; [auto|]]. eapply lang_eq_trans; [exact C|].
  eapply lang_eq_trans; [apply L_cat_ext; [apply fsm_new_lang|apply lang_eq_refl]|]. apply L_cat_eps_l.
Qed.

(** ** Union *)
Lemma disconnect_raw : forall f a b c, rows_ok f ->
  let g := disconnect f a b c in
  size g = size f /\ initial g = initial f /\ finals g = finals f /\ letters g = letters f /\
  rows_ok g /\
  forall p c' q, raw g p c' q <-> raw f p c' q /\ ~ (p = a /\ c' = c /\ q = b).
Proof.
  intros f a b c W. cbv zeta.
  assert (Rw : forall p, row_at (disconnect f a b c) p = if Nat.eqb p a && (a <? size f) then row_disconnect b c (row_at f p) else row_at f p).
  { intros p. unfold row_at, disconnect; cbn. apply nth_upd. }
  assert (Sz : size (disconnect f a b c) = size f) by (unfold size; cbn; apply upd_length).
  assert (Ro : rows_ok (disconnect f a b c)).
  { intros p. rewrite Rw, Sz. destruct (W p) as [S B]. destruct (_ && _); [|split; auto]. unfold row_disconnect.
    destruct (mfind c (row_at f p)) eqn:F0; [|split; auto]. split; [apply mset_sorted; auto|].
    intros c0 s0. rewrite mfind_mset. destruct (keqb_spec c0 c) as [->|]; [|apply B]. intros [= <-].
    destruct (B _ _ F0) as [X [Y Z]]. split; auto. split; [apply sremove_sorted; auto|].
    intros q Hq. apply sremove_in in Hq. apply Z; tauto. }
  splits; auto. intros p c' q. split; [intros H; split|].
  - revert H. unfold raw. rewrite Rw. destruct (_ && _); auto. unfold row_disconnect, row_get.
    destruct (mfind c (row_at f p)) eqn:F0; auto. rewrite mfind_mset. destruct (keqb_spec c' c) as [->|]; auto.
    rewrite F0. intros H. apply sremove_in in H; tauto.
  - revert H. unfold raw. rewrite Rw. intros H [-> [-> ->]]. rewrite Nat.eqb_refl in H.
    destruct (Nat.ltb_spec a (size f)); cbn [andb] in H.
    + unfold row_disconnect, row_get in H. destruct (mfind c (row_at f a)) eqn:F0.
      * rewrite mfind_mset, keqb_refl in H. apply sremove_in in H; tauto.
      * rewrite F0 in H. destruct H.
    + rewrite row_at_out in H by auto. destruct H.
  - intros [H Hne]. revert H. unfold raw. rewrite Rw. destruct (Nat.eqb_spec p a) as [->|]; auto.
    destruct (a <? size f); auto. cbn [andb]. unfold row_disconnect, row_get.
    destruct (mfind c (row_at f a)) eqn:F0; auto. rewrite mfind_mset. destruct (keqb_spec c' c) as [->|]; auto.
    rewrite F0. intros H. apply sremove_in. split; auto.
Qed.

Lemma sadd_shift_fold : forall n l s x, In x (fold_left (fun s q => sadd (q + n) s) l s) <-> In x s \/ exists q, In q l /\ x = q + n.
Proof.
  induction l as [|a l IH]; intros s x; cbn [fold_left].
  - split; auto. intros [H|[q [[] _]]]; auto.
  - rewrite IH, sadd_in. split.
    + intros [[->|H]|[q [H1 H2]]]; auto; right; [exists a|exists q]; split; auto; [left|right]; auto.
    + intros [H|[q [[->|H1] H2]]]; auto. right; eauto.
Qed.
Lemma sadd_shift_fold_sorted : forall n l (s : list nat), ssorted s -> ssorted (fold_left (fun s q => sadd (q + n) s) l s).
Proof. induction l as [|a l IH]; intros s H; cbn; auto. apply IH, sadd_sorted; auto. Qed.

(** moving the fan of the second initial state *)
Lemma move_fan : forall n i1 i2 tos f, rows_ok f -> i1 < size f -> (forall t, In t tos -> t + n < size f) -> i1 <> i2 + n ->
  let g := fold_left (fun g to => disconnect (connect g (initial g) (to + n) Epsilon) (i2 + n) (to + n) Epsilon) tos f in
  initial f = i1 ->
  size g = size f /\ initial g = initial f /\ finals g = finals f /\ letters g = letters f /\ rows_ok g /\
  forall p c q, raw g p c q <->
    (raw f p c q /\ ~ (p = i2 + n /\ c = Epsilon /\ exists t, In t tos /\ q = t + n)) \/
    (p = i1 /\ c = Epsilon /\ exists t, In t tos /\ q = t + n).
Proof.
  induction tos as [|t tos IH]; intros f W Hi Ht Hne; cbn [fold_left]; intros Ei.
  - splits; auto. intros p c q. split.
    + intros H; left; split; auto. intros [_ [_ [t [[] _]]]].
    + intros [[H _]|[_ [_ [t [[] _]]]]]; auto.
  - assert (A : adds f (connect f (initial f) (t + n) Epsilon) (fun p c q => p = initial f /\ c = Epsilon /\ q = t + n)).
    { apply connect_adds; [lia|apply Ht; left; auto|reflexivity]. }
    pose proof (ad_rows _ _ _ A W) as W'.
    destruct (disconnect_raw _ (i2 + n) (t + n) Epsilon W') as [B1 [B2 [B3 [B4 [B5 B6]]]]].
    set (f' := disconnect _ (i2 + n) (t + n) Epsilon) in *.
    assert (Sz : size f' = size f) by (rewrite B1; apply (ad_size _ _ _ A)).
    assert (In' : initial f' = i1) by (rewrite B2, (ad_init _ _ _ A); auto).
    destruct (IH f' B5) as [C1 [C2 [C3 [C4 [C5 C6]]]]]; auto.
    { lia. }
    { intros x Hx. rewrite Sz. apply Ht. right; auto. }
    split; [lia|]. split; [congruence|]. split; [rewrite C3, B3; apply (ad_fin _ _ _ A)|].
    split; [rewrite C4, B4; apply (ad_let _ _ _ A)|]. split; [auto|].
    intros p c q. rewrite C6, B6, (ad_raw _ _ _ A), Ei. split.
    + intros [[[[H|[-> [-> ->]]] H1] H2]|[H1 [H2 [x [H3 H4]]]]].
      * left. split; auto. intros [E1 [E2 [x [[<-|Hx] E3]]]]; [apply H1; auto|apply H2; eauto].
      * right. splits; auto. exists t; split; auto. left; auto.
      * right. splits; auto. exists x; split; auto. right; auto.
    + intros [[H H1]|[-> [-> [x [[<-|Hx] ->]]]]].
      * left. split; [split; auto|].
        -- intros [E1 [E2 E3]]. apply H1. splits; auto. exists t; split; auto. left; auto.
        -- intros [E1 [E2 [x [E3 E4]]]]. apply H1. splits; auto. exists x; split; auto. right; auto.
      * destruct (in_dec Nat.eq_dec t tos) as [Hin|Hnin].
        -- right. eauto 6.
        -- left. split; [split; [right; auto|intros [E1 _]; congruence]|intros [E1 _]; congruence].
      * right. eauto 6.
Qed.

Lemma alt_edge_in : forall f, wf f -> isAlt f = true -> forall p c, ~ edge f p c (initial f).
Proof. intros f W H p c E. destruct (wf_alt _ W H) as [A _]. eapply A; exact E. Qed.
Lemma alt_edge_out : forall f, wf f -> isAlt f = true -> forall c q, edge f (initial f) c q -> c = Epsilon.
Proof.
  intros f W H c q E. destruct (wf_alt _ W H) as [_ [_ A]]. apply A in E. unfold erep in E.
  destruct (part_rep (letters f) c) eqn:R; auto. apply part_rep_not_eps in R; [tauto|apply W].
Qed.

Lemma fsm_or_ok : forall f rhs, wf f -> wf rhs ->
  wf (fsm_or f rhs) /\ uncompressed (fsm_or f rhs) /\
  lang_eq (accepts (fsm_or f rhs)) (L_or (accepts f) (accepts rhs)).
Proof.
  intros f rhs W1 W2. pose proof (import_ok f rhs W1 W2) as I. unfold fsm_or.
  pose proof (wf_init _ W1) as I1. pose proof (wf_init _ W2) as I2.
  set (n := size f) in *. set (f1 := import_fsm f rhs) in *.
  set (f2 := set_finals f1 (fold_left (fun s q => sadd (q + n) s) (finals rhs) (finals f1))).
  assert (R2 : forall p c q, raw f2 p c q <-> edge f p c q \/ shifted f rhs p c q) by apply (im_raw _ _ _ I).
  assert (S2 : size f2 = n + size rhs) by apply (im_size _ _ _ I).
  assert (L2 : letters f2 = part_empty) by apply (im_let _ _ _ I).
  assert (N2 : initial f2 = initial f) by apply (im_init _ _ _ I).
  assert (O2 : rows_ok f2) by apply (im_rows _ _ _ I).
  assert (F2 : forall x, In x (finals f2) <-> In x (finals f) \/ exists q', x = q' + n /\ In q' (finals rhs)).
  { intros x. change (finals f2) with (fold_left (fun s q => sadd (q + n) s) (finals rhs) (finals f1)).
    rewrite sadd_shift_fold, (im_fin _ _ _ I). split; (intros [H|[q [H1 H2]]]; [auto|right; eauto]). }
  assert (F2s : ssorted (finals f2)).
  { apply sadd_shift_fold_sorted. rewrite (im_fin _ _ _ I). apply W1. }
  assert (F2b : forall q, In q (finals f2) -> q < size f2).
  { intros q Hq. rewrite S2. apply F2 in Hq as [Hq|[x [-> Hq]]]; [apply (wf_fin _ W1) in Hq; unfold n; lia|apply (wf_fin _ W2) in Hq; lia]. }
  clearbody f2. clear I f1.
  assert (HB1 : forall p c q, edge f p c q -> p < n /\ q < n) by (intros; eapply edge_bound; eauto).
  assert (HB2 : forall p c q, edge rhs p c q -> p < size rhs /\ q < size rhs) by (intros; eapply edge_bound; eauto).
  (* conclusion from a structural description of the result *)
  assert (K : forall g s,
    initial g = s -> s < size g -> size f2 <= size g -> finals g = finals f2 -> letters g = part_empty -> rows_ok g ->
    (forall p c, ~ raw g p c s) -> ~ In s (finals f2) -> (forall c q, raw g s c q -> c = Epsilon) ->
    lang_eq (nfa_lang (raw g) s (fun q => In q (finals f) \/ exists q', q = q' + n /\ In q' (finals rhs))) (L_or (accepts f) (accepts rhs)) ->
    wf (set_isAlt (set_determined g false) true) /\ uncompressed (set_isAlt (set_determined g false) true) /\
    lang_eq (accepts (set_isAlt (set_determined g false) true)) (L_or (accepts f) (accepts rhs))).
  { intros g s Hs Hss Hsz Hf Hl Hr H1 H2 H3 HL. set (h := set_isAlt _ true).
    assert (Lh : letters h = part_empty) by exact Hl.
    split; [constructor|split].
    - change (initial h) with (initial g). rewrite Hs. exact Hss.
    - intros q Hq. change (In q (finals g)) in Hq. change (q < size g). rewrite Hf in Hq. apply F2b in Hq. lia.
    - change (ssorted (finals g)). rewrite Hf; auto.
    - exact Hr.
    - apply uncompressed_letters; auto.
    - apply uncompressed_coherent; auto.
    - apply uncompressed_bcoherent; auto.
    - intros _. change (initial h) with (initial g). change (finals h) with (finals g). rewrite Hs, Hf. auto.
    - exact Lh.
    - eapply lang_eq_trans; [|exact HL]. intros w. rewrite accepts_nfa. change (initial h) with (initial g).
      change (finals h) with (finals g). rewrite Hs, Hf. split; intros [q [P Q]]; exists q; split.
      + eapply path_ext; [|exact P]. intros; symmetry; apply (raw_uncompressed h); auto.
      + apply F2; auto.
      + eapply path_ext; [|exact P]. intros; apply (raw_uncompressed h); auto.
      + apply F2; auto. }
  destruct (isAlt f) eqn:AF, (isAlt rhs) eqn:AR; cbn [negb andb].
  - (* both alternatives *)
    destruct (wf_alt _ W1 AF) as [a1 [a2 a3]]. destruct (wf_alt _ W2 AR) as [b1 [b2 b3]].
    assert (HD : forall t, In t (destinations rhs (initial rhs) Epsilon) <-> edge rhs (initial rhs) Epsilon t).
    { intros t. rewrite edge_Epsilon by apply W2. unfold destinations, translate. rewrite N.eqb_refl, orb_true_r. reflexivity. }
    destruct (move_fan n (initial f) (initial rhs) (destinations rhs (initial rhs) Epsilon) f2) as [C1 [C2 [C3 [C4 [C5 C6]]]]]; auto.
    { rewrite S2; lia. }
    { intros t Ht. apply HD, HB2 in Ht. rewrite S2; lia. }
    { unfold n; lia. }
    set (g := fold_left _ _ f2) in *. clearbody g.
    apply (K g (initial f)); auto; try congruence; try lia.
    + intros p c H. apply C6 in H as [[H _]|[_ [_ [t [Ht E]]]]]; [|unfold n in *; lia].
      apply R2 in H as [H|[p' [q' [-> [E H]]]]]; [eapply (alt_edge_in f); eauto|fold n in E; lia].
    + rewrite F2. intros [H|[q' [E H]]]; [auto|lia].
    + intros c q H. apply C6 in H as [[H _]|[_ [-> _]]]; auto. apply R2 in H as [H|[p' [q' [E H]]]]; [|fold n in E; lia].
      first [exact (alt_edge_out f W1 AF _ _ H) | exact (alt_edge_out rhs W2 AR _ _ H)].
    + apply (nfa_union_both (edge f) (edge rhs) (raw g) n (initial f) (initial rhs) (fun q => In q (finals f)) (fun q => In q (finals rhs))); auto.
      * apply W1.
      * first [exact (alt_edge_in f W1 AF) | exact (alt_edge_in rhs W2 AR)].
      * first [exact (alt_edge_in f W1 AF) | exact (alt_edge_in rhs W2 AR)].
      * intros c q. apply (alt_edge_out rhs); auto.
      * intros p c q. rewrite C6, R2. setoid_rewrite HD. split.
        -- intros [[[H|H] H1]|H]; auto. right; left. split; auto.
           intros ->. destruct H as [p' [q' [E [-> H]]]]. fold n in E. assert (p' = initial rhs) by lia. subst p'.
           apply H1. splits; auto; [first [exact (alt_edge_out f W1 AF _ _ H) | exact (alt_edge_out rhs W2 AR _ _ H)]|]. exists q'. split; auto.
           assert (c = Epsilon) by (first [exact (alt_edge_out f W1 AF _ _ H) | exact (alt_edge_out rhs W2 AR _ _ H)]). subst; auto.
        -- intros [H|[[H H1]|H]]; auto.
           ++ left. split; auto. intros [-> _]. apply HB1 in H. lia.
           ++ left. split; [right; exact H|]. intros [E _]; auto.
  - (* left *)
    destruct (wf_alt _ W1 AF) as [a1 [a2 a3]]. rewrite N2.
    assert (A : adds f2 (connect f2 (initial f) (n + initial rhs) Epsilon) (fun p c q => p = initial f /\ c = Epsilon /\ q = n + initial rhs))
      by (apply connect_adds; [lia|lia|reflexivity]).
    set (g := connect f2 _ _ _) in *. clearbody g.
    apply (K g (initial f)).
    + rewrite (ad_init _ _ _ A); auto.
    + rewrite (ad_size _ _ _ A); lia.
    + rewrite (ad_size _ _ _ A); lia.
    + rewrite (ad_fin _ _ _ A); auto.
    + rewrite (ad_let _ _ _ A); auto.
    + apply (ad_rows _ _ _ A); auto.
    + intros p c H. apply (ad_raw _ _ _ A) in H as [H|[_ [_ H]]]; [|lia].
      apply R2 in H as [H|[p' [q' [-> [E H]]]]]; [eapply (alt_edge_in f); eauto|fold n in E; lia].
    + rewrite F2. intros [H|[q' [E H]]]; [auto|lia].
    + intros c q H. apply (ad_raw _ _ _ A) in H as [H|[_ [-> _]]]; auto. apply R2 in H as [H|[p' [q' [E H]]]]; [|fold n in E; lia].
      first [exact (alt_edge_out f W1 AF _ _ H) | exact (alt_edge_out rhs W2 AR _ _ H)].
    + apply (nfa_union_left (edge f) (edge rhs) (raw g) n (initial f) (initial rhs) (fun q => In q (finals f)) (fun q => In q (finals rhs))); auto.
      * apply W1.
      * first [exact (alt_edge_in f W1 AF) | exact (alt_edge_in rhs W2 AR)].
      * intros p c q. rewrite (ad_raw _ _ _ A), R2, (Nat.add_comm (initial rhs)). unfold shifted. fold n. tauto.
  - (* right *)
    destruct (wf_alt _ W2 AR) as [b1 [b2 b3]]. rewrite N2.
    assert (A : adds f2 (connect f2 (n + initial rhs) (initial f) Epsilon) (fun p c q => p = n + initial rhs /\ c = Epsilon /\ q = initial f))
      by (apply connect_adds; [lia|lia|reflexivity]).
    set (g0 := connect f2 _ _ _) in *. clearbody g0.
    assert (R : forall p c q, raw (set_initial g0 (initial rhs + n)) p c q <-> (edge f p c q \/ shifted f rhs p c q) \/ (p = n + initial rhs /\ c = Epsilon /\ q = initial f)).
    { intros p c q. rewrite <- R2. apply (ad_raw _ _ _ A). }
    assert (Sg : size (set_initial g0 (initial rhs + n)) = size f2) by apply (ad_size _ _ _ A).
    assert (Rg : rows_ok (set_initial g0 (initial rhs + n))) by (apply (ad_rows _ _ _ A); auto).
    assert (Fg : finals (set_initial g0 (initial rhs + n)) = finals f2) by apply (ad_fin _ _ _ A).
    assert (Lg : letters (set_initial g0 (initial rhs + n)) = part_empty) by (rewrite <- L2; apply (ad_let _ _ _ A)).
    assert (Ig : initial (set_initial g0 (initial rhs + n)) = initial rhs + n) by reflexivity.
    set (g := set_initial g0 _) in *. clearbody g.
    apply (K g (initial rhs + n)); auto; try lia.
    + intros p c H. apply R in H as [[H|[p' [q' [-> [E H]]]]]|[_ [_ H]]]; [apply HB1 in H; lia| |lia].
      fold n in E. assert (q' = initial rhs) by lia. subst q'. eapply (alt_edge_in rhs); eauto.
    + rewrite F2. intros [H|[q' [E H]]]; [apply (wf_fin _ W1) in H; unfold n in *; lia|].
      assert (q' = initial rhs) by lia. subst; auto.
    + intros c q H. apply R in H as [[H|[p' [q' [E [_ H]]]]]|[_ [H _]]]; [apply HB1 in H; lia| |auto].
      fold n in E. assert (p' = initial rhs) by lia. subst p'. first [exact (alt_edge_out f W1 AF _ _ H) | exact (alt_edge_out rhs W2 AR _ _ H)].
    + apply (nfa_union_right (edge f) (edge rhs) (raw g) n (initial f) (initial rhs) (fun q => In q (finals f)) (fun q => In q (finals rhs))); auto.
      * apply W1.
      * first [exact (alt_edge_in f W1 AF) | exact (alt_edge_in rhs W2 AR)].
      * intros p c q. rewrite R, (Nat.add_comm n). unfold shifted. fold n. tauto.
  - (* fresh initial state *)
    set (g1 := resize_fsm f2 (size f2 + 1)).
    assert (S1 : size g1 = size f2 + 1) by apply size_resize.
    rewrite S1. replace (size f2 + 1 - 1) with (size f2) by lia.
    change (initial g1) with (initial f2). rewrite N2.
    assert (A1 : adds g1 (connect g1 (size f2) (initial f) Epsilon) (fun p c q => p = size f2 /\ c = Epsilon /\ q = initial f))
      by (apply connect_adds; [lia|lia|reflexivity]).
    assert (A2 : adds (connect g1 (size f2) (initial f) Epsilon)
       (connect (connect g1 (size f2) (initial f) Epsilon) (size f2) (n + initial rhs) Epsilon)
       (fun p c q => p = size f2 /\ c = Epsilon /\ q = n + initial rhs)).
    { apply connect_adds; [| |reflexivity]; rewrite (ad_size _ _ _ A1); lia. }
    pose proof (adds_trans _ _ _ _ _ A1 A2) as A. cbn beta in A. clear A1 A2.
    set (g0 := connect (connect _ _ _ _) _ _ _) in *. clearbody g0.
    assert (R : forall p c q, raw (set_initial g0 (size f2)) p c q <-> (edge f p c q \/ shifted f rhs p c q) \/ (p = size f2 /\ c = Epsilon /\ (q = initial f \/ q = n + initial rhs))).
    { intros p c q. rewrite <- R2. etransitivity; [apply (ad_raw _ _ _ A)|]. unfold g1. rewrite raw_resize by lia. tauto. }
    assert (Sg : size (set_initial g0 (size f2)) = size f2 + 1) by (rewrite <- S1; apply (ad_size _ _ _ A)).
    assert (Rg : rows_ok (set_initial g0 (size f2))) by (apply (ad_rows _ _ _ A); apply rows_ok_resize; auto; lia).
    assert (Fg : finals (set_initial g0 (size f2)) = finals f2) by apply (ad_fin _ _ _ A).
    assert (Lg : letters (set_initial g0 (size f2)) = part_empty) by (rewrite <- L2; apply (ad_let _ _ _ A)).
    assert (Ig : initial (set_initial g0 (size f2)) = size f2) by reflexivity.
    set (g := set_initial g0 _) in *. clearbody g.
    apply (K g (size f2)); auto; try lia.
    + intros p c H. apply R in H as [[H|[p' [q' [-> [E H]]]]]|[_ [_ H]]]; [apply HB1 in H; lia| |lia].
      fold n in E. apply HB2 in H. lia.
    + intros H. apply F2b in H. lia.
    + intros c q H. apply R in H as [[H|[p' [q' [E [_ H]]]]]|[_ [H _]]]; [apply HB1 in H; lia| |auto].
      fold n in E. apply HB2 in H. lia.
    + apply (nfa_union_fresh (edge f) (edge rhs) (raw g) n (initial f) (initial rhs) (fun q => In q (finals f)) (fun q => In q (finals rhs))); auto; try lia.
      * apply W1.
      * intros p c q. split; intros H; apply HB2 in H; lia.
      * intros H. apply (wf_fin _ W2) in H. lia.
      * intros p c q. rewrite R, (Nat.add_comm n). unfold shifted. fold n. tauto.
Qed.

(** ** Reverse *)
Lemma reverse_ok : forall f, wf f ->
  wf (fsm_reverse f) /\ (uncompressed f -> uncompressed (fsm_reverse f)) /\
  lang_eq (accepts (fsm_reverse f)) (L_rev (accepts f)).
Proof.
  intros f W. unfold fsm_reverse. set (n := size f).
  set (out0 := set_letters (resize_fsm fsm_new (n + 1)) (letters f)).
  assert (S0 : size out0 = n + 1) by (apply (size_resize fsm_new)).
  assert (R0 : forall p, row_at out0 p = []).
  { intros p. change (row_at (resize_fsm fsm_new (n + 1)) p = []). rewrite row_at_resize by (cbn; lia). destruct p as [|[|p]]; reflexivity. }
  assert (O0 : rows_ok out0) by (intros p; rewrite R0; apply row_ok_nil).
  assert (A1 : adds out0 (reverse_trans f out0) (fun p c q => raw f q c p)).
  { unfold reverse_trans. eapply adds_ext.
    - apply adds_fold with (S := fun from p c q => q = from /\ raw f from c p).
      intros g from T Hfrom A. apply in_seq in Hfrom. eapply adds_ext.
      + apply adds_fold with (S := fun ct p c q => q = from /\ c = fst ct /\ In p (snd ct)).
        intros g1 [c tos] T1 Hct A1. cbn [fst snd]. destruct (wf_rows _ W from) as [Sr Br].
        apply (msorted_find Sr) in Hct. destruct (Br _ _ Hct) as [Hc [_ Hq]].
        eapply adds_ext.
        * apply adds_fold with (S := fun to p c' q => q = from /\ c' = c /\ p = to).
          intros g2 to T2 Hto A2.
          assert (Eg : size g2 = n + 1) by (rewrite (ad_size _ _ _ A2), (ad_size _ _ _ A1), (ad_size _ _ _ A); auto).
          apply Hq in Hto. eapply adds_ext; [apply connect_adds; [unfold n in *; lia|unfold n in *; lia|auto]|].
          cbn beta. tauto.
        * cbn beta. intros p c' q. split; [intros [x [H1 [H2 [-> ->]]]]; auto|intros [H1 [-> H2]]; eauto].
      + cbn beta. intros p c q. rewrite row_at_in by apply W. split.
        * intros [[c' tos] [H1 [H2 [-> H3]]]]; eauto.
        * intros [H1 [tos [H2 H3]]]. exists (c, tos); auto.
    - cbn beta. intros p c q. split.
      + intros [x [H1 [-> H2]]]; auto.
      + intros H. exists q. split; [|auto]. apply in_seq. apply raw_bound in H; [lia|apply W]. }
  set (out1 := reverse_trans f out0) in *.
  assert (S1 : size out1 = n + 1) by (rewrite (ad_size _ _ _ A1); auto).
  assert (L1 : letters out1 = letters f) by (rewrite (ad_let _ _ _ A1); reflexivity).
  assert (Al1 : isAlt out1 = false). { destruct (isAlt out1) eqn:X; auto. apply (ad_alt _ _ _ A1) in X. discriminate X. }
  assert (R1 : forall p c q, raw out1 p c q <-> raw f q c p).
  { intros p c q. rewrite (ad_raw _ _ _ A1). unfold raw at 1. rewrite R0. cbn. tauto. }
  assert (P1 : forall p c, pres out1 p c <-> exists q, raw f q c p).
  { intros p c. rewrite (ad_pres _ _ _ A1). unfold pres. rewrite R0. cbn. intuition. }
  assert (O1 : rows_ok out1) by (apply (ad_rows _ _ _ A1); auto).
  clearbody out1. clear A1.
  set (out2 := set_final (clear_final out1) (initial f) true).
  assert (A2 : adds out2 (fold_left (fun g i => connect g n i Epsilon) (finals f) out2) (fun p c q => p = n /\ c = Epsilon /\ In q (finals f))).
  { eapply adds_ext.
    - apply adds_fold with (S := fun i p c q => p = n /\ c = Epsilon /\ q = i).
      intros g i T Hi A. assert (Eg : size g = n + 1) by (rewrite (ad_size _ _ _ A); exact S1).
      apply (wf_fin _ W) in Hi. apply connect_adds; [lia|unfold n in *; lia|reflexivity].
    - cbn beta. intros p c q. split; [intros [x [H1 [-> [-> ->]]]]; auto|intros [-> [-> H]]; eauto]. }
  set (out3 := fold_left _ (finals f) out2) in *. clearbody out3.
  cbv zeta. set (h := set_sparsed _ _).
  assert (Rh : forall p c q, raw h p c q <-> raw f q c p \/ (p = n /\ c = Epsilon /\ In q (finals f))).
  { intros p c q. rewrite <- R1. apply (ad_raw _ _ _ A2). }
  assert (Ph : forall p c, pres h p c -> (exists q, raw f q c p) \/ c = Epsilon).
  { intros p c H. apply (ad_pres _ _ _ A2) in H as [H|[q [_ [H _]]]]; auto. left. apply P1. exact H. }
  assert (Lh : letters h = letters f) by (rewrite <- L1; apply (ad_let _ _ _ A2)).
  assert (Fh : finals h = [initial f]) by apply (ad_fin _ _ _ A2).
  assert (Sh : size h = n + 1) by (rewrite <- S1; apply (ad_size _ _ _ A2)).
  assert (Oh : rows_ok h) by (apply (ad_rows _ _ _ A2); exact O1).
  assert (Ih : initial h = n) by reflexivity.
  assert (Ah : isAlt h = false). { destruct (isAlt h) eqn:X; auto. apply (ad_alt _ _ _ A2) in X. change (isAlt out1 = true) in X. congruence. }
  clearbody h. pose proof (wf_init _ W) as WI.
  split; [constructor|split].
  - lia.
  - rewrite Fh, Sh. intros q [<-|[]]. unfold n; lia.
  - rewrite Fh. repeat constructor.
  - auto.
  - rewrite Lh; apply W.
  - intros p c r Hr Hp q. rewrite Lh in Hr.
    destruct (part_rep_not_eps _ _ _ (wf_letters _ W) Hr) as [N1 N2].
    apply Ph in Hp as [Hp|Hp]; [|congruence]. rewrite !Rh, (wf_bcoh _ W p c r Hr Hp q). intuition congruence.
  - intros q c r Hr [p0 Hp] p. rewrite Lh in Hr.
    destruct (part_rep_not_eps _ _ _ (wf_letters _ W) Hr) as [N1 N2].
    apply Rh in Hp as [Hp|[_ [Hp _]]]; [|congruence].
    rewrite !Rh, (wf_coh _ W q c r Hr (raw_pres _ _ _ _ Hp) p). intuition congruence.
  - intros X; congruence.
  - unfold uncompressed; rewrite Lh; auto.
  - eapply lang_eq_trans; [|apply (nfa_reverse (edge f) (edge h) n (initial f) (fun q => In q (finals f)))].
    + intros w. rewrite accepts_nfa, Ih, Fh. split; intros [q [P Q]]; exists q; split; auto; cbn in *; intuition.
    + intros p c q H. eapply edge_bound; eauto.
    + apply W.
    + auto.
    + intros p c q. rewrite !edge_raw, (erep_let h f) by apply Lh. rewrite Rh.
      assert (X : erep f c = Epsilon <-> c = Epsilon).
      { unfold erep. destruct (part_rep (letters f) c) eqn:E; [|tauto].
        apply part_rep_not_eps in E; [tauto|apply W]. }
      rewrite X. tauto.
Qed.
