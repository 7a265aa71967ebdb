(** The tables of half-final scanners. *)
From Coq Require Import List Bool Arith NArith Lia.
From Verif Require Import Util Spec PartitionModel PartitionProofs FsmModel DetermineModel MinimizeModel FsmSem FsmBasics DeadProofs DetProofs CompProofs ScannerModel ScannerSpec GlueModel ScannerProofs ScannerFits ScannerCompile HalfModel.
Import ListNotations.
Local Opaque all_letters all_bytes.

Definition table_of (k : kind) (buf : N) (g : fsm) : res scanner :=
  let* s := init_scanner k buf (size g) (letters g) (length (finals g)) (initial g) 1 in build_scanner k g s.

Section Table.
  Variables (k : kind) (buf : N) (g : fsm).
  Hypothesis Hn : k_nmask k <= 64.
  Hypothesis W : wf g.
  Hypothesis D : det_any g.
  Hypothesis T : forall q, fsm_tag g q = 0%N.

  Lemma table_ok : forall s, table_of k buf g = Ok s -> exists d, dead_states g = Ok d /\ machine_ok (machine_of g d) /\
      (placed k s -> shows k s (cls_of (letters g)) (machine_of g d)) /\
      s_buf s = buf /\ s_regexps s = 1%N /\ s_owned s = true /\ s_null s = false /\
      s_states s = N.of_nat (size g) /\ s_nletters s = N.of_nat (part_size (letters g)) /\ s_fsize s = N.of_nat (length (finals g) + size g) /\
      exists rows fin, final_table rows 0 = (fin, s_index s) /\ map row_final rows = map (is_final g) (seq 0 (size g)) /\
        s_final s = fin ++ repeat 0%N (N.to_nat (s_fsize s) - length fin) /\ length fin = size g + length (filter (is_final g) (seq 0 (size g))).
  Proof.
    intros s E. unfold table_of in E.
    destruct (init_scanner k buf (size g) (letters g) (length (finals g)) (initial g) 1) as [s0| | |] eqn:I; cbn [bind] in E; try discriminate.
    assert (F : s_buf s0 = buf /\ s_states s0 = N.of_nat (size g) /\ s_nletters s0 = N.of_nat (part_size (letters g)) /\ s_fsize s0 = N.of_nat (length (finals g) + size g)).
    { clear - I. unfold init_scanner in I. destruct (_ || _); [discriminate|]. apply ok_inj in I. subst s0. splits; reflexivity. }
    destruct F as (F1 & F2 & F3 & F4).
    destruct (build_ok k g s0 W D T (header_small k Hn)) as (s' & d & Ed & Es & Sh & G1 & G2 & G3 & G4 & G5 & G6 & G7 & G8).
    { intros b Hb. rewrite F1 in Hb. subst b. exact I. }
    rewrite E in Es. apply ok_inj in Es. subst s'. exists d. splits; auto; try congruence.
    - apply machine_of_ok; auto.
    - intros [P1 P2 P3]. apply Sh. unfold s_base in P2. rewrite G1, G5, G6, G7 in *. split; auto.
    - rewrite G6. exact G8.
  Qed.
  Lemma table_total : (N.of_nat (size g) <= 250000)%N -> exists s, table_of k buf g = Ok s /\ s_buf s = buf /\ s_states s = N.of_nat (size g) /\
     ((buf mod 8 = 0)%N -> (buf <= 9223372036854775808)%N -> placed k s).
  Proof.
    intros Sz. pose proof (finals_le g W) as Fl.
    assert (X : exists s, table_of k buf g = Ok s).
    { unfold table_of. unfold init_scanner at 1.
      destruct (N.leb_spec two32 (N.of_nat (size g) + N.of_nat (length (finals g)))%N); [unfold two32 in *; lia|].
      change ((two32 <=? 1)%N) with false. cbn [orb]. cbn [bind].
      match goal with |- context [build_scanner k g ?x] => set (s0 := x) end.
      destruct (build_ok k g s0 W D T (header_small k Hn)) as (s' & d & Ed & Es & _).
      { intros b Hb. unfold init_scanner. destruct (N.leb_spec two32 (N.of_nat (size g) + N.of_nat (length (finals g)))%N); [unfold two32 in *; lia|].
        change ((two32 <=? 1)%N) with false. cbn [orb]. rewrite <- Hb. reflexivity. }
      eauto. }
    destruct X as [s E]. exists s. split; auto.
    destruct (table_ok s E) as (d & _ & _ & _ & Eb & _ & _ & _ & Es & El & Ef & _). splits; auto.
    intros A1 A2.
    assert (R : (row_bytes k (s_nletters s) <= 8000)%N).
    { apply row_bytes_le; auto. rewrite El. pose proof (part_size_le _ (wf_letters _ W)). lia. }
    assert (Y : (s_states s * row_bytes k (s_nletters s) <= 250000 * 8000)%N) by (apply N.mul_le_mono; lia).
    split; [congruence| |intros _; unfold two31; lia].
    unfold s_base. rewrite Eb, Ef, Es. rewrite Es in Y. unfold two64, MaxChar. lia.
  Qed.

  (** ** Counting states once: BuildFinals writes what BuildScanner wrote *)
  Lemma count_once : forall q, get_count g q = if is_final g q then 1%N else 0%N.
  Proof. intros q. unfold get_count. rewrite T. reflexivity. Qed.
  Lemma filter_finals : length (filter (is_final g) (seq 0 (size g))) = length (finals g).
  Proof.
    assert (ND : NoDup (finals g)).
    { pose proof (wf_fsorted _ W) as Hs'. clear - Hs'. induction Hs' as [|x l H IH Hf]; constructor; auto.
      intros X. rewrite Forall_forall in Hf. specialize (Hf x X). rewrite kltb_irr in Hf. discriminate. }
    apply Nat.le_antisymm; apply NoDup_incl_length; auto.
    - apply NoDup_filter, seq_NoDup.
    - intros x H. apply filter_In in H as [_ H]. apply smem_in in H. exact H.
    - intros x H. apply filter_In. split; [|apply smem_in; auto]. apply in_seq. pose proof (wf_fin _ W x H). lia.
  Qed.
  Lemma total_once : get_total_count g = N.of_nat (length (finals g)).
  Proof.
    rewrite <- filter_finals. unfold get_total_count.
    assert (X : forall l a, fold_left (fun n q => (n + get_count g q)%N) l a = (a + N.of_nat (length (filter (is_final g) l)))%N).
    { induction l as [|q l IH]; intros a; cbn [fold_left filter length]; [lia|]. rewrite IH, count_once. destruct (is_final g q); cbn [length]; lia. }
    rewrite X. lia.
  Qed.
  Lemma count_table_once : forall rows qs pos, map row_final rows = map (is_final g) qs ->
    count_table (map (get_count g) qs) pos = final_table rows pos.
  Proof.
    induction rows as [|r rows IH]; intros [|q qs] pos H; try discriminate H; cbn [map count_table final_table]; auto.
    assert (H1 : row_final r = is_final g q) by (injection H; auto). assert (H2 : map row_final rows = map (is_final g) qs) by (injection H; auto).
    rewrite count_once. unfold row_final in H1. rewrite H1. destruct (is_final g q); cbn [N.to_nat repeat app]; rewrite <- (IH qs) by exact H2; reflexivity.
  Qed.
  Lemma counter_table : half_compile_counter k buf g = table_of k buf g.
  Proof.
    unfold half_compile_counter. rewrite total_once, Nat2N.id. pose proof table_ok as O. unfold table_of in *.
    destruct (init_scanner k buf (size g) (letters g) (length (finals g)) (initial g) 1) as [s0| | |]; cbn [bind] in *; auto.
    destruct (build_scanner k g s0) as [s| | |]; cbn [bind] in *; auto.
    destruct (O s eq_refl) as (d & _ & _ & _ & _ & _ & _ & _ & St & _ & Fs & rows & fin & Ft & Mr & Sf & Lf).
    unfold build_finals. rewrite (count_table_once rows _ _ Mr), Ft. rewrite filter_finals in Lf.
    destruct (N.leb_spec (N.of_nat (length fin)) (s_fsize s)) as [_|Z]; [|exfalso; lia].
    rewrite Sf, skipn_app, skipn_all, Nat.sub_diag. cbn [skipn app]. rewrite <- Sf. destruct s. reflexivity.
  Qed.
  Lemma table_fits : forall s, table_of k buf g = Ok s -> fits s.
  Proof.
    intros s E. unfold table_of in E. destruct (init_scanner _ _ _ _ _ _ _) as [s0| | |] eqn:I; cbn [bind] in E; try discriminate. apply init_fits in I.
    eapply build_fits; eauto.
  Qed.
End Table.
