(** Run, prefix search and Runner on a table scanner, with or without exit masks. *)
From Coq Require Import List Bool Arith NArith Lia.
From Verif Require Import Util Spec RunModel RunSpec RunProofs PrefixProofs ScannerModel ScannerSpec ScannerProofs JumpProofs MultiRun.
Import ListNotations.
Local Open Scope N_scope.

Section ScannerRun.
  Variables (k : kind) (s : scanner) (cls : N -> nat) (t : machine).
  Hypothesis S : shows k s cls t.
  Hypothesis M : machine_ok t.
  Variables (i : isa) (m : mem).
  Let o := scanner_ops k s.
  Let V := visited k s t.
  Let W : works o V := scanner_works k s cls t S M.

  Lemma live_word : forall w, is_word w -> exists a, steps o (o_init o) w = Ok a /\ V a.
  Proof. intros w Hw. apply (@steps_V _ o V W); auto. apply (wk_init W). Qed.

  Lemma sc_run : forall b bs st, text_at m b bs -> V st ->
    run_with o m (multi_run_aligned k s i m (@run_pred N)) b (b + N.of_nat (length bs)) st = steps o st bs.
  Proof.
    intros b bs st T Hv. apply (@run_with_jumps _ o V W); auto. apply (multi_jumps k s cls t S M).
    intros. unfold run_pred. eauto.
  Qed.
  Lemma sc_shortest : forall bm em b bs, text_at m b bs ->
    exists r, shortest_prefix_with o m (multi_run_aligned k s i m (shortest_pred o)) bm em b (b + N.of_nat (length bs)) = Ok r /\
      shortest_result (fun u => Accepts o (mark_if bm BeginMark ++ u)) em b bs r.
  Proof.
    intros bm em b bs T. apply (@shortest_prefix_jumps _ o V W); auto. apply (multi_jumps k s cls t S M).
    intros. apply (shortest_total W). auto.
  Qed.
  Lemma sc_longest : forall bm em b bs, text_at m b bs ->
    exists r, longest_prefix_with o m (multi_run_aligned k s i m (longest_pred o)) bm em b (b + N.of_nat (length bs)) = Ok r /\
      longest_up_to (fun u v => same_state o (mark_if bm BeginMark ++ u) (mark_if bm BeginMark ++ v))
        (fun u => Accepts o (mark_if bm BeginMark ++ u)) em b bs r.
  Proof.
    intros bm em b bs T. apply (@longest_prefix_jumps _ o V W); auto. apply (multi_jumps k s cls t S M).
    intros. apply (longest_total W). auto.
  Qed.
  Lemma sc_longest_plain : k_nmask k = 0%nat -> forall bm em b bs, text_at m b bs ->
    exists r, longest_prefix_with o m (multi_run_aligned k s i m (longest_pred o)) bm em b (b + N.of_nat (length bs)) = Ok r /\
      longest_result (fun u => Accepts o (mark_if bm BeginMark ++ u)) em b bs r.
  Proof.
    intros Z bm em b bs T. apply (@longest_prefix_gen _ o V W); auto. intros st acc Hv.
    assert (Hpr : forall acc st p, V st -> exists acc1 stop, longest_pred o acc st p = Ok (acc1, stop)) by (intros; apply (longest_total W); auto).
    apply (@do_run_plain _ _ o V W (longest_pred o) Hpr m); auto.
    intros n xs b0 st0 acc0 L Hb H Hv0.
    destruct (@psteps_total _ _ o V W (longest_pred o) Hpr xs b0 st0 acc0 Hv0 (proj1 H)) as (st1 & acc1 & stop & E & _).
    exists (st1, acc1, stop). split; auto. eapply eq_trans; [|exact E].
    apply (multi_right k s cls t S M i m _ (longest_pred o) Hpr Z n); auto.
  Qed.
  Lemma sc_matches : forall bm em b bs, text_at m b bs ->
    exists r, matches_with o m (multi_run_aligned k s i m (@run_pred N)) bm em b (b + N.of_nat (length bs)) = Ok r /\
      (r = true <-> Accepts o (mark_if bm BeginMark ++ bs ++ mark_if em EndMark)).
  Proof.
    intros bm em b bs T. unfold matches_with. destruct (@start_ok _ o V W bm BeginMark BeginMark_letter) as (s0 & E0 & V0 & T0).
    rewrite E0. cbn [bind]. rewrite sc_run by auto.
    destruct (@steps_V _ o V W bs s0 V0 (bytes_word (proj1 (proj1 (proj2 T))))) as (s1 & E1 & V1). rewrite E1. cbn [bind].
    assert (X : exists s2, (if em then o_step o s1 EndMark else Ok s1) = Ok s2 /\ V s2 /\ steps o s1 (mark_if em EndMark) = Ok s2).
    { destruct em; cbn [mark_if steps]; [|eauto]. destruct (wk_step W V1 EndMark_letter) as [s2 [E2 V2]]. rewrite E2. eauto. }
    destruct X as (s2 & E2 & V2 & T2). rewrite E2. cbn [bind]. destruct (wk_final W V2) as [f F]. rewrite F. exists f. split; auto.
    unfold Accepts. rewrite !steps_app, T0. cbn [bind]. rewrite steps_app, E1. cbn [bind]. rewrite T2. split.
    - intros ->. eauto.
    - intros (s3 & E3 & F3). congruence.
  Qed.
End ScannerRun.
