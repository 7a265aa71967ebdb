(** What a capturing scanner finds when it was compiled from any automaton. *)
From Coq Require Import List Bool Arith NArith Lia.
From Verif Require Import Util Spec PartitionModel FsmModel Nfa NfaOps PartitionProofs FsmSem FsmBasics FsmOps FsmOps2 ApproxSpec Api BuildFacts ScannerModel SimpleModel SimpleProofs
  CapModel CapSpec CapApi CapTable CapRun CapMarks CapMarks2 CapUser ApiProofs.
Import ListNotations.
Local Opaque all_letters all_bytes.

(** ** A match is not forgotten *)
Lemma push_keeps : forall s l nl nl', push_states s l nl = Ok nl' -> cs_match nl <> None -> cs_match nl' <> None.
Proof.
  intros s l. induction l as [|st l IH]; intros nl nl' R M; cbn [push_states] in R; [injection R as <-; auto|].
  destruct (cap_matched s st) as [b| | |]; cbn [bind] in R; try discriminate R. destruct b; [injection R as <-; cbn; discriminate|]. apply IH in R; auto.
Qed.
Lemma next_keeps : forall s cl c cl', cap_next s cl c = Ok cl' -> cs_match cl <> None -> cs_match cl' <> None.
Proof.
  intros s cl c cl' R M. unfold cap_next in R. destruct (cap_translate s c) as [l| | |]; cbn [bind] in R; try discriminate R.
  unfold cap_next_translated in R. cbv zeta in R. set (pos := ((cs_pos cl + 1) mod two64)%N) in R.
  remember (mkState [] pos (cs_match cl), repeat false (N.to_nat (k_states s))) as a eqn:Ea. assert (Ma : cs_match (fst a) <> None) by (rewrite Ea; exact M). clear Ea M.
  revert a R Ma. induction (cs_states cl) as [|st L IH]; intros [nl used] R Ma; cbn [foldm bind] in R; [injection R as <-; exact Ma|].
  destruct (to_groups (groups_fuel s) s st l pos used prio_new) as [[p used1]| | |]; cbn [bind] in R; try discriminate R.
  unfold update_nlist in R. destruct (push_states s _ nl) as [nl1| | |] eqn:E; cbn [bind] in R; try discriminate R. eapply IH; [exact R|]. cbn. eapply push_keeps; [exact E|exact Ma].
Qed.
Lemma run_keeps : forall s u v cl cl', cap_run s u = Ok cl -> cap_run s (u ++ v) = Ok cl' -> cs_match cl <> None -> cs_match cl' <> None.
Proof.
  intros s u v cl cl' R R' M. unfold cap_run in *. destruct (cap_initialize s) as [st| | |]; cbn [bind] in *; try discriminate R. rewrite foldm_app, R in R'. cbn [bind] in R'. clear R.
  revert cl R' M. induction v as [|c v IH]; intros cl R' M; cbn [foldm] in R'; [injection R' as <-; auto|].
  destruct (cap_next s cl c) as [cl1| | |] eqn:E; cbn [bind] in R'; try discriminate R'. eapply IH; [exact R'|]. eapply next_keeps; eauto.
Qed.

Section Any.
  Variable f : fsm.
  Hypothesis W : wf f.
  Hypothesis U : uncompressed f.
  Hypothesis T : tags f = [].
  Hypothesis Small : (N.of_nat (size f) <= two32)%N.
  Hypothesis Zero : forall r, edge f 0 BeginMark r -> initial f = 0.
  Let A p q := (output f p q mod two32)%N.

  Lemma reach_ext : forall (E E' : nat -> N -> nat -> Prop) (a : nat -> nat -> N) i, (forall p c q, E p c q -> E' p c q) -> forall w q b e, reach E a i w q b e -> reach E' a i w q b e.
  Proof. intros E E' a i X w q b e R. induction R; [apply reach_start|apply reach_eps|apply reach_step]; auto. Qed.

  Theorem any_runs : exists s, cap_compile f = Ok s /\ forall w, is_word w -> (N.of_nat (length w) < two64)%N ->
    exists cl, cap_run s w = Ok cl /\
      (cs_match cl <> None <-> exists u v q b e, w = u ++ v /\ reach (edge f) A (initial f) u q b e /\ ends (edge f) (is_final f) q) /\
      exists ans o, get_capture s cl = Ok (ans, o) /\ (o <> None <-> cs_match cl <> None) /\ (ans = true -> o <> None) /\
        forall st, o = Some st -> exists u v q, w = u ++ v /\ reach (edge f) A (initial f) u q (g_begin st) (g_end st) /\ ends (edge f) (is_final f) q.
  Proof.
    assert (RE : forall p c q, edge f p c q <-> raw f p c q) by (intros; apply raw_uncompressed, U).
    assert (EE : forall q, ends (raw f) (is_final f) q <-> ends (edge f) (is_final f) q).
    { intros q. unfold ends. split; (intros [X|(r & X & Y)]; [left; auto|right; exists r; split; [apply RE; auto|]; destruct Y as [Y|(t & Y & Z)]; [auto|right; exists t; split; [apply RE; auto|auto]]]). }
    destruct (cap_compile_ok f W T Small) as (s & Es & Sh). exists s. split; [exact Es|].
    assert (H0 : forall r, raw f 0 BeginMark r -> initial f = 0%nat) by (intros r X; apply (Zero r), RE, X).
    pose proof (run_ok s (size f) (raw f) (output f) (initial f) (is_final f) Sh H0) as Run.
    assert (Wl : forall w, is_word w -> Forall (fun c => (c < MaxChar)%N) w) by (intros w Hw; eapply Forall_impl; [|exact Hw]; intros c [Lc _]; exact Lc).
    intros w Hw L. destruct (Run w (Wl w Hw) L) as (cl & Ecl & K). exists cl. split; [exact Ecl|].
    assert (So : forall u st, runs (raw f) (output f) (initial f) u st -> stops (raw f) (is_final f) st -> exists q, reach (edge f) A (initial f) u q (g_begin st) (g_end st) /\ ends (edge f) (is_final f) q).
    { intros u st (q & Eq & R) (q' & Eq' & X). assert (q = q') by (apply Nat2N.inj; congruence). subst q'. exists q. split; [|apply EE, X]. eapply reach_ext; [|exact R]. intros p c r. apply RE. }
    assert (M : cs_match cl <> None <-> exists u v q b e, w = u ++ v /\ reach (edge f) A (initial f) u q b e /\ ends (edge f) (is_final f) q).
    { split.
      - destruct (cs_match cl) as [st|] eqn:E; [|congruence]. intros _. destruct (ki_match _ _ _ _ _ _ _ K st E) as (u & v & Ew & R & X). destruct (So u st R X) as (q & R' & X'). exists u, v, q, (g_begin st), (g_end st). auto.
      - intros (u & v & q & b & e & -> & R & X). unfold is_word in Hw. apply Forall_app in Hw as [Hu Hv]. rewrite app_length in L.
        destruct (Run u (Wl u Hu) ltac:(lia)) as (cl1 & E1 & K1). apply (run_keeps s u v cl1 cl E1 Ecl). intros Hn. destruct (ki_complete _ _ _ _ _ _ _ K1 Hn) as [C1 C2].
        destruct (C1 q b e) as (st & I & Eq). { eapply reach_ext; [|exact R]. intros p c r. apply RE. }
        apply (C2 st I). exists q. split; auto. apply EE, X. }
    split; [exact M|].
    assert (Ir : Forall (in_range (size f)) (cs_states cl)) by (apply Forall_forall; intros st I; apply (ki_sound _ _ _ _ _ _ _ K), I).
    destruct (first_ok s (size f) (raw f) (output f) (initial f) (is_final f) Sh (cs_states cl) Ir) as (r & R & X).
    unfold get_capture. rewrite R. cbn [bind]. destruct r as [[ans st]|].
    - destruct X as (I & X & _). destruct (ki_sound _ _ _ _ _ _ _ K st I) as [Rs _]. destruct (So w st Rs X) as (q & R' & X'). exists ans, (Some st). splits; auto; try congruence.
      + rewrite M. split; [|congruence]. intros _. exists w, [], q, (g_begin st), (g_end st). rewrite app_nil_r. auto.
      + intros st' E. injection E as <-. exists w, [], q. rewrite app_nil_r. auto.
    - destruct (cs_match cl) as [st|] eqn:E.
      + exists true, (Some st). splits; auto; try congruence; [tauto|]. intros st' E'. injection E' as <-. destruct (ki_match _ _ _ _ _ _ _ K st E) as (u & v & Ew & Rs & Xs). destruct (So u st Rs Xs) as (q & R' & X'). eauto 6.
      + exists false, None. splits; auto; try congruence. tauto.
  Qed.
End Any.

(** ** Checking that no transition reads a mark *)
Definition no_marks_check (f : fsm) : bool := forallb (fun p => match row_get (row_at f p) (erep f BeginMark), row_get (row_at f p) (erep f EndMark) with [], [] => true | _, _ => false end) (seq 0 (size f)).
Lemma no_marks_ok : forall f, wf f -> no_marks_check f = true -> no_marks f.
Proof.
  intros f W H p q. unfold no_marks_check in H. rewrite forallb_forall in H.
  assert (X : forall c, edge f p c q -> p < size f) by (intros c Hc; exact (proj1 (edge_bound f p c q W Hc))).
  split; intros E; (specialize (H p); rewrite in_seq in H; specialize (X _ E); specialize (H ltac:(lia)); unfold edge in E;
    destruct (row_get (row_at f p) (erep f BeginMark)); [|discriminate H]; destruct (row_get (row_at f p) (erep f EndMark)); [|discriminate H]; contradiction).
Qed.

(** ** Building blocks *)
Lemma marks_keep_language : forall f L, captures f L -> (forall w, accepts (capture_mark f) w <-> accepts f w) /\ forall gr w, accepts (repetition_mark f gr) w <-> accepts f w.
Proof. intros f L C. destruct (captures_ok f L C) as (W & _). split; [apply capture_accepts; auto|intros gr; apply repetition_accepts; auto]. Qed.
