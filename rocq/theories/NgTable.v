(** NoGlueLimitCountingScanner: its table without the actions. *)
From Coq Require Import List Bool Arith NArith Lia.
From Verif Require Import Util Spec PartitionModel PartitionProofs FsmModel DetermineModel DetGeneric DetProofs RunModel RunSpec ScannerModel
  ScannerProofs ScannerCompile GlueModel GlueTable GlueProofs CountModel CountSpec CountApi RunProofs CountProofs SimpleProofs LoadedProofs LoadedGlue CountBuild AdvModel AdvRun AdvMain CountUser NgModel NgApi.
Import ListNotations.
Local Open Scope N_scope.

Definition strip (s : loaded) : loaded := mkLoaded (d_states s) (d_nletters s) 0 (d_initial s) (d_buf s) (d_letters s)
  (map (fun j => (fst j, 0)) (d_jumps s)) (d_tags s) (d_owned s) (d_null s).
Definition table_ok (s : loaded) : Prop := loaded_ok (strip s).

Lemma strip_ok : forall s, loaded_ok s -> table_ok s.
Proof.
  intros s [A B C D E F G H I]. constructor; auto.
  - unfold d_count. cbn. destruct (d_null s); lia.
  - cbn [strip d_jumps d_states d_nletters]. rewrite map_length. exact E.
  - intros q l Hq Hl. cbn [strip d_states d_nletters d_jumps] in *. destruct (F q l Hq Hl) as (q' & a & X & Y & _). exists q', 0. rewrite nth_error_map, X. splits; auto. apply acts_zero.
Qed.
Lemma erase_table : forall s, loaded_ok (erase s) -> table_ok s.
Proof.
  intros s H. apply strip_ok in H. unfold table_ok in *. replace (strip s) with (strip (erase s)); auto. unfold strip, erase. cbn [set_jumps d_states d_nletters d_initial d_buf d_letters d_jumps d_tags d_owned d_null].
  rewrite map_map. reflexivity.
Qed.
Lemma strip_next : forall s a c, d_next (strip s) a c = let* (x, _) := d_next s a c in Ok (x, 0).
Proof.
  intros s a c. unfold d_next, transition_at. cbn [strip d_letters d_jumps]. destruct (nth_error (d_letters s) (N.to_nat c)) as [l|]; [|reflexivity].
  change (d_base (strip s)) with (d_base s). destruct ((d_base s <=? a) && ((a - d_base s) mod 8 =? 0)); [|reflexivity]. rewrite nth_error_map.
  destruct (nth_error (d_jumps s) (N.to_nat ((a - d_base s) / 8 + l))) as [[sh ac]|]; reflexivity.
Qed.
Lemma strip_run : forall s w a, d_run (strip s) a w = d_run s a w.
Proof.
  intros s. induction w as [|c w IH]; intros a; cbn [d_run]; auto. rewrite strip_next. destruct (d_next s a c) as [[x y]| | |]; cbn [bind]; auto.
Qed.
Lemma strip_many : forall l r n, many (strip l) (strip r) n <-> many l r n.
Proof.
  intros l r n. unfold many. split; intros (sts & H1 & H2 & H3); exists sts; splits; auto; intros a b H; destruct (H3 a b H) as (w & W1 & W2 & W3); exists w; splits; auto.
  - rewrite strip_run in W2. exact W2.
  - rewrite strip_run in W3. exact W3.
  - rewrite strip_run. exact W2.
  - rewrite strip_run. exact W3.
Qed.

(** One step *)
Lemma tnext : forall s q c, table_ok s -> dplaced s -> (q < N.to_nat (d_states s))%nat -> letter c ->
  exists q' a, nth_error (d_jumps s) (slot s q c) = Some (shift_of s q q', a) /\ (q' < N.to_nat (d_states s))%nat /\
    d_next s (d_state s (N.of_nat q)) c = Ok (d_state s (N.of_nat q'), a) /\ action_of s (d_state s (N.of_nat q)) c = Ok a.
Proof.
  intros s q c T P Hq Hc. destruct (d_next_ok (strip s) T P q c Hq Hc) as (l & q' & z & A & B & C & D & _ & F).
  cbn [strip d_letters d_nletters d_jumps d_states] in A, B, C, D. rewrite nth_error_map in C. destruct (nth_error (d_jumps s) (q * N.to_nat (d_nletters s) + N.to_nat l)) as [[sh a]|] eqn:J; [|discriminate C].
  cbn in C. injection C as C _. change (shift_of (strip s) q q') with (shift_of s q q') in C. subst sh. exists q', a.
  pose proof (nth_error_nth _ _ 0 A) as A'. split; [unfold slot; rewrite A'; exact J|]. split; [exact D|]. split.
  - unfold d_next. rewrite A. rewrite trans_at by exact Hq. rewrite J. cbn [bind]. f_equal. f_equal. apply (shift_ok (strip s) T P q q' Hq D).
  - unfold action_of, transition_index. change (state_idx s) with (state_idx (strip s)). change (d_state s (N.of_nat q)) with (d_state (strip s) (N.of_nat q)).
    rewrite (state_idx_ok (strip s) T). rewrite A'.
    replace (N.to_nat (N.of_nat q * d_nletters s + l)) with (q * N.to_nat (d_nletters s) + N.to_nat l)%nat by lia. rewrite J. reflexivity.
Qed.
Lemma tlive : forall s x c, table_ok s -> dplaced s -> dlive s x -> letter c -> exists y a, d_next s x c = Ok (y, a) /\ dlive s y /\ action_of s x c = Ok a.
Proof.
  intros s x c T P (q & Hq & ->) Hc. destruct (tnext s q c T P Hq Hc) as (q' & a & _ & H1 & H2 & H3). exists (d_state s (N.of_nat q')), a. splits; auto. exists q'. auto.
Qed.

(** Copies *)
Lemma strip_copy : forall b s, strip (copy_loaded b s) = copy_loaded b (strip s).
Proof. intros b s. unfold copy_loaded. cbn [strip d_owned]. destruct (d_owned s); reflexivity. Qed.
Lemma table_copy : forall b s, table_ok s -> table_ok (copy_loaded b s).
Proof. intros b s T. unfold table_ok. rewrite strip_copy. apply copy_loaded_ok. exact T. Qed.
Lemma copy_count : forall b s, table_ok s -> d_count (copy_loaded b s) = d_count s.
Proof. intros b s T. unfold copy_loaded. destruct (d_owned s) eqn:O; auto. pose proof (lo_own _ T O) as X. cbn [strip d_null] in X. unfold d_count. cbn. rewrite X. reflexivity. Qed.
Lemma copy_fields : forall b s, d_states (copy_loaded b s) = d_states s /\ d_nletters (copy_loaded b s) = d_nletters s /\ d_letters (copy_loaded b s) = d_letters s /\ d_jumps (copy_loaded b s) = d_jumps s.
Proof. intros b s. unfold copy_loaded. destruct (d_owned s); auto. Qed.
(** The same table, at another address *)
Record similar (s s' : loaded) : Prop := {
  sim_states : d_states s' = d_states s;
  sim_nletters : d_nletters s' = d_nletters s;
  sim_letters : d_letters s' = d_letters s;
  sim_jumps : d_jumps s' = d_jumps s;
  sim_count : d_count s' = d_count s;
  sim_init : exists q, (q < N.to_nat (d_states s))%nat /\ d_initial s = d_state s (N.of_nat q) /\ d_initial s' = d_state s' (N.of_nat q);
  sim_table : table_ok s'
}.
Lemma sim_actions : forall s s', table_ok s -> similar s s' -> dplaced s -> dplaced s' -> forall w q, (q < N.to_nat (d_states s))%nat -> is_word w ->
  actions s' (d_state s' (N.of_nat q)) w = actions s (d_state s (N.of_nat q)) w.
Proof.
  intros s s' T [F1 F2 F3 F4 _ _ T'] P P'. induction w as [|c w IH]; intros q Hq Hw; cbn [actions]; auto. inversion Hw; subst.
  destruct (tnext s q c T P Hq H1) as (q1 & a & A1 & A2 & A3 & _).
  destruct (tnext s' q c T' P' ltac:(rewrite F1; exact Hq) H1) as (q1' & a' & B1 & B2 & B3 & _).
  assert (SL : slot s' q c = slot s q c) by (unfold slot; rewrite F2, F3; reflexivity). rewrite SL, F4, A1 in B1. injection B1 as B1 <-.
  assert (E : q1' = q1).
  { pose proof (shift_ok (strip s) T P q q1 Hq A2) as X. rewrite F1 in B2. pose proof (shift_ok (strip s) T P q q1' Hq B2) as Y.
    assert (SO : shift_of (strip s) q q1' = shift_of (strip s) q q1).
    { change (shift_of (strip s) q q1) with (shift_of s q q1). rewrite B1. unfold shift_of, state_size. rewrite F2. reflexivity. }
    rewrite SO, X in Y. pose proof (f_equal (state_idx (strip s)) Y) as Z. rewrite !(state_idx_ok (strip s) T) in Z. lia. }
  subst q1'. rewrite A3, B3. cbn [bind]. rewrite IH; auto.
Qed.
Lemma copy_initial : forall b s, table_ok s -> exists q, (q < N.to_nat (d_states s))%nat /\ d_initial s = d_state s (N.of_nat q) /\ d_initial (copy_loaded b s) = d_state (copy_loaded b s) (N.of_nat q).
Proof.
  intros b s T. destruct (lo_init _ T) as (q & H & E). cbn [strip d_states d_initial] in H, E. change (d_state (strip s) (N.of_nat q)) with (d_state s (N.of_nat q)) in E.
  exists q. splits; auto. unfold copy_loaded. destruct (d_owned s); auto. rewrite E. unfold d_state, d_base, state_size. cbn. lia.
Qed.
Lemma copy_similar : forall b s, table_ok s -> similar s (copy_loaded b s).
Proof.
  intros b s T. destruct (copy_fields b s) as (F1 & F2 & F3 & F4). constructor; auto using copy_count, copy_initial, table_copy.
Qed.
