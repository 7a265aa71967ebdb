(** Concrete automata and runs for the examples in Prop_Fcap. *)
From Coq Require Import List Bool Arith NArith Lia.
From Verif Require Import Util Spec PartitionModel FsmModel DetermineModel MinimizeModel Nfa FsmSem FsmBasics FsmOps Api ApiProofs ScannerModel RunModel RunSpec CountModel CountSpec CapModel CapSpec CapApi CapMain CapWitness FcapModel.
Import ListNotations.
Local Open Scope N_scope.

Lemma exf_letter : forall c, c < 256 -> letter c.
Proof. intros c H. split; [unfold MaxChar; lia|unfold Epsilon; lia]. Qed.
Lemma exf_lit : forall c w, letter c -> accepts (exk_lit c) w -> w = [c].
Proof.
  intros c w H A. apply (append_special_lang fsm_new c) in A; auto using fsm_new_wf; [|reflexivity]. destruct A as (x & y & -> & X & Y). apply fsm_new_lang in X. rewrite X. exact Y.
Qed.
Lemma exf_lit_in : forall c, letter c -> accepts (exk_lit c) [c].
Proof. intros c H. apply (append_special_lang fsm_new c); auto using fsm_new_wf; [reflexivity|]. exists [], [c]. split; [reflexivity|]. split; [apply fsm_new_lang|]; reflexivity. Qed.
(** everything a run ends with *)
Definition exf_go (f : fsm) (w : list N) : res (bool * bool * N * N) :=
  let* s := fc_compile 4096 f in let* st := steps (fc_ops s) (fc_init s) w in let* b := fc_final s st in Ok (b, fc_captured st, fc_begin st, fc_end st).
Definition exf_placed (f : fsm) : bool :=
  match fc_compile 4096 f with Ok s => (d_base s + d_states s * state_size s <=? two64) && (d_states s * state_size s <=? two31) | _ => false end.
Lemma exf_go_ok : forall f w b cap x y, exf_go f w = Ok (b, cap, x, y) -> exf_placed f = true -> exists s st, fc_compile 4096 f = Ok s /\ dplaced s /\ steps (fc_ops s) (fc_init s) w = Ok st /\
  fc_final s st = Ok b /\ fc_captured st = cap /\ fc_begin st = x /\ fc_end st = y.
Proof.
  intros f w b cap x y H P. unfold exf_go in H. unfold exf_placed in P. destruct (fc_compile 4096 f) as [s| | |]; cbn [bind] in H; try discriminate H.
  destruct (steps (fc_ops s) (fc_init s) w) as [st| | |] eqn:E; cbn [bind] in H; try discriminate H. destruct (fc_final s st) as [b'| | |] eqn:E'; cbn [bind] in H; try discriminate H.
  injection H as <- <- <- <-. apply andb_true_iff in P as [P1 P2]. apply N.leb_le in P1, P2. exists s, st. split; auto. split; [split; auto|]. auto.
Qed.
Lemma exf_cap : forall c, letter c -> no_marks_check (exk_lit c) = true -> captures (exk_lit c) (accepts (exk_lit c)).
Proof. intros c H N. destruct (exk_plain c H N) as (B & U & M). apply cp_plain; auto. Qed.
(** (a)bc *)
Definition exf_bc : fsm := fsm_cat (exk_lit 98) (exk_lit 99).
Definition exf_abc : fsm := fsm_cat (capture_mark (exk_lit 97)) exf_bc.
(** (x(a)|ya)z *)
Definition exf_alt : fsm := fsm_cat (fsm_or (fsm_cat (exk_lit 120) (capture_mark (exk_lit 97))) (fsm_cat (exk_lit 121) (exk_lit 97))) (exk_lit 122).
(** x(a)*y *)
Definition exf_star : fsm := fsm_cat (exk_lit 120) (fsm_cat (iterate (capture_mark (exk_lit 97))) (exk_lit 121)).
(** x(a)y *)
Definition exf_xay : fsm := fsm_cat (fsm_cat (exk_lit 120) (capture_mark (exk_lit 97))) (exk_lit 121).
