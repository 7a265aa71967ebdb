(** Concrete automata with captures for the examples in Prop_Cap. *)
From Coq Require Import List Bool Arith NArith.
From Verif Require Import Util Spec PartitionModel FsmModel Nfa FsmSem FsmBasics Api ApiProofs ScannerModel CapModel CapSpec CapApi CapMain.
Import ListNotations.
Local Open Scope N_scope.

Definition exk_lit (c : N) : fsm := append_special fsm_new c.
Lemma exk_lit_built : forall c, letter c -> built (exk_lit c).
Proof. intros c H. apply built_append; auto; [apply built_new|reflexivity]. Qed.
Lemma exk_plain : forall c, letter c -> no_marks_check (exk_lit c) = true -> built (exk_lit c) /\ uncompressed (exk_lit c) /\ no_marks (exk_lit c).
Proof. intros c H N. pose proof (exk_lit_built c H) as B. repeat split; auto; apply no_marks_ok; auto using built_wf. Qed.
(** x(a* )y *)
Definition exk_as : fsm := iterate (exk_lit 97).
Lemma exk_as_plain : built exk_as /\ uncompressed exk_as /\ no_marks exk_as.
Proof.
  assert (B : built exk_as) by (apply built_iterate, exk_lit_built; split; [reflexivity|discriminate]). repeat split; auto; apply no_marks_ok; auto using built_wf; vm_compute; reflexivity.
Qed.
Definition exk_f : fsm := fsm_cat (fsm_cat (exk_lit 120) (capture_mark exk_as)) (exk_lit 121).
(** an automaton with two repetitions, the first one not greedy *)
Definition exk_g : fsm := fsm_cat (repetition_mark exk_as false) (capture_mark (fsm_or (repetition_mark (iterate (exk_lit 98)) true) (exk_lit 99))).
Definition exk_scan (f : fsm) : cap := match cap_compile f with Ok s => s | _ => mkCap 0 0 0 [] [] [] end.
Definition exk_go (f : fsm) (w : list N) : res (option single * (bool * option single)) :=
  let* s := cap_compile f in let* cl := cap_run s w in let* r := get_capture s cl in Ok (cs_match cl, r).
Lemma exk_go_ok : forall f w m r, exk_go f w = Ok (m, r) -> exists s cl, cap_compile f = Ok s /\ cap_run s w = Ok cl /\ cs_match cl = m /\ get_capture s cl = Ok r.
Proof.
  intros f w m r H. unfold exk_go in H. destruct (cap_compile f) as [s| | |]; cbn [bind] in H; try discriminate H. destruct (cap_run s w) as [cl| | |] eqn:E; cbn [bind] in H; try discriminate H.
  destruct (get_capture s cl) as [x| | |] eqn:E'; cbn [bind] in H; try discriminate H. injection H as <- <-. exists s, cl. auto.
Qed.
(** b|^a and (a$) *)
Definition exk_begin : fsm := fsm_or (exk_lit 98) (fsm_cat (exk_lit BeginMark) (exk_lit 97)).
Definition exk_end : fsm := capture_mark (fsm_cat (exk_lit 97) (exk_lit EndMark)).
(** (^a) *)
Definition exk_front : fsm := capture_mark (fsm_cat (exk_lit BeginMark) (exk_lit 97)).
(** ^a, not surrounded *)
Definition exk_bare : fsm := fsm_cat (exk_lit BeginMark) (exk_lit 97).
(** (a*b), where the repetition is greedy *)
Definition exk_left : fsm := capture_mark (fsm_cat (repetition_mark exk_as true) (exk_lit 98)).
(** a(b* ), where the repetition is greedy *)
Definition exk_ab : fsm := fsm_cat (exk_lit 97) (capture_mark (repetition_mark (iterate (exk_lit 98)) true)).
