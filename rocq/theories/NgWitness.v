(** Scanners for the examples about NoGlueLimitCountingScanner. *)
From Coq Require Import List Bool Arith NArith Lia.
From Verif Require Import Util Spec PartitionModel FsmModel DetermineModel MinimizeModel FsmSem FsmOps FsmBasics Api ApiProofs BuildFacts RunModel RunSpec ScannerModel GlueModel CountModel CountSpec CountApi CountWitness AdvModel AdvSpec AdvWitness NgModel NgApi.
Import ListNotations.
Local Open Scope N_scope.

Definition ng_of (s : nscanner) (w : list N) (i : nat) : res N := let* st := steps (n_ops s) (n_init s) w in n_result st i.
Lemma ng_of_ok : forall s w i n, ng_of s w i = Ok n -> ncounts s w i n.
Proof.
  intros s w i n E. unfold ng_of in E. destruct (steps (n_ops s) (n_init s) w) as [st| | |] eqn:E1; cbn [bind] in E; try discriminate E. exists st. auto.
Qed.
Definition ng0 : nscanner := mkNG (mkLoaded 0 0 0 0 0 [] [] [] false false) None false.
Definition ngd (x : res nscanner) : nscanner := match x with Ok s => s | _ => ng0 end.
Definition ngp (x : res (nscanner * bool)) : nscanner := match x with Ok (s, _) => s | _ => ng0 end.
Definition nplacedb (s : nscanner) : bool := placedb (n_base s) && (d_nletters (n_base s) <=? 256).
Lemma nplacedb_ok : forall s, nplacedb s = true -> nplaced s.
Proof. intros s H. apply andb_true_iff in H as [H1 H2]. split; [apply placedb_ok; exact H1|apply N.leb_le; exact H2]. Qed.
Definition nsmallb (s : nscanner) : bool := 1 + d_states (n_base s) * d_nletters (n_base s) * (2 + 2 * n_count s) <? two32.
Lemma nsmallb_ok : forall s, nsmallb s = true -> nsmall s.
Proof. intros s H. apply N.ltb_lt. exact H. Qed.

Definition exn_null : nscanner := Eval vm_compute in ngd (n_default 65536).
Lemma exn_null_eq : n_default 65536 = Ok exn_null. Proof. vm_compute. reflexivity. Qed.
(** a and b, separated by commas *)
Definition exn_a : nscanner := Eval vm_compute in ngp (n_scanner 65536 (str [97]) (str [44])).
Lemma exn_a_eq : n_scanner 65536 (str [97]) (str [44]) = Ok (exn_a, false). Proof. vm_compute. reflexivity. Qed.
Definition exn_b : nscanner := Eval vm_compute in ngp (n_scanner 131072 (str [98]) (str [44])).
Lemma exn_b_eq : n_scanner 131072 (str [98]) (str [44]) = Ok (exn_b, false). Proof. vm_compute. reflexivity. Qed.
Definition exn_ab : nscanner := Eval vm_compute in ngd (n_glue 196608 262144 exn_null exn_a exn_b 0).
Lemma exn_ab_eq : n_glue 196608 262144 exn_null exn_a exn_b 0 = Ok exn_ab. Proof. vm_compute. reflexivity. Qed.
Definition exn_w : list N := [258; 98; 44; 97; 44; 97; 44; 98; 44; 98; 44; 98; 259].
Definition exn_R (x : N) : fsm * fsm * bool := (str [x], str [44], false).
Lemma exn_a_got : nobtained exn_a [exn_R 97]. Proof. apply (nob_new 65536); [apply str_built; reflexivity|apply str_built; reflexivity|exact exn_a_eq]. Qed.
Lemma exn_b_got : nobtained exn_b [exn_R 98]. Proof. apply (nob_new 131072); [apply str_built; reflexivity|apply str_built; reflexivity|exact exn_b_eq]. Qed.
Lemma exn_glue : forall l r s Rl Rr, nobtained l Rl -> nobtained r Rr -> nplacedb l && nplacedb r && nsmallb s && negb (d_null (n_base s)) = true ->
  n_glue 196608 262144 exn_null l r 0 = Ok s -> nobtained s (Rl ++ Rr).
Proof.
  intros l r s Rl Rr Hl Hr B E. apply andb_true_iff in B as [B B4]. apply andb_true_iff in B as [B B3]. apply andb_true_iff in B as [B1 B2].
  exact (nob_glue 65536 196608 262144 exn_null l r Rl Rr 0 s Hl Hr (nplacedb_ok l B1) (nplacedb_ok r B2) exn_null_eq eq_refl E (proj1 (negb_true_iff _) B4) (nsmallb_ok s B3)).
Qed.
Lemma exn_ab_got : nobtained exn_ab [exn_R 97; exn_R 98].
Proof. apply (exn_glue exn_a exn_b exn_ab [exn_R 97] [exn_R 98] exn_a_got exn_b_got); [vm_compute; reflexivity|exact exn_ab_eq]. Qed.
(** Seventeen regexps *)
Definition exn_2 : nscanner := Eval vm_compute in ngd (n_glue 196608 262144 exn_null exn_a exn_a 0).
Definition exn_4 : nscanner := Eval vm_compute in ngd (n_glue 196608 262144 exn_null exn_2 exn_2 0).
Definition exn_8 : nscanner := Eval vm_compute in ngd (n_glue 196608 262144 exn_null exn_4 exn_4 0).
Definition exn_16 : nscanner := Eval vm_compute in ngd (n_glue 196608 262144 exn_null exn_8 exn_8 0).
Definition exn_17 : nscanner := Eval vm_compute in ngd (n_glue 196608 262144 exn_null exn_16 exn_b 0).
Lemma exn_17_got : nobtained exn_17 (repeat (exn_R 97) 16 ++ [exn_R 98]).
Proof.
  assert (H2 : nobtained exn_2 (repeat (exn_R 97) 2)) by (apply (exn_glue exn_a exn_a exn_2 [exn_R 97] [exn_R 97] exn_a_got exn_a_got); vm_compute; reflexivity).
  assert (H4 : nobtained exn_4 (repeat (exn_R 97) 4)) by (apply (exn_glue exn_2 exn_2 exn_4 (repeat (exn_R 97) 2) (repeat (exn_R 97) 2) H2 H2); vm_compute; reflexivity).
  assert (H8 : nobtained exn_8 (repeat (exn_R 97) 8)) by (apply (exn_glue exn_4 exn_4 exn_8 (repeat (exn_R 97) 4) (repeat (exn_R 97) 4) H4 H4); vm_compute; reflexivity).
  assert (H16 : nobtained exn_16 (repeat (exn_R 97) 16)) by (apply (exn_glue exn_8 exn_8 exn_16 (repeat (exn_R 97) 8) (repeat (exn_R 97) 8) H8 H8); vm_compute; reflexivity).
  apply (exn_glue exn_16 exn_b exn_17 (repeat (exn_R 97) 16) [exn_R 98] H16 exn_b_got); vm_compute; reflexivity.
Qed.
