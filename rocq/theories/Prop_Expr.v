(** Property C01: a compiled expression matches exactly its language.  [expr] (Expr.v) is the
    syntax of building calls, [den] what an expression denotes, [build] the automaton the
    calls return, [sane] the documented subset. *)
From Coq Require Import List Bool Arith NArith Lia.
From Verif Require Import Util Spec PartitionModel FsmModel DetermineModel MinimizeModel FsmSem Api Check
  RunModel RunSpec ScannerModel ScannerSpec ScannerApi SimpleModel SimpleApi ScannerUser SimpleUser Expr ExprProofs.
Import ListNotations.
Local Open Scope N_scope.

(** Building gives an automaton for the language, or throws because a ~ or & had to
    determinize an automaton and gave up. *)
Theorem C01_build : forall e, sane e ->
  (exists f, build e = Ok f /\ built f /\ forall w, accepts f w <-> den e w) \/ (build e = Throw ETooComplicated /\ has_not e).
Proof.
  intros e S. destruct (build_ok e S) as [(f & E & B & L & _)|H]; auto. left. exists f. auto.
Qed.
Print Assumptions C01_build.

(** Scanner, NonrelocScanner, ScannerNoMask, NonrelocScannerNoMask. *)
Theorem C01_scanner : forall e f k buf, sane e -> build e = Ok f -> (k_nmask k <= 64)%nat -> user_address buf ->
  compile k buf f = Throw ETooComplicated \/
  exists s, compile k buf f = Ok s /\ forall w, is_word w -> exists a fin,
    steps (scanner_ops k s) (s_initial s) w = Ok a /\ s_isfinal k s a = Ok fin /\ (fin = true <-> den e w).
Proof.
  intros e f k buf S E Hn Hu. destruct (build_ok e S) as [(f' & E' & B & L & _)|[E' _]]; [|congruence].
  assert (f' = f) by congruence. subst f'. destruct Hu as [U1 U2].
  destruct (ScannerCompile.compile_total k buf f B Hn (build_undetermined e f E)) as [(s & C & _ & _ & P)|C]; auto.
  pose proof (ob_compile k buf f s Hn B C (P U1 U2)) as O.
  right. exists s. split; auto. intros w Hw. destruct (obtained_reports k s _ O w Hw) as (a & X & (fin & F & I) & _). exists a, fin.
  split; auto. split; auto. rewrite I, any_of_one. apply L.
Qed.
Print Assumptions C01_scanner.

Theorem C01_simple_scanner : forall e f buf, sane e -> build e = Ok f -> user_address buf ->
  simple_compile buf f = Throw ETooComplicated \/
  exists s, simple_compile buf f = Ok s /\ forall w, is_word w -> exists a fin,
    steps (simple_ops s) (p_initial s) w = Ok a /\ simple_final s a = Ok fin /\ (fin = true <-> den e w).
Proof.
  intros e f buf S E Hu. destruct (build_ok e S) as [(f' & E' & B & L & _)|[E' _]]; [|congruence].
  assert (f' = f) by congruence. subst f'. destruct (simple_total buf f B (build_undetermined e f E) Hu) as [(s & C & O)|C]; auto.
  right. exists s. split; auto. intros w Hw. destruct (obtained_simple_tells s _ O w Hw) as (a & X & (fin & F & I) & _). exists a, fin.
  split; auto. split; auto. rewrite I, any_of_one. apply L.
Qed.
Print Assumptions C01_simple_scanner.

(** SlowScanner always compiles. *)
Theorem C01_slow_scanner : forall e f, sane e -> build e = Ok f -> N.of_nat (size f) <= 4294967296 ->
  exists s, slow_compile f = Ok s /\ forall w, is_word w -> exists a fin,
    steps (slow_ops s) [w_start s] w = Ok a /\ slow_final s a = Ok fin /\ (fin = true <-> den e w).
Proof.
  intros e f S E Hs. destruct (build_ok e S) as [(f' & E' & B & L & _)|[E' _]]; [|congruence].
  assert (f' = f) by congruence. subst f'. destruct (slow_total f B Hs) as (s & C & O).
  exists s. split; auto. intros w Hw. destruct (obtained_slow_tells s _ O w Hw) as (a & X & (fin & F & I) & _). exists a, fin.
  split; auto. split; auto. rewrite I, any_of_one. apply L.
Qed.
Print Assumptions C01_slow_scanner.

(** ((a|bc)* & ~(any a a any)) x *)
Definition exe : expr := XCat (XAnd (XStar (XOr (XAppend XEmpty 97) (XString XEmpty [98; 99]))) (XNot (XSurround (XString XEmpty [97; 97])))) (XAppend XEmpty 120).
Definition exe_f : fsm := Eval vm_compute in match build exe with Ok f => f | _ => fsm_new end.
Example exe_sane : sane exe.
Proof. cbn. unfold letter, is_word. repeat split; auto; try discriminate; repeat constructor; try reflexivity; discriminate. Qed.
Example exe_build : build exe = Ok exe_f.
Proof. vm_compute. reflexivity. Qed.
Example exe_in : den exe [97; 98; 99; 97; 120] /\ accepts exe_f [97; 98; 99; 97; 120].
Proof.
  assert (X : accepts exe_f [97; 98; 99; 97; 120]) by (apply (accepts_b_true _ _ 100); vm_compute; reflexivity).
  split; auto. destruct (C01_build exe exe_sane) as [(f & E & _ & L)|[E _]]; rewrite exe_build in E; [|discriminate].
  apply ok_inj' in E. subst f. apply L, X.
Qed.
Example exe_out : ~ den exe [97; 97; 120].
Proof.
  destruct (C01_build exe exe_sane) as [(f & E & _ & L)|[E _]]; rewrite exe_build in E; [|discriminate].
  apply ok_inj' in E. subst f. rewrite <- L. apply (accepts_b_false _ _ 100). vm_compute. reflexivity.
Qed.

(** Outside the subset: a + Fsm() denotes the word a, and its automaton accepts nothing. *)
Theorem C01_empty_operand_refuted : exists e f w, build e = Ok f /\ den e w /\ forall v, ~ accepts f v.
Proof.
  exists (XCat (XAppend XEmpty 97) XEmpty), (fsm_cat (append_special fsm_new 97) fsm_new). destruct cat_new_empty as (w & D & H).
  exists w. split; [reflexivity|]. split; [exact D|exact H].
Qed.
Print Assumptions C01_empty_operand_refuted.
