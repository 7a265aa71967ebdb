(** Properties C21 and C22: SimpleScanner and SlowScanner.  [obtained_simple s Ls] and
    [obtained_slow s Ls] (SimpleApi.v): [s] comes from compiling, default construction and
    copying, and stands for the regexps with the languages [Ls] (one or none). *)
From Coq Require Import List Bool Arith NArith Lia Sorted.
From Verif Require Import Util Spec PartitionModel FsmModel DetermineModel MinimizeModel FsmSem Api
  RunModel RunSpec ScannerModel ScannerApi SimpleModel SimpleApi ScannerUser SimpleProofs SlowProofs SimpleUser.
Import ListNotations.
Local Open Scope N_scope.

(** ** C21 *)
(** No read leaves the table (reading anything else is UB in the model). *)
Theorem C21_simple_follows_language : forall s Ls, obtained_simple s Ls -> forall w, is_word w -> exists a,
  steps (simple_ops s) (p_initial s) w = Ok a /\
  (exists fin, simple_final s a = Ok fin /\ (fin = true <-> exists L, In L Ls /\ L w)) /\
  (exists ids, simple_accepted s a = Ok ids /\ StronglySorted N.lt ids /\
     forall i, In i ids <-> exists L, nth_error Ls (N.to_nat i) = Some L /\ L w).
Proof. exact obtained_simple_tells. Qed.
Print Assumptions C21_simple_follows_language.

Theorem C21_simple_count : forall s Ls, obtained_simple s Ls -> simple_count s = N.of_nat (length Ls).
Proof. exact obtained_simple_count. Qed.
Print Assumptions C21_simple_count.

Theorem C21_simple_compile_total : forall buf f, built f -> determined f = false -> user_address buf ->
  (exists s, simple_compile buf f = Ok s /\ obtained_simple s [accepts f]) \/ simple_compile buf f = Throw ETooComplicated.
Proof. exact simple_total. Qed.
Print Assumptions C21_simple_compile_total.

(** Run over a text in memory, and the prefix searches. *)
Theorem C21_simple_run : forall s Ls, obtained_simple s Ls -> forall (m : mem) b bs, text_at m b bs -> exists a fin,
  run (simple_ops s) m b (b + N.of_nat (length bs)) (p_initial s) = Ok a /\ simple_final s a = Ok fin /\
  (fin = true <-> exists L, In L Ls /\ L bs).
Proof.
  intros s Ls O m b bs T. rewrite RunProofs.run_ok by auto.
  destruct (obtained_simple_tells s Ls O bs) as (a & E & (fin & F & I) & _); [apply PrefixProofs.bytes_word, T|]. exists a, fin. auto.
Qed.
Print Assumptions C21_simple_run.

Theorem C21_simple_prefixes : forall s Ls, obtained_simple s Ls -> forall (m : mem) bm em b bs, text_at m b bs ->
  (exists r, shortest_prefix (simple_ops s) m bm em b (b + N.of_nat (length bs)) = Ok r /\
    shortest_result (fun u => any_of Ls (mark_if bm BeginMark ++ u)) em b bs r) /\
  (exists r, longest_prefix (simple_ops s) m bm em b (b + N.of_nat (length bs)) = Ok r /\
    longest_result (fun u => any_of Ls (mark_if bm BeginMark ++ u)) em b bs r).
Proof.
  intros s Ls O m bm em b bs T. destruct (obtained_simple_works s Ls O) as [V W]. split.
  - eapply tells_shortest; eauto. apply obtained_simple_tells; auto.
  - eapply tells_longest; eauto. apply obtained_simple_tells; auto.
Qed.
Print Assumptions C21_simple_prefixes.

(** (ab)+ *)
Definition exi_f : fsm := Eval vm_compute in fsm_cat (append_string fsm_new [97; 98]) (iterate (append_string fsm_new [97; 98])).
Lemma exi_built : built exi_f.
Proof.
  assert (X : built (append_string fsm_new [97; 98])).
  { apply built_string; [apply built_new|reflexivity|]. repeat constructor; try reflexivity; discriminate. }
  change exi_f with (fsm_cat (append_string fsm_new [97; 98]) (iterate (append_string fsm_new [97; 98]))).
  apply built_cat; auto. apply built_iterate; auto.
Qed.
Definition exi_s : simple := Eval vm_compute in match simple_compile 4096 exi_f with Ok s => s | _ => mkSimple 0 0 0 [] false false end.
Example exi_obtained : obtained_simple exi_s [accepts exi_f].
Proof. apply (os_compile 4096 exi_f); [apply exi_built|vm_compute; reflexivity|vm_compute; discriminate]. Qed.
Example C21_simple_example : obtained_simple exi_s [accepts exi_f] /\
  obtained_simple (simple_copy 1048576 exi_s) [accepts exi_f] /\
  (let s := simple_copy 1048576 exi_s in let* a := steps (simple_ops s) (p_initial s) [97; 98; 97; 98] in simple_accepted s a) = Ok [0] /\
  (let* a := steps (simple_ops exi_s) (p_initial exi_s) [97; 98; 97] in simple_accepted exi_s a) = Ok [] /\
  determined exi_f = false /\ user_address 4096.
Proof.
  split; [apply exi_obtained|]. split; [apply os_copy; [apply exi_obtained|vm_compute; discriminate]|].
  split; [vm_compute; reflexivity|]. split; [vm_compute; reflexivity|]. split; [reflexivity|]. split; vm_compute; [reflexivity|discriminate].
Qed.

(** ** C22 *)
Theorem C22_slow_follows_language : forall s Ls, obtained_slow s Ls -> forall w, is_word w -> exists st,
  steps (slow_ops s) [w_start s] w = Ok st /\
  (exists fin, slow_final s st = Ok fin /\ (fin = true <-> exists L, In L Ls /\ L w)) /\
  (exists ids, slow_accepted s st = Ok ids /\ StronglySorted N.lt ids /\
     forall i, In i ids <-> exists L, nth_error Ls (N.to_nat i) = Some L /\ L w).
Proof. exact obtained_slow_tells. Qed.
Print Assumptions C22_slow_follows_language.

(** Compiling never fails: there is no determinization. *)
Theorem C22_slow_compile_total : forall f, built f -> N.of_nat (size f) <= 4294967296 ->
  exists s, slow_compile f = Ok s /\ obtained_slow s [accepts f].
Proof. exact slow_total. Qed.
Print Assumptions C22_slow_compile_total.

Theorem C22_slow_count : forall s Ls, obtained_slow s Ls -> slow_count s = N.of_nat (length Ls).
Proof. exact obtained_slow_count. Qed.
Print Assumptions C22_slow_count.

(** Its own Run, which exchanges pointers to two states. *)
Theorem C22_slow_run : forall s Ls, obtained_slow s Ls -> forall (m : mem) w st b bs, is_word w ->
  steps (slow_ops s) [w_start s] w = Ok st -> holds m b bs -> exists st' fin,
  slow_run s m b (b + N.of_nat (length bs)) st = Ok st' /\ slow_final s st' = Ok fin /\
  (fin = true <-> exists L, In L Ls /\ L (w ++ bs)).
Proof.
  intros s Ls O m w st b bs Hw E H. rewrite (slow_run_steps s m bs b st H).
  destruct (obtained_slow_tells s Ls O (w ++ bs)) as (a & E' & (fin & F & I) & _).
  - apply Forall_app. split; auto. apply PrefixProofs.bytes_word, H.
  - rewrite RunProofs.steps_app in E'. change (o_init (slow_ops s)) with [w_start s] in E'. rewrite E in E'. exists a, fin. auto.
Qed.
Print Assumptions C22_slow_run.

Theorem C22_slow_prefixes : forall s Ls, obtained_slow s Ls -> forall (m : mem) bm em b bs, text_at m b bs ->
  (exists r, shortest_prefix (slow_ops s) m bm em b (b + N.of_nat (length bs)) = Ok r /\
    shortest_result (fun u => any_of Ls (mark_if bm BeginMark ++ u)) em b bs r) /\
  (exists r, longest_prefix (slow_ops s) m bm em b (b + N.of_nat (length bs)) = Ok r /\
    longest_result (fun u => any_of Ls (mark_if bm BeginMark ++ u)) em b bs r).
Proof.
  intros s Ls O m bm em b bs T. destruct (obtained_slow_works s Ls O) as [V W]. split.
  - eapply tells_shortest; eauto. apply obtained_slow_tells; auto.
  - eapply tells_longest; eauto. apply obtained_slow_tells; auto.
Qed.
Print Assumptions C22_slow_prefixes.

(** The three scanner types compiled from one automaton say the same about every text. *)
Theorem C22_scanners_agree : forall f k s1 s2 s3, obtained k s1 [accepts f] -> obtained_simple s2 [accepts f] -> obtained_slow s3 [accepts f] ->
  forall w, is_word w -> exists a1 a2 a3 fin,
  steps (scanner_ops k s1) (s_initial s1) w = Ok a1 /\ steps (simple_ops s2) (p_initial s2) w = Ok a2 /\ steps (slow_ops s3) [w_start s3] w = Ok a3 /\
  s_isfinal k s1 a1 = Ok fin /\ simple_final s2 a2 = Ok fin /\ slow_final s3 a3 = Ok fin.
Proof.
  intros f k s1 s2 s3 O1 O2 O3 w Hw.
  destruct (obtained_reports k s1 _ O1 w Hw) as (a1 & E1 & (f1 & F1 & I1) & _).
  destruct (obtained_simple_tells s2 _ O2 w Hw) as (a2 & E2 & (f2 & F2 & I2) & _).
  destruct (obtained_slow_tells s3 _ O3 w Hw) as (a3 & E3 & (f3 & F3 & I3) & _).
  assert (f2 = f1) by (apply bool_ext; rewrite I1, I2; tauto). assert (f3 = f1) by (apply bool_ext; rewrite I1, I3; tauto). subst f2 f3.
  exists a1, a2, a3, f1. repeat split; auto.
Qed.
Print Assumptions C22_scanners_agree.

Definition exi_l : slow := Eval vm_compute in match slow_compile exi_f with Ok s => s | _ => mkSlow 0 0 0 [] [] (InVec []) false end.
Example C22_example : obtained_slow exi_l [accepts exi_f] /\ obtained_slow (slow_copy exi_l) [accepts exi_f] /\
  (let* st := steps (slow_ops exi_l) [w_start exi_l] [97; 98; 97; 98] in slow_accepted exi_l st) = Ok [0] /\
  (let* st := steps (slow_ops exi_l) [w_start exi_l] [97; 98; 97] in slow_accepted exi_l st) = Ok [] /\
  steps (slow_ops exi_l) [w_start exi_l] [97; 97] = Ok [].
Proof.
  assert (X : obtained_slow exi_l [accepts exi_f]).
  { apply (ol_compile exi_f); [apply exi_built|vm_compute; discriminate|vm_compute; reflexivity]. }
  split; [exact X|]. split; [apply ol_copy; [exact X|reflexivity]|]. split; [|split]; vm_compute; reflexivity.
Qed.

(** Copying a default-constructed SlowScanner copies null pointers (slow.h:231-238): the
    first step of the copy dereferences one, although the original works. *)
Definition exi_d : slow := Eval vm_compute in match slow_default with Ok s => s | _ => exi_l end.
Theorem C22_copy_of_empty_refuted : exists s, slow_default = Ok s /\ obtained_slow s [] /\
  (exists st, slow_next s [w_start s] 97 = Ok st) /\ slow_next (slow_copy s) [w_start (slow_copy s)] 97 = UB.
Proof.
  assert (E : slow_default = Ok exi_d) by (vm_compute; reflexivity). exists exi_d. split; [exact E|]. split; [apply ol_default; exact E|].
  split; [exists []|]; vm_compute; reflexivity.
Qed.
Print Assumptions C22_copy_of_empty_refuted.
