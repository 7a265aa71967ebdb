(** Properties C23, C26, C27, C31: Run, prefix and suffix search, pair runs, for any
    scanner type that uses run.h's generic code. *)
From Coq Require Import List Bool Arith NArith Lia.
From Verif Require Import Util Spec RunModel RunSpec RunProofs PrefixProofs PairProofs.
Import ListNotations.
Local Open Scope N_scope.

(** ** C23 *)
(** Whatever the alignment of the text, Run does what stepping byte by byte does; reading
    any byte outside the text and the word containing its first byte would be UB. *)
Theorem C23_run_is_stepping : forall St (o : ops St) (m : mem) b bs st, text_at m b bs ->
  run o m b (b + N.of_nat (length bs)) st = steps o st bs.
Proof. exact run_ok. Qed.
Print Assumptions C23_run_is_stepping.

(** Cutting the text anywhere and running the pieces one after the other. *)
Theorem C23_run_split : forall St (o : ops St) (m : mem) b xs ys st, text_at m b (xs ++ ys) ->
  let mid := b + N.of_nat (length xs) in
  let e := b + N.of_nat (length (xs ++ ys)) in
  run o m b e st = let* st1 := run o m b mid st in run o m mid e st1.
Proof. exact run_split. Qed.
Print Assumptions C23_run_split.

(** Any number of pieces, each at its own (unrelated) address. *)
Theorem C23_run_pieces : forall St (o : ops St) (m : mem) (pieces : list (N * list N)) st,
  Forall (fun p => text_at m (fst p) (snd p)) pieces ->
  fold_left (fun acc p => let* s := acc in run o m (fst p) (fst p + N.of_nat (length (snd p))) s) pieces (Ok st)
  = steps o st (concat (map snd pieces)).
Proof. exact run_pieces. Qed.
Print Assumptions C23_run_pieces.

(** A text of 11 bytes at address 13, with nothing readable from 24 on. *)
Definition exr_text : list N := [120; 97; 97; 120; 120; 120; 97; 120; 120; 97; 120].
Definition exr_mem : mem := fun a => if (a <? 8) then None else if (a <? 13) then Some 7 else
  nth_error exr_text (N.to_nat (a - 13)).
(** A scanner for "the number of 'a's so far is even" *)
Definition exr_even : ops bool := mkOps true (fun s c => Ok (if c =? 97 then negb s else s))
  (fun s c => Ok (if c =? 97 then negb s else s)) (fun s => Ok s) (fun _ => Ok false).
Example C23_example : text_at exr_mem 13 exr_text /\ exr_mem 24 = None /\
  run exr_even exr_mem 13 24 true = Ok true /\ run exr_even exr_mem 13 18 true = Ok true /\
  run exr_even exr_mem 13 21 true = Ok false.
Proof.
  split; [|vm_compute; auto]. split; [|split].
  - intros a x. unfold exr_mem. destruct (a <? 8); [discriminate|]. destruct (a <? 13); [intros [= <-]; reflexivity|].
    intros H. apply nth_error_In in H. unfold byte. cbn in H. repeat (destruct H as [<-|H]; [reflexivity|]). destruct H.
  - split; [repeat constructor|]. intros i Hi. cbn in Hi. do 11 (destruct i as [|i]; [reflexivity|]). lia.
  - intros a [H1 H2]. change (13 / 8 * 8) with 8 in H1. unfold exr_mem.
    destruct (N.ltb_spec a 8); [lia|]. destruct (N.ltb_spec a 13); [discriminate|lia].
Qed.

(** ** C26 *)
Theorem C26_shortest_prefix : forall St (o : ops St) V, works o V -> forall (m : mem) bm em b bs, text_at m b bs ->
  exists r, shortest_prefix o m bm em b (b + N.of_nat (length bs)) = Ok r /\
    shortest_result (fun u => Accepts o (mark_if bm BeginMark ++ u)) em b bs r.
Proof. exact shortest_prefix_generic. Qed.
Print Assumptions C26_shortest_prefix.

Theorem C26_longest_prefix : forall St (o : ops St) V, works o V -> forall (m : mem) bm em b bs, text_at m b bs ->
  exists r, longest_prefix o m bm em b (b + N.of_nat (length bs)) = Ok r /\
    longest_result (fun u => Accepts o (mark_if bm BeginMark ++ u)) em b bs r.
Proof. exact longest_prefix_generic. Qed.
Print Assumptions C26_longest_prefix.

(** A scanner for x*ax* with a dead state: 0 before the a, 1 after it, 2 dead. *)
Definition exr_step (s : nat) (c : N) : res nat :=
  Ok (match s, c with 0%nat, 120 => 0%nat | 0%nat, 97 => 1%nat | 1%nat, 120 => 1%nat | _, _ => 2%nat end).
Definition exr_one : ops nat := mkOps 0%nat exr_step exr_step (fun s => Ok (Nat.eqb s 1)) (fun s => Ok (Nat.eqb s 2)).
Example exr_one_works : works exr_one (fun _ => True).
Proof.
  split; cbn; try eauto.
  { intros s c _ _. eexists. split; [reflexivity|auto]. }
  intros s _ H w s' _ E. injection H as H. apply Nat.eqb_eq in H. subst s.
  assert (s' = 2%nat) as ->; [|reflexivity]. revert E. induction w as [|c w IH]; cbn; [congruence|exact IH].
Qed.
Example C26_example : text_at exr_mem 13 exr_text /\ works exr_one (fun _ => True) /\
  shortest_prefix exr_one exr_mem false false 13 24 = Ok (Some 15) /\
  longest_prefix exr_one exr_mem false true 16 24 = Ok (Some 22) /\
  longest_prefix exr_one exr_mem false false 15 24 = Ok (Some 19) /\
  longest_prefix exr_one exr_mem true false 15 24 = Ok None.
Proof. split; [apply C23_example|]. split; [apply exr_one_works|]. vm_compute. auto. Qed.

(** ** C27 *)
Theorem C27_longest_suffix : forall St (o : ops St) V, works o V -> forall (m : mem) em bm re bs, holds m (re + 1) bs ->
  exists r, longest_suffix o m em bm (re + N.of_nat (length bs)) re = Ok r /\
    longest_suffix_result (fun u => Accepts o (mark_if em EndMark ++ u)) bm (re + N.of_nat (length bs)) bs r.
Proof. exact longest_suffix_ok. Qed.
Print Assumptions C27_longest_suffix.

Theorem C27_shortest_suffix : forall St (o : ops St) V, works o V -> forall (m : mem) em re bs, holds m (re + 1) bs ->
  exists r, shortest_suffix o m em false (re + N.of_nat (length bs)) re = Ok r /\
    shortest_suffix_result (fun u => Accepts o (mark_if em EndMark ++ u)) (re + N.of_nat (length bs)) bs r.
Proof. exact shortest_suffix_ok. Qed.
Print Assumptions C27_shortest_suffix.

(** With throughBeginMark ShortestSuffix feeds the begin mark even after stopping at an
    accepted suffix in the middle of the text: it then returns null although there is one. *)
Theorem C27_shortest_suffix_mark_refuted :
  exists (o : ops nat) (m : mem) re bs, works o (fun _ => True) /\ holds m (re + 1) bs /\
    shortest_suffix o m false true (re + N.of_nat (length bs)) re = Ok None /\
    exists k, (k <= length bs)%nat /\ Accepts o (firstn k (rev bs)).
Proof.
  exists exr_one, (fun a => nth_error [0; 120; 120; 97] (N.to_nat a)), 0, [120; 120; 97]. split; [apply exr_one_works|]. split.
  - split; [repeat constructor|]. intros i Hi. cbn in Hi. do 3 (destruct i as [|i]; [reflexivity|]). lia.
  - split; [reflexivity|]. exists 1%nat. split; [cbn; lia|]. exists 1%nat. auto.
Qed.
Print Assumptions C27_shortest_suffix_mark_refuted.

Example C27_example : works exr_one (fun _ => True) /\ holds exr_mem (12 + 1) exr_text /\
  longest_suffix exr_one exr_mem false false 23 12 = Ok (Some 19) /\
  shortest_suffix exr_one exr_mem false false 23 12 = Ok (Some 21) /\
  longest_suffix exr_one exr_mem true false 23 12 = Ok None.
Proof. split; [apply exr_one_works|]. split; [apply C23_example|]. vm_compute. auto. Qed.

(** ** C31 *)
Theorem C31_run_pair : forall A B (o1 : ops A) (o2 : ops B) (m : mem) b bs s1 s2 r1 r2, text_at m b bs ->
  let e := b + N.of_nat (length bs) in
  (run_pair o1 o2 m b e (s1, s2) = Ok (r1, r2) <-> run o1 m b e s1 = Ok r1 /\ run o2 m b e s2 = Ok r2).
Proof. exact run_pair_alone. Qed.
Print Assumptions C31_run_pair.

(** A ScannerPair is itself a scanner: it accepts what either of the two accepts, and is dead
    exactly when both are (so the searches above work on pairs). *)
Theorem C31_pair_is_a_scanner : forall A B (o1 : ops A) (o2 : ops B) V1 V2, works o1 V1 -> works o2 V2 ->
  works (pair_ops o1 o2) (fun s => V1 (fst s) /\ V2 (snd s)) /\
  (forall w, is_word w -> (Accepts (pair_ops o1 o2) w <-> Accepts o1 w \/ Accepts o2 w)) /\
  (forall a b, V1 a -> V2 b -> (o_dead (pair_ops o1 o2) (a, b) = Ok true <-> o_dead o1 a = Ok true /\ o_dead o2 b = Ok true)).
Proof. exact pair_ok. Qed.
Print Assumptions C31_pair_is_a_scanner.
Example C31_pair_example : works (pair_ops exr_one exr_one) (fun s => True /\ True) /\ o_dead (pair_ops exr_one exr_one) (2%nat, 0%nat) = Ok false.
Proof. split; [apply (proj1 (pair_ok _ _ exr_one exr_one _ _ exr_one_works exr_one_works))|reflexivity]. Qed.

Example C31_example : text_at exr_mem 13 exr_text /\
  run_pair exr_even exr_one exr_mem 13 24 (true, 0%nat) = Ok (true, 2%nat) /\
  run_pair exr_even exr_one exr_mem 17 23 (true, 0%nat) = Ok (true, 2%nat).
Proof. split; [apply C23_example|]. vm_compute. auto. Qed.
