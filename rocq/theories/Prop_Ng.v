(** Property C49: NoGlueLimitCountingScanner. *)
From Coq Require Import List Bool Arith NArith Lia.
From Verif Require Import Util Spec PartitionModel FsmModel DetermineModel MinimizeModel FsmSem Api
  RunModel RunSpec ScannerModel GlueModel CountModel CountSpec CountApi CountUser CountWitness AdvModel AdvSpec AdvWitness NgModel NgApi NgRun NgWitness.
Import ListNotations.
Local Open Scope N_scope.

(** However a NoGlueLimitCountingScanner was obtained, by the constructor, copying and gluing
    any number of them, Result(i) is what AdvancedCountingScanner gives for the i-th regexp and
    its separator alone; and both constructors fall back on the simplified automaton together. *)
Theorem C49_counts_as_advanced : forall s Rs w i re sep simple ba sa simple' n, nobtained s Rs -> nplaced s -> is_word w -> N.of_nat (length w) < two32 ->
  nth_error Rs i = Some (re, sep, simple) -> advanced_scanner ba re sep = Ok (sa, simple') -> dplaced sa ->
  simple = simple' /\ (ncounts s w i n <-> counts true sa w 0 n).
Proof. exact ng_as_advanced. Qed.
Print Assumptions C49_counts_as_advanced.

(** What is counted is there. *)
Theorem C49_never_too_many : forall s Rs w i re sep simple n, nobtained s Rs -> nplaced s -> Forall any_letter w -> N.of_nat (length w) < two32 ->
  nth_error Rs i = Some (re, sep, simple) -> ncounts s w i (N.of_nat n) -> repeats (accepts re) (accepts sep) w n.
Proof. exact ng_sound. Qed.
Print Assumptions C49_never_too_many.

(** If some non-empty word of the regexp occurs, at least one is counted, unless its separator
    matches nothing or its automaton was simplified. *)
Theorem C49_finds_one : forall s Rs w i re sep n u, nobtained s Rs -> nplaced s -> Forall any_letter w -> N.of_nat (length w) < two32 ->
  nth_error Rs i = Some (re, sep, false) -> ncounts s w i (N.of_nat n) -> accepts sep u ->
  (exists x r y, w = x ++ r ++ y /\ r <> [] /\ accepts re r) -> (1 <= n)%nat.
Proof. exact ng_finds. Qed.
Print Assumptions C49_finds_one.

(** It runs over every text, of whatever length, without reading or writing outside its arrays,
    and has a Result for each regexp. *)
Theorem C49_runs : forall s Rs w, nobtained s Rs -> nplaced s -> is_word w -> exists st, steps (n_ops s) (n_init s) w = Ok st /\ n_count s = N.of_nat (length Rs) /\
  forall i, (i < length Rs)%nat -> exists n, n_result st i = Ok n.
Proof. exact ng_runs. Qed.
Print Assumptions C49_runs.

(** Glue always returns: a scanner for all the regexps of both, however many, or an empty one
    precisely if there are more pairs of rows than it was allowed. *)
Theorem C49_glue : forall b0 b1 b2 null l r Rl Rr maxSize, nobtained l Rl -> nobtained r Rr -> nplaced l -> nplaced r -> n_default b0 = Ok null -> dlimit maxSize + 1 < two32 ->
  exists s, n_glue b1 b2 null l r maxSize = Ok s /\
    (d_null (n_base s) = false /\ n_count s = n_count l + n_count r /\ ~ many (n_base l) (n_base r) (dlimit maxSize + 2) \/
     s = null /\ n_count s = 0 /\ many (n_base l) (n_base r) (dlimit maxSize + 2)).
Proof. exact ng_glue_total. Qed.
Print Assumptions C49_glue.

Example C49_example : nobtained exn_ab [(str [97], str [44], false); (str [98], str [44], false)] /\ nplaced exn_ab /\ Forall any_letter exn_w /\
  ncounts exn_ab exn_w 0 2 /\ ncounts exn_ab exn_w 1 3 /\ advanced_scanner 65536 (str [97]) (str [44]) = Ok (exa_s, false) /\ dplaced exa_s /\ accepts (str [44]) [44].
Proof.
  split; [exact exn_ab_got|]. split; [apply nplacedb_ok; vm_compute; reflexivity|]. split; [apply any_lettersb; reflexivity|].
  split; [apply ng_of_ok; vm_compute; reflexivity|]. split; [apply ng_of_ok; vm_compute; reflexivity|]. split; [exact exa_eq|]. split; [exact exa_placed|apply str_word; reflexivity].
Qed.
(** Seventeen regexps, one more than the other counting scanners allow *)
Example C49_example_17 : nobtained exn_17 (repeat (str [97], str [44], false) 16 ++ [(str [98], str [44], false)]) /\ nplaced exn_17 /\ n_count exn_17 = 17 /\
  ncounts exn_17 exn_w 3 2 /\ ncounts exn_17 exn_w 16 3 /\ n_default 65536 = Ok exn_null.
Proof.
  split; [exact exn_17_got|]. split; [apply nplacedb_ok; vm_compute; reflexivity|]. split; [vm_compute; reflexivity|].
  split; [apply ng_of_ok; vm_compute; reflexivity|]. split; [apply ng_of_ok; vm_compute; reflexivity|exact exn_null_eq].
Qed.
