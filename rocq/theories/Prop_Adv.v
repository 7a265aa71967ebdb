(** Property C48: AdvancedCountingScanner. *)
From Coq Require Import List Bool Arith NArith Lia.
From Verif Require Import Util Spec PartitionModel FsmModel DetermineModel MinimizeModel FsmSem Api
  RunModel RunSpec ScannerModel GlueModel CountModel CountSpec CountApi CountUser CountWitness AdvModel AdvSpec AdvMain AdvFinds AdvWitness.
Import ListNotations.
Local Open Scope N_scope.

(** What is counted is there: Result is never more than the length of the longest chain of
    words of re separated by words of sep.  The text consists of bytes and marks; there are to
    be at most 256 classes of letters, and the text is to be shorter than 2^32. *)
Theorem C48_never_too_many : forall buf re sep s simple w n, built re -> built sep -> advanced_scanner buf re sep = Ok (s, simple) ->
  dplaced s -> d_nletters s <= 256 -> Forall any_letter w -> N.of_nat (length w) < two32 ->
  counts true s w 0 (N.of_nat n) -> repeats (accepts re) (accepts sep) w n.
Proof. exact advanced_sound. Qed.
Print Assumptions C48_never_too_many.

(** The reverse fails: 1 for "aaba" with re = a|aab and sep = b, where a b a is there. *)
Theorem C48_never_too_few_refuted : exists buf re sep s w n m, built re /\ built sep /\ advanced_scanner buf re sep = Ok (s, false) /\ dplaced s /\ Forall any_letter w /\
  counts true s w 0 (N.of_nat n) /\ repeats (accepts re) (accepts sep) w m /\ (n < m)%nat.
Proof. exact adv_under_counted. Qed.
Print Assumptions C48_never_too_few_refuted.
(** What is left of it: if some non-empty word of re occurs, at least one is counted, provided
    the separator matches something and the constructor has not fallen back on the simplified
    automaton (which it tells by its last argument). *)
Theorem C48_finds_one : forall buf re sep s w n u, built re -> built sep -> advanced_scanner buf re sep = Ok (s, false) ->
  dplaced s -> d_nletters s <= 256 -> Forall any_letter w -> N.of_nat (length w) < two32 ->
  counts true s w 0 (N.of_nat n) -> accepts sep u -> (exists x r y, w = x ++ r ++ y /\ r <> [] /\ accepts re r) -> (1 <= n)%nat.
Proof. exact advanced_finds. Qed.
Print Assumptions C48_finds_one.
(** With a separator that matches nothing, nothing is found. *)
Theorem C48_finds_one_refuted : exists buf re sep s w, built re /\ built sep /\ advanced_scanner buf re sep = Ok (s, false) /\ dplaced s /\ Forall any_letter w /\
  counts true s w 0 0 /\ exists x r y, w = x ++ r ++ y /\ r <> [] /\ accepts re r.
Proof. exact adv_not_found. Qed.
Print Assumptions C48_finds_one_refuted.

(** The constructor returns a scanner or throws, unless the automaton has 2^32 states. *)
Theorem C48_constructor : forall buf re sep, built re -> built sep ->
  (exists s simple, advanced_scanner buf re sep = Ok (s, simple)) \/ advanced_scanner buf re sep = Throw ETooComplicated \/
  advanced_scanner buf re sep = UB /\ exists f r0 dead t simple, counting_nfa re sep = Ok (f, r0) /\ dead_states f = Ok dead /\
    counting_determine f r0 dead = Ok (t, simple) /\ two32 <= N.of_nat (cf_size t).
Proof. exact (make_total advanced_remap). Qed.
Print Assumptions C48_constructor.
(** The scanner runs over every text, and gives some Result. *)
Theorem C48_runs : forall buf re sep s simple w, built re -> built sep -> advanced_scanner buf re sep = Ok (s, simple) -> dplaced s ->
  is_word w -> N.of_nat (length w) < two32 -> exists n, counts true s w 0 (N.of_nat n).
Proof.
  intros buf re sep s simple w Br Bs E P Hw L. destruct (counting_result true s w 0 (counting_advanced buf re sep s simple Br Bs E) P Hw L) as (acts & n & _ & _ & H); [lia|]. exists n. exact H.
Qed.
Print Assumptions C48_runs.

Example C48_example : built (str [97]) /\ built (str [44]) /\ advanced_scanner 65536 (str [97]) (str [44]) = Ok (exa_s, false) /\ dplaced exa_s /\
  d_nletters exa_s <= 256 /\ Forall any_letter exa_w /\ counts true exa_s exa_w 0 3 /\ repeats (accepts (str [97])) (accepts (str [44])) exa_w 3 /\ accepts (str [44]) [44].
Proof.
  split; [apply str_built; reflexivity|]. split; [apply str_built; reflexivity|]. split; [exact exa_eq|]. split; [exact exa_placed|]. split; [discriminate|].
  split; [apply any_lettersb; reflexivity|]. split; [apply adv_of_ok; vm_compute; reflexivity|]. split; [exact exa_repeats|apply str_word; reflexivity].
Qed.
