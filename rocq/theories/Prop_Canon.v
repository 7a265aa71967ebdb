(** Properties C08, C09, C14-C19: complement, intersection, epsilon removal, letter
    classes, Determine, Minimize, Canonize. *)
From Coq Require Import List Bool Arith NArith Lia.
From Verif Require Import Util Spec PartitionModel FsmModel DetermineModel MinimizeModel Nfa FsmSem Api Check BuildFacts.
Import ListNotations.

(** Automata used by the examples: a|bc and (a|bc)a* *)
Definition exc_alt : fsm := fsm_or (append_special fsm_new 97) (append_string fsm_new [98; 99]%N).
Definition exc_tail : fsm := append_special exc_alt 97.
Example exc_built : built exc_alt /\ built exc_tail.
Proof.
  assert (A : built exc_alt).
  { apply built_or; [apply built_append|apply built_string]; try apply built_new; try reflexivity.
    - split; [reflexivity|discriminate].
    - repeat apply Forall_cons; try apply Forall_nil; (split; [reflexivity|discriminate]). }
  split; [exact A|]. apply built_append; [exact A|reflexivity|split; [reflexivity|discriminate]].
Qed.

(** ** C08: Complement *)
Theorem C08_complement : forall f, built f ->
  (exists g, complement f = Ok g /\ built g /\ forall w, accepts g w <-> is_word w /\ ~ accepts f w) \/
  (complement f = Throw ETooComplicated /\ exists g, determine f 0 = Ok (false, g)).
Proof. exact f_complement. Qed.
Print Assumptions C08_complement.

(** Up to 17 states complementing never throws. *)
Theorem C08_complement_small : forall f, built f -> size f <= 17 -> exists g, complement f = Ok g.
Proof. exact f_complement_small. Qed.
Print Assumptions C08_complement_small.

Example C08_example : built exc_alt /\ size exc_alt <= 17 /\
  accepts (got fsm_new (complement exc_alt)) [98]%N /\ accepts (got fsm_new (complement exc_alt)) [259; 0]%N /\
  ~ accepts (got fsm_new (complement exc_alt)) [98; 99]%N.
Proof.
  split; [apply exc_built|]. split; [vm_compute; lia|]. repeat split.
  - apply (accepts_b_true _ _ 100). vm_compute. reflexivity.
  - apply (accepts_b_true _ _ 100). vm_compute. reflexivity.
  - apply (accepts_b_false _ _ 100). vm_compute. reflexivity.
Qed.

(** ** C09: operator& *)
Theorem C09_intersection : forall a b, built a -> built b ->
  (exists g, fsm_and a b = Ok g /\ built g /\ lang_eq (accepts g) (L_and (accepts a) (accepts b))) \/
  fsm_and a b = Throw ETooComplicated.
Proof. exact f_and. Qed.
Print Assumptions C09_intersection.

Example C09_example : built exc_alt /\ built exc_tail /\
  accepts (got fsm_new (fsm_and exc_alt (fsm_or exc_tail (append_string fsm_new [98; 99]%N)))) [98; 99]%N /\
  ~ accepts (got fsm_new (fsm_and exc_alt (fsm_or exc_tail (append_string fsm_new [98; 99]%N)))) [97; 97]%N.
Proof.
  split; [apply exc_built|]. split; [apply exc_built|]. split.
  - apply (accepts_b_true _ _ 100). vm_compute. reflexivity.
  - apply (accepts_b_false _ _ 100). vm_compute. reflexivity.
Qed.

(** ** C14: RemoveEpsilons *)
Theorem C14_remove_epsilons : forall f, built f ->
  lang_eq (accepts (remove_epsilons f)) (accepts f) /\
  (forall p q, ~ edge (remove_epsilons f) p Epsilon q) /\
  size (remove_epsilons f) = size f.
Proof. exact f_noeps. Qed.
Print Assumptions C14_remove_epsilons.

Example C14_example : built (iterate exc_alt) /\ (exists p q, edge (iterate exc_alt) p Epsilon q) /\
  accepts (remove_epsilons (iterate exc_alt)) [97; 98; 99]%N.
Proof.
  split; [apply built_iterate, exc_built|]. split.
  - exists 5, 0. vm_compute. auto.
  - apply (accepts_b_true _ _ 100). vm_compute. reflexivity.
Qed.

(** ** C15: letter classes *)
Theorem C15_every_letter_has_a_class : forall f c, letter c -> exists r i,
  part_rep (letters (sparse f)) c = Some r /\
  part_index (letters (sparse f)) c = Ok i /\ i < part_size (letters (sparse f)).
Proof. exact f_classes_total. Qed.
Print Assumptions C15_every_letter_has_a_class.

Theorem C15_same_class_iff_same_columns : forall f c d i j,
  part_index (letters (sparse f)) c = Ok i -> part_index (letters (sparse f)) d = Ok j ->
  (i = j <-> forall p, p < size f -> mfind c (row_at f p) = mfind d (row_at f p)).
Proof. exact f_classes_exact. Qed.
Print Assumptions C15_same_class_iff_same_columns.

Theorem C15_no_empty_class : forall f i, i < part_size (letters (sparse f)) ->
  exists c, letter c /\ part_index (letters (sparse f)) c = Ok i.
Proof. exact f_classes_onto. Qed.
Print Assumptions C15_no_empty_class.

Theorem C15_unsparse_restores : forall f, built f -> forall p c q,
  (In q (row_get (row_at (unsparse (sparse f)) p) c) <-> In q (row_get (row_at f p) c)).
Proof. exact f_unsparse. Qed.
Print Assumptions C15_unsparse_restores.

Example C15_example : built exc_alt /\ part_size (letters (sparse exc_alt)) = 4 /\
  part_index (letters (sparse exc_alt)) 98 = Ok 2 /\ part_index (letters (sparse exc_alt)) 258 = Ok 0.
Proof. split; [apply exc_built|]. repeat split; vm_compute; reflexivity. Qed.

(** ** C16: Determine keeps the language and returns a deterministic automaton *)
Theorem C16_determine : forall f maxsize b g, built f -> determined f = false -> determine f maxsize = Ok (b, g) ->
  lang_eq (accepts g) (accepts f) /\
  (b = true -> deterministic g /\ (forall p q, ~ edge g p Epsilon q) /\
               (N.of_nat (size g) <= (if N.eqb maxsize 0 then 200000 else maxsize) + 1)%N /\ size g <= 2 ^ size f /\
               forall q, q < size g -> exists w, is_word w /\ path (edge g) (initial g) w q).
Proof. exact f_determine. Qed.
Print Assumptions C16_determine.

Example C16_example : built (iterate exc_tail) /\ determined (iterate exc_tail) = false /\
  match determine (iterate exc_tail) 0 with Ok (true, g) => size g = 6 | _ => False end.
Proof. split; [apply built_iterate, exc_built|]. split; vm_compute; reflexivity. Qed.

(** ** C17: Determine always returns, and fails only when too many subsets are reachable *)
Theorem C17_determine_total : forall f maxsize, built f -> exists b g, determine f maxsize = Ok (b, g).
Proof. exact f_determine_total. Qed.
Print Assumptions C17_determine_total.

Theorem C17_determine_fails : forall f maxsize g, built f -> determine f maxsize = Ok (false, g) ->
  lang_eq (accepts g) (accepts f) /\
  exists ss : list (list nat), NoDup ss /\
    (N.of_nat (length ss) = (if N.eqb maxsize 0 then 200000 else maxsize) + 2)%N /\
    forall s, In s ss -> ssorted s /\ exists w, is_word w /\ forall q, In q s <-> path (edge g) (initial g) w q.
Proof. exact f_determine_fails. Qed.
Print Assumptions C17_determine_fails.

Theorem C17_determine_succeeds : forall f maxsize, built f ->
  (2 ^ N.of_nat (size f) <= (if N.eqb maxsize 0 then 200000 else maxsize) + 1)%N ->
  exists g, determine f maxsize = Ok (true, g).
Proof. exact f_determine_succeeds. Qed.
Print Assumptions C17_determine_succeeds.

(** Both outcomes occur. *)
Example C17_example : built (iterate exc_tail) /\
  match determine (iterate exc_tail) 2 with Ok (false, _) => True | _ => False end /\
  match determine (iterate exc_tail) 5 with Ok (true, _) => True | _ => False end.
Proof. split; [apply built_iterate, exc_built|]. split; vm_compute; exact I. Qed.

(** ** C18: Minimize *)
Theorem C18_minimize : forall f, built f -> determined f = true -> exists g, minimize f = Ok g /\
  lang_eq (accepts g) (accepts f) /\ deterministic g /\ size g <= size f /\
  (forall x y, x < size g -> y < size g -> x <> y ->
     ~ (forall w, is_word w -> ((exists q, path (edge g) x w q /\ In q (finals g)) <->
                                (exists q, path (edge g) y w q /\ In q (finals g))))).
Proof. exact f_minimize. Qed.
Print Assumptions C18_minimize.

Definition exc_det : fsm := match determine (iterate exc_tail) 0 with Ok (_, g) => g | _ => fsm_new end.
Example C18_example : built exc_det /\ determined exc_det = true /\ size exc_det = 6 /\
  match minimize exc_det with Ok g => size g = 4 | _ => False end.
Proof.
  split.
  - apply (built_determine (iterate exc_tail) _ true 0); [apply built_iterate, exc_built|].
    unfold exc_det. destruct (determine (iterate exc_tail) 0) as [[b g]| | |] eqn:E; vm_compute in E; [|discriminate..].
    injection E as <- <-. reflexivity.
  - split; [|split]; vm_compute; reflexivity.
Qed.

(** ** C19: Canonize gives the minimal automaton, unique up to renaming of states *)
Theorem C19_canonize_minimal : forall f maxsize, built f ->
  (exists g, canonize f maxsize = Ok g /\ lang_eq (accepts g) (accepts f) /\ deterministic g /\
     forall d, dfa_valid d -> dfa_recognises d (accepts f) -> size g <= dfa_states d) \/
  (canonize f maxsize = Throw ETooComplicated /\ exists g, determine f maxsize = Ok (false, g)).
Proof. exact f_canonize. Qed.
Print Assumptions C19_canonize_minimal.

Theorem C19_canonize_unique : forall f1 f2 m1 m2 g1 g2, built f1 -> built f2 ->
  lang_eq (accepts f1) (accepts f2) -> canonize f1 m1 = Ok g1 -> canonize f2 m2 = Ok g2 ->
  exists h, isomorphic g1 g2 h.
Proof. exact f_canonical. Qed.
Print Assumptions C19_canonize_unique.

Example C19_example : built (iterate exc_alt) /\ built (iterate (iterate exc_alt)) /\
  match canonize (iterate exc_alt) 0, canonize (iterate (iterate exc_alt)) 0 with
  | Ok g1, Ok g2 => size g1 = 3 /\ size g2 = 3
  | _, _ => False
  end.
Proof. split; [|split]; [repeat apply built_iterate; apply exc_built..|]. vm_compute. split; reflexivity. Qed.
