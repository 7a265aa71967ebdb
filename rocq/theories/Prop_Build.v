(** Properties C02-C07, C10-C13, C20: the building calls.  [built f] ranges over every
    automaton the public API can produce (Api.v); [accepts f w] says that some path from
    the initial to a final state spells w (FsmSem.v, Nfa.v); the L_* languages are in
    Spec.v. *)
From Coq Require Import List Bool Arith NArith Lia.
From Verif Require Import Util Spec PartitionModel FsmModel DetermineModel MinimizeModel Nfa FsmSem Api Check DeadProofs BuildFacts.
Import ListNotations.

(** The automata used by the examples: a, abc, (a|bc)*, ~a *)
Definition ex_a : fsm := append_special fsm_new 97.
Definition ex_abc : fsm := append_string fsm_new [97; 98; 99]%N.
Definition ex_bc : fsm := append_string fsm_new [98; 99]%N.
Definition ex_alt : fsm := fsm_or ex_a ex_bc.
Definition ex_star : fsm := iterate ex_alt.
Example ex_letters : letter 97 /\ is_word [98; 99]%N /\ is_word [97; 98; 99]%N.
Proof. repeat split; try discriminate; repeat apply Forall_cons; try apply Forall_nil; split; try reflexivity; discriminate. Qed.
Example ex_built : built ex_a /\ built ex_abc /\ built ex_bc /\ built ex_alt /\ built ex_star.
Proof.
  assert (A : built ex_a) by (apply built_append; [apply built_new|reflexivity|apply ex_letters]).
  assert (B : built ex_bc) by (apply built_string; [apply built_new|reflexivity|apply ex_letters]).
  assert (C : built ex_abc) by (apply built_string; [apply built_new|reflexivity|apply ex_letters]).
  assert (D : built ex_alt) by (apply built_or; assumption).
  exact (conj A (conj C (conj B (conj D (built_iterate _ D))))).
Qed.

(** ** C02: Append, AppendSpecial, Append(str), AppendDot *)
Theorem C02_append_letter : forall f c, built f -> uncompressed f -> letter c ->
  lang_eq (accepts (append_special f c)) (L_cat (accepts f) (L_letter c)).
Proof. exact f_append. Qed.
Print Assumptions C02_append_letter.

Theorem C02_append_string : forall f s, built f -> uncompressed f -> is_word s ->
  lang_eq (accepts (append_string f s)) (L_cat (accepts f) (L_word s)).
Proof. exact f_append_string. Qed.
Print Assumptions C02_append_string.

Theorem C02_append_dot : forall f, built f -> uncompressed f ->
  lang_eq (accepts (append_dot f)) (L_cat (accepts f) L_anybyte).
Proof. exact f_append_dot. Qed.
Print Assumptions C02_append_dot.

(** Without the uncompressed premise the claim is false: (~a).Append('x') loses the x. *)
Theorem C02_append_compressed_refuted : exists f c, built f /\ letter c /\
  ~ lang_eq (accepts (append_special f c)) (L_cat (accepts f) (L_letter c)).
Proof. exact f_append_refuted. Qed.
Print Assumptions C02_append_compressed_refuted.

Example C02_example : built ex_star /\ uncompressed ex_star /\ letter 97 /\
  accepts (append_special ex_star 97) [98; 99; 97]%N /\ ~ accepts (append_special ex_star 97) [98; 99]%N /\
  accepts (append_dot ex_star) [98; 99; 0]%N.
Proof.
  split; [apply ex_built|]. split; [reflexivity|]. split; [apply ex_letters|]. split; [|split].
  - apply (accepts_b_true _ _ 100). vm_compute. reflexivity.
  - apply (accepts_b_false _ _ 100). vm_compute. reflexivity.
  - apply (accepts_b_true _ _ 100). vm_compute. reflexivity.
Qed.

(** ** C03: AppendStrings *)
Theorem C03_append_strings : forall f strs, built f -> uncompressed f ->
  (forall s, In s strs -> s <> [] /\ Forall byte s) ->
  exists g, append_strings f strs = Ok g /\ built g /\
    lang_eq (accepts g) (L_cat (accepts f) (L_oneof strs)).
Proof. exact f_append_strings. Qed.
Print Assumptions C03_append_strings.

Theorem C03_append_strings_empty : forall f strs, In [] strs -> append_strings f strs = Throw EEmptyString.
Proof. exact FsmStrings.append_strings_empty. Qed.
Print Assumptions C03_append_strings_empty.

Example C03_example : let strs := [[97; 98; 99]; [97; 98]; [100]; [97; 99; 99]]%N in
  (forall s, In s strs -> s <> [] /\ Forall byte s) /\
  match append_strings ex_star strs with
  | Ok g => accepts g [97; 97; 98]%N /\ accepts g [100]%N /\ accepts g [97; 97; 99; 99]%N /\ ~ accepts g [99; 99]%N
  | _ => False
  end.
Proof.
  cbv zeta. split.
  - cbn. intros s [<-|[<-|[<-|[<-|[]]]]]; (split; [discriminate|repeat constructor]).
  - destruct (append_strings ex_star _) as [g| | |] eqn:E; vm_compute in E; [|discriminate..].
    injection E as <-. repeat split.
    + apply (accepts_b_true _ _ 100). vm_compute. reflexivity.
    + apply (accepts_b_true _ _ 100). vm_compute. reflexivity.
    + apply (accepts_b_true _ _ 100). vm_compute. reflexivity.
    + apply (accepts_b_false _ _ 100). vm_compute. reflexivity.
Qed.

(** ** C04: operator+ *)
Theorem C04_concatenation : forall a b, built a -> built b -> ~ In (initial b) (finals b) ->
  lang_eq (accepts (fsm_cat a b)) (L_cat (accepts a) (accepts b)).
Proof. exact f_cat. Qed.
Print Assumptions C04_concatenation.

(** Whatever b is, no wrong word is accepted and only v = "" can be lost. *)
Theorem C04_concatenation_sound : forall a b w, built a -> built b ->
  accepts (fsm_cat a b) w -> L_cat (accepts a) (accepts b) w.
Proof. exact f_cat_sound. Qed.
Print Assumptions C04_concatenation_sound.

Theorem C04_concatenation_nonempty : forall a b u v, built a -> built b ->
  accepts a u -> accepts b v -> v <> [] -> accepts (fsm_cat a b) (u ++ v).
Proof. exact f_cat_complete. Qed.
Print Assumptions C04_concatenation_nonempty.

(** a + Fsm() accepts nothing at all. *)
Theorem C04_empty_operand_refuted : exists a b w, built a /\ built b /\
  L_cat (accepts a) (accepts b) w /\ forall v, ~ accepts (fsm_cat a b) v.
Proof. exact f_cat_refuted. Qed.
Print Assumptions C04_empty_operand_refuted.

Example C04_example : built ex_star /\ built ex_alt /\ ~ In (initial ex_alt) (finals ex_alt) /\
  accepts (fsm_cat ex_star ex_alt) [97; 98; 99]%N /\ ~ accepts (fsm_cat ex_star ex_alt) [].
Proof.
  split; [apply ex_built|]. split; [apply ex_built|]. split; [vm_compute; intuition discriminate|]. split.
  - apply (accepts_b_true _ _ 100). vm_compute. reflexivity.
  - apply (accepts_b_false _ _ 100). vm_compute. reflexivity.
Qed.

(** ** C05: operator| *)
Theorem C05_union : forall a b, built a -> built b ->
  lang_eq (accepts (fsm_or a b)) (L_or (accepts a) (accepts b)).
Proof. exact f_or. Qed.
Print Assumptions C05_union.

(** All four combinations of the alternation hint occur. *)
Example C05_example :
  (built ex_a /\ isAlt ex_a = false) /\ (built ex_alt /\ isAlt ex_alt = true) /\
  accepts (fsm_or ex_alt ex_alt) [98; 99]%N /\ accepts (fsm_or ex_a ex_alt) [98; 99]%N /\
  accepts (fsm_or ex_alt ex_abc) [97; 98; 99]%N /\ ~ accepts (fsm_or ex_alt ex_abc) [97; 98]%N.
Proof.
  split; [split; [apply ex_built|reflexivity]|]. split; [split; [apply ex_built|reflexivity]|]. repeat split.
  - apply (accepts_b_true _ _ 100). vm_compute. reflexivity.
  - apply (accepts_b_true _ _ 100). vm_compute. reflexivity.
  - apply (accepts_b_true _ _ 100). vm_compute. reflexivity.
  - apply (accepts_b_false _ _ 100). vm_compute. reflexivity.
Qed.

(** ** C06: Iterate *)
Theorem C06_star : forall f, built f -> lang_eq (accepts (iterate f)) (L_star (accepts f)).
Proof. exact f_iterate. Qed.
Print Assumptions C06_star.

Example C06_example : built ex_alt /\ accepts (iterate ex_alt) [97; 98; 99; 97]%N /\ accepts (iterate ex_alt) [] /\
  ~ accepts (iterate ex_alt) [98]%N.
Proof.
  split; [apply ex_built|]. repeat split.
  - apply (accepts_b_true _ _ 100). vm_compute. reflexivity.
  - apply (accepts_b_true _ _ 100). vm_compute. reflexivity.
  - apply (accepts_b_false _ _ 100). vm_compute. reflexivity.
Qed.

(** ** C07: operator*(n) *)
Theorem C07_power : forall f n, built f -> ~ In (initial f) (finals f) ->
  lang_eq (accepts (fsm_times f n)) (L_pow (accepts f) n).
Proof. exact f_times. Qed.
Print Assumptions C07_power.

Theorem C07_power_zero : forall f, lang_eq (accepts (fsm_times f 0)) L_eps.
Proof. exact f_times_zero. Qed.
Print Assumptions C07_power_zero.

(** For an operand with a final initial state, Fsm() * 2, the claim is false. *)
Theorem C07_power_refuted : exists f n w, built f /\ L_pow (accepts f) n w /\ ~ accepts (fsm_times f n) w.
Proof. exact f_times_refuted. Qed.
Print Assumptions C07_power_refuted.

Example C07_example : built ex_alt /\ ~ In (initial ex_alt) (finals ex_alt) /\
  accepts (fsm_times ex_alt 3) [97; 98; 99; 97]%N /\ ~ accepts (fsm_times ex_alt 3) [97; 97]%N.
Proof.
  split; [apply ex_built|]. split; [vm_compute; intuition discriminate|]. split.
  - apply (accepts_b_true _ _ 100). vm_compute. reflexivity.
  - apply (accepts_b_false _ _ 100). vm_compute. reflexivity.
Qed.

(** ** C10: Surround, PrependAnything, AppendAnything *)
Theorem C10_surround : forall f, built f -> forall w, accepts (surround f) w <->
  exists x u y, w = x ++ u ++ y /\ is_word x /\ is_word y /\ accepts f u.
Proof. exact f_surround. Qed.
Print Assumptions C10_surround.

Theorem C10_prepend_anything : forall f, built f ->
  lang_eq (accepts (prepend_anything f)) (L_cat L_any (accepts f)).
Proof. exact f_prepend. Qed.
Print Assumptions C10_prepend_anything.

Theorem C10_append_anything : forall f, built f ->
  lang_eq (accepts (append_anything f)) (L_cat (accepts f) L_any).
Proof. exact f_append_any. Qed.
Print Assumptions C10_append_anything.

Example C10_example : built ex_bc /\ accepts (surround ex_bc) [97; 98; 99; 0]%N /\ ~ accepts (surround ex_bc) [98; 97; 99]%N.
Proof.
  split; [apply ex_built|]. split.
  - apply (accepts_b_true _ _ 100). vm_compute. reflexivity.
  - apply (accepts_b_false _ _ 100). vm_compute. reflexivity.
Qed.

(** ** C11: Reverse *)
Theorem C11_reverse : forall f, built f -> lang_eq (accepts (fsm_reverse f)) (L_rev (accepts f)).
Proof. exact f_reverse. Qed.
Print Assumptions C11_reverse.

Theorem C11_reverse_twice : forall f, built f -> lang_eq (accepts (fsm_reverse (fsm_reverse f))) (accepts f).
Proof. exact f_reverse_twice. Qed.
Print Assumptions C11_reverse_twice.

Example C11_example : built ex_star /\ accepts (fsm_reverse ex_star) [97; 99; 98]%N /\ ~ accepts (fsm_reverse ex_star) [98; 99]%N.
Proof.
  split; [apply ex_built|]. split.
  - apply (accepts_b_true _ _ 100). vm_compute. reflexivity.
  - apply (accepts_b_false _ _ 100). vm_compute. reflexivity.
Qed.

(** ** C12: MakePrefix *)
Theorem C12_make_prefix : forall f, built f -> exists g, make_prefix f = Ok g /\
  lang_eq (accepts g) (L_prefixes (accepts f)).
Proof. exact f_prefix. Qed.
Print Assumptions C12_make_prefix.

Example C12_example : built ex_star /\ accepts (got fsm_new (make_prefix ex_star)) [97; 98]%N /\
  ~ accepts (got fsm_new (make_prefix ex_star)) [98; 97]%N.
Proof.
  split; [apply ex_built|]. split.
  - apply (accepts_b_true _ _ 100). vm_compute. reflexivity.
  - apply (accepts_b_false _ _ 100). vm_compute. reflexivity.
Qed.

(** ** C13: MakeSuffix *)
Theorem C13_make_suffix : forall f, built f -> (forall p c, ~ edge f p c (initial f)) ->
  (forall q, q < size f -> reachable f q) ->
  lang_eq (accepts (make_suffix f)) (L_suffixes (accepts f)).
Proof. exact f_suffix. Qed.
Print Assumptions C13_make_suffix.

(** For any automaton no suffix is missed. *)
Theorem C13_make_suffix_complete : forall f w, built f -> L_suffixes (accepts f) w -> accepts (make_suffix f) w.
Proof. exact f_suffix_complete. Qed.
Print Assumptions C13_make_suffix_complete.

(** Both premises are needed: with an edge back into the initial state, or with an
    unreachable state, words that are no suffix are accepted. *)
Theorem C13_make_suffix_loop_refuted : exists f w, built f /\ (forall q, q < size f -> reachable f q) /\
  accepts (make_suffix f) w /\ ~ L_suffixes (accepts f) w.
Proof. exact f_suffix_refuted_loop. Qed.
Print Assumptions C13_make_suffix_loop_refuted.

Theorem C13_make_suffix_unreachable_refuted : exists f w, built f /\ (forall p c, ~ edge f p c (initial f)) /\
  accepts (make_suffix f) w /\ ~ L_suffixes (accepts f) w.
Proof. exact f_suffix_refuted_unreachable. Qed.
Print Assumptions C13_make_suffix_unreachable_refuted.

Example C13_table : trans ex_abc = [[(97%N, [1])]; [(98%N, [2])]; [(99%N, [3])]; []].
Proof. vm_compute. reflexivity. Qed.
Example C13_no_edge_back : forall p c, ~ edge ex_abc p c (initial ex_abc).
Proof.
  intros p c. unfold edge, row_at. rewrite C13_table. replace (initial ex_abc) with 0 by (vm_compute; reflexivity).
  generalize (erep ex_abc c). intro d. unfold row_get.
  destruct p as [|[|[|[|p]]]]; cbn [nth mfind];
    [destruct (keqb d 97%N)|destruct (keqb d 98%N)|destruct (keqb d 99%N)| |destruct p];
    intros X; repeat (destruct X as [X|X]; try discriminate X); exact X.
Qed.
Example C13_reachable : forall q, q < size ex_abc -> reachable ex_abc q.
Proof.
  intros q. replace (size ex_abc) with 4 by (vm_compute; reflexivity). intro Hq.
  exists (firstn q [97; 98; 99]%N). apply (reach_b_true _ _ 100).
  destruct q as [|[|[|[|q]]]]; [vm_compute; reflexivity..|lia].
Qed.
Example C13_example : built ex_abc /\ accepts (make_suffix ex_abc) [98; 99]%N /\ ~ accepts (make_suffix ex_abc) [97; 99]%N.
Proof.
  split; [apply ex_built|]. split.
  - apply (accepts_b_true _ _ 100). vm_compute. reflexivity.
  - apply (accepts_b_false _ _ 100). vm_compute. reflexivity.
Qed.

(** ** C20: DeadStates and RemoveDeadEnds *)
Theorem C20_dead_states : forall f, built f -> exists d, dead_states f = Ok d /\ forall q, In q d <->
  q < size f /\ (~ (exists w, path (edge f) (initial f) w q) \/ ~ (exists w r, path (edge f) q w r /\ In r (finals f))).
Proof. exact f_dead_states. Qed.
Print Assumptions C20_dead_states.

Theorem C20_remove_dead_ends : forall f, built f -> exists g, remove_dead_ends f = Ok g /\
  lang_eq (accepts g) (accepts f) /\
  forall p c q, edge g p c q ->
    (exists w, path (edge g) (initial g) w p) /\ (exists w r, path (edge g) q w r /\ In r (finals g)).
Proof. exact f_remove_dead_ends. Qed.
Print Assumptions C20_remove_dead_ends.

(** a + false: every state but the first is a dead end, and so is the first. *)
Example C20_example : built (fsm_cat ex_abc make_false) /\ dead_states (fsm_cat ex_abc make_false) = Ok [0; 1; 2; 3; 4] /\
  dead_states (fsm_or ex_abc make_false) = Ok [4] /\ dead_states ex_alt = Ok [].
Proof.
  split; [apply built_cat; [apply ex_built|apply built_false]|]. split; [|split]; vm_compute; reflexivity.
Qed.
