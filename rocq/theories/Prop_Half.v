(** Property C47: half-final scanners match, and count matches. *)
From Coq Require Import List Bool Arith NArith Lia Sorted.
From Verif Require Import Util Spec PartitionModel FsmModel DetermineModel FsmSem Api RunModel RunSpec RunProofs ScannerModel ScannerSpec GlueModel ScannerApi ScannerUser BuildFacts GlueWitness Prop_Scanner Prop_Glue
  ApproxModel ApproxSpec ApproxApi HalfModel HalfSpec HalfRun HalfMain.
Import ListNotations.
Local Open Scope N_scope.

(** ** C47 *)
(** Every scanner obtained from the interface (compiled in either way, glued, copied,
    converted, loaded, mapped), used as a HalfFinalScanner: after Initialize and any text
    Result(i) is the number of prefixes of the text that belong to the i-th language, and
    AcceptedRegexps lists, in order, the regexps with such a prefix.  Final and Dead tell
    about the text read so far.  No counter wraps round, no access leaves its array. *)
Theorem C47_counts : forall k s Ls, obtained k s Ls -> forall w, is_word w -> N.of_nat (length w) + 1 < two64 ->
  exists st0 st, h_init k s = Ok st0 /\ steps (half_ops k s st0) st0 w = Ok st /\
    (forall i L, nth_error Ls (N.to_nat i) = Some L -> exists n, h_result st i = Ok (N.of_nat n) /\ prefixes_in L w n) /\
    StronglySorted N.lt (h_accepted st) /\
    (forall i, In i (h_accepted st) <-> exists L u v, nth_error Ls (N.to_nat i) = Some L /\ w = u ++ v /\ L u) /\
    (exists fin, o_final (half_ops k s st0) st = Ok fin /\ (fin = true <-> any_of Ls w)) /\
    (exists dead, o_dead (half_ops k s st0) st = Ok dead /\ (dead = true <-> forall L v, In L Ls -> is_word v -> ~ L (w ++ v))).
Proof. exact obtained_counts. Qed.
Print Assumptions C47_counts.

(** The same when the text is read from memory with Run. *)
Theorem C47_run : forall k s w st (m : mem) b, half_reads k s w st -> text_at m b w ->
  exists st0, h_init k s = Ok st0 /\ run (half_ops k s st0) m b (b + N.of_nat (length w)) st0 = Ok st.
Proof. intros k s w st m b (st0 & E0 & E) T. exists st0. split; auto. rewrite run_ok; auto. Qed.
Print Assumptions C47_run.

(** ** HalfFinalScanner(fsm): matching *)
(** It is one of these scanners, or the constructor reports that the automaton is too
    complicated. *)
Theorem C47_constructor : forall k buf f, (k_nmask k <= 64)%nat -> built f -> determined f = false -> user_address buf ->
  half_compile k buf f 0 = Throw ETooComplicated \/ exists s, half_compile k buf f 0 = Ok s /\ obtained k s [half_lang (accepts f)].
Proof. exact half_total. Qed.
Print Assumptions C47_constructor.
Theorem C47_constructor_distance : forall k buf f d, (k_nmask k <= 64)%nat -> built f -> plain f -> user_address buf ->
  half_compile k buf f d = Throw ETooComplicated \/ exists s, half_compile k buf f d = Ok s /\ obtained k s [half_lang (accepts (create_approx f d))].
Proof.
  intros k buf f d Hn B P U. rewrite half_distance. rewrite <- input_approx. apply half_total; auto; [apply built_input|apply undet_input]; auto.
Qed.
Print Assumptions C47_constructor_distance.

(** After the text and EndMark, AcceptedRegexps tells which regexps match the whole text,
    provided that a regexp that ignores what follows a match also ignores what precedes. *)
Theorem C47_matches : forall k s Ls i (L : lang) w, obtained k s Ls -> nth_error Ls (N.to_nat i) = Some (half_lang L) -> (right_closed L -> left_closed L) ->
  is_word w -> ~ In EndMark w -> N.of_nat (length w) + 2 < two64 ->
  exists st, half_reads k s (w ++ [EndMark]) st /\ (In i (h_accepted st) <-> L (w ++ [EndMark])).
Proof. exact half_matches. Qed.
Print Assumptions C47_matches.

(** Searching (Surround), from the automaton to the answer. *)
Theorem C47_search : forall k buf f, (k_nmask k <= 64)%nat -> built f -> user_address buf ->
  half_compile k buf (surround f) 0 = Throw ETooComplicated \/
  exists s, half_compile k buf (surround f) 0 = Ok s /\ forall w, is_word w -> ~ In EndMark w -> N.of_nat (length w) + 2 < two64 ->
    exists st, half_reads k s (w ++ [EndMark]) st /\ (In 0 (h_accepted st) <-> contains (accepts f) (w ++ [EndMark])).
Proof. exact half_search. Qed.
Print Assumptions C47_search.

(** ** HalfFinalFsm::MakeNonGreedyCounter(intersects, simplify): counting *)
Theorem C47_counter_constructor : forall k buf i sm f, (k_nmask k <= 64)%nat -> built f -> user_address buf ->
  make_non_greedy i sm f = Throw ETooComplicated \/
  exists g s, make_non_greedy i sm f = Ok g /\ half_compile_counter k buf g = Ok s /\ obtained k s [counter_lang i sm (accepts f)].
Proof. exact counter_total. Qed.
Print Assumptions C47_counter_constructor.

(** Overlapping matches, not simplified: the number of positions at which a match ends. *)
Theorem C47_every_end : forall k s Ls i (L : lang) w, obtained k s Ls -> nth_error Ls (N.to_nat i) = Some (counter_lang true false L) ->
  is_word w -> N.of_nat (length w) + 1 < two64 ->
  exists st js, half_reads k s w st /\ h_result st i = Ok (N.of_nat (length js)) /\ NoDup js /\ forall j, In j js <-> ends_at L w j.
Proof. exact counts_ends. Qed.
Print Assumptions C47_every_end.

(** Overlapping matches, simplified: the number of positions at which a match ends inside
    which no other match ends earlier. *)
Theorem C47_simplified_ends : forall k s Ls i (L : lang) w, obtained k s Ls -> nth_error Ls (N.to_nat i) = Some (counter_lang true true L) ->
  is_word w -> N.of_nat (length w) + 1 < two64 ->
  exists st js, half_reads k s w st /\ h_result st i = Ok (N.of_nat (length js)) /\ NoDup js /\ forall j, In j js <-> ends_at (tight L) w j.
Proof. exact counts_tight. Qed.
Print Assumptions C47_simplified_ends.

(** Matches that do not overlap: the largest number of them that the text has room for. *)
Theorem C47_disjoint : forall k s Ls i sm (L : lang) w, obtained k s Ls -> nth_error Ls (N.to_nat i) = Some (counter_lang false sm L) -> ~ L [] ->
  is_word w -> N.of_nat (length w) + 1 < two64 ->
  exists st n, half_reads k s w st /\ h_result st i = Ok (N.of_nat n) /\ disjoint_matches L w n /\ forall m, disjoint_matches L w m -> (m <= n)%nat.
Proof. exact counts_disjoint. Qed.
Print Assumptions C47_disjoint.
(** A regexp that matches the empty string is counted once, whatever the text. *)
Theorem C47_disjoint_empty : forall k s Ls i sm (L : lang) w, obtained k s Ls -> nth_error Ls (N.to_nat i) = Some (counter_lang false sm L) -> L [] ->
  is_word w -> N.of_nat (length w) + 1 < two64 -> exists st, half_reads k s w st /\ h_result st i = Ok 1.
Proof. exact counts_empty. Qed.
Print Assumptions C47_disjoint_empty.

(** ** Examples *)
Definition exh_a : fsm := append_string fsm_new [97].
Lemma exh_built : built exh_a.
Proof. apply built_string; [apply built_new|reflexivity|constructor; [split; [reflexivity|discriminate]|constructor]]. Qed.
Lemma exh_word : forall w, forallb (fun c => (c <? 264) && negb (c =? 257)) w = true -> is_word w.
Proof.
  intros w H. rewrite forallb_forall in H. apply Forall_forall. intros c Hc. apply H, andb_prop in Hc as [A B]. apply N.ltb_lt in A. split; [exact A|].
  intros ->. discriminate B.
Qed.
(** Searching for a: the scanner, and its answers for ba and bb. *)
Definition exh_s : scanner := Eval vm_compute in match half_compile exs_kind 4096 (surround exh_a) 0 with Ok s => s | _ => exs_s end.
Definition exh_read (s : scanner) (w : word) : res hstate := let* st := h_init exs_kind s in steps (half_ops exs_kind s st) st w.
Lemma exh_reads : forall s w st, exh_read s w = Ok st -> half_reads exs_kind s w st.
Proof. intros s w st E. unfold exh_read in E. destruct (h_init exs_kind s) as [st0| | |] eqn:E0; cbn [bind] in E; try discriminate E. exists st0. auto. Qed.
Definition exh_ids (s : scanner) (w : word) : res (list N) := let* st := exh_read s w in Ok (h_accepted st).
Definition exh_count (s : scanner) (w : word) : res N := let* st := exh_read s w in h_result st 0.
Lemma exh_obtained : half_compile exs_kind 4096 (surround exh_a) 0 = Ok exh_s /\ obtained exs_kind exh_s [half_lang (accepts (surround exh_a))].
Proof.
  assert (E : half_compile exs_kind 4096 (surround exh_a) 0 = Ok exh_s) by (vm_compute; reflexivity). split; [exact E|].
  apply (ob_half exs_kind 4096); [cbn; lia|apply built_surround, exh_built|exact E|apply placed_b_ok; vm_compute; reflexivity].
Qed.
Example C47_example : (k_nmask exs_kind <= 64)%nat /\ built exh_a /\ user_address 4096 /\ plain exh_a /\
  half_compile exs_kind 4096 (surround exh_a) 0 = Ok exh_s /\ obtained exs_kind exh_s [half_lang (accepts (surround exh_a))] /\
  is_word [98; 97; 98] /\ ~ In EndMark [98; 97; 98] /\ N.of_nat (length [98; 97; 98]) + 2 < two64 /\
  exh_ids exh_s [98; 97; 98; EndMark] = Ok [0] /\ exh_ids exh_s [98; 98; EndMark] = Ok [].
Proof.
  destruct exh_obtained as [E O]. split; [cbn; lia|]. split; [exact exh_built|]. split; [split; vm_compute; [reflexivity|discriminate]|]. split; [split; vm_compute; reflexivity|].
  split; [exact E|]. split; [exact O|]. split; [apply exh_word; reflexivity|]. split; [intros [H|[H|[H|[]]]]; discriminate H|]. split; [reflexivity|]. split; vm_compute; reflexivity.
Qed.
(** Counting a without overlaps. *)
Definition exh_g : fsm := Eval vm_compute in match make_non_greedy false false exh_a with Ok g => g | _ => exh_a end.
Definition exh_c : scanner := Eval vm_compute in match half_compile_counter exs_kind 4096 exh_g with Ok s => s | _ => exs_s end.
Lemma exh_language : forall w, accepts exh_a w <-> w = [97].
Proof. intros w. apply accepts_word. constructor; [split; [reflexivity|discriminate]|constructor]. Qed.
Example C47_counter_example : make_non_greedy false false exh_a = Ok exh_g /\ half_compile_counter exs_kind 4096 exh_g = Ok exh_c /\
  obtained exs_kind exh_c [counter_lang false false (accepts exh_a)] /\ ~ accepts exh_a [] /\
  exh_count exh_c [98; 97; 97; 98; 97] = Ok 3 /\ exh_count exh_c [98] = Ok 0.
Proof.
  assert (E1 : make_non_greedy false false exh_a = Ok exh_g) by (vm_compute; reflexivity).
  assert (E2 : half_compile_counter exs_kind 4096 exh_g = Ok exh_c) by (vm_compute; reflexivity).
  split; [exact E1|]. split; [exact E2|]. split; [|split; [|split; vm_compute; reflexivity]].
  - apply (ob_half_fsm exs_kind 4096 exh_a exh_g); [cbn; lia|exact exh_built|apply hm_counter; exact E1|exact E2|apply placed_b_ok; vm_compute; reflexivity].
  - intros H. apply exh_language in H. discriminate H.
Qed.

(** ** Refuted *)
(** half_final.h:27-28 says that there are no restrictions for the regexps.  There is one:
    an automaton that ignores what follows a match, but not what precedes it, is treated as
    if it ignored both. *)
Definition exh_u : scanner := Eval vm_compute in match half_compile exs_kind 4096 (append_anything exh_a) 0 with Ok s => s | _ => exs_s end.
Theorem C47_any_automaton_refuted : exists f s w st, built f /\ determined f = false /\ half_compile exs_kind 4096 f 0 = Ok s /\
  is_word w /\ ~ In EndMark w /\ half_reads exs_kind s (w ++ [EndMark]) st /\ In 0 (h_accepted st) /\ ~ accepts f (w ++ [EndMark]).
Proof.
  exists (append_anything exh_a), exh_u, [98; 97], (match exh_read exh_u [98; 97; EndMark] with Ok st => st | _ => mkH 0 [] end).
  split; [apply built_append_any, exh_built|]. split; [reflexivity|]. split; [vm_compute; reflexivity|]. split; [apply exh_word; reflexivity|].
  split; [intros [H|[H|[]]]; discriminate H|]. split; [apply exh_reads; vm_compute; reflexivity|]. split; [vm_compute; auto|].
  intros H. apply (f_append_any exh_a exh_built) in H as (u & v & E & Hu & _). apply exh_language in Hu. subst u. discriminate E.
Qed.
Print Assumptions C47_any_automaton_refuted.
