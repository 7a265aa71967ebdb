(** Properties C21, C24, C25, C26, C28 for the multi-pattern scanners (Scanner,
    NonrelocScanner, with or without exit masks).  [obtained k s Ls] (ScannerApi.v): [s] comes
    from any sequence of public calls (compiling, copying, converting, gluing) and stands for
    regexps with the languages [Ls]. *)
From Coq Require Import List Bool Arith NArith Lia Sorted.
From Verif Require Import Util Spec PartitionModel FsmModel DetermineModel MinimizeModel FsmSem Api
  RunModel RunSpec ScannerModel ScannerSpec GlueModel ScannerApi ScannerCompile ScannerUser ScannerMore GlueWitness.
Import ListNotations.
Local Open Scope N_scope.

(** ** C21 *)
(** No step leaves the table (a state that is not the address of a row is UB in the model);
    Final and AcceptedRegexps tell which languages the text is in. *)
Theorem C21_scanner_follows_languages : forall k s Ls, obtained k s Ls -> forall w, is_word w -> exists a,
  steps (scanner_ops k s) (s_initial s) w = Ok a /\
  (exists fin, s_isfinal k s a = Ok fin /\ (fin = true <-> exists L, In L Ls /\ L w)) /\
  (exists ids, s_accepted k s a = Ok ids /\ StronglySorted N.lt ids /\
     forall i, In i ids <-> exists L, nth_error Ls (N.to_nat i) = Some L /\ L w).
Proof.
  intros k s Ls O w Hw. destruct (obtained_reports k s Ls O w Hw) as (a & E & F & _ & I). exists a. auto.
Qed.
Print Assumptions C21_scanner_follows_languages.

Theorem C21_regexps_count : forall k s Ls, obtained k s Ls -> s_count s = N.of_nat (length Ls).
Proof. exact obtained_count. Qed.
Print Assumptions C21_regexps_count.

(** Compiling gives a scanner, or throws because determinization failed; the table is never
    too large for relative jumps. *)
Theorem C21_compile_total : forall k buf f, (k_nmask k <= 64)%nat -> built f -> determined f = false -> user_address buf ->
  (exists s, compile k buf f = Ok s /\ obtained k s [accepts f]) \/ compile k buf f = Throw ETooComplicated.
Proof.
  intros k buf f Hn B D [U1 U2]. destruct (compile_total k buf f B Hn D) as [(s & E & _ & _ & P)|E]; auto.
  left. exists s. split; auto. eapply ob_compile; eauto.
Qed.
Print Assumptions C21_compile_total.

(** A relative jump arrives iff the distance is less than 2^31 bytes; the comment at
    multi.h:57-60 promises 4G. *)
Theorem C21_relative_jump : forall k from to, k_reloc k = true -> from <= 9223372036854775808 -> to <= 9223372036854775808 ->
  (go k from (diff k from to) = to <-> to < from + 2147483648 /\ from <= to + 2147483648).
Proof. exact jump_reach. Qed.
Print Assumptions C21_relative_jump.

(** [^a]*, as the complement of .*a.* *)
Definition exs_kind : kind := mkKind true 2.
Definition exs_f : fsm := Eval vm_compute in match complement (surround (append_special fsm_new 97)) with Ok g => g | _ => fsm_new end.
Lemma exs_built : built exs_f.
Proof.
  apply (built_complement (surround (append_special fsm_new 97))).
  - apply built_surround, built_append; [apply built_new|reflexivity|split; [reflexivity|discriminate]].
  - vm_compute. reflexivity.
Qed.
Definition exs_s : scanner := Eval vm_compute in match compile exs_kind 4096 exs_f with Ok s => s | _ => mkScanner 0 0 0 0 0 0 [] [] [] [] false false end.
Definition exs_s2 : scanner := Eval vm_compute in match compile exs_kind 4096 (surround (append_special fsm_new 97)) with Ok s => s | _ => mkScanner 0 0 0 0 0 0 [] [] [] [] false false end.
Example exs_obtained : obtained exs_kind exs_s [accepts exs_f].
Proof.
  apply (ob_compile exs_kind 4096 exs_f); [cbn; lia|apply exs_built|vm_compute; reflexivity|].
  apply placed_b_ok. vm_compute. reflexivity.
Qed.
Example C21_example : obtained exs_kind exs_s [accepts exs_f] /\
  (exists a, steps (scanner_ops exs_kind exs_s) (s_initial exs_s) [120; 121] = Ok a /\ s_isfinal exs_kind exs_s a = Ok true /\ s_accepted exs_kind exs_s a = Ok [0]) /\
  (exists a, steps (scanner_ops exs_kind exs_s) (s_initial exs_s) [120; 97] = Ok a /\ s_isfinal exs_kind exs_s a = Ok false /\ s_accepted exs_kind exs_s a = Ok []) /\
  determined (surround (append_special fsm_new 97)) = false /\ user_address 4096.
Proof.
  split; [apply exs_obtained|]. split; [eexists; vm_compute; auto|]. split; [eexists; vm_compute; auto|]. split; [reflexivity|].
  split; vm_compute; [reflexivity|discriminate].
Qed.
(** A jump over exactly 2^31 bytes goes astray. *)
Example C21_jump_example : go exs_kind 4096 (diff exs_kind 4096 (4096 + 2147483647)) = 4096 + 2147483647 /\
  go exs_kind 4096 (diff exs_kind 4096 (4096 + 2147483648)) <> 4096 + 2147483648.
Proof. split; [vm_compute; reflexivity|]. vm_compute. discriminate. Qed.

(** ** C24 *)
(** Running over a text in memory with the shortcuts is stepping through every byte; [w] is
    what was read before.  For every instruction set, alignment and length. *)
Theorem C24_masks_are_transparent : forall k s Ls, obtained k s Ls -> forall (i : isa) (m : mem) w a b bs,
  is_word w -> steps (scanner_ops k s) (s_initial s) w = Ok a -> text_at m b bs ->
  exists r, run_with (scanner_ops k s) m (multi_run_aligned k s i m (@run_pred N)) b (b + N.of_nat (length bs)) a = Ok r /\
    steps (scanner_ops k s) a bs = Ok r.
Proof.
  intros k s Ls O i m w a b bs Hw E T. destruct (ob_run k s Ls O i m w a b bs Hw E T) as (r & X & Y). exists r. split; auto.
  rewrite RunProofs.steps_app, E in Y. exact Y.
Qed.
Print Assumptions C24_masks_are_transparent.

(** Runner(sc).Begin().Run(text).End(), with or without the marks, says whether some regexp
    matches. *)
Theorem C24_matches : forall k s Ls, obtained k s Ls -> forall (i : isa) (m : mem) bm em b bs, text_at m b bs ->
  exists r, matches_with (scanner_ops k s) m (multi_run_aligned k s i m (@run_pred N)) bm em b (b + N.of_nat (length bs)) = Ok r /\
    (r = true <-> exists L, In L Ls /\ L (mark_if bm BeginMark ++ bs ++ mark_if em EndMark)).
Proof. exact ob_matches. Qed.
Print Assumptions C24_matches.

(** 32 'x' at an aligned address, nothing readable after them. *)
Definition exs_mem : mem := fun a => if (a <? 64) then None else nth_error (repeat 120 32) (N.to_nat (a - 64)).
Example exs_text : text_at exs_mem 64 (repeat 120 32).
Proof.
  split; [|split].
  - intros a x. unfold exs_mem. destruct (a <? 64); [discriminate|]. intros H. apply nth_error_In, repeat_spec in H. subst. reflexivity.
  - split; [apply Forall_forall; intros x X; apply repeat_spec in X; subst; reflexivity|]. intros i Hi. rewrite repeat_length in Hi. unfold exs_mem.
    destruct (N.ltb_spec (64 + N.of_nat i) 64); [lia|]. replace (N.to_nat (64 + N.of_nat i - 64)) with i by lia.
    apply nth_error_nth'. rewrite repeat_length. auto.
  - intros a [H1 H2]. change (64 / 8 * 8) with 64 in H1. lia.
Qed.
(** The shortcut is taken: the whole text is skipped without stepping through it. *)
Example C24_example : obtained exs_kind exs_s [accepts exs_f] /\ text_at exs_mem 64 (repeat 120 32) /\
  shortcut_run exs_kind exs_s SSE2 exs_mem (s_initial exs_s) 1 64 96 = Ok 96 /\
  matches_with (scanner_ops exs_kind exs_s) exs_mem (multi_run_aligned exs_kind exs_s SSE2 exs_mem (@run_pred N)) false false 64 96 = Ok true /\
  matches_with (scanner_ops exs_kind exs_s) exs_mem (multi_run_aligned exs_kind exs_s Basic exs_mem (@run_pred N)) true true 64 96 = Ok true.
Proof. split; [apply exs_obtained|]. split; [apply exs_text|]. vm_compute. auto. Qed.

(** ** C25 *)
Theorem C25_check_bytes : forall c w, byte c -> w < 18446744073709551616 ->
  (check_bytes_basic (fill_size_t c) w <> 0 <-> exists j, (j < 8)%nat /\ (w / 256 ^ N.of_nat j) mod 256 = c).
Proof. exact check_basic_word. Qed.
Print Assumptions C25_check_bytes.

(** The test as the scanner does it, or-ing the tests for several bytes before asking
    IsAnySet, for each instruction set. *)
Theorem C25_check_bytes_all : forall i c cs w, Forall byte (c :: cs) -> w < 256 ^ word_size i ->
  let mask d := match i with SSE2 => fill_size_t d + 18446744073709551616 * fill_size_t d | _ => fill_size_t d end in
  (is_any_set i (fold_left (fun a d => N.lor a (check_bytes i (mask d) w)) cs (check_bytes i (mask c) w)) = true <->
   exists d j, In d (c :: cs) /\ (j < N.to_nat (word_size i))%nat /\ (w / 256 ^ N.of_nat j) mod 256 = d).
Proof. exact check_word. Qed.
Print Assumptions C25_check_bytes_all.

Example C25_example : check_bytes_basic (fill_size_t 97) (120 + 256 * 97) <> 0 /\ check_bytes_basic (fill_size_t 97) (96 + 256 * 98) = 0 /\
  is_any_set SSE2 (N.lor (check_bytes SSE2 (fill_size_t 97 + 18446744073709551616 * fill_size_t 97) (98 * 18446744073709551616))
     (check_bytes SSE2 (fill_size_t 98 + 18446744073709551616 * fill_size_t 98) (98 * 18446744073709551616))) = true.
Proof. repeat split; vm_compute; try reflexivity; discriminate. Qed.

(** ** C26 on these scanners *)
Theorem C26_shortest_prefix_scanner : forall k s Ls, obtained k s Ls -> forall (i : isa) (m : mem) bm em b bs, text_at m b bs ->
  exists r, shortest_prefix_with (scanner_ops k s) m (multi_run_aligned k s i m (shortest_pred (scanner_ops k s))) bm em b (b + N.of_nat (length bs)) = Ok r /\
    shortest_result (fun u => any_of Ls (mark_if bm BeginMark ++ u)) em b bs r.
Proof. exact ob_shortest. Qed.
Print Assumptions C26_shortest_prefix_scanner.

Theorem C26_longest_prefix_noshortcuts : forall k s Ls, obtained k s Ls -> forall (i : isa) (m : mem), k_nmask k = 0%nat -> forall bm em b bs, text_at m b bs ->
  exists r, longest_prefix_with (scanner_ops k s) m (multi_run_aligned k s i m (longest_pred (scanner_ops k s))) bm em b (b + N.of_nat (length bs)) = Ok r /\
    longest_result (fun u => any_of Ls (mark_if bm BeginMark ++ u)) em b bs r.
Proof. exact ob_longest_plain. Qed.
Print Assumptions C26_longest_prefix_noshortcuts.

(** With masks: the full statement would be [longest_result] here as well, but that is false
    (next theorem).  What is true: if there is an accepted prefix then one is returned, and
    every longer accepted prefix leads to the same state as the returned one. *)
Theorem C26_longest_prefix_masks_partial : forall k s Ls, obtained k s Ls -> forall (i : isa) (m : mem) bm em b bs, text_at m b bs ->
  exists r, longest_prefix_with (scanner_ops k s) m (multi_run_aligned k s i m (longest_pred (scanner_ops k s))) bm em b (b + N.of_nat (length bs)) = Ok r /\
    longest_up_to (fun u v => same_state (scanner_ops k s) (mark_if bm BeginMark ++ u) (mark_if bm BeginMark ++ v))
      (fun u => any_of Ls (mark_if bm BeginMark ++ u)) em b bs r.
Proof. exact ob_longest. Qed.
Print Assumptions C26_longest_prefix_masks_partial.

(** [^a]* accepts 32 'x', LongestPrefix returns the empty prefix. *)
Theorem C26_longest_prefix_masks_refuted : exists k s L m b bs, obtained k s [L] /\ text_at m b bs /\ L bs /\ bs <> [] /\
  forall i, longest_prefix_with (scanner_ops k s) m (multi_run_aligned k s i m (longest_pred (scanner_ops k s))) false false b (b + N.of_nat (length bs)) = Ok (Some b).
Proof.
  exists exs_kind, exs_s, (accepts exs_f), exs_mem, 64, (repeat 120 32).
  split; [apply exs_obtained|]. split; [apply exs_text|]. split; [|split; [discriminate|intros []; vm_compute; reflexivity]].
  assert (W : is_word (repeat 120 32)) by (apply Forall_forall; intros x X; apply repeat_spec in X; subst; split; [reflexivity|discriminate]).
  destruct (C21_scanner_follows_languages _ _ _ exs_obtained _ W) as (a & E & (fin & F & H) & _).
  assert (X : fin = true); [|apply H in X as (L & [<-|[]] & X); exact X].
  assert (E' : steps (scanner_ops exs_kind exs_s) (s_initial exs_s) (repeat 120 32) = Ok (s_initial exs_s)) by (vm_compute; reflexivity).
  rewrite E' in E. apply ok_inj in E. subst a. assert (F' : s_isfinal exs_kind exs_s (s_initial exs_s) = Ok true) by (vm_compute; reflexivity). congruence.
Qed.
Print Assumptions C26_longest_prefix_masks_refuted.

Definition exs_plain : kind := mkKind false 0.
Example C26_scanner_example : obtained exs_kind exs_s [accepts exs_f] /\ text_at exs_mem 64 (repeat 120 32) /\ k_nmask exs_plain = 0%nat /\
  shortest_prefix_with (scanner_ops exs_kind exs_s) exs_mem (multi_run_aligned exs_kind exs_s Basic exs_mem (shortest_pred (scanner_ops exs_kind exs_s))) false false 64 96 = Ok (Some 64) /\
  shortest_prefix_with (scanner_ops exs_kind exs_s2) exs_mem (multi_run_aligned exs_kind exs_s2 MMX exs_mem (shortest_pred (scanner_ops exs_kind exs_s2))) true true 64 96 = Ok None.
Proof. split; [apply exs_obtained|]. split; [apply exs_text|]. vm_compute. auto. Qed.

(** ** C28 *)
Theorem C28_dead_is_exact : forall k s Ls, obtained k s Ls -> forall w, is_word w -> exists a dead,
  steps (scanner_ops k s) (s_initial s) w = Ok a /\ s_isdead k s a = Ok dead /\
  (dead = true <-> forall L v, In L Ls -> is_word v -> ~ L (w ++ v)).
Proof.
  intros k s Ls O w Hw. destruct (obtained_reports k s Ls O w Hw) as (a & E & _ & (d & D & H) & _). exists a, d. auto.
Qed.
Print Assumptions C28_dead_is_exact.

Example C28_example : obtained exs_kind exs_s [accepts exs_f] /\
  (exists a, steps (scanner_ops exs_kind exs_s) (s_initial exs_s) [120; 97] = Ok a /\ s_isdead exs_kind exs_s a = Ok true) /\
  (exists a, steps (scanner_ops exs_kind exs_s) (s_initial exs_s) [120; 120] = Ok a /\ s_isdead exs_kind exs_s a = Ok false).
Proof. split; [apply exs_obtained|]. split; eexists; vm_compute; auto. Qed.
