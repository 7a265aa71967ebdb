(** C51: what SlowCapturingScanner finds. *)
From Coq Require Import List Bool Arith NArith Lia.
From Verif Require Import Util Spec PartitionModel FsmModel Nfa FsmSem FsmBasics ApproxSpec Api ScannerModel CapModel CapSpec CapApi CapUser CapMain CapLeftUser CapWitness.
Import ListNotations.
Local Open Scope N_scope.

(** For a regexp A(B)C that was surrounded: the scanner can be compiled and run over every text;
    the state is matched, and GetCapture returns true, exactly when the text contains a match;
    and what GetCapture writes are the positions of the part that B matches in one of them. *)
Theorem C51_group : forall a b c, built a -> no_marks a -> built b -> no_marks b -> built c -> no_marks c ->
  let f := fsm_cat (fsm_cat a (capture_mark b)) c in N.of_nat (size f) + 2 <= two32 -> exists s, cap_compile (surround f) = Ok s /\
  forall w, is_word w -> N.of_nat (length w) < nowhere -> exists cl ans o, cap_run s w = Ok cl /\ get_capture s cl = Ok (ans, o) /\
    (cs_match cl <> None <-> contains (accepts f) w) /\ (ans = true <-> contains (accepts f) w) /\ (ans = true <-> o <> None) /\
    forall st, o = Some st -> exists u x y z v, w = u ++ x ++ y ++ z ++ v /\ accepts a x /\ accepts b y /\ accepts c z /\
      g_begin st = N.of_nat (length (u ++ x)) /\ g_end st = N.of_nat (length (u ++ x ++ y)).
Proof. exact group_found. Qed.
Print Assumptions C51_group.
(** x(a* )y on zxaay captures aa *)
Example C51_group_ex : (built (exk_lit 120) /\ uncompressed (exk_lit 120) /\ no_marks (exk_lit 120)) /\ (built exk_as /\ uncompressed exk_as /\ no_marks exk_as) /\
  (built (exk_lit 121) /\ uncompressed (exk_lit 121) /\ no_marks (exk_lit 121)) /\ N.of_nat (size exk_f) + 2 <= two32 /\
  (exists m q, exk_go (surround exk_f) [122; 120; 97; 97; 121] = Ok (m, (true, Some (mkSingle q 2 4)))) /\ exk_go (surround exk_f) [120; 97; 98] = Ok (None, (false, None)).
Proof.
  split; [apply exk_plain; [split; [reflexivity|discriminate]|vm_compute; reflexivity]|]. split; [exact exk_as_plain|].
  split; [apply exk_plain; [split; [reflexivity|discriminate]|vm_compute; reflexivity]|]. split; [vm_compute; discriminate|]. split; [eexists; eexists|]; vm_compute; reflexivity.
Qed.

(** The same for every automaton made of plain pieces, a capture, marked repetitions,
    concatenation, alternative, iteration, and strings or dots appended: what is written are the positions of the first
    marks of the capture in a marked word of the regexp which, without its marks, occurs in the
    text. *)
Theorem C51_captures : forall f L, captures f L -> uncompressed f -> N.of_nat (size f) + 2 <= two32 -> exists s, cap_compile (surround f) = Ok s /\
  forall w, is_word w -> N.of_nat (length w) < nowhere ->
  exists cl, cap_run s w = Ok cl /\ (cs_match cl <> None <-> contains (accepts f) w) /\
    exists ans o, get_capture s cl = Ok (ans, o) /\ (o <> None <-> contains (accepts f) w) /\ (o = None -> ans = false) /\
      forall st, o = Some st -> exists u m v, w = u ++ strip m ++ v /\ L m /\ g_begin st = mark_at u 0 m /\ g_end st = mark_at u 1 m /\
        (ans = true <-> g_begin st <> nowhere).
Proof. exact captures_found. Qed.
Print Assumptions C51_captures.
Example C51_captures_ex : (exists L, captures exk_g L) /\ uncompressed exk_g /\ N.of_nat (size exk_g) + 2 <= two32 /\ exists m q, exk_go (surround exk_g) [122; 97; 98; 98; 121] = Ok (m, (true, Some (mkSingle q 0 0))).
Proof.
  assert (P : forall c, letter c -> no_marks_check (exk_lit c) = true -> captures (exk_lit c) (accepts (exk_lit c))).
  { intros c H N. destruct (exk_plain c H N) as (B & U & M). apply cp_plain; auto. }
  assert (H : forall c, c < 256 -> letter c) by (intros c H; split; [unfold MaxChar; lia|unfold Epsilon; lia]).
  split.
  - eexists. apply cp_cat; [|apply cp_group, cp_or].
    + apply cp_repetition. destruct exk_as_plain as (B & U & M). apply cp_plain; auto.
    + apply cp_repetition, cp_star, P; [apply H; reflexivity|vm_compute; reflexivity].
    + apply P; [apply H; reflexivity|vm_compute; reflexivity].
  - split; [reflexivity|]. split; [vm_compute; discriminate|]. eexists; eexists. vm_compute. reflexivity.
Qed.

(** Unless a greedy repetition may end before any letter was read, the match whose positions are
    written begins as early in the text as any. *)
Theorem C51_leftmost : forall f L s w cl ans st, captures f L -> uncompressed f -> ~ greedy_front f -> N.of_nat (size f) + 2 <= two32 -> cap_compile (surround f) = Ok s ->
  is_word w -> N.of_nat (length w) < nowhere -> cap_run s w = Ok cl -> get_capture s cl = Ok (ans, Some st) ->
  exists u m v, w = u ++ strip m ++ v /\ L m /\ g_begin st = mark_at u 0 m /\ g_end st = mark_at u 1 m /\ forall u' x v', w = u' ++ x ++ v' -> accepts f x -> (length u <= length u')%nat.
Proof. exact captures_leftmost. Qed.
Print Assumptions C51_leftmost.
(** This is so behind a piece that does not match the empty text, and wherever there is no greedy repetition. *)
Theorem C51_no_front : (forall a g L, built a -> ~ accepts a [] -> captures g L -> ~ greedy_front (fsm_cat a g)) /\
  (forall f, (forall p q, edge f p Epsilon q -> N.testbit (output f p q) 2 = false) -> ~ greedy_front f).
Proof. split; [exact front_cat|]. intros f H (q & r & _ & X & B). rewrite (H q r X) in B. discriminate B. Qed.
Print Assumptions C51_no_front.
(** a(b* ) with a greedy repetition, on the text zabbab *)
Example C51_leftmost_ex : (exists L, captures exk_ab L) /\ uncompressed exk_ab /\ ~ greedy_front exk_ab /\ N.of_nat (size exk_ab) + 2 <= two32 /\
  exists m q, exk_go (surround exk_ab) [122; 97; 98; 98; 97; 98] = Ok (m, (true, Some (mkSingle q 2 4))).
Proof.
  destruct (exk_plain 97) as (Ba & Ua & Na); [split; [reflexivity|discriminate]|vm_compute; reflexivity|]. destruct (exk_plain 98) as (Bb & Ub & Nb); [split; [reflexivity|discriminate]|vm_compute; reflexivity|].
  assert (C : exists L, captures (capture_mark (repetition_mark (iterate (exk_lit 98)) true)) L) by (eexists; apply cp_group, cp_repetition, cp_star, cp_plain; auto). destruct C as [L C].
  split; [eexists; apply cp_cat; [apply cp_plain; auto|exact C]|]. split; [reflexivity|]. split; [|split; [vm_compute; discriminate|eexists; eexists; vm_compute; reflexivity]].
  apply (proj1 C51_no_front _ _ L Ba); auto. intros (q & P & F). cbn in F. destruct F as [<-|[]]. inversion P as [|? q ? ? X|]; subst. vm_compute in X. tauto.
Qed.
Theorem C51_group_leftmost : forall a b c s w cl ans st, built a -> no_marks a -> built b -> no_marks b -> built c -> no_marks c ->
  let f := fsm_cat (fsm_cat a (capture_mark b)) c in N.of_nat (size f) + 2 <= two32 -> cap_compile (surround f) = Ok s ->
  is_word w -> N.of_nat (length w) < nowhere -> cap_run s w = Ok cl -> get_capture s cl = Ok (ans, Some st) ->
  exists u x y z v, w = u ++ x ++ y ++ z ++ v /\ accepts a x /\ accepts b y /\ accepts c z /\
    g_begin st = N.of_nat (length (u ++ x)) /\ g_end st = N.of_nat (length (u ++ x ++ y)) /\ forall u' t v', w = u' ++ t ++ v' -> accepts f t -> (length u <= length u')%nat.
Proof. exact group_leftmost. Qed.
Print Assumptions C51_group_leftmost.
(** x(a* )y on xayxy captures a *)
Example C51_group_leftmost_ex : exists m q, exk_go (surround exk_f) [120; 97; 121; 120; 121] = Ok (m, (true, Some (mkSingle q 1 2))).
Proof. eexists; eexists. vm_compute. reflexivity. Qed.

(** The marks do not change what an automaton accepts. *)
Theorem C51_language : forall f L, captures f L -> (forall w, accepts (capture_mark f) w <-> accepts f w) /\ forall gr w, accepts (repetition_mark f gr) w <-> accepts f w.
Proof. exact marks_keep_language. Qed.
Print Assumptions C51_language.

(** For any automaton, surrounded or not, in which state 0 has no transition by BeginMark unless it is
    the initial one: the state is matched exactly when some run of the automaton over BeginMark and
    the beginning of the text gets to a state where a text may end, and GetCapture writes what such a
    run noted. *)
Theorem C51_any : forall f, wf f -> uncompressed f -> tags f = [] -> N.of_nat (size f) <= two32 -> (forall r, edge f 0 BeginMark r -> initial f = 0%nat) ->
  exists s, cap_compile f = Ok s /\ forall w, is_word w -> N.of_nat (length w) < two64 ->
    exists cl, cap_run s w = Ok cl /\
      (cs_match cl <> None <-> exists u v q b e, w = u ++ v /\ reach (edge f) (fun p q => output f p q mod two32) (initial f) u q b e /\ ends (edge f) (is_final f) q) /\
      exists ans o, get_capture s cl = Ok (ans, o) /\ (o <> None <-> cs_match cl <> None) /\ (ans = true -> o <> None) /\
        forall st, o = Some st -> exists u v q, w = u ++ v /\ reach (edge f) (fun p q => output f p q mod two32) (initial f) u q (g_begin st) (g_end st) /\ ends (edge f) (is_final f) q.
Proof. exact any_runs. Qed.
Print Assumptions C51_any.
Example C51_any_ex : built exk_bare /\ uncompressed exk_bare /\ initial exk_bare = 0%nat /\ (exists m, exk_go exk_bare [97; 98] = Ok (Some m, (true, Some m))) /\ exk_go exk_bare [98] = Ok (None, (false, None)).
Proof.
  split; [apply built_cat; apply exk_lit_built; split; (reflexivity || discriminate)|]. split; [reflexivity|]. split; [reflexivity|]. split; [eexists|]; vm_compute; reflexivity.
Qed.

(** Where this ends.  With ^ elsewhere than at the beginning of the regexp, a text that matches may
    not be matched, because the scanner looks for BeginMark in the initial state and in state 0 only. *)
Theorem C51_begin_refuted : exists f s w cl, built f /\ uncompressed f /\ cap_compile (surround f) = Ok s /\ is_word w /\ contains (accepts f) ([BeginMark] ++ w ++ [EndMark]) /\
  cap_run s w = Ok cl /\ cs_match cl = None /\ get_capture s cl = Ok (false, None).
Proof.
  destruct (exk_go_ok (surround exk_begin) [97] None (false, None)) as (s & cl & E1 & E2 & E3 & E4); [vm_compute; reflexivity|].
  exists exk_begin, s, [97], cl. split; [apply built_or; [|apply built_cat]; apply exk_lit_built; split; (reflexivity || discriminate)|]. split; [reflexivity|]. split; [exact E1|].
  split; [repeat constructor; discriminate|]. split; [|auto]. exists [], [BeginMark; 97], [EndMark]. split; [reflexivity|].
  exists 5%nat. split; [|vm_compute; tauto].
  apply path_eps with 2%nat; [vm_compute; tauto|]. apply path_step with 3%nat; [discriminate|vm_compute; tauto|].
  apply path_step with 5%nat; [discriminate|vm_compute; tauto|]. apply path_nil.
Qed.
Print Assumptions C51_begin_refuted.
(** In (^a) the text is matched but the beginning of the capture is lost and GetCapture returns false. *)
Theorem C51_front_refuted : exists f s w cl st, f = capture_mark (fsm_cat (exk_lit BeginMark) (exk_lit 97)) /\ cap_compile (surround f) = Ok s /\ is_word w /\
  cap_run s w = Ok cl /\ cs_match cl = Some st /\ get_capture s cl = Ok (false, Some st) /\ g_begin st = nowhere /\ g_end st = 1.
Proof.
  destruct (exk_go_ok (surround exk_front) [97] (Some (mkSingle 7 nowhere 1)) (false, Some (mkSingle 7 nowhere 1))) as (s & cl & E1 & E2 & E3 & E4); [vm_compute; reflexivity|].
  exists exk_front, s, [97], cl. eexists. split; [reflexivity|]. split; [exact E1|]. split; [repeat constructor; discriminate|]. split; [exact E2|]. split; [exact E3|]. split; [exact E4|]. split; reflexivity.
Qed.
Print Assumptions C51_front_refuted.
(** (a$) does not match the text a: behind EndMark the scanner follows one transition by epsilon, and there are two. *)
Theorem C51_end_refuted : exists f s w cl, f = capture_mark (fsm_cat (exk_lit 97) (exk_lit EndMark)) /\ cap_compile (surround f) = Ok s /\ is_word w /\ contains (accepts f) ([BeginMark] ++ w ++ [EndMark]) /\
  cap_run s w = Ok cl /\ cs_match cl = None /\ get_capture s cl = Ok (false, None).
Proof.
  destruct (exk_go_ok (surround exk_end) [97] None (false, None)) as (s & cl & E1 & E2 & E3 & E4); [vm_compute; reflexivity|].
  exists exk_end, s, [97], cl. split; [reflexivity|]. split; [exact E1|]. split; [repeat constructor; discriminate|]. split; [|auto]. exists [BeginMark], [97; EndMark], []. split; [reflexivity|].
  exists 5%nat. split; [|vm_compute; tauto].
  apply path_eps with 0%nat; [vm_compute; tauto|]. apply path_step with 1%nat; [discriminate|vm_compute; tauto|].
  apply path_step with 3%nat; [discriminate|vm_compute; tauto|]. apply path_eps with 5%nat; [vm_compute; tauto|]. apply path_nil.
Qed.
Print Assumptions C51_end_refuted.
(** When the automaton is not surrounded, GetCapture may return true though nothing was captured. *)
Theorem C51_nothing_refuted : exists f s w cl st, built f /\ uncompressed f /\ cap_compile f = Ok s /\ is_word w /\ cap_run s w = Ok cl /\ get_capture s cl = Ok (true, Some st) /\
  g_begin st = nowhere /\ g_end st = nowhere.
Proof.
  destruct (exk_go_ok exk_bare [97; 98] (Some (mkSingle 3 nowhere nowhere)) (true, Some (mkSingle 3 nowhere nowhere))) as (s & cl & E1 & E2 & E3 & E4); [vm_compute; reflexivity|].
  exists exk_bare, s, [97; 98], cl. eexists. split; [apply built_cat; apply exk_lit_built; split; (reflexivity || discriminate)|]. split; [reflexivity|]. split; [exact E1|]. split; [repeat constructor; discriminate|].
  split; [exact E2|]. split; [exact E4|]. split; reflexivity.
Qed.
Print Assumptions C51_nothing_refuted.
(** With a greedy repetition at the front the match is not always the leftmost one: in the text bab the regexp
    (a*b) matches b at 0, but ab is captured. *)
Theorem C51_leftmost_refuted : exists f L s w cl st x v, captures f L /\ uncompressed f /\ cap_compile (surround f) = Ok s /\ is_word w /\ cap_run s w = Ok cl /\ get_capture s cl = Ok (true, Some st) /\
  g_begin st = 1 /\ g_end st = 3 /\ f = capture_mark (fsm_cat (repetition_mark exk_as true) (exk_lit 98)) /\ w = x ++ v /\ x = [98] /\ accepts f x.
Proof.
  destruct (exk_go_ok (surround exk_left) [98; 97; 98] (Some (mkSingle 10 1 3)) (true, Some (mkSingle 10 1 3))) as (s & cl & E1 & E2 & E3 & E4); [vm_compute; reflexivity|].
  exists exk_left. eexists. exists s, [98; 97; 98], cl. eexists. exists [98], [97; 98]. split.
  { apply cp_group, cp_cat; [apply cp_repetition; destruct exk_as_plain as (B & U & M); apply cp_plain; auto|].
    destruct (exk_plain 98) as (B & U & M); [split; [reflexivity|discriminate]|vm_compute; reflexivity|]. apply cp_plain; auto. }
  split; [reflexivity|]. split; [exact E1|]. split; [repeat constructor; discriminate|]. split; [exact E2|]. split; [exact E4|]. split; [reflexivity|]. split; [reflexivity|]. split; [reflexivity|]. split; [reflexivity|].
  split; [reflexivity|]. exists 8%nat. split; [|vm_compute; tauto].
  apply path_eps with 2%nat; [vm_compute; tauto|]. apply path_eps with 3%nat; [vm_compute; tauto|]. apply path_eps with 4%nat; [vm_compute; tauto|].
  apply path_step with 6%nat; [discriminate|vm_compute; tauto|]. apply path_eps with 8%nat; [vm_compute; tauto|]. apply path_nil.
Qed.
Print Assumptions C51_leftmost_refuted.
