(** C53: what SlowCapturingScanner captures for a pattern parsed with the feature Capture. *)
From Coq Require Import List Bool Arith NArith ZArith Lia.
From Verif Require Import Util Spec PartitionModel FsmModel Nfa FsmSem EncModel EncSpec ScannerModel
  RegexModel RegexSpec RegexParse RegexProofs EasyProofs ApproxSpec CapModel CapSpec CapWitness MarkModel MarkSpec MarkUser MarkCalm MarkFront.
Import ListNotations.
Local Open Scope N_scope.

(** C53, the whole: the pattern compiles, the marks do not change what it matches, the scanner
    decides whether the text contains a match, and what it captures is where the marks stand in a
    marked word of the pattern that the text contains. *)
Theorem C53_pattern : forall e D w r pos gs, shipped e D -> derives Alternative w r -> capturable e r -> regular r ->
  (exists f, compile_m e pos gs r = Ok f /\ (forall x, accepts f x <-> re_den (e_to e) D r x) /\
    (N.of_nat (size f) + 2 <= two32 -> exists s, cap_compile (surround f) = Ok s /\ forall t, is_word t -> N.of_nat (length t) < nowhere ->
      exists cl ans o, cap_run s t = Ok cl /\ get_capture s cl = Ok (ans, o) /\
        (cs_match cl <> None <-> contains (re_den (e_to e) D r) t) /\ (o <> None <-> contains (re_den (e_to e) D r) t) /\ (o = None -> ans = false) /\
        forall st, o = Some st -> exists u m v, t = u ++ strip m ++ v /\ mden (e_to e) D r pos gs m /\ g_begin st = mark_at u 0 m /\ g_end st = mark_at u 1 m /\ (ans = true <-> g_begin st <> nowhere))) \/
  (compile_m e pos gs r = Throw ETooComplicated /\ negates r).
Proof. exact pattern_captured. Qed.
Print Assumptions C53_pattern.

(** What is captured is a part of the text that the chosen group, by the order of the open
    parentheses, matches. *)
Theorem C53_group : forall e D w r pos gs f s t cl st, shipped e D -> derives Alternative w r -> capturable e r -> regular r ->
  compile_m e pos gs r = Ok f -> N.of_nat (size f) + 2 <= two32 -> cap_compile (surround f) = Ok s -> is_word t -> N.of_nat (length t) < nowhere ->
  cap_run s t = Ok cl -> get_capture s cl = Ok (true, Some st) ->
  exists b u y v, group_of r pos = Some b /\ t = u ++ y ++ v /\ re_den (e_to e) D b y /\ g_begin st = N.of_nat (length u) /\ g_end st = N.of_nat (length (u ++ y)).
Proof. exact group_captured. Qed.
Print Assumptions C53_group.

(** When the pattern has no such group, nothing is captured. *)
Theorem C53_none : forall e D w r pos gs f s t cl ans o, shipped e D -> derives Alternative w r -> capturable e r -> regular r -> pos = 0%nat \/ (groups r < pos)%nat ->
  compile_m e pos gs r = Ok f -> N.of_nat (size f) + 2 <= two32 -> cap_compile (surround f) = Ok s -> is_word t -> N.of_nat (length t) < nowhere ->
  cap_run s t = Ok cl -> get_capture s cl = Ok (ans, o) -> ans = false.
Proof. exact none_captured. Qed.
Print Assumptions C53_none.

(** If every count is followed by a question mark, what is captured belongs to a match that begins
    as early in the text as any. *)
Theorem C53_lazy : forall e D w r pos gs f s t cl ans st, shipped e D -> derives Alternative w r -> capturable e r -> regular r -> Forall (fun b => b = false) gs -> (ncounts r <= length gs)%nat ->
  compile_m e pos gs r = Ok f -> N.of_nat (size f) + 2 <= two32 -> cap_compile (surround f) = Ok s -> is_word t -> N.of_nat (length t) < nowhere ->
  cap_run s t = Ok cl -> get_capture s cl = Ok (ans, Some st) ->
  exists u m v, t = u ++ strip m ++ v /\ mden (e_to e) D r pos gs m /\ g_begin st = mark_at u 0 m /\ g_end st = mark_at u 1 m /\
    forall u' x v', t = u' ++ x ++ v' -> re_den (e_to e) D r x -> (length u <= length u')%nat.
Proof. exact lazy_leftmost. Qed.
Print Assumptions C53_lazy.

(** The same if no greedy count of the pattern can end before a letter has been read. *)
Theorem C53_leftmost : forall e D w r pos gs f s t cl ans st, shipped e D -> derives Alternative w r -> capturable e r -> regular r -> ~ front (e_to e) D r gs ->
  compile_m e pos gs r = Ok f -> N.of_nat (size f) + 2 <= two32 -> cap_compile (surround f) = Ok s -> is_word t -> N.of_nat (length t) < nowhere ->
  cap_run s t = Ok cl -> get_capture s cl = Ok (ans, Some st) ->
  exists u m v, t = u ++ strip m ++ v /\ mden (e_to e) D r pos gs m /\ g_begin st = mark_at u 0 m /\ g_end st = mark_at u 1 m /\
    forall u' x v', t = u' ++ x ++ v' -> re_den (e_to e) D r x -> (length u <= length u')%nat.
Proof. exact pattern_leftmost. Qed.
Print Assumptions C53_leftmost.

(** Whatever the group and the kinds of the counts, the marked words without their marks are the
    words of the pattern. *)
Theorem C53_words : forall e D r pos gs w, shipped e D -> capturable e r -> (re_den (e_to e) D r w <-> exists m, mden (e_to e) D r pos gs m /\ strip m = w).
Proof. exact marked_words. Qed.
Print Assumptions C53_words.

(** ** The pattern (a)x([b-d]*?)y, of which the second group is captured, on xaxbcdyy *)
Definition exm_lit (c : N) : re := RLetters [[c]] false.
Definition exm_in : re := RCat REps (RCount (RLetters [[98]; [99]; [100]] false) 0 Inf).
Definition exm_re : re := RCat (RCat (RCat (RCat REps (RGroup (RCat REps (exm_lit 97)))) (exm_lit 120)) (RGroup exm_in)) (exm_lit 121).
Definition exm_text : list N := [120; 97; 120; 98; 99; 100; 121; 121].
Definition exm_run (c : res fsm) (t : list N) : res (nat * (option single * (bool * option single))) :=
  let* f := c in let* x := exk_go (surround f) t in Ok (size f, x).
Lemma exm_derives : exists w, derives Alternative w exm_re.
Proof.
  eexists. apply g_alt_conj, g_conj_neg, g_neg_cat. unfold exm_re.
  eapply g_cat; [eapply g_cat; [eapply g_cat; [eapply g_cat; [apply g_cat_empty|apply g_iter_term, g_group, g_alt_conj, g_conj_neg, g_neg_cat; eapply g_cat; [apply g_cat_empty|apply g_iter_term, g_letters]]
    |apply g_iter_term, g_letters]|apply g_iter_term, g_group, g_alt_conj, g_conj_neg, g_neg_cat; eapply g_cat; [apply g_cat_empty|apply g_iter, g_letters]]|apply g_iter_term, g_letters].
Qed.
Lemma exm_ok : capturable latin1 exm_re /\ regular exm_re.
Proof. vm_compute. intuition discriminate. Qed.
Lemma exm_run_ok : forall c t n o r, exm_run c t = Ok (n, (o, r)) ->
  exists f s cl, c = Ok f /\ size f = n /\ cap_compile (surround f) = Ok s /\ cap_run s t = Ok cl /\ cs_match cl = o /\ get_capture s cl = Ok r.
Proof.
  intros c t n o r H. apply bind_ok in H as (f & -> & H). apply bind_ok in H as ([o' r'] & E & H). apply ok_inj' in H. pose proof (f_equal fst H) as H1. pose proof (f_equal snd H) as H2. cbn [fst snd] in H1, H2. subst n. rewrite H2 in E.
  destruct (exk_go_ok _ _ _ _ E) as (s & cl & X). exists f, s, cl. split; [reflexivity|]. split; [reflexivity|exact X].
Qed.
(** The second group is bcd, from 3 to 6; the first is a, from 1 to 2; there is no third. *)
Example C53_ex : shipped latin1 L_anybyte /\ (exists w, derives Alternative w exm_re) /\ capturable latin1 exm_re /\ regular exm_re /\ is_word exm_text /\ N.of_nat (length exm_text) < nowhere /\
  (exists f s cl st, compile_m latin1 2 [false] exm_re = Ok f /\ N.of_nat (size f) + 2 <= two32 /\ cap_compile (surround f) = Ok s /\ cap_run s exm_text = Ok cl /\ get_capture s cl = Ok (true, Some st) /\ g_begin st = 3 /\ g_end st = 6) /\
  (exists f s cl st, compile_m latin1 1 [false] exm_re = Ok f /\ N.of_nat (size f) + 2 <= two32 /\ cap_compile (surround f) = Ok s /\ cap_run s exm_text = Ok cl /\ get_capture s cl = Ok (true, Some st) /\ g_begin st = 1 /\ g_end st = 2) /\
  (exists f s cl o, (groups exm_re < 3)%nat /\ compile_m latin1 3 [false] exm_re = Ok f /\ N.of_nat (size f) + 2 <= two32 /\ cap_compile (surround f) = Ok s /\ cap_run s exm_text = Ok cl /\ get_capture s cl = Ok (false, o)) /\
  group_of exm_re 2 = Some exm_in /\ Forall (fun b => b = false) [false] /\ (ncounts exm_re <= length [false])%nat.
Proof.
  split; [apply ships_latin1|]. split; [exact exm_derives|]. split; [apply exm_ok|]. split; [apply exm_ok|]. split; [repeat constructor; discriminate|]. split; [reflexivity|].
  split; [|split; [|split; [|split; [reflexivity|split; [auto|cbn; auto]]]]].
  - destruct (exm_run_ok (compile_m latin1 2 [false] exm_re) exm_text 13 (Some (mkSingle 14 3 6)) (true, Some (mkSingle 14 3 6))) as (f & s & cl & E1 & E2 & E3 & E4 & _ & E5); [vm_compute; reflexivity|]. exists f, s, cl. eexists. split; [exact E1|]. rewrite E2. split; [discriminate|]. split; [exact E3|]. split; [exact E4|]. split; [exact E5|]. split; reflexivity.
  - destruct (exm_run_ok (compile_m latin1 1 [false] exm_re) exm_text 13 (Some (mkSingle 14 1 2)) (true, Some (mkSingle 14 1 2))) as (f & s & cl & E1 & E2 & E3 & E4 & _ & E5); [vm_compute; reflexivity|]. exists f, s, cl. eexists. split; [exact E1|]. rewrite E2. split; [discriminate|]. split; [exact E3|]. split; [exact E4|]. split; [exact E5|]. split; reflexivity.
  - destruct (exm_run_ok (compile_m latin1 3 [false] exm_re) exm_text 11 (Some (mkSingle 12 nowhere nowhere)) (false, Some (mkSingle 12 nowhere nowhere))) as (f & s & cl & E1 & E2 & E3 & E4 & _ & E5); [vm_compute; reflexivity|]. exists f, s, cl. eexists. split; [cbn; auto|]. split; [exact E1|]. rewrite E2. split; [discriminate|]. split; [exact E3|]. split; [exact E4|exact E5].
Qed.

(** The count of this pattern, greedy or not, is not at its front. *)
Lemma lit_none : forall c, ~ re_den (e_to latin1) L_anybyte (exm_lit c) [].
Proof. intros c. exact (range_some latin1 [[c]]). Qed.
Example C53_leftmost_ex : ~ front (e_to latin1) L_anybyte exm_re [true] /\
  exists f s cl st, compile_m latin1 2 [true] exm_re = Ok f /\ N.of_nat (size f) + 2 <= two32 /\ cap_compile (surround f) = Ok s /\ cap_run s exm_text = Ok cl /\ get_capture s cl = Ok (true, Some st) /\ g_begin st = 3 /\ g_end st = 6.
Proof.
  split.
  - cbn [front exm_re exm_in exm_lit]. intros H.
    assert (X : ~ re_den (e_to latin1) L_anybyte (RCat (RCat REps (RGroup (RCat REps (exm_lit 97)))) (exm_lit 120)) []).
    { intros (u & v & E & _ & Y). symmetry in E. apply app_eq_nil in E as [_ ->]. exact (lit_none 120 Y). }
    tauto.
  - destruct (exm_run_ok (compile_m latin1 2 [true] exm_re) exm_text 13 (Some (mkSingle 14 3 6)) (true, Some (mkSingle 14 3 6))) as (f & s & cl & E1 & E2 & E3 & E4 & _ & E5); [vm_compute; reflexivity|].
    exists f, s, cl. eexists. split; [exact E1|]. rewrite E2. split; [discriminate|]. split; [exact E3|]. split; [exact E4|]. split; [exact E5|]. split; reflexivity.
Qed.

(** ** The pattern (a*b): where the greedy count is at the front the match is not always a leftmost one.
    In bab there is a match at 0, and the whole of it is the group, but ab at 1 is captured. *)
Definition exm_ab : re := RCat REps (RGroup (RCat (RCat REps (RCount (exm_lit 97) 0 Inf)) (exm_lit 98))).
Theorem C53_front_refuted : exists w r f s t cl st x v, derives Alternative w r /\ capturable latin1 r /\ regular r /\ group_of r 1 = Some (RCat (RCat REps (RCount (exm_lit 97) 0 Inf)) (exm_lit 98)) /\
  r = RCat REps (RGroup (RCat (RCat REps (RCount (exm_lit 97) 0 Inf)) (exm_lit 98))) /\ compile_m latin1 1 [true] r = Ok f /\ cap_compile (surround f) = Ok s /\ is_word t /\ cap_run s t = Ok cl /\ get_capture s cl = Ok (true, Some st) /\
  g_begin st = 1 /\ g_end st = 3 /\ t = x ++ v /\ re_den (e_to latin1) L_anybyte r x.
Proof.
  assert (Dr : exists w, derives Alternative w exm_ab).
  { eexists. apply g_alt_conj, g_conj_neg, g_neg_cat. eapply g_cat; [apply g_cat_empty|]. apply g_iter_term, g_group, g_alt_conj, g_conj_neg, g_neg_cat.
    eapply g_cat; [eapply g_cat; [apply g_cat_empty|apply g_iter, g_letters]|apply g_iter_term, g_letters]. }
  destruct Dr as [w Dr].
  destruct (exm_run_ok (compile_m latin1 1 [true] exm_ab) [98; 97; 98] 10 (Some (mkSingle 11 1 3)) (true, Some (mkSingle 11 1 3))) as (f & s & cl & E1 & E2 & E3 & E4 & _ & E5); [vm_compute; reflexivity|].
  exists w, exm_ab, f, s, [98; 97; 98], cl. eexists. exists [98], [97; 98]. split; [exact Dr|]. split; [vm_compute; intuition discriminate|]. split; [vm_compute; intuition discriminate|]. split; [reflexivity|]. split; [reflexivity|].
  split; [exact E1|]. split; [exact E3|]. split; [repeat constructor; discriminate|]. split; [exact E4|]. split; [exact E5|]. split; [reflexivity|]. split; [reflexivity|]. split; [reflexivity|].
  exists [], [98]. split; [reflexivity|]. split; [reflexivity|]. exists [], [98]. split; [reflexivity|]. split.
  - exists [], []. split; [reflexivity|]. split; [reflexivity|]. exists 0%nat. split; [discriminate|]. split; [left; reflexivity|reflexivity].
  - exists [98]. split; [left; reflexivity|]. split; [discriminate|]. change [98] with ([98] ++ @nil N). change [98] with (e_to latin1 98). constructor; [discriminate|constructor].
Qed.
Print Assumptions C53_front_refuted.
