(** Property C39: the class Regexp of easy.h.  A pattern is given by its items (LexSpec.v);
    [re_den] is the language of a syntax tree (RegexSpec.v); [text_at m b bs] says that the
    memory holds the bytes [bs] at [b]. *)
From Coq Require Import List Bool Arith NArith ZArith Lia.
From Verif Require Import Util Spec PartitionModel FsmModel FsmSem Check EncModel EncSpec RunModel RunSpec ScannerModel ScannerApi SimpleModel
  RegexModel RegexSpec LexModel LexSpec EasyModel EasyProofs EasyUser.
Import ListNotations.

(** ** Matches tells whether the text, between the two marks, contains a match, whatever the
    optimisation for leading anchors does and whether or not the automaton could be determined *)
Theorem C39_matches : forall k b0 b1 b2 added icase andnot is e D text, k_nmask k <= 64 -> user_address b1 -> user_address b2 ->
  options added icase andnot -> Forall (item_ok andnot) is -> shipped e D -> from_local_all e text = Ok (pattern_text is) ->
  (forall f, parse_local added e text = Ok f -> (N.of_nat (size f) <= 4294967294)%N) ->
  exists ts, Forall2 (stands_for icase) is ts /\ forall r, derives Alternative ts r -> regular r ->
    (exists y, regexp_init k b0 b1 b2 added e text = Ok y /\ forall i m b bs, text_at m b bs ->
       exists res, regexp_matches k y i m b (b + N.of_nat (length bs)) = Ok res /\
         (res = true <-> exists p u q, BeginMark :: bs ++ [EndMark] = p ++ u ++ q /\ re_den (e_to e) D r u)) \/
    (regexp_init k b0 b1 b2 added e text = Throw ETooComplicated /\ negates r).
Proof. exact regexp_init_ok. Qed.
Print Assumptions C39_matches.

(** ** Patterns without operators: substring, prefix, suffix and equality tests, up to case
    when the option is given *)
Theorem C39_search : forall k b0 b1 b2 added icase andnot (ab ae : bool) is cs e D text, k_nmask k <= 64 -> user_address b1 -> user_address b2 ->
  options added icase andnot -> Forall (item_ok andnot) is -> Forall2 literal is cs -> shipped e D ->
  from_local_all e text = Ok (pattern_text ((if ab then [IBegin] else []) ++ is ++ (if ae then [IEnd] else []))) ->
  (forall f, parse_local added e text = Ok f -> (N.of_nat (size f) <= 4294967294)%N) ->
  exists y, regexp_init k b0 b1 b2 added e text = Ok y /\ forall i m b bs, text_at m b bs ->
    exists res, regexp_matches k y i m b (b + N.of_nat (length bs)) = Ok res /\
      (res = true <-> exists p u q ds, bs = p ++ u ++ q /\ (ab = true -> p = []) /\ (ae = true -> q = []) /\
         Forall2 (lit icase) cs ds /\ encodes (e_to e) ds u).
Proof. exact regexp_literal. Qed.
Print Assumptions C39_search.

(** ^ab|c: the anchored branch does not make the whole pattern anchored *)
Definition exe_kind : kind := mkKind true 2.
Definition exe_items : list item := [IBegin; IChar 97; IChar 98; IOr; IChar 99].
Definition exe_text : list N := [94; 97; 98; 124; 99]%N.
Definition small_b (r : res fsm) : bool := match r with Ok f => (N.of_nat (size f) <=? 4294967294)%N | _ => true end.
Lemma small_b_ok : forall r, small_b r = true -> forall f, r = Ok f -> (N.of_nat (size f) <= 4294967294)%N.
Proof. intros r H f ->. apply N.leb_le, H. Qed.
Local Ltac items_ok :=
  repeat (apply Forall_cons); try apply Forall_nil; cbn -[hex_number dec_number N.modulo N.div]; unfold hex_ok, number_ok, wide, hexdigit, decdigit;
  repeat match goal with
  | |- _ /\ _ => split
  | |- True => exact I
  | |- Forall _ _ => repeat apply Forall_cons; try apply Forall_nil
  | |- ~ reserved _ => vm_compute; discriminate
  | |- _ -> _ => intro
  | H : _ \/ _ |- _ => destruct H
  end; try contradiction; try discriminate; try lia; try (vm_compute; reflexivity); try (vm_compute; discriminate); auto 20.
Example exe_hypotheses : options [] false false /\ Forall (item_ok false) exe_items /\ from_local_all latin1 exe_text = Ok (pattern_text exe_items) /\
  (forall f, parse_local [] latin1 exe_text = Ok f -> (N.of_nat (size f) <= 4294967294)%N) /\
  user_address 4096 /\ user_address 65536 /\
  derives Alternative [KBegin; KLetters [[97]] false; KLetters [[98]] false; KOr; KLetters [[99]] false]%N
    (ROr (RCat (RCat (RCat REps RBegin) (RLetters [[97]] false)) (RLetters [[98]] false)) (RCat REps (RLetters [[99]] false)))%N.
Proof.
  split; [split; [constructor|]; split; [intros f []|]; split; split; [discriminate|intros []|discriminate|intros []]|].
  split; [items_ok|]. split; [reflexivity|]. split; [apply small_b_ok; vm_compute; reflexivity|].
  split; [split; [reflexivity|discriminate]|]. split; [split; [reflexivity|discriminate]|].
  apply (g_alt [KBegin; KLetters [[97]] false; KLetters [[98]] false]%N [KLetters [[99]] false]%N).
  - apply g_alt_conj, g_conj_neg, g_neg_cat. apply (g_cat [KBegin; KLetters [[97]] false]%N [KLetters [[98]] false]%N); [|apply g_iter_term, g_letters].
    apply (g_cat [KBegin] [KLetters [[97]] false]%N); [|apply g_iter_term, g_letters]. apply (g_cat [] [KBegin]); [constructor|apply g_iter_term, g_begin].
  - apply g_conj_neg, g_neg_cat. apply (g_cat [] [KLetters [[99]] false]%N); [constructor|apply g_iter_term, g_letters].
Qed.
Definition exe_mem (bs : list N) : mem := fun a => if (a <? 64)%N then None else nth_error bs (N.to_nat (a - 64)).
Definition exe_run (pattern : list N) (bs : list N) : res bool :=
  let* y := regexp_init exe_kind 0 4096 65536 [] latin1 pattern in regexp_matches exe_kind y SSE2 (exe_mem bs) 64 (64 + N.of_nat (length bs)).
Example exe_runs : map (exe_run exe_text) [[97; 98; 120]; [120; 97; 98]; [120; 99; 120]; []]%N = [Ok true; Ok false; Ok true; Ok false].
Proof. vm_compute. reflexivity. Qed.
(** ^ab: anchored, and ab$ *)
Example exe_anchored : map (exe_run [94; 97; 98]%N) [[97; 98; 120]; [120; 97; 98]]%N = [Ok true; Ok false] /\
  map (exe_run [97; 98; 36]%N) [[97; 98; 120]; [120; 97; 98]]%N = [Ok false; Ok true].
Proof. vm_compute. auto. Qed.
Example exe_search : Forall2 literal [IChar 97; IChar 98] [97; 98]%N /\ Forall (item_ok false) [IChar 97; IChar 98] /\
  from_local_all latin1 [94; 97; 98]%N = Ok (pattern_text ((if true then [IBegin] else []) ++ [IChar 97; IChar 98] ++ (if false then [IEnd] else []))) /\
  (forall f, parse_local [] latin1 [94; 97; 98]%N = Ok f -> (N.of_nat (size f) <= 4294967294)%N).
Proof. split; [repeat constructor|]. split; [items_ok|]. split; [reflexivity|]. apply small_b_ok. vm_compute. reflexivity. Qed.
