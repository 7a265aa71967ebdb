(** Property C42: what the text of a pattern means.  LexSpec.v lists the items of a pattern
    with their texts ([item_text], [item_ok]) and the token each stands for ([stands_for]);
    [features added] is the feature list of a lexer with the given options of easy.h. *)
From Coq Require Import List Bool Arith NArith ZArith Lia.
From Verif Require Import Util Spec PartitionModel FsmModel FsmSem Api Check EncModel EncSpec RegexModel RegexSpec
  UniModel LexModel LexSpec LexItems LexTotal LexUser.
Import ListNotations.
Local Open Scope N_scope.

(** ** Every item is read as the documentation says, whatever stands around it *)
Theorem C42_lex : forall added icase andnot is, options added icase andnot -> Forall (item_ok andnot) is ->
  exists ts, lex_all (features added) (pattern_text is) = Ok ts /\ Forall2 (stands_for icase) is ts.
Proof. exact lex_all_ok. Qed.
Print Assumptions C42_lex.

Theorem C42_language : forall added icase andnot is e D, options added icase andnot -> Forall (item_ok andnot) is -> shipped e D ->
  exists ts, Forall2 (stands_for icase) is ts /\
    (forall r, derives Alternative ts r -> regular r ->
      (exists f, parse_pattern (features added) e (pattern_text is) = Ok f /\ built f /\ determined f = false /\
         forall x, accepts f x <-> re_den (e_to e) D r x) \/
      (parse_pattern (features added) e (pattern_text is) = Throw ETooComplicated /\ negates r)) /\
    ((forall r, ~ derives Alternative ts r) -> parse_pattern (features added) e (pattern_text is) = Throw ESyntax).
Proof. exact lexed_language. Qed.
Print Assumptions C42_language.

(** [^b-d\d]\.x{2,3}|\x{43F} without options; ~a&[]\-z]\W with both *)
Definition sample1 : list item :=
  [ISet true [MRange (SChar 98) (SChar 100); MClass Digits]; IEsc 46; IChar 120; ICountTo [50] [51]; IOr; IHex [52; 51; 70]].
Definition sample2 : list item :=
  [INot; IChar 97; IAnd; ISet false [MSingle (SEsc 93); MSingle (SEsc 45); MSingle (SChar 122)]; IClass Word true].
Example no_options : options [] false false.
Proof. split; [constructor|]. split; [intros f []|]. split; split; [discriminate|intros []|discriminate|intros []]. Qed.
Example both_options : options [FCase; FAndNot] true true.
Proof.
  split; [repeat constructor; cbn; intuition discriminate|]. split; [intros f [<-|[<-|[]]]; auto|]. split; split; auto; intros _; cbn; auto.
Qed.
Local Ltac items_ok :=
  repeat (apply Forall_cons); try apply Forall_nil; cbn -[hex_number dec_number N.modulo N.div]; unfold hex_ok, number_ok, wide, hexdigit, decdigit;
  repeat match goal with
  | |- _ /\ _ => split
  | |- True => exact I
  | |- Forall _ _ => repeat apply Forall_cons; try apply Forall_nil
  | |- ~ reserved _ => vm_compute; discriminate
  | |- _ -> _ => intro
  | H : _ \/ _ |- _ => destruct H
  end; try contradiction; try discriminate; try lia; try (vm_compute; reflexivity); try (vm_compute; discriminate); auto 20.
Example sample1_ok : Forall (item_ok false) sample1.
Proof. items_ok. unfold reserved. assert (x / 256 = 0) as -> by (apply N.div_small; lia). discriminate. Qed.
Example sample2_ok : Forall (item_ok true) sample2.
Proof. items_ok. Qed.
Example sample1_text : lex_all (features []) (pattern_text sample1) =
  Ok [KLetters (map (fun c => [c]) (map (fun n => 48 + N.of_nat n) (seq 0 10) ++ [98; 99; 100])) true;
      KLetters [[46]] false; KLetters [[120]] false; KCount 2 3; KOr; KLetters [[1087]] false].
Proof. vm_compute. reflexivity. Qed.

(** ** Literal patterns, escapes and code points: the text itself, up to case under I *)
Theorem C42_literal : forall added icase andnot is cs e D, options added icase andnot -> Forall (item_ok andnot) is ->
  Forall2 literal is cs -> shipped e D ->
  exists f, parse_pattern (features added) e (pattern_text is) = Ok f /\ built f /\ determined f = false /\
    forall x, accepts f x <-> exists ds, Forall2 (lit icase) cs ds /\ encodes (e_to e) ds x.
Proof. exact literal_pattern. Qed.
Print Assumptions C42_literal.
Example ex42_literal : Forall (item_ok false) [IChar 97; IEsc 46; IHex [52; 51; 70]] /\ Forall2 literal [IChar 97; IEsc 46; IHex [52; 51; 70]] [97; 46; 1087] /\
  pattern_text [IChar 97; IEsc 46; IHex [52; 51; 70]] = [97; 92; 46; 92; 120; 123; 52; 51; 70; 125] /\
  encodes (e_to utf8) [97; 46; 1087] [97; 46; 208; 191].
Proof.
  split.
  { items_ok. }
  split; [repeat constructor|]. split; [reflexivity|].
  apply (enc_cons (e_to utf8) 97 [46; 1087] [46; 208; 191]); [discriminate|]. apply (enc_cons (e_to utf8) 46 [1087] [208; 191]); [discriminate|].
  apply (enc_cons (e_to utf8) 1087 [] []); [discriminate|constructor].
Qed.

(** ** Patterns given as bytes *)
Theorem C42_utf8 : forall added cs, Forall (fun c => c < 2097152) cs ->
  parse_local added utf8 (flat_map (e_to utf8) cs) = parse_pattern (features added) utf8 cs.
Proof. exact local_utf8. Qed.
Print Assumptions C42_utf8.
Theorem C42_latin1 : forall added cs, Forall (fun c => c < 128) cs -> parse_local added latin1 cs = parse_pattern (features added) latin1 cs.
Proof. exact local_latin1. Qed.
Print Assumptions C42_latin1.

(** ** Any text at all: tokens, a syntax error, or an overflowing count; never a loop *)
Theorem C42_total : forall fs s, (exists ts, lex_all fs s = Ok ts) \/ lex_all fs s = Throw ESyntax \/ lex_all fs s = UB.
Proof. exact lex_all_total. Qed.
Print Assumptions C42_total.
(** No internal control code gets into the character set of a token. *)
Theorem C42_no_control_codes : forall fs s ts cs n str x, lex_all fs s = Ok ts -> In (KLetters cs n) ts -> In str cs -> In x str -> ~ reserved x.
Proof. exact lex_all_clean. Qed.
Print Assumptions C42_no_control_codes.
(** An unknown escape is an error. *)
Theorem C42_unknown_escape : forall added icase andnot is d t, options added icase andnot -> Forall (item_ok andnot) is ->
  d < 255 -> ~ In d (escapable andnot) -> lex_all (features added) (pattern_text is ++ 92 :: d :: t) = Throw ESyntax.
Proof. exact unknown_escape. Qed.
Print Assumptions C42_unknown_escape.
Example ex42_unknown : ~ In 121 (escapable true) /\ lex_all (features []) [97; 92; 121; 98] = Throw ESyntax.
Proof. split; [cbn; intuition discriminate|vm_compute; reflexivity]. Qed.

(** ** Where the lexer does not do what one would expect *)
(** A raw character whose bits 8 to 15 are F0 is taken for a control code: U+F064 is read as
    the class of digits, U+1F028 as U+10028. *)
Theorem C42_reserved_refuted : exists c d, wide c /\ wide d /\ ~ In c (special true) /\ ~ In d (special true) /\
  lex_all (features []) [c] = Ok [KLetters (map (fun n => [48 + N.of_nat n]) (seq 0 10)) false] /\ lex_all (features []) [d] = Ok [KLetters [[d - 61440]] false].
Proof.
  exists 61540, 127016. split; [vm_compute; reflexivity|]. split; [vm_compute; reflexivity|].
  split; [cbn; intuition discriminate|]. split; [cbn; intuition discriminate|]. split; vm_compute; reflexivity.
Qed.
Print Assumptions C42_reserved_refuted.
(** In a set a negated class negates everything: the set [\Da] leaves out the letter a. *)
Theorem C42_set_class_refuted : exists cs, lex_all (features []) [91; 92; 68; 97; 93] = Ok [KLetters cs true] /\ In [97] cs.
Proof. eexists. split; [vm_compute; reflexivity|]. cbn. auto 20. Qed.
Print Assumptions C42_set_class_refuted.
(** \x{100000041} is read modulo 2^32, as A. *)
Theorem C42_hex_wraps_refuted : exists ds, Forall hexdigit ds /\ hex_number ds > 1114111 /\ lex_all (features []) (item_text (IHex ds)) = Ok [KLetters [[65]] false].
Proof.
  exists [49; 48; 48; 48; 48; 48; 48; 52; 49]. split; [repeat constructor; unfold hexdigit; lia|]. split; vm_compute; reflexivity.
Qed.
Print Assumptions C42_hex_wraps_refuted.
(** An escaped character above U+00FF becomes another one, an escaped U+00FF disappears. *)
Theorem C42_escape_high_refuted : lex_all (features []) [92; 960] = Ok [KLetters [[62400]] false] /\ lex_all (features []) [92; 255] = Ok [].
Proof. split; vm_compute; reflexivity. Qed.
Print Assumptions C42_escape_high_refuted.
(** Under I a titlecase letter does not stand for itself. *)
Theorem C42_titlecase_refuted : exists c cs, lex_all (features [FCase]) [c] = Ok [KLetters cs false] /\ ~ In [c] cs.
Proof. exists 453. eexists. split; [vm_compute; reflexivity|]. cbn. intuition discriminate. Qed.
Print Assumptions C42_titlecase_refuted.
(** A count beyond the range of int overflows. *)
Theorem C42_count_overflow_refuted : exists ds, Forall decdigit ds /\ lex_all (features []) ([97] ++ item_text (ICount ds)) = UB.
Proof. exists [57; 57; 57; 57; 57; 57; 57; 57; 57; 57]. split; [repeat constructor; unfold decdigit; lia|vm_compute; reflexivity]. Qed.
Print Assumptions C42_count_overflow_refuted.
(** A dash cannot end a set ([a-]), a range may not cross a block of control codes. *)
Theorem C42_set_refuted : lex_all (features []) [91; 97; 45; 93] = Throw ESyntax /\
  lex_all (features []) (item_text (ISet false [MRange (SHex [69; 70; 70; 70]) (SHex [70; 49; 48; 48])])) = Throw ESyntax.
Proof. split; vm_compute; reflexivity. Qed.
Print Assumptions C42_set_refuted.
