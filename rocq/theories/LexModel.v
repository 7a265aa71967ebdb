(** Model of the lexer (pire/re_lexer.{h,cpp}, classes.cpp, read_unicode.cpp).  Characters are
    code points, [N] (wchar32: values under 2^32).  Without the glyphs feature (extra/glyphs.cpp, not modelled) every string of a
    character range has one character, so a range is a set of characters here.  Every
    exception of the lexer (class Error, messages left out) is [Throw ESyntax]. *)
From Coq Require Import List Bool Arith NArith ZArith.
From Verif Require Import Util Spec PartitionModel FsmModel EncModel RegexModel UniModel.
Import ListNotations.
Local Open Scope N_scope.

(** re_lexer.h:45-47 *)
Definition Control : N := 61440.      (* 0xF000 *)
Definition ControlMask : N := 65280.  (* 0xFF00 *)
Definition End : N := 61695.          (* 0xF0FF *)
(** (c & ControlMask) == Control *)
Definition is_control (c : N) : bool := N.land c ControlMask =? Control.
(** c & ~ControlMask *)
Definition strip (c : N) : N := N.land c 4294902015.
(** Control | c *)
Definition ctl (c : N) : N := N.lor Control c.
(** strchr(s, c) != 0: c is converted to char, and the terminating zero is found too *)
Definition strchr (s : list N) (c : N) : bool := existsb (N.eqb (c mod 256)) (s ++ [0]).

(** re_lexer.cpp:48-64, Lexer::GetChar *)
Definition get_char (s : list N) : res (N * list N) :=
  match s with
  | [] => Ok (End, [])
  | c :: s =>
      if c =? 92 then match s with [] => Throw ESyntax | d :: s => Ok (ctl d, s) end
      else Ok (c, s)
  end.
(** re_lexer.cpp:66-72, Lexer::PeekChar *)
Definition peek_char (s : list N) : N := match s with [] => End | c :: _ => c end.
(** re_lexer.cpp:74-78, Lexer::UngetChar *)
Definition unget_char (c : N) (s : list N) : list N := if c =? End then s else c :: s.

(** re_lexer.h:74-101, Term, with the character range as a set of characters *)
Inductive term := TLetters (cs : list N) (negated : bool) | TCount (lo hi : Z) | TDot | TOpen | TClose | TOr | TAnd | TNot | TBegin | TEnd | TFinish.
(** re_lexer.cpp:40, Term::Character *)
Definition character (c : N) : term := TLetters [c] false.

(** re_lexer.cpp:194-202, Feature::CorrectChar *)
Definition correct (c : N) (controls : list N) : N :=
  let x := strchr controls (N.land c 255) in
  if (is_control c && x)%bool then strip c
  else if ((c <=? 255) && x)%bool then N.lor c Control
  else c.

(** ** \x (read_unicode.cpp) *)
(** read_unicode.cpp:48-50, IsHexDigit *)
Definition is_hex (c : N) : bool := ((48 <=? c) && (c <=? 57) || (65 <=? c) && (c <=? 70) || (97 <=? c) && (c <=? 102))%bool.
Definition hex_value (c : N) : N := if c <=? 57 then c - 48 else if c <=? 70 then c - 55 else c - 87.
(** read_unicode.cpp:52-64, ReadHexDigit; [stop] gets the character and how many digits have
    been read.  The fuel is two more than the length of the input. *)
Fixpoint read_hex (stop : N -> nat -> bool) (fuel : nat) (digits : list N) (c : N) (s : list N) : res (list N * list N) :=
  match fuel with
  | O => OutOfFuel
  | S k =>
      if stop c (length digits) then Ok (digits, unget_char c s)
      else if negb (is_hex c) then Throw ESyntax
      else let* (d, s) := get_char s in read_hex stop k (digits ++ [c]) d s
  end.
(** read_unicode.cpp:66-77, HexToDec: stoul gives an unsigned long, which is cut to 32 bits *)
Definition hex_to_dec (digits : list N) : res N :=
  let v := fold_left (fun a c => a * 16 + hex_value c) digits 0 in
  if 18446744073709551616 <=? v then Throw ESyntax
  else let r := v mod 4294967296 in if 1114111 <? r then Throw ESyntax else Ok r.
(** read_unicode.cpp:26-46, ReadUnicodeCharacter *)
Definition read_unicode (s : list N) : res (N * list N) :=
  let* (_, s) := get_char s in
  if peek_char s =? 123 then
    let* (_, s) := get_char s in
    let* (c, s) := get_char s in
    let* (ds, s) := read_hex (fun c n => (c =? End) || (negb (Nat.eqb n 0) && (c =? 125)))%bool (S (S (length s))) [] c s in
    let* (c, s) := get_char s in
    if negb (c =? 125) then Throw ESyntax else let* r := hex_to_dec ds in Ok (r, s)
  else
    let* (c, s) := get_char s in
    let* (ds, s) := read_hex (fun _ n => Nat.eqb n 2) (S (S (length s))) [] c s in
    if negb (Nat.eqb (length ds) 2) then Throw ESyntax else let* r := hex_to_dec ds in Ok (r, s).

(** ** [...] (re_lexer.cpp:216-284, CharacterRangeReader) *)
Definition range_controls : list N := [94; 91; 93; 45; 92].                           (* ^[]-\ *)
Definition range_controls2 : list N := [42; 43; 123; 125; 40; 41; 36; 63; 46; 38; 126]. (* *+{}()$?.&~ *)
(** for (ch = begin; ch <= end; ++ch) insert(ch) (re_lexer.cpp:262-264).  (For end = 2^32-1,
    which no encoding produces, the loop would not end.) *)
Definition add_range (b e : N) (cs : list N) : list N :=
  fold_left (fun acc i => sadd (b + N.of_nat i) acc) (seq 0 (N.to_nat (e + 1 - b))) cs.
(** the body of the for loop, re_lexer.cpp:239-277.  The fuel is two more than the length of
    the input. *)
Fixpoint range_loop (fuel : nat) (c : N) (s : list N) (cs : list N) (negated : bool) : res (term * list N) :=
  match fuel with
  | O => OutOfFuel
  | S k =>
      if c =? End then Throw ESyntax
      else if c =? ctl 93 then Ok (TLetters cs negated, s)
      else
        let uni := c =? ctl 120 in
        let* (u, s) := if uni then read_unicode (unget_char c s) else Ok (0, s) in
        let* (cs, s) :=
          if ((negb (is_control c) || uni) && (correct (peek_char s) range_controls =? ctl 45))%bool then
            let* (_, s) := get_char s in
            let* (cur, s) := get_char s in
            let b := if uni then u else c in
            let* (e, s) :=
              if cur =? ctl 120 then read_unicode (unget_char cur s)
              else let e := correct cur range_controls in if is_control e then Throw ESyntax else Ok (e, s) in
            Ok (add_range b e cs, s)
          else if c =? ctl 45 then Ok (sadd 45 cs, s)
          else if (is_control c && (strchr range_controls2 (strip c) || strchr range_controls (strip c)))%bool then Ok (sadd (strip c) cs, s)
          else if (negb (is_control c) || negb (strchr range_controls (strip c)))%bool then Ok (sadd (if uni then u else c) cs, s)
          else Throw ESyntax in
        let* (c, s) := get_char s in
        range_loop k (correct c range_controls) s cs negated
  end.
Definition lex_range (s : list N) : res (term * list N) :=
  let* (c, s) := get_char s in
  let c := correct c range_controls in
  if ((c =? 91) || (c =? 93))%bool then Ok (character c, s)
  else
    let* (c, s) := get_char s in
    let c := correct c range_controls in
    if c =? ctl 94 then
      let* (c, s) := get_char s in range_loop (S (S (length s))) (correct c range_controls) s [] true
    else range_loop (S (S (length s))) c s [] false.

(** ** {n,m} (re_lexer.cpp:286-320, RepetitionCountReader) *)
(** lower = lower * 10 + (ch - '0'): the product is computed in int, where overflow is
    undefined, the sum in unsigned int, and the result is converted to int *)
Definition next_count (n : Z) (c : N) : res Z :=
  let m := (n * 10)%Z in
  if ((2147483647 <? m) || (m <? -2147483648))%Z%bool then UB
  else let x := ((m + Z.of_N c - 48) mod 4294967296)%Z in Ok (if (2147483647 <? x)%Z then (x - 4294967296)%Z else x).
(** for (; is_digit(ch); ch = GetChar()).  The fuel is two more than the length of the input. *)
Fixpoint read_count (fuel : nat) (n : Z) (c : N) (s : list N) : res (Z * N * list N) :=
  match fuel with
  | O => OutOfFuel
  | S k =>
      if is_digit c then
        let* n := next_count n c in
        let* (d, s) := get_char s in read_count k n d s
      else Ok (n, c, s)
  end.
Definition lex_count (s : list N) : res (term * list N) :=
  let* (c, s) := get_char s in
  if ((c =? ctl 123) || (c =? ctl 125))%bool then Ok (character (strip c), s)
  else
    let* (c, s) := get_char s in
    if negb (is_digit c) then Throw ESyntax
    else
      let* (lo, c, s) := read_count (S (S (length s))) 0 c s in
      if c =? 125 then Ok (TCount lo lo, s)
      else if negb (c =? 44) then Throw ESyntax
      else
        let* (c, s) := get_char s in
        if c =? 125 then Ok (TCount lo Inf, s)
        else if negb (is_digit c) then Throw ESyntax
        else
          let* (hi, c, s) := read_count (S (S (length s))) 0 c s in
          if negb (c =? 125) then Throw ESyntax else Ok (TCount lo hi, s).

(** ** Features *)
(** CharClasses (classes.cpp:107-142), EnableUnicodeSequencesImpl (re_lexer.cpp:205-214),
    RepetitionCountReader, CharacterRangeReader, CaseInsensitiveImpl (re_lexer.cpp:322-340),
    AndNotSupportImpl (re_lexer.cpp:341-362) *)
Inductive feature := FClasses | FUnicode | FCount | FRange | FCase | FAndNot.
(** re_lexer.h:192, classes.cpp:110, Priority *)
Definition priority (f : feature) : nat := match f with FClasses => 10 | _ => 50 end.
(** re_lexer.cpp:90-102, Lexer::AddFeature: inserted at the lower bound *)
Fixpoint add_feature (f : feature) (fs : list feature) : list feature :=
  match fs with
  | [] => [f]
  | g :: fs => if Nat.ltb (priority g) (priority f) then g :: add_feature f fs else f :: g :: fs
  end.
(** re_lexer.cpp:371-377, InstallDefaultFeatures *)
Definition default_features : list feature :=
  fold_left (fun fs f => add_feature f fs) [FRange; FCount; FClasses; FUnicode] [].
(** Accepts: re_lexer.cpp:207-209, 218, 288, 343-346 *)
Definition feature_accepts (f : feature) (c : N) : bool :=
  match f with
  | FUnicode => c =? ctl 120
  | FRange => (c =? 91) || (c =? ctl 91) || (c =? ctl 93)
  | FCount => (c =? 123) || (c =? ctl 123) || (c =? ctl 125)
  | FAndNot => (c =? 38) || (c =? 126) || (c =? ctl 38) || (c =? ctl 126)
  | FClasses | FCase => false
  end%bool.
(** Lex: re_lexer.cpp:211-213, 220-283, 290-319, 348-361 *)
Definition feature_lex (f : feature) (s : list N) : res (term * list N) :=
  match f with
  | FUnicode => let* (c, s) := read_unicode s in Ok (character c, s)
  | FRange => lex_range s
  | FCount => lex_count s
  | FAndNot =>
      let* (c, s) := get_char s in
      if ((c =? ctl 38) || (c =? ctl 126))%bool then Ok (character (strip c), s)
      else if c =? 38 then Ok (TAnd, s) else if c =? 126 then Ok (TNot, s) else Throw ESyntax
  | FClasses | FCase => Throw ESyntax (* never called: Accepts is false *)
  end.

(** classes.cpp:82-102: the classes, as lists of inclusive bounds *)
Definition class_l : list (N * N) := [(65, 90); (97, 122)].
Definition class_c : list (N * N) := [(1040, 1103); (1025, 1025); (1105, 1105)].
Definition class_table : list (N * list (N * N)) :=
  [(108, class_l); (99, class_c); (119, class_l ++ class_c); (100, [(48, 57)]);
   (115, [(32, 32); (9, 9); (13, 13); (10, 10); (160, 160)]); (110, [(10, 10)]); (114, [(13, 13)]); (116, [(9, 9)])].
Definition find_class (c : N) : option (list (N * N)) :=
  option_map snd (find (fun kv => fst kv =? to_lower (strip c)) class_table).
(** classes.cpp:55-62, ToSet *)
Definition class_set (bounds : list (N * N)) : list N := fold_left (fun acc b => add_range (fst b) (snd b) acc) bounds [].
(** classes.cpp:112-138, CharClassesImpl::Alter *)
Definition alter_classes (cs : list N) (negated : bool) : res term :=
  let '(altered, pos, neg) :=
    fold_left (fun '(altered, pos, neg) c =>
      match (if is_control c then find_class c else None) with
      | Some b => (fold_left (fun acc x => sadd x acc) (class_set b) altered,
                   (pos || negb (is_upper (strip c)))%bool, (neg || is_upper (strip c))%bool)
      | None => (sadd c altered, pos, neg)
      end) cs ([], false, false) in
  if (neg && (pos || negated))%bool then Throw ESyntax else Ok (TLetters altered (neg || negated)%bool).
(** re_lexer.cpp:324-339, CaseInsensitiveImpl::Alter *)
Definition alter_case (cs : list N) (negated : bool) : term :=
  TLetters (fold_left (fun acc c => sadd (to_lower c) (sadd (to_upper c) acc)) cs []) negated.
Definition alter (f : feature) (t : term) : res term :=
  match t with
  | TLetters cs n => match f with FClasses => alter_classes cs n | FCase => Ok (alter_case cs n) | _ => Ok t end
  | _ => Ok t
  end.

(** re_lexer.cpp:120-142: a character no feature has taken *)
Definition lex_controls : list N := [124; 40; 41; 46; 42; 43; 63; 94; 36; 92].          (* |().*+?^$\ *)
Definition lex_plain (c : N) : term :=
  if c =? 124 then TOr
  else if c =? 40 then TOpen
  else if c =? 41 then TClose
  else if c =? 46 then TDot
  else if c =? 42 then TCount 0 Inf
  else if c =? 43 then TCount 1 Inf
  else if c =? 63 then TCount 0 1
  else if c =? 94 then TBegin
  else if c =? 36 then TEnd
  else if (is_control c && strchr lex_controls (strip c))%bool then character (strip c)
  else character c.
(** re_lexer.cpp:104-144, DoLex.  (No feature returns a term of type 0, so the inner loop stops at
    the first feature that accepts.) *)
Definition do_lex (fs : list feature) (s : list N) : res (term * list N) :=
  let* (c, s) := get_char s in
  let s := unget_char c s in
  let c := peek_char s in
  if c =? End then Ok (TFinish, s)
  else
    match find (fun f => feature_accepts f c) fs with
    | Some f => feature_lex f s
    | None => let* (c, s) := get_char s in Ok (lex_plain c, s)
    end.
(** re_lexer.cpp:148-151: Alter, the last feature first *)
Definition alter_all (fs : list feature) (t : term) : res term :=
  fold_left (fun r f => let* t := r in alter f t) (rev fs) (Ok t).
(** re_lexer.cpp:153-160 *)
Definition check_term (t : term) : res term :=
  match t with
  | TLetters cs _ => if existsb is_control cs then Throw ESyntax else Ok t
  | _ => Ok t
  end.
(** re_lexer.cpp:162-185: the token for the parser, None at the end of the input *)
Definition to_token (t : term) : option token :=
  match t with
  | TLetters cs n => Some (KLetters (map (fun c => [c]) cs) n)
  | TCount lo hi => Some (KCount lo hi)
  | TDot => Some KDot
  | TOpen => Some KOpen
  | TClose => Some KClose
  | TOr => Some KOr
  | TAnd => Some KAnd
  | TNot => Some KNot
  | TBegin => Some KBegin
  | TEnd => Some KEnd
  | TFinish => None
  end.
(** re_lexer.cpp:146-186, Lexer::Lex *)
Definition lex (fs : list feature) (s : list N) : res (option token * list N) :=
  let* (t, s) := do_lex fs s in
  let* t := alter_all fs t in
  let* t := check_term t in
  Ok (to_token t, s).
(** The tokens of a pattern, as the parser asks for them (re_parser.y:163-176, yylex).  The fuel
    is one more than the length of the input. *)
Fixpoint lex_loop (fs : list feature) (fuel : nat) (s : list N) : res (list token) :=
  match fuel with
  | O => OutOfFuel
  | S k =>
      let* (t, s) := lex fs s in
      match t with
      | None => Ok []
      | Some t => let* ts := lex_loop fs k s in Ok (t :: ts)
      end
  end.
Definition lex_all (fs : list feature) (s : list N) : res (list token) := lex_loop fs (S (length s)) s.

(** re_lexer.cpp:379-387, Lexer::Parse.  (All tokens are read first here; the code reads them as
    it parses, so when a pattern has several errors another one of them may be thrown.) *)
Definition parse_pattern (fs : list feature) (e : encoding) (s : list N) : res fsm :=
  let* ts := lex_all fs s in parse_tokens e ts.
(** easy.h:198-206: FromLocal, Lexer, Options::Apply, Parse *)
Definition parse_local (added : list feature) (e : encoding) (text : list N) : res fsm :=
  let* s := from_local_all e text in
  parse_pattern (fold_left (fun fs f => add_feature f fs) added default_features) e s.
