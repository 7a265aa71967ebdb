(** What a regular expression denotes.  [D] is the language of one character of the encoding
    (what the dot stands for), [T] the encoding of a character ([] when it has none). *)
From Coq Require Import List Bool Arith NArith ZArith.
From Verif Require Import Util Spec EncModel EncSpec RegexModel.
Import ListNotations.

(** [w] is the encoding of the characters [s]. *)
Inductive encodes (T : N -> list N) : list N -> word -> Prop :=
| enc_nil : encodes T [] []
| enc_cons : forall c s w, T c <> [] -> encodes T s w -> encodes T (c :: s) (T c ++ w).
(** One of the strings of a character range. *)
Definition L_range (T : N -> list N) (ss : list (list N)) : lang :=
  fun w => exists s, In s ss /\ s <> [] /\ encodes T s w.
(** Between [lo] and [hi] copies. *)
Definition L_repeat (L : lang) (lo hi : Z) : lang :=
  fun w => exists n, (lo <= Z.of_nat n)%Z /\ (hi = Inf \/ (Z.of_nat n <= hi)%Z) /\ L_pow L n w.

Fixpoint re_den (T : N -> list N) (D : lang) (r : re) : lang :=
  match r with
  | RLetters ss false => L_range T ss
  | RLetters ss true => fun w => D w /\ ~ L_range T ss w
  | RDot => D
  | RBegin => L_letter BeginMark
  | REnd => L_letter EndMark
  | RGroup a => re_den T D a
  | RCount t lo hi => L_repeat (re_den T D t) lo hi
  | REps => L_eps
  | RCat c i => L_cat (re_den T D c) (re_den T D i)
  | RNot c => L_not (re_den T D c)
  | RAnd j n => L_and (re_den T D j) (re_den T D n)
  | ROr a j => L_or (re_den T D a) (re_den T D j)
  end.

(** A group with nothing in it, or a term repeated zero times: (), (()), x{0}. *)
Fixpoint void (r : re) : Prop :=
  match r with
  | REps => True
  | RGroup a => void a
  | RCount _ lo hi => lo = 0%Z /\ hi = 0%Z
  | _ => False
  end.
(** The counts the lexer can read, in order. *)
Definition count_ok (lo hi : Z) : Prop := (0 <= lo < 2147483648)%Z /\ (hi = Inf \/ (lo <= hi < 2147483648)%Z).
(** The documented subset: counts are in order, and nothing void is concatenated or repeated. *)
Fixpoint regular (r : re) : Prop :=
  match r with
  | RLetters _ _ | RDot | RBegin | REnd | REps => True
  | RGroup a => regular a
  | RCount t lo hi => regular t /\ count_ok lo hi /\ (void t -> lo = 0%Z \/ (lo = 1%Z /\ hi = Inf))
  | RCat c i => regular c /\ regular i /\ ~ void i
  | RNot c => regular c
  | RAnd j n => regular j /\ regular n
  | ROr a j => regular a /\ regular j
  end.
(** Something has to be determinized. *)
Fixpoint negates (r : re) : Prop :=
  match r with
  | RLetters _ n => n = true
  | RDot | RBegin | REnd | REps => False
  | RGroup a => negates a
  | RCount t _ _ => negates t
  | RCat c i => negates c \/ negates i
  | RNot _ | RAnd _ _ => True
  | ROr a j => negates a \/ negates j
  end.

(** The encodings shipped, and the language of one character in each. *)
Inductive shipped : encoding -> lang -> Prop :=
| ships_latin1 : shipped latin1 L_anybyte
| ships_utf8 : shipped utf8 L_utf8char.
