(** What a regular expression means when one of its groups is captured: the words it matches, with
    marks 1 and 2 around what the group matched, and 4 or 8 behind what a greedy or a non-greedy
    count matched. *)
From Coq Require Import List Bool Arith NArith ZArith.
From Verif Require Import Util Spec FsmModel EncModel RegexModel RegexSpec CapModel CapSpec.
Import ListNotations.

(** How many parentheses open in it, and how many counts are in it. *)
Fixpoint groups (r : re) : nat :=
  match r with
  | RGroup a => 1 + groups a
  | RCount t _ _ => groups t
  | RCat a b | RAnd a b | ROr a b => groups a + groups b
  | RNot a => groups a
  | _ => 0
  end.
Fixpoint ncounts (r : re) : nat :=
  match r with
  | RGroup a | RNot a => ncounts a
  | RCount t _ _ => ncounts t + 1
  | RCat a b | RAnd a b | ROr a b => ncounts a + ncounts b
  | _ => 0
  end.

(** [pos] is the number of the group to be captured, by the order of the open parentheses,
    counted from 1; 0 when there is none.  [gs] tells for each count, in the order of the pattern,
    whether it is greedy. *)
Fixpoint mden (T : N -> list N) (D : lang) (r : re) (pos : nat) (gs : list bool) : lang :=
  match r with
  | RLetters ss false => L_range T ss
  | RLetters ss true => fun w => D w /\ ~ L_range T ss w
  | RDot => D
  | RBegin => L_letter BeginMark
  | REnd => L_letter EndMark
  | RGroup a =>
      if pos =? 1 then fun m => exists x, m = [mark 1] ++ x ++ [mark 2] /\ mden T D a 0 gs x
      else mden T D a (pos - 1) gs
  | RCount t lo hi => fun m => exists x, m = x ++ [mark (if nth (ncounts t) gs true then 4 else 8)] /\ L_repeat (mden T D t pos gs) lo hi x
  | REps => L_eps
  | RCat a b => L_cat (mden T D a pos gs) (mden T D b (pos - groups a) (skipn (ncounts a) gs))
  | ROr a b => L_or (mden T D a pos gs) (mden T D b (pos - groups a) (skipn (ncounts a) gs))
  | RNot _ | RAnd _ _ => fun _ => False
  end.
(** No ^ or $, no conjunction or negation; the dot in an encoding where it is any byte (Latin-1);
    counts that the lexer can read. *)
Fixpoint capturable (e : encoding) (r : re) : Prop :=
  match r with
  | RLetters _ _ => True
  | RDot => e_dot e = append_dot
  | RBegin | REnd | RNot _ | RAnd _ _ => False
  | RGroup a => capturable e a
  | RCount t lo hi => capturable e t /\ count_ok lo hi
  | REps => True
  | RCat a b | ROr a b => capturable e a /\ capturable e b
  end.
(** What is between the parentheses of group [pos]. *)
Fixpoint group_of (r : re) (pos : nat) : option re :=
  match r with
  | RGroup a => if pos =? 1 then Some a else group_of a (pos - 1)
  | RCount t _ _ => group_of t pos
  | RCat a b | RAnd a b | ROr a b => if pos <=? groups a then group_of a pos else group_of b (pos - groups a)
  | RNot a => group_of a pos
  | _ => None
  end.
(** A greedy count may end before any letter has been read. *)
Fixpoint front (T : N -> list N) (D : lang) (r : re) (gs : list bool) : Prop :=
  match r with
  | RGroup a => front T D a gs
  | RCount t lo hi => front T D t gs \/ (nth (ncounts t) gs true = true /\ re_den T D (RCount t lo hi) [])
  | RCat a b => front T D a gs \/ (re_den T D a [] /\ front T D b (skipn (ncounts a) gs))
  | ROr a b => front T D a gs \/ front T D b (skipn (ncounts a) gs)
  | _ => False
  end.
