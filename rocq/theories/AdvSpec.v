(** What AdvancedCountingScanner and NoGlueLimitCountingScanner are for (no proofs). *)
From Coq Require Import List Bool Arith NArith.
From Verif Require Import Util Spec.
Import ListNotations.

(** [n] words of [re], one after another, with a word of [sep] between each two. *)
Inductive alternates (re sep : lang) : nat -> list N -> Prop :=
| alt_one : forall r, re r -> alternates re sep 1 r
| alt_more : forall n u s r, alternates re sep n u -> sep s -> re r -> alternates re sep (S n) (u ++ s ++ r).
(** Somewhere in the text [n] words of [re] follow one another, separated by [sep]. *)
Definition repeats (re sep : lang) (w : list N) (n : nat) : Prop :=
  n = 0 \/ exists x u y, w = x ++ u ++ y /\ alternates re sep n u.
