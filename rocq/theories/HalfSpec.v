(** Specification vocabulary for half-final scanners: languages and counts. *)
From Coq Require Import List Bool Arith NArith Sorted.
From Verif Require Import Util Spec.
Import ListNotations.

(** ** Languages *)

(** The words of [L] no proper prefix of which is in [L]. *)
Definition L_shortest (L : lang) : lang := fun w => L w /\ forall u v, w = u ++ v -> v <> [] -> ~ L u.
(** One or more words of [L] in a row. *)
Definition L_plus (L : lang) : lang := L_cat L (L_star L).
(** Adding letters at the end (at the beginning) of a word of [L] gives words of [L]. *)
Definition right_closed (L : lang) : Prop := forall w c, L w -> letter c -> L (w ++ [c]).
Definition left_closed (L : lang) : Prop := forall u w, is_word u -> L w -> L (u ++ w).
(** Some prefix that ends in EndMark is in [L]. *)
Definition L_until_end (L : lang) : lang := fun w => exists u v, w = u ++ EndMark :: v /\ is_word v /\ L (u ++ [EndMark]).

(** The prefixes at which HalfFinalScanner(fsm) counts, when fsm accepts [L]. *)
Definition half_lang (L : lang) : lang := fun w =>
  (right_closed L /\ L_cat L_any (L_shortest L) w) \/ (~ right_closed L /\ L_until_end L w).
(** ... and at which a counter made by MakeNonGreedyCounter(intersects, simplify) counts. *)
Definition counter_lang (intersects simplify : bool) (L : lang) : lang :=
  let M := L_cat L_any L in
  if intersects then (if simplify then L_cat L_any (L_shortest M) else M) else L_plus (L_shortest M).

(** ** Counts *)

(** [w] has exactly [n] prefixes in [L]. *)
Definition prefixes_in (L : lang) (w : word) (n : nat) : Prop :=
  exists js, NoDup js /\ (forall j, In j js <-> j <= length w /\ L (firstn j w)) /\ length js = n.
(** A word of [L] ends at position [j] of [w]. *)
Definition ends_at (L : lang) (w : word) (j : nat) : Prop :=
  exists x y z, w = x ++ y ++ z /\ L y /\ j = length (x ++ y).
(** The words of [L] inside which no word of [L] ends earlier. *)
Definition tight (L : lang) : lang := fun y => L y /\ forall a b c, y = a ++ b ++ c -> c <> [] -> ~ L b.
(** [n] words of [L] occur in [w] without overlapping. *)
Inductive disjoint_matches (L : lang) : word -> nat -> Prop :=
| dm_none : forall w, disjoint_matches L w 0
| dm_more : forall x y z n, L y -> disjoint_matches L z n -> disjoint_matches L (x ++ y ++ z) (S n).
