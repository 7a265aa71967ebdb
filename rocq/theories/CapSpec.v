(** What a capturing scanner is to find in a text: runs of an automaton that remember where
    they first passed a transition with a mark. *)
From Coq Require Import List Bool Arith NArith.
From Verif Require Import Util Spec PartitionModel.
Import ListNotations.
Local Open Scope N_scope.

(** "Nowhere": the largest size_t. *)
Definition nowhere : N := 18446744073709551615.

(** Bit 0 of an action marks the beginning of the capture and bit 1 its end; the first
    mark that a run passes counts. *)
Definition note_begin (a pos b : N) : N := if N.testbit a 0 && (b =? nowhere) then pos else b.
Definition note_end (a pos e : N) : N := if N.testbit a 1 && (e =? nowhere) then pos else e.

Section Reach.
  Variables (E : nat -> N -> nat -> Prop) (A : nat -> nat -> N) (i : nat).
  (** [reach w q b e]: a run that reads BeginMark and then the text [w] ends in the state
      [q] and has noted the positions [b] and [e] *)
  Inductive reach : list N -> nat -> N -> N -> Prop :=
  | reach_start : forall q, E i BeginMark q -> reach [] q (note_begin (A i q) 0 nowhere) (note_end (A i q) 0 nowhere)
  | reach_eps : forall w p b e q, reach w p b e -> E p Epsilon q ->
      reach w q (note_begin (A p q) (N.of_nat (length w)) b) (note_end (A p q) (N.of_nat (length w)) e)
  | reach_step : forall w p b e c q, reach w p b e -> E p c q ->
      reach (w ++ [c]) q (note_begin (A p q) (N.of_nat (length w) + 1) b) (note_end (A p q) (N.of_nat (length w) + 1) e).
End Reach.

(** A state where a text may end: final, or final after EndMark and at most one epsilon. *)
Definition ends (E : nat -> N -> nat -> Prop) (F : nat -> bool) (q : nat) : Prop :=
  F q = true \/ exists r, E q EndMark r /\ (F r = true \/ exists t, E r Epsilon t /\ F t = true).

(** ** Words with marks *)

(** In a marked word the letters are below MaxChar, and [mark a] stands for passing the
    action [a]. *)
Definition mark (a : N) : N := MaxChar + a.
(** the word without its marks *)
Definition strip (m : list N) : list N := filter (fun x => x <? MaxChar) m.
(** how many letters come before the first mark whose bit [k] is set *)
Fixpoint first_mark (k : N) (m : list N) : option nat :=
  match m with
  | [] => None
  | x :: m' => if x <? MaxChar then option_map S (first_mark k m') else if N.testbit (x - MaxChar) k then Some O else first_mark k m'
  end.
(** the position in the text of the first mark with bit [k], when the marked word begins
    behind [u] *)
Definition mark_at (u : list N) (k : N) (m : list N) : N :=
  match first_mark k m with Some j => N.of_nat (length u + j) | None => nowhere end.
