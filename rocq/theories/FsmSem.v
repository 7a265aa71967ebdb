(** The language of an automaton: the meaning the property theorems are stated in. *)
From Coq Require Import List Bool Arith NArith.
From Verif Require Import Util Spec PartitionModel FsmModel Nfa.
Import ListNotations.

(** The row entry that holds the transitions on c: the representative of c's class when c
    is in the letter table, c itself otherwise (this is the view Unsparse, fsm.cpp:850-857,
    and Import, fsm.cpp:387-394, restore). *)
Definition erep (f : fsm) (c : N) : N :=
  match part_rep (letters f) c with Some r => r | None => c end.

(** There is a transition from p to q on c. *)
Definition edge (f : fsm) (p : nat) (c : N) (q : nat) : Prop :=
  In q (row_get (row_at f p) (erep f c)).

(** The words (over bytes and begin/end marks) the automaton accepts. *)
Definition accepts (f : fsm) : lang :=
  fun w => exists q, path (edge f) (initial f) w q /\ In q (finals f).

(** The automaton's letter table is empty: true of automata made only by the building
    operations, false after Determine, Minimize, Canonize, Complement and &=. *)
Definition uncompressed (f : fsm) : Prop := letters f = part_empty.

(** Exactly one successor for every state and letter. *)
Definition deterministic (f : fsm) : Prop :=
  forall p c, p < size f -> letter c -> exists q, q < size f /\ forall q', edge f p c q' <-> q' = q.

(** [h] maps the states of g1 one to one onto those of g2, preserving everything. *)
Record isomorphic (g1 g2 : fsm) (h : nat -> nat) : Prop := {
  iso_size : size g1 = size g2;
  iso_lt : forall x, x < size g1 -> h x < size g2;
  iso_inj : forall x y, x < size g1 -> y < size g1 -> h x = h y -> x = y;
  iso_surj : forall y, y < size g2 -> exists x, x < size g1 /\ h x = y;
  iso_init : h (initial g1) = initial g2;
  iso_edge : forall x c y, x < size g1 -> y < size g1 -> (edge g1 x c y <-> edge g2 (h x) c (h y));
  iso_final : forall x, x < size g1 -> (In x (finals g1) <-> In (h x) (finals g2))
}.
