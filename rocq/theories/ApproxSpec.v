(** What one word is to another that was mistyped. *)
From Coq Require Import List Bool Arith NArith.
From Verif Require Import Util Spec FsmModel Nfa FsmSem.
Import ListNotations.

(** [edits sw tl k u w]: u becomes w by k edits: a letter replaced, inserted or removed, or (if
    [sw]) two letters that follow one another exchanged.  No letter is edited twice.  Unless
    [tl], letters are only inserted in front of a letter of u. *)
Inductive edits (sw tl : bool) : nat -> word -> word -> Prop :=
| e_nil : edits sw tl 0 [] []
| e_same : forall k c u w, edits sw tl k u w -> edits sw tl k (c :: u) (c :: w)
| e_replace : forall k c d u w, letter d -> edits sw tl k u w -> edits sw tl (S k) (c :: u) (d :: w)
| e_insert : forall k d u w, letter d -> (tl = true \/ u <> []) -> edits sw tl k u w -> edits sw tl (S k) u (d :: w)
| e_remove : forall k c u w, edits sw tl k u w -> edits sw tl (S k) (c :: u) w
| e_swap : forall k a b u w, sw = true -> edits sw tl k u w -> edits sw tl (S k) (a :: b :: u) (b :: a :: w).

(** The letters are not compressed: nothing that Determine has processed is in f. *)
Definition plain (f : fsm) : Prop := uncompressed f /\ sparsed f = false.
(** No transitions that read nothing. *)
Definition no_epsilons (f : fsm) : Prop := forall p q, ~ edge f p Epsilon q.
(** After reading u, a state that has a way on and from which a final state is reached by
    reading nothing more. *)
Definition ends_open (f : fsm) (u : word) : Prop := exists x y, path (edge f) (initial f) u x /\ outgoing_letters f x <> [] /\
  path (edge f) x [] y /\ In y (finals f).

(** At most [d] edits away from a word of L (exchanging letters counts if [sw]). *)
Definition near (sw : bool) (d : nat) (L : lang) : lang := fun w => exists u k, L u /\ k <= d /\ edits sw true k u w.
(** Some part of the text is in L. *)
Definition contains (L : lang) : lang := fun w => exists a v b, w = a ++ v ++ b /\ L v.
