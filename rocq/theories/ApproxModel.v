(** Model of approx_matching.cpp (no proofs). *)
From Coq Require Import List Bool Arith NArith.
From Verif Require Import Util Spec PartitionModel FsmModel.
Import ListNotations.

(** The tables of approx_matching.cpp:29-39 hold OutgoingLetters and Destinations of the
    original automaton, which does not change; the model calls these instead. *)

(** approx_matching.cpp:47-55: one edge.  [n] is regexp.Size(). *)
Definition approx_dest (n shift state : nat) (g : fsm) (to : nat) : fsm :=
  let g1 := fold_left (fun g ch =>
      if connected g (state + shift) (to + shift) ch then g
      else connect g (state + shift) (to + shift + n) ch) all_letters g in
  connect g1 (state + shift) (to + shift + n) Epsilon.
(** approx_matching.cpp:46-60: the edges on one letter *)
Definition approx_letter (f : fsm) (shift state : nat) (g : fsm) (c : N) : fsm :=
  let g1 := fold_left (approx_dest (size f) shift state) (destinations f state c) g in
  fold_left (fun g ch => connect g (state + shift) (state + shift + size f) ch) all_letters g1.
(** approx_matching.cpp:45-65: one state *)
Definition approx_state (f : fsm) (shift : nat) (g : fsm) (state : nat) : fsm :=
  let g1 := fold_left (approx_letter f shift state) (outgoing_letters f state) g in
  if is_final f state then set_final g1 (state + shift + size f) true else g1.
(** approx_matching.cpp:41-66: one more copy of the automaton *)
Definition approx_level (f g : fsm) (k : nat) : fsm :=
  fold_left (approx_state f (k * size f)) (seq 0 (size f)) (import_fsm g f).
Definition approx_levels (f : fsm) (distance : nat) : fsm :=
  fold_left (approx_level f) (seq 0 distance) f.

(** approx_matching.cpp:73-77: two edges that follow one another *)
Definition approx_pairs (f : fsm) (x : nat) : list (N * N * nat) :=
  flat_map (fun a =>
    flat_map (fun q =>
      flat_map (fun b =>
        flat_map (fun r => if negb (Nat.eqb r x) || negb (Nat.eqb q x) then [(a, b, r)] else [])
          (destinations f q b)) (outgoing_letters f q)) (destinations f x a)) (outgoing_letters f x).
(** approx_matching.cpp:78-84 *)
Definition approx_swap (n : nat) (g : fsm) (e : nat * (N * N * nat)) : fsm :=
  let '(state, (a, b, r)) := e in
  let g1 := resize_fsm g (size g + 1) in
  let to := r + (state / n + 1) * n in
  let middle := size g1 - 1 in
  connect (connect g1 state middle b) middle to a.
(** approx_matching.cpp:26-93 CreateApproxFsm *)
Definition create_approx (f : fsm) (distance : nat) : fsm :=
  let g := approx_levels f distance in
  let maxState := if Nat.eqb distance 0 then 0 else size g - size f in
  fold_left (approx_swap (size f))
    (flat_map (fun state => map (pair state) (approx_pairs f (state mod size f))) (seq 0 maxState)) g.
