(** Model of the constructors of scanners that take a distance (no proofs). *)
From Coq Require Import List Bool Arith NArith.
From Verif Require Import Util Spec FsmModel ApproxModel ScannerModel SimpleModel.

(** multi.h:125-127, simple.h:236-238, slow.h:255-257 *)
Definition approx_input (f : fsm) (distance : nat) : fsm :=
  if Nat.eqb distance 0 then f else create_approx f distance.
(** multi.h:123-131 *)
Definition compile_approx (k : kind) (buf : N) (f : fsm) (distance : nat) : res scanner := compile k buf (approx_input f distance).
(** simple.h:234-260 *)
Definition simple_compile_approx (buf : N) (f : fsm) (distance : nat) : res simple := simple_compile buf (approx_input f distance).
(** slow.h:252-283 with needActions = false, removeEpsilons = true *)
Definition slow_compile_approx (f : fsm) (distance : nat) : res slow := slow_compile (approx_input f distance).
