(** What saved images should look like, and when two scanners answer alike; for C32-C35. *)
From Coq Require Import List Bool Arith NArith.
From Verif Require Import Util Spec RunModel RunSpec ScannerModel SimpleModel.
Import ListNotations.
Local Open Scope N_scope.

(** The unsigned little-endian integers at offset [off]. *)
Definition u32_at (off : nat) (l : list N) : N :=
  nth off l 0 + nth (off + 1) l 0 * 256 + nth (off + 2) l 0 * 65536 + nth (off + 3) l 0 * 16777216.
Definition u64_at (off : nat) (l : list N) : N := u32_at off l + u32_at (off + 4) l * 4294967296.
(** The 24 bytes every image begins with: "PIRE", the version (6 is accepted too), the sizes
    of a pointer and of the widest word, the scanner type and the size of its Locals. *)
Record begins_well (type locals : N) (l : list N) : Prop := {
  bw_length : (24 <= length l)%nat;
  bw_magic : firstn 4 l = [80; 73; 82; 69];
  bw_version : u32_at 4 l = 6 \/ u32_at 4 l = 7;
  bw_pointer : u32_at 8 l = 8;
  bw_word : u32_at 12 l = 16;
  bw_type : u32_at 16 l = type;
  bw_locals : u32_at 20 l = locals
}.

(** After every text the two scanners are in states about which they say the same. *)
Definition same_answers {St St' X} (o : ops St) (say : St -> X) (o' : ops St') (say' : St' -> X) : Prop := forall w, is_word w -> exists a a',
  steps o (o_init o) w = Ok a /\ steps o' (o_init o') w = Ok a' /\ say' a' = say a.
Definition scanner_says (k : kind) (s : scanner) (a : N) := (state_index k s a, s_isfinal k s a, s_isdead k s a, s_accepted k s a).
Definition simple_says (s : simple) (a : N) := (simple_index s a, simple_final s a, simple_accepted s a).
Definition slow_says (s : slow) (a : list N) := (a, slow_final s a, slow_accepted s a).
Definition alike (k k' : kind) (s s' : scanner) : Prop := s_states s' = s_states s /\
  same_answers (scanner_ops k s) (scanner_says k s) (scanner_ops k' s') (scanner_says k' s').
Definition alike_simple (s s' : simple) : Prop := p_states s' = p_states s /\
  same_answers (simple_ops s) (simple_says s) (simple_ops s') (simple_says s').
Definition alike_slow (s s' : slow) : Prop := w_states s' = w_states s /\
  same_answers (slow_ops s) (slow_says s) (slow_ops s') (slow_says s').

(** Memory in which exactly the bytes [l], from address [p] on, may be read. *)
Definition only (p : N) (l : list N) : mem := fun a => if a <? p then None else nth_error l (N.to_nat (a - p)).
