(** Specification vocabulary for table scanners: deterministic machines that report, for
    every state, whether it is final, whether it is dead and the accepted regexps. *)
From Coq Require Import List Bool Arith NArith.
From Verif Require Import Util Spec ScannerModel.
Import ListNotations.

Record machine := mkMachine {
  m_states : nat;
  m_start : nat;
  m_next : nat -> N -> nat;
  m_final : nat -> bool;
  m_dead : nat -> bool;
  m_accepted : nat -> list N
}.
Definition m_run (t : machine) (q : nat) (w : word) : nat := fold_left (m_next t) w q.
(** The machine never leaves its states, and a state it can be in and calls dead really is. *)
Record machine_ok (t : machine) : Prop := {
  mo_start : m_start t < m_states t;
  mo_next : forall q c, q < m_states t -> letter c -> m_next t q c < m_states t;
  mo_dead : forall u w, is_word u -> is_word w -> m_dead t (m_run t (m_start t) u) = true -> m_final t (m_run t (m_start t) (u ++ w)) = false
}.

(** Where the table is: in an 8-aligned buffer, inside the address space; relocatable
    tables span at most 2^31 bytes. *)
Record placed (k : kind) (s : scanner) : Prop := {
  pl_align : (s_buf s mod 8 = 0)%N;
  pl_space : (s_base s + s_states s * row_bytes k (s_nletters s) <= two64)%N;
  pl_reloc : k_reloc k = true -> (s_states s * row_bytes k (s_nletters s) <= two31)%N
}.

(** The tables of [s] would fit in a buffer at [b]. *)
Definition room (k : kind) (b : N) (s : scanner) : Prop :=
  (b mod 8 = 0 /\ b + (2 * MaxChar + 8 * s_fsize s + 8 * s_states s) + s_states s * row_bytes k (s_nletters s) <= two64)%N.
