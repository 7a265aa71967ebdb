(** Independent specification vocabulary: words, languages and the usual operations
    on them.  Nothing here refers to the model of the code. *)
From Coq Require Import List Bool Arith NArith Lia.
Import ListNotations.

(** The scanner alphabet (defs.h lines 61-73, 64-bit build): bytes 0..255, the unused
    letter 256, Epsilon = 257, BeginMark = 258, EndMark = 259 and padding letters up to
    MaxChar = 264.  Epsilon is not a letter of the input. *)
Definition Epsilon : N := 257.
Definition BeginMark : N := 258.
Definition EndMark : N := 259.
Definition MaxChar : N := 264.

Definition letter (c : N) : Prop := (c < MaxChar)%N /\ c <> Epsilon.
Definition byte (c : N) : Prop := (c < 256)%N.

Definition word := list N.
Definition lang := word -> Prop.
Definition is_word (w : word) : Prop := Forall letter w.

Definition lang_eq (L M : lang) : Prop := forall w, L w <-> M w.

Definition L_eps : lang := fun w => w = [].
Definition L_none : lang := fun _ => False.
Definition L_letter (c : N) : lang := fun w => w = [c].
Definition L_word (u : word) : lang := fun w => w = u.
Definition L_anybyte : lang := fun w => exists c, byte c /\ w = [c].
Definition L_oneof (us : list word) : lang := fun w => In w us.
Definition L_cat (L M : lang) : lang := fun w => exists u v, w = u ++ v /\ L u /\ M v.
Definition L_or (L M : lang) : lang := fun w => L w \/ M w.
Definition L_and (L M : lang) : lang := fun w => L w /\ M w.
Definition L_not (L : lang) : lang := fun w => is_word w /\ ~ L w.
Definition L_any : lang := is_word.
Definition L_rev (L : lang) : lang := fun w => L (rev w).
Definition L_prefixes (L : lang) : lang := fun w => exists v, L (w ++ v).
Definition L_suffixes (L : lang) : lang := fun w => exists u, L (u ++ w).

Inductive L_star (L : lang) : lang :=
| star_nil : L_star L []
| star_app : forall u v, L u -> L_star L v -> L_star L (u ++ v).

Fixpoint L_pow (L : lang) (n : nat) : lang :=
  match n with O => L_eps | S m => L_cat (L_pow L m) L end.

(** Complete deterministic automata, to compare sizes with. *)
Record dfa := mkDfa { dfa_states : nat; dfa_start : nat; dfa_step : nat -> N -> nat; dfa_final : nat -> bool }.
Definition dfa_valid (d : dfa) : Prop := dfa_start d < dfa_states d /\
  forall s c, s < dfa_states d -> letter c -> dfa_step d s c < dfa_states d.
Definition dfa_run (d : dfa) (s : nat) (w : word) : nat := fold_left (dfa_step d) w s.
Definition dfa_recognises (d : dfa) (L : lang) : Prop := forall w, is_word w ->
  (dfa_final d (dfa_run d (dfa_start d) w) = true <-> L w).
