(** The automata that a regexp with a capture is built from, each with the marked words that
    its runs spell. *)
From Coq Require Import List Bool Arith NArith.
From Verif Require Import Util Spec PartitionModel FsmModel Nfa FsmSem Api CapModel CapSpec.
Import ListNotations.

(** No transition of the automaton reads a mark of the beginning or the end of a text. *)
Definition no_marks (f : fsm) : Prop := forall p q, ~ edge f p BeginMark q /\ ~ edge f p EndMark q.

(** SetCaptureMark puts mark 1 before and mark 2 behind a word, SetRepetitionMark mark 4
    (greedy) or 8 behind it; concatenation, alternative, iteration, and appending strings or
    the dot of Latin-1 act on marked words as they do on words. *)
Inductive captures : fsm -> lang -> Prop :=
| cp_plain : forall f, built f -> no_marks f -> captures f (accepts f)
| cp_group : forall f L, captures f L -> captures (capture_mark f) (fun m => exists x, m = [mark 1] ++ x ++ [mark 2] /\ L x)
| cp_repetition : forall f L gr, captures f L -> captures (repetition_mark f gr) (fun m => exists x, m = x ++ [mark (if gr then 4 else 8)] /\ L x)
| cp_cat : forall f g L M, captures f L -> captures g M -> captures (fsm_cat f g) (L_cat L M)
| cp_or : forall f g L M, captures f L -> captures g M -> captures (fsm_or f g) (L_or L M)
| cp_star : forall f L, captures f L -> captures (iterate f) (L_star L)
| cp_strings : forall f g L strs, captures f L -> uncompressed f -> (forall s, In s strs -> s <> [] /\ Forall byte s) -> append_strings f strs = Ok g -> captures g (L_cat L (L_oneof strs))
| cp_dot : forall f L, captures f L -> uncompressed f -> captures (append_dot f) (L_cat L L_anybyte).

(** A greedy repetition may end before any letter has been read. *)
Definition greedy_front (f : fsm) : Prop := exists q r, path (edge f) (initial f) [] q /\ edge f q Epsilon r /\ N.testbit (output f q r) 2 = true.
