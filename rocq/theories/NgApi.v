(** How a user comes by a NoGlueLimitCountingScanner (no proofs). *)
From Coq Require Import List Bool Arith NArith.
From Verif Require Import Util Spec FsmModel Api RunModel RunSpec ScannerModel IoModel ScannerApi CountModel CountSpec CountApi AdvModel NgModel CountIoModel.
Import ListNotations.

(** Result(i) after a text *)
Definition ncounts (s : nscanner) (w : list N) (i : nat) (n : N) : Prop :=
  exists st, steps (n_ops s) (n_init s) w = Ok st /\ n_result st i = Ok n.
Definition nplaced (s : nscanner) : Prop := dplaced (n_base s) /\ (d_nletters (n_base s) <= 256)%N.
(** The array of actions a scanner with so many rows, classes of letters and regexps may need
    has fewer than 2^32 elements. *)
Definition nsmall (s : nscanner) : Prop :=
  (1 + d_states (n_base s) * d_nletters (n_base s) * (2 + 2 * n_count s) < two32)%N.

(** By the constructor, by default, by copying, by gluing, and by loading (into an object that is
    not in compatibility mode) or mapping what Save wrote; along with the regexps, the
    separators, and whether the simplified automaton was used. *)
Inductive nobtained : nscanner -> list (fsm * fsm * bool) -> Prop :=
| nob_new : forall buf re sep s simple, built re -> built sep -> n_scanner buf re sep = Ok (s, simple) -> nobtained s [(re, sep, simple)]
| nob_default : forall buf s, n_default buf = Ok s -> nobtained s []
| nob_copy : forall buf s Rs, nobtained s Rs -> nplaced s -> nobtained (n_copy buf s) Rs
| nob_glue : forall b0 b1 b2 null l r Rl Rr maxSize s, nobtained l Rl -> nobtained r Rr -> nplaced l -> nplaced r -> n_default b0 = Ok null ->
    (dlimit maxSize + 1 < two32)%N -> n_glue b1 b2 null l r maxSize = Ok s -> d_null (n_base s) = false -> nsmall s -> nobtained s (Rl ++ Rr)
| nob_load : forall this buf pad s Rs x null throws rest s' st, nobtained s Rs -> nplaced s -> d_null (n_base s) = false -> n_compat this = false -> length pad = 4 -> droom buf (n_base s) ->
    n_save pad s = Ok x -> n_load this buf null (mkStream throws (x ++ rest)) = Ok (s', st) -> nobtained s' Rs
| nob_mmap : forall m pad s Rs x ptr size s' p, nobtained s Rs -> nplaced s -> d_null (n_base s) = false -> length pad = 4 ->
    n_save pad s = Ok x -> holds m ptr x -> mappable ptr size -> (N.of_nat (length x) <= size)%N -> n_mmap m ptr size = Ok (s', p) -> nobtained s' Rs.
