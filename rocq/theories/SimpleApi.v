(** What a user can obtain from SimpleScanner and SlowScanner, and what they should report. *)
From Coq Require Import List Bool Arith NArith Sorted.
From Verif Require Import Util Spec PartitionModel FsmModel DetermineModel MinimizeModel RunModel RunSpec ScannerModel ScannerApi SimpleModel IoModel FsmSem Api.
Import ListNotations.
Local Open Scope N_scope.

(** The table is inside the address space.  Mapping the image of an empty scanner is not
    listed: it leaves the object as it was (C35_simple_refuted); nor is it for SlowScanner. *)
Definition simple_placed (s : simple) : Prop := p_buf s + p_states s * 265 * 8 <= 18446744073709551616.
Inductive obtained_simple : simple -> list lang -> Prop :=
| os_compile : forall buf f s, built f -> simple_compile buf f = Ok s -> simple_placed s -> obtained_simple s [accepts f]
| os_default : forall buf s, simple_default buf = Ok s -> simple_placed s -> obtained_simple s []
| os_copy : forall buf s Ls, obtained_simple s Ls -> simple_placed (simple_copy buf s) -> obtained_simple (simple_copy buf s) Ls
| os_load : forall buf b0 null s Ls img throws rest s' st, obtained_simple s Ls -> save_simple s = Ok img -> simple_default b0 = Ok null ->
    load_simple buf null (mkStream throws (img ++ rest)) = Ok (s', st) -> simple_placed s' -> obtained_simple s' Ls
| os_mmap : forall this s Ls img m ptr size s' p, obtained_simple s Ls -> p_null s = false -> save_simple s = Ok img -> holds m ptr img -> mappable ptr size ->
    mmap_simple this m ptr size = Ok (s', p) -> obtained_simple s' Ls.

(** SlowScanner numbers its states in 32 bits.  Copying a default-constructed one is not
    listed: the copy has no tables (C22_copy_of_empty_refuted). *)
Inductive obtained_slow : slow -> list lang -> Prop :=
| ol_compile : forall f s, built f -> N.of_nat (size f) <= 4294967296 -> slow_compile f = Ok s -> obtained_slow s [accepts f]
| ol_default : forall s, slow_default = Ok s -> obtained_slow s []
| ol_copy : forall s Ls, obtained_slow s Ls -> w_null s = false -> obtained_slow (slow_copy s) Ls
| ol_load : forall null s Ls img old throws rest s' st, obtained_slow s Ls -> save_slow s = Ok img -> N.of_nat (length img) < 18446744073709551616 -> slow_default = Ok null ->
    load_slow old null (mkStream throws (img ++ rest)) = Ok (s', st) -> obtained_slow s' Ls
| ol_mmap : forall this s Ls img m ptr size s' p, obtained_slow s Ls -> w_null s = false -> save_slow s = Ok img -> N.of_nat (length img) < 18446744073709551616 ->
    holds m ptr img -> mappable ptr size -> mmap_slow this m ptr size = Ok (s', p) -> obtained_slow s' Ls.

(** After reading any text (letters: bytes and marks) the scanner is in a state whose Final
    and AcceptedRegexps tell about the languages what they should. *)
Definition tells_of {St} (o : ops St) (accepted : St -> res (list N)) (Ls : list lang) : Prop := forall w, is_word w -> exists st,
  steps o (o_init o) w = Ok st /\
  (exists fin, o_final o st = Ok fin /\ (fin = true <-> any_of Ls w)) /\
  (exists ids, accepted st = Ok ids /\ StronglySorted N.lt ids /\
     forall i, In i ids <-> exists L, nth_error Ls (N.to_nat i) = Some L /\ L w).
