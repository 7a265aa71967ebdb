(** What a user can obtain from the multi-pattern scanner interface, and what such a scanner
    should report. *)
From Coq Require Import List Bool Arith NArith Sorted.
From Verif Require Import Util Spec PartitionModel FsmModel DetermineModel MinimizeModel RunModel RunSpec ScannerModel ScannerSpec GlueModel SimpleModel IoModel FsmSem Api HalfModel HalfSpec.
Import ListNotations.

(** The range given to Mmap; AlignPtr computes ptr + 8 * size (IoModel.v). *)
Definition mappable (ptr size : N) : Prop := (8 <= ptr /\ ptr + 80 < two64 /\ ptr + 8 * size < two64)%N.

(** What the members of HalfFinalFsm make of an automaton, and at which prefixes of the text
    the scanner then counts. *)
Inductive half_made (f : fsm) : fsm -> lang -> Prop :=
| hm_scanner : forall g, make_scanner f = Ok g -> half_made f g (half_lang (accepts f))
| hm_counter : forall intersects simplify g, make_non_greedy intersects simplify f = Ok g -> half_made f g (counter_lang intersects simplify (accepts f)).

(** [obtained k s Ls]: the scanner [s] of kind [k] can be obtained by calls of the public
    interface, and stands for the regexps with the languages [Ls].  The only conditions are
    that every buffer is where the system can put it ([placed], [room]), that a Glue call
    did not fail (it returns an empty scanner then) and is not given a limit near or above
    the capacity of its lookup table; an image is loaded or mapped unchanged, and a mapped
    range is inside the address space ([mappable]).  Nonrelocatable scanners are saved by
    converting them and loaded by converting back (multi.h:604-616).  Kinds: Pire has masks for 0 (NoShortcuts) or 2
    (ExitMasks<2>) bytes. *)
Inductive obtained : kind -> scanner -> list lang -> Prop :=
| ob_compile : forall k buf f s, k_nmask k <= 64 -> built f -> compile k buf f = Ok s -> placed k s -> obtained k s [accepts f]
| ob_half : forall k buf f s, k_nmask k <= 64 -> built f -> half_compile k buf f 0 = Ok s -> placed k s -> obtained k s [half_lang (accepts f)]
| ob_half_fsm : forall k buf f g L s, k_nmask k <= 64 -> built f -> half_made f g L -> half_compile_counter k buf g = Ok s -> placed k s -> obtained k s [L]
| ob_default : forall k buf s, k_nmask k <= 64 -> default_scanner k buf = Ok s -> placed k s -> obtained k s []
| ob_copy : forall k buf s Ls, obtained k s Ls -> placed k (copy_scanner k buf s) -> obtained k (copy_scanner k buf s) Ls
| ob_convert : forall k k' buf b0 null s Ls, obtained k s Ls -> k_nmask k' = k_nmask k -> default_scanner k' b0 = Ok null ->
    placed k' (convert_scanner k k' buf null s) -> obtained k' (convert_scanner k k' buf null s) Ls
| ob_glue : forall k b0 b1 b2 null l r maxSize s La Lb, obtained k l La -> obtained k r Lb -> default_scanner k b0 = Ok null ->
    glue k b1 b2 null l r maxSize = Ok s -> (s_null s = true -> s_null l = true \/ s_null r = true) -> (maxSize <= 262141)%N ->
    room k b1 s -> placed k s -> obtained k s (La ++ Lb)
| ob_load : forall n buf b0 null s Ls img throws rest s' st, obtained (mkKind true n) s Ls -> save_reloc n s = Ok img ->
    default_scanner (mkKind true n) b0 = Ok null -> load_reloc n buf null (mkStream throws (img ++ rest)) = Ok (s', st) ->
    placed (mkKind true n) s' -> obtained (mkKind true n) s' Ls
| ob_mmap : forall n b0 null s Ls img m ptr size s' p, obtained (mkKind true n) s Ls -> save_reloc n s = Ok img ->
    default_scanner (mkKind true n) b0 = Ok null -> holds m ptr img -> mappable ptr size -> mmap_scanner n null m ptr size = Ok (s', p) ->
    placed (mkKind true n) s' -> obtained (mkKind true n) s' Ls.

(** Some regexp accepts [w]. *)
Definition any_of (Ls : list lang) (w : word) : Prop := exists L, In L Ls /\ L w.

(** After reading any text (letters: bytes and marks) the scanner is in a state whose Final,
    Dead and AcceptedRegexps tell about the languages what they should. *)
Definition reports (k : kind) (s : scanner) (Ls : list lang) : Prop := forall w, is_word w -> exists a,
  steps (scanner_ops k s) (s_initial s) w = Ok a /\
  (exists fin, s_isfinal k s a = Ok fin /\ (fin = true <-> any_of Ls w)) /\
  (exists dead, s_isdead k s a = Ok dead /\ (dead = true <-> forall L v, In L Ls -> is_word v -> ~ L (w ++ v))) /\
  (exists ids, s_accepted k s a = Ok ids /\ StronglySorted N.lt ids /\
     forall i, In i ids <-> exists L, nth_error Ls (N.to_nat i) = Some L /\ L w).

(** At least [n] pairs of states are reached by running [l] and [r] side by side. *)
Definition both_reach (k : kind) (l r : scanner) (st : N * N) : Prop := exists w, is_word w /\
  steps (scanner_ops k l) (s_initial l) w = Ok (fst st) /\ steps (scanner_ops k r) (s_initial r) w = Ok (snd st).
Definition at_least (k : kind) (l r : scanner) (n : N) : Prop := exists sts, NoDup sts /\ N.of_nat (length sts) = n /\
  forall st, In st sts -> both_reach k l r st.
(** multi.h:1100-1102: 0 stands for the default limit *)
Definition glue_limit (maxSize : N) : N := if (maxSize =? 0)%N then 80000%N else maxSize.
(** An address operator new can return: aligned, and (as on every 64-bit system) in the
    lower half of the address space. *)
Definition user_address (b : N) : Prop := (b mod 8 = 0 /\ b <= 9223372036854775808)%N.
