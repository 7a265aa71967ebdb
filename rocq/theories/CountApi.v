(** How a user comes by a counting scanner (no proofs). *)
From Coq Require Import List Bool Arith NArith.
From Verif Require Import Util Spec FsmModel DetermineModel MinimizeModel Api RunModel RunSpec ScannerModel IoModel ScannerApi CountModel CountSpec AdvModel CountIoModel.
Import ListNotations.

(** Glue's bound on the number of states (count.cpp:985-987, 995-997: 0 stands for the default). *)
Definition dlimit (maxSize : N) : N := if (maxSize =? 0)%N then 250000%N else maxSize.

(** By one of the constructors, by default, by copying, by gluing, and by loading or mapping
    what Save wrote.  Letters are saved in 8 bits each. *)
Inductive counting : loaded -> Prop :=
| counting_new : forall buf re sep s, built re -> built sep -> counting_scanner buf re sep = Ok s -> counting s
| counting_advanced : forall buf re sep s simple, built re -> built sep -> advanced_scanner buf re sep = Ok (s, simple) -> counting s
| counting_default : forall buf s, default_loaded buf = Ok s -> counting s
| counting_copy : forall buf s, counting s -> counting (copy_loaded buf s)
| counting_glue : forall b0 b1 b2 null l r maxSize s, counting l -> counting r -> dplaced l -> dplaced r -> default_loaded b0 = Ok null ->
    (dlimit maxSize + 1 < two32)%N -> dglue b1 b2 null l r maxSize = Ok s -> counting s
| counting_load : forall buf pad s x null throws rest s' st, counting s -> dplaced s -> (d_nletters s <= 256)%N -> d_null s = false -> length pad = 4 -> droom buf s ->
    d_save pad s = Ok x -> d_load buf null (mkStream throws (x ++ rest)) = Ok (s', st) -> counting s'
| counting_mmap : forall m pad s x ptr size s' p, counting s -> dplaced s -> (d_nletters s <= 256)%N -> d_null s = false -> length pad = 4 ->
    d_save pad s = Ok x -> holds m ptr x -> mappable ptr size -> (N.of_nat (length x) <= size)%N -> d_mmap m ptr size = Ok (s', p) -> counting s'.

(** The two determinizations of the constructor (count.cpp:749, 762), whose outcome it does not
    look at, succeed. *)
Definition determinable (re sep : fsm) : Prop := exists not_re a f g, complement (surround re) = Ok not_re /\ fsm_and sep not_re = Ok a /\
  determine (fsm_cat a re) 0 = Ok (true, f) /\ determine (fsm_or (with_dup f) any_char) 0 = Ok (true, g).

(** What version 6 wrote (scanner_io.cpp:202-210): as version 7, with an array of 32-bit numbers
    [old], one for every transition, between the transitions and the tags. *)
Definition version6 (s : loaded) (old x : list N) : list N :=
  let k := 312 + 8 * N.to_nat (d_states s * d_nletters s) in
  firstn 4 x ++ [6; 0; 0; 0]%N ++ skipn 8 (firstn k x) ++ old ++ align_save (N.of_nat (length old)) ++ skipn k x.
