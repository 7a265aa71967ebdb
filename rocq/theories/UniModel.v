(** Model of the character properties the lexer asks for (pire/stub/unidata_h.h), over the
    tables of UniData.v. *)
From Coq Require Import NArith ZArith.
From Verif Require Import UniData.
Local Open Scope N_scope.

(** element [i] of an array of 2^n elements *)
Fixpoint trie_get {A} (n : nat) (i : N) (t : trie A) : A :=
  match t with
  | Lf a => a
  | Nd l r => if N.testbit i (N.of_nat (pred n)) then trie_get (pred n) i r else trie_get (pred n) i l
  end.
(** unidata_h.h:129-134, _runeinfo *)
Definition runeinfo (c : N) : N :=
  let c := if 65535 <? c then 57345 else c in
  trie_get 5 (N.land c 31) (trie_get 11 (N.land (N.shiftr c 5) 2047) unicode_pages).
(** unidata_h.h:135-138, wc_info (TYPES_OFFSET, TYPES_MASK: unidata_cpp.h:88-89) *)
Definition wc_info (c : N) : N := trie_get 9 (N.land (N.shiftr (runeinfo c) 22) 511) unicode_types.
(** unidata_h.h:139-142, wc_type *)
Definition wc_type (c : N) : N := N.land (wc_info c) 63.
(** unidata_h.h:279-282 and 460, is_digit: type Nd_DIGIT *)
Definition is_digit (c : N) : bool := wc_type c =? 16.
(** unidata_h.h:429-432, is_upper: type Lu_UPPER *)
Definition is_upper (c : N) : bool := wc_type c =? 1.
(** i >> SVAL_OFFSET for i32 i = wc_info(ch) *)
Definition wc_shift (c : N) : Z :=
  let i := Z.of_N (wc_info c) in Z.shiftr (if (2147483648 <=? i)%Z then i - 4294967296 else i) 22.
Definition wchar (z : Z) : N := Z.to_N (z mod 4294967296).
(** unidata_h.h:374-378, to_lower *)
Definition to_lower (c : N) : N := wchar (Z.of_N c + if N.testbit (wc_info c) 6 then wc_shift c else 0)%Z.
(** unidata_h.h:379-383, to_upper *)
Definition to_upper (c : N) : N := wchar (Z.of_N c - if N.testbit (wc_info c) 7 then wc_shift c else 0)%Z.
