(** What UTF-8 text is, independently of the code: lead bytes, continuation bytes, the value
    of a sequence. *)
From Coq Require Import List Bool Arith NArith.
From Verif Require Import Spec.
Import ListNotations.
Local Open Scope N_scope.

(** A continuation byte, 10xxxxxx. *)
Definition continuation (c : N) : Prop := 128 <= c < 192.
(** [announces c n]: c is a lead byte (0xxxxxxx, 110xxxxx, 1110xxxx, 11110xxx) that n
    continuation bytes follow. *)
Definition announces (c : N) (n : nat) : Prop :=
  (n = 0%nat /\ c < 128) \/ (n = 1%nat /\ 192 <= c < 224) \/ (n = 2%nat /\ 224 <= c < 240) \/ (n = 3%nat /\ 240 <= c < 248).
(** One encoded character. *)
Definition L_utf8char : lang := fun w => exists c v, w = c :: v /\ announces c (length v) /\ Forall continuation v.

(** The bits a lead byte carries, and the value of a sequence, six bits per continuation
    byte. *)
Definition lead_bits (c : N) : N :=
  if c <? 128 then c else if c <? 224 then c - 192 else if c <? 240 then c - 224 else c - 240.
Definition seq_value (c : N) (v : list N) : N := fold_left (fun acc b => acc * 64 + (b - 128)) v (lead_bits c).

(** The UTF-8 form of a character (RFC 2279 up to four bytes). *)
Definition utf8_form (c : N) : list N :=
  if c <? 128 then [c]
  else if c <? 2048 then [192 + c / 64; 128 + c mod 64]
  else if c <? 65536 then [224 + c / 4096; 128 + c / 64 mod 64; 128 + c mod 64]
  else [240 + c / 262144; 128 + c / 4096 mod 64; 128 + c / 64 mod 64; 128 + c mod 64].

(** [decodes s cs]: s is a sequence of encoded characters whose values are cs. *)
Inductive decodes : list N -> list N -> Prop :=
| dec_nil : decodes [] []
| dec_char : forall c v s cs, announces c (length v) -> Forall continuation v -> decodes s cs ->
    decodes (c :: v ++ s) (seq_value c v :: cs).
