(** Properties C36 and C37: the UTF-8 encoding and its dot.  EncSpec.v says what UTF-8 text is. *)
From Coq Require Import List Bool Arith NArith Lia.
From Verif Require Import Util Spec PartitionModel FsmModel FsmSem EncModel EncSpec EncDot EncProofs Api ApiProofs Check.
Import ListNotations.
Local Open Scope N_scope.

(** ** C36 *)
Theorem C36_form : forall c, c < 2097152 -> e_to utf8 c = utf8_form c.
Proof. exact to_local_form. Qed.
Print Assumptions C36_form.
Example form_euro : e_to utf8 8364 = [226; 130; 172].
Proof. vm_compute. reflexivity. Qed.

Theorem C36_round_trip : forall c rest, c < 2097152 -> e_from utf8 (e_to utf8 c ++ rest) = Ok (c, rest).
Proof. exact utf8_round_trip. Qed.
Print Assumptions C36_round_trip.

(** Injective and prefix-free at once. *)
Theorem C36_prefix_free : forall a b x y, a < 2097152 -> b < 2097152 -> e_to utf8 a ++ x = e_to utf8 b ++ y -> a = b /\ x = y.
Proof. exact utf8_prefix_free. Qed.
Print Assumptions C36_prefix_free.
Example prefix_free_case : 955 < 2097152 /\ e_to utf8 955 ++ [1] = e_to utf8 955 ++ [1] /\ e_to utf8 955 <> e_to utf8 956.
Proof. split; [reflexivity|]. split; [reflexivity|]. vm_compute. discriminate. Qed.

(** Which texts decode, and to what: a lead byte and the continuation bytes it announces. *)
Theorem C36_decode : forall s, s <> [] -> Forall byte s ->
  (exists b v rest, s = b :: v ++ rest /\ announces b (length v) /\ Forall continuation v /\ e_from utf8 s = Ok (seq_value b v, rest)) \/
  (e_from utf8 s = Throw EEncoding /\ forall b v rest, s = b :: v ++ rest -> announces b (length v) -> ~ Forall continuation v).
Proof. exact utf8_read_cases. Qed.
Print Assumptions C36_decode.
Example decode_case : e_from utf8 [226; 130; 172; 65] = Ok (8364, [65]) /\ e_from utf8 [226; 130] = Throw EEncoding.
Proof. vm_compute. auto. Qed.

(** Whole texts: no out-of-bounds read, no endless loop. *)
Theorem C36_text : forall s cs, Forall byte s -> (from_local_all utf8 s = Ok cs <-> decodes s cs).
Proof. exact from_utf8_iff. Qed.
Print Assumptions C36_text.
Theorem C36_text_total : forall s, Forall byte s -> (exists cs, from_local_all utf8 s = Ok cs) \/ from_local_all utf8 s = Throw EEncoding.
Proof. exact from_utf8_total. Qed.
Print Assumptions C36_text_total.
Theorem C36_text_round_trip : forall cs, Forall (fun c => c < 2097152) cs -> from_local_all utf8 (flat_map (e_to utf8) cs) = Ok cs.
Proof. exact utf8_text_round_trip. Qed.
Print Assumptions C36_text_round_trip.
Example text_case : from_local_all utf8 [65; 206; 187; 240; 159; 152; 128] = Ok [65; 955; 128512].
Proof. vm_compute. reflexivity. Qed.

Theorem C36_latin1 : forall c rest, c < 128 -> e_from latin1 (e_to latin1 c ++ rest) = Ok (c, rest).
Proof. exact latin1_round_trip. Qed.
Print Assumptions C36_latin1.
Example latin1_case : e_to latin1 65 = [65] /\ e_to latin1 233 = [].
Proof. vm_compute. auto. Qed.

(** Without the bound the round trip fails: what does not fit in 21 bits is written as four
    bytes of its low 21 bits and padded with blanks.  Decoding also accepts overlong forms. *)
Theorem C36_unbounded_refuted : exists c, c < 4294967296 /\ e_from utf8 (e_to utf8 c) <> Ok (c, []).
Proof. exists 2097152. split; [reflexivity|]. vm_compute. discriminate. Qed.
Print Assumptions C36_unbounded_refuted.
Theorem C36_overlong_refuted : exists s t c, s <> t /\ e_from utf8 s = Ok (c, []) /\ e_from utf8 t = Ok (c, []).
Proof. exists [47], [192; 175], 47. split; [discriminate|]. vm_compute. auto. Qed.
Print Assumptions C36_overlong_refuted.

(** ** C37 *)
Theorem C37_utf8_dot : forall f, built f -> uncompressed f -> forall w, accepts (e_dot utf8 f) w <-> L_cat (accepts f) L_utf8char w.
Proof. intros f B U. apply (utf8_append_dot_ok f (built_wf _ B) U). Qed.
Print Assumptions C37_utf8_dot.

(** Every encoded character is one such sequence. *)
Theorem C37_matches_encoded : forall f c u, built f -> uncompressed f -> c < 2097152 -> accepts f u -> accepts (e_dot utf8 f) (u ++ e_to utf8 c).
Proof.
  intros f c u B U H A. apply (C37_utf8_dot f B U). exists u, (e_to utf8 c). split; [reflexivity|]. split; [exact A|].
  rewrite C36_form by exact H. apply form_utf8char; exact H.
Qed.
Print Assumptions C37_matches_encoded.

Definition dot_f : fsm := Eval vm_compute in utf8_append_dot (append_special fsm_new 97).
Example dot_built : built (append_special fsm_new 97) /\ uncompressed (append_special fsm_new 97) /\ dot_f = e_dot utf8 (append_special fsm_new 97).
Proof. split; [|split; [reflexivity|vm_compute; reflexivity]]. apply built_append; [apply built_new|reflexivity|split; [reflexivity|discriminate]]. Qed.
Example dot_in : accepts dot_f [97; 226; 130; 172].
Proof. apply (accepts_b_true _ _ 100). vm_compute. reflexivity. Qed.
Example dot_out : ~ accepts dot_f [97; 226; 130] /\ ~ accepts dot_f [97; 130].
Proof. split; apply (accepts_b_false _ _ 100); vm_compute; reflexivity. Qed.
