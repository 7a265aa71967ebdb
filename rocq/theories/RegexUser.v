(** Lemmas behind the properties of parsed patterns, in the form Prop_Regex.v states them. *)
From Coq Require Import List Bool Arith NArith ZArith Lia.
From Verif Require Import Util Spec PartitionModel FsmModel DetermineModel MinimizeModel Nfa NfaOps FsmSem FsmBasics FsmOps FsmOps2 FsmStrings Check
  EncModel EncSpec Api ApiProofs BuildFacts EncProofs ExprProofs RegexModel RegexSpec RegexParse RegexProofs.
Import ListNotations.
Local Opaque all_letters all_bytes.

Lemma shipped_good : forall e D, shipped e D -> good_encoding e D.
Proof. intros e D []; [apply good_latin1|apply good_utf8]. Qed.

Lemma parse_iff : forall w r, parse w = Some r <-> derives Alternative w r.
Proof. intros w r. split; [apply parse_sound|apply parse_complete]. Qed.
Lemma derives_unique : forall w r r', derives Alternative w r -> derives Alternative w r' -> r = r'.
Proof. intros w r r' H H'. apply parse_complete in H, H'. congruence. Qed.

Lemma pattern_ok : forall e D w r, shipped e D -> derives Alternative w r -> regular r ->
  (exists f, parse_tokens e w = Ok f /\ built f /\ determined f = false /\ forall x, accepts f x <-> re_den (e_to e) D r x) \/
  (parse_tokens e w = Throw ETooComplicated /\ negates r).
Proof.
  intros e D w r E H R. unfold parse_tokens. rewrite (parse_complete _ _ H). apply derives_fits in H. destruct H as [_ F].
  destruct (compile_ok e D (shipped_good _ _ E) r _ F R) as [(f & -> & B & L & Df & _)|X]; [left|right; auto]. exists f. auto.
Qed.
Lemma pattern_syntax : forall e w, (forall r, ~ derives Alternative w r) -> parse_tokens e w = Throw ESyntax.
Proof. intros e w H. unfold parse_tokens. destruct (parse w) as [r|] eqn:P; auto. apply parse_sound in P. destruct (H _ P). Qed.

Lemma repeat_lang : forall f lo hi, built f -> count_ok lo hi -> (In (initial f) (finals f) -> lo = 0%Z \/ lo = 1%Z /\ hi = Inf) ->
  forall w, accepts (repeat_action f lo hi) w <-> L_repeat (accepts f) lo hi w.
Proof. intros f lo hi B C N. destruct (repeat_ok L_none f lo hi B C N) as (_ & L & _). exact L. Qed.

(** ** Counts out of order *)
Lemma size_cat : forall a b, wf a -> wf b -> size (fsm_cat a b) = size a + size b.
Proof. intros a b A B. destruct (cat_structure a b A B) as [S _]. exact S. Qed.
Lemma size_times_loop : forall n f g, wf f -> wf g -> wf (fsm_times_loop f n g) /\ size (fsm_times_loop f n g) = size g + n * size f.
Proof.
  induction n as [|n IH]; intros f g F G; cbn [fsm_times_loop].
  - split; auto; lia.
  - destruct (IH f (fsm_cat g f) F) as [A B]; [apply fsm_cat_wf; auto|]. split; auto. rewrite B, size_cat by auto. lia.
Qed.
Lemma size_times : forall f n, wf f -> wf (fsm_times f n) /\ size (fsm_times f n) = 1 + n * size f.
Proof. intros f n F. apply size_times_loop; auto. apply fsm_new_wf. Qed.
Lemma repeat_backwards : forall f lo hi, built f -> (0 <= hi < lo)%Z -> (lo < 2147483648)%Z ->
  (Z.of_nat (size (repeat_action f lo hi)) >= 18446744073709551616 - (lo - hi))%Z.
Proof.
  intros f lo hi B H1 H2. unfold repeat_action, Inf. rewrite (proj2 (Z.eqb_neq lo 0)) by lia. rewrite (proj2 (Z.eqb_neq hi (-1))) by lia.
  rewrite (proj2 (Z.eqb_neq hi lo)) by lia. rewrite !andb_false_r, andb_false_l. cbn [negb].
  destruct (size_times f (to_size lo) (built_wf _ B)) as [Wt _].
  assert (Wo : wf (fsm_or f fsm_new)) by (apply fsm_or_ok; [apply built_wf; auto|apply fsm_new_wf]).
  destruct (size_times (fsm_or f fsm_new) (to_size (hi - lo)) Wo) as [Wk Sk].
  rewrite size_cat by auto. rewrite Nat2Z.inj_add, Sk, Nat2Z.inj_add, Nat2Z.inj_mul.
  assert (T : Z.of_nat (to_size (hi - lo)) = (18446744073709551616 - (lo - hi))%Z).
  { unfold to_size. rewrite Z2Nat.id by (apply Z.mod_pos_bound; reflexivity). symmetry. apply Z.mod_unique with (-1)%Z; lia. }
  rewrite T. assert (P : size (fsm_or f fsm_new) > 0) by (pose proof (wf_init _ Wo); lia). nia.
Qed.
