(** Utf8::AppendDot appends exactly one encoded sequence. *)
From Coq Require Import List Bool Arith NArith Lia.
From Verif Require Import Util Spec PartitionModel PartitionProofs FsmModel Nfa NfaOps FsmSem FsmBasics FsmOps EncModel EncSpec.
Import ListNotations.

Lemma range_letters_in : forall a b c, In c (range_letters (a, b)) <-> (N.of_nat a <= c < N.of_nat b)%N.
Proof.
  intros a b c. unfold range_letters. cbn [fst snd]. rewrite in_map_iff. split.
  - intros [n [<- H]]. apply in_seq in H. lia.
  - intros H. exists (N.to_nat c). rewrite N2Nat.id. split; auto. apply in_seq. lia.
Qed.

Definition lead_range (i : nat) (c : N) : Prop := In c (range_letters (nth i utf_first (0, 0))).
Lemma lead_range_announces : forall i c, i < 4 -> (lead_range i c <-> announces c i).
Proof.
  intros i c Hi. unfold lead_range, announces, utf_first.
  destruct i as [|[|[|[|i]]]]; [| | | |lia]; cbn [nth]; rewrite range_letters_in; split; intros H; try lia.
Qed.
Lemma next_range : forall c, In c (range_letters utf_next) <-> continuation c.
Proof. intros c. unfold utf_next, continuation. rewrite range_letters_in. split; intros; lia. Qed.
Local Opaque range_letters.

Lemma utf_leads_adds : forall f, (forall q, In q (finals f) -> q < size f) -> 4 <= size f ->
  adds f (utf_leads f) (fun p c q => In p (finals f) /\ exists i, i < 4 /\ announces c i /\ q = size f - i - 1).
Proof.
  intros f Hf Hs. unfold utf_leads. eapply adds_ext.
  - apply adds_fold with (S := fun i p c q => In p (finals f) /\ announces c i /\ q = size f - i - 1).
    intros g i T Hi A. apply in_seq in Hi. assert (Hi' : i < 4) by (unfold utf_max_len in Hi; lia). eapply adds_ext.
    + apply adds_fold with (S := fun l p c q => In p (finals f) /\ c = l /\ q = size f - i - 1).
      intros h l U Hl B.
      assert (Es : size h = size f) by (rewrite (ad_size _ _ _ B), (ad_size _ _ _ A); reflexivity).
      assert (Ef : finals h = finals f) by (rewrite (ad_fin _ _ _ B), (ad_fin _ _ _ A); reflexivity).
      rewrite <- Ef, <- Es. apply connect_final_adds.
      * rewrite Ef, Es. exact Hf.
      * lia.
      * apply (lead_range_announces i l Hi') in Hl. unfold announces, MaxChar in *. lia.
    + intros p c q. cbn beta. split.
      * intros [l [H1 [H2 [-> H3]]]]. apply (lead_range_announces i l Hi') in H1. auto.
      * intros [H1 [H2 H3]]. exists c. rewrite <- (lead_range_announces i c Hi') in H2. auto.
  - intros p c q. cbn beta. split.
    + intros [i [H1 [H2 [H3 H4]]]]. apply in_seq in H1. split; auto. exists i. unfold utf_max_len in H1. repeat split; auto; lia.
    + intros [H1 [i [H2 [H3 H4]]]]. exists i. rewrite in_seq. unfold utf_max_len. repeat split; auto; lia.
Qed.

Lemma utf_tails_adds : forall last f, last + 4 <= size f ->
  adds f (utf_tails last f) (fun p c q => continuation c /\ exists i, i < 3 /\ p = last + i /\ q = last + i + 1).
Proof.
  intros last f Hs. unfold utf_tails. eapply adds_ext.
  - apply adds_fold with (S := fun i p c q => continuation c /\ p = last + i /\ q = last + i + 1).
    intros g i T Hi A. apply in_seq in Hi. unfold utf_max_len in Hi. cbn [Nat.sub] in Hi. eapply adds_ext.
    + apply adds_fold with (S := fun l p c q => p = last + i /\ c = l /\ q = last + i + 1).
      intros h l U Hl B.
      assert (Es : size h = size f) by (rewrite (ad_size _ _ _ B), (ad_size _ _ _ A); reflexivity).
      apply connect_adds; try lia. apply next_range in Hl. unfold continuation, MaxChar in *. lia.
    + intros p c q. cbn beta. split.
      * intros [l [H1 [H2 [-> H3]]]]. apply next_range in H1. auto.
      * intros [H1 [H2 H3]]. exists c. rewrite next_range. auto.
  - intros p c q. cbn beta. split.
    + intros [i [H1 [H2 [H3 H4]]]]. apply in_seq in H1. unfold utf_max_len in H1. cbn [Nat.sub] in H1. split; auto. exists i. repeat split; auto; lia.
    + intros [H1 [i [H2 [H3 H4]]]]. exists i. rewrite in_seq. unfold utf_max_len. cbn [Nat.sub]. splits; auto; lia.
Qed.

Lemma utf_leads_fin : forall f, finals (utf_leads f) = finals f.
Proof.
  intros f. unfold utf_leads. generalize (seq 0 utf_max_len). intros l. revert f. induction l as [|i l IH]; intros f; cbn [fold_left]; auto.
  rewrite IH. generalize (range_letters (nth i utf_first (0, 0))). intros l'. revert f. induction l' as [|c l' IH']; intros f; cbn [fold_left]; auto.
  rewrite IH'. unfold connect_final. cbn [finals clear_hints set_isAlt]. generalize (size f - i - 1). intros to. generalize (finals f) at 1. intros fs. revert f.
  induction fs as [|x fs IF]; intros f; cbn [fold_left]; auto. rewrite IF. reflexivity.
Qed.

(** ** The language *)
Section Chain.
  Variables (E1 E : nat -> N -> nat -> Prop) (n i1 : nat) (F1 : nat -> Prop).
  Hypothesis H1 : forall p c q, E1 p c q -> p < n /\ q < n.
  Hypothesis HF1 : forall p, F1 p -> p < n.
  Hypothesis Hi1 : i1 < n.
  Hypothesis HE : forall p c q, E p c q <-> E1 p c q \/ (F1 p /\ exists i, i < 4 /\ announces c i /\ q = n + 3 - i) \/
    (continuation c /\ exists i, i < 3 /\ p = n + i /\ q = n + i + 1).

  Lemma announces_not_eps : forall c i, announces c i -> c <> Epsilon.
  Proof. unfold announces, Epsilon. intros c i H. lia. Qed.
  Lemma continuation_not_eps : forall c, continuation c -> c <> Epsilon.
  Proof. unfold continuation, Epsilon. intros c H. lia. Qed.

  Lemma chain_right : forall p w q, path E p w q -> forall j, p = n + j -> j <= 3 -> q = n + 3 ->
    Forall continuation w /\ length w + j = 3.
  Proof.
    intros p w q H. induction H as [p|p q w r He H IH|p c q w r Hc He H IH]; intros j Hp Hj Hr.
    - split; auto. cbn. lia.
    - apply HE in He as [He|[[He _]|[He _]]].
      + apply H1 in He; lia.
      + apply HF1 in He; lia.
      + exfalso. exact (continuation_not_eps _ He eq_refl).
    - apply HE in He as [He|[[He _]|[He (i & Hi & Ep & Eq)]]].
      + apply H1 in He; lia.
      + apply HF1 in He; lia.
      + assert (i = j) by lia. subst i. destruct (IH (j + 1)) as [A B]; try lia. split; [constructor; auto|cbn; lia].
  Qed.
  Lemma chain_left : forall p w q, path E p w q -> p < n -> q = n + 3 ->
    exists u c v i m, w = u ++ c :: v /\ path E1 p u m /\ F1 m /\ i < 4 /\ announces c i /\ Forall continuation v /\ length v = i.
  Proof.
    intros p w q H. induction H as [p|p q w r He H IH|p c q w r Hc He H IH]; intros Hp Hr.
    - lia.
    - apply HE in He as [He|[[_ (i & _ & He & _)]|[He _]]].
      + destruct (IH (proj2 (H1 _ _ _ He)) Hr) as (u & c & v & i & m & -> & P & R). exists u, c, v, i, m. split; auto. split; auto. eapply path_eps; eauto.
      + exfalso. exact (announces_not_eps _ _ He eq_refl).
      + exfalso. exact (continuation_not_eps _ He eq_refl).
    - apply HE in He as [He|[[Fp (i & Hi & He & Eq)]|[He (i & Hi & Ep & Eq)]]].
      + destruct (IH (proj2 (H1 _ _ _ He)) Hr) as (u & c' & v & i & m & -> & P & R). exists (c :: u), c', v, i, m. split; auto. split; auto. eapply path_step; eauto.
      + destruct (chain_right _ _ _ H (3 - i)) as [A B]; try lia. exists [], c, w, i, p. repeat split; auto; try lia. apply path_nil.
      + lia.
  Qed.
  Lemma chain_back : forall v j, Forall continuation v -> length v + j = 3 -> path E (n + j) v (n + 3).
  Proof.
    induction v as [|c v IH]; intros j Hv Hj; cbn in Hj.
    - assert (j = 3) by lia. subst j. apply path_nil.
    - inversion Hv; subst. eapply path_step.
      + apply continuation_not_eps; auto.
      + apply HE. right. right. split; auto. exists j. repeat split; lia.
      + replace (n + j + 1) with (n + (j + 1)) by lia. apply IH; auto; lia.
  Qed.
  Lemma chain_lang : lang_eq (nfa_lang E i1 (fun q => q = n + 3)) (L_cat (nfa_lang E1 i1 F1) L_utf8char).
  Proof.
    intros w. split.
    - intros (q & P & ->). destruct (chain_left _ _ _ P Hi1 eq_refl) as (u & c & v & i & m & -> & Q & Fm & Hi & Ha & Hv & Hl).
      exists u, (c :: v). split; auto. split; [exists m; auto|]. exists c, v. subst i. auto.
    - intros (u & x & -> & (m & P & Fm) & c & v & -> & Ha & Hv). exists (n + 3). split; auto.
      assert (Hl : length v < 4) by (unfold announces in Ha; lia).
      eapply path_app; [eapply path_mono; [|exact P]; intros; apply HE; auto|]. eapply path_step.
      + eapply announces_not_eps; eauto.
      + apply HE. right. left. split; auto. exists (length v). repeat split; auto.
      + replace (n + 3 - length v) with (n + (3 - length v)) by lia. apply chain_back; auto; lia.
  Qed.
End Chain.

Lemma connects_alt : forall a b l f, isAlt f = false \/ l <> [] -> isAlt (fold_left (fun h c => connect h a b c) l f) = false.
Proof.
  intros a b. induction l as [|c l IH]; intros f H; cbn [fold_left]; [destruct H; congruence|]. apply IH. left. reflexivity.
Qed.
Lemma range_letters_some : range_letters utf_next <> [].
Proof. intros E. pose proof (proj2 (next_range 128%N)) as H. rewrite E in H. apply H. unfold continuation. lia. Qed.
Lemma utf_tails_alt : forall last f, isAlt (utf_tails last f) = false.
Proof.
  intros last f. unfold utf_tails. change (seq 0 (utf_max_len - 1)) with [0; 1; 2]. cbn [fold_left].
  apply connects_alt. right. exact range_letters_some.
Qed.

Lemma utf8_close : forall f f3, wf f -> uncompressed f -> isAlt f3 = false ->
  adds (resize_fsm f (size f + 4)) f3 (fun p c q => (In p (finals f) /\ exists i, i < 4 /\ announces c i /\ q = size f + 3 - i) \/
    (continuation c /\ exists i, i < 3 /\ p = size f + i /\ q = size f + i + 1)) ->
  let h := set_determined (set_final (clear_final f3) (size f3 - 1) true) false in
  wf h /\ uncompressed h /\ lang_eq (accepts h) (L_cat (accepts f) L_utf8char).
Proof.
  intros f f3 W U T3 A h.
  assert (E3 : size f3 = size f + 4) by (rewrite (ad_size _ _ _ A); apply size_resize).
  assert (Fh : finals h = [size f + 3]) by (unfold h; rewrite E3; cbn; f_equal; lia).
  assert (Lh : letters h = letters f) by (unfold h; cbn [letters set_determined set_final clear_final set_finals]; rewrite (ad_let _ _ _ A); reflexivity).
  assert (Sh : size h = size f + 4) by exact E3.
  assert (Uh : uncompressed h) by (unfold uncompressed; rewrite Lh; exact U).
  assert (Ih : initial h = initial f) by (unfold h; cbn [initial set_determined set_final clear_final set_finals]; rewrite (ad_init _ _ _ A); reflexivity).
  assert (Rh : forall p c q, raw h p c q <-> raw f p c q \/ (In p (finals f) /\ exists i, i < 4 /\ announces c i /\ q = size f + 3 - i) \/
    (continuation c /\ exists i, i < 3 /\ p = size f + i /\ q = size f + i + 1)).
  { intros p c q. etransitivity; [apply (ad_raw _ _ _ A p c q)|]. rewrite raw_resize by lia. tauto. }
  assert (Oh : rows_ok h) by (apply (ad_rows _ _ _ A); apply rows_ok_resize; [lia|apply W]).
  assert (Th : isAlt h = false) by exact T3.
  clearbody h. split; [constructor|split; [exact Uh|]]; auto.
  - rewrite Ih, Sh. pose proof (wf_init _ W). lia.
  - rewrite Fh, Sh. intros q [<-|[]]. lia.
  - rewrite Fh. repeat constructor.
  - rewrite Lh; apply W.
  - apply uncompressed_coherent; auto.
  - apply uncompressed_bcoherent; auto.
  - intros X. congruence.
  - eapply lang_eq_trans; [|apply (chain_lang (edge f) (edge h) (size f) (initial f) (fun q => In q (finals f)))].
    + intros w. rewrite accepts_nfa, Ih, Fh.
      split; intros [q [P Q]]; exists q; split; auto; cbn in *; intuition.
    + intros p c q H. eapply edge_bound; eauto.
    + apply W.
    + apply W.
    + intros p c q. rewrite !edge_raw, !erep_empty by assumption. apply Rh.
Qed.

Lemma utf8_dot_adds : forall f f1, size f1 = size f + 4 -> finals f1 = finals f -> (forall q, In q (finals f) -> q < size f) ->
  adds f1 (utf_tails (size f) (utf_leads f1)) (fun p c q => (In p (finals f) /\ exists i, i < 4 /\ announces c i /\ q = size f + 3 - i) \/
    (continuation c /\ exists i, i < 3 /\ p = size f + i /\ q = size f + i + 1)).
Proof.
  intros f f1 E1 F1 W.
  assert (A1 : adds f1 (utf_leads f1) (fun p c q => In p (finals f) /\ exists i, i < 4 /\ announces c i /\ q = size f + 3 - i)).
  { eapply adds_ext; [apply utf_leads_adds|].
    - rewrite F1, E1. intros q Hq. apply W in Hq. lia.
    - lia.
    - intros p c q. rewrite F1, E1. split; intros [H [i [H2 [H3 H4]]]]; split; auto; exists i; splits; auto; lia. }
  apply adds_trans with (1 := A1). apply utf_tails_adds. rewrite (ad_size _ _ _ A1). lia.
Qed.

Lemma utf8_append_dot_ok : forall f, wf f -> uncompressed f ->
  wf (utf8_append_dot f) /\ uncompressed (utf8_append_dot f) /\ lang_eq (accepts (utf8_append_dot f)) (L_cat (accepts f) L_utf8char).
Proof.
  intros f W U. apply (utf8_close f (utf_tails (size f) (utf_leads (resize_fsm f (size f + 4)))) W U (utf_tails_alt _ _)).
  apply utf8_dot_adds; [apply size_resize|reflexivity|apply W].
Qed.

Lemma d_utf8_dot : forall f, determined (utf8_append_dot f) = false.
Proof. intros. reflexivity. Qed.
