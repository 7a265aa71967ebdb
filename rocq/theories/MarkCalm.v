(** A pattern without greedy counts has a leftmost match captured. *)
From Coq Require Import List Bool Arith NArith ZArith Lia.
From Verif Require Import Util Spec PartitionModel FsmModel DetermineModel MinimizeModel Nfa NfaOps FsmSem FsmBasics FsmOps FsmOps2 FsmStrings
  EncModel EncSpec EncDot Api ApiProofs BuildFacts EncProofs Expr ExprProofs ScannerModel RegexModel RegexSpec RegexParse RegexProofs CapModel CapSpec CapApi CapMarks CapMarks2 CapAppend CapUser CapLeftUser TagFacts
  MarkModel MarkSpec MarkProofs MarkLang MarkUser.
Import ListNotations.
Local Opaque all_letters all_bytes.

Definition nobit (f : fsm) : Prop := forall p q, N.testbit (output f p q) 2 = false.
Definition calm (f : fsm) : Prop := (exists L, captures f L) /\ nobit f.
Lemma calm_front : forall f, nobit f -> ~ greedy_front f.
Proof. intros f H (q & r & _ & _ & B). rewrite H in B. discriminate B. Qed.
Lemma bare_nobit : forall f, outputs f = [] -> nobit f.
Proof. intros f E p q. rewrite (bare_output f E). reflexivity. Qed.
Lemma same_nobit : forall f g, outputs g = outputs f -> nobit f -> nobit g.
Proof. intros f g E H p q. rewrite (output_same f g p q E). apply H. Qed.
Lemma calm_cat : forall a b, calm a -> calm b -> calm (fsm_cat a b).
Proof.
  intros a b [[L C] H] [[M C'] H']. split; [exists (L_cat L M); apply cp_cat; auto|]. destruct (captures_ok a L C) as (W & O & _). destruct (captures_ok b M C') as (W' & O' & _). intros p q.
  rewrite cat_output by auto. destruct (_ <=? q); [|apply H]. destruct (_ <=? p); [apply H'|]. destruct (smem _ _); [apply H'|reflexivity].
Qed.
Lemma calm_or : forall a b, calm a -> calm b -> calm (fsm_or a b).
Proof.
  intros a b [[L C] H] [[M C'] H']. split; [exists (L_or L M); apply cp_or; auto|]. destruct (captures_ok a L C) as (W & O & _). destruct (captures_ok b M C') as (W' & O' & _). intros p q.
  destruct (or_structure a b W W') as (_ & _ & Og & _). rewrite output_get, Og, import_output by auto. destruct (_ && _); auto.
Qed.
Lemma calm_star : forall a, calm a -> calm (iterate a).
Proof.
  intros a [[L C] H]. split; [exists (L_star L); apply cp_star; auto|]. destruct (captures_ok a L C) as (W & _). destruct (iterate_structure a W) as (_ & _ & _ & _ & _ & Og & _). eapply same_nobit; eauto.
Qed.
Lemma calm_group : forall a, calm a -> calm (capture_mark a).
Proof.
  intros a [[L C] H]. split; [eexists; apply cp_group; eauto|]. destruct (captures_ok a L C) as (W & _). destruct (capture_structure a W) as (_ & _ & _ & _ & _ & _ & _ & Og & _).
  intros p q. rewrite output_get, Og, oget_osets, oget_oset. destruct (_ && _); [reflexivity|]. destruct (_ && _); [reflexivity|]. rewrite <- output_get. apply H.
Qed.
Lemma calm_rep : forall a, calm a -> calm (repetition_mark a false).
Proof.
  intros a [[L C] H]. split; [eexists; apply cp_repetition; eauto|]. destruct (captures_ok a L C) as (W & _). destruct (repetition_structure a false W) as (_ & _ & _ & _ & _ & _ & _ & Og & _).
  intros p q. rewrite output_get, Og, oget_osets. destruct (_ && _); [reflexivity|]. rewrite <- output_get. apply H.
Qed.
Lemma calm_new : calm fsm_new.
Proof. split; [eexists; apply cp_plain; [apply built_new|apply no_marks_new]|]. apply bare_nobit. reflexivity. Qed.
Lemma calm_times : forall f n, calm f -> calm (fsm_times f n).
Proof.
  intros f n H. unfold fsm_times. assert (X : forall n r, calm r -> calm (fsm_times_loop f n r)). { clear n. induction n as [|n IH]; intros r Hr; cbn [fsm_times_loop]; auto. apply IH, calm_cat; auto. }
  apply X, calm_new.
Qed.
Lemma calm_repeat : forall f lo hi, calm f -> calm (repeat_action f lo hi).
Proof.
  intros f lo hi H. unfold repeat_action. repeat match goal with |- calm (if ?b then _ else _) => destruct b end; auto using calm_cat, calm_or, calm_star, calm_times, calm_new.
Qed.
Lemma strings_outputs : forall f strs g, append_strings f strs = Ok g -> outputs g = outputs f.
Proof.
  intros f strs g E. unfold append_strings in E. destruct (existsb _ strs); [discriminate E|]. rewrite size_resize in E. replace (size f + 1 - 1) with (size f) in E by lia.
  pose proof (as_fold_same (size f) strs (resize_fsm f (size f + 1), [], [])) as Sm.
  destruct (fold_left (as_one (size f)) strs (resize_fsm f (size f + 1), [], [])) as [[h sl] lt]. injection E as <-. cbn [fst] in Sm. apply Sm.
Qed.
Lemma range_outputs : forall e f ss g, append_range e f ss = Ok g -> outputs g = outputs f \/ outputs g = [].
Proof.
  intros e f ss g E. unfold append_range in E. destruct (filter _ _); [injection E as <-; right; reflexivity|left; eapply strings_outputs; eauto].
Qed.

Section ENC.
  Variable e : encoding.
  Variable D : lang.
  Hypothesis G : good_encoding e D.
  Hypothesis HD : e_dot e = append_dot -> D = L_anybyte.
  Hypothesis HB : forall w, D w -> Forall byte w.

  Definition val_c (v : value) : Prop := match v with VFsm f => calm f | _ => True end.
  Lemma within_captures : forall f M, within f M -> exists L, captures f L.
  Proof. intros f M (L & C & _). eauto. Qed.
  Lemma convert_c : forall r p gs v f, capturable e r -> val_m e D r p gs v -> val_c v -> convert e v = Ok f -> calm f.
  Proof.
    intros r p gs v f Cr Hm Hc E. destruct v as [g|ss n| | |]; cbn [val_m val_c] in *; try contradiction.
    - cbn [convert] in E. apply ok_inj' in E. subst g. exact Hc.
    - split; [destruct (convert_m e D G HD HB r p gs (VRange ss n) Cr Hm) as [(f' & E' & X & _)|[E' _]]; rewrite E in E'; [apply ok_inj' in E'; subst f'; eapply within_captures; eauto|discriminate E']|].
      subst r. destruct (convert_ok e D G (RLetters ss n) (VRange ss n) eq_refl) as [(f' & E' & B & _)|[E' _]]; rewrite E in E'; [apply ok_inj' in E'; subst f'|discriminate E']. apply bare_nobit. apply (built_bare f B).
    - split; [destruct (convert_m e D G HD HB r p gs VDot Cr Hm) as [(f' & E' & X & _)|[E' _]]; rewrite E in E'; [apply ok_inj' in E'; subst f'; eapply within_captures; eauto|discriminate E']|].
      subst r. destruct (convert_ok e D G RDot VDot eq_refl) as [(f' & E' & B & _)|[E' _]]; rewrite E in E'; [apply ok_inj' in E'; subst f'|discriminate E']. apply bare_nobit. apply (built_bare f B).
  Qed.
  Definition lazy (fl : list bool) (n : nat) : Prop := Forall (fun b => b = false) fl /\ n <= length fl.
  Lemma lazy_skip : forall fl a b, lazy fl (a + b) -> lazy fl a /\ lazy (skipn a fl) b.
  Proof.
    intros fl a b [H L]. split; split; auto; [lia| |rewrite skipn_length; lia]. rewrite <- (firstn_skipn a fl) in H. apply Forall_app in H. tauto.
  Qed.
  Lemma eval_m_calm : forall r so p s v s', fits so r -> capturable e r -> seeks s p -> lazy (cm_flags s) (ncounts r) -> eval_m e r s = Ok (v, s') -> val_c v.
  Proof.
    induction r; intros so p s v s' F Cr Sk Z E; cbn [capturable] in Cr; try contradiction.
    - injection E as <- _. exact I.
    - injection E as <- _. exact I.
    - cbn [fits] in F. destruct F as [_ F]. cbn [eval_m] in E. destruct (open_seeks s p Sk) as (p' & Sk').
      assert (Fl : cm_flags (cm_open s) = cm_flags s) by (unfold cm_open; repeat match goal with |- cm_flags (if ?b then _ else _) = _ => destruct b end; reflexivity).
      destruct (eval_m_ok e D G HD HB r _ _ _ F Cr Sk') as [(v1 & s1 & E1 & _ & (Rp & _) & _)|[E1 _]]; rewrite E1 in E; [|discriminate E]. cbn [bind] in E.
      assert (H1 : val_c v1) by (eapply IHr; eauto; rewrite Fl; exact Z). destruct v1 as [f| | | |]; try discriminate E. unfold cm_paren in E. rewrite Rp in E.
      destruct (_ && _)%bool; [injection E as <- _; apply calm_group; exact H1|]. destruct (_ && _)%bool; injection E as <- _; exact H1.
    - cbn [fits] in F. destruct F as [_ F]. destruct Cr as [Cr _]. cbn [eval_m] in E. cbn [ncounts] in Z. apply lazy_skip in Z as [Z1 Z2].
      destruct (eval_m_ok e D G HD HB r _ _ _ F Cr Sk) as [(v1 & s1 & E1 & Hv & _ & _ & Fl)|[E1 _]]; rewrite E1 in E; [|discriminate E]. cbn [bind] in E.
      assert (H1 : val_c v1) by (eapply IHr; eauto). destruct (convert e v1) as [f| | |] eqn:Ec; cbn [bind] in E; try discriminate E. pose proof (convert_c _ _ _ _ _ Cr Hv H1 Ec) as Hf.
      unfold cm_paren, cm_count in E. cbn [cm_rep] in E. rewrite Fl in E. destruct Z2 as [Z2 Z3]. destruct (skipn (ncounts r) (cm_flags s)) as [|b fl]; [cbn in Z3; lia|]. cbn [hd] in E.
      assert (b = false) by (inversion Z2; auto). subst b. injection E as <- _. apply calm_rep, calm_repeat, Hf.
    - injection E as <- _. apply calm_new.
    - cbn [fits] in F. destruct F as (_ & F1 & F2). destruct Cr as [C1 C2]. cbn [eval_m] in E. cbn [ncounts] in Z. apply lazy_skip in Z as [Z1 Z2].
      destruct (eval_m_ok e D G HD HB r1 _ _ _ F1 C1 Sk) as [(va & s1 & E1 & Hva & Sk1 & _ & Fl)|[E1 _]]; rewrite E1 in E; [|discriminate E]. cbn [bind] in E. rewrite <- Fl in Z2.
      assert (H1 : val_c va) by (exact (IHr1 _ _ _ _ _ F1 C1 Sk Z1 E1)).
      destruct (convert_m e D G HD HB _ _ _ _ C1 Hva) as [(a & Ea & Wa & Ua)|[Ea _]]; rewrite Ea in E; [|discriminate E]. cbn [bind] in E. pose proof (convert_c _ _ _ _ _ C1 Hva H1 Ea) as Ha.
      assert (U : uncompressed a). { apply Ua. destruct r1; auto; cbn [fits] in F1; [destruct F1 as [X|X]; discriminate X|destruct F1 as [X _]; discriminate X]. }
      destruct (eval_m_ok e D G HD HB r2 _ _ _ F2 C2 Sk1) as [(v2 & s2 & E2 & Hv2 & _)|[E2 _]]; rewrite E2 in E; [|discriminate E]. cbn [bind] in E.
      assert (H2 : val_c v2) by (exact (IHr2 _ _ _ _ _ F2 C2 Sk1 Z2 E2)).
      assert (CAT : forall b, convert e v2 = Ok b -> calm (fsm_cat a b)) by (intros b Eb; apply calm_cat; auto; eapply convert_c; eauto).
      destruct v2 as [b|ss n| | |]; cbn [val_m] in Hv2; try contradiction.
      + cbn [convert bind] in E. injection E as <- _. apply CAT. reflexivity.
      + destruct n.
        { destruct (convert e (VRange ss true)) as [b| | |] eqn:Eb; cbn [bind] in E; try discriminate E. injection E as <- _. apply CAT. reflexivity. }
        destruct (range_m e D G a ss _ Wa U) as (g & Eg & Wg & _). rewrite Eg in E. cbn [bind] in E. injection E as <- _. split; [eapply within_captures; eauto|].
        destruct (range_outputs _ _ _ _ Eg) as [O|O]; [eapply same_nobit; [exact O|apply Ha]|apply bare_nobit, O].
      + subst r2. cbn [capturable] in C2. injection E as <- _. rewrite C2. destruct Ha as [[L Ca] Na]. split; [eexists; apply cp_dot; eauto|]. eapply same_nobit; [apply dot_same|exact Na].
    - cbn [fits] in F. destruct F as (_ & F1 & F2). destruct Cr as [C1 C2]. cbn [eval_m] in E. cbn [ncounts] in Z. apply lazy_skip in Z as [Z1 Z2].
      destruct (eval_m_ok e D G HD HB r1 _ _ _ F1 C1 Sk) as [(va & s1 & E1 & Hva & Sk1 & _ & Fl)|[E1 _]]; rewrite E1 in E; [|discriminate E]. cbn [bind] in E. rewrite <- Fl in Z2.
      assert (H1 : val_c va) by (exact (IHr1 _ _ _ _ _ F1 C1 Sk Z1 E1)). destruct (convert e va) as [a| | |] eqn:Ea; cbn [bind] in E; try discriminate E.
      destruct (eval_m_ok e D G HD HB r2 _ _ _ F2 C2 Sk1) as [(v2 & s2 & E2 & Hv2 & _)|[E2 _]]; rewrite E2 in E; [|discriminate E]. cbn [bind] in E. assert (H2 : val_c v2) by (exact (IHr2 _ _ _ _ _ F2 C2 Sk1 Z2 E2)).
      destruct (convert e v2) as [b| | |] eqn:Eb; cbn [bind] in E; try discriminate E. injection E as <- _. apply calm_or; [exact (convert_c _ _ _ _ _ C1 Hva H1 Ea)|exact (convert_c _ _ _ _ _ C2 Hv2 H2 Eb)].
  Qed.
  Lemma compile_m_calm : forall r pos gs f, fits Alternative r -> capturable e r -> lazy gs (ncounts r) -> compile_m e pos gs r = Ok f -> nobit f.
  Proof.
    intros r pos gs f F Cr Z E. unfold compile_m in E. assert (Sk : seeks (cm_new pos gs) pos) by (split; [reflexivity|left; split; reflexivity]).
    destruct (eval_m_ok e D G HD HB r _ _ _ F Cr Sk) as [(v & s & E1 & Hv & _)|[E1 _]]; rewrite E1 in E; [|discriminate E]. cbn [bind] in E.
    apply (convert_c r pos gs v f Cr Hv); auto. eapply eval_m_calm; eauto.
  Qed.
End ENC.

Theorem lazy_leftmost : forall e D w r pos gs f s t cl ans st, shipped e D -> derives Alternative w r -> capturable e r -> regular r -> Forall (fun b => b = false) gs -> ncounts r <= length gs ->
  compile_m e pos gs r = Ok f -> (N.of_nat (size f) + 2 <= two32)%N -> cap_compile (surround f) = Ok s -> is_word t -> (N.of_nat (length t) < nowhere)%N ->
  cap_run s t = Ok cl -> get_capture s cl = Ok (ans, Some st) ->
  exists u m v, t = u ++ strip m ++ v /\ mden (e_to e) D r pos gs m /\ g_begin st = mark_at u 0 m /\ g_end st = mark_at u 1 m /\
    forall u' x v', t = u' ++ x ++ v' -> re_den (e_to e) D r x -> length u <= length u'.
Proof.
  intros e D w r pos gs f s t cl ans st Sh Dr Cr R Z1 Z2 E Sz Es Ht Lt E1 E2. destruct (shipped_good e D Sh) as (G & HD & HB). apply derives_fits in Dr as [_ F].
  destruct (compile_m_ok e D G HD HB r pos gs F Cr) as [(f' & E' & (L & C & S) & U)|[E' _]]; rewrite E in E'; [|discriminate E']. apply ok_inj' in E'. subst f'.
  pose proof (compile_m_lang e D G HD HB r pos gs f F Cr R E) as Lf. pose proof (compile_m_calm e D G HD HB r pos gs f F Cr (conj Z1 Z2) E) as Nb.
  destruct (captures_leftmost f L s t cl ans st C U (calm_front f Nb) Sz Es Ht Lt E1 E2) as (u & m & v & Et & Hm & Eb & Ee & Min). exists u, m, v. splits; auto.
  intros u' x v' Ex Hx. apply (Min u' x v' Ex). apply Lf, Hx.
Qed.
