(** The parser with the feature Capture marks the group it should. *)
From Coq Require Import List Bool Arith NArith ZArith Lia.
From Verif Require Import Util Spec PartitionModel FsmModel DetermineModel MinimizeModel Nfa NfaOps FsmSem FsmBasics FsmOps FsmOps2 FsmStrings
  EncModel EncSpec EncDot Api ApiProofs BuildFacts EncProofs Expr ExprProofs RegexModel RegexSpec RegexParse RegexProofs CapModel CapSpec CapApi CapMarks CapMarks2 CapUser MarkModel MarkSpec.
Import ListNotations.
Local Opaque all_letters all_bytes.

Definition sub (L M : lang) : Prop := forall w, L w -> M w.
Lemma sub_cat : forall L L' M M', sub L L' -> sub M M' -> sub (L_cat L M) (L_cat L' M').
Proof. intros L L' M M' H1 H2 w (u & v & -> & A & B). exists u, v. auto. Qed.
Lemma sub_pow : forall L M n, sub L M -> sub (L_pow L n) (L_pow M n).
Proof. intros L M n H. induction n as [|n IH]; [intros w X; exact X|]. cbn [L_pow]. apply sub_cat; auto. Qed.
Lemma no_marks_new : no_marks fsm_new.
Proof. intros p q. split; intros X; destruct (edge_bound _ _ _ _ fsm_new_wf X) as [A B]; cbn in A, B; assert (p = 0) by lia; assert (q = 0) by lia; subst; vm_compute in X; tauto. Qed.
Lemma no_marks_false : no_marks make_false.
Proof. intros p q. assert (W : wf make_false) by apply built_wf, built_false. split; intros X; destruct (edge_bound _ _ _ _ W X) as [A B]; cbn in A, B; assert (p = 0) by lia; assert (q = 0) by lia; subst; vm_compute in X; tauto. Qed.

Lemma skip_skip : forall A a b (l : list A), skipn b (skipn a l) = skipn (a + b) l.
Proof. intros A a. induction a as [|a IH]; intros b [|x l]; cbn [skipn Nat.add]; auto. destruct b; reflexivity. Qed.

(** ** Languages within bounds *)
Definition within (f : fsm) (M : lang) : Prop := exists L, captures f L /\ sub L M.
Lemma within_sub : forall f M M', within f M -> sub M M' -> within f M'.
Proof. intros f M M' (L & C & S) H. exists L. split; auto. intros w X. auto. Qed.
Lemma within_cat : forall f g M M', within f M -> within g M' -> within (fsm_cat f g) (L_cat M M').
Proof. intros f g M M' (L & C & S) (L' & C' & S'). exists (L_cat L L'). split; [apply cp_cat; auto|apply sub_cat; auto]. Qed.
Lemma within_or : forall f g M M', within f M -> within g M' -> within (fsm_or f g) (L_or M M').
Proof. intros f g M M' (L & C & S) (L' & C' & S'). exists (L_or L L'). split; [apply cp_or; auto|]. intros w [X|X]; [left|right]; auto. Qed.
Lemma within_star : forall f M, within f M -> within (iterate f) (L_star M).
Proof. intros f M (L & C & S). exists (L_star L). split; [apply cp_star; auto|]. intros w. apply L_star_mono. exact S. Qed.
Lemma within_new : within fsm_new L_eps.
Proof. exists (accepts fsm_new). split; [apply cp_plain; [apply built_new|apply no_marks_new]|]. intros w. apply fsm_new_lang. Qed.
Lemma within_times : forall f M n, within f M -> within (fsm_times f n) (L_pow M n).
Proof.
  intros f M n H. unfold fsm_times.
  assert (X : forall n k r, within r (L_pow M k) -> within (fsm_times_loop f n r) (L_pow M (k + n))).
  { clear n. induction n as [|n IH]; intros k r Hr; cbn [fsm_times_loop]; [rewrite Nat.add_0_r; auto|].
    replace (k + S n) with (S k + n) by lia. apply IH. cbn [L_pow]. apply within_cat; auto. }
  apply (X n 0). apply within_new.
Qed.
Lemma within_repeat : forall f M lo hi, within f M -> count_ok lo hi -> within (repeat_action f lo hi) (L_repeat M lo hi).
Proof.
  intros f M lo hi H [C1 C2]. unfold repeat_action, Inf in *.
  assert (Z1 : forall w, M w -> L_pow M 1 w) by (intros w X; apply pow_one; auto).
  assert (OPT : within (fsm_or f fsm_new) (L_or M L_eps)) by (apply within_or; [auto|apply within_new]).
  destruct (Z.eqb_spec lo 0) as [E0|E0]; cbn [andb].
  - destruct (Z.eqb_spec hi 1) as [E1|E1].
    { subst. eapply within_sub; [exact OPT|]. intros w [X|X]; [exists 1|exists 0]; splits; auto; unfold Inf; lia. }
    cbn [andb]. destruct (Z.eqb_spec hi (-1)) as [E2|E2].
    { subst. eapply within_sub; [apply within_star; exact H|]. intros w X. apply star_pow in X as [n X]. exists n. splits; auto; lia. }
    replace (Z.eqb lo 1) with false by (symmetry; apply Z.eqb_neq; lia). cbn [andb].
    assert (Hl : Z.of_nat (to_size lo) = lo) by (apply to_size_small; lia).
    destruct (Z.eqb_spec hi lo) as [E3|E3]; cbn [negb].
    { eapply within_sub; [apply within_times; exact H|]. intros w X. exists (to_size lo). splits; auto; unfold Inf; lia. }
    assert (Hh : Z.of_nat (to_size (hi - lo)) = (hi - lo)%Z) by (apply to_size_small; lia).
    eapply within_sub; [apply within_cat; [apply within_times; exact H|apply within_times; exact OPT]|]. intros w (u & v & -> & X & Y).
    apply (pow_opt M (L_or M L_eps)) in Y; [|intros x; tauto]. destruct Y as (n & Hn & Y). exists (to_size lo + n). splits; [lia|unfold Inf; lia|]. apply pow_add. exists u, v. auto.
  - destruct (Z.eqb lo 1 && Z.eqb hi (-1))%bool eqn:E1.
    { apply andb_true_iff in E1 as [E1 E2]. apply Z.eqb_eq in E1, E2. subst. eapply within_sub; [apply within_cat; [exact H|apply within_star; exact H]|].
      intros w (u & v & -> & X & Y). apply star_pow in Y as [n Y]. exists (1 + n). splits; [lia|left; reflexivity|]. apply pow_add. exists u, v. auto. }
    assert (Hl : Z.of_nat (to_size lo) = lo) by (apply to_size_small; lia).
    destruct (Z.eqb_spec hi (-1)) as [E2|E2].
    { subst hi. eapply within_sub; [apply within_cat; [apply within_times; exact H|apply within_star; exact H]|].
      intros w (u & v & -> & X & Y). apply star_pow in Y as [n Y]. exists (to_size lo + n). splits; [lia|left; reflexivity|]. apply pow_add. exists u, v. auto. }
    destruct (Z.eqb_spec hi lo) as [E3|E3]; cbn [negb].
    { eapply within_sub; [apply within_times; exact H|]. intros w X. exists (to_size lo). splits; auto; unfold Inf; lia. }
    assert (Hh : Z.of_nat (to_size (hi - lo)) = (hi - lo)%Z) by (apply to_size_small; lia).
    eapply within_sub; [apply within_cat; [apply within_times; exact H|apply within_times; exact OPT]|]. intros w (u & v & -> & X & Y).
    apply (pow_opt M (L_or M L_eps)) in Y; [|intros x; tauto]. destruct Y as (n & Hn & Y). exists (to_size lo + n). splits; [lia|unfold Inf; lia|]. apply pow_add. exists u, v. auto.
Qed.

(** ** The counter *)
(** [s] is looking for group [p] of what is still to be read. *)
Definition seeks (s : cmark) (p : nat) : Prop :=
  cm_rep s = None /\ (cm_state s = 0 /\ cm_pos s = p \/ (cm_state s = 1 \/ cm_state s = 2) /\ p = 0).
Definition moved (s s' : cmark) : Prop := (cm_state s = 1 <-> cm_state s' = 1) /\ (cm_state s = 1 -> cm_level s' = cm_level s).
Lemma moved_refl : forall s, moved s s.
Proof. intros s. split; [tauto|auto]. Qed.
Lemma moved_trans : forall s t u, moved s t -> moved t u -> moved s u.
Proof. intros s t u [A B] [C D]. split; [tauto|]. intros H. rewrite D, B; tauto. Qed.

Lemma open_seeks : forall s p, seeks s p -> exists p', seeks (cm_open s) p'.
Proof.
  intros s p (Rp & Sk). unfold cm_open, seeks. destruct Sk as [[S0 P0]|[S0 P0]].
  - rewrite S0, P0. cbn [Nat.eqb andb]. destruct (1 <? p); [|destruct (Nat.eqb_spec p 1) as [E1|E1]].
    + exists (p - 1). cbn [cm_rep cm_state cm_pos]. auto.
    + exists 0. cbn [cm_rep cm_state cm_pos]. auto.
    + exists p. rewrite S0. auto.
  - exists 0. destruct S0 as [S0|S0]; rewrite S0; cbn [Nat.eqb andb cm_rep cm_state cm_pos]; auto.
Qed.

Section ENC.
  Variable e : encoding.
  Variable D : lang.
  Hypothesis G : good_encoding e D.
  Hypothesis HD : e_dot e = append_dot -> D = L_anybyte.
  Hypothesis HB : forall w, D w -> Forall byte w.
  Notation mlang := (mden (e_to e) D).

  Definition val_m (r : re) (p : nat) (gs : list bool) (v : value) : Prop :=
    match v with
    | VFsm f => within f (mlang r p gs) /\ (match r with RCount _ _ _ | RLetters _ _ => False | _ => True end -> uncompressed f)
    | VRange ss n => r = RLetters ss n
    | VDot => r = RDot
    | _ => False
    end.
  Lemma range_m : forall a ss M, within a M -> uncompressed a -> exists g, append_range e a ss = Ok g /\ within g (L_cat M (L_range (e_to e) ss)) /\ uncompressed g.
  Proof.
    intros a ss M (L & C & S) U. unfold append_range. set (strings := filter _ (map (encode e) ss)).
    assert (I : forall w, In w strings -> L_range (e_to e) ss w).
    { intros w. unfold strings. rewrite filter_In, in_map_iff. unfold L_range. intros [(s & E & Hs) N]. exists s.
      assert (X : s <> [] /\ encodes (e_to e) s w) by (apply encode_iff; split; auto; destruct w; congruence). tauto. }
    assert (P : forall s, In s strings -> s <> [] /\ Forall byte s).
    { intros s Hs. unfold strings in Hs. apply filter_In in Hs. destruct Hs as [Hs N]. apply in_map_iff in Hs. destruct Hs as (x & <- & _).
      split; [intros X; rewrite X in N; discriminate N|]. apply encode_bytes, G. }
    clearbody strings. destruct strings as [|s0 strs].
    - exists make_false. splits; [reflexivity| |reflexivity]. exists (accepts make_false). split; [apply cp_plain; [apply built_false|apply no_marks_false]|]. intros w X. apply make_false_lang in X. destruct X.
    - destruct (captures_ok a L C) as (W & _). destruct (append_strings_ok a W (s0 :: strs) U P) as (g & E & _ & Ug & _). exists g. splits; auto.
      exists (L_cat L (L_oneof (s0 :: strs))). split; [eapply cp_strings; eauto|]. apply sub_cat; auto.
  Qed.
  Lemma convert_negated : forall ss f, convert e (VRange ss true) = Ok f -> exists a x b, append_range e fsm_new ss = Ok a /\ complement (e_dot e fsm_new) = Ok x /\ complement (fsm_or a x) = Ok b /\ remove_dead_ends b = Ok f.
  Proof.
    intros ss f E. unfold convert in E. apply bind_ok in E as (a & Ea & E). apply bind_ok in E as (x & Ex & E). apply bind_ok in E as (b & Eb & E). exists a, x, b. auto.
  Qed.
  Lemma trim_bytes : forall b f M, built b -> remove_dead_ends b = Ok f -> lang_eq (accepts f) M -> (forall w, M w -> Forall byte w) -> no_marks f.
  Proof.
    intros b f M Bb E L HM. destruct (f_remove_dead_ends b Bb) as (g & Eg & _ & Trim). rewrite E in Eg. apply ok_inj' in Eg. subst g.
    assert (T : forall p c q, edge f p c q -> c <> Epsilon -> byte c).
    { intros p c q X Nc. destruct (Trim p c q X) as [(u & Pu) (v & r & Pv & Fr)].
      assert (A : accepts f (u ++ c :: v)). { exists r. split; auto. eapply path_app; [exact Pu|]. eapply path_step; eauto. }
      apply L in A. apply HM in A. apply Forall_app in A as [_ A]. inversion A; auto. }
    intros p q. split; intros X; apply T in X; try discriminate; discriminate X.
  Qed.
  Lemma negated_m : forall ss f, convert e (VRange ss true) = Ok f -> within f (mlang (RLetters ss true) 0 []).
  Proof.
    intros ss f E. destruct (convert_negated ss f E) as (a & x & b & Ea & Ex & Eb & Er).
    destruct (convert_ok e D G (RLetters ss true) (VRange ss true) eq_refl) as [(f' & E' & B & L & _)|[E' _]]; rewrite E in E'; [apply ok_inj' in E'; subst f'|discriminate E'].
    exists (accepts f). split; [|intros w X; apply L in X; exact X]. apply cp_plain; auto.
    destruct (append_range_ok e D G fsm_new ss built_new eq_refl eq_refl) as (a' & Ea' & Ba & _). rewrite Ea in Ea'. apply ok_inj' in Ea'. subst a'.
    assert (Bd : built (e_dot e fsm_new)) by (apply (ge_built e D G); [apply built_new|reflexivity]).
    assert (Bx : built x) by (eapply built_complement; eauto). assert (Bb : built b) by (eapply built_complement; [apply (built_or a x Ba Bx)|exact Eb]).
    eapply trim_bytes; [exact Bb|exact Er|exact L|]. intros w X. cbn [re_den] in X. apply HB. apply X.
  Qed.
  Lemma convert_m : forall r p gs v, capturable e r -> val_m r p gs v ->
    (exists f, convert e v = Ok f /\ within f (mlang r p gs) /\ (match r with RCount _ _ _ | RLetters _ _ => False | _ => True end -> uncompressed f)) \/ (convert e v = Throw ETooComplicated /\ negates r).
  Proof.
    intros r p gs v Cr H. destruct v as [f|ss n| | |]; cbn [val_m] in *; try contradiction.
    - left. exists f. split; [reflexivity|]. tauto.
    - subst r. destruct n.
      + destruct (convert_ok e D G (RLetters ss true) (VRange ss true) eq_refl) as [(f & E & _)|X]; [left|right; exact X]. exists f. split; auto. split; [|intros []]. apply negated_m in E. exact E.
      + left. cbn [convert]. destruct (range_m fsm_new ss L_eps within_new eq_refl) as (g & -> & Hg & Ug). cbn [bind]. exists g. splits; auto.
        eapply within_sub; [exact Hg|]. intros w (u & x & -> & Eu & X). unfold L_eps in Eu. subst u. exact X.
    - left. subst r. cbn [capturable] in Cr. exists (append_dot fsm_new). split; [cbn [convert]; rewrite Cr; reflexivity|]. split; [|intros _; apply append_dot_ok; [apply fsm_new_wf|reflexivity]].
      destruct within_new as (L & C & S). exists (L_cat L L_anybyte). split; [apply cp_dot; [exact C|reflexivity]|]. cbn [mden]. rewrite (HD Cr). intros w (u & x & -> & Eu & X). apply S in Eu. unfold L_eps in Eu. subst u. exact X.
  Qed.

  Lemma eval_m_ok : forall r so p s, fits so r -> capturable e r -> seeks s p ->
    (exists v s', eval_m e r s = Ok (v, s') /\ val_m r p (cm_flags s) v /\ seeks s' (p - groups r) /\ moved s s' /\ cm_flags s' = skipn (ncounts r) (cm_flags s)) \/
    (eval_m e r s = Throw ETooComplicated /\ negates r).
  Proof.
    induction r; intros so p s F Cr Sk; cbn [capturable] in Cr; try contradiction.
    - left. exists (VRange ss negated), s. cbn [groups ncounts skipn]. rewrite Nat.sub_0_r. splits; auto using moved_refl. reflexivity.
    - left. exists VDot, s. cbn [groups ncounts skipn]. rewrite Nat.sub_0_r. splits; auto using moved_refl. reflexivity.
    - cbn [fits] in F. destruct F as [_ F]. cbn [eval_m groups ncounts negates]. destruct Sk as (Rp & Sk).
      assert (OPEN : exists p', seeks (cm_open s) p' /\ cm_flags (cm_open s) = cm_flags s /\
        ((p = 1 /\ p' = 0 /\ cm_state s = 0 /\ cm_state (cm_open s) = 1 /\ cm_level (cm_open s) = 0) \/
         (p <> 1 /\ p' = p - 1 /\ cm_state s = 1 /\ cm_state (cm_open s) = 1 /\ cm_level (cm_open s) = cm_level s + 1) \/
         (p <> 1 /\ p' = p - 1 /\ cm_state s <> 1 /\ cm_state (cm_open s) = cm_state s))).
      { unfold cm_open, seeks. destruct Sk as [[S0 P0]|[S0 P0]].
        - rewrite S0, P0. cbn [Nat.eqb andb]. destruct (Nat.ltb_spec 1 p) as [L1|L1]; [|destruct (Nat.eqb_spec p 1) as [E1|E1]].
          + exists (p - 1). cbn [cm_rep cm_state cm_pos cm_flags]. splits; auto. right; right. splits; auto; lia.
          + exists 0. cbn [cm_rep cm_state cm_pos cm_flags cm_level]. splits; auto. left. splits; auto.
          + exists 0. rewrite S0. splits; auto; [left; split; auto; lia|]. right; right. splits; auto; lia.
        - subst p. destruct S0 as [S0|S0]; rewrite S0; cbn [Nat.eqb andb].
          + exists 0. cbn [cm_rep cm_state cm_pos cm_flags cm_level]. splits; auto. right; left. splits; auto.
          + exists 0. rewrite S0. splits; auto. right; right. splits; auto. }
      destruct OPEN as (p' & Sk' & Fl & Cases). destruct (IHr _ _ _ F Cr Sk') as [(v & s' & -> & Hv & Sk2 & [M1 M2] & Fl2)|[-> X]]; cbn [bind]; [left|right; auto]. rewrite Fl in *.
      destruct v as [f|ss n| | |]; cbn [val_m] in Hv; try contradiction; try (subst r; cbn [fits] in F; destruct F as [X|X]; discriminate X).
      destruct Hv as [Hf Uf].
      assert (U : uncompressed f). { apply Uf. destruct r; auto; cbn [fits] in F; [destruct F as [X|X]; discriminate X|destruct F as [X _]; discriminate X]. }
      destruct Sk2 as (Rp2 & Sk2). unfold cm_paren. rewrite Rp2. destruct Cases as [(-> & -> & S0 & S1 & L1)|[(N1 & -> & S0 & S1 & L1)|(N1 & -> & S0 & S1)]].
      + assert (S2 : cm_state s' = 1) by tauto. rewrite S2, (M2 S1), L1. cbn [Nat.eqb andb]. eexists; eexists. split; [reflexivity|]. split; [|split; [|split; [|exact Fl2]]].
        * split; [|intros _; destruct Hf as (L & C & S); destruct (captures_ok f L C) as (W & _); destruct (capture_structure f W) as (_ & _ & _ & _ & Lg & _); unfold uncompressed; rewrite Lg; exact U].
          destruct Hf as (L & C & S). eexists. split; [apply cp_group; exact C|]. intros m (x & -> & X). cbn [mden]. exists x. split; auto. 
        * unfold seeks. cbn [cm_rep cm_state cm_pos]. split; auto.
        * unfold moved. cbn [cm_state]. split; [|intros X; rewrite S0 in X; discriminate X]. rewrite S0. split; discriminate.
      + assert (S2 : cm_state s' = 1) by tauto. rewrite S2, (M2 S1), L1. cbn [Nat.eqb andb]. replace (cm_level s + 1 =? 0) with false by (symmetry; apply Nat.eqb_neq; lia). replace (0 <? cm_level s + 1) with true by (symmetry; apply Nat.ltb_lt; lia).
        eexists; eexists. split; [reflexivity|]. split; [|split; [|split; [|exact Fl2]]].
        * split; [|intros _; exact U]. cbn [mden]. replace (p =? 1) with false by (symmetry; apply Nat.eqb_neq; auto). exact Hf.
        * unfold seeks. cbn [cm_rep cm_state cm_pos]. split; auto. right. destruct Sk2 as [[X _]|[_ X]]; [rewrite S2 in X; discriminate X|]. split; auto. lia.
        * unfold moved. cbn [cm_state cm_level]. rewrite S0. split; [tauto|]. intros _. lia.
      + assert (S2 : cm_state s' <> 1) by (rewrite S1 in M1; tauto). apply Nat.eqb_neq in S2. rewrite S2. cbn [andb]. apply Nat.eqb_neq in S2. eexists; eexists. split; [reflexivity|]. split; [|split; [|split; [|exact Fl2]]].
        * split; [|intros _; exact U]. cbn [mden]. replace (p =? 1) with false by (symmetry; apply Nat.eqb_neq; auto). exact Hf.
        * split; auto. replace (p - (1 + groups r)) with (p - 1 - groups r) by lia. exact Sk2.
        * split; [tauto|]. intros X. contradiction.
    - cbn [fits] in F. destruct F as [_ F]. destruct Cr as [Cr Ok_]. cbn [eval_m groups ncounts negates].
      destruct (IHr _ _ _ F Cr Sk) as [(v & s' & -> & Hv & (Rp2 & Sk2) & M & Fl2)|[-> X]]; cbn [bind]; [|right; auto]. destruct (convert_m _ _ _ _ Cr Hv) as [(f & -> & Hf & _)|[-> X]]; cbn [bind]; [left|right; auto].
      unfold cm_paren, cm_count. cbn [cm_rep cm_state cm_pos cm_level cm_flags]. eexists; eexists. split; [reflexivity|]. split; [|split; [|split]].
      + split; [|intros []]. destruct (within_repeat _ _ _ _ Hf Ok_) as (L & C & S). eexists. split; [apply cp_repetition; exact C|]. intros m (x & -> & X). cbn [mden]. exists x. split; auto. rewrite Fl2.
        replace (hd true (skipn (ncounts r) (cm_flags s))) with (nth (ncounts r) (cm_flags s) true); [reflexivity|]. clear. generalize (cm_flags s). induction (ncounts r) as [|n IH]; intros [|b l]; cbn; auto.
      + split; auto.
      + exact M.
      + cbn [cm_flags]. rewrite Fl2. clear. generalize (cm_flags s). induction (ncounts r) as [|n IH]; intros [|b l]; cbn; auto.
    - left. exists (VFsm fsm_new), s. cbn [groups ncounts skipn]. rewrite Nat.sub_0_r. splits; auto using moved_refl. split; [apply within_new|reflexivity].
    - cbn [fits] in F. destruct F as (_ & F1 & F2). destruct Cr as [C1 C2]. cbn [eval_m groups ncounts negates].
      destruct (IHr1 _ _ _ F1 C1 Sk) as [(va & s1 & -> & Hva & Sk1 & M1 & Fl1)|[-> X]]; cbn [bind]; [|right; auto]. destruct (convert_m _ _ _ _ C1 Hva) as [(a & -> & Ha & Ua)|[-> X]]; cbn [bind]; [|right; auto].
      destruct (IHr2 _ _ _ F2 C2 Sk1) as [(v & s2 & -> & Hv & Sk2 & M2 & Fl2)|[-> X]]; cbn [bind]; [|right; auto]. rewrite Fl1 in *.
      assert (U : uncompressed a). { apply Ua. destruct r1; auto; cbn [fits] in F1; [destruct F1 as [X|X]; discriminate X|destruct F1 as [X _]; discriminate X]. }
      assert (R : seeks s2 (p - (groups r1 + groups r2)) /\ moved s s2 /\ cm_flags s2 = skipn (ncounts r1 + ncounts r2) (cm_flags s)).
      { splits; [|eapply moved_trans; eauto|]; [replace (p - (groups r1 + groups r2)) with (p - groups r1 - groups r2) by lia; exact Sk2|]. rewrite Fl2. apply skip_skip. }
      assert (CAT : forall b, within b (mlang r2 (p - groups r1) (skipn (ncounts r1) (cm_flags s))) -> val_m (RCat r1 r2) p (cm_flags s) (VFsm (fsm_cat a b))).
      { intros b Hb. split; [cbn [mden]; apply within_cat; auto|]. intros _. destruct Ha as (L & C & _), Hb as (L' & C' & _). apply fsm_cat_wf; [apply (captures_ok a L C)|apply (captures_ok b L' C')]. }
      destruct v as [b|ss n| | |]; cbn [val_m] in Hv; try contradiction.
      + left. cbn [convert bind]. eexists; eexists. split; [reflexivity|]. split; [apply CAT; tauto|exact R].
      + subst r2. destruct n.
        * destruct (convert_m (RLetters ss true) (p - groups r1) (skipn (ncounts r1) (cm_flags s)) (VRange ss true) C2 eq_refl) as [(b & -> & Hb & _)|[-> X]]; cbn [bind]; [left|right; auto].
          eexists; eexists. split; [reflexivity|]. split; [apply CAT; exact Hb|exact R].
        * left. destruct (range_m a ss _ Ha U) as (g & -> & Hg & Ug). cbn [bind]. eexists; eexists. split; [reflexivity|]. split; [|exact R]. split; auto.
      + left. subst r2. cbn [capturable] in C2. rewrite C2. eexists; eexists. split; [reflexivity|]. split; [|exact R]. destruct Ha as (L & C & S). split; [|intros _; apply append_dot_ok; [apply (captures_ok a L C)|exact U]].
        exists (L_cat L L_anybyte). split; [apply cp_dot; auto|]. cbn [mden]. apply sub_cat; [exact S|]. rewrite (HD C2). intros w X; exact X.
    - cbn [fits] in F. destruct F as (_ & F1 & F2). destruct Cr as [C1 C2]. cbn [eval_m groups ncounts negates].
      destruct (IHr1 _ _ _ F1 C1 Sk) as [(va & s1 & -> & Hva & Sk1 & M1 & Fl1)|[-> X]]; cbn [bind]; [|right; auto]. destruct (convert_m _ _ _ _ C1 Hva) as [(a & -> & Ha & Ua)|[-> X]]; cbn [bind]; [|right; auto].
      destruct (IHr2 _ _ _ F2 C2 Sk1) as [(v & s2 & -> & Hv & Sk2 & M2 & Fl2)|[-> X]]; cbn [bind]; [|right; auto]. rewrite Fl1 in *. destruct (convert_m _ _ _ _ C2 Hv) as [(b & -> & Hb & Ub)|[-> X]]; cbn [bind]; [left|right; auto].
      eexists; eexists. split; [reflexivity|]. split.
      + split; [cbn [mden]; apply within_or; auto|]. intros _. destruct Ha as (L & C & _), Hb as (L' & C' & _). apply fsm_or_ok; [apply (captures_ok a L C)|apply (captures_ok b L' C')].
      + splits; [|eapply moved_trans; eauto|]; [replace (p - (groups r1 + groups r2)) with (p - groups r1 - groups r2) by lia; exact Sk2|]. rewrite Fl2. apply skip_skip.
  Qed.
  Lemma compile_m_ok : forall r pos gs, fits Alternative r -> capturable e r ->
    (exists f, compile_m e pos gs r = Ok f /\ within f (mlang r pos gs) /\ uncompressed f) \/ (compile_m e pos gs r = Throw ETooComplicated /\ negates r).
  Proof.
    intros r pos gs F Cr. unfold compile_m. destruct (eval_m_ok r Alternative pos (cm_new pos gs) F Cr) as [(v & s & E & Hv & _)|[-> X]]; [split; [reflexivity|left; split; reflexivity]| |right; auto].
    rewrite E. cbn [bind]. destruct (convert_m _ _ _ _ Cr Hv) as [(f & Ef & Hf & Uf)|X]; [left|right; auto]. exists f. splits; auto. apply Uf.
    destruct r; auto; cbn [fits] in F; [destruct F as [X|X]; discriminate X|destruct F as [X _]; discriminate X].
  Qed.
End ENC.
