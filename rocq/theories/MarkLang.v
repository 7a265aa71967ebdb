(** What an automaton with marks accepts: the marks do not matter. *)
From Coq Require Import List Bool Arith NArith ZArith Lia.
From Verif Require Import Util Spec PartitionModel FsmModel DetermineModel MinimizeModel Nfa NfaOps FsmSem FsmBasics FsmOps FsmOps2 FsmStrings
  EncModel EncSpec EncDot Api ApiProofs BuildFacts EncProofs Expr ExprProofs RegexModel RegexSpec RegexParse RegexProofs CapModel CapSpec CapApi CapMarks CapMarks2 CapUser MarkModel MarkSpec MarkProofs.
Import ListNotations.
Local Opaque all_letters all_bytes.

(** ** Repetitions of automata that need not have been built without marks *)
Lemma w_cat : forall a b, wf a -> wf b -> wf (fsm_cat a b).
Proof. intros a b A B. apply fsm_cat_wf; auto. Qed.
Lemma w_or : forall a b, wf a -> wf b -> wf (fsm_or a b).
Proof. intros a b A B. apply fsm_or_ok; auto. Qed.
Lemma w_iterate : forall a, wf a -> wf (iterate a).
Proof. intros a A. apply iterate_ok; auto. Qed.
Lemma w_times : forall a n, wf a -> wf (fsm_times a n).
Proof.
  intros f n W. unfold fsm_times. assert (X : forall n r, wf r -> wf (fsm_times_loop f n r)).
  { induction n0 as [|m IH]; intros r H; cbn [fsm_times_loop]; auto. apply IH. apply fsm_cat_wf; auto. }
  apply X, fsm_new_wf.
Qed.
Lemma wl_cat : forall a b, wf a -> wf b -> ~ In (initial b) (finals b) -> lang_eq (accepts (fsm_cat a b)) (L_cat (accepts a) (accepts b)).
Proof. intros a b A B. apply fsm_cat_lang; auto. Qed.
Lemma wl_or : forall a b, wf a -> wf b -> lang_eq (accepts (fsm_or a b)) (L_or (accepts a) (accepts b)).
Proof. intros a b A B. apply fsm_or_ok; auto. Qed.
Lemma wl_iterate : forall f, wf f -> lang_eq (accepts (iterate f)) (L_star (accepts f)).
Proof. intros f B. apply iterate_ok; auto. Qed.
Lemma wl_times : forall f n, wf f -> ~ In (initial f) (finals f) -> lang_eq (accepts (fsm_times f n)) (L_pow (accepts f) n).
Proof. intros f n B H. apply fsm_times_ok; auto. Qed.
Lemma cat_withw : forall a b, wf a -> wf b -> ~ start_final b ->
  wf (fsm_cat a b) /\ lang_eq (accepts (fsm_cat a b)) (L_cat (accepts a) (accepts b)) /\ determined (fsm_cat a b) = false /\ uncompressed (fsm_cat a b) /\ ~ start_final (fsm_cat a b).
Proof.
  intros a b A B N. splits; [apply w_cat; auto|apply wl_cat; auto|apply d_cat|apply fsm_cat_wf; auto|apply cat_start; auto].
Qed.
Lemma times_withw : forall f n, wf f -> ~ start_final f ->
  wf (fsm_times f n) /\ lang_eq (accepts (fsm_times f n)) (L_pow (accepts f) n) /\ determined (fsm_times f n) = false /\ (n <> 0 -> ~ start_final (fsm_times f n)).
Proof.
  intros f n B N. splits; [apply w_times; auto|apply wl_times; auto|apply d_times; reflexivity|]. intros H. apply times_loop_start; auto. apply fsm_new_wf.
Qed.

Lemma repeat_w : forall f lo hi, wf f -> count_ok lo hi -> (start_final f -> lo = 0%Z \/ lo = 1%Z /\ hi = Inf) ->
  let g := repeat_action f lo hi in
  wf g /\ lang_eq (accepts g) (L_repeat (accepts f) lo hi) /\ determined g = false /\ (start_final g -> lo = 0%Z /\ hi = 0%Z).
Proof.
  intros f lo hi B [C1 C2] N. cbn zeta. unfold repeat_action, Inf in *.
  destruct (Z.eqb_spec lo 0) as [E0|E0]; cbn [andb].
  - subst lo. destruct (Z.eqb_spec hi 1) as [E1|E1].
    { subst hi. splits.
      - apply w_or; [exact B|apply fsm_new_wf].
      - eapply lang_eq_trans; [apply wl_or; [exact B|apply fsm_new_wf]|]. intros w. unfold L_or, L_repeat, Inf. rewrite (fsm_new_lang w). split.
        + intros [H|H]; [exists 1|exists 0]; splits; try lia; auto. apply pow_one; auto.
        + intros (n & _ & Hn & H). destruct n as [|[|n]]; [right; exact H|left; apply pow_one, H|exfalso; lia].
      - apply d_or.
      - intros X. exfalso. revert X. apply or_start; [exact B|apply fsm_new_wf]. }
    cbn [andb]. destruct (Z.eqb_spec hi (-1)) as [E2|E2].
    { subst hi. splits.
      - apply w_iterate; auto.
      - eapply lang_eq_trans; [apply wl_iterate; auto|]. intros w. rewrite star_pow. unfold L_repeat, Inf. split; [intros (n & H); exists n; splits; auto; lia|intros (n & _ & _ & H); eauto].
      - apply d_iter.
      - intros X. exfalso. revert X. apply iterate_start. }
    change (to_size 0) with 0. replace (Z.eqb 0 1) with false by reflexivity. cbn [andb]. change (fsm_times f 0) with fsm_new. destruct (Z.eqb_spec hi 0) as [E3|E3].
    { subst hi. cbn [negb]. splits; [apply fsm_new_wf| |reflexivity|intros _; auto]. intros w. rewrite (fsm_new_lang w). unfold L_repeat, Inf. split.
      - intros H. exists 0. splits; auto; lia.
      - intros (n & _ & Hn & H). replace n with 0 in H by lia. exact H. }
    cbn [negb]. rewrite Z.sub_0_r. set (o := fsm_or f fsm_new).
    assert (Bo : wf o) by (apply w_or; [exact B|apply fsm_new_wf]).
    assert (No : ~ start_final o) by (apply or_start; [exact B|apply fsm_new_wf]).
    assert (Lo : lang_eq (accepts o) (L_or (accepts f) L_eps)).
    { eapply lang_eq_trans; [apply wl_or; [exact B|apply fsm_new_wf]|]. intros w. unfold L_or. rewrite (fsm_new_lang w). tauto. }
    destruct (times_withw o (to_size hi) Bo No) as (Bt & Lt & _ & Nt).
    assert (Hh : Z.of_nat (to_size hi) = hi) by (apply to_size_small; lia).
    destruct (cat_withw fsm_new (fsm_times o (to_size hi)) fsm_new_wf Bt) as (Bc & Lc & Dc & _ & Nc); [apply Nt; lia|].
    splits; auto; [|intros X; exfalso; auto]. eapply lang_eq_trans; [exact Lc|]. intros w. rewrite (new_cat _ w), (Lt w), (pow_opt _ _ _ w Lo). unfold L_repeat, Inf. split.
    + intros (n & Hn & H). exists n. splits; auto; lia.
    + intros (n & _ & Hn & H). exists n. split; auto. lia.
  - assert (Hl : Z.of_nat (to_size lo) = lo) by (apply to_size_small; lia).
    assert (CAT : forall m M g, wf g -> ~ start_final g -> lang_eq (accepts g) M -> forall h, wf h -> lang_eq (accepts h) (L_pow (accepts f) m) ->
      wf (fsm_cat h g) /\ lang_eq (accepts (fsm_cat h g)) (L_cat (L_pow (accepts f) m) M) /\ determined (fsm_cat h g) = false /\ ~ start_final (fsm_cat h g)).
    { intros m M g Bg Ng Lg h Bh Lh. destruct (cat_withw h g Bh Bg Ng) as (A1 & A2 & A3 & _ & A4). splits; auto. eapply lang_eq_trans; [exact A2|]. apply L_cat_ext2; auto. }
    assert (STAR : forall m, Z.of_nat m = lo -> lang_eq (L_cat (L_pow (accepts f) m) (L_star (accepts f))) (L_repeat (accepts f) lo Inf)).
    { intros m Hm w. unfold L_repeat. split.
      - intros (u & v & -> & H1 & H2). apply star_pow in H2. destruct H2 as (n & H2). exists (m + n). splits; auto; [lia|]. apply pow_add. exists u, v. auto.
      - intros (n & H1 & _ & H2). replace n with (m + (n - m)) in H2 by lia. apply pow_add in H2. destruct H2 as (u & v & -> & H2 & H3). exists u, v. splits; auto. apply star_pow. eauto. }
    assert (GEN : ~ start_final f -> hi <> (-1)%Z -> let g := if negb (Z.eqb hi lo) then fsm_cat (fsm_times f (to_size lo)) (fsm_times (fsm_or f fsm_new) (to_size (hi - lo))) else fsm_times f (to_size lo) in
      wf g /\ lang_eq (accepts g) (L_repeat (accepts f) lo hi) /\ determined g = false /\ (start_final g -> lo = 0%Z /\ hi = 0%Z)).
    { intros Ns E2. destruct (times_withw f (to_size lo) B Ns) as (Bt & Lt & Dt & Nt).
      destruct (Z.eqb_spec hi lo) as [E3|E3]; cbn [negb].
      * splits; auto; [|intros X; exfalso; apply Nt; auto; lia]. eapply lang_eq_trans; [exact Lt|]. intros w. unfold L_repeat, Inf. split.
        -- intros H. exists (to_size lo). splits; auto; lia.
        -- intros (n & H1 & H2 & H). replace n with (to_size lo) in H by lia. exact H.
      * set (o := fsm_or f fsm_new).
        assert (Bo : wf o) by (apply w_or; [exact B|apply fsm_new_wf]).
        assert (No : ~ start_final o) by (apply or_start; [exact B|apply fsm_new_wf]).
        assert (Lo : lang_eq (accepts o) (L_or (accepts f) L_eps)).
        { eapply lang_eq_trans; [apply wl_or; [exact B|apply fsm_new_wf]|]. intros w. unfold L_or. rewrite (fsm_new_lang w). tauto. }
        assert (Hh : Z.of_nat (to_size (hi - lo)) = (hi - lo)%Z) by (apply to_size_small; lia).
        destruct (times_withw o (to_size (hi - lo)) Bo No) as (Bk & Lk & _ & Nk).
        destruct (CAT (to_size lo) _ _ Bk (Nk ltac:(lia)) Lk _ Bt Lt) as (A1 & A2 & A3 & A4). splits; auto; [|intros X; exfalso; auto].
        eapply lang_eq_trans; [exact A2|]. intros w. unfold L_repeat, Inf. split.
        -- intros (u & v & -> & H1 & H2). apply (pow_opt _ _ _ v Lo) in H2. destruct H2 as (n & Hn & H2). exists (to_size lo + n). splits; [lia|lia|]. apply pow_add. exists u, v. auto.
        -- intros (n & H1 & H2 & H). replace n with (to_size lo + (n - to_size lo)) in H by lia. apply pow_add in H. destruct H as (u & v & -> & H & H'). exists u, v. splits; auto.
           apply (pow_opt _ _ _ v Lo). exists (n - to_size lo). split; auto. lia. }
    destruct (Z.eqb_spec lo 1) as [E1|E1]; cbn [andb].
    + destruct (Z.eqb_spec hi (-1)) as [E2|E2]; [|apply GEN; [intros X; apply N in X; destruct X as [X|[_ X]]; lia|exact E2]].
      { subst lo hi. destruct (CAT 1 (L_star (accepts f)) (iterate f) (w_iterate _ B) (iterate_start f) (wl_iterate f B) f B) as (A1 & A2 & A3 & A4).
        - intros w. rewrite pow_one. tauto.
        - splits; auto; [|intros X; exfalso; auto]. eapply lang_eq_trans; [exact A2|]. apply STAR. reflexivity. }
    + assert (Ns : ~ start_final f) by (intros X; apply N in X; destruct X as [X|[X _]]; lia).
      destruct (times_withw f (to_size lo) B Ns) as (Bt & Lt & Dt & Nt).
      destruct (Z.eqb_spec hi (-1)) as [E2|E2].
      { subst hi. destruct (CAT (to_size lo) (L_star (accepts f)) (iterate f) (w_iterate _ B) (iterate_start f) (wl_iterate f B) _ Bt Lt) as (A1 & A2 & A3 & A4).
        splits; auto; [|intros X; exfalso; auto]. eapply lang_eq_trans; [exact A2|]. apply STAR. exact Hl. }
      apply GEN; auto.
Qed.


(** ** The marks *)
Lemma paren_lang : forall s f g s', wf f -> cm_paren s f = (g, s') -> wf g /\ lang_eq (accepts g) (accepts f) /\ (start_final g -> start_final f).
Proof.
  intros s f g s' W E. pose proof (wf_init _ W) as WI. unfold cm_paren in E. destruct (cm_rep s) as [gr|].
  - injection E as <- _. destruct (repetition_structure f gr W) as (Wg & _ & Ig & Fg & _). splits; auto; [intros w; apply repetition_accepts; auto|].
    unfold start_final. rewrite Ig, Fg. intros [X|[]]. lia.
  - destruct (_ && _)%bool; [|destruct (_ && _)%bool].
    + injection E as <- _. destruct (capture_structure f W) as (Wg & _ & Ig & Fg & _). splits; auto; [intros w; apply capture_accepts; auto|].
      unfold start_final. rewrite Ig, Fg. intros [X|[]]. lia.
    + injection E as <- _. splits; auto. intros w; tauto.
    + injection E as <- _. splits; auto. intros w; tauto.
Qed.

Section ENC.
  Variable e : encoding.
  Variable D : lang.
  Hypothesis G : good_encoding e D.
  Hypothesis HD : e_dot e = append_dot -> D = L_anybyte.
  Hypothesis HB : forall w, D w -> Forall byte w.
  Notation den := (re_den (e_to e) D).

  Definition lang_f (r : re) (f : fsm) : Prop := wf f /\ lang_eq (accepts f) (den r) /\ (start_final f -> void r).
  Definition val_l (r : re) (v : value) : Prop :=
    match v with VFsm f => lang_f r f | VRange ss n => r = RLetters ss n | VDot => r = RDot | _ => False end.
  Lemma range_l : forall a ss g, wf a -> uncompressed a -> append_range e a ss = Ok g -> wf g /\ lang_eq (accepts g) (L_cat (accepts a) (L_range (e_to e) ss)).
  Proof.
    intros a ss g W U. unfold append_range. set (strings := filter _ (map (encode e) ss)).
    assert (S : forall w, In w strings <-> L_range (e_to e) ss w).
    { intros w. unfold strings. rewrite filter_In, in_map_iff. unfold L_range. split.
      - intros [(s & E & Hs) N]. exists s. assert (X : s <> [] /\ encodes (e_to e) s w) by (apply encode_iff; split; auto; destruct w; congruence). tauto.
      - intros (s & Hs & N & X). destruct (proj2 (encode_iff e s w)) as [E W']; auto. split; [exists s; auto|]. destruct w; congruence. }
    assert (P : forall s, In s strings -> s <> [] /\ Forall byte s).
    { intros s Hs. unfold strings in Hs. apply filter_In in Hs. destruct Hs as [Hs N]. apply in_map_iff in Hs. destruct Hs as (x & <- & _).
      split; [intros X; rewrite X in N; discriminate N|]. apply encode_bytes, G. }
    clearbody strings. destruct strings as [|s0 strs].
    - intros [= <-]. split; [apply built_wf, built_false|]. intros w. rewrite (make_false_lang w). split; [intros []|]. intros (u & v & _ & _ & X). apply S in X. destruct X.
    - intros E. destruct (append_strings_ok a W (s0 :: strs) U P) as (g' & E' & Wg & _ & Lg). rewrite E in E'. injection E' as <-. split; auto.
      eapply lang_eq_trans; [exact Lg|]. apply L_cat_ext2; [intros w; tauto|]. intros w. apply S.
  Qed.
  Lemma convert_l : forall r v f, capturable e r -> val_l r v -> convert e v = Ok f -> lang_f r f.
  Proof.
    intros r v f Cr H E. destruct v as [f'|ss n| | |]; cbn [val_l convert] in *; try contradiction.
    - injection E as <-. exact H.
    - subst r. destruct n.
      { destruct (convert_ok e D G (RLetters ss true) (VRange ss true) eq_refl) as [(f' & E' & B & L & _ & V & _)|[E' _]]; cbn [convert] in E'; rewrite E in E'; [injection E' as <-|discriminate E'].
        split; [apply built_wf; auto|]. split; auto. }
      destruct (append_range e fsm_new ss) as [g| | |] eqn:Eg; cbn [bind] in E; try discriminate E. injection E as <-.
      destruct (range_l fsm_new ss g fsm_new_wf eq_refl Eg) as [Wg Lg]. assert (L : lang_eq (accepts g) (den (RLetters ss false))) by (eapply lang_eq_trans; [exact Lg|apply new_cat]).
      split; auto. split; auto. intros X. apply start_final_empty in X. apply L in X. cbn [re_den] in X. destruct (range_some _ _ X).
    - subst r. injection E as <-. destruct (ge_dot e D G fsm_new fsm_new_wf eq_refl) as (Wd & Ud & Ld).
      assert (L : lang_eq (accepts (e_dot e fsm_new)) D) by (eapply lang_eq_trans; [exact Ld|apply new_cat]). split; auto. split; auto. intros X. apply start_final_empty in X. apply L in X. destruct (ge_some _ _ G X).
  Qed.

  Lemma eval_m_lang : forall r so p s v s', fits so r -> capturable e r -> regular r -> seeks s p -> eval_m e r s = Ok (v, s') -> val_l r v.
  Proof.
    induction r; intros so p s v s' F Cr R Sk E; cbn [capturable] in Cr; try contradiction.
    - injection E as <- _. reflexivity.
    - injection E as <- _. reflexivity.
    - cbn [fits] in F. destruct F as [_ F]. cbn [regular] in R. cbn [eval_m] in E.
      destruct (open_seeks s p Sk) as (p' & Sk'). destruct (eval_m e r (cm_open s)) as [[v1 s1]| | |] eqn:E1; cbn [bind] in E; try discriminate E.
      pose proof (IHr _ _ _ _ _ F Cr R Sk' E1) as H1. destruct v1 as [f| | | |]; try discriminate E. destruct (cm_paren s1 f) as [g s2] eqn:E2. injection E as <- _.
      destruct H1 as (W & L & V). destruct (paren_lang s1 f g s2 W E2) as (Wg & Lg & Vg). split; auto. split; [eapply lang_eq_trans; eauto|]. cbn [void]. auto.
    - cbn [fits] in F. destruct F as [_ F]. destruct Cr as [Cr _]. cbn [regular] in R. destruct R as (R & C & N). cbn [eval_m] in E.
      destruct (eval_m e r s) as [[v1 s1]| | |] eqn:E1; cbn [bind] in E; try discriminate E. pose proof (IHr _ _ _ _ _ F Cr R Sk E1) as H1.
      destruct (convert e v1) as [f| | |] eqn:Ec; cbn [bind] in E; try discriminate E. destruct (convert_l _ _ _ Cr H1 Ec) as (W & L & V).
      destruct (repeat_w f lo hi W C) as (A1 & A2 & _ & A4); [auto|]. destruct (cm_paren (cm_count s1) (repeat_action f lo hi)) as [g s2] eqn:E2. injection E as <- _.
      destruct (paren_lang _ _ g s2 A1 E2) as (Wg & Lg & Vg). split; auto. split; [|cbn [void]; auto].
      eapply lang_eq_trans; [exact Lg|]. eapply lang_eq_trans; [exact A2|]. intros w. cbn [re_den]. unfold L_repeat. split; intros (n & H2 & H3 & H4); exists n; splits; auto; apply (pow_ext _ _ n L w); auto.
    - injection E as <- _. split; [apply fsm_new_wf|]. split; [apply fsm_new_lang|]. intros _. exact I.
    - cbn [fits regular] in F, R. destruct F as (_ & F1 & F2). destruct R as (R1 & R2 & N). destruct Cr as [C1 C2]. cbn [eval_m] in E.
      destruct (eval_m_ok e D G HD HB r1 _ _ _ F1 C1 Sk) as [(va & s1 & E1 & Hva & Sk1 & _)|[E1 _]]; rewrite E1 in E; [|discriminate E]. cbn [bind] in E. pose proof (IHr1 _ _ _ _ _ F1 C1 R1 Sk E1) as H1.
      destruct (convert_m e D G HD HB _ _ _ _ C1 Hva) as [(a & Ea & _ & Ua)|[Ea _]]; rewrite Ea in E; [|discriminate E]. cbn [bind] in E. destruct (convert_l _ _ _ C1 H1 Ea) as (Wa & La & Va).
      assert (U : uncompressed a). { apply Ua. destruct r1; auto; cbn [fits] in F1; [destruct F1 as [X|X]; discriminate X|destruct F1 as [X _]; discriminate X]. }
      destruct (eval_m e r2 s1) as [[v2 s2]| | |] eqn:E2; cbn [bind] in E; try discriminate E. pose proof (IHr2 _ _ _ _ _ F2 C2 R2 Sk1 E2) as H2.
      assert (CAT : forall b, lang_f r2 b -> val_l (RCat r1 r2) (VFsm (fsm_cat a b))).
      { intros b (Wb & Lb & Vb). destruct (cat_withw a b Wa Wb (fun X => N (Vb X))) as (A1 & A2 & _ & _ & A5).
        split; auto. split; [|intros X; destruct (A5 X)]. eapply lang_eq_trans; [exact A2|]. apply L_cat_ext2; auto. }
      destruct v2 as [b|ss n| | |]; cbn [val_l] in H2; try contradiction.
      + cbn [convert bind] in E. injection E as <- _. revert H2. apply CAT.
      + subst r2. destruct n.
        { destruct (convert e (VRange ss true)) as [b| | |] eqn:Eb; cbn [bind] in E; try discriminate E. injection E as <- _. apply CAT. apply (convert_l _ (VRange ss true) b C2); auto. reflexivity. }
        destruct (append_range e a ss) as [g| | |] eqn:Eg; cbn [bind] in E; try discriminate E. injection E as <- _.
        destruct (range_l a ss g Wa U Eg) as [Wg Lg]. assert (L : lang_eq (accepts g) (den (RCat r1 (RLetters ss false)))) by (eapply lang_eq_trans; [exact Lg|]; apply L_cat_ext2; [exact La|intros w; cbn [re_den]; tauto]).
        split; auto. split; auto. intros X. exfalso. apply start_final_empty in X. apply L in X. revert X. apply cat_nonempty. apply range_some.
      + subst r2. injection E as <- _. destruct (ge_dot e D G a Wa U) as (Wd & Ud & Ld).
        assert (L : lang_eq (accepts (e_dot e a)) (den (RCat r1 RDot))) by (eapply lang_eq_trans; [exact Ld|]; apply L_cat_ext2; [exact La|intros w; cbn [re_den]; tauto]).
        split; auto. split; auto. intros X. exfalso. apply start_final_empty in X. apply L in X. revert X. apply cat_nonempty. apply G.
    - cbn [fits regular] in F, R. destruct F as (_ & F1 & F2). destruct R as (R1 & R2). destruct Cr as [C1 C2]. cbn [eval_m] in E.
      destruct (eval_m_ok e D G HD HB r1 _ _ _ F1 C1 Sk) as [(va & s1 & E1 & Hva & Sk1 & _)|[E1 _]]; rewrite E1 in E; [|discriminate E]. cbn [bind] in E. pose proof (IHr1 _ _ _ _ _ F1 C1 R1 Sk E1) as H1.
      destruct (convert e va) as [a| | |] eqn:Ea; cbn [bind] in E; try discriminate E. destruct (convert_l _ _ _ C1 H1 Ea) as (Wa & La & Va).
      destruct (eval_m e r2 s1) as [[v2 s2]| | |] eqn:E2; cbn [bind] in E; try discriminate E. pose proof (IHr2 _ _ _ _ _ F2 C2 R2 Sk1 E2) as H2.
      destruct (convert e v2) as [b| | |] eqn:Eb; cbn [bind] in E; try discriminate E. destruct (convert_l _ _ _ C2 H2 Eb) as (Wb & Lb & Vb). injection E as <- _.
      split; [apply w_or; auto|]. split; [intros w; rewrite (wl_or _ _ Wa Wb w); cbn [re_den]; unfold L_or; rewrite (La w), (Lb w); tauto|]. intros X. exfalso. revert X. apply or_start; auto.
  Qed.
  Lemma compile_m_lang : forall r pos gs f, fits Alternative r -> capturable e r -> regular r -> compile_m e pos gs r = Ok f -> lang_eq (accepts f) (den r).
  Proof.
    intros r pos gs f F Cr R E. unfold compile_m in E. destruct (eval_m e r (cm_new pos gs)) as [[v s]| | |] eqn:E1; cbn [bind] in E; try discriminate E.
    assert (Sk : seeks (cm_new pos gs) pos) by (split; [reflexivity|left; split; reflexivity]).
    apply (convert_l r v f Cr (eval_m_lang r Alternative pos _ v s F Cr R Sk E1) E).
  Qed.
End ENC.
