(** The automaton MakeHalfFinal makes, and what AllowHalfFinals tests. *)
From Coq Require Import List Bool Arith NArith Lia Sorted.
From Verif Require Import Util Spec PartitionModel PartitionProofs FsmModel DetermineModel MinimizeModel Nfa NfaOps FsmSem FsmBasics FsmOps FsmOps2 EpsProofs DetProofs MinProofs CompProofs ScannerModel ScannerCompile HalfModel HalfSpec HalfCut HalfLang.
Import ListNotations.
Local Opaque all_letters all_bytes.

Lemma singleton : forall (l : list nat) q, ssorted l -> (forall x, In x l <-> x = q) -> l = [q].
Proof.
  intros [|a l] q S H; [exfalso; apply (H q); auto|]. assert (a = q) as -> by (apply H; left; auto). f_equal.
  destruct l as [|b l]; auto. exfalso. assert (b = q) as -> by (apply H; right; left; auto).
  inversion S as [|? ? _ X]; subst. rewrite Forall_forall in X. specialize (X q (or_introl eq_refl)). rewrite kltb_irr in X. discriminate X.
Qed.
Lemma path_letters : forall f p w q, wf f -> path (edge f) p w q -> is_word w.
Proof.
  intros f p w q W P. induction P; [constructor|auto|]. constructor; auto. split; auto. eapply edge_letter; eauto.
Qed.

Section Turn.
  Variables (n : nat) (E : nat -> N -> nat -> Prop) (Fin : nat -> Prop) (i : nat).
  (* E: total deterministic on states below n; E': the turned one *)
  Variable E' : nat -> N -> nat -> Prop.
  Hypothesis i_lt : i < n.
  Hypothesis E_noeps : forall p q, ~ E p Epsilon q.
  Hypothesis E_lt : forall p c q, E p c q -> p < n /\ q < n.
  Hypothesis E_letter : forall p c q, E p c q -> letter c.
  Hypothesis E_total : forall p c, p < n -> letter c -> exists q, E p c q.
  Hypothesis E_fun : forall p c q q', E p c q -> E p c q' -> q = q'.
  Definition hits (p : nat) : Prop := exists y, E p EndMark y /\ Fin y.
  Hypothesis hits_dec : forall p, hits p \/ ~ hits p.
  Hypothesis E'_spec : forall p c x, E' p c x <->
    ((E p c x \/ (p = n /\ x = n /\ letter c)) /\ ~ (c = EndMark /\ hits p)) \/ (c = EndMark /\ hits p /\ x = n).

  Definition lang0 : lang := fun w => exists q, path E i w q /\ Fin q.

  Lemma E'_noeps : forall p q, ~ E' p Epsilon q.
  Proof. intros p q H. apply E'_spec in H as [[[H|(_ & _ & _ & H)] _]|[H _]]; [eapply E_noeps; eauto|apply H; reflexivity|discriminate H]. Qed.
  Lemma hits_lt : forall p, hits p -> p < n.
  Proof. intros p (y & H & _). apply E_lt in H. tauto. Qed.
  Lemma E'_fun : forall p c q q', E' p c q -> E' p c q' -> q = q'.
  Proof.
    intros p c q q' H H'. apply E'_spec in H as [[[H|(-> & -> & _)] N1]|(-> & N1 & ->)]; apply E'_spec in H' as [[[H'|(A & -> & _)] N2]|(A & N2 & ->)]; auto.
    - eapply E_fun; eauto.
    - exfalso. subst p. apply E_lt in H. lia.
    - tauto.
    - exfalso. apply E_lt in H'. lia.
    - tauto.
  Qed.
  Lemma E'_total : forall p c, p <= n -> letter c -> exists q, q <= n /\ E' p c q.
  Proof.
    intros p c Hp Hc. destruct (N.eq_dec c EndMark) as [->|Hne].
    - destruct (hits_dec p) as [H|H].
      + exists n. split; auto. apply E'_spec. auto.
      + destruct (Nat.eq_dec p n) as [->|Hn].
        * exists n. split; auto. apply E'_spec. left. split; [right; auto|tauto].
        * destruct (E_total p EndMark) as [q Hq]; [lia|auto|]. exists q. split; [apply E_lt in Hq; lia|]. apply E'_spec. left. split; auto. tauto.
    - destruct (Nat.eq_dec p n) as [->|Hn].
      + exists n. split; auto. apply E'_spec. left. split; [right; auto|tauto].
      + destruct (E_total p c) as [q Hq]; [lia|auto|]. exists q. split; [apply E_lt in Hq; lia|]. apply E'_spec. left. split; auto. tauto.
  Qed.
  Lemma E'_run : forall w p, p <= n -> is_word w -> exists q, path E' p w q.
  Proof.
    induction w as [|c w IH]; intros p Hp Hw; [exists p; constructor|]. inversion Hw as [|? ? Hc Hw']; subst.
    destruct (E'_total p c Hp Hc) as (m & Hm & H). destruct (IH m Hm Hw') as [q Q]. exists q. eapply path_step; eauto. apply Hc.
  Qed.

  Lemma step_inv : forall (D : nat -> N -> nat -> Prop), (forall p q, ~ D p Epsilon q) -> forall p c q, path D p [c] q -> D p c q.
  Proof.
    intros D Dn p c q P. destruct (path_inv _ _ _ _ P) as [[A _]|[(m & A & _)|(c' & m & w & A & _ & H & Q)]]; [discriminate A|destruct (Dn _ _ A)|].
    injection A as <- <-. destruct (path_inv _ _ _ _ Q) as [[_ A]|[(x & A & _)|(x & y & z & A & _)]]; [subst; auto|destruct (Dn _ _ A)|discriminate A].
  Qed.

  Lemma until_snoc : forall (L : lang) w c, letter c ->
    L_until_end L (w ++ [c]) <-> L_until_end L w \/ (c = EndMark /\ L (w ++ [EndMark])).
  Proof.
    intros L w c Hc. split.
    - intros (u & v & A & Hv & H). destruct (rev_ind (fun v => v = [] \/ exists v' x, v = v' ++ [x])
        (or_introl eq_refl) (fun x l _ => or_intror (ex_intro _ l (ex_intro _ x eq_refl))) v) as [->|(v' & x & ->)].
      + apply app_inj_tail in A as [-> ->]. right. auto.
      + left. change (w ++ [c] = u ++ (EndMark :: v') ++ [x]) in A. rewrite app_assoc in A. apply app_inj_tail in A as [-> ->].
        exists u, v'. splits; auto. unfold is_word in *. apply Forall_app in Hv. tauto.
    - intros [(u & v & -> & Hv & H)|[-> H]].
      + exists u, (v ++ [c]). splits; auto; [rewrite <- app_assoc; reflexivity|]. unfold is_word. apply Forall_app. split; auto.
      + exists w, []. splits; auto. constructor.
  Qed.
  Lemma lang0_word : forall u, lang0 u -> is_word u.
  Proof. intros u (q & P & _). clear i_lt. induction P; [constructor|auto|]. constructor; auto. eapply E_letter; eauto. Qed.

  Lemma turn_inv : forall w x, path E' i w x -> is_word w ->
    (x = n /\ L_until_end lang0 w) \/ (x < n /\ path E i w x /\ ~ L_until_end lang0 w).
  Proof.
    induction w as [|c w IH] using rev_ind; intros x P Hw.
    - destruct (path_inv _ _ _ _ P) as [[_ ->]|[(m & H & _)|(c & m & w & A & _)]]; [|destruct (E'_noeps _ _ H)|discriminate A].
      right. splits; auto; [constructor|]. intros (u & v & A & _). destruct u; discriminate A.
    - apply path_split in P as (m & P & Q). apply (step_inv _ E'_noeps) in Q.
      unfold is_word in Hw. apply Forall_app in Hw as [Hw Hc]. inversion Hc as [|? ? Hc' _]; subst.
      specialize (IH m P Hw). rewrite (until_snoc lang0 w c Hc'). destruct IH as [[-> U]|(Hm & Pm & U)].
      + left. split; auto. apply E'_spec in Q as [[[Q|(_ & -> & _)] _]|(_ & _ & ->)]; auto. exfalso. apply E_lt in Q. lia.
      + apply E'_spec in Q as [[[Q|(-> & _)] N1]|(-> & (y & H1 & H2) & ->)]; [|lia|].
        * right. apply E_lt in Q as B. split; [tauto|]. split; [eapply path_app; [exact Pm|]; eapply path_step; [|exact Q|constructor]; apply Hc'|].
          intros [Z|[-> (z & Z1 & Z2)]]; auto. apply N1. split; auto. exists z. split; auto.
          apply path_split in Z1 as (m' & Z1 & Z3). apply (step_inv _ E_noeps) in Z3.
          assert (m' = m) as ->; auto.
          clear - Z1 Pm E_fun E_noeps. revert m m' Z1 Pm. generalize i. induction w as [|c w IHw]; intros p m m' P1 P2.
          { destruct (path_inv _ _ _ _ P1) as [[_ ->]|[(k & H & _)|(c & k & w & A & _)]]; [|destruct (E_noeps _ _ H)|discriminate A].
            destruct (path_inv _ _ _ _ P2) as [[_ ->]|[(k & H & _)|(c & k & w & A & _)]]; [|destruct (E_noeps _ _ H)|discriminate A]. auto. }
          { destruct (path_inv _ _ _ _ P1) as [[A _]|[(k & H & _)|(c1 & k & w1 & A & _ & H1 & Q1)]]; [discriminate A|destruct (E_noeps _ _ H)|].
            injection A as <- <-.
            destruct (path_inv _ _ _ _ P2) as [[A _]|[(k' & H & _)|(c2 & k' & w2 & A & _ & H2 & Q2)]]; [discriminate A|destruct (E_noeps _ _ H)|].
            injection A as <- <-. rewrite (E_fun _ _ _ _ H2 H1) in Q2. eauto. }
        * left. split; auto. right. split; auto. exists y. split; auto. eapply path_app; [exact Pm|]. eapply path_step; [discriminate|exact H1|constructor].
  Qed.
  Lemma turn_lang : forall w, path E' i w n <-> L_until_end lang0 w.
  Proof.
    assert (Word : forall w x, path E' i w x -> is_word w).
    { intros w x P. clear i_lt. induction P as [|p q w x H P IH|p c q w x Hc H P IH]; [constructor|auto|]. constructor; auto.
      apply E'_spec in H as [[[H|(_ & _ & H)] _]|(-> & _)]; [eapply E_letter; eauto|auto|]. split; [reflexivity|discriminate]. }
    intros w. split.
    - intros P. apply turn_inv in P as [[_ H]|[H _]]; auto; [lia|]. eauto.
    - intros U. assert (Hw : is_word w).
      { destruct U as (u & v & -> & Hv & H). apply lang0_word in H. unfold is_word in *. apply Forall_app in H as [H1 H2].
        apply Forall_app. split; auto. inversion H2; subst. constructor; auto. }
      destruct (E'_run w i (Nat.lt_le_incl _ _ i_lt) Hw) as [x P]. pose proof (turn_inv _ _ P Hw) as [[-> _]|(_ & _ & H)]; [auto|contradiction].
  Qed.
End Turn.

Lemma loops_noeps : forall f s, s < size f ->
  adds f (fold_left (fun g c => if (c =? Epsilon)%N then g else connect g s s c) all_letters f) (fun p c q => p = s /\ q = s /\ letter c).
Proof.
  intros f s Hs. eapply adds_ext.
  - apply adds_fold with (S := fun c p c' q => c <> Epsilon /\ p = s /\ c' = c /\ q = s).
    intros g c T Hc A. apply all_letters_in in Hc. destruct (N.eqb_spec c Epsilon) as [->|Hne].
    + eapply adds_ext; [apply adds_refl|]. cbn beta. intros. split; [intros []|]. intros [H _]. congruence.
    + eapply adds_ext; [apply connect_adds; rewrite ?(ad_size _ _ _ A); auto|]. cbn beta. intros; tauto.
  - cbn beta. unfold letter. intros p c q. split.
    + intros [x [H [Hx [-> [-> ->]]]]]. apply all_letters_in in H. auto.
    + intros [-> [-> [H H']]]. exists c. rewrite all_letters_in. auto.
Qed.

Lemma det_noeps : forall g, wf g -> det_ok g -> noeps g.
Proof. intros g W D p H. apply (do_keys _ D) in H. apply part_rep_not_eps in H; [tauto|apply W]. Qed.

Definition zero_tags (f : fsm) : Prop := outputs f = [] /\ forall q t, mfind q (tags f) = Some t -> t = 0%N.

Definition with_sink (f1 f3 : fsm) : Prop :=
  adds (resize_fsm f1 (size f1 + 1)) f3 (fun p c q => p = size f1 /\ q = size f1 /\ letter c).
Lemma turned_ok : forall g f1 f3, wf g -> det_ok g -> isAlt g = false -> f1 = unsparse g -> with_sink f1 f3 ->
  let h := sparse (set_final (clear_final (fold_left (redirect (size f1)) (seq 0 (size f3)) f3)) (size f1) true) in
  wf h /\ det_any h /\ determined h = determined g /\ (zero_tags g -> zero_tags h) /\ lang_eq (accepts h) (L_until_end (accepts g)) /\
  size h = size g + 1.
Proof.
  intros g f1 f3 W D A E1 C. cbv zeta.
  destruct (unsparse_spec g W) as (B & Sz & In_ & Fi & Sp & Rw).
  pose proof (unsparse_noeps g W (det_noeps g W D)) as N1.
  assert (A1 : isAlt (unsparse g) = false) by exact A.
  assert (T1 : tags (unsparse g) = tags g) by reflexivity. assert (O1 : outputs (unsparse g) = outputs g) by reflexivity.
  assert (D1 : determined (unsparse g) = determined g) by reflexivity.
  rewrite <- E1 in *. clear E1. unfold with_sink in C.
  assert (S2 : size (resize_fsm f1 (size f1 + 1)) = size f1 + 1) by apply size_resize.
  remember (size f1) as n eqn:En.
  assert (S3 : size f3 = n + 1) by (rewrite (ad_size _ _ _ C); exact S2).
  assert (R3 : forall p c q, raw f3 p c q <-> edge g p c q \/ (p = n /\ q = n /\ letter c)).
  { intros p c q. rewrite (ad_raw _ _ _ C), raw_resize by lia. rewrite Rw. tauto. }
  assert (Ro3 : rows_ok f3). { apply (ad_rows _ _ _ C). apply rows_ok_resize; [lia|exact (ba_rows _ B)]. }
  assert (Sp3 : sparsed f3 = false) by (rewrite (ad_sp _ _ _ C); exact Sp).
  assert (F3 : finals f3 = finals g) by (rewrite (ad_fin _ _ _ C); exact Fi).
  assert (I3 : initial f3 = initial g) by (rewrite (ad_init _ _ _ C); exact In_).
  assert (D3 : determined f3 = determined g) by (rewrite (ad_det _ _ _ C); exact D1).
  assert (T3 : tags f3 = tags g) by (rewrite (ad_tags _ _ _ C); exact T1).
  assert (O3 : outputs f3 = outputs g) by (rewrite (ad_out _ _ _ C); exact O1).
  assert (A3 : isAlt f3 = false).
  { destruct (isAlt f3) eqn:X; [exfalso|reflexivity]. apply (ad_alt _ _ _ C) in X. change (isAlt f1 = true) in X. congruence. }
  assert (N3 : noeps f3).
  { intros p H. apply (ad_pres _ _ _ C) in H as [H|(q & _ & _ & _ & H)]; [|congruence]. apply pres_resize in H; [|lia]. eapply N1; eauto. }
  assert (Nn : n = size g) by lia.
  clear C.
  destruct (redirect_all n (seq 0 (size f3)) f3 Ro3 Sp3) as (K & D4 & N4 & R4).
  { intros q Hq. apply in_seq in Hq. lia. } { lia. } { apply seq_NoDup. }
  { rewrite F3. intros H. apply (wf_fin _ W) in H. lia. }
  specialize (N4 N3). set (f4 := fold_left _ _ f3) in *. clearbody f4.
  assert (A4 : isAlt f4 = false).
  { destruct (isAlt f4) eqn:X; auto. apply (ke_alt _ _ K) in X. congruence. }
  set (f5 := set_final (clear_final f4) n true) in *.
  assert (F5 : finals f5 = [n]) by reflexivity. assert (S5 : size f5 = n + 1) by (change (size f4 = n + 1); rewrite (ke_size _ _ K); auto).
  assert (I5 : initial f5 = initial g) by (change (initial f4 = initial g); rewrite (ke_init _ _ K); auto).
  assert (Hit : forall p, hit f3 p <-> hits (edge g) (fun q => In q (finals g)) p).
  { intros p. unfold hit, hits. rewrite F3. split; intros (y & X & Y); exists y; (split; [|auto]).
    - apply R3 in X as [X|(_ & -> & _)]; auto. apply (wf_fin _ W) in Y. lia.
    - apply R3. auto. }
  assert (R5 : forall p c x, raw f5 p c x <->
    ((edge g p c x \/ (p = n /\ x = n /\ letter c)) /\ ~ (c = EndMark /\ hits (edge g) (fun q => In q (finals g)) p)) \/
    (c = EndMark /\ hits (edge g) (fun q => In q (finals g)) p /\ x = n)).
  { intros p c x. change (raw f5 p c x) with (raw f4 p c x). rewrite R4. unfold turned. rewrite R3, Hit.
    assert (Z : hits (edge g) (fun q => In q (finals g)) p -> In p (seq 0 (size f3))).
    { intros (y & Y & _). apply edge_bound in Y; auto. apply in_seq. lia. }
    tauto. }
  assert (B5 : basic f5).
  { constructor.
    - rewrite I5, S5, Nn. pose proof (wf_init _ W). lia.
    - rewrite F5, S5. intros q [<-|[]]. lia.
    - rewrite F5. repeat constructor.
    - exact (ke_rows _ _ K). }
  assert (A5 : isAlt f5 = false) by exact A4. assert (N5 : noeps f5) by exact N4.
  assert (T5 : forall q t, mfind q (tags f5) = Some t -> t = 0%N \/ mfind q (tags g) = Some t).
  { intros q t H. rewrite <- T3. apply (ke_tags _ _ K). exact H. }
  assert (O5 : outputs f5 = outputs g) by (change (outputs f4 = outputs g); rewrite (ke_out _ _ K); auto).
  assert (D5 : determined f5 = determined g) by (change (determined f4 = determined g); congruence).
  clearbody f5. clear K D4 N4 R4 A4 f4 R3 Ro3 Sp3 F3 I3 D3 T3 O3 A3 N3 Hit S3 f3 S2 B Sz In_ Fi Sp Rw N1 A1 T1 O1 D1.
  assert (Lt : forall p c q, edge g p c q -> p < n /\ q < n) by (intros p c q H; apply edge_bound in H; auto; lia).
  assert (Le : forall p c q, edge g p c q -> letter c).
  { intros p c q H. split; [eapply edge_letter; eauto|]. intros ->. eapply dedge_no_eps; eauto. }
  assert (To : forall p c, p < n -> letter c -> exists q, edge g p c q).
  { intros p c Hp [H1 H2]. destruct (dedge_total g W D p c) as (q & _ & H); eauto. lia. }
  assert (Dec : forall p, hits (edge g) (fun q => In q (finals g)) p \/ ~ hits (edge g) (fun q => In q (finals g)) p).
  { intros p. destruct (lt_dec p n) as [Hp|Hp].
    - destruct (To p EndMark Hp) as [q Hq]; [split; [reflexivity|discriminate]|]. destruct (in_dec Nat.eq_dec q (finals g)) as [F|F].
      + left. exists q. auto.
      + right. intros (y & Y & F'). rewrite (dedge_fun g W D _ _ _ _ Hq Y) in F. auto.
    - right. intros (y & Y & _). apply Lt in Y. lia. }
  assert (Hi : initial g < n) by (rewrite Nn; apply W).
  destruct (sparse_ok f5 B5 A5) as (W6 & P6 & _). pose proof (sparse_lang f5 B5 A5) as L6.
  splits.
  - exact W6.
  - constructor; auto.
    + intros p c H. change (pres f5 p c) in H. pose proof (pres_bound f5 p c (ba_rows _ B5) H) as [_ Hc]. apply P6; auto.
      intros ->. eapply N5; eauto.
    + intros p c Hp Hc. change (size (sparse f5)) with (size f5) in *. change (row_at (sparse f5) p) with (row_at f5 p).
      assert (Lc : letter c). { apply (wp_range _ (wf_letters _ W6)) in Hc. exact Hc. }
      rewrite S5 in Hp.
      destruct (E'_total n (edge g) (fun q => In q (finals g)) (initial g) (raw f5) Hi Lt To Dec R5 p c) as (q & Hq & H); [lia|auto|].
      exists q. split; [lia|].
      assert (X : row_get (row_at f5 p) c = [q]).
      { apply singleton; [apply row_get_sorted, B5|]. intros x. split.
        - intros Hx. exact (E'_fun n (edge g) (fun q => In q (finals g)) (initial g) (raw f5) Hi Lt (dedge_fun g W D) R5 p c x q Hx H).
        - intros ->. exact H. }
      unfold row_get in X. destruct (mfind c (row_at f5 p)); [subst; auto|discriminate X].
  - exact D5.
  - intros [Z1 Z2]. split; [change (outputs f5 = []); congruence|]. intros q t H. apply T5 in H as [H|H]; eauto.
  - eapply lang_eq_trans; [exact L6|]. intros w. unfold rlang. rewrite F5, I5.
    pose proof (turn_lang n (edge g) (fun q => In q (finals g)) (initial g) (raw f5) Hi (dedge_no_eps g W D) Lt Le To (dedge_fun g W D) Dec R5 w) as X.
    unfold lang0 in X. change (L_until_end (accepts g) w) with (L_until_end (fun w => exists q, path (edge g) (initial g) w q /\ In q (finals g)) w).
    rewrite <- X. split; [intros (q & P & [<-|[]]); auto|]. intros P. exists n. split; auto. left; auto.
  - change (size f5 = size g + 1). lia.
Qed.

Lemma make_half_final_ok : forall g, wf g -> det_ok g -> isAlt g = false -> let h := make_half_final g in
  wf h /\ det_any h /\ determined h = determined g /\ (zero_tags g -> zero_tags h) /\ lang_eq (accepts h) (L_until_end (accepts g)) /\
  size h = size g + 1.
Proof.
  intros g W D A. refine (turned_ok g (unsparse g) _ W D A eq_refl _). apply loops_noeps. rewrite size_resize. lia.
Qed.
