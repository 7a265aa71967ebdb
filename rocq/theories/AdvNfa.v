(** The automaton CountingFsm starts from: what its states stand for. *)
From Coq Require Import List Bool Arith NArith Lia.
From Verif Require Import Util Spec PartitionModel PartitionProofs FsmModel DetermineModel MinimizeModel FsmSem FsmBasics FsmOps FsmOps2 EpsProofs DetGeneric DetProofs Nfa
  DeadProofs ScannerModel CountModel CountAuto DetSets AdvModel.
Import ListNotations.
Local Opaque all_letters all_bytes.

Lemma tag_all_tags : forall t f q, tags f = [] -> mfind q (tags (tag_all t f)) = if (q <? size f) then Some t else None.
Proof.
  intros t f q HT. unfold tag_all.
  assert (T1 : forall l g i, mfind i (tags (fold_left (fun g q => set_tag g q t) l g)) = if smem i l then Some t else mfind i (tags g)).
  { induction l as [|x l IH]; intros g i; cbn [fold_left smem]; auto. rewrite IH. unfold set_tag. cbn [set_tags tags]. rewrite mfind_mset. destruct (keqb i x), (smem i l); reflexivity. }
  rewrite T1, HT. cbn [mfind]. destruct (smem q (seq 0 (size f))) eqn:S; destruct (Nat.ltb_spec q (size f)); auto.
  - apply smem_in, in_seq in S. lia.
  - apply smem_false in S. exfalso. apply S, in_seq. lia.
Qed.
(** The same automaton up to tags *)
Definition same_but_tags (f g : fsm) : Prop := g = set_tags f (tags g).
Lemma tag_all_same : forall t f, same_but_tags f (tag_all t f).
Proof.
  intros t f. unfold tag_all. assert (X : forall l g, same_but_tags f g -> same_but_tags f (fold_left (fun g q => set_tag g q t) l g)).
  { induction l as [|x l IH]; intros g H; cbn [fold_left]; auto. apply IH. unfold same_but_tags, set_tag in *. rewrite H. reflexivity. }
  apply X. unfold same_but_tags. destruct f; reflexivity.
Qed.
Lemma wf_tags : forall f t, wf f -> wf (set_tags f t).
Proof. intros f t [A1 A2 A3 A4 A5 A6 A7 A8]. split; [exact A1|exact A2|exact A3|exact A4|exact A5|exact A6|exact A7|exact A8]. Qed.
Lemma cat_tags : forall a b, tags (fsm_cat a b) = import_tags (size a) (tags b) (tags a).
Proof.
  intros a b. unfold fsm_cat. cbv zeta. cbn [clear_hints set_isAlt set_determined tags].
  assert (X : forall l g n, tags (fold_left (fun g q => set_final g (q + n) true) l g) = tags g) by (induction l as [|x l IH]; intros g n; cbn [fold_left]; auto; rewrite IH; reflexivity).
  rewrite X. cbn [clear_final set_finals tags set_outputs].
  assert (C : forall l g to c, tags (fold_left (fun g q => connect g q to c) l g) = tags g) by (induction l as [|x l IH]; intros g to c; cbn [fold_left]; auto; rewrite IH; reflexivity).
  assert (CF : forall g to c, tags (connect_final g to c) = tags g) by (intros; unfold connect_final; cbn [clear_hints set_isAlt tags]; apply C).
  assert (CC : forall l g c, tags (fold_left (fun g to => connect_final g to c) l g) = tags g) by (induction l as [|x l IH]; intros g c; cbn [fold_left]; auto; rewrite IH; apply CF).
  assert (CR : forall (l : row) g, tags (fold_left (fun g '(c, tos) => fold_left (fun g to => connect_final g to c) tos g) l g) = tags g) by (induction l as [|[c tos] l IH]; intros g; cbn [fold_left]; auto; rewrite IH; apply CC).
  rewrite CR. reflexivity.
Qed.
Lemma import_tags_find : forall n q (src dst : smap nat N),
  mfind q (import_tags n src dst) = match mfind q dst with Some z => Some z | None => if (n <=? q) then mfind (q - n) src else None end.
Proof.
  intros n q src. unfold import_tags. induction src as [|[x v] src IH]; intros dst; cbn [fold_left mfind].
  - destruct (mfind q dst), (n <=? q); auto.
  - rewrite IH. rewrite mfind_minsert. destruct (keqb_spec q (x + n)) as [->|N0].
    + destruct (mfind (x + n) dst); auto. destruct (Nat.leb_spec n (x + n)); [|lia]. replace (x + n - n) with x by lia. rewrite keqb_refl. reflexivity.
    + destruct (mfind q dst); auto. destruct (Nat.leb_spec n q); auto. destruct (keqb_spec (q - n) x); auto. lia.
Qed.

Lemma prepend_edge : forall f, wf f -> uncompressed f ->
  wf (prepend_anything f) /\ uncompressed (prepend_anything f) /\ size (prepend_anything f) = S (size f) /\ initial (prepend_anything f) = size f /\
  finals (prepend_anything f) = finals f /\ tags (prepend_anything f) = tags f /\
  forall p c q, edge (prepend_anything f) p c q <-> edge f p c q \/ (p = size f /\ q = size f /\ (c < MaxChar)%N) \/ (p = size f /\ c = Epsilon /\ q = initial f).
Proof.
  intros f W U. destruct (prepend_anything_ok f W) as (W1 & U1 & _). specialize (U1 U). split; [exact W1|]. split; [exact U1|]. split; [|split; [reflexivity|split; [|split]]]; revert U1; clear W1; unfold prepend_anything.
  - intros _. unfold size. cbn [set_determined set_initial connect clear_hints set_isAlt set_trans trans]. rewrite upd_length.
    assert (X : forall l g s, length (trans (fold_left (fun g c => connect g s s c) l g)) = length (trans g)) by
      (induction l as [|x l IH]; intros g s; cbn [fold_left]; auto; rewrite IH; cbn [connect clear_hints set_isAlt set_trans trans]; apply upd_length).
    rewrite X. change (size (resize_fsm f (size f + 1)) = S (size f)). rewrite size_resize. lia.
  - intros _. set (f1 := resize_fsm f (size f + 1)). assert (E1 : size f1 = size f + 1) by apply size_resize.
    pose proof (loops_adds f1 (size f)) as A. assert (A1 := A ltac:(lia)). clear A. assert (X1 : finals f1 = finals f) by reflexivity. clearbody f1.
    set (f2 := fold_left _ _ _) in *. clearbody f2. cbn [set_determined set_initial finals connect clear_hints set_isAlt set_trans]. rewrite (ad_fin _ _ _ A1). exact X1.
  - intros _. cbn [set_determined set_initial connect clear_hints set_isAlt set_trans tags].
    assert (X : forall l g s, tags (fold_left (fun g c => connect g s s c) l g) = tags g) by (induction l as [|x l IH]; intros g s; cbn [fold_left]; auto; rewrite IH; reflexivity).
    rewrite X. reflexivity.
  - set (f1 := resize_fsm f (size f + 1)). assert (E1 : size f1 = size f + 1) by apply size_resize.
    pose proof (loops_adds f1 (size f)) as A. assert (A1 := A ltac:(lia)). clear A.
    assert (R1 : forall p c q, raw f1 p c q <-> raw f p c q) by (intros; apply raw_resize; lia).
    assert (X1 : initial f1 = initial f) by reflexivity. clearbody f1.
    set (f2 := fold_left _ _ _) in *. assert (E2 : size f2 = size f + 1) by (rewrite (ad_size _ _ _ A1); auto).
    assert (I2 : initial f2 = initial f) by (rewrite (ad_init _ _ _ A1); apply X1).
    rewrite I2. pose proof (wf_init _ W) as WI. clearbody f2.
    assert (A2 : adds f2 (connect f2 (size f) (initial f) Epsilon) (fun p c q => p = size f /\ c = Epsilon /\ q = initial f)).
    { apply connect_adds; try lia. reflexivity. }
    set (g := connect f2 (size f) (initial f) Epsilon) in *. clearbody g. intros U1.
    intros p c q. unfold edge. rewrite erep_empty by exact U1. rewrite (erep_empty f) by exact U.
    change (raw g p c q <-> raw f p c q \/ (p = size f /\ q = size f /\ (c < MaxChar)%N) \/ (p = size f /\ c = Epsilon /\ q = initial f)).
    rewrite (ad_raw _ _ _ A2), (ad_raw _ _ _ A1), R1. tauto.
Qed.

Section Nfa.
  Variables A B : fsm.
  Hypothesis WA : wf A.
  Hypothesis WB : wf B.
  Hypothesis TA : tags A = [].
  Hypothesis TB : tags B = [].
  Hypothesis EA : forall p q, ~ edge A p Epsilon q.
  Hypothesis EB : forall p q, ~ edge B p Epsilon q.
  Let n := size A.
  Let m := size B.
  Let NI := n + m.
  Let Bt := tag_all Separated B.
  Let f1 := fsm_cat A Bt.
  Let mark (g : fsm) (q : nat) : fsm := let g1 := set_tag g q Matched in if is_final B (initial B) then set_final g1 q true else g1.
  Let f2 := fold_left mark (finals A) f1.
  Let f := remove_epsilons (prepend_anything f2).

  Lemma Bt_facts : wf Bt /\ size Bt = m /\ initial Bt = initial B /\ finals Bt = finals B /\ forall p c q, edge Bt p c q <-> edge B p c q.
  Proof.
    pose proof (tag_all_same Separated B) as E. fold Bt in E. unfold same_but_tags in E. rewrite E. splits; try reflexivity. apply wf_tags. exact WB.
  Qed.
  Definition cat_e p c q : Prop := edge A p c q \/ (exists p' q', p = p' + n /\ q = q' + n /\ edge B p' c q') \/
    (In p (finals A) /\ exists q', q = q' + n /\ edge B (initial B) c q').
  Lemma f1_facts : wf f1 /\ uncompressed f1 /\ size f1 = n + m /\ initial f1 = initial A /\ (forall q, In q (finals f1) <-> exists b, q = b + n /\ In b (finals B)) /\
    forall p c q, edge f1 p c q <-> cat_e p c q.
  Proof.
    destruct Bt_facts as (Wt & St & It & Ft & Et). destruct (fsm_cat_wf A Bt WA Wt) as [W1 U1]. destruct (cat_structure A Bt WA Wt) as (C1 & C2 & _ & _ & _ & _ & _ & C3 & _).
    fold f1 in W1, U1, C1, C2, C3. splits; auto; [rewrite <- St; exact C1| |].
    - intros q. rewrite C3, Ft. fold n. split; intros (x & H1 & H2); exists x; auto.
    - intros p c q. unfold f1. rewrite (cat_edge A Bt WA Wt), It. unfold cat_e. fold n. split; (intros [H|[(p' & q' & X1 & X2 & X3)|(H & q' & X1 & X2)]]; [auto| |]).
      + right. left. exists p', q'. rewrite Et in X3. auto.
      + right. right. split; auto. exists q'. rewrite Et in X2. auto.
      + right. left. exists p', q'. rewrite Et. auto.
      + right. right. split; auto. exists q'. rewrite Et. auto.
  Qed.
  Lemma mark_fold : forall l g, trans (fold_left mark l g) = trans g /\ initial (fold_left mark l g) = initial g /\ letters (fold_left mark l g) = letters g /\ isAlt (fold_left mark l g) = isAlt g /\
    (forall q, In q (finals (fold_left mark l g)) <-> In q (finals g) \/ (In (initial B) (finals B) /\ In q l)) /\ (ssorted (finals g) -> ssorted (finals (fold_left mark l g))) /\
    forall q, mfind q (tags (fold_left mark l g)) = if smem q l then Some Matched else mfind q (tags g).
  Proof.
    induction l as [|x l IH]; intros g; cbn [fold_left].
    - splits; auto. intros q. cbn [In]. tauto.
    - destruct (IH (mark g x)) as (H1 & H2 & H3 & H4 & H5 & H6 & H7).
      assert (M : trans (mark g x) = trans g /\ initial (mark g x) = initial g /\ letters (mark g x) = letters g /\ isAlt (mark g x) = isAlt g /\ tags (mark g x) = mset x Matched (tags g) /\
        finals (mark g x) = if is_final B (initial B) then sadd x (finals g) else finals g).
      { unfold mark. cbv zeta. destruct (is_final B (initial B)); splits; reflexivity. }
      destruct M as (M1 & M2 & M3 & M4 & M5 & M6). splits; try congruence.
      + intros q. rewrite H5, M6. unfold is_final. destruct (smem (initial B) (finals B)) eqn:S.
        * apply smem_in in S. rewrite sadd_in. cbn [In]. split; [intros [[->|H]|[_ H]]; auto|]. intros [H|[_ [->|H]]]; auto.
        * apply smem_false in S. cbn [In]. tauto.
      + intros H. apply H6. rewrite M6. destruct (is_final B (initial B)); auto. apply sadd_sorted. exact H.
      + intros q. rewrite H7, M5, mfind_mset. cbn [smem]. destruct (keqb q x), (smem q l); reflexivity.
  Qed.
  Lemma f2_facts : wf f2 /\ uncompressed f2 /\ size f2 = n + m /\ initial f2 = initial A /\
    (forall q, In q (finals f2) <-> (exists b, q = b + n /\ In b (finals B)) \/ (In (initial B) (finals B) /\ In q (finals A))) /\
    (forall p c q, edge f2 p c q <-> cat_e p c q) /\
    forall q, fsm_tag f2 q = if smem q (finals A) then Matched else if (n <=? q) && (q <? n + m) then Separated else 0%N.
  Proof.
    destruct f1_facts as (W1 & U1 & S1 & I1 & F1 & E1). destruct (mark_fold (finals A) f1) as (H1 & H2 & H3 & H4 & H5 & H6 & H7). fold f2 in H1, H2, H3, H4, H5, H6, H7.
    assert (HS : size f2 = n + m) by (unfold size; rewrite H1; exact S1).
    assert (HE : forall p c q, edge f2 p c q <-> edge f1 p c q) by (intros p c q; unfold edge, erep, row_at; rewrite H1, H3; tauto).
    assert (HF : forall q, In q (finals f2) -> q < n + m).
    { intros q Hq. apply H5 in Hq as [Hq|[_ Hq]]; [rewrite <- S1; apply (wf_fin _ W1); auto|]. apply (wf_fin _ WA) in Hq. fold n in Hq. lia. }
    splits; auto.
    - destruct W1 as [A1 A2 A3 A4 A5 A6 A7 A8]. split.
      + rewrite H2, HS, <- S1. exact A1.
      + intros q Hq. rewrite HS. auto.
      + apply H6. exact A3.
      + intros p. unfold row_at. rewrite H1, HS, <- S1. apply A4.
      + rewrite H3. exact A5.
      + unfold coherent, pres, raw, row_at in A6 |- *. rewrite H1, H3. exact A6.
      + unfold bcoherent, pres, raw, row_at in A7 |- *. rewrite H1, H3. exact A7.
      + intros X. rewrite H4 in X. destruct (cat_structure A Bt WA (proj1 Bt_facts)) as (_ & _ & _ & D & _). fold f1 in D. rewrite D in X. discriminate X.
    - unfold uncompressed. rewrite H3. exact U1.
    - congruence.
    - intros q. rewrite H5, F1. tauto.
    - intros p c q. rewrite HE. apply E1.
    - intros q. unfold fsm_tag. rewrite H7. destruct (smem q (finals A)) eqn:S; [reflexivity|]. unfold f1. rewrite cat_tags, TA.
      rewrite import_tags_find. cbn [mfind]. fold n. unfold Bt. rewrite tag_all_tags by exact TB. fold m.
      destruct (Nat.leb_spec n q); cbn [andb]; auto. destruct (Nat.ltb_spec (q - n) m), (Nat.ltb_spec q (n + m)); auto; lia.
  Qed.

  (** The transitions, the final states and the tags of the automaton *)
  Lemma cat_noeps : forall p q, ~ cat_e p Epsilon q.
  Proof.
    intros p q [H|[(p' & q' & _ & _ & H)|(_ & q' & _ & H)]]; [apply (EA _ _ H)|apply (EB _ _ H)|apply (EB _ _ H)].
  Qed.
  Lemma cat_bound : forall p c q, cat_e p c q -> p < n + m /\ q < n + m.
  Proof.
    intros p c q [H|[(p' & q' & -> & -> & H)|(H0 & q' & -> & H)]].
    - apply (edge_bound _ _ _ _ WA) in H. fold n in H. lia.
    - apply (edge_bound _ _ _ _ WB) in H. fold m in H. lia.
    - apply (edge_bound _ _ _ _ WB) in H. apply (wf_fin _ WA) in H0. fold m in H. fold n in H0. lia.
  Qed.
  Lemma nfa_facts : wf f /\ all_in_part f /\ size f = S NI /\ initial f = NI /\ sparsed f = true /\ (forall p q, ~ raw f p Epsilon q) /\
    (forall p c q, edge f p c q <-> c <> Epsilon /\ (cat_e p c q \/ (p = NI /\ ((q = NI /\ (c < MaxChar)%N) \/ cat_e (initial A) c q)))) /\
    (forall q, In q (finals f) <-> (exists b, q = b + n /\ In b (finals B)) \/ (In (initial B) (finals B) /\ (In q (finals A) \/ (q = NI /\ In (initial A) (finals A))))) /\
    (forall q, fsm_tag f q = if smem q (finals A) then Matched else if Nat.eqb q NI && smem (initial A) (finals A) then Matched else if (n <=? q) && (q <? n + m) then Separated else 0%N).
  Proof.
    destruct f2_facts as (W2 & U2 & S2 & I2 & F2 & E2 & T2). destruct (prepend_edge f2 W2 U2) as (W3 & U3 & S3 & I3 & F3 & T3 & E3).
    destruct (remove_epsilons_ok (prepend_anything f2) W3) as (W4 & A4 & S4 & I4 & Sp & _ & R4 & _). destruct (remove_epsilons_edges _ W3) as (E4 & F4 & T4). fold f in W4, A4, S4, I4, Sp, R4, E4, F4, T4.
    pose proof (wf_init _ WA) as IA. fold n in IA.
    assert (P0 : forall p t, path (edge (prepend_anything f2)) p [] t <-> p = t \/ (p = NI /\ (t = NI \/ t = initial A))).
    { assert (L : forall p t, p < n + m -> path (edge (prepend_anything f2)) p [] t -> p = t).
      { intros p t Hp P. apply path_nil_inv in P as [->|(x & H & _)]; auto. apply E3 in H as [H|[(-> & _)|(-> & _)]]; [|lia|lia].
        apply E2 in H. destruct (cat_noeps _ _ H). }
      assert (G : forall w p t, path (edge (prepend_anything f2)) p w t -> w = [] -> p = NI -> t = NI \/ t = initial A).
      { intros w p t P. induction P as [p|p x w q H P IH|p c x w q Hc H P IH]; intros Ew Ep; subst; [auto| |discriminate].
        apply E3 in H as [H|[(_ & -> & _)|(_ & _ & ->)]].
        - apply E2 in H. destruct (cat_noeps _ _ H).
        - apply IH; auto; unfold NI; lia.
        - rewrite I2 in P. right. symmetry. apply (L (initial A) q); [lia|exact P]. }
      intros p t. split.
      - intros P. destruct (Nat.lt_ge_cases p (n + m)) as [Hp|Hp]; [left; eapply L; eauto|].
        apply path_nil_inv in P as [->|(x & H & P)]; auto. assert (p = NI).
        { apply E3 in H as [H|[(-> & _)|(-> & _)]]; [|unfold NI; lia|unfold NI; lia]. apply E2, cat_bound in H. lia. }
        subst p. right. split; auto. eapply G; [eapply path_eps; eauto|auto|auto].
      - intros [->|(-> & [->| ->])]; try apply path_nil. eapply path_eps; [|apply path_nil]. apply E3. right. right. rewrite I2. splits; auto. }
    splits; auto.
    - rewrite S4, S3, S2. reflexivity.
    - rewrite I4, I3, S2. reflexivity.
    - intros p c q. rewrite E4. split.
      + intros (Hc & t & P & H). split; auto. apply E3 in H as [H|[(-> & -> & H)|(_ & H & _)]]; [|rewrite S2 in *|congruence].
        * apply E2 in H. apply P0 in P as [->|(-> & [->| ->])]; auto.
        * right. apply P0 in P as [->|(-> & _)]; auto.
      + intros (Hc & [H|(-> & [(-> & H)|H])]); (split; [exact Hc|]).
        * exists p. split; [apply path_nil|]. apply E3. left. apply E2. exact H.
        * exists NI. split; [apply path_nil|]. apply E3. right. left. splits; auto; unfold NI; lia.
        * exists (initial A). split; [apply P0; auto|]. apply E3. left. apply E2. exact H.
    - intros q. rewrite F4. split.
      + intros (t & P & H). rewrite F3 in H. apply F2 in H. apply P0 in P as [->|(-> & [->| ->])]; [tauto| |].
        * destruct H as [H|[H1 H2]]; auto.
        * destruct H as [(b & X & H)|[H1 H2]]; [lia|]. right. split; auto.
      + intros [H|[H1 [H2|[-> H2]]]]; [exists q|exists q|exists (initial A)]; (split; [apply P0; auto|]); rewrite F3; apply F2; auto.
    - assert (TT : forall q, fsm_tag (prepend_anything f2) q = fsm_tag f2 q) by (intros q; unfold fsm_tag; rewrite T3; reflexivity).
      intros q. apply N.bits_inj. intros k. apply eq_true_iff_eq. rewrite T4.
      assert (Z : fsm_tag f2 NI = 0%N).
      { rewrite T2. destruct (smem NI (finals A)) eqn:S; [apply smem_in in S; apply (wf_fin _ WA) in S; fold n in S; unfold NI in S; lia|].
        destruct (Nat.ltb_spec NI (n + m)); [unfold NI in *; lia|]. rewrite andb_false_r. reflexivity. }
      destruct (Nat.eqb_spec q NI) as [->|Nq].
      + assert (S0 : smem NI (finals A) = false) by (apply smem_false; intros S; apply (wf_fin _ WA) in S; fold n in S; unfold NI in S; lia). rewrite S0. cbn [andb].
        assert (S1 : (n <=? NI) && (NI <? n + m) = false) by (destruct (Nat.ltb_spec NI (n + m)); [unfold NI in *; lia|]; apply andb_false_r). rewrite S1.
        assert (X : (exists t, path (edge (prepend_anything f2)) NI [] t /\ N.testbit (fsm_tag (prepend_anything f2) t) k = true) <-> N.testbit (fsm_tag f2 (initial A)) k = true).
        { split.
          - intros (t & P & H). rewrite TT in H. apply P0 in P as [<-|(_ & [->| ->])]; auto; rewrite Z, N.bits_0 in H; discriminate H.
          - intros H. exists (initial A). split; [apply P0; auto|]. rewrite TT. exact H. }
        rewrite X, T2. destruct (smem (initial A) (finals A)); [tauto|]. destruct (Nat.leb_spec n (initial A)); [lia|]. cbn [andb]. tauto.
      + cbn [andb]. rewrite <- T2. split.
        * intros (t & P & H). rewrite TT in H. apply P0 in P as [->|(-> & _)]; [exact H|congruence].
        * intros H. exists q. split; [apply path_nil|]. rewrite TT. exact H.
  Qed.
End Nfa.
