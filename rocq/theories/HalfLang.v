(** The languages of the automata made for half-final scanners. *)
From Coq Require Import List Bool Arith NArith Lia.
From Verif Require Import Util Spec PartitionModel PartitionProofs FsmModel DetermineModel MinimizeModel Nfa NfaOps FsmSem FsmBasics FsmOps FsmOps2 EpsProofs DetProofs MinProofs CompProofs ScannerModel ScannerCompile HalfModel HalfSpec HalfCut.
Import ListNotations.
Local Opaque all_letters all_bytes.

(** ** Paths that stop at the first final state, or start again there *)
Section Cut.
  Variables (E : nat -> N -> nat -> Prop) (F : nat -> Prop) (s : nat).
  Hypothesis noeps : forall p q, ~ E p Epsilon q.
  Hypothesis det : forall w p q q', path E p w q -> path E p w q' -> q = q'.
  Definition from (p : nat) : lang := fun w => exists q, path E p w q /\ F q.
  Definition E1 (p : nat) (c : N) (q : nat) : Prop := E p c q /\ ~ F p.
  Definition E2 (p : nat) (c : N) (q : nat) : Prop := E1 p c q \/ (F p /\ c = Epsilon /\ q = s).

  Lemma cut_shortest : forall w p, (exists q, path E1 p w q /\ F q) <-> L_shortest (from p) w.
  Proof.
    intros w p. split.
    - intros (q & P & Fq). split.
      + exists q. split; auto. revert P. apply path_mono. intros ? ? ? []; auto.
      + intros u v -> Hv (m & P1 & Fm). apply path_split in P as (m' & P2 & P3).
        assert (m' = m) as -> by (eapply det; [|exact P1]; revert P2; apply path_mono; intros ? ? ? []; auto).
        destruct (path_inv _ _ _ _ P3) as [[A _]|[(x & [A _] & _)|(c & x & w' & _ & _ & [_ A] & _)]]; [auto|eapply noeps; eauto|auto].
    - intros [(q & P & Fq) M]. exists q. split; auto. revert M. induction P as [p|p m w q H P IH|p c m w q Hc H P IH]; intros M.
      + constructor.
      + destruct (noeps _ _ H).
      + apply path_step with m; auto.
        * split; auto. intros A. apply (M [] (c :: w)); auto; [discriminate|]. exists p. split; auto. constructor.
        * apply IH; auto. intros u v -> Hv (x & P1 & Fx). apply (M (c :: u) v); auto. exists x. split; auto. eapply path_step; eauto.
  Qed.

  Lemma restart_sound : forall w p q, path E2 p w q -> F q -> L_cat (fun u => exists m, path E1 p u m /\ F m) (L_star (L_shortest (from s))) w.
  Proof.
    intros w p q P Fq. induction P as [p|p m w q H P IH|p c m w q Hc H P IH].
    - exists [], []. splits; auto; [exists p; split; auto; constructor|constructor].
    - destruct H as [[H _]|(A & _ & ->)]; [destruct (noeps _ _ H)|].
      destruct (IH Fq) as (u & v & -> & X & Y). exists [], (u ++ v). splits; auto.
      + exists p. split; auto. constructor.
      + apply star_app; auto. apply cut_shortest. auto.
    - destruct H as [H|(_ & A & _)]; [|congruence]. destruct (IH Fq) as (u & v & -> & (x & X & Fx) & Y).
      exists (c :: u), v. splits; auto. exists x. split; auto. eapply path_step; eauto.
  Qed.
  Lemma restart_star : forall w, L_star (L_shortest (from s)) w -> forall p, F p -> exists q, path E2 p w q /\ F q.
  Proof.
    intros w H. induction H as [|u v A B IH]; intros p Fp.
    - exists p. split; auto. constructor.
    - apply cut_shortest in A as (m & P & Fm). destruct (IH m Fm) as (q & Q & Fq). exists q. split; auto.
      eapply path_eps; [right; eauto|]. eapply path_app; [|exact Q]. revert P. apply path_mono. intros; left; auto.
  Qed.
  Lemma restart_plus : forall w, (exists q, path E2 s w q /\ F q) <-> L_plus (L_shortest (from s)) w.
  Proof.
    intros w. split.
    - intros (q & P & Fq). destruct (restart_sound w s q P Fq) as (u & v & -> & X & Y). exists u, v. splits; auto. apply cut_shortest; auto.
    - intros (u & v & -> & X & Y). apply cut_shortest in X as (m & P & Fm). destruct (restart_star v Y m Fm) as (q & Q & Fq).
      exists q. split; auto. eapply path_app; [|exact Q]. revert P. apply path_mono. intros; left; auto.
  Qed.
End Cut.

Definition cut_lang (i : bool) (L : lang) : lang := if i then L_cat L_any (L_shortest L) else L_plus (L_shortest L).

Lemma sparse_alt : forall f, isAlt (sparse f) = isAlt f.
Proof. reflexivity. Qed.

Lemma detached_rlang : forall i g, wf g -> det_ok g -> isAlt g = false ->
  let f1 := unsparse g in let f2 := fold_left (detach i) (seq 0 (size f1)) f1 in
  basic f2 /\ isAlt f2 = false /\ keeps f1 f2 /\
  lang_eq (rlang f2) (if i then L_shortest (accepts g) else L_plus (L_shortest (accepts g))).
Proof.
  intros i g W D A. cbv zeta. destruct (unsparse_spec g W) as (B & Sz & In_ & Fi & Sp & Rw).
  assert (A1 : isAlt (unsparse g) = false) by exact A.
  set (f1 := unsparse g) in *. clearbody f1.
  destruct (detach_all i (seq 0 (size f1)) f1 (ba_rows _ B) Sp (ba_init _ B)) as [K R].
  { intros q Hq. apply in_seq in Hq. lia. } { apply seq_NoDup. }
  set (f2 := fold_left _ _ f1) in *. clearbody f2.
  assert (A2 : isAlt f2 = false).
  { destruct (isAlt f2) eqn:X; auto. apply (ke_alt _ _ K) in X. congruence. }
  splits; auto.
  - constructor; rewrite ?(ke_size _ _ K), ?(ke_init _ _ K), ?(ke_fin _ _ K); try apply B. apply K.
  - assert (X : lang_eq (rlang f2) (fun w => exists q, path (if i then E1 (edge g) (fun q => In q (finals g)) else E2 (edge g) (fun q => In q (finals g)) (initial g)) (initial g) w q /\ In q (finals g))).
    { intros w. unfold rlang. rewrite (ke_fin _ _ K), (ke_init _ _ K), In_, Fi.
      assert (Y : forall p c q, raw f2 p c q <-> (if i then E1 (edge g) (fun q => In q (finals g)) else E2 (edge g) (fun q => In q (finals g)) (initial g)) p c q).
      { intros p c q. rewrite R. unfold kept. rewrite Fi, In_, Rw.
        assert (Z : In p (finals g) -> In p (seq 0 (size f1))).
        { intros H. apply in_seq. rewrite Sz. apply (wf_fin _ W) in H. lia. }
        destruct i; unfold E2, E1; intuition congruence. }
      split; intros (q & P & Fq); exists q; (split; [|exact Fq]); revert P; apply path_mono; intros; apply Y; auto. }
    eapply lang_eq_trans; [exact X|]. intros w. destruct i.
    + apply (cut_shortest (edge g) (fun q => In q (finals g)) (dedge_no_eps g W D) (det_path_fun g W D) w (initial g)).
    + apply (restart_plus (edge g) (fun q => In q (finals g)) (initial g) (dedge_no_eps g W D) (det_path_fun g W D) w).
Qed.

Lemma disconnect_finals_ok : forall i g, wf g -> det_ok g -> isAlt g = false ->
  (exists h, disconnect_finals i g = Ok h /\ wf h /\ det_ok h /\ determined h = true /\ all_reachable h /\
     lang_eq (accepts h) (cut_lang i (accepts g))) \/
  disconnect_finals i g = Throw ETooComplicated.
Proof.
  intros i g W D A. unfold disconnect_finals.
  destruct (detached_rlang i g W D A) as (B2 & A2 & K & L2). set (f2 := fold_left (detach i) _ _) in *. clearbody f2.
  assert (X : exists f3, (if i then prepend_anything f2 else f2) = f3 /\ basic f3 /\ isAlt f3 = false /\ lang_eq (rlang f3) (cut_lang i (accepts g))).
  { destruct i; eexists; (split; [reflexivity|]).
    - destruct (prepend_rlang f2 B2 A2) as [B3 L3]. split; [exact B3|split; [apply prepend_alt|]].
      eapply lang_eq_trans; [exact L3|]. apply L_cat_ext; auto. apply lang_eq_refl.
    - splits; auto. }
  destruct X as (f3 & -> & B3 & A3 & L3). destruct (sparse_ok f3 B3 A3) as (W4 & _ & _). pose proof (sparse_lang f3 B3 A3) as L4.
  set (f4 := sparse f3) in *. clearbody f4.
  assert (G : good (set_determined f4 false)).
  { split; [|cbn; discriminate]. destruct W4. constructor; auto. }
  destruct (canonize_ok _ 0%N G) as [(h & E & Wh & Dh & Hh & Lh & _ & Rh)|[E _]]; [left|right; auto].
  exists h. splits; auto.
  - apply Rh. cbn. discriminate.
  - eapply lang_eq_trans; [exact Lh|]. eapply lang_eq_trans; [|exact L3]. exact L4.
Qed.

(** ** MakeHalfFinal *)
Definition noeps (f : fsm) : Prop := forall p, ~ pres f p Epsilon.

Lemma unsparse_noeps : forall f, wf f -> noeps f -> noeps (unsparse f).
Proof.
  intros f W N p. unfold pres, row_at, unsparse. cbn [trans set_trans set_sparsed].
  destruct (lt_dec p (size f)) as [H|H]; [|rewrite nth_overflow; [intros X; apply X; reflexivity|rewrite map_length; unfold size in H; lia]].
  rewrite nth_indep with (d' := unsparse_row (letters f) []) by (rewrite map_length; auto). rewrite map_nth.
  pose proof (N p) as Np. unfold pres, row_at in Np. set (r := nth p (trans f) []) in *. clearbody r.
  destruct (pset_classes (letters f) (wf_letters _ W)) as [_ [_ [P3 [P4 _]]]].
  assert (Q : forall rep i ms c, In (rep, (i, ms)) (pset (letters f)) -> In c ms -> c <> Epsilon).
  { intros rep i ms c H1 H2. apply (P4 _ _ _ _ H1) in H2. apply (wp_range _ (wf_letters _ W)) in H2. tauto. }
  unfold unsparse_row. revert r Np. assert (Q' := fun rep i ms (H : In (rep, (i, ms)) (pset (letters f))) => Q rep i ms rep H (P3 _ _ _ H)).
  revert Q Q'. clear. generalize (pset (letters f)). intros l. induction l as [|[rep [i ms]] l IH]; intros Q Q' r Np; cbn [fold_left]; auto.
  apply IH; [intros; eapply Q; [right|]; eauto|intros; eapply Q'; right; eauto|].
  assert (Hr : rep <> Epsilon) by (eapply Q'; left; eauto). assert (Hm : forall c, In c ms -> c <> Epsilon) by (intros; eapply Q; [left|]; eauto).
  clear IH Q Q'. revert r Np. induction ms as [|j ms IH]; intros r Np; cbn [fold_left]; auto.
  apply IH; [intros; apply Hm; right; auto|]. rewrite mfind_mset. destruct (keqb_spec Epsilon j) as [X|_]; [exfalso; apply (Hm j); [left|]; auto|].
  destruct (mfind rep r); auto. rewrite mfind_mset. destruct (keqb_spec Epsilon rep) as [X|_]; auto.
Qed.

Definition hit (f : fsm) (p : nat) : Prop := exists y, raw f p EndMark y /\ In y (finals f).
Definition turned (n : nat) (f : fsm) (s : nat -> Prop) (p : nat) (c : N) (x : nat) : Prop :=
  (raw f p c x /\ ~ (c = EndMark /\ hit f p /\ s p)) \/ (c = EndMark /\ hit f p /\ s p /\ x = n).

Lemma redirect_raw : forall n f q, rows_ok f -> sparsed f = false -> q < size f -> n < size f ->
  keeps f (redirect n f q) /\ determined (redirect n f q) = determined f /\ (noeps f -> noeps (redirect n f q)) /\
  (forall p c x, raw (redirect n f q) p c x <-> turned n f (fun p => p = q) p c x).
Proof.
  intros n f q W S Q Hn. unfold redirect, turned.
  destruct (existsb (is_final f) (destinations f q EndMark)) eqn:X.
  - assert (H : hit f q).
    { apply existsb_exists in X as (y & A & B). exists y. split; [apply dests_plain; auto|]. apply smem_in; auto. }
    pose proof (cut_list q EndMark (destinations f q EndMark) f W) as A. set (g := fold_left _ _ f) in *. clearbody g.
    assert (C : adds g (connect g q n EndMark) (fun p c' x => p = q /\ c' = EndMark /\ x = n)).
    { apply connect_adds; rewrite ?(cu_size _ _ _ A); auto. reflexivity. }
    set (h := connect g q n EndMark) in *. clearbody h. splits.
    + apply (keeps_trans _ _ _ (cuts_keeps _ _ _ A)). destruct C. constructor; auto; [apply ad_rows, A|]. intros x t T. right. congruence.
    + rewrite (ad_det _ _ _ C). apply A.
    + intros N p Z. apply (ad_pres _ _ _ C) in Z as [Z|(y & _ & Z & _)]; [|discriminate Z]. apply (cu_pres _ _ _ A) in Z. eapply N; eauto.
    + intros p c x. rewrite (ad_raw _ _ _ C), (cu_raw _ _ _ A). split.
      * intros [[R Z]|(-> & -> & ->)]; [left|right; auto]. split; auto. intros (-> & _ & ->). apply Z. splits; auto. apply dests_plain; auto.
      * intros [[R Z]|(-> & _ & -> & ->)]; [left|right; auto]. split; auto. intros (-> & -> & _). apply Z; auto.
  - assert (H : ~ hit f q).
    { intros (y & A & B). assert (existsb (is_final f) (destinations f q EndMark) = true); [|congruence].
      apply existsb_exists. exists y. split; [apply dests_plain; auto|]. apply smem_in; auto. }
    splits; auto.
    + constructor; auto.
    + intros p c x. split; [intros R; left; split; auto; intros (_ & Z & ->); auto|].
      intros [[R _]|(_ & Z & -> & _)]; [auto|contradiction].
Qed.

Lemma redirect_all : forall n l f, rows_ok f -> sparsed f = false -> (forall q, In q l -> q < size f) -> n < size f -> NoDup l -> ~ In n (finals f) ->
  let g := fold_left (redirect n) l f in
  keeps f g /\ determined g = determined f /\ (noeps f -> noeps g) /\ (forall p c x, raw g p c x <-> turned n f (fun p => In p l) p c x).
Proof.
  intros n. induction l as [|q l IH]; intros f W S Q Hn ND NF; cbv zeta; cbn [fold_left].
  - splits; auto; [constructor; auto|]. intros p c x. unfold turned. cbn [In]. tauto.
  - inversion ND as [|? ? N1 N2]; subst. destruct (redirect_raw n f q W S) as (K & Dt & Ne & R); [apply Q; left; auto|auto|].
    set (g := redirect n f q) in *. clearbody g.
    destruct (IH g) as (K' & Dt' & Ne' & R'); rewrite ?(ke_size _ _ K), ?(ke_sp _ _ K), ?(ke_fin _ _ K); try apply K; auto.
    { intros y Hy. apply Q; right; auto. }
    splits; [eapply keeps_trans; eauto|congruence|auto|]. intros p c x. rewrite R'. unfold turned in *.
    assert (Hit : p <> q -> hit g p <-> hit f p).
    { intros Hpq. unfold hit. rewrite (ke_fin _ _ K). split; intros (y & A & B); exists y; (split; [|auto]).
      - apply R in A as [[A _]|(_ & _ & A & _)]; [auto|contradiction].
      - apply R. left. split; auto. intros (_ & _ & Z); auto. }
    rewrite R. cbn [In]. destruct (Nat.eq_dec p q) as [->|Hn'].
    + split; [intros [[[[A B]|A] C]|A]; tauto|]. intros [[A B]|A]; left; (split; [|tauto]); [left|right]; tauto.
    + rewrite (Hit Hn'). intuition (subst; tauto || congruence).
Qed.
