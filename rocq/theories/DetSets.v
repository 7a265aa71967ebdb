(** RemoveEpsilons and Determine once more: which transitions, tags and outputs the results have. *)
From Coq Require Import List Bool Arith NArith Lia.
From Verif Require Import Util Spec PartitionModel PartitionProofs FsmModel DetermineModel FsmSem FsmBasics FsmOps FsmOps2 EpsProofs DetGeneric DetProofs Nfa
  ScannerModel.
Import ListNotations.
Local Opaque all_letters all_bytes.

(** ** Epsilons *)
Lemma merge_epsilon_tags : forall from f to q k, N.testbit (fsm_tag (merge_epsilon from f to) q) k = true <->
  N.testbit (fsm_tag f q) k = true \/ (q = from /\ N.testbit (fsm_tag f to) k = true).
Proof.
  intros from f to q k. unfold merge_epsilon.
  set (eo := match mfind from (outputs f) with Some m => mfind to m | None => None end).
  set (step := fun g '(c, tos) => _).
  assert (T1 : forall l g, tags (fold_left step l g) = tags g).
  { induction l as [|[c tos] l IH]; intros g; cbn [fold_left]; auto. rewrite IH. unfold step. destruct eo; reflexivity. }
  specialize (T1 (row_at f to) f). set (f1 := fold_left step (row_at f to) f) in *. clearbody f1. cbv zeta.
  set (f2 := if is_final f1 to then set_final f1 from true else f1).
  assert (T2 : tags f2 = tags f) by (rewrite <- T1; unfold f2; destruct (is_final f1 to); reflexivity). clearbody f2.
  rewrite T2. set (f3 := match mfind to (tags f) with None => f2 | Some t => _ end).
  assert (T4 : forall h, tags (match mfind to (outputs f3) with None => f3 | Some m => set_outputs f3 (h m) end) = tags f3) by (intros h; destruct (mfind to (outputs f3)); reflexivity).
  unfold fsm_tag at 1. rewrite (T4 (fun m => _)). unfold f3, fsm_tag. destruct (mfind to (tags f)) as [t|] eqn:E.
  - cbn [set_tags tags]. rewrite mfind_mset. destruct (keqb_spec q from) as [->|N].
    + rewrite N.lor_spec, orb_true_iff. tauto.
    + tauto.
  - rewrite T2, N.bits_0. split; auto. intros [H|[_ H]]; auto. discriminate.
Qed.
Lemma merge_inner_tags : forall from tos f q k, N.testbit (fsm_tag (merge_inner from f tos) q) k = true <->
  N.testbit (fsm_tag f q) k = true \/ (q = from /\ exists t, In t tos /\ N.testbit (fsm_tag f t) k = true).
Proof.
  unfold merge_inner. intros from tos. induction tos as [|t tos IH]; intros f q k; cbn [fold_left].
  - split; auto. intros [H|[_ (t & [] & _)]]; auto.
  - rewrite IH. destruct (Nat.eqb_spec t from) as [->|N].
    + split.
      * intros [H|[-> (t & H1 & H2)]]; auto. right. split; auto. exists t. split; auto. right; auto.
      * intros [H|[-> (t & [<-|H1] & H2)]]; auto. right. split; eauto.
    + rewrite merge_epsilon_tags. split.
      * intros [[H|[-> H]]|[-> (x & H1 & H2)]]; auto.
        -- right. split; auto. exists t. split; auto. left; auto.
        -- apply merge_epsilon_tags in H2 as [H2|[-> H2]].
           ++ right. split; auto. exists x. split; auto. right; auto.
           ++ right. split; auto. exists t. split; auto. left; auto.
      * intros [H|[-> (x & [<-|H1] & H2)]]; auto. right. split; auto. exists x. split; auto. apply merge_epsilon_tags. auto.
Qed.
Lemma merge_all_tags : forall h, rows_ok h -> (forall p m q, eps h p m -> eps h m q -> eps h p q) ->
  forall q k, N.testbit (fsm_tag (merge_all_eps h) q) k = true <->
    N.testbit (fsm_tag h q) k = true \/ exists t, eps h q t /\ N.testbit (fsm_tag h t) k = true.
Proof.
  intros h W T. unfold merge_all_eps. set (step := fun g from => _).
  assert (G : forall n, n <= size h ->
    (forall q t, eps (fold_left step (seq 0 n) h) q t <-> eps h q t) /\
    rows_ok (fold_left step (seq 0 n) h) /\ size (fold_left step (seq 0 n) h) = size h /\
    forall q k, N.testbit (fsm_tag (fold_left step (seq 0 n) h) q) k = true <->
      N.testbit (fsm_tag h q) k = true \/ (q < n /\ exists t, eps h q t /\ N.testbit (fsm_tag h t) k = true)).
  { induction n as [|n IH]; intros Hn.
    - cbn [seq fold_left]. split; [tauto|]. split; auto. split; auto. intros q k. split; auto. intros [H|[H _]]; [auto|lia].
    - specialize (IH ltac:(lia)) as (I1 & I2 & I3 & I4). rewrite seq_S, fold_left_app. cbn [fold_left plus].
      set (g := fold_left step (seq 0 n) h) in *. clearbody g. unfold step. fold (merge_inner n g (destinations g n Epsilon)).
      assert (HE : forall t, In t (destinations g n Epsilon) <-> eps h n t) by (intros t; rewrite dest_eps; apply I1).
      pose proof (merge_inner_ok n (destinations g n Epsilon) g I2 ltac:(lia)) as M.
      splits.
      + intros q t. unfold eps at 1. rewrite (mg_raw _ _ _ _ M). split.
        * intros [H|(-> & x & H1 & H2 & H3)]; [apply I1; auto|]. apply (T n x); [apply HE; auto|apply I1; auto].
        * intros H. left. apply I1. auto.
      + apply (mg_rows _ _ _ _ M). auto.
      + rewrite (mg_size _ _ _ _ M). auto.
      + intros q k. rewrite merge_inner_tags, I4. split.
        * intros [[H|[H1 H2]]|[-> (t & H1 & H2)]]; auto.
          apply HE in H1. apply I4 in H2 as [H2|(_ & x & H2 & H3)]; right; split; auto; [exists t|exists x]; split; auto. apply (T n t); auto.
        * intros [H|[H1 (t & H2 & H3)]]; auto. destruct (Nat.eq_dec q n) as [->|Nq].
          -- right. split; auto. exists t. split; [apply HE; auto|]. apply I4. auto.
          -- left. right. split; [lia|eauto]. }
  destruct (G (size h) (le_n _)) as (_ & _ & _ & G4). intros q k. rewrite G4. split.
  - intros [H|[_ H]]; auto.
  - intros [H|(t & H1 & H2)]; auto. right. split; eauto. apply raw_bound in H1; tauto.
Qed.
Lemma close_eps_tags : forall f, tags (close_eps f) = tags f.
Proof.
  intros f. unfold close_eps. set (step := fun '(g, inv) thru => _).
  assert (S1 : forall from thru acc, tags (fst (shortcut_epsilon from thru acc)) = tags (fst acc)).
  { intros from thru [g inv]. unfold shortcut_epsilon. set (st := fun '(g, inv) to => _). cbn [fst].
    assert (X : forall l g0 inv0, tags (fst (fold_left st l (g0, inv0))) = tags g0).
    { induction l as [|x l IH]; intros g0 inv0; cbn [fold_left]; auto. destruct (st (g0, inv0) x) as [g1 i1] eqn:E. rewrite IH.
      unfold st in E. injection E as <- _. destruct (mfind from (outputs g)); reflexivity. }
    apply X. }
  assert (G : forall l acc, tags (fst (fold_left step l acc)) = tags (fst acc)).
  { induction l as [|x l IH]; intros [g inv]; cbn [fold_left]; auto. rewrite IH. unfold step.
    set (fs := nth x inv []). clearbody fs. generalize (g, inv). clear IH. induction fs as [|y fs IH]; intros acc; cbn [fold_left]; auto.
    rewrite IH. destruct (Nat.eqb y x); auto. }
  rewrite G. reflexivity.
Qed.
Lemma path_nil_eps : forall (E : nat -> N -> nat -> Prop), (forall p m q, E p Epsilon m -> E m Epsilon q -> E p Epsilon q) ->
  forall p q, path E p [] q <-> p = q \/ E p Epsilon q.
Proof.
  intros E T p q. split.
  - intros P. remember (@nil N) as w eqn:Ew. induction P as [p|p m w q H P IH|p c m w q Hc H P IH]; auto.
    + right. destruct (IH Ew) as [->|H']; eauto.
    + discriminate.
  - intros [->|H]; [constructor|]. eapply path_eps; eauto. constructor.
Qed.

(** Transitions, finals and tags after RemoveEpsilons *)
Lemma remove_epsilons_edges : forall f, wf f ->
  (forall p c q, edge (remove_epsilons f) p c q <-> c <> Epsilon /\ exists t, path (edge f) p [] t /\ edge f t c q) /\
  (forall q, In q (finals (remove_epsilons f)) <-> exists t, path (edge f) q [] t /\ In t (finals f)) /\
  (forall q k, N.testbit (fsm_tag (remove_epsilons f) q) k = true <-> exists t, path (edge f) q [] t /\ N.testbit (fsm_tag f t) k = true).
Proof.
  intros f W. destruct (unsparse_spec f W) as [B [Sz [In1 [Fi [_ Hraw]]]]]. assert (Tg : tags (unsparse f) = tags f) by reflexivity.
  unfold remove_epsilons. set (f1 := unsparse f) in *. clearbody f1.
  destruct (close_eps_ok f1 (ba_rows _ B)) as [S [A [HS T]]]. pose proof (close_eps_tags f1) as Tg2. set (f2 := close_eps f1) in *. clearbody f2.
  assert (W2 : rows_ok f2) by (apply (ea_rows _ _ _ A), B).
  pose proof (merge_all_ok f2 W2 T) as M. pose proof (merge_all_tags f2 W2 T) as MT. set (f3 := merge_all_eps f2) in *. clearbody f3.
  set (f4 := set_trans f3 (map (merase Epsilon) (trans f3))).
  assert (W3 : rows_ok f3) by (apply (mg_rows _ _ _ _ M); auto).
  assert (Sz3 : size f3 = size f) by (rewrite (mg_size _ _ _ _ M), (ea_size _ _ _ A); auto).
  assert (Sz4 : size f4 = size f) by (unfold f4, size; cbn [trans set_trans]; rewrite map_length; change (length (trans f3)) with (size f3); auto).
  assert (Rw : forall p, row_at f4 p = merase Epsilon (row_at f3 p)).
  { intros p. unfold row_at, f4. cbn [trans set_trans]. change (@nil (N * list nat)) with (merase Epsilon (@nil (N * list nat))) at 1. apply map_nth. }
  assert (R4 : forall p c q, raw f4 p c q <-> c <> Epsilon /\ raw f3 p c q).
  { intros p c q. unfold raw, row_get. rewrite Rw, mfind_merase. destruct (keqb_spec c Epsilon); cbn; tauto. }
  assert (F3 : forall q, In q (finals f3) -> q < size f).
  { intros q Hq. apply (mg_fin _ _ _ _ M) in Hq. rewrite (ea_fin _ _ _ A), Fi in Hq. destruct Hq as [Hq|[t [Hq _]]].
    - apply (wf_fin _ W); auto.
    - apply raw_bound in Hq; auto. rewrite (ea_size _ _ _ A), Sz in Hq. tauto. }
  assert (B4 : basic f4).
  { constructor.
    - rewrite Sz4. change (initial f4) with (initial f3). rewrite (mg_init _ _ _ _ M), (ea_init _ _ _ A), In1. apply W.
    - rewrite Sz4. exact F3.
    - apply (mg_fs _ _ _ _ M). rewrite (ea_fin _ _ _ A). apply B.
    - intros p. rewrite Rw, Sz4, <- Sz3. destruct (W3 p) as [X Y]. split; [apply merase_sorted; auto|].
      intros c s. rewrite mfind_merase. destruct (keqb_spec c Epsilon); [discriminate|apply Y]. }
  assert (C : sparse (clear_hints f4) = clear_hints (sparse f4)) by reflexivity.
  destruct (sparse_ok (clear_hints f4)) as [S1 [S2 S3]]; [destruct B4; constructor; auto|reflexivity|].
  rewrite C in *.
  assert (S3' : forall p c q, edge (clear_hints (sparse f4)) p c q <-> raw f4 p c q) by exact S3.
  assert (P2 : forall p w q, path (edge f) p w q <-> path (raw f2) p w q).
  { apply path_closure.
    - intros p c q H. apply (ea_raw _ _ _ A). left. apply Hraw; auto.
    - intros p c q H. apply (ea_raw _ _ _ A) in H as [H|[H1 H2]]; [left; apply Hraw; auto|]. right. split; auto.
      apply HS in H2. eapply path_mono; [|exact H2]. intros; apply Hraw; auto. }
  assert (P0 : forall p q, path (edge f) p [] q <-> p = q \/ eps f2 p q).
  { intros p q. rewrite P2. apply path_nil_eps. exact T. }
  assert (RR : forall p c q, c <> Epsilon -> (raw f2 p c q <-> edge f p c q)).
  { intros p c q Hc. rewrite (ea_raw _ _ _ A), Hraw. split; [intros [H|[H _]]; [auto|congruence]|auto]. }
  splits.
  - intros p c q. rewrite S3', R4, (mg_raw _ _ _ _ M). split.
    + intros [Hc [H|(t & H1 & H2)]]; split; auto.
      * exists p. split; [constructor|]. apply RR; auto.
      * exists t. split; [apply P0; auto|]. apply RR; auto.
    + intros [Hc (t & H1 & H2)]. split; auto. apply RR in H2; auto. apply P0 in H1 as [->|H1]; eauto.
  - intros q. change (finals (clear_hints (sparse f4))) with (finals f3). rewrite (mg_fin _ _ _ _ M), (ea_fin _ _ _ A), Fi. split.
    + intros [H|(t & H1 & H2)]; [exists q; split; auto; constructor|]. exists t. split; auto. apply P0. auto.
    + intros (t & H1 & H2). apply P0 in H1 as [->|H1]; eauto.
  - intros q k. change (fsm_tag (clear_hints (sparse f4)) q) with (fsm_tag f3 q). rewrite MT.
    assert (X : forall x, fsm_tag f2 x = fsm_tag f x) by (intros x; unfold fsm_tag; rewrite Tg2, Tg; reflexivity).
    split.
    + intros [H|(t & H1 & H2)]; rewrite X in *; [exists q; split; auto; constructor|]. exists t. split; auto. apply P0. auto.
    + intros (t & H1 & H2). apply P0 in H1 as [->|H1]; [left; rewrite X; auto|]. right. exists t. rewrite X. auto.
Qed.

(** ** Tags of the subset automaton *)
Lemma accept_members_tags : forall f ns s g q k, N.testbit (fsm_tag (accept_members f ns s g) q) k = true <->
  N.testbit (fsm_tag g q) k = true \/ (q = ns /\ exists j, In j s /\ N.testbit (fsm_tag f j) k = true).
Proof.
  intros f ns s. induction s as [|j s IH]; intros g q k; cbn [accept_members].
  - split; auto. intros [H|[_ (j & [] & _)]]; auto.
  - set (g1 := if is_final f j then set_final g ns true else g).
    assert (T1 : tags g1 = tags g) by (unfold g1; destruct (is_final f j); reflexivity).
    assert (X1 : forall x, fsm_tag g1 x = fsm_tag g x) by (intros x; unfold fsm_tag; rewrite T1; reflexivity).
    destruct (is_final f j && match tags f with [] => true | _ => false end) eqn:Brk.
    + apply andb_true_iff in Brk as [_ Brk]. destruct (tags f) eqn:E; [|discriminate Brk]. rewrite X1. split; auto.
      intros [H|[_ (x & _ & H)]]; auto. unfold fsm_tag in H. rewrite E in H. cbn [mfind] in H. rewrite N.bits_0 in H. discriminate.
    + rewrite IH. set (g2 := match mfind j (tags f) with None => g1 | Some t => _ end).
      assert (X2 : N.testbit (fsm_tag g2 q) k = true <-> N.testbit (fsm_tag g q) k = true \/ (q = ns /\ N.testbit (fsm_tag f j) k = true)).
      { rewrite <- X1. unfold g2, fsm_tag. destruct (mfind j (tags f)) as [t|].
        - cbn [set_tags tags]. rewrite mfind_mset. destruct (keqb_spec q ns) as [->|N].
          + rewrite N.lor_spec, orb_true_iff. tauto.
          + tauto.
        - rewrite N.bits_0. split; auto. intros [H|[_ H]]; [auto|discriminate]. }
      rewrite X2. split.
      * intros [[H|[-> H]]|[-> (x & H1 & H2)]]; auto; right; split; auto; [exists j|exists x]; split; auto; [left|right]; auto.
      * intros [H|[-> (x & [<-|H1] & H2)]]; auto. right. split; eauto.
Qed.
Lemma accept_terminal_tags : forall f term ns s g, tags (accept_terminal f term ns s g) = tags g.
Proof.
  intros f term ns s. unfold accept_terminal. induction s as [|j s IH]; intros g; cbn [fold_left]; auto. rewrite IH.
  destruct (smem j term); auto. generalize (pset (letters f)). intros l. revert g. induction l as [|[c v] l IHl]; intros g; cbn [fold_left]; auto.
  rewrite IHl. reflexivity.
Qed.
Lemma accept_states_tags : forall f term states q k, N.testbit (fsm_tag (accept_states f term states) q) k = true <->
  exists s j, nth_error states q = Some s /\ In j s /\ N.testbit (fsm_tag f j) k = true.
Proof.
  intros f term states q k. unfold accept_states. set (g1 := clear_final _).
  set (step := fun g ns => _).
  assert (G : forall n, n <= length states -> N.testbit (fsm_tag (fold_left step (seq 0 n) g1) q) k = true <->
    q < n /\ exists s j, nth_error states q = Some s /\ In j s /\ N.testbit (fsm_tag f j) k = true).
  { induction n as [|n IH]; intros Hn.
    - cbn [seq fold_left]. assert (X : fsm_tag g1 q = 0%N) by reflexivity. rewrite X, N.bits_0. split; [discriminate|]. intros [H _]. lia.
    - specialize (IH ltac:(lia)). rewrite seq_S, fold_left_app. cbn [fold_left plus].
      set (g := fold_left step (seq 0 n) g1) in *. clearbody g. unfold step. cbv zeta. rewrite accept_members_tags.
      assert (X : fsm_tag (accept_terminal f term n (nth n states []) g) q = fsm_tag g q) by (unfold fsm_tag; rewrite accept_terminal_tags; reflexivity).
      rewrite X, IH. assert (Nn : nth_error states n = Some (nth n states [])) by (apply nth_error_nth'; lia). split.
      + intros [[H1 H2]|[-> (j & H1 & H2)]]; split; auto. eauto.
      + intros [H1 (s & j & H2 & H3 & H4)]. destruct (Nat.eq_dec q n) as [->|N].
        * right. split; auto. rewrite Nn in H2. injection H2 as <-. eauto.
        * left. split; [lia|eauto]. }
  change (N.testbit (fsm_tag (fold_left step (seq 0 (length states)) g1) q) k = true <->
    exists s j, nth_error states q = Some s /\ In j s /\ N.testbit (fsm_tag f j) k = true).
  rewrite (G (length states) (le_n _)). split; [tauto|]. intros (s & j & H & H'). split; eauto. apply nth_error_Some. congruence.
Qed.
Lemma connects_tags : forall l g, tags (fold_left (fun g '(from, to, c) => connect g from to c) l g) = tags g.
Proof. induction l as [|[[a b] c] l IH]; intros g; cbn [fold_left]; auto. rewrite IH. reflexivity. Qed.
Lemma connects_outputs : forall l g, outputs (fold_left (fun g '(from, to, c) => connect g from to c) l g) = outputs g.
Proof. induction l as [|[[a b] c] l IH]; intros g; cbn [fold_left]; auto. rewrite IH. reflexivity. Qed.

(** ** Outputs of the subset automaton *)
Definition getm (o : smap nat (smap nat N)) (p : nat) : smap nat N := match mfind p o with Some m => m | None => [] end.
Definition lk (o : smap nat (smap nat N)) (p q : nat) : N := match mfind q (getm o p) with Some x => x | None => 0%N end.
Lemma output_lk : forall f p q, output f p q = lk (outputs f) p q.
Proof. intros f p q. unfold output, lk, getm. destruct (mfind p (outputs f)); reflexivity. Qed.
Lemma lk_out_or : forall p q v o p' q' b, N.testbit (lk (out_or p q v o) p' q') b = true <->
  N.testbit (lk o p' q') b = true \/ (p' = p /\ q' = q /\ N.testbit v b = true).
Proof.
  intros p q v o p' q' b. unfold lk, out_or, getm. rewrite mfind_mset. destruct (keqb_spec p' p) as [->|N].
  - rewrite mfind_mset. destruct (keqb_spec q' q) as [->|N'].
    + rewrite N.lor_spec, orb_true_iff. split; [intros [H|H]; auto|intros [H|(_ & _ & H)]; auto].
    + split; auto. intros [H|(_ & H & _)]; [auto|congruence].
  - split; auto. intros [H|(H & _)]; [auto|congruence].
Qed.
Definition outs_ok (o : smap nat (smap nat N)) : Prop := msorted o /\ forall p m, mfind p o = Some m -> msorted m.
Lemma lk_in : forall o p q b, outs_ok o -> (N.testbit (lk o p q) b = true <-> exists m v, In (p, m) o /\ In (q, v) m /\ N.testbit v b = true).
Proof.
  intros o p q b [S1 S2]. unfold lk, getm. split.
  - destruct (mfind p o) as [m|] eqn:E; [|cbn [mfind]; rewrite N.bits_0; discriminate].
    destruct (mfind q m) as [v|] eqn:E'; [|rewrite N.bits_0; discriminate]. intros H.
    exists m, v. splits; auto; apply mfind_in; auto.
  - intros (m & v & H1 & H2 & H3). apply (msorted_find S1) in H1. rewrite H1.
    pose proof (S2 _ _ H1) as S3. apply (msorted_find S3) in H2. rewrite H2. exact H3.
Qed.
Lemma accept_outputs_lk : forall f states k l b, outs_ok (outputs f) ->
  (N.testbit (lk (accept_outputs f states []) k l) b = true <->
   exists i j, k < length states /\ l < length states /\ In i (nth k states []) /\ In j (nth l states []) /\ N.testbit (output f i j) b = true).
Proof.
  intros f states k l b O. unfold accept_outputs. cbv zeta. set (holders := fun q : nat => filter (fun ns => smem q (nth ns states [])) (seq 0 (length states))).
  change (N.testbit (lk (fold_left (fun o '(i, m) => fold_left (fun o '(j, v) => fold_left (fun o k => fold_left (fun o l => out_or k l v o) (holders j) o) (holders i) o) m o) (outputs f) []) k l) b = true <->
   exists i j, k < length states /\ l < length states /\ In i (nth k states []) /\ In j (nth l states []) /\ N.testbit (output f i j) b = true).
  assert (H0 : forall q x, In x (holders q) <-> x < length states /\ In q (nth x states [])).
  { intros q x. unfold holders. rewrite filter_In, in_seq, smem_in. split; intros [H1 H2]; split; auto; lia. }
  assert (S1 : forall v kk ls o, N.testbit (lk (fold_left (fun o l => out_or kk l v o) ls o) k l) b = true <->
     N.testbit (lk o k l) b = true \/ (k = kk /\ In l ls /\ N.testbit v b = true)).
  { intros v kk ls. induction ls as [|x ls IH]; intros o; cbn [fold_left].
    - split; auto. intros [H|(_ & [] & _)]; auto.
    - rewrite IH, lk_out_or. split.
      + intros [[H|(-> & -> & H)]|(-> & H1 & H2)]; auto; right; splits; auto; [left|right]; auto.
      + intros [H|(-> & [->|H1] & H2)]; auto. }
  assert (S2 : forall v ls ks o, N.testbit (lk (fold_left (fun o k => fold_left (fun o l => out_or k l v o) ls o) ks o) k l) b = true <->
     N.testbit (lk o k l) b = true \/ (In k ks /\ In l ls /\ N.testbit v b = true)).
  { intros v ls ks. induction ks as [|x ks IH]; intros o; cbn [fold_left].
    - split; auto. intros [H|([] & _)]; auto.
    - rewrite IH, S1. split.
      + intros [[H|(-> & H1 & H2)]|(H & H1 & H2)]; auto; right; splits; auto; [left|right]; auto.
      + intros [H|([->|H1] & H2 & H3)]; auto. }
  assert (S3 : forall i m o, N.testbit (lk (fold_left (fun o '(j, v) => fold_left (fun o k => fold_left (fun o l => out_or k l v o) (holders j) o) (holders i) o) m o) k l) b = true <->
     N.testbit (lk o k l) b = true \/ (In k (holders i) /\ exists j v, In (j, v) m /\ In l (holders j) /\ N.testbit v b = true)).
  { intros i m. induction m as [|[j v] m IH]; intros o; cbn [fold_left].
    - split; auto. intros [H|(_ & j & v & [] & _)]; auto.
    - rewrite IH, S2. split.
      + intros [[H|(H1 & H2 & H3)]|(H1 & j' & v' & H2 & H3 & H4)]; auto; right; split; auto; [exists j, v|exists j', v']; splits; auto; [left|right]; auto.
      + intros [H|(H1 & j' & v' & [X|H2] & H3 & H4)]; auto; [injection X as <- <-; auto|]. right. split; eauto 6. }
  assert (S4 : forall ms o, N.testbit (lk (fold_left (fun o '(i, m) => fold_left (fun o '(j, v) => fold_left (fun o k => fold_left (fun o l => out_or k l v o) (holders j) o) (holders i) o) m o) ms o) k l) b = true <->
     N.testbit (lk o k l) b = true \/ exists i m, In (i, m) ms /\ In k (holders i) /\ exists j v, In (j, v) m /\ In l (holders j) /\ N.testbit v b = true).
  { induction ms as [|[i m] ms IH]; intros o; cbn [fold_left].
    - split; auto. intros [H|(i & m & [] & _)]; auto.
    - rewrite IH, S3. split.
      + intros [[H|(H1 & H2)]|(i' & m' & H1 & H2)]; auto; right; [exists i, m|exists i', m']; split; auto; [left|right]; auto.
      + intros [H|(i' & m' & [X|H2] & H3)]; auto; [injection X as <- <-; auto|]. right. eauto. }
  rewrite S4. unfold lk at 1. unfold getm. cbn [mfind]. rewrite N.bits_0. split.
  - intros [H|(i & m & H1 & H2 & j & v & H3 & H4 & H5)]; [discriminate|].
    apply H0 in H2 as [H2 H2'], H4 as [H4 H4']. exists i, j. splits; auto. rewrite output_lk. apply (lk_in _ _ _ _ O). eauto.
  - intros (i & j & H1 & H2 & H3 & H4 & H5). rewrite output_lk in H5. apply (lk_in _ _ _ _ O) in H5 as (m & v & X1 & X2 & X3).
    right. exists i, m. splits; auto; [apply H0; auto|]. exists j, v. splits; auto. apply H0; auto.
Qed.
Lemma prune_outputs_lk : forall g p q, rows_ok g -> lk (prune_outputs g) p q = if existsb (fun '(_, tos) => smem q tos) (row_at g p) then lk (outputs g) p q else 0%N.
Proof.
  intros g p q R. unfold prune_outputs. set (old := outputs g).
  assert (S1 : forall from m tos o,
    let o' := fold_left (fun o q => match mfind q m with None => o | Some v => mset from (minsert q v (match mfind from o with Some x => x | None => [] end)) o end) tos o in
    (forall x, x <> from -> getm o' x = getm o x) /\
    forall y, mfind y (getm o' from) = match mfind y (getm o from) with Some z => Some z | None => if smem y tos then mfind y m else None end).
  { intros from m tos. induction tos as [|t tos IH]; intros o; cbn [fold_left].
    - split; auto. intros y. destruct (mfind y (getm o from)); auto.
    - set (o1 := match mfind t m with None => o | Some v => _ end). destruct (IH o1) as [I1 I2]. cbv zeta in I1, I2. split.
      + intros x Hx. rewrite I1 by auto. unfold o1. destruct (mfind t m); auto. unfold getm. rewrite mfind_mset. destruct (keqb_spec x from); [congruence|auto].
      + intros y. rewrite I2. cbn [smem].
        assert (G1 : mfind y (getm o1 from) = match mfind y (getm o from) with Some z => Some z | None => if keqb y t then mfind y m else None end).
        { unfold o1. destruct (mfind t m) as [v|] eqn:E.
          - unfold getm at 1. rewrite mfind_mset. destruct (keqb_spec from from) as [_|X]; [|congruence].
            rewrite mfind_minsert. fold (getm o from). destruct (keqb_spec y t) as [->|N]; [rewrite E|]; destruct (mfind _ (getm o from)); auto.
          - destruct (keqb_spec y t) as [->|N]; [rewrite E|]; destruct (mfind _ (getm o from)); auto. }
        rewrite G1. destruct (mfind y (getm o from)); auto. destruct (keqb y t); cbn [orb]; auto.
        destruct (mfind y m); auto. destruct (smem y tos); auto. }
  assert (S2 : forall from m (rw : row) o,
    let o' := fold_left (fun o '(_, tos) => fold_left (fun o q => match mfind q m with None => o | Some v => mset from (minsert q v (match mfind from o with Some x => x | None => [] end)) o end) tos o) rw o in
    (forall x, x <> from -> getm o' x = getm o x) /\
    forall y, mfind y (getm o' from) = match mfind y (getm o from) with Some z => Some z | None => if existsb (fun '(_, tos) => smem y tos) rw then mfind y m else None end).
  { intros from m rw. induction rw as [|[c tos] rw IH]; intros o; cbn [fold_left existsb].
    - split; auto. intros y. destruct (mfind y (getm o from)); auto.
    - destruct (S1 from m tos o) as [A1 A2]. cbv zeta in A1, A2. set (o1 := fold_left _ tos o) in *. clearbody o1. destruct (IH o1) as [I1 I2]. cbv zeta in I1, I2. split.
      + intros x Hx. rewrite I1, A1; auto.
      + intros y. rewrite I2, A2. destruct (mfind y (getm o from)); auto. destruct (smem y tos); cbn [orb]; auto.
        destruct (mfind y m); auto. destruct (existsb _ rw); auto. }
  set (step := fun o from => _).
  assert (S3 : forall n, (forall x, n <= x -> getm (fold_left step (seq 0 n) []) x = []) /\
    forall x y, x < n -> mfind y (getm (fold_left step (seq 0 n) []) x) = if existsb (fun '(_, tos) => smem y tos) (row_at g x) then mfind y (getm old x) else None).
  { induction n as [|n [I1 I2]]; [split; [reflexivity|intros x y H; lia]|]. rewrite seq_S, fold_left_app. cbn [fold_left plus].
    set (o := fold_left step (seq 0 n) []) in *. clearbody o. unfold step.
    destruct (mfind n old) as [m|] eqn:E.
    - destruct (S2 n m (row_at g n) o) as [A1 A2]. cbv zeta in A1, A2. split.
      + intros x Hx. etransitivity; [apply (A1 x); lia|]. apply I1. lia.
      + intros x y Hx. destruct (Nat.eq_dec x n) as [->|N].
        * etransitivity; [apply (A2 y)|]. rewrite I1 by lia. cbn [mfind]. unfold getm. rewrite E. reflexivity.
        * etransitivity; [apply (f_equal (mfind y)), (A1 x); auto|]. apply I2. lia.
    - split; [intros x Hx; apply I1; lia|]. intros x y Hx. destruct (Nat.eq_dec x n) as [->|N]; [|apply I2; lia].
      rewrite I1 by lia. unfold getm. rewrite E. cbn [mfind]. destruct (existsb _ _); reflexivity. }
  destruct (S3 (size g)) as [A1 A2]. unfold lk. fold step. destruct (le_lt_dec (size g) p) as [H|H].
  - rewrite A1 by auto. cbn [mfind]. replace (row_at g p) with (@nil (N * list nat)); [reflexivity|].
    symmetry. unfold row_at. apply nth_overflow. exact H.
  - rewrite A2 by auto. destruct (existsb _ _); auto.
Qed.
Lemma accept_states_outputs : forall f term states, outputs (accept_states f term states) = accept_outputs f states [].
Proof.
  intros f term states. unfold accept_states. set (g1 := clear_final _). set (step := fun g ns => _).
  assert (M : forall ns s g, outputs (accept_members f ns s g) = outputs g).
  { intros ns. induction s as [|j s IH]; intros g; cbn [accept_members]; auto.
    set (g1' := if is_final f j then set_final g ns true else g).
    assert (O1 : outputs g1' = outputs g) by (unfold g1'; destruct (is_final f j); reflexivity).
    destruct (is_final f j && match tags f with [] => true | _ => false end); auto. rewrite IH. destruct (mfind j (tags f)); auto. }
  assert (T : forall ns s g, outputs (accept_terminal f term ns s g) = outputs g).
  { intros ns s. unfold accept_terminal. induction s as [|j s IH]; intros g; cbn [fold_left]; auto. rewrite IH.
    destruct (smem j term); auto. generalize (pset (letters f)). intros l. revert g. induction l as [|[c v] l IHl]; intros g; cbn [fold_left]; auto.
    rewrite IHl. reflexivity. }
  assert (G : forall l g, outputs (fold_left step l g) = outputs g).
  { induction l as [|x l IH]; intros g; cbn [fold_left]; auto. rewrite IH. unfold step. cbv zeta. rewrite M, T. reflexivity. }
  change (accept_outputs f states (outputs (fold_left step (seq 0 (length states)) g1)) = accept_outputs f states []).
  rewrite G. reflexivity.
Qed.

(** ** Determine *)
Definition terminal (f : fsm) (t : nat) : Prop := In t (finals f) /\ forall c, letter c -> edge f t c t.
Record subset_of (f1 g : fsm) (states : list (list nat)) : Prop := {
  so_size : length states = size g;
  so_nodup : NoDup states;
  so_init : nth_error states (initial g) = Some [initial f1];
  so_step : forall i s c, nth_error states i = Some s -> letter c ->
    exists j s', (forall x, edge g i c x <-> x = j) /\ nth_error states j = Some s' /\
      (((exists t, In t s /\ terminal f1 t) /\ s' = s) \/
       (~ (exists t, In t s /\ terminal f1 t) /\ forall q, In q s' <-> exists p, In p s /\ edge f1 p c q));
  so_fin : forall i, In i (finals g) <-> exists s j, nth_error states i = Some s /\ In j s /\ In j (finals f1);
  so_tag : forall i k, N.testbit (fsm_tag g i) k = true <-> exists s j, nth_error states i = Some s /\ In j s /\ N.testbit (fsm_tag f1 j) k = true;
  so_out : outs_ok (outputs f1) -> forall i j c, letter c -> edge g i c j -> forall k,
    N.testbit (output g i j) k = true <-> exists s t p q, nth_error states i = Some s /\ nth_error states j = Some t /\ In p s /\ In q t /\ N.testbit (output f1 p q) k = true
}.
Lemma determine_sets : forall f m g, wf f -> determined f = false -> determine f m = Ok (true, g) ->
  exists states, subset_of (remove_epsilons f) g states.
Proof.
  intros f maxsize g W D E. unfold determine in E. rewrite D in E. fold (det_limit maxsize) in E.
  destruct (remove_epsilons_ok f W) as (W1 & A1 & Sz & In1 & Sp & Al & He & He' & L).
  set (f1 := remove_epsilons f) in *. clearbody f1. cbv zeta in E.
  pose proof (det_run_ok _ (@seqb nat _) [initial f1] (fsm_next f1) (fsm_required (terminal_states f1)) (part_list (letters f1))
     seqb_eq (part_list_nodup _ (wf_letters _ W1)) (part_list_idx _ (wf_letters _ W1)) (det_limit maxsize)) as R.
  destruct (det_run (@seqb nat _) [initial f1] (fsm_next f1) (fsm_required (terminal_states f1)) (part_list (letters f1)) (det_limit maxsize)) as [states tr| |]; try discriminate E.
  destruct R as [G Lim]. injection E as <-. exists states.
  pose proof (g_raw f1 W1 _ _ _ G) as GR. pose proof (g_finals f1 W1 _ _ _ G) as GF. pose proof (g_size f1 W1 _ _ _ G) as GS.
  pose proof (g_letters f1 W1 _ _ _ G) as GL. pose proof (g_initial f1 W1 _ _ _ G) as GI. pose proof (g_rows f1 W1 _ _ _ G) as GW.
  pose proof (next_state f1 W1 _ _ _ G) as GN. pose proof (dg_init _ _ _ _ _ _ _ _ _ G) as D0. pose proof (dg_nodup _ _ _ _ _ _ _ _ _ G) as ND.
  cbv zeta in GR, GF, GS, GL, GI, GW.
  set (g1 := fold_left (fun g '(from, to, c) => connect g from to c) (det_connects (part_list (letters f1)) tr) (accept_states f1 (terminal_states f1) states)) in *.
  assert (GT : forall i k, N.testbit (fsm_tag (set_sparsed (set_outputs g1 (prune_outputs g1)) (sparsed f1)) i) k = true <->
     exists s j, nth_error states i = Some s /\ In j s /\ N.testbit (fsm_tag f1 j) k = true).
  { intros i k. rewrite <- (accept_states_tags f1 (terminal_states f1)). unfold fsm_tag. cbn [set_sparsed set_outputs tags]. unfold g1. rewrite connects_tags. reflexivity. }
  assert (O1 : outputs g1 = accept_outputs f1 states []) by (unfold g1; rewrite connects_outputs, accept_states_outputs; reflexivity).
  assert (PO : forall i j, lk (prune_outputs g1) i j = if existsb (fun '(_, tos) => smem j tos) (row_at g1 i) then lk (outputs g1) i j else 0%N) by (intros i j; apply prune_outputs_lk; exact GW).
  set (g := set_sparsed (set_outputs g1 (prune_outputs g1)) (sparsed f1)) in *.
  assert (GE : forall i c j, letter c -> (edge g i c j <-> exists r s, part_rep (letters f1) c = Some r /\ nth_error states i = Some s /\
     nth_error states j = Some (if fsm_required (terminal_states f1) s then fsm_next f1 s r else s))).
  { intros i c j [Hc Hc']. destruct (A1 c Hc Hc') as [r Hr]. assert (Hrr : part_rep (letters f1) r = Some r) by (eapply part_rep_rep; eauto; apply W1).
    assert (X : edge g i c j <-> raw g i r j) by (unfold edge, erep; rewrite GL, Hr; reflexivity).
    rewrite X, GR. split.
    - intros (s & H1 & H2 & H3). exists r, s. auto.
    - intros (r' & s & H1 & H2 & H3). replace r' with r in H3 by congruence. exists s. auto. }
  constructor.
  - symmetry. exact GS.
  - exact ND.
  - rewrite GI. exact D0.
  - intros i s c Hi Lc. destruct (A1 c (proj1 Lc) (proj2 Lc)) as [r Hr]. assert (Hrr : part_rep (letters f1) r = Some r) by (eapply part_rep_rep; eauto; apply W1).
    destruct (GN i s r Hi Hrr) as [j Hj]. exists j. eexists. split; [|split; [exact Hj|]].
    + intros x. rewrite GE by auto. split.
      * intros (r' & s' & X1 & X2 & X3). rewrite Hr in X1. injection X1 as <-. rewrite Hi in X2. injection X2 as <-.
        rewrite NoDup_nth_error in ND. apply ND; [apply nth_error_Some|]; congruence.
      * intros ->. eauto.
    + destruct (fsm_required (terminal_states f1) s) eqn:Rq.
      * right. split.
        -- intros (t & T1 & T2 & T3). assert (X : fsm_required (terminal_states f1) s = false); [|congruence].
           apply req_false. exists t. split; auto. apply (term_in _ W1). split; auto. intros d Hd.
           destruct (wp_range _ (wf_letters _ W1) _ _ Hd) as [D1 D2].
           specialize (T3 d (conj D1 D2)). unfold edge, erep in T3. rewrite Hd in T3. exact T3.
        -- intros q. rewrite next_in by auto. unfold edge, erep. rewrite Hr. reflexivity.
      * left. split; auto. apply req_false in Rq as (t & T1 & T2). exists t. split; auto. apply (term_in _ W1) in T2 as [T2 T3]. split; auto.
        intros d [Ld Ld']. destruct (A1 d Ld Ld') as [x Hx]. unfold edge, erep. rewrite Hx. apply T3. eapply part_rep_rep; eauto. apply W1.
  - intros i. rewrite GF. split.
    + intros (s & H1 & j & H2 & H3). eauto.
    + intros (s & j & H1 & H2 & H3). eauto.
  - exact GT.
  - intros O i j c Lc He2 k. rewrite output_lk. change (outputs g) with (prune_outputs g1). rewrite PO.
    assert (Hex : existsb (fun '(_, tos) => smem j tos) (row_at g1 i) = true).
    { destruct (A1 c (proj1 Lc) (proj2 Lc)) as [r Hr]. unfold edge, erep in He2. rewrite GL, Hr in He2.
      unfold raw, row_get in He2. change (row_at g i) with (row_at g1 i) in He2.
      destruct (mfind r (row_at g1 i)) as [tos|] eqn:M; [|destruct He2]. apply existsb_exists. exists (r, tos). split; [apply mfind_in; auto|apply smem_in; auto]. }
    rewrite Hex, O1, (accept_outputs_lk f1 states i j k O). split.
    + intros (p & q & H1 & H2 & H3 & H4 & H5). exists (nth i states []), (nth j states []), p, q. splits; auto; apply nth_error_nth'; auto.
    + intros (s & t & p & q & H1 & H2 & H3 & H4 & H5). exists p, q. rewrite (nth_error_nth _ _ _ H1), (nth_error_nth _ _ _ H2).
      splits; auto; apply nth_error_Some; congruence.
Qed.
(** Paths without epsilons *)
Fixpoint walk (E : nat -> N -> nat -> Prop) (p : nat) (w : word) (q : nat) : Prop :=
  match w with [] => p = q | c :: w' => exists m, E p c m /\ walk E m w' q end.
Lemma walk_app : forall E u v p q, walk E p (u ++ v) q <-> exists m, walk E p u m /\ walk E m v q.
Proof.
  intros E u. induction u as [|c u IH]; intros v p q; cbn [app walk].
  - split; [eauto|]. intros (m & -> & H). auto.
  - split.
    + intros (m & H1 & H2). apply IH in H2 as (x & H2 & H3). eauto.
    + intros (x & (m & H1 & H2) & H3). exists m. split; auto. apply IH. eauto.
Qed.
Lemma walk_snoc : forall E u c p q, walk E p (u ++ [c]) q <-> exists m, walk E p u m /\ E m c q.
Proof.
  intros E u c p q. rewrite walk_app. cbn [walk]. split.
  - intros (m & H1 & x & H2 & <-). eauto.
  - intros (m & H1 & H2). exists m. split; auto. exists q. auto.
Qed.
Lemma walk_path : forall E, (forall p q, ~ E p Epsilon q) -> forall w p q, path E p w q <-> walk E p w q /\ Forall (fun c => c <> Epsilon) w.
Proof.
  intros E He w p q. split.
  - intros P. induction P as [p|p m w q H P IH|p c m w q Hc H P [I1 I2]].
    + cbn. auto.
    + destruct (He _ _ H).
    + cbn [walk]. eauto.
  - revert p. induction w as [|c w IH]; intros p; cbn [walk].
    + intros [-> _]. constructor.
    + intros [(m & H1 & H2) F]. inversion F; subst. eapply path_step; eauto.
Qed.
Lemma word_noeps : forall w, is_word w -> Forall (fun c => c <> Epsilon) w.
Proof. intros w H. eapply Forall_impl; [|exact H]. intros c [_ Hc]. exact Hc. Qed.

(** What subset a word leads to: the states it reaches, or those a proper prefix reached if
    one of them was terminal. *)
Lemma subset_word : forall f1 g states, subset_of f1 g states -> forall u, is_word u ->
  exists i s, (forall x, walk (edge g) (initial g) u x <-> x = i) /\ nth_error states i = Some s /\
    ((forall q, In q s <-> walk (edge f1) (initial f1) u q) \/
     (exists m z t, u = m ++ z /\ z <> [] /\ walk (edge f1) (initial f1) m t /\ terminal f1 t /\ forall q, In q s <-> walk (edge f1) (initial f1) m q)).
Proof.
  intros f1 g states SO u. induction u as [|c u IH] using rev_ind; intros Hu.
  - exists (initial g), [initial f1]. splits.
    + intros x. cbn. split; auto.
    + apply (so_init _ _ _ SO).
    + left. intros q. cbn. intuition.
  - apply Forall_app in Hu as [Hu Hc]. inversion Hc; subst. destruct (IH Hu) as (i & s & I1 & I2 & I3).
    destruct (so_step _ _ _ SO i s c I2 H1) as (j & s' & J1 & J2 & J3). exists j, s'. splits; auto.
    { intros x. rewrite walk_snoc. split.
      - intros (y & X1 & X2). apply I1 in X1. subst y. apply J1. auto.
      - intros ->. exists i. split; [apply I1|apply J1]; auto. }
    destruct I3 as [I3|(m & z & t & -> & Hz & M1 & M2 & M3)].
    + destruct J3 as [[(t & T1 & T2) ->]|[_ J3]].
      * right. exists u, [c], t. splits; auto; [discriminate|apply I3; auto].
      * left. intros q. rewrite J3, walk_snoc. split; intros (p & P1 & P2); exists p; split; auto; apply I3; auto.
    + destruct J3 as [[_ ->]|[J3 _]].
      * right. exists m, (z ++ [c]), t. splits; auto; [rewrite app_assoc; auto|]. intros X. apply app_eq_nil in X as [_ X]. discriminate.
      * destruct J3. exists t. split; auto. apply M3. auto.
Qed.
