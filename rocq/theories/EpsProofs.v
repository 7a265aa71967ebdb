(** Unsparse, Sparse and RemoveEpsilons. *)
From Coq Require Import List Bool Arith NArith Lia.
From Verif Require Import Util Spec PartitionModel PartitionProofs FsmModel Nfa NfaOps FsmSem FsmBasics FsmOps FsmOps2 DeadProofs.
Import ListNotations.

Record basic (f : fsm) : Prop := {
  ba_init : initial f < size f;
  ba_fin : forall q, In q (finals f) -> q < size f;
  ba_fsorted : ssorted (finals f);
  ba_rows : rows_ok f
}.
Lemma wf_basic : forall f, wf f -> basic f.
Proof. intros f []. constructor; auto. Qed.

(** ** Unsparse *)
Section Uns.
  Definition uns_inner (rep : N) (ms : list N) (r : row) : row :=
    fold_left (fun r j => let s := row_get r rep in
       mset j s (match mfind rep r with Some _ => r | None => mset rep [] r end)) ms r.

  Lemma uns_one_get : forall rep j r c,
    row_get (mset j (row_get r rep) (match mfind rep r with Some _ => r | None => mset rep [] r end)) c =
    if keqb c j then row_get r rep else row_get r c.
  Proof.
    intros rep j r c. rewrite row_get_mset. destruct (keqb_spec c j); auto.
    destruct (mfind rep r) eqn:F; auto. rewrite row_get_mset. destruct (keqb_spec c rep) as [->|]; auto.
    unfold row_get. rewrite F. auto.
  Qed.

  Lemma uns_inner_get : forall rep ms r c,
    row_get (uns_inner rep ms r) c = if smem c ms then row_get r rep else row_get r c.
  Proof.
    unfold uns_inner. induction ms as [|j ms IH]; intros r c; cbn [fold_left smem]; auto.
    rewrite IH, !uns_one_get. destruct (keqb_spec rep j) as [->|].
    - destruct (smem c ms), (keqb_spec c j) as [->|]; auto.
    - destruct (smem c ms), (keqb_spec c j) as [->|]; auto.
  Qed.

  Lemma uns_inner_ok : forall n rep ms r, row_ok n r -> (rep < MaxChar)%N -> (forall j, In j ms -> (j < MaxChar)%N) ->
    row_ok n (uns_inner rep ms r).
  Proof.
    unfold uns_inner. induction ms as [|j ms IH]; intros r R Hr Hm; cbn [fold_left]; auto.
    apply IH; auto; [|intros; apply Hm; right; auto].
    assert (Hs : ssorted (row_get r rep) /\ forall q, In q (row_get r rep) -> q < n).
    { unfold row_get. destruct (mfind rep r) eqn:F; [apply R in F; tauto|]. split; [constructor|intros q []]. }
    assert (R' : row_ok n (match mfind rep r with Some _ => r | None => mset rep [] r end)).
    { destruct (mfind rep r) eqn:F; auto. destruct R as [S B]. split; [apply mset_sorted; auto|].
      intros c s. rewrite mfind_mset. destruct (keqb_spec c rep) as [->|]; [|apply B].
      intros [= <-]. split; auto. split; [constructor|intros q []]. }
    destruct R' as [S B]. split; [apply mset_sorted; auto|]. intros c s. rewrite mfind_mset.
    destruct (keqb_spec c j) as [->|]; [|apply B]. intros [= <-]. split; [apply Hm; left; auto|auto].
  Qed.

  Definition uns_step (r : row) (e : N * (nat * list N)) : row := let '(rep, (_, ms)) := e in uns_inner rep ms r.

  Lemma uns_fold_get : forall l r,
    NoDup (map fst l) ->
    (forall rep i ms rep' i' ms' c, In (rep, (i, ms)) l -> In (rep', (i', ms')) l -> In c ms -> In c ms' -> rep = rep') ->
    (forall rep i ms, In (rep, (i, ms)) l -> In rep ms) ->
    (forall c rep i ms, In (rep, (i, ms)) l -> In c ms -> row_get (fold_left uns_step l r) c = row_get r rep) /\
    (forall c, (forall rep i ms, In (rep, (i, ms)) l -> ~ In c ms) -> row_get (fold_left uns_step l r) c = row_get r c).
  Proof.
    induction l as [|[rep0 [i0 ms0]] l IH]; intros r ND HD HS; cbn [fold_left].
    - split; [intros c rep i ms []|auto].
    - inversion ND as [|? ? ND1 ND2]; subst.
      destruct (IH (uns_step r (rep0, (i0, ms0)))) as [A B]; clear IH; auto.
      { intros. eapply HD; try (right; eassumption); eauto. }
      { intros. eapply HS; right; eauto. }
      cbn [uns_step] in *.
      assert (D0 : forall rep i ms c, In (rep, (i, ms)) l -> In c ms -> ~ In c ms0).
      { intros rep i ms c H1 H2 H3. apply ND1. apply in_map_iff. exists (rep, (i, ms)). split; auto. cbn.
        eapply HD; [right; exact H1|left; reflexivity|exact H2|exact H3]. }
      split.
      + intros c rep i ms [[= -> -> ->]|Hin] Hc.
        * rewrite B; [rewrite uns_inner_get; apply smem_in in Hc; rewrite Hc; auto|].
          intros rep' i' ms' H1 H2. eapply D0; eauto.
        * rewrite (A c rep i ms); auto. rewrite uns_inner_get.
          assert (X : smem rep ms0 = false) by (apply smem_false; eapply D0; eauto; eapply HS; right; eauto). rewrite X. auto.
      + intros c H. rewrite B; [|intros; eapply H; right; eauto]. rewrite uns_inner_get.
        assert (X : smem c ms0 = false) by (apply smem_false; eapply H; left; eauto). rewrite X. auto.
  Qed.

  Lemma unsparse_row_get : forall p r c, wf_part p -> row_get (unsparse_row p r) c = row_get r (rep_or_self p c).
  Proof.
    intros p r c W. change (unsparse_row p r) with (fold_left uns_step (pset p) r).
    destruct (pset_classes p W) as [P1 [P2 [P3 [P4 P5]]]]. destruct (uns_fold_get (pset p) r P1 P2 P3) as [A B].
    unfold rep_or_self. destruct (part_rep p c) as [rep|] eqn:R.
    - destruct (P5 _ _ R) as [i [ms [H1 H2]]]. eapply A; eauto.
    - apply B. intros rep i ms H1 H2. apply (P4 _ _ _ _ H1) in H2. congruence.
  Qed.

  Lemma unsparse_row_ok : forall p n r, wf_part p -> row_ok n r -> row_ok n (unsparse_row p r).
  Proof.
    intros p n r W. change (unsparse_row p r) with (fold_left uns_step (pset p) r).
    destruct (pset_classes p W) as [P1 [P2 [P3 [P4 P5]]]].
    assert (X : forall l r, (forall e, In e l -> In e (pset p)) -> row_ok n r -> row_ok n (fold_left uns_step l r)).
    { induction l as [|[rep [i ms]] l IH]; intros r0 Hl R; cbn [fold_left]; auto.
      apply IH; [intros; apply Hl; right; auto|]. cbn [uns_step].
      assert (Hin : In (rep, (i, ms)) (pset p)) by (apply Hl; left; auto). apply uns_inner_ok; auto.
      - pose proof (P4 _ _ _ _ Hin (P3 _ _ _ Hin)) as H. apply (wp_range _ W) in H; tauto.
      - intros j Hj. apply (P4 _ _ _ _ Hin) in Hj. apply (wp_range _ W) in Hj; tauto. }
    apply X; auto.
  Qed.

  Lemma unsparse_row_nil_get : forall p c, wf_part p -> row_get (unsparse_row p []) c = [].
  Proof. intros p c W. rewrite unsparse_row_get; auto. Qed.
End Uns.

Lemma unsparse_spec : forall f, wf f -> basic (unsparse f) /\ size (unsparse f) = size f /\
  initial (unsparse f) = initial f /\ finals (unsparse f) = finals f /\ sparsed (unsparse f) = false /\
  (forall p c q, raw (unsparse f) p c q <-> edge f p c q).
Proof.
  intros f W. assert (Sz : size (unsparse f) = size f) by (unfold size, unsparse; cbn; apply map_length).
  assert (Rw : forall p, p < size f -> row_at (unsparse f) p = unsparse_row (letters f) (row_at f p)).
  { intros p Hp. unfold row_at, unsparse; cbn [trans set_trans set_sparsed].
    rewrite nth_indep with (d' := unsparse_row (letters f) []) by (rewrite map_length; auto). apply map_nth. }
  assert (Ro : rows_ok (unsparse f)).
  { intros p. rewrite Sz. destruct (lt_dec p (size f)) as [H|H].
    - rewrite Rw by auto. apply unsparse_row_ok; apply W.
    - rewrite row_at_out by (rewrite Sz; lia). apply row_ok_nil. }
  splits; auto.
  - constructor; auto; try rewrite Sz; try apply W.
  - intros p c q. destruct (lt_dec p (size f)) as [H|H].
    + unfold raw. rewrite Rw by auto. rewrite unsparse_row_get by apply W. reflexivity.
    + split; intros X; exfalso; apply H.
      * apply raw_bound in X; auto. rewrite Sz in X; tauto.
      * apply edge_bound in X; auto. tauto.
Qed.

(** ** Epsilon closure *)
Definition eps (f : fsm) (p q : nat) : Prop := raw f p Epsilon q.

Lemma dest_eps : forall f p q, In q (destinations f p Epsilon) <-> eps f p q.
Proof. intros f p q. unfold destinations, translate. rewrite N.eqb_refl, orb_true_r. reflexivity. Qed.

Record eadd (f g : fsm) (S : nat -> nat -> Prop) : Prop := {
  ea_size : size g = size f;
  ea_init : initial g = initial f;
  ea_fin : finals g = finals f;
  ea_raw : forall p c q, raw g p c q <-> raw f p c q \/ (c = Epsilon /\ S p q);
  ea_rows : rows_ok f -> rows_ok g
}.
Lemma eadd_refl : forall f, eadd f f (fun _ _ => False).
Proof. intros f; constructor; auto. tauto. Qed.
Lemma eadd_trans : forall f g h S T, eadd f g S -> eadd g h T -> eadd f h (fun p q => S p q \/ T p q).
Proof. intros f g h S T [] []. constructor; try congruence; auto. intros p c q. rewrite ea_raw1, ea_raw0. tauto. Qed.
Lemma eadd_ext : forall f g S T, eadd f g S -> (forall p q, S p q <-> T p q) -> eadd f g T.
Proof. intros f g S T [] E. constructor; auto. intros p c q. rewrite ea_raw0, E. tauto. Qed.

Definition inv_ok (f : fsm) (inv : list (list nat)) : Prop :=
  length inv = size f /\ forall p q, In p (nth q inv []) <-> eps f p q.

Lemma inverse_eps_ok : forall f, rows_ok f -> inv_ok f (inverse_eps f).
Proof.
  intros f W. unfold inverse_eps.
  assert (A : gadd (repeat [] (size f)) (inverse_eps f) (fun q p => exists from, In from (seq 0 (size f)) /\
     exists to, In to (destinations f from Epsilon) /\ q = to /\ p = from)).
  { unfold inverse_eps. apply gadd_fold. intros g1 from T1 H1 A1. apply gadd_fold. intros g2 to T2 H2 A2.
    apply gadd_upd. rewrite (ga_len _ _ _ A2), (ga_len _ _ _ A1), repeat_length.
    apply dest_eps, raw_bound in H2; tauto. }
  destruct A as [A1 A2]. unfold inverse_eps in *. split; [rewrite A1; apply repeat_length|].
  intros p q. rewrite A2, nth_repeat_nil. split.
  - intros [[]|[from [Hf [to [Ht [-> ->]]]]]]. apply dest_eps; auto.
  - intros H. right. exists p. split; [apply in_seq; apply raw_bound in H; auto; lia|].
    exists q. split; auto. apply dest_eps; auto.
Qed.

Lemma shortcut_ok : forall f inv from thru g' inv', rows_ok f -> inv_ok f inv -> from < size f ->
  shortcut_epsilon from thru (f, inv) = (g', inv') ->
  eadd f g' (fun p q => p = from /\ eps f thru q) /\ inv_ok g' inv'.
Proof.
  intros f inv from thru g' inv' W I Hf. unfold shortcut_epsilon.
  set (has := match mfind from (outputs f) with Some _ => true | None => false end).
  set (step := fun '(g, inv) to => _).
  assert (G : forall l g inv T, (forall t, In t l -> t < size f) -> eadd f g T -> inv_ok g inv ->
    forall g' inv', fold_left step l (g, inv) = (g', inv') ->
    eadd f g' (fun p q => T p q \/ (p = from /\ In q l)) /\ inv_ok g' inv').
  { clear g' inv' inv I. induction l as [|t l IH]; intros g inv T Hl A I g' inv' E; cbn [fold_left] in E.
    - injection E as <- <-. split; auto. eapply eadd_ext; [exact A|]. cbn; tauto.
    - cbn [step] in E. set (g1 := connect g from t Epsilon) in *.
      assert (Ht : t < size f) by (apply Hl; left; auto).
      assert (A0 : adds g g1 (fun p c q => p = from /\ c = Epsilon /\ q = t)).
      { apply connect_adds; [rewrite (ea_size _ _ _ A); auto|rewrite (ea_size _ _ _ A); auto|reflexivity]. }
      set (g2 := if has then _ else g1) in *.
      assert (A2 : eadd g g2 (fun p q => p = from /\ q = t)).
      { assert (A1 : eadd g g1 (fun p q => p = from /\ q = t)).
        { destruct A0. constructor; auto. intros p c q. rewrite ad_raw. tauto. }
        unfold g2. destruct has; auto. destruct A1. constructor; auto. }
      apply IH with (T := fun p q => T p q \/ (p = from /\ q = t)) in E.
      + destruct E as [E1 E2]. split; auto. eapply eadd_ext; [exact E1|]. cbn. intuition.
      + intros; apply Hl; right; auto.
      + eapply eadd_trans; eauto.
      + destruct I as [I1 I2]. split; [rewrite upd_length, I1, (ea_size _ _ _ A2); auto|].
        intros p q. unfold eps. rewrite (ea_raw _ _ _ A2), nth_upd.
        assert (Hlt : (t <? length inv) = true) by (apply Nat.ltb_lt; rewrite I1, (ea_size _ _ _ A); auto).
        rewrite Hlt, andb_true_r. destruct (Nat.eqb_spec q t) as [->|].
        * rewrite sadd_in, I2. unfold eps. intuition.
        * rewrite I2. unfold eps. intuition. }
  intros E. apply (G _ f inv (fun _ _ => False)) in E; auto using eadd_refl.
  - destruct E as [E1 E2]. split; auto. eapply eadd_ext; [exact E1|]. cbn. intros p q. rewrite dest_eps. tauto.
  - intros t Ht. apply dest_eps, raw_bound in Ht; tauto.
Qed.

Definition close_inner (thru : nat) (acc : fsm * list (list nat)) (froms : list nat) :=
  fold_left (fun acc from => if Nat.eqb from thru then acc else shortcut_epsilon from thru acc) froms acc.

Lemma close_inner_ok : forall thru froms f inv g' inv', rows_ok f -> inv_ok f inv ->
  (forall p, In p froms -> p < size f) ->
  close_inner thru (f, inv) froms = (g', inv') ->
  eadd f g' (fun p q => In p froms /\ p <> thru /\ eps f thru q) /\ inv_ok g' inv'.
Proof.
  unfold close_inner. induction froms as [|x froms IH]; intros f inv g' inv' W I Hb E; cbn [fold_left] in E.
  - injection E as <- <-. split; auto. eapply eadd_ext; [apply eadd_refl|]. cbn; tauto.
  - destruct (Nat.eqb_spec x thru) as [->|Hne].
    + apply IH in E; auto; [|intros; apply Hb; right; auto]. destruct E as [E1 E2]. split; auto.
      eapply eadd_ext; [exact E1|]. cbn. intuition congruence.
    + destruct (shortcut_epsilon x thru (f, inv)) as [g1 inv1] eqn:S.
      apply shortcut_ok in S; auto; [|apply Hb; left; auto]. destruct S as [S1 S2].
      apply IH in E; auto.
      * destruct E as [E1 E2]. split; auto. eapply eadd_ext; [eapply eadd_trans; [exact S1|exact E1]|].
        cbn. intros p q. unfold eps at 2. rewrite (ea_raw _ _ _ S1). fold (eps f thru q). split.
        -- intros [[-> H]|[H1 [H2 [H3|[_ [H3 _]]]]]]; auto. congruence.
        -- intros [[<-|H1] [H2 H3]]; auto.
      * apply (ea_rows _ _ _ S1); auto.
      * intros p Hp. rewrite (ea_size _ _ _ S1). apply Hb; right; auto.
Qed.

Definition trans_thru (f : fsm) (m : nat) : Prop := forall p q, eps f p m -> eps f m q -> eps f p q.

Lemma close_step_trans : forall f g k, eadd f g (fun p q => eps f p k /\ p <> k /\ eps f k q) ->
  (forall m, m < k -> trans_thru f m) -> forall m, m < S k -> trans_thru g m.
Proof.
  intros f g k A T m Hm p q H1 H2.
  assert (E : forall a b, eps g a b <-> eps f a b \/ (eps f a k /\ a <> k /\ eps f k b)).
  { intros a b. unfold eps. rewrite (ea_raw _ _ _ A). unfold eps. tauto. }
  assert (E' : forall a b, eps f a k -> eps f k b -> eps g a b).
  { intros a b X Y. apply E. destruct (Nat.eq_dec a k) as [->|]; auto. }
  destruct (Nat.eq_dec m k) as [->|Hne].
  - apply E in H1 as [H1|[H1 _]], H2 as [H2|[_ [H2 _]]]; try congruence; apply E'; auto.
  - assert (Hlt : m < k) by lia. specialize (T m Hlt).
    apply E in H1 as [H1|[H1 [H1' H1'']]], H2 as [H2|[H2 [H2' H2'']]].
    + apply E. left. apply T; auto.
    + apply E'; auto.
    + apply E'; auto.
    + apply E'; auto.
Qed.

Lemma close_eps_ok : forall f, rows_ok f ->
  exists S, eadd f (close_eps f) S /\ (forall p q, S p q -> path (raw f) p [] q) /\
    forall p m q, eps (close_eps f) p m -> eps (close_eps f) m q -> eps (close_eps f) p q.
Proof.
  intros f W. unfold close_eps.
  set (step := fun '(g, inv) thru => _).
  assert (G : forall k, k <= size f -> forall g inv, fold_left step (seq 0 k) (f, inverse_eps f) = (g, inv) ->
     inv_ok g inv /\ (forall m, m < k -> trans_thru g m) /\
     exists S, eadd f g S /\ forall p q, S p q -> path (raw f) p [] q).
  { induction k as [|k IH]; intros Hk g inv E.
    - cbn in E. injection E as <- <-. split; [apply inverse_eps_ok; auto|]. split; [lia|].
      exists (fun _ _ => False). split; [apply eadd_refl|tauto].
    - rewrite seq_S, fold_left_app in E. cbn [fold_left] in E. cbn [plus] in E.
      destruct (fold_left step (seq 0 k) (f, inverse_eps f)) as [g1 inv1] eqn:E1.
      destruct (IH ltac:(lia) g1 inv1 eq_refl) as [I [T [S [A HS]]]]. cbn [step] in E.
      assert (W1 : rows_ok g1) by (apply (ea_rows _ _ _ A); auto).
      apply (close_inner_ok k) in E; auto.
      + destruct E as [A2 I2]. split; auto.
        assert (A2' : eadd g1 g (fun p q => eps g1 p k /\ p <> k /\ eps g1 k q)).
        { eapply eadd_ext; [exact A2|]. intros p q. destruct I as [_ I]. rewrite I. tauto. }
        split; [apply (close_step_trans _ _ _ A2' T)|].
        eexists. split; [eapply eadd_trans; [exact A|exact A2']|].
        assert (P : forall a b, eps g1 a b -> path (raw f) a [] b).
        { intros a b H. apply (ea_raw _ _ _ A) in H as [H|[_ H]]; auto. apply path_eps1; auto. }
        cbn. intros p q [H|[H1 [_ H2]]]; auto. change (@nil N) with (@nil N ++ []). eapply path_app; eauto.
      + intros p Hp. destruct I as [_ I]. apply I, raw_bound in Hp; auto. tauto. }
  destruct (fold_left step (seq 0 (size f)) (f, inverse_eps f)) as [g inv] eqn:E. cbn [fst].
  destruct (G (size f) (le_n _) _ _ E) as [I [T [S [A HS]]]]. exists S. split; auto. split; auto.
  intros p m q H1 H2. apply (T m); auto. apply raw_bound in H1; [|apply (ea_rows _ _ _ A); auto].
  rewrite (ea_size _ _ _ A) in H1; tauto.
Qed.

(** ** Merging *)
Record merged (f g : fsm) (R : nat -> N -> nat -> Prop) (F : nat -> Prop) : Prop := {
  mg_size : size g = size f;
  mg_init : initial g = initial f;
  mg_raw : forall p c q, raw g p c q <-> raw f p c q \/ R p c q;
  mg_fin : forall q, In q (finals g) <-> In q (finals f) \/ F q;
  mg_fs : ssorted (finals f) -> ssorted (finals g);
  mg_rows : rows_ok f -> rows_ok g
}.
Lemma merged_refl : forall f, merged f f (fun _ _ _ => False) (fun _ => False).
Proof. intros; constructor; auto; tauto. Qed.
Lemma merged_trans : forall f g h R F R' F', merged f g R F -> merged g h R' F' ->
  merged f h (fun p c q => R p c q \/ R' p c q) (fun q => F q \/ F' q).
Proof.
  intros f g h R F R' F' [] []. constructor; try congruence; auto.
  - intros p c q. rewrite mg_raw1, mg_raw0. tauto.
  - intros q. rewrite mg_fin1, mg_fin0. tauto.
Qed.
Lemma merged_ext : forall f g R F R' F', merged f g R F -> (forall p c q, R p c q <-> R' p c q) -> (forall q, F q <-> F' q) -> merged f g R' F'.
Proof.
  intros f g R F R' F' [] E1 E2. constructor; auto.
  - intros p c q. rewrite mg_raw0, E1. tauto.
  - intros q. rewrite mg_fin0, E2. tauto.
Qed.

Lemma merge_epsilon_ok : forall f from to, rows_ok f -> from < size f ->
  merged f (merge_epsilon from f to) (fun p c q => p = from /\ raw f to c q) (fun q => q = from /\ In to (finals f)).
Proof.
  intros f from to W Hf. unfold merge_epsilon.
  set (eo := match mfind from (outputs f) with Some m => mfind to m | None => None end).
  set (step := fun g '(c, tos) => _).
  assert (G : forall l g, (forall c tos, In (c, tos) l -> (c < MaxChar)%N /\ ssorted tos /\ forall q, In q tos -> q < size f) ->
     size g = size f -> 
     let g' := fold_left step l g in
     size g' = size g /\ initial g' = initial g /\ finals g' = finals g /\ tags g' = tags g /\ (rows_ok g -> rows_ok g') /\
     forall p c q, raw g' p c q <-> raw g p c q \/ (p = from /\ exists tos, In (c, tos) l /\ In q tos)).
  { induction l as [|[c0 tos0] l IH]; intros g Hl Sg; cbn [fold_left].
    - splits; auto. intros p c q. split; auto. intros [H|[_ [tos [[] _]]]]; auto.
    - set (g1 := step g (c0, tos0)).
      assert (Rw : forall p, row_at g1 p = if Nat.eqb p from then mset c0 (sunion (row_get (row_at g p) c0) tos0) (row_at g p) else row_at g p).
      { intros p. assert (X : row_at g1 p = nth p (upd from (fun r => mset c0 (sunion (row_get r c0) tos0) r) (trans g)) []) by (unfold g1, step; destruct eo; reflexivity).
        rewrite X, nth_upd. assert (Y : (from <? length (trans g)) = true) by (apply Nat.ltb_lt; change (from < size g); lia).
        rewrite Y, andb_true_r. reflexivity. }
      assert (Sz : size g1 = size g) by (unfold g1, step, size; destruct eo; cbn; apply upd_length).
      destruct (IH g1) as [A [B [C [D [E F]]]]]; [intros; apply Hl; right; auto|lia|].
      splits; try lia.
      + rewrite B. unfold g1, step. destruct eo; reflexivity.
      + rewrite C. unfold g1, step. destruct eo; reflexivity.
      + rewrite D. unfold g1, step. destruct eo; reflexivity.
      + intros R. apply E. intros p. rewrite Rw, Sz. destruct (Nat.eqb_spec p from); auto.
        destruct (R p) as [R1 R2]. split; [apply mset_sorted; auto|]. intros c s. rewrite mfind_mset.
        destruct (keqb_spec c c0) as [->|]; [|apply R2]. intros [= <-].
        destruct (Hl c0 tos0 (or_introl eq_refl)) as [X [Y Z]]. split; auto. split.
        * apply sunion_sorted. apply row_get_sorted; auto.
        * intros q Hq. apply sunion_in in Hq as [Hq|Hq]; [|rewrite Sg; auto]. apply raw_bound in Hq; auto. tauto.
      + intros p c q. rewrite F. assert (X : raw g1 p c q <-> raw g p c q \/ (p = from /\ c = c0 /\ In q tos0)).
        { unfold raw. rewrite Rw. destruct (Nat.eqb_spec p from) as [->|]; [|intuition].
          rewrite row_get_mset. destruct (keqb_spec c c0) as [->|]; [rewrite sunion_in|]; intuition. }
        rewrite X. split.
        * intros [[H|[H1 [H2 H3]]]|[H1 [tos [H2 H3]]]]; auto; right; split; auto; [exists tos0|exists tos]; split; auto; [left; congruence|right; auto].
        * intros [H|[H1 [tos [[[= <- <-]|H2] H3]]]]; eauto. }
  destruct (G (row_at f to) f) as [A [B [C [D [E F]]]]]; auto.
  { intros c tos Hin. destruct (W to) as [S R]. apply (msorted_find S) in Hin. apply R in Hin. auto. }
  set (f1 := fold_left step (row_at f to) f) in *. clearbody f1. cbv zeta.
  set (f2 := if is_final f1 to then set_final f1 from true else f1).
  set (f3 := match mfind to (tags f2) with None => f2 | Some t => _ end).
  set (f4 := match mfind to (outputs f3) with None => f3 | Some m => _ end).
  assert (T4 : trans f4 = trans f1).
  { unfold f4, f3, f2. destruct (is_final f1 to); cbn [set_final set_finals tags outputs];
      destruct (mfind to (tags f1)); cbn [set_tags outputs trans];
      match goal with |- context [mfind to ?o] => destruct (mfind to o) end; reflexivity. }
  assert (I4 : initial f4 = initial f1).
  { unfold f4, f3, f2. destruct (is_final f1 to); cbn [set_final set_finals tags outputs];
      destruct (mfind to (tags f1)); cbn [set_tags outputs trans];
      match goal with |- context [mfind to ?o] => destruct (mfind to o) end; reflexivity. }
  assert (F4 : finals f4 = finals f2).
  { unfold f4, f3. destruct (mfind to (tags f2)); cbn [set_tags outputs];
      match goal with |- context [mfind to ?o] => destruct (mfind to o) end; reflexivity. }
  assert (Sz : size f4 = size f1) by (unfold size; rewrite T4; auto).
  assert (Rw : forall p, row_at f4 p = row_at f1 p) by (intros; unfold row_at; rewrite T4; auto).
  constructor.
  - lia.
  - congruence.
  - intros p c q. unfold raw at 1. rewrite Rw. etransitivity; [apply F|]. rewrite (row_at_in f to c q W). tauto.
  - intros q. rewrite F4. unfold f2, is_final. destruct (smem to (finals f1)) eqn:X.
    + apply smem_in in X. rewrite C in X. cbn. rewrite sadd_in, C. tauto.
    + apply smem_false in X. rewrite C in *. tauto.
  - intros H. rewrite F4. unfold f2. destruct (is_final f1 to); [cbn; apply sadd_sorted|]; rewrite C; auto.
  - intros H p. rewrite Rw, Sz. apply E; auto.
Qed.

Definition merge_inner (from : nat) (f : fsm) (tos : list nat) : fsm :=
  fold_left (fun g to => if Nat.eqb to from then g else merge_epsilon from g to) tos f.

Lemma merge_inner_ok : forall from tos f, rows_ok f -> from < size f ->
  merged f (merge_inner from f tos)
    (fun p c q => p = from /\ exists t, In t tos /\ t <> from /\ raw f t c q)
    (fun q => q = from /\ exists t, In t tos /\ t <> from /\ In t (finals f)).
Proof.
  unfold merge_inner. induction tos as [|t tos IH]; intros f W Hf; cbn [fold_left].
  - eapply merged_ext; [apply merged_refl| |]; cbn; intros; split; try tauto; intros [_ [t [[] _]]].
  - destruct (Nat.eqb_spec t from) as [->|Hne].
    + eapply merged_ext; [apply IH; auto| |]; cbn beta; intros; split; intros [H1 [x [H2 [H3 H4]]]]; split; auto; exists x; splits; auto;
        (destruct H2 as [->|]; [congruence|auto]) || (right; auto).
    + pose proof (merge_epsilon_ok f from t W Hf) as M.
      eapply merged_ext; [eapply merged_trans; [exact M|apply IH]| |].
      * apply (mg_rows _ _ _ _ M); auto.
      * rewrite (mg_size _ _ _ _ M); auto.
      * cbn beta. intros p c q. split.
        -- intros [[-> H]|[-> [x [H1 [H2 H3]]]]]; split; auto; [exists t|exists x]; splits; auto; try (left; reflexivity); try (right; assumption).
           apply (mg_raw _ _ _ _ M) in H3 as [H3|[H3 _]]; auto; congruence.
        -- intros [-> [x [[<-|H1] [H2 H3]]]]; auto. right. split; auto. exists x. splits; auto. apply (mg_raw _ _ _ _ M); auto.
      * cbn beta. intros q. split.
        -- intros [[-> H]|[-> [x [H1 [H2 H3]]]]]; split; auto; [exists t|exists x]; splits; auto; try (left; reflexivity); try (right; assumption).
           apply (mg_fin _ _ _ _ M) in H3 as [H3|[H3 _]]; auto; congruence.
        -- intros [-> [x [[<-|H1] [H2 H3]]]]; auto. right. split; auto. exists x. splits; auto. apply (mg_fin _ _ _ _ M); auto.
Qed.

Lemma merged_ext2 : forall f g R F R' F', merged f g R F ->
  (forall p c q, raw f p c q \/ R p c q <-> raw f p c q \/ R' p c q) ->
  (forall q, In q (finals f) \/ F q <-> In q (finals f) \/ F' q) -> merged f g R' F'.
Proof.
  intros f g R F R' F' [] E1 E2. constructor; auto.
  - intros p c q. rewrite mg_raw0, E1. tauto.
  - intros q. rewrite mg_fin0, E2. tauto.
Qed.

Lemma merge_all_ok : forall h, rows_ok h ->
  (forall p m q, eps h p m -> eps h m q -> eps h p q) ->
  merged h (merge_all_eps h) (fun p c q => exists t, eps h p t /\ raw h t c q)
    (fun q => exists t, eps h q t /\ In t (finals h)).
Proof.
  intros h W T. unfold merge_all_eps.
  set (step := fun g from => _).
  assert (G : forall k, k <= size h ->
    merged h (fold_left step (seq 0 k) h) (fun p c q => p < k /\ exists t, eps h p t /\ raw h t c q)
      (fun q => q < k /\ exists t, eps h q t /\ In t (finals h))).
  { induction k as [|k IH]; intros Hk.
    - eapply merged_ext; [apply merged_refl| |]; cbn; intros; split; try tauto; lia.
    - specialize (IH ltac:(lia)). rewrite seq_S, fold_left_app. cbn [fold_left plus].
      set (g := fold_left step (seq 0 k) h) in *. clearbody g. unfold step.
      fold (merge_inner k g (destinations g k Epsilon)).
      assert (HE : forall t, In t (destinations g k Epsilon) <-> eps h k t).
      { intros t. rewrite dest_eps. unfold eps. rewrite (mg_raw _ _ _ _ IH). split; auto. intros [H|[H _]]; auto; lia. }
      eapply merged_ext2; [eapply merged_trans; [exact IH|apply merge_inner_ok]| |].
      + apply (mg_rows _ _ _ _ IH); auto.
      + rewrite (mg_size _ _ _ _ IH); lia.
      + cbn beta. intros p c q. split.
        * intros [H|[[H1 H2]|[-> [t [H1 [H2 H3]]]]]]; auto. right. split; [lia|]. apply HE in H1.
          apply (mg_raw _ _ _ _ IH) in H3 as [H3|[_ [t' [H3 H4]]]]; [eauto|]. exists t'. split; eauto.
        * intros [H|[H1 [t [H2 H3]]]]; auto. destruct (Nat.eq_dec p k) as [->|]; [|right; left; split; [lia|eauto]].
          destruct (Nat.eq_dec t k) as [->|Hne]; auto.
          right; right. split; auto. exists t. splits; auto; [apply HE; auto|]. apply (mg_raw _ _ _ _ IH); auto.
      + cbn beta. intros p. split.
        * intros [H|[[H1 H2]|[-> [t [H1 [H2 H3]]]]]]; auto. right. split; [lia|]. apply HE in H1.
          apply (mg_fin _ _ _ _ IH) in H3 as [H3|[_ [t' [H3 H4]]]]; [eauto|]. exists t'. split; eauto.
        * intros [H|[H1 [t [H2 H3]]]]; auto. destruct (Nat.eq_dec p k) as [->|]; [|right; left; split; [lia|eauto]].
          destruct (Nat.eq_dec t k) as [->|Hne]; auto.
          right; right. split; auto. exists t. splits; auto; [apply HE; auto|]. apply (mg_fin _ _ _ _ IH); auto. }
  eapply merged_ext; [apply (G (size h) (le_n _))| |]; cbn beta.
  - intros p c q. split; [tauto|]. intros [t [H1 H2]]. split; eauto. apply raw_bound in H1; auto. tauto.
  - intros q. split; [tauto|]. intros [t [H1 H2]]. split; eauto. apply raw_bound in H1; auto. tauto.
Qed.

(** ** Sparse *)
Local Opaque all_letters.
Lemma letters_equal_iff : forall t a b, letters_equal t a b = true <-> forall r, In r t -> mfind a r = mfind b r.
Proof.
  intros t a b. unfold letters_equal. rewrite forallb_forall. split; intros H r Hr; specialize (H r Hr).
  - destruct (mfind a r), (mfind b r); try congruence. apply seqb_eq in H. congruence.
  - rewrite H. destruct (mfind b r); auto. apply seqb_eq; auto.
Qed.

Lemma le_refl : forall t a, letters_equal t a a = true.
Proof. intros. apply letters_equal_iff; auto. Qed.
Lemma le_sym : forall t a b, letters_equal t a b = letters_equal t b a.
Proof. intros. apply eq_true_iff_eq. rewrite !letters_equal_iff. split; intros H r Hr; symmetry; auto. Qed.
Lemma le_trans : forall t a b c, letters_equal t a b = true -> letters_equal t b c = true -> letters_equal t a c = true.
Proof. intros t a b c. rewrite !letters_equal_iff. intros H1 H2 r Hr. rewrite H1, H2; auto. Qed.

Lemma sparse_letters : forall f, let p := letters (sparse f) in
  wf_part p /\ part_agrees (letters_equal (trans f)) p /\ forall c, part_contains p c = true <-> (c < MaxChar)%N /\ c <> Epsilon.
Proof.
  intros f. cbv zeta. unfold sparse. cbn [letters set_letters set_sparsed].
  set (ls := filter (fun c => negb (N.eqb c Epsilon)) all_letters).
  assert (E : forall l p0, fold_left (fun p c => if N.eqb c Epsilon then p else part_append (letters_equal (trans f)) c p) l p0
     = fold_left (fun p c => part_append (letters_equal (trans f)) c p) (filter (fun c => negb (N.eqb c Epsilon)) l) p0).
  { induction l as [|c l IH]; intros p0; cbn [fold_left filter]; auto. rewrite IH. destruct (N.eqb c Epsilon); reflexivity. }
  rewrite E. fold ls.
  assert (L : forall c, In c ls <-> (c < MaxChar)%N /\ c <> Epsilon).
  { intros c. unfold ls. rewrite filter_In, all_letters_in, negb_true_iff, N.eqb_neq. tauto. }
  destruct (part_build (letters_equal (trans f)) (le_refl _) (le_sym _) ls part_empty) as [A [B C]].
  - apply wf_part_empty.
  - split; cbn; discriminate.
  - apply NoDup_filter, all_letters_NoDup.
  - intros c Hc. apply L; auto.
  - reflexivity.
  - splits; auto. intros c. rewrite C, L. split; [intros [H|H]; auto; discriminate|auto].
Qed.

Definition all_in_part (f : fsm) : Prop := forall c, (c < MaxChar)%N -> c <> Epsilon -> exists r, part_rep (letters f) c = Some r.

Lemma sparse_same : forall f c r p, part_rep (letters (sparse f)) c = Some r -> mfind c (row_at f p) = mfind r (row_at f p).
Proof.
  intros f c r p H. destruct (sparse_letters f) as [_ [[A _] _]]. apply A in H. rewrite letters_equal_iff in H.
  destruct (lt_dec p (size f)).
  - symmetry. apply H. apply nth_In. auto.
  - rewrite row_at_out by lia. auto.
Qed.

Lemma sparse_ok : forall f, basic f -> isAlt f = false -> wf (sparse f) /\ all_in_part (sparse f) /\
  forall p c q, edge (sparse f) p c q <-> raw f p c q.
Proof.
  intros f B HA. destruct (sparse_letters f) as [W [A C]].
  assert (S : forall p c r q, part_rep (letters (sparse f)) c = Some r -> (raw f p c q <-> raw f p r q)).
  { intros p c r q H. unfold raw, row_get. rewrite (sparse_same f c r p H). tauto. }
  splits.
  - constructor; auto; try apply B.
    + intros p c r H _ q. exact (S p c r q H).
    + intros q c r H _ p. exact (S p c r q H).
    + intros H. change (isAlt f = true) in H. congruence.
  - intros c H1 H2. specialize (proj2 (C c) (conj H1 H2)). unfold part_contains, part_rep.
    destruct (mfind c _); [eauto|discriminate].
  - intros p c q. unfold edge, erep. change (row_at (sparse f) p) with (row_at f p).
    destruct (part_rep (letters (sparse f)) c) as [r|] eqn:R; [|reflexivity]. symmetry. exact (S p c r q R).
Qed.

(** Removing epsilon moves once they are transitively closed. *)
Section EpsFree.
  Variables (E E' : nat -> N -> nat -> Prop) (F F' : nat -> Prop).
  Hypothesis Etrans : forall p m q, E p Epsilon m -> E m Epsilon q -> E p Epsilon q.
  Hypothesis E'_spec : forall p c q, E' p c q <-> c <> Epsilon /\ (E p c q \/ exists t, E p Epsilon t /\ E t c q).
  Hypothesis F'_spec : forall q, F' q <-> F q \/ exists t, E q Epsilon t /\ F t.

  Lemma eps_free_complete : forall p w q, path E p w q -> F q -> exists q', path E' p w q' /\ F' q'.
  Proof.
    intros p w q P Fq. induction P as [p|p m w q H P IH|p c m w q Hc H P IH].
    - exists p. split; [constructor|]. apply F'_spec; auto.
    - destruct (IH Fq) as [q' [P' F'']]. destruct (path_inv _ _ _ _ P') as [[-> ->]|[(m1 & H1 & P1)|(c & w1 & m1 & -> & Hc & H1 & P1)]].
      + exists p. split; [constructor|]. apply F'_spec. apply F'_spec in F'' as [X|[t [X Y]]]; right; eauto.
      + apply E'_spec in H1. tauto.
      + exists q'. split; auto. eapply path_step; eauto. apply E'_spec in H1 as [_ H1]. apply E'_spec. split; auto.
        right. destruct H1 as [X|[t [X Y]]]; eauto.
    - destruct (IH Fq) as [q' [P' F'']]. exists q'. split; auto. eapply path_step; eauto. apply E'_spec; auto.
  Qed.
  Lemma eps_free_sound : forall p w q, path E' p w q -> F' q -> exists q', path E p w q' /\ F q'.
  Proof.
    intros p w q P Fq. induction P as [p|p m w q H P IH|p c m w q Hc H P IH].
    - apply F'_spec in Fq as [X|[t [X Y]]]; [exists p|exists t]; split; auto; [constructor|apply path_eps1; auto].
    - apply E'_spec in H. tauto.
    - destruct (IH Fq) as [q' [P' F'']]. exists q'. split; auto. apply E'_spec in H as [_ [X|[t [X Y]]]].
      + eapply path_step; eauto.
      + eapply path_eps; eauto. eapply path_step; eauto.
  Qed.
End EpsFree.

Lemma path_closure : forall (E E' : nat -> N -> nat -> Prop), (forall p c q, E p c q -> E' p c q) ->
  (forall p c q, E' p c q -> E p c q \/ (c = Epsilon /\ path E p [] q)) ->
  forall p w q, path E p w q <-> path E' p w q.
Proof.
  intros E E' H1 H2 p w q. split; intros P.
  - eapply path_mono; eauto.
  - induction P as [p|p m w q H P IH|p c m w q Hc H P IH].
    + constructor.
    + apply H2 in H as [H|[_ H]].
      * eapply path_eps; eauto.
      * change w with ([] ++ w). eapply path_app; eauto.
    + apply H2 in H as [H|[H _]]; [|congruence]. eapply path_step; eauto.
Qed.

(** C14 *)
Lemma remove_epsilons_ok : forall f, wf f -> let g := remove_epsilons f in
  wf g /\ all_in_part g /\ size g = size f /\ initial g = initial f /\ sparsed g = true /\
  isAlt g = false /\
  (forall p q, ~ raw g p Epsilon q) /\ (forall p q, ~ edge g p Epsilon q) /\ lang_eq (accepts g) (accepts f).
Proof.
  intros f W. destruct (unsparse_spec f W) as [B [Sz [In1 [Fi [_ Hraw]]]]].
  cbv zeta. unfold remove_epsilons. set (f1 := unsparse f) in *. clearbody f1.
  destruct (close_eps_ok f1 (ba_rows _ B)) as [S [A [HS T]]]. set (f2 := close_eps f1) in *. clearbody f2.
  assert (W2 : rows_ok f2) by (apply (ea_rows _ _ _ A), B).
  pose proof (merge_all_ok f2 W2 T) as M. set (f3 := merge_all_eps f2) in *. clearbody f3.
  set (f4 := set_trans f3 (map (merase Epsilon) (trans f3))).
  assert (Sz4 : size f4 = size f) by (unfold f4, size; cbn [trans set_trans]; rewrite map_length; change (length (trans f3)) with (size f3);
     rewrite (mg_size _ _ _ _ M), (ea_size _ _ _ A); auto).
  assert (W3 : rows_ok f3) by (apply (mg_rows _ _ _ _ M); auto).
  assert (Sz3 : size f3 = size f) by (rewrite (mg_size _ _ _ _ M), (ea_size _ _ _ A); auto).
  assert (Rw : forall p, row_at f4 p = merase Epsilon (row_at f3 p)).
  { intros p. unfold row_at, f4. cbn [trans set_trans]. change (@nil (N * list nat)) with (merase Epsilon (@nil (N * list nat))) at 1. apply map_nth. }
  assert (R4 : forall p c q, raw f4 p c q <-> c <> Epsilon /\ raw f3 p c q).
  { intros p c q. unfold raw, row_get. rewrite Rw, mfind_merase. destruct (keqb_spec c Epsilon); cbn; tauto. }
  assert (F3 : forall q, In q (finals f3) -> q < size f).
  { intros q Hq. apply (mg_fin _ _ _ _ M) in Hq. rewrite (ea_fin _ _ _ A), Fi in Hq. destruct Hq as [Hq|[t [Hq _]]].
    - apply (wf_fin _ W); auto.
    - apply raw_bound in Hq; auto. rewrite (ea_size _ _ _ A), Sz in Hq. tauto. }
  assert (B4 : basic f4).
  { constructor.
    - rewrite Sz4. change (initial f4) with (initial f3). rewrite (mg_init _ _ _ _ M), (ea_init _ _ _ A), In1. apply W.
    - rewrite Sz4. exact F3.
    - apply (mg_fs _ _ _ _ M). rewrite (ea_fin _ _ _ A). apply B.
    - intros p. rewrite Rw, Sz4, <- Sz3. destruct (W3 p) as [X Y]. split; [apply merase_sorted; auto|].
      intros c s. rewrite mfind_merase. destruct (keqb_spec c Epsilon); [discriminate|apply Y]. }
  assert (C : sparse (clear_hints f4) = clear_hints (sparse f4)) by reflexivity.
  destruct (sparse_ok (clear_hints f4)) as [S1 [S2 S3]]; [destruct B4; constructor; auto|reflexivity|].
  rewrite C in *.
  assert (S3' : forall p c q, edge (clear_hints (sparse f4)) p c q <-> raw f4 p c q) by exact S3.
  splits; auto.
  - change (initial f3 = initial f). rewrite (mg_init _ _ _ _ M), (ea_init _ _ _ A), In1. auto.
  - intros p q H. change (raw f4 p Epsilon q) in H. apply R4 in H. tauto.
  - intros p q H. apply (proj1 (S3' _ _ _)) in H. apply R4 in H. tauto.
  - assert (P2 : forall p w q, path (edge f) p w q <-> path (raw f2) p w q).
    { apply path_closure.
      - intros p c q H. apply (ea_raw _ _ _ A). left. apply Hraw; auto.
      - intros p c q H. apply (ea_raw _ _ _ A) in H as [H|[H1 H2]]; [left; apply Hraw; auto|]. right. split; auto.
        apply HS in H2. eapply path_mono; [|exact H2]. intros; apply Hraw; auto. }
    assert (E' : forall p c q, edge (clear_hints (sparse f4)) p c q <-> c <> Epsilon /\ (raw f2 p c q \/ exists t, raw f2 p Epsilon t /\ raw f2 t c q)).
    { intros p c q. rewrite S3', R4, (mg_raw _ _ _ _ M). reflexivity. }
    assert (F' : forall q, In q (finals f3) <-> In q (finals f) \/ exists t, raw f2 q Epsilon t /\ In t (finals f)).
    { intros q. rewrite (mg_fin _ _ _ _ M), (ea_fin _ _ _ A), Fi. reflexivity. }
    intros w. unfold accepts. change (initial (clear_hints (sparse f4))) with (initial f3). change (finals (clear_hints (sparse f4))) with (finals f3).
    rewrite (mg_init _ _ _ _ M), (ea_init _ _ _ A), In1. split.
    + intros [q [P Fq]]. destruct (eps_free_sound (raw f2) _ (fun q => In q (finals f)) (fun q => In q (finals f3)) E' F' _ _ _ P Fq) as [q' [P' F'']]. exists q'. split; auto. apply P2; auto.
    + intros [q [P Fq]]. apply P2 in P. apply (eps_free_complete (raw f2) _ (fun q => In q (finals f)) (fun q => In q (finals f3)) T E' F' _ _ _ P Fq).
Qed.
