From Coq Require Import List Bool Arith NArith Lia.
From Verif Require Import Util Spec PartitionModel FsmModel DetermineModel RunModel RunSpec ScannerModel GlueModel CountModel CountSpec
  RunProofs.
Import ListNotations.
Local Open Scope N_scope.

(** ** The counters of one regexp *)
Lemma nth_upd : forall A (d : A) l i j f, (i < length l)%nat -> nth j (upd i f l) d = if Nat.eqb i j then f (nth j l d) else nth j l d.
Proof.
  intros A d l. induction l as [|x l IH]; intros i j f H; [cbn in H; lia|]. destruct i, j; cbn [upd nth Nat.eqb]; auto. apply IH. cbn in H. lia.
Qed.
Lemma upd_len : forall A l i (f : A -> A), length (upd i f l) = length l.
Proof. intros A l. induction l as [|x l IH]; intros [|i] f; cbn [upd length]; auto. Qed.

Lemma increments_len : forall m cur, length (increments m cur) = length cur.
Proof.
  intros m cur. unfold increments. generalize re_indices. intros l. revert cur. induction l as [|i l IH]; intros cur; cbn [fold_left]; auto.
  rewrite IH. destruct (N.testbit m (N.of_nat i)); auto. apply upd_len.
Qed.
Lemma re_indices_in : forall i, In i re_indices <-> (i < 16)%nat.
Proof. intros i. unfold re_indices. rewrite <- in_rev, in_seq. lia. Qed.
Lemma re_indices_nodup : NoDup re_indices.
Proof. unfold re_indices. apply NoDup_rev, seq_NoDup. Qed.

Lemma increments_nth : forall m cur i, length cur = 16%nat -> (i < 16)%nat ->
  nth i (increments m cur) 0 = if N.testbit m (N.of_nat i) then (nth i cur 0 + 1) mod two32 else nth i cur 0.
Proof.
  intros m cur i L Hi. unfold increments.
  assert (X : forall l cur, length cur = 16%nat -> NoDup l -> (forall j, In j l -> (j < 16)%nat) ->
    nth i (fold_left (fun cur i => if N.testbit m (N.of_nat i) then upd i (fun x => (x + 1) mod two32) cur else cur) l cur) 0 =
    if existsb (Nat.eqb i) l && N.testbit m (N.of_nat i) then (nth i cur 0 + 1) mod two32 else nth i cur 0).
  { clear cur L. induction l as [|j l IH]; intros cur L D R; [reflexivity|]. cbn [fold_left existsb]. inversion D as [|? ? D1 D2]; subst.
    rewrite IH; auto; [|destruct (N.testbit m (N.of_nat j)); [rewrite upd_len|]; auto|intros; apply R; right; auto].
    destruct (Nat.eqb_spec i j) as [->|Hne].
    - assert (E : existsb (Nat.eqb j) l = false).
      { destruct (existsb (Nat.eqb j) l) eqn:E; auto. apply existsb_exists in E as (x & E1 & E2). apply Nat.eqb_eq in E2. subst. contradiction. }
      rewrite E. cbn [orb andb]. destruct (N.testbit m (N.of_nat j)); auto. rewrite nth_upd by lia. rewrite Nat.eqb_refl. reflexivity.
    - cbn [orb]. assert (Z : nth i (if N.testbit m (N.of_nat j) then upd j (fun x => (x + 1) mod two32) cur else cur) 0 = nth i cur 0).
      { destruct (N.testbit m (N.of_nat j)); auto. rewrite nth_upd by (rewrite L; apply R; left; auto). destruct (Nat.eqb_spec j i); congruence. }
      rewrite Z. reflexivity. }
  rewrite X; auto; [|apply re_indices_nodup|intros; apply re_indices_in; auto].
  assert (E : existsb (Nat.eqb i) re_indices = true) by (apply existsb_exists; exists i; split; [apply re_indices_in; auto|apply Nat.eqb_refl]).
  rewrite E. reflexivity.
Qed.

Lemma resets_nth : forall m cur tot i, length cur = 16%nat -> length tot = 16%nat -> (i < 16)%nat ->
  let '(cur', tot') := resets m cur tot in length cur' = 16%nat /\ length tot' = 16%nat /\
  nth i cur' 0 = (if N.testbit m (16 + N.of_nat i) then 0 else nth i cur 0) /\
  nth i tot' 0 = (if N.testbit m (16 + N.of_nat i) then N.max (nth i tot 0) (nth i cur 0) else nth i tot 0).
Proof.
  intros m cur tot i L1 L2 Hi. unfold resets.
  set (F := fun '(cur, tot) i => if N.testbit m (16 + N.of_nat i) && negb (nth i cur 0 =? 0)
      then (upd i (fun _ => 0) cur, upd i (fun t => N.max t (nth i cur 0)) tot) else (cur, tot)).
  assert (X : forall l cur tot, length cur = 16%nat -> length tot = 16%nat -> NoDup l -> (forall j, In j l -> (j < 16)%nat) ->
    let '(cur', tot') := fold_left F l (cur, tot) in length cur' = 16%nat /\ length tot' = 16%nat /\
    nth i cur' 0 = (if existsb (Nat.eqb i) l && N.testbit m (16 + N.of_nat i) then 0 else nth i cur 0) /\
    nth i tot' 0 = (if existsb (Nat.eqb i) l && N.testbit m (16 + N.of_nat i) then N.max (nth i tot 0) (nth i cur 0) else nth i tot 0)).
  { clear cur tot L1 L2. induction l as [|j l IH]; intros cur tot L1 L2 D R; [cbn; auto|]. cbn [fold_left existsb]. inversion D as [|? ? D1 D2]; subst.
    specialize (fun c t a b => IH c t a b D2 (fun x Hx => R x (or_intror Hx))). specialize (R j (or_introl eq_refl)).
    destruct (F (cur, tot) j) as [cur1 tot1] eqn:EF. unfold F in EF.
    assert (Y : length cur1 = 16%nat /\ length tot1 = 16%nat /\
      nth i cur1 0 = (if Nat.eqb i j && N.testbit m (16 + N.of_nat i) then 0 else nth i cur 0) /\
      nth i tot1 0 = (if Nat.eqb i j && N.testbit m (16 + N.of_nat i) then N.max (nth i tot 0) (nth i cur 0) else nth i tot 0)).
    { destruct (N.testbit m (16 + N.of_nat j)) eqn:T; cbn [andb] in EF.
      - destruct (N.eqb_spec (nth j cur 0) 0) as [E0|E0]; cbn [negb] in EF; injection EF as <- <-.
        + splits; auto; destruct (Nat.eqb_spec i j) as [->|]; cbn [andb]; auto; rewrite T; lia.
        + rewrite !upd_len. splits; auto; rewrite nth_upd by lia; destruct (Nat.eqb_spec i j) as [->|Hne]; cbn [andb]; rewrite ?T, ?Nat.eqb_refl; auto;
            destruct (Nat.eqb_spec j i); congruence.
      - injection EF as <- <-. splits; auto; destruct (Nat.eqb_spec i j) as [->|]; cbn [andb]; auto; rewrite T; auto. }
    destruct Y as (Y1 & Y2 & Y3 & Y4). specialize (IH cur1 tot1 Y1 Y2). destruct (fold_left F l (cur1, tot1)) as [cur2 tot2].
    destruct IH as (Z1 & Z2 & Z3 & Z4). splits; auto.
    - rewrite Z3, Y3. destruct (Nat.eqb_spec i j) as [->|]; cbn [orb andb]; auto.
      destruct (existsb (Nat.eqb j) l), (N.testbit m (16 + N.of_nat j)); reflexivity.
    - rewrite Z4, Y3, Y4. destruct (Nat.eqb_spec i j) as [->|]; cbn [orb andb]; auto.
      assert (E : existsb (Nat.eqb j) l = false).
      { destruct (existsb (Nat.eqb j) l) eqn:E; auto. apply existsb_exists in E as (x & E1 & E2). apply Nat.eqb_eq in E2. subst. contradiction. }
      rewrite E. reflexivity. }
  specialize (X re_indices cur tot L1 L2 re_indices_nodup (fun j H => proj1 (re_indices_in j) H)).
  assert (E : existsb (Nat.eqb i) re_indices = true) by (apply existsb_exists; exists i; split; [apply re_indices_in; auto|apply Nat.eqb_refl]).
  rewrite E in X. exact X.
Qed.

Record view := mkView { v_cur : N; v_tot : N; v_upd : bool }.
Definition view_of (i : nat) (st : cstate) : view :=
  mkView (nth i (c_current st) 0) (nth i (c_total st) 0) (N.testbit (c_mask st) (16 + N.of_nat i)).
Definition v_inc (b : bool) (v : view) : view := if b then mkView ((v_cur v + 1) mod two32) (v_tot v) true else v.
Definition v_rst (b : bool) (v : view) : view :=
  if b && v_upd v then mkView 0 (N.max (v_tot v) (v_cur v)) false else v.
Definition v_take (adv : bool) (i : nat) (a : N) (v : view) : view :=
  let inc := v_inc (N.testbit a (N.of_nat i)) in
  let rst := v_rst (N.testbit a (16 + N.of_nat i)) in
  if adv then inc (rst v) else rst (inc v).

Definition c_ok (st : cstate) : Prop := length (c_current st) = 16%nat /\ length (c_total st) = 16%nat.

Lemma testbit_land0 : forall a m j, N.land a m =? 0 = true -> N.testbit m j = true -> N.testbit a j = false.
Proof.
  intros a m j H T. apply N.eqb_eq in H. assert (X : N.testbit (N.land a m) j = false) by (rewrite H; apply N.bits_0).
  rewrite N.land_spec, T, andb_true_r in X. exact X.
Qed.
Lemma testbit_inc_mask : forall i, (i < 16)%nat -> N.testbit IncrementMask (N.of_nat i) = true.
Proof. intros i H. do 16 (destruct i as [|i]; [reflexivity|]). lia. Qed.
Lemma testbit_rst_mask : forall i, (i < 16)%nat -> N.testbit ResetMask (16 + N.of_nat i) = true.
Proof. intros i H. do 16 (destruct i as [|i]; [reflexivity|]). lia. Qed.
Lemma testbit_mod32 : forall a j, j < 32 -> N.testbit (a mod two32) j = N.testbit a j.
Proof. intros a j H. change two32 with (2 ^ 32). apply N.mod_pow2_bits_low. auto. Qed.

Lemma inc_view : forall i a st, (i < 16)%nat -> c_ok st ->
  let st' := if N.land a IncrementMask =? 0 then st else perform_increment a st in
  c_ok st' /\ c_state st' = c_state st /\ view_of i st' = v_inc (N.testbit a (N.of_nat i)) (view_of i st).
Proof.
  intros i a st Hi C. cbn zeta. destruct (N.land a IncrementMask =? 0) eqn:E.
  - rewrite (testbit_land0 _ _ _ E (testbit_inc_mask i Hi)). auto.
  - unfold perform_increment. destruct (N.eqb_spec a 0) as [->|Hne]; [rewrite N.bits_0; auto|].
    destruct C as [C1 C2]. unfold view_of. cbn [c_current c_total c_mask c_state]. splits; auto.
    + split; cbn [c_current c_total]; auto. rewrite increments_len. auto.
    + rewrite increments_nth by auto. rewrite N.lor_spec. replace (N.testbit (N.shiftl a 16) (16 + N.of_nat i)) with (N.testbit a (N.of_nat i)).
      * unfold v_inc. cbn [v_cur v_tot]. destruct (N.testbit a (N.of_nat i)); [rewrite orb_true_r; reflexivity|rewrite orb_false_r; reflexivity].
      * rewrite N.shiftl_spec_high' by lia. f_equal. lia.
Qed.
Lemma rst_view : forall i a st, (i < 16)%nat -> c_ok st ->
  let st' := if N.land a ResetMask =? 0 then st else perform_reset a st in
  c_ok st' /\ c_state st' = c_state st /\ view_of i st' = v_rst (N.testbit a (16 + N.of_nat i)) (view_of i st).
Proof.
  intros i a st Hi C. cbn zeta. destruct (N.land a ResetMask =? 0) eqn:E.
  - rewrite (testbit_land0 _ _ _ E (testbit_rst_mask i Hi)). auto.
  - unfold perform_reset. set (m := N.land a (c_mask st) mod two32).
    assert (T : N.testbit m (16 + N.of_nat i) = N.testbit a (16 + N.of_nat i) && N.testbit (c_mask st) (16 + N.of_nat i)).
    { unfold m. rewrite testbit_mod32 by lia. apply N.land_spec. }
    destruct (N.eqb_spec m 0) as [E0|Hne].
    + splits; auto. unfold v_rst, view_of. cbn [v_upd]. rewrite <- T, E0, N.bits_0. reflexivity.
    + destruct C as [C1 C2]. pose proof (resets_nth m _ _ i C1 C2 Hi) as R. destruct (resets m (c_current st) (c_total st)) as [cur tot].
      destruct R as (R1 & R2 & R3 & R4). splits; auto; [split; auto|].
      unfold view_of, v_rst. cbn [c_current c_total c_mask v_cur v_tot v_upd]. rewrite R3, R4, N.land_spec, N.lxor_spec, T.
      change (two32 - 1) with (N.ones 32). rewrite N.ones_spec_low by lia.
      destruct (N.testbit a (16 + N.of_nat i)), (N.testbit (c_mask st) (16 + N.of_nat i)); reflexivity.
Qed.
Lemma take_view : forall adv i a st, (i < 16)%nat -> c_ok st ->
  c_ok (take_action adv a st) /\ c_state (take_action adv a st) = c_state st /\
  view_of i (take_action adv a st) = v_take adv i a (view_of i st).
Proof.
  intros adv i a st Hi C. unfold take_action, v_take. destruct adv.
  - destruct (rst_view i a st Hi C) as (A1 & A2 & A3). destruct (inc_view i a _ Hi A1) as (B1 & B2 & B3). splits; auto; congruence.
  - destruct (inc_view i a st Hi C) as (A1 & A2 & A3). destruct (rst_view i a _ Hi A1) as (B1 & B2 & B3). splits; auto; congruence.
Qed.

(** The text moves the state and the views of the regexps independently. *)
Lemma steps_count : forall adv s w st st', c_ok st -> steps (count_ops adv s) st w = Ok st' ->
  exists acts, actions s (c_state st) w = Ok acts /\ length acts = length w /\ c_ok st' /\
    forall i, (i < 16)%nat -> view_of i st' = fold_left (fun v a => v_take adv i a v) acts (view_of i st).
Proof.
  intros adv s w. induction w as [|c w IH]; intros st st' C E.
  - injection E as <-. exists []. cbn. auto.
  - cbn [steps count_ops o_step] in E. unfold c_next in E. cbn [actions].
    destruct (d_next s (c_state st) c) as [[a x]| | |] eqn:N1; cbn [bind] in E; try discriminate E.
    set (st1 := mkC a (c_current st) (c_total st) (c_mask st)) in *.
    assert (C1 : c_ok st1) by exact C.
    destruct (take_view adv 0 x st1 ltac:(lia) C1) as (T1 & T2 & _).
    destruct (IH _ _ T1 E) as (acts & A1 & A2 & A3 & A4). rewrite T2 in A1. cbn [st1 c_state] in A1. exists (x :: acts). cbn [bind]. rewrite A1. cbn [bind length].
    splits; auto. intros i Hi. rewrite (A4 i Hi). cbn [fold_left]. destruct (take_view adv i x st1 Hi C1) as (_ & _ & ->). reflexivity.
Qed.
Lemma steps_count_ok : forall adv s w st acts, c_ok st -> actions s (c_state st) w = Ok acts -> exists st', steps (count_ops adv s) st w = Ok st'.
Proof.
  intros adv s w. induction w as [|c w IH]; intros st acts C E; [eexists; reflexivity|].
  cbn [actions] in E. cbn [steps count_ops o_step]. unfold c_next.
  destruct (d_next s (c_state st) c) as [[a x]| | |] eqn:N1; cbn [bind] in E; try discriminate E. cbn [bind].
  destruct (actions s a w) as [xs| | |] eqn:A; cbn [bind] in E; try discriminate E.
  set (st1 := mkC a (c_current st) (c_total st) (c_mask st)) in *. assert (C1 : c_ok st1) by exact C.
  destruct (take_view adv 0 x st1 ltac:(lia) C1) as (T1 & T2 & _). apply (IH _ xs T1). rewrite T2. exact A.
Qed.
Lemma init_ok : forall s, c_ok (c_init s). Proof. intros s. split; reflexivity. Qed.
Lemma init_view : forall s i, view_of i (c_init s) = mkView 0 0 false.
Proof.
  intros s i. unfold view_of, c_init. cbn [c_current c_total c_mask]. rewrite N.bits_0.
  assert (X : nth i (repeat 0 16) 0 = 0) by (do 16 (destruct i as [|i]; [reflexivity|]); destruct i; reflexivity). rewrite X. reflexivity.
Qed.
Lemma result_view : forall st i, c_ok st -> (i < 16)%nat -> c_result st i = Ok (N.max (v_cur (view_of i st)) (v_tot (view_of i st))).
Proof.
  intros st i [C1 C2] Hi. unfold c_result.
  rewrite (nth_error_nth' (c_current st) 0) by lia. rewrite (nth_error_nth' (c_total st) 0) by lia. reflexivity.
Qed.

(** ** Views and runs of events *)
Definition ev_step (p : nat * nat) (e : event) : nat * nat :=
  match e with Inc => (S (fst p), snd p) | Rst => (O, Nat.max (snd p) (fst p)) end.
Lemma fold_runs : forall evs, let '(cur, best) := fold_left ev_step evs (O, O) in
  (exists x y, evs = x ++ y /\ ~ In Rst y /\ incs y = cur) /\
  (forall x y, evs = x ++ y -> ~ In Rst y -> (incs y <= cur)%nat) /\
  (is_run evs best \/ best = O) /\
  (forall n, is_run evs n -> (n <= Nat.max best cur)%nat) /\
  (exists x y, evs = x ++ y /\ ~ In Rst y).
Proof.
  assert (IA : forall x y, incs (x ++ y) = (incs x + incs y)%nat).
  { induction x as [|[] x IHx]; intros; cbn [incs app]; rewrite ?IHx; auto. }
  intros evs. induction evs as [|e evs IH] using rev_ind.
  - cbn. splits.
    + exists [], []. auto.
    + intros x y E. destruct x, y; try discriminate. cbn. lia.
    + auto.
    + intros n (x & y & z & E & _ & <-). destruct x, y; try discriminate. cbn. lia.
    + exists [], []. auto.
  - rewrite fold_left_app. destruct (fold_left ev_step evs (0%nat, 0%nat)) as [cur best]. destruct IH as (H1 & H2 & H3 & H4 & _).
    assert (SP : forall x y, evs ++ [e] = x ++ y -> y = [] /\ x = evs ++ [e] \/ exists y0, y = y0 ++ [e] /\ evs = x ++ y0).
    { intros x y E. destruct y as [|y0 y] using rev_ind; [left; split; auto; rewrite app_nil_r in E; auto|]. right.
      rewrite app_assoc in E. apply app_inj_tail in E as [E1 E2]. subst. eauto. }
    assert (RUN : forall n, is_run (evs ++ [e]) n -> is_run evs n \/ exists x y, evs ++ [e] = x ++ y /\ ~ In Rst y /\ incs y = n).
    { intros n (x & y & z & E & R & I). destruct z as [|z0 z] using rev_ind.
      - right. exists x, y. rewrite app_nil_r in E. auto.
      - left. rewrite !app_assoc in E. apply app_inj_tail in E as [E _]. exists x, y, z. rewrite app_assoc. auto. }
    cbn [fold_left]. unfold ev_step. destruct e; cbn [fst snd]; splits.
    + destruct H1 as (x & y & -> & R & <-). exists x, (y ++ [Inc]). rewrite app_assoc. splits; auto.
      * rewrite in_app_iff. intros [H|[H|[]]]; [auto|discriminate].
      * rewrite IA. cbn. lia.
    + intros x y E R. apply SP in E as [[-> _]|(y0 & -> & E)]; [cbn; lia|]. rewrite IA. cbn. specialize (H2 x y0 E ltac:(intro; apply R; rewrite in_app_iff; auto)). lia.
    + destruct H3 as [(x & y & z & -> & R & I)|]; auto. left. exists x, y, (z ++ [Inc]). rewrite !app_assoc. auto.
    + intros n Hn. destruct (RUN n Hn) as [Hr|(x & y & E & R & <-)]; [apply H4 in Hr; lia|].
      apply SP in E as [[-> _]|(y0 & -> & E)]; [cbn; lia|]. rewrite IA. cbn. specialize (H2 x y0 E ltac:(intro; apply R; rewrite in_app_iff; auto)). lia.
    + exists (evs ++ [Inc]), []. rewrite app_nil_r. auto.
    + exists (evs ++ [Rst]), []. rewrite app_nil_r. auto.
    + intros x y E R. apply SP in E as [[-> _]|(y0 & -> & E)]; [cbn; lia|]. destruct R. rewrite in_app_iff. right. left. reflexivity.
    + assert (RC : is_run evs cur) by (destruct H1 as (x & y & -> & R & <-); exists x, y, []; rewrite app_nil_r; auto).
      assert (EX : forall n, is_run evs n -> is_run (evs ++ [Rst]) n) by (intros n (x & y & z & -> & R & I); exists x, y, (z ++ [Rst]); rewrite !app_assoc; auto).
      left. destruct (Nat.max_spec best cur) as [[_ ->]|[L ->]]; auto. destruct H3 as [H3| ->]; auto. replace 0%nat with cur by lia. auto.
    + intros n Hn. destruct (RUN n Hn) as [Hr|(x & y & E & R & <-)]; [apply H4 in Hr; lia|].
      apply SP in E as [[-> _]|(y0 & -> & E)]; [cbn; lia|]. destruct R. rewrite in_app_iff. right. left. reflexivity.
    + exists (evs ++ [Rst]), []. rewrite app_nil_r. auto.
Qed.
Lemma fold_longest : forall evs, let '(cur, best) := fold_left ev_step evs (O, O) in longest_run evs (Nat.max cur best).
Proof.
  intros evs. pose proof (fold_runs evs) as F. destruct (fold_left ev_step evs (0%nat, 0%nat)) as [cur best].
  destruct F as (H1 & H2 & H3 & H4 & _).
  assert (RC : is_run evs cur) by (destruct H1 as (x & y & -> & R & <-); exists x, y, []; rewrite app_nil_r; auto).
  split; [|intros m Hm; apply H4 in Hm; lia]. destruct (Nat.max_spec cur best) as [[L ->]|[_ ->]]; auto. destruct H3; auto. lia.
Qed.
Lemma longest_unique : forall evs n m, longest_run evs n -> longest_run evs m -> n = m.
Proof. intros evs n m [A1 A2] [B1 B2]. apply A2 in B1. apply B2 in A1. lia. Qed.

Lemma view_events : forall adv i acts, N.of_nat (length acts) < two32 ->
  let '(cur, best) := fold_left ev_step (flat_map (events_of adv i) acts) (O, O) in
  let v := fold_left (fun v a => v_take adv i a v) acts (mkView 0 0 false) in
  v_cur v = N.of_nat cur /\ v_tot v = N.of_nat best /\ (v_upd v = false -> cur = O) /\ (cur <= length acts)%nat.
Proof.
  intros adv i acts. induction acts as [|a acts IH] using rev_ind; intros L; [cbn; auto|].
  rewrite app_length in L. cbn [length] in L. specialize (IH ltac:(lia)). rewrite flat_map_app, fold_left_app.
  destruct (fold_left ev_step (flat_map (events_of adv i) acts) (0%nat, 0%nat)) as [cur best]. cbn zeta in IH.
  rewrite fold_left_app. set (v := fold_left (fun v a => v_take adv i a v) acts (mkView 0 0 false)) in *. clearbody v. destruct v as [vc vt vu].
  cbn [v_cur v_tot v_upd] in IH. destruct IH as (-> & -> & U & B). rewrite app_length. cbn [length flat_map]. rewrite app_nil_r.
  assert (M : (N.of_nat cur + 1) mod two32 = N.of_nat (S cur)) by (rewrite N.mod_small; lia).
  cbn [fold_left]. unfold events_of, v_take, v_inc, v_rst.
  destruct adv, (N.testbit a (N.of_nat i)), (N.testbit a (16 + N.of_nat i)), vu; cbn [v_cur v_tot v_upd fold_left app ev_step fst snd andb];
    try rewrite M; splits; try reflexivity; try lia; try discriminate; try (rewrite ?U by reflexivity; cbn; rewrite ?N.max_0_r; try reflexivity; try lia).
Qed.

Lemma count_longest : forall adv s w st i, (i < 16)%nat -> N.of_nat (length w) < two32 ->
  steps (count_ops adv s) (c_init s) w = Ok st ->
  exists acts n, actions s (d_initial s) w = Ok acts /\ longest_run (flat_map (events_of adv i) acts) n /\ c_result st i = Ok (N.of_nat n).
Proof.
  intros adv s w st i Hi L E. destruct (steps_count adv s w _ _ (init_ok s) E) as (acts & A1 & A2 & A3 & A4).
  pose proof (view_events adv i acts ltac:(rewrite A2; exact L)) as V. pose proof (fold_longest (flat_map (events_of adv i) acts)) as F.
  destruct (fold_left ev_step (flat_map (events_of adv i) acts) (0%nat, 0%nat)) as [cur best]. cbn zeta in V.
  rewrite <- (init_view s i), <- (A4 i Hi) in V. destruct V as (V1 & V2 & _). exists acts, (Nat.max cur best). splits; auto.
  rewrite result_view by auto. rewrite V1, V2. f_equal. lia.
Qed.
