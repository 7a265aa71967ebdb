(** Approximate search: CreateApproxFsm after Surround. *)
From Coq Require Import List Bool Arith NArith Lia.
From Verif Require Import Util Spec PartitionModel PartitionProofs FsmModel Nfa FsmSem FsmBasics FsmOps FsmOps2 ApproxModel ApproxSpec ApproxProofs ApproxMain.
Import ListNotations.
Local Opaque all_letters.

Lemma sparsed_fold : forall X (step : fsm -> X -> fsm), (forall g x, sparsed (step g x) = sparsed g) ->
  forall l f, sparsed (fold_left step l f) = sparsed f.
Proof. intros X step H. induction l as [|x l IH]; intros f; cbn [fold_left]; auto. rewrite IH. auto. Qed.
Lemma sparsed_connect : forall f a b c, sparsed (connect f a b c) = sparsed f.
Proof. reflexivity. Qed.
Lemma sparsed_loops : forall s l f, sparsed (fold_left (fun g c => connect g s s c) l f) = sparsed f.
Proof. intros s l f. apply sparsed_fold. intros. apply sparsed_connect. Qed.
Lemma sparsed_prepend : forall f, sparsed (prepend_anything f) = sparsed f.
Proof.
  intros f. unfold prepend_anything. pose proof (sparsed_loops (size f) all_letters (resize_fsm f (size f + 1))) as H.
  set (g := fold_left _ _ _) in *. clearbody g. exact H.
Qed.
Lemma sparsed_connect_final : forall f s c, sparsed (connect_final f s c) = sparsed f.
Proof. intros f s c. unfold connect_final. change (sparsed (clear_hints ?g)) with (sparsed g). apply sparsed_fold. reflexivity. Qed.
Lemma sparsed_last : forall k s, sparsed (set_determined (set_final (clear_final k) s true) false) = sparsed k.
Proof. reflexivity. Qed.
Lemma sparsed_append : forall f, sparsed (append_anything f) = sparsed f.
Proof.
  intros f. unfold append_anything. cbv zeta. rewrite sparsed_last, sparsed_connect_final, sparsed_loops. reflexivity.
Qed.
Lemma sparsed_surround : forall f, sparsed (surround f) = sparsed f.
Proof. intros f. unfold surround. rewrite sparsed_append. apply sparsed_prepend. Qed.
Lemma plain_surround : forall f, wf f -> plain f -> plain (surround f).
Proof. intros f W [U S]. destruct (surround_ok f W) as (_ & X & _). split; [exact (X U)|rewrite sparsed_surround; exact S]. Qed.

(** ** The parts of a surrounded automaton *)
Lemma prepend_parts : forall f, wf f -> uncompressed f ->
  (forall p c q, edge f p c q -> edge (prepend_anything f) p c q) /\ finals (prepend_anything f) = finals f /\
  (forall w, is_word w -> path (edge (prepend_anything f)) (initial (prepend_anything f)) w (initial f)).
Proof.
  intros f W U. destruct (prepend_anything_ok f W) as (_ & U1 & _). specialize (U1 U). revert U1. unfold prepend_anything.
  set (f1 := resize_fsm f (size f + 1)). assert (E1 : size f1 = size f + 1) by apply size_resize.
  pose proof (loops_adds f1 (size f)) as A. assert (A1 := A ltac:(lia)). clear A.
  assert (R1 : forall p c q, raw f1 p c q <-> raw f p c q) by (intros; apply raw_resize; lia).
  assert (X1 : initial f1 = initial f /\ finals f1 = finals f) by (split; reflexivity). clearbody f1.
  set (f2 := fold_left _ _ _) in *. assert (E2 : size f2 = size f + 1) by (rewrite (ad_size _ _ _ A1); auto).
  assert (I2 : initial f2 = initial f) by (rewrite (ad_init _ _ _ A1); apply X1).
  rewrite I2. pose proof (wf_init _ W) as WI.
  assert (A2 : adds f2 (connect f2 (size f) (initial f) Epsilon) (fun p c q => p = size f /\ c = Epsilon /\ q = initial f)).
  { apply connect_adds; try lia. reflexivity. }
  set (g := connect f2 (size f) (initial f) Epsilon) in *. clearbody g. intros U1.
  assert (R : forall p c q, edge (set_determined (set_initial g (size f)) false) p c q <-> raw f p c q \/ (p = size f /\ q = size f /\ (c < MaxChar)%N) \/ (p = size f /\ c = Epsilon /\ q = initial f)).
  { intros p c q. unfold edge. rewrite erep_empty by exact U1. change (raw g p c q <-> raw f p c q \/ (p = size f /\ q = size f /\ (c < MaxChar)%N) \/ (p = size f /\ c = Epsilon /\ q = initial f)).
    rewrite (ad_raw _ _ _ A2), (ad_raw _ _ _ A1), R1. tauto. }
  split; [|split].
  - intros p c q H. apply R. left. unfold edge in H. rewrite erep_empty in H by exact U. exact H.
  - change (finals g = finals f). rewrite (ad_fin _ _ _ A2), (ad_fin _ _ _ A1). apply X1.
  - intros w Hw. change (initial (set_determined (set_initial g (size f)) false)) with (size f). induction Hw as [|c w [Hc Hn] Hw IH].
    + eapply path_eps; [|apply path_nil]. apply R. auto.
    + eapply path_step; [exact Hn| |exact IH]. apply R. auto.
Qed.

Lemma surround_parts : forall f, wf f -> uncompressed f ->
  (forall p c q, edge f p c q -> edge (surround f) p c q) /\
  (forall w, is_word w -> path (edge (surround f)) (initial (surround f)) w (initial f)) /\
  (forall y, In y (finals f) -> outgoing_letters (surround f) y <> [] /\
     forall w, is_word w -> exists z, path (edge (surround f)) y w z /\ In z (finals (surround f))).
Proof.
  intros f W U. unfold surround. destruct (prepend_parts f W U) as (A & B & C). destruct (prepend_anything_ok f W) as (W1 & U1 & _). specialize (U1 U).
  set (g := prepend_anything f) in *. clearbody g. pose proof (append_anything_appended g W1) as Ap. destruct (append_anything_ok g W1) as (_ & U2 & _). specialize (U2 U1).
  assert (R : forall p c q, edge (append_anything g) p c q <-> edge g p c q \/ (In p (finals g) /\ c = Epsilon /\ q = size g) \/ (p = size g /\ q = size g /\ (c < MaxChar)%N)).
  { intros p c q. rewrite (appended_edge _ _ _ _ Ap), erep_empty by exact U1. tauto. }
  split; [intros p c q H; apply R; left; auto|]. split.
  - intros w Hw. rewrite (ap_init _ _ _ _ Ap). eapply path_mono; [|apply C; auto]. intros p c q H. apply R. auto.
  - intros y Hy. rewrite <- B in Hy. assert (E : edge (append_anything g) y Epsilon (size g)) by (apply R; auto). split.
    + unfold edge in E. rewrite erep_empty in E by exact U2. apply (raw_pres (append_anything g)) in E. apply mkeys_in in E. intros X. unfold outgoing_letters in X. rewrite X in E. destruct E.
    + intros w Hw. exists (size g). split; [|rewrite (ap_fin _ _ _ _ Ap); left; auto]. eapply path_eps; [exact E|]. clear E. induction Hw as [|c w [Hc Hn] Hw IH]; [apply path_nil|].
      eapply path_step; [exact Hn| |exact IH]. apply R. auto.
Qed.

(** ** Words close to a part of the text *)
Lemma edits_split : forall k z w, edits true true k z w -> is_word z -> forall x y, z = x ++ y ->
  exists w1 w2 k1 k2, w = w1 ++ w2 /\ edits true true k1 x w1 /\ edits true true k2 y w2 /\ k1 <= k /\ k2 <= k.
Proof.
  intros k z w H. induction H as [|k c u w H IH|k c c' u w Hc H IH|k c' u w Hc Ht H IH|k c u w H IH|k a b u w Hs H IH]; intros Wz [|x0 x] y E.
  - destruct y; [|discriminate E]. exists [], [], 0, 0. repeat split; auto; apply e_nil.
  - discriminate E.
  - exists [], (c :: w), 0, k. cbn [app] in E. subst y. repeat split; auto; [apply e_nil|apply e_same; auto|lia].
  - injection E as -> E. inversion Wz as [|? ? Wc Wu]; subst. destruct (IH Wu x y eq_refl) as (w1 & w2 & k1 & k2 & -> & H1 & H2 & L1 & L2).
    exists (x0 :: w1), w2, k1, k2. repeat split; auto. apply e_same; auto.
  - exists [], (c' :: w), 0, (S k). cbn [app] in E. subst y. repeat split; auto; [apply e_nil|apply e_replace; auto|lia].
  - injection E as -> E. inversion Wz as [|? ? Wc Wu]; subst. destruct (IH Wu x y eq_refl) as (w1 & w2 & k1 & k2 & -> & H1 & H2 & L1 & L2).
    exists (c' :: w1), w2, (S k1), k2. repeat split; auto; [apply e_replace; auto|lia].
  - exists [], (c' :: w), 0, (S k). cbn [app] in E. subst y. repeat split; auto; [apply e_nil|apply e_insert; auto|lia].
  - destruct (IH Wz (x0 :: x) y E) as (w1 & w2 & k1 & k2 & -> & H1 & H2 & L1 & L2).
    exists (c' :: w1), w2, (S k1), k2. repeat split; auto; [apply e_insert; auto|lia].
  - exists [], w, 0, (S k). cbn [app] in E. subst y. repeat split; auto; [apply e_nil|apply e_remove; auto|lia].
  - injection E as -> E. inversion Wz as [|? ? Wc Wu]; subst. destruct (IH Wu x y eq_refl) as (w1 & w2 & k1 & k2 & -> & H1 & H2 & L1 & L2).
    exists w1, w2, (S k1), k2. repeat split; auto; [apply e_remove; auto|lia].
  - exists [], (b :: a :: w), 0, (S k). cbn [app] in E. subst y. repeat split; auto; [apply e_nil|apply e_swap; auto|lia].
  - injection E as -> E. inversion Wz as [|? ? Wa Wu]; subst. inversion Wu as [|? ? Wb Wu']; subst. destruct x as [|x1 x].
    + cbn [app] in E. subst y. exists [b], (x0 :: w), 1, (S k). repeat split; [apply e_replace; auto; apply e_nil|apply e_replace; auto|lia|lia].
    + injection E as -> E. destruct (IH Wu' x y E) as (w1 & w2 & k1 & k2 & -> & H1 & H2 & L1 & L2).
      exists (x1 :: x0 :: w1), w2, (S k1), k2. repeat split; auto; [apply e_swap; auto|lia].
Qed.

Lemma edits_any_tail : forall sw tl k u w, edits sw tl k u w -> edits sw true k u w.
Proof. intros sw tl k u w H. destruct tl; auto. apply edits_tail; auto. Qed.

Theorem approx_search_only : forall f d w, wf f -> plain f -> accepts (create_approx (surround f) d) w ->
  is_word w /\ exists a v b u k, w = a ++ v ++ b /\ accepts f u /\ k <= d /\ edits true true k u v.
Proof.
  intros f d w W P H. destruct (surround_ok f W) as (Ws & _ & L). pose proof (plain_surround f W P) as Ps.
  split; [apply (accepts_is_word (create_approx (surround f) d)); auto; apply approx_wf; auto|].
  apply approx_only in H as (z & k & tl & Hz & Hk & He & _); auto. apply edits_any_tail in He.
  pose proof (accepts_is_word _ _ Ws Hz) as Wz. apply L in Hz as (a & z' & -> & _ & u & b & -> & Hu & _).
  destruct (edits_split _ _ _ He Wz a (u ++ b) eq_refl) as (w1 & w' & k1 & k' & -> & _ & He' & _ & Hk').
  apply Forall_app in Wz as [_ Wz]. destruct (edits_split _ _ _ He' Wz u b eq_refl) as (v & w3 & k2 & k3 & -> & He2 & _ & Hk2 & _).
  exists w1, v, w3, u, k2. repeat split; auto. lia.
Qed.

Theorem approx_search_all : forall f d sw a v b u k, wf f -> plain f -> is_word a -> is_word b -> accepts f u -> k <= d -> edits sw true k u v ->
  (sw = true -> no_epsilons f) -> accepts (create_approx (surround f) d) (a ++ v ++ b).
Proof.
  intros f d sw a v b u k W P Ha Hb (y & Pu & Fy) Hk He Hs. destruct (surround_ok f W) as (Ws & _). pose proof (plain_surround f W P) as Ps.
  destruct (surround_parts f W (proj1 P)) as (S1 & S2 & S3). destruct (S3 y Fy) as (Oy & S4). destruct (S4 b Hb) as (z & Pz & Fz).
  destruct (all_close (surround f) Ws Ps d (edge f) S1 _ _ _ _ _ He Hs 0 (initial f) y) as (m & Hm & Pm); auto.
  { pose proof (S2 [] (Forall_nil _)) as X. pose proof (wf_init _ Ws) as Y. revert X Y. generalize (initial (surround f)). intros s X Y.
    apply (path_closed (edge (surround f)) (fun q => q < size (surround f))) in X; auto. intros p c q _ E. apply edge_bound in E; auto. tauto. }
  exists (z + m * size (surround f)). split.
  - rewrite approx_initial by auto. eapply path_app; [|eapply path_app; [exact Pm|]].
    + replace (initial f + 0 * size (surround f)) with (initial f + 0 * size (surround f)) by lia.
      pose proof (path_level (surround f) Ws Ps d 0 (Nat.le_0_l d) _ _ _ (S2 a Ha)) as X. cbn [Nat.mul] in X |- *. rewrite Nat.add_0_r in X. exact X.
    + apply path_level; auto. lia.
  - apply approx_finals; auto. exists m, z. repeat split; auto. lia.
Qed.

Theorem approx_search : forall f d w, wf f -> plain f -> no_epsilons f ->
  (accepts (create_approx (surround f) d) w <-> is_word w /\ exists a v b u k, w = a ++ v ++ b /\ accepts f u /\ k <= d /\ edits true true k u v).
Proof.
  intros f d w W P Hn. split; [apply approx_search_only; auto|]. intros (Hw & a & v & b & u & k & -> & Hu & Hk & He).
  unfold is_word in Hw. rewrite !Forall_app in Hw. destruct Hw as (Ha & _ & Hb). eapply approx_search_all; eauto.
Qed.
