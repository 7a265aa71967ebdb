(** Facts about the letter partition. *)
From Coq Require Import List Bool Arith NArith Lia Sorting.
From Verif Require Import Util Spec PartitionModel.
Import ListNotations.

Record wf_part (p : partition) : Prop := {
  wp_ssorted : msorted (pset p);
  wp_isorted : msorted (pinv p);
  wp_inv : forall c r, mfind c (pinv p) = Some r <-> exists i ms, mfind r (pset p) = Some (i, ms) /\ In c ms;
  wp_self : forall r i ms, mfind r (pset p) = Some (i, ms) -> In r ms;
  wp_idx : forall r i ms, mfind r (pset p) = Some (i, ms) -> i < length (pset p);
  wp_inj : forall r r' i ms ms', mfind r (pset p) = Some (i, ms) -> mfind r' (pset p) = Some (i, ms') -> r = r';
  wp_max : pmax p = length (pset p);
  wp_range : forall c r, mfind c (pinv p) = Some r -> (c < MaxChar)%N /\ c <> Epsilon
}.

Lemma wf_part_empty : wf_part part_empty.
Proof.
  constructor; cbn; try discriminate; try reflexivity.
  - constructor.
  - constructor.
  - intros c r; split; [discriminate|]. intros [i [ms [H _]]]; discriminate.
Qed.

Lemma msorted_length_mset_new : forall K (KK : Key K) V (k : K) (v : V) m, mfind k m = None -> length (mset k v m) = S (length m).
Proof.
  intros K KK V k v m; induction m as [|[k0 v0] m IH]; cbn; [reflexivity|].
  destruct (keqb k k0); [discriminate|]. intros H. destruct (kltb k k0); cbn; auto.
Qed.

Lemma part_join_some : forall eq t s r s', part_join eq t s = Some (r, s') -> msorted s ->
  exists idx ms, mfind r s = Some (idx, ms) /\ eq r t = true /\
    (forall k, mfind k s' = if keqb k r then Some (idx, ms ++ [t]) else mfind k s) /\
    map fst s' = map fst s.
Proof.
  intros eq t s; induction s as [|[r0 [i0 ms0]] s IH]; intros r s' H Hs; cbn in H; [discriminate|].
  inversion Hs as [|? ? Hs' Hf]; subst.
  destruct (eq r0 t) eqn:E.
  - injection H as <- <-. exists i0, ms0. cbn [mfind map fst]. rewrite keqb_refl. repeat split; auto.
    intros k. destruct (keqb_spec k r0); auto.
  - destruct (part_join eq t s) as [[r1 s1]|] eqn:J; [|discriminate]. injection H as <- <-.
    destruct (IH _ _ eq_refl Hs') as [idx [ms [A [B [C D]]]]].
    assert (r1 <> r0). { intros ->. rewrite Forall_forall in Hf. apply mfind_in in A. apply Hf in A.
      cbn [fst] in A. rewrite kltb_irr in A. discriminate. }
    exists idx, ms. cbn [mfind map fst]. destruct (keqb_spec r1 r0); [congruence|].
    repeat split; auto; [|congruence]. intros k. rewrite C.
    destruct (keqb_spec k r0), (keqb_spec k r1); congruence.
Qed.

Lemma part_join_none : forall eq t s, part_join eq t s = None -> forall r v, In (r, v) s -> eq r t = false.
Proof.
  intros eq t s; induction s as [|[r0 [i0 ms0]] s IH]; cbn; intros H r v Hin; [tauto|].
  destruct (eq r0 t) eqn:E; [discriminate|].
  destruct (part_join eq t s) as [[]|] eqn:J; [discriminate|].
  destruct Hin as [[= -> <-]|Hin]; eauto.
Qed.

Lemma msorted_keys : forall K (KK : Key K) V (m m' : smap K V), map fst m = map fst m' -> msorted m -> msorted m'.
Proof.
  intros K KK V m; induction m as [|[k v] m IH]; intros [|[k' v'] m'] E H; cbn in E; try discriminate; auto.
  injection E as -> E. inversion H as [|? ? H1 H2]; subst. constructor; [eapply IH; eauto|].
  rewrite Forall_forall in *. intros [a b] Hin. assert (Hk : In a (map fst m)).
  { rewrite E. apply in_map_iff. exists (a, b); auto. }
  apply in_map_iff in Hk as [[a' b'] [<- Hk]]. apply H2 in Hk. exact Hk.
Qed.

Lemma part_append_wf : forall eq t p, wf_part p -> mfind t (pinv p) = None ->
  (t < MaxChar)%N -> t <> Epsilon -> wf_part (part_append eq t p).
Proof.
  intros eq t p [S1 S2 S3 S4 S5 S6 S7 S8] Ht Hr He. unfold part_append.
  destruct (part_join eq t (pset p)) as [[r s]|] eqn:J.
  - destruct (part_join_some _ _ _ _ _ J S1) as [idx [ms [A [B [C D]]]]].
    constructor; cbn [pset pinv pmax].
    + eapply msorted_keys; [symmetry; exact D|exact S1].
    + apply mset_sorted; auto.
    + intros c r'. rewrite mfind_mset. destruct (keqb_spec c t) as [->|Hne].
      * split.
        -- intros [= <-]. exists idx, (ms ++ [t]). rewrite C, keqb_refl. split; auto.
           apply in_or_app; right; left; auto.
        -- intros [i' [ms' [F G]]]. rewrite C in F. destruct (keqb_spec r' r); [congruence|].
           assert (X : mfind t (pinv p) = Some r') by (apply S3; eauto). congruence.
      * rewrite S3. split; intros [i' [ms' [F G]]].
        -- rewrite C. destruct (keqb_spec r' r) as [->|].
           ++ rewrite A in F. injection F as <- <-. exists idx, (ms ++ [t]). split; auto. apply in_or_app; auto.
           ++ eauto.
        -- rewrite C in F. destruct (keqb_spec r' r) as [->|]; [|eauto].
           injection F as <- <-. apply in_app_or in G as [G|[G|[]]]; [eauto|congruence].
    + intros r' i' ms' F. rewrite C in F. destruct (keqb_spec r' r) as [->|]; eauto.
      injection F as <- <-. apply in_or_app; left. eauto.
    + assert (L : length s = length (pset p)) by (rewrite <- (map_length fst s), D, map_length; auto).
      rewrite L. intros r' i' ms' F. rewrite C in F. destruct (keqb_spec r' r) as [->|]; eauto.
      injection F as <- <-. eauto.
    + intros r1 r2 i' m1 m2 F1 F2. rewrite C in F1, F2.
      destruct (keqb_spec r1 r) as [->|], (keqb_spec r2 r) as [->|]; try congruence; eauto.
      * injection F1 as <- <-; eauto.
      * injection F2 as <- <-; eauto.
    + assert (L : length s = length (pset p)) by (rewrite <- (map_length fst s), D, map_length; auto). lia.
    + intros c r'. rewrite mfind_mset. destruct (keqb_spec c t) as [->|]; [auto|]. apply S8.
  - assert (Hn : mfind t (pset p) = None).
    { destruct (mfind t (pset p)) as [[i ms]|] eqn:F; auto. assert (X : mfind t (pinv p) = Some t) by (apply S3; eauto). congruence. }
    unfold minsert. rewrite Hn.
    constructor; cbn [pset pinv pmax].
    + apply mset_sorted; auto.
    + apply mset_sorted; auto.
    + intros c r'. rewrite mfind_mset. setoid_rewrite mfind_mset. destruct (keqb_spec c t) as [->|Hne].
      * split.
        -- intros [= <-]. exists (pmax p), [t]. rewrite keqb_refl. split; auto. left; auto.
        -- intros [i' [ms' [F G]]]. destruct (keqb_spec r' t); [congruence|].
           assert (X : mfind t (pinv p) = Some r') by (apply S3; eauto). congruence.
      * rewrite S3. destruct (keqb_spec r' t) as [->|]; [|tauto]. rewrite Hn.
        split; [intros [i' [ms' [[=] _]]]|]. intros [i' [ms' [[= <- <-] [G|[]]]]]. congruence.
    + intros r' i' ms'. rewrite mfind_mset. destruct (keqb_spec r' t) as [->|]; eauto.
      intros [= <- <-]. left; auto.
    + rewrite msorted_length_mset_new; auto. intros r' i' ms'. rewrite mfind_mset. destruct (keqb_spec r' t) as [->|].
      * intros [= <- <-]. lia.
      * intros F. apply S5 in F. lia.
    + intros r1 r2 i' m1 m2. rewrite !mfind_mset.
      destruct (keqb_spec r1 t) as [->|], (keqb_spec r2 t) as [->|]; try congruence; eauto.
      * intros [= <- <-] F. apply S5 in F. lia.
      * intros F [= <- <-]. apply S5 in F. lia.
    + rewrite msorted_length_mset_new; auto.
    + intros c r'. rewrite mfind_mset. destruct (keqb_spec c t) as [->|]; [auto|]. apply S8.
Qed.

(** The partition's relation to the equivalence used to build it *)
Definition part_agrees (eq : N -> N -> bool) (p : partition) : Prop :=
  (forall c r, mfind c (pinv p) = Some r -> eq r c = true) /\
  (forall r r' v v', mfind r (pset p) = Some v -> mfind r' (pset p) = Some v' -> r <> r' -> eq r r' = false).

Section Equivalence.
  Variable eq : N -> N -> bool.
  Hypothesis eq_refl' : forall a, eq a a = true.
  Hypothesis eq_sym' : forall a b, eq a b = eq b a.
  Hypothesis eq_trans' : forall a b c, eq a b = true -> eq b c = true -> eq a c = true.

  Lemma part_append_agrees : forall t p, wf_part p -> mfind t (pinv p) = None ->
    part_agrees eq p -> part_agrees eq (part_append eq t p).
  Proof.
    intros t p W Ht [A1 A2]. unfold part_append. destruct W as [S1 S2 S3 S4 S5 S6 S7 S8].
    destruct (part_join eq t (pset p)) as [[r s]|] eqn:J.
    - destruct (part_join_some _ _ _ _ _ J S1) as [idx [ms [A [B [C D]]]]].
      split; cbn [pset pinv].
      + intros c r'. rewrite mfind_mset. destruct (keqb_spec c t) as [->|]; [intros [= <-]; auto|auto].
      + intros r1 r2 v v'. rewrite !C. destruct (keqb_spec r1 r) as [->|], (keqb_spec r2 r) as [->|]; eauto; congruence.
    - assert (Hn : mfind t (pset p) = None).
      { destruct (mfind t (pset p)) as [[i ms]|] eqn:F; auto. assert (X : mfind t (pinv p) = Some t) by (apply S3; eauto). congruence. }
      unfold minsert. rewrite Hn. split; cbn [pset pinv].
      + intros c r'. rewrite mfind_mset. destruct (keqb_spec c t) as [->|]; [intros [= <-]; auto|auto].
      + intros r1 r2 v v'. rewrite !mfind_mset.
        destruct (keqb_spec r1 t) as [->|], (keqb_spec r2 t) as [->|]; try congruence.
        * intros _ F _. rewrite eq_sym'. apply mfind_in in F. eapply part_join_none; eauto.
        * intros F _ _. apply mfind_in in F. eapply part_join_none; eauto.
        * eauto.
  Qed.

  Lemma part_append_inv : forall t p c, part_contains (part_append eq t p) c = true <-> c = t \/ part_contains p c = true.
  Proof.
    intros t p c. unfold part_append, part_contains.
    destruct (part_join eq t (pset p)) as [[r s]|]; cbn [pinv]; rewrite mfind_mset;
      destruct (keqb_spec c t) as [->|]; intuition congruence.
  Qed.

  (** building a partition from a duplicate-free list of letters *)
  Lemma part_build : forall ls p, wf_part p -> part_agrees eq p -> NoDup ls ->
    (forall c, In c ls -> (c < MaxChar)%N /\ c <> Epsilon) ->
    (forall c, In c ls -> part_contains p c = false) ->
    let p' := fold_left (fun p c => part_append eq c p) ls p in
    wf_part p' /\ part_agrees eq p' /\
    (forall c, part_contains p' c = true <-> In c ls \/ part_contains p c = true).
  Proof.
    induction ls as [|t ls IH]; intros p W A ND HR HN; cbn [fold_left].
    - split; [auto|]. split; [auto|]. intros c; cbn; tauto.
    - inversion ND; subst.
      assert (Ht : mfind t (pinv p) = None).
      { specialize (HN t (or_introl eq_refl)). unfold part_contains in HN. destruct (mfind t (pinv p)); congruence. }
      destruct (IH (part_append eq t p)) as [I1 [I2 I3]]; auto.
      + apply part_append_wf; auto; apply HR; left; auto.
      + apply part_append_agrees; auto.
      + intros c Hc; apply HR; right; auto.
      + intros c Hc. destruct (part_contains (part_append eq t p) c) eqn:X; auto.
        apply part_append_inv in X as [->|X]; [contradiction|]. rewrite HN in X; [discriminate|right; auto].
      + split; [auto|]. split; [auto|]. intros c; split.
        * intros HH. apply I3 in HH as [|HH]; [left; right; auto|]. apply part_append_inv in HH as [->|]; [left; left; auto|auto].
        * intros [[->|Hin]|Hin]; apply I3; auto; right; apply part_append_inv; auto.
  Qed.

  Lemma part_rep_eq : forall p a b ra rb, wf_part p -> part_agrees eq p ->
    part_rep p a = Some ra -> part_rep p b = Some rb -> (ra = rb <-> eq a b = true).
  Proof.
    unfold part_rep. intros p a b ra rb W [A1 A2] Ha Hb. pose proof (A1 _ _ Ha) as X. pose proof (A1 _ _ Hb) as Y. split.
    - intros <-. apply eq_trans' with ra; auto. rewrite eq_sym'; auto.
    - intros E. destruct (N.eq_dec ra rb) as [|Hne]; auto.
      apply (wp_inv _ W) in Ha as [i [ms [Ha _]]]. apply (wp_inv _ W) in Hb as [j [ms' [Hb _]]].
      pose proof (A2 _ _ _ _ Ha Hb Hne) as Z. exfalso. assert (eq ra rb = true); [|congruence].
      apply eq_trans' with a; auto. apply eq_trans' with b; auto. rewrite eq_sym'; auto.
  Qed.
End Equivalence.

Lemma part_rep_rep : forall p c r, wf_part p -> part_rep p c = Some r -> part_rep p r = Some r.
Proof.
  unfold part_rep. intros p c r W H. apply (wp_inv _ W) in H as [i [ms [H1 H2]]].
  apply (wp_inv _ W). exists i, ms. split; auto. eapply wp_self; eauto.
Qed.

Lemma part_rep_key : forall p r, wf_part p -> (part_rep p r = Some r <-> In r (map fst (pset p))).
Proof.
  unfold part_rep. intros p r W. rewrite (wp_inv _ W). split.
  - intros [i [ms [H _]]]. apply mfind_in in H. apply in_map_iff. exists (r, (i, ms)); auto.
  - intros H. apply in_map_iff in H as [[r' [i ms]] [<- H]]. cbn. apply msorted_find in H; [|apply W].
    exists i, ms. split; auto. eapply wp_self; eauto.
Qed.

Lemma part_index_ok : forall p c r, wf_part p -> part_rep p c = Some r ->
  exists i, part_index p c = Ok i /\ i < part_size p /\ part_index p r = Ok i.
Proof.
  unfold part_rep, part_index, part_size. intros p c r W H. rewrite H.
  pose proof (part_rep_rep p c r W H) as H'. unfold part_rep in H'. rewrite H'.
  apply (wp_inv _ W) in H as [i [ms [H1 H2]]]. rewrite H1. exists i. repeat split. eapply wp_idx; eauto.
Qed.

Lemma part_index_inj : forall p c d r s i, wf_part p -> part_rep p c = Some r -> part_rep p d = Some s ->
  part_index p c = Ok i -> part_index p d = Ok i -> r = s.
Proof.
  unfold part_rep, part_index. intros p c d r s i W Hc Hd. rewrite Hc, Hd.
  destruct (mfind r (pset p)) as [[]|] eqn:A; [|discriminate].
  destruct (mfind s (pset p)) as [[]|] eqn:B; [|discriminate].
  intros [= ->] [= ->]. eapply wp_inj; eauto.
Qed.
