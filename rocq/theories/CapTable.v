(** SlowCapturingScanner: the partition of all letters, Epsilon among them, and the tables
    that its constructor fills. *)
From Coq Require Import List Bool Arith NArith Lia Sorting.
From Verif Require Import Util Spec PartitionModel FsmModel DetermineModel Nfa PartitionProofs FsmSem FsmBasics FsmOps EpsProofs
  ScannerModel ScannerCompile SimpleModel SimpleProofs SlowProofs CapModel.
Import ListNotations.
Local Opaque all_letters all_bytes.

(** A partition that may contain Epsilon. *)
Record wfp (p : partition) : Prop := {
  wq_ssorted : msorted (pset p);
  wq_isorted : msorted (pinv p);
  wq_inv : forall c r, mfind c (pinv p) = Some r <-> exists i ms, mfind r (pset p) = Some (i, ms) /\ In c ms;
  wq_self : forall r i ms, mfind r (pset p) = Some (i, ms) -> In r ms;
  wq_idx : forall r i ms, mfind r (pset p) = Some (i, ms) -> i < length (pset p);
  wq_inj : forall r r' i ms ms', mfind r (pset p) = Some (i, ms) -> mfind r' (pset p) = Some (i, ms') -> r = r';
  wq_max : pmax p = length (pset p);
  wq_range : forall c r, mfind c (pinv p) = Some r -> (c < MaxChar)%N
}.

Lemma wfp_empty : wfp part_empty.
Proof.
  constructor; cbn; try discriminate; try reflexivity.
  - constructor.
  - constructor.
  - intros c r; split; [discriminate|]. intros [i [ms [H _]]]; discriminate.
Qed.

Lemma wfp_append : forall eq t p, wfp p -> mfind t (pinv p) = None ->
  (t < MaxChar)%N -> wfp (part_append eq t p).
Proof.
  intros eq t p [S1 S2 S3 S4 S5 S6 S7 S8] Ht Hr. unfold part_append.
  destruct (part_join eq t (pset p)) as [[r s]|] eqn:J.
  - destruct (part_join_some _ _ _ _ _ J S1) as [idx [ms [A [B [C D]]]]].
    constructor; cbn [pset pinv pmax].
    + eapply msorted_keys; [symmetry; exact D|exact S1].
    + apply mset_sorted; auto.
    + intros c r'. rewrite mfind_mset. destruct (keqb_spec c t) as [->|Hne].
      * split.
        -- intros [= <-]. exists idx, (ms ++ [t]). rewrite C, keqb_refl. split; auto.
           apply in_or_app; right; left; auto.
        -- intros [i' [ms' [F G]]]. rewrite C in F. destruct (keqb_spec r' r); [congruence|].
           assert (X : mfind t (pinv p) = Some r') by (apply S3; eauto). congruence.
      * rewrite S3. split; intros [i' [ms' [F G]]].
        -- rewrite C. destruct (keqb_spec r' r) as [->|].
           ++ rewrite A in F. injection F as <- <-. exists idx, (ms ++ [t]). split; auto. apply in_or_app; auto.
           ++ eauto.
        -- rewrite C in F. destruct (keqb_spec r' r) as [->|]; [|eauto].
           injection F as <- <-. apply in_app_or in G as [G|[G|[]]]; [eauto|congruence].
    + intros r' i' ms' F. rewrite C in F. destruct (keqb_spec r' r) as [->|]; eauto.
      injection F as <- <-. apply in_or_app; left. eauto.
    + assert (L : length s = length (pset p)) by (rewrite <- (map_length fst s), D, map_length; auto).
      rewrite L. intros r' i' ms' F. rewrite C in F. destruct (keqb_spec r' r) as [->|]; eauto.
      injection F as <- <-. eauto.
    + intros r1 r2 i' m1 m2 F1 F2. rewrite C in F1, F2.
      destruct (keqb_spec r1 r) as [->|], (keqb_spec r2 r) as [->|]; try congruence; eauto.
      * injection F1 as <- <-; eauto.
      * injection F2 as <- <-; eauto.
    + assert (L : length s = length (pset p)) by (rewrite <- (map_length fst s), D, map_length; auto). lia.
    + intros c r'. rewrite mfind_mset. destruct (keqb_spec c t) as [->|]; [auto|]. apply S8.
  - assert (Hn : mfind t (pset p) = None).
    { destruct (mfind t (pset p)) as [[i ms]|] eqn:F; auto. assert (X : mfind t (pinv p) = Some t) by (apply S3; eauto). congruence. }
    unfold minsert. rewrite Hn.
    constructor; cbn [pset pinv pmax].
    + apply mset_sorted; auto.
    + apply mset_sorted; auto.
    + intros c r'. rewrite mfind_mset. setoid_rewrite mfind_mset. destruct (keqb_spec c t) as [->|Hne].
      * split.
        -- intros [= <-]. exists (pmax p), [t]. rewrite keqb_refl. split; auto. left; auto.
        -- intros [i' [ms' [F G]]]. destruct (keqb_spec r' t); [congruence|].
           assert (X : mfind t (pinv p) = Some r') by (apply S3; eauto). congruence.
      * rewrite S3. destruct (keqb_spec r' t) as [->|]; [|tauto]. rewrite Hn.
        split; [intros [i' [ms' [[=] _]]]|]. intros [i' [ms' [[= <- <-] [G|[]]]]]. congruence.
    + intros r' i' ms'. rewrite mfind_mset. destruct (keqb_spec r' t) as [->|]; eauto.
      intros [= <- <-]. left; auto.
    + rewrite msorted_length_mset_new; auto. intros r' i' ms'. rewrite mfind_mset. destruct (keqb_spec r' t) as [->|].
      * intros [= <- <-]. lia.
      * intros F. apply S5 in F. lia.
    + intros r1 r2 i' m1 m2. rewrite !mfind_mset.
      destruct (keqb_spec r1 t) as [->|], (keqb_spec r2 t) as [->|]; try congruence; eauto.
      * intros [= <- <-] F. apply S5 in F. lia.
      * intros F [= <- <-]. apply S5 in F. lia.
    + rewrite msorted_length_mset_new; auto.
    + intros c r'. rewrite mfind_mset. destruct (keqb_spec c t) as [->|]; [auto|]. apply S8.
Qed.

Section Equivalence.
  Variable eq : N -> N -> bool.
  Hypothesis eq_refl' : forall a, eq a a = true.
  Hypothesis eq_sym' : forall a b, eq a b = eq b a.
  Hypothesis eq_trans' : forall a b c, eq a b = true -> eq b c = true -> eq a c = true.

  Lemma wfp_agrees : forall t p, wfp p -> mfind t (pinv p) = None ->
    part_agrees eq p -> part_agrees eq (part_append eq t p).
  Proof.
    intros t p W Ht [A1 A2]. unfold part_append. destruct W as [S1 S2 S3 S4 S5 S6 S7 S8].
    destruct (part_join eq t (pset p)) as [[r s]|] eqn:J.
    - destruct (part_join_some _ _ _ _ _ J S1) as [idx [ms [A [B [C D]]]]].
      split; cbn [pset pinv].
      + intros c r'. rewrite mfind_mset. destruct (keqb_spec c t) as [->|]; [intros [= <-]; auto|auto].
      + intros r1 r2 v v'. rewrite !C. destruct (keqb_spec r1 r) as [->|], (keqb_spec r2 r) as [->|]; eauto; congruence.
    - assert (Hn : mfind t (pset p) = None).
      { destruct (mfind t (pset p)) as [[i ms]|] eqn:F; auto. assert (X : mfind t (pinv p) = Some t) by (apply S3; eauto). congruence. }
      unfold minsert. rewrite Hn. split; cbn [pset pinv].
      + intros c r'. rewrite mfind_mset. destruct (keqb_spec c t) as [->|]; [intros [= <-]; auto|auto].
      + intros r1 r2 v v'. rewrite !mfind_mset.
        destruct (keqb_spec r1 t) as [->|], (keqb_spec r2 t) as [->|]; try congruence.
        * intros _ F _. rewrite eq_sym'. apply mfind_in in F. eapply part_join_none; eauto.
        * intros F _ _. apply mfind_in in F. eapply part_join_none; eauto.
        * eauto.
  Qed.

  (** building a partition from a duplicate-free list of letters *)
  Lemma wfp_build : forall ls p, wfp p -> part_agrees eq p -> NoDup ls ->
    (forall c, In c ls -> (c < MaxChar)%N) ->
    (forall c, In c ls -> part_contains p c = false) ->
    let p' := fold_left (fun p c => part_append eq c p) ls p in
    wfp p' /\ part_agrees eq p' /\
    (forall c, part_contains p' c = true <-> In c ls \/ part_contains p c = true).
  Proof.
    induction ls as [|t ls IH]; intros p W A ND HR HN; cbn [fold_left].
    - split; [auto|]. split; [auto|]. intros c; cbn; tauto.
    - inversion ND; subst.
      assert (Ht : mfind t (pinv p) = None).
      { specialize (HN t (or_introl eq_refl)). unfold part_contains in HN. destruct (mfind t (pinv p)); congruence. }
      destruct (IH (part_append eq t p)) as [I1 [I2 I3]]; auto.
      + apply wfp_append; auto; apply HR; left; auto.
      + apply wfp_agrees; auto.
      + intros c Hc; apply HR; right; auto.
      + intros c Hc. destruct (part_contains (part_append eq t p) c) eqn:X; auto.
        apply part_append_inv in X as [->|X]; [contradiction|]. rewrite HN in X; [discriminate|right; auto].
      + split; [auto|]. split; [auto|]. intros c; split.
        * intros HH. apply I3 in HH as [|HH]; [left; right; auto|]. apply part_append_inv in HH as [->|]; [left; left; auto|auto].
        * intros [[->|Hin]|Hin]; apply I3; auto; right; apply part_append_inv; auto.
  Qed.

End Equivalence.

Lemma wfp_key : forall p r, wfp p -> (part_rep p r = Some r <-> In r (map fst (pset p))).
Proof.
  unfold part_rep. intros p r W. rewrite (wq_inv _ W). split.
  - intros [i [ms [H _]]]. apply mfind_in in H. apply in_map_iff. exists (r, (i, ms)); auto.
  - intros H. apply in_map_iff in H as [[r' [i ms]] [<- H]]. cbn. apply msorted_find in H; [|apply W].
    exists i, ms. split; auto. eapply wq_self; eauto.
Qed.

Lemma wfp_size : forall p, wfp p -> part_size p <= 264.
Proof.
  intros p W. unfold part_size. rewrite <- (map_length fst). rewrite <- (map_length N.to_nat).
  rewrite <- (seq_length 264 0). apply NoDup_incl_length.
  - apply FinFun.Injective_map_NoDup; [intros x y; apply N2Nat.inj|].
    pose proof (wq_ssorted _ W) as Hs. unfold msorted in Hs. clear W. induction Hs as [|x l Hs IH Hf]; cbn; constructor; auto.
    intros X. apply in_map_iff in X as [y [E Hy]]. rewrite Forall_forall in Hf. specialize (Hf y Hy). rewrite E, kltb_irr in Hf. discriminate.
  - intros x H. apply in_map_iff in H as [c [<- H]]. apply (wfp_key _ _ W) in H. apply (wq_range _ W) in H.
    apply in_seq. unfold MaxChar in H. lia.
Qed.

Lemma wfp_cls : forall p c r i ms, wfp p -> mfind r (pset p) = Some (i, ms) -> In c ms -> cls_of p c = i.
Proof.
  intros p c r i ms W H I. unfold cls_of, part_index. rewrite (proj2 (wq_inv _ W c r)); [|eauto]. rewrite H. reflexivity.
Qed.

Section FillLetters.
  Variable p : partition.
  Hypothesis W : wfp p.
  Let inner := fun (v : N) (acc ms : list N) => fold_left (fun a c => upd (N.to_nat c) (fun _ => v) a) ms acc.
  Lemma inner_length : forall v ms acc, length (inner v acc ms) = length acc.
  Proof. unfold inner. induction ms as [|c ms IH]; intros acc; cbn [fold_left]; auto. rewrite IH. apply upd_length. Qed.
  Lemma inner_nth : forall v ms acc j, j < length acc -> nth_error (inner v acc ms) j =
    if existsb (fun c => Nat.eqb (N.to_nat c) j) ms then Some v else nth_error acc j.
  Proof.
    unfold inner. induction ms as [|c ms IH]; intros acc j H; cbn [fold_left existsb]; auto.
    rewrite IH by (rewrite upd_length; auto). destruct (existsb _ ms); [rewrite orb_true_r; auto|]. rewrite orb_false_r.
    rewrite nth_error_upd, Nat.eqb_sym. destruct (Nat.eqb (N.to_nat c) j); auto.
    apply nth_error_Some in H. destruct (nth_error acc j); [reflexivity|congruence].
  Qed.
  Let outer := fun (acc : list N) (L : smap N (nat * list N)) =>
    fold_left (fun acc '(_, (idx, ms)) => fold_left (fun a c => upd (N.to_nat c) (fun _ => N.of_nat idx) a) ms acc) L acc.
  Lemma outer_length : forall L acc, length (outer acc L) = length acc.
  Proof. unfold outer. induction L as [|[r [i ms]] L IH]; intros acc; cbn [fold_left]; auto. rewrite IH. apply inner_length. Qed.
  (** once right, the entry stays right *)
  Lemma outer_nth : forall L acc c, (forall r i ms, In (r, (i, ms)) L -> In c ms -> i = cls_of p c) -> N.to_nat c < length acc ->
    (nth_error acc (N.to_nat c) = Some (N.of_nat (cls_of p c)) \/ exists r i ms, In (r, (i, ms)) L /\ In c ms) ->
    nth_error (outer acc L) (N.to_nat c) = Some (N.of_nat (cls_of p c)).
  Proof.
    unfold outer. induction L as [|[r [i ms]] L IH]; intros acc c HL Hc H; cbn [fold_left].
    - destruct H as [H|(r & i & ms & [] & _)]. exact H.
    - fold (inner (N.of_nat i) acc ms). apply IH.
      + intros r' i' ms' X. apply (HL r' i' ms'). right; auto.
      + rewrite inner_length. auto.
      + rewrite inner_nth by auto. destruct (existsb (fun x => Nat.eqb (N.to_nat x) (N.to_nat c)) ms) eqn:E.
        * left. apply existsb_exists in E as [x [Hx E]]. apply Nat.eqb_eq, N2Nat.inj in E. subst x.
          rewrite <- (HL r i ms (or_introl eq_refl) Hx). reflexivity.
        * destruct H as [H|(r' & i' & ms' & [H|H] & I)]; auto.
          -- injection H as -> -> ->. exfalso. rewrite <- not_true_iff_false in E. apply E. apply existsb_exists.
             exists c. split; auto. apply Nat.eqb_refl.
          -- right. exists r', i', ms'. auto.
  Qed.
  Lemma wfp_fill : forall c r, part_rep p c = Some r -> 
    nth_error (slow_letters p) (N.to_nat c) = Some (N.of_nat (cls_of p c)) /\ cls_of p c < part_size p.
  Proof.
    intros c r H. pose proof (wq_range _ W _ _ H) as Hc. unfold MaxChar in Hc.
    apply (wq_inv _ W) in H as [i [ms [H1 H2]]].
    assert (C : cls_of p c = i) by (eapply wfp_cls; eauto).
    assert (L : i < part_size p) by (eapply wq_idx; eauto).
    split; [|rewrite C; auto]. unfold slow_letters. fold (outer (repeat 0%N (N.to_nat MaxChar)) (pset p)).
    rewrite outer_nth.
    - reflexivity.
    - intros r' i' ms' X I. symmetry. apply (wfp_cls p c r' i' ms'); auto. apply msorted_find; auto. apply W.
    - rewrite repeat_length. unfold MaxChar. lia.
    - right. exists r, i, ms. split; auto. apply mfind_in; auto.
  Qed.
End FillLetters.

Lemma wfp_list_in : forall p c i, wfp p -> In (c, i) (part_list p) <-> exists ms, mfind c (pset p) = Some (i, ms).
Proof.
  intros p c i W. unfold part_list. rewrite in_map_iff. split.
  - intros [[r [j ms]] [[= -> ->] H]]. exists ms. apply msorted_find; auto. apply W.
  - intros [ms H]. exists (c, (i, ms)). split; auto. apply mfind_in; auto.
Qed.
Lemma wfp_list_rep : forall p c, wfp p -> (exists i, In (c, i) (part_list p)) <-> part_rep p c = Some c.
Proof.
  intros p c W. split.
  - intros [i H]. apply wfp_list_in in H as [ms H]; auto. apply (wq_inv _ W). exists i, ms. split; auto. eapply wq_self; eauto.
  - intros H. apply (wq_inv _ W) in H as [i [ms [H _]]]. exists i. apply wfp_list_in; eauto.
Qed.

Local Open Scope N_scope.

(** The tables of [s] show an automaton with [n] states, transitions [E], actions [A]. *)
Record cap_shows (s : cap) (n : nat) (E : nat -> N -> nat -> Prop) (A : nat -> nat -> N) (i : nat) (F : nat -> bool) : Prop := {
  ks_states : k_states s = N.of_nat n;
  ks_init : k_start s = N.of_nat i /\ (i < n)%nat;
  ks_bound : forall p c q, E p c q -> (q < n)%nat;
  ks_next : forall c, c < MaxChar -> exists l, cap_translate s c = Ok l /\ forall q, (q < n)%nat -> exists ts,
     cap_next_states s (N.of_nat q) l = Ok ts /\ forall x a, In (x, a) ts <-> exists r, x = N.of_nat r /\ E q c r /\ a = A q r mod two32;
  ks_final : forall q, (q < n)%nat -> cap_is_final s (N.of_nat q) = Ok (F q)
}.

Definition kpush {X} (v : list (list X)) (ix : N * X) : res (list (list X)) :=
  if (N.to_nat (fst ix) <? length v)%nat then Ok (upd (N.to_nat (fst ix)) (fun d => d ++ [snd ix]) v) else UB.
Lemma kpushes_ok : forall X (l : list (N * X)) v, (forall ix, In ix l -> (N.to_nat (fst ix) < length v)%nat) ->
  exists v', foldm kpush l v = Ok v' /\ length v' = length v /\
    forall i d, nth_error v i = Some d -> exists d', nth_error v' i = Some d' /\ forall x, In x d' <-> In x d \/ In (N.of_nat i, x) l.
Proof.
  intros X. induction l as [|[j y] l IH]; intros v Hl; cbn [foldm].
  - exists v. splits; auto. intros i d Hd. exists d. split; auto. intros; cbn [In]; tauto.
  - pose proof (Hl _ (or_introl eq_refl)) as Hj. cbn [fst] in Hj. unfold kpush at 1. cbn [fst snd].
    rewrite (proj2 (Nat.ltb_lt _ _) Hj). cbn [bind].
    destruct (IH (upd (N.to_nat j) (fun d => d ++ [y]) v)) as (v' & R & L & Y).
    { intros ix Hi. rewrite upd_length. apply Hl; right; auto. }
    rewrite upd_length in L. exists v'. splits; auto. intros i d Hd.
    destruct (Y i (if Nat.eqb i (N.to_nat j) then d ++ [y] else d)) as (d' & D & I).
    { rewrite nth_error_upd, Hd. destruct (Nat.eqb i (N.to_nat j)); reflexivity. }
    exists d'. split; auto. intros x. rewrite I. cbn [In]. destruct (Nat.eqb_spec i (N.to_nat j)) as [->|Hne].
    + rewrite in_app_iff, Nnat.N2Nat.id. cbn [In]. split; [intros [[|[<- | []]]|]; auto|]. intros [|[[= <-]|]]; auto.
    + split; [intros [|]; auto|]. intros [|[Hx|]]; auto. injection Hx as -> ->. lia.
Qed.

Lemma sparse_eps_letters : forall f, let p := letters (sparse_eps f) in
  wfp p /\ part_agrees (letters_equal (trans f)) p /\ forall c, part_contains p c = true <-> (c < MaxChar)%N.
Proof.
  intros f. cbv zeta. unfold sparse_eps. cbn [letters set_letters set_sparsed].
  destruct (wfp_build (letters_equal (trans f)) (le_refl _) (le_sym _) all_letters part_empty) as [A [B C]].
  - apply wfp_empty.
  - split; cbn; discriminate.
  - apply all_letters_NoDup.
  - intros c Hc. apply all_letters_in; auto.
  - reflexivity.
  - splits; auto. intros c. rewrite C, all_letters_in. split; [intros [H|H]; auto; discriminate|auto].
Qed.

Section Compile.
  Variable f : fsm.
  Hypothesis W : wf f.
  Hypothesis T : tags f = [].
  Hypothesis Hn : N.of_nat (size f) <= two32.
  Let g := sparse_eps f.
  Let p := letters g.
  Let n := size f.
  Let lc := N.of_nat (part_size p).

  Lemma p_wf : wfp p.
  Proof. apply sparse_eps_letters. Qed.
  Lemma p_all : forall c, c < MaxChar -> exists r, part_rep p c = Some r.
  Proof.
    intros c Hc. destruct (sparse_eps_letters f) as (_ & _ & X). apply X in Hc. unfold part_contains in Hc. unfold part_rep, p, g.
    destruct (mfind c (pinv (letters (sparse_eps f)))) as [r|]; [eauto|discriminate].
  Qed.
  Lemma p_same : forall c r q, part_rep p c = Some r -> row_get (row_at f q) c = row_get (row_at f q) r.
  Proof.
    intros c r q H. destruct (sparse_eps_letters f) as [_ [[A _] _]]. apply A in H. rewrite letters_equal_iff in H.
    unfold row_get. replace (mfind c (row_at f q)) with (mfind r (row_at f q)); auto. destruct (lt_dec q (size f)).
    - apply H. apply nth_In. auto.
    - rewrite row_at_out by lia. auto.
  Qed.

  Definition cap_pushes : list (N * (N * N)) :=
    flat_map (fun from => flat_map (fun e : N * nat => map (fun to => (N.of_nat from * lc + N.of_nat (snd e), (N.of_nat to mod two32, output f from to mod two32)))
      (destinations g from (fst e))) (part_list p)) (seq 0 n).

  Lemma cap_class : forall c i, In (c, i) (part_list p) -> part_rep p c = Some c /\ cls_of p c = i /\ nth_error (slow_letters p) (N.to_nat c) = Some (N.of_nat i).
  Proof.
    intros c i Hi. pose proof p_wf as Wp.
    assert (R : part_rep p c = Some c) by (apply (wfp_list_rep p c Wp); eauto).
    apply (wfp_list_in p c i Wp) in Hi. destruct Hi as (ms & Hm). assert (C : cls_of p c = i) by (eapply wfp_cls; eauto; eapply (wq_self _ Wp); eauto).
    splits; auto. destruct (wfp_fill p Wp c c R) as [X _]. rewrite X, C. reflexivity.
  Qed.
  Lemma cap_foldm : forall v, foldm (fun v from =>
      foldm (fun v '(c, _) => foldm (fun v to => cap_set_jump lc (slow_letters p) v from c to (output g from to)) (destinations g from c) v)
      (part_list p) v) (seq 0 n) v = foldm kpush cap_pushes v.
  Proof.
    intros v. unfold cap_pushes. rewrite foldm_flat. apply foldm_ext. intros v1 from _. rewrite foldm_flat. apply foldm_ext. intros v2 [c i] Hi.
    cbn [fst snd]. rewrite foldm_map. apply foldm_ext. intros v3 to _. unfold cap_set_jump. destruct (cap_class c i Hi) as (_ & _ & ->). reflexivity.
  Qed.
  Lemma cap_rep : forall c, c < MaxChar -> exists r, part_rep p c = Some r /\ In (r, cls_of p c) (part_list p) /\ (cls_of p c < part_size p)%nat.
  Proof.
    intros c H1. pose proof p_wf as Wp. destruct (p_all c H1) as [r Hr]. exists r. split; auto. pose proof Hr as Hr'.
    apply (wq_inv _ Wp) in Hr'. destruct Hr' as (i & ms & Hm & Hc). rewrite (wfp_cls p c r i ms Wp Hm Hc).
    split; [apply (wfp_list_in p r i Wp); eauto|]. eapply (wq_idx _ Wp); eauto.
  Qed.
  Lemma cap_in : forall q c x a, (q < n)%nat -> c < MaxChar ->
    (In (N.of_nat q * lc + N.of_nat (cls_of p c), (x, a)) cap_pushes <-> exists r, x = N.of_nat r /\ raw f q c r /\ a = output f q r mod two32).
  Proof.
    intros q c x a Hq Hc. pose proof p_wf as Wp.
    assert (Dst : forall q c i, In (c, i) (part_list p) -> destinations g q c = row_get (row_at f q) c).
    { intros q0 c0 i0 Hi. unfold destinations, translate. change (sparsed g) with true. cbn [negb orb]. destruct (cap_class c0 i0 Hi) as (R & _). fold p. rewrite R. destruct (N.eqb c0 Epsilon); auto. }
    assert (Sm : forall q c r, raw f q c r -> N.of_nat r mod two32 = N.of_nat r).
    { intros q0 c0 r Hr. apply raw_bound in Hr; [|apply W]. apply N.mod_small. lia. }
    destruct (cap_rep c Hc) as (r & Hr & Hi & Li). unfold cap_pushes. rewrite in_flat_map. split.
    - intros (q' & Hq' & X). apply in_seq in Hq'. apply in_flat_map in X. destruct X as ([c' j] & Hj & X). cbn [fst snd] in X.
      apply in_map_iff in X. destruct X as (to & X & Hto). injection X as X <- <-.
      pose proof Hj as Hj'. apply (wfp_list_in p c' j Wp) in Hj'. destruct Hj' as (ms & Hm). pose proof (wq_idx _ Wp _ _ _ Hm) as Lj. fold (part_size p) in Lj.
      assert (Y : N.of_nat q' * lc + N.of_nat j = N.of_nat q * lc + N.of_nat (cls_of p c)) by exact X.
      apply (in_prod_lists 0) in Y; [|unfold lc; lia|unfold lc; lia]. destruct Y as [Y1 Y2]. assert (q' = q) by lia. assert (j = cls_of p c) by lia. subst q' j.
      rewrite (Dst q c' _ Hj) in Hto.
      assert (c' = r). { apply (wfp_list_in p r _ Wp) in Hi. destruct Hi as (ms' & Hm'). eapply (wq_inj _ Wp); eauto. } subst c'.
      assert (Ed : raw f q c to) by (unfold raw; rewrite (p_same _ _ q Hr); auto).
      exists to. splits; auto. eapply Sm; eauto.
    - intros (to & -> & Ed & ->). exists q. split; [apply in_seq; lia|]. apply in_flat_map. exists (r, cls_of p c). split; [exact Hi|]. cbn [fst snd].
      apply in_map_iff. exists to. split; [rewrite (Sm _ _ _ Ed); reflexivity|]. rewrite (Dst q r _ Hi).
      unfold raw in Ed. rewrite (p_same _ _ q Hr) in Ed. auto.
  Qed.

  Lemma cap_compile_ok : exists s, cap_compile f = Ok s /\ cap_shows s n (raw f) (output f) (initial f) (is_final f).
  Proof.
    pose proof p_wf as Wp. unfold cap_compile. cbv zeta. fold g. change (size g) with n. fold p. fold lc. rewrite cap_foldm.
    destruct (kpushes_ok _ cap_pushes (repeat [] (n * N.to_nat lc))) as (v & Ev & Lv & Xv).
    { intros [i x] Hi. rewrite repeat_length. cbn [fst]. unfold cap_pushes in Hi. apply in_flat_map in Hi. destruct Hi as (q & Hq & Hi). apply in_seq in Hq.
      apply in_flat_map in Hi. destruct Hi as ([c j] & Hj & Hi). apply in_map_iff in Hi. destruct Hi as (to & X & _). cbn [fst snd] in X. injection X as <- _.
      apply (wfp_list_in p c j Wp) in Hj. destruct Hj as (ms & Hm). apply (wq_idx _ Wp) in Hm. fold (part_size p) in Hm. apply index_lt; [lia|auto]. }
    rewrite Ev. cbn [bind]. eexists. split; [reflexivity|]. split; unfold cap_translate, cap_next_states, cap_is_final; cbn [k_states k_start k_letters k_finals k_jumps k_lcount].
    - reflexivity.
    - split; auto. apply (wf_init _ W).
    - intros a c b Hb. apply raw_bound in Hb; [|apply W]. apply Hb.
    - intros c Hc. destruct (cap_rep c Hc) as (r & Hr & Hi & Li). exists (N.of_nat (cls_of p c)).
      destruct (wfp_fill p Wp c r Hr) as [-> _]. split; auto. intros q Hq.
      destruct (Xv (N.to_nat (N.of_nat q * lc + N.of_nat (cls_of p c))) []) as (d & Hd & Id).
      { apply nth_repeat. apply index_lt; auto. }
      exists d. rewrite Hd. split; auto. intros x a. rewrite Id, Nnat.N2Nat.id, cap_in by auto. cbn [In]. tauto.
    - intros q Hq. rewrite Nnat.Nat2N.id, nth_error_map. rewrite (nth_error_nth' (seq 0 n) 0%nat) by (rewrite seq_length; auto). rewrite seq_nth by auto. cbn [option_map Nat.add].
      f_equal. unfold fsm_tag. change (tags g) with (tags f). rewrite T. cbn [mfind]. change (is_final g q) with (is_final f q). destruct (is_final f q); reflexivity.
  Qed.
End Compile.
