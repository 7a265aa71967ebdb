(** SlowScanner: what its tables show, and its sets of states. *)
From Coq Require Import List Bool Arith NArith Lia.
From Verif Require Import Util Spec PartitionModel FsmModel DetermineModel MinimizeModel Nfa PartitionProofs FsmSem FsmBasics EpsProofs DetProofs MinProofs CompProofs Api ApiProofs
  TagFacts RunModel RunSpec ScannerModel ScannerSpec ScannerProofs ScannerBuild ScannerCompile SimpleModel SimpleProofs.
Import ListNotations.
Local Open Scope N_scope.
Local Opaque all_letters all_bytes.

(** The tables of [s] show a nondeterministic automaton with [n] states. *)
Record slow_shows (s : slow) (n : nat) (E : nat -> N -> nat -> Prop) (i : nat) (F : nat -> bool) : Prop := {
  sl_states : w_states s = N.of_nat n;
  sl_init : w_start s = N.of_nat i /\ (i < n)%nat;
  sl_noeps : forall p q, ~ E p Epsilon q;
  sl_bound : forall p c q, E p c q -> (q < n)%nat;
  sl_next : forall q c, (q < n)%nat -> letter c -> exists l ds, nth_error (w_letters s) (N.to_nat c) = Some l /\
     slow_dests s (N.of_nat q) l = Ok ds /\ forall x, In x ds <-> exists r, x = N.of_nat r /\ E q c r;
  sl_final : forall q, (q < n)%nat -> nth_error (w_finals s) q = Some (F q)
}.

Lemma nodup_snoc : forall A (l : list A) x, NoDup l -> ~ In x l -> NoDup (l ++ [x]).
Proof.
  intros A l x. induction l as [|y l IH]; intros Hl Hx; cbn [app]; [constructor; [intros []|constructor]|].
  inversion Hl; subst. constructor; [|apply IH; auto; intros ?; apply Hx; right; auto].
  rewrite in_app_iff. intros [|[-> | []]]; auto. apply Hx. left; auto.
Qed.

(** A list of states standing for a set. *)
Definition stands (n : nat) (st : list N) (S : nat -> Prop) : Prop :=
  NoDup st /\ (forall q, S q -> (q < n)%nat) /\ forall x, In x st <-> exists q, x = N.of_nat q /\ S q.

Section Shows.
  Variables (s : slow) (n : nat) (E : nat -> N -> nat -> Prop) (i : nat) (F : nat -> bool).
  Hypothesis H : slow_shows s n E i F.

  Lemma slow_push_ok : forall ds acc, (forall d, In d ds -> d < N.of_nat n) -> NoDup acc -> exists acc',
    slow_push (N.of_nat n) ds acc = Ok acc' /\ NoDup acc' /\ forall x, In x acc' <-> In x acc \/ In x ds.
  Proof.
    induction ds as [|d ds IH]; intros acc Hd Na; cbn [slow_push].
    - exists acc. splits; auto. intros; cbn [In]; tauto.
    - rewrite (proj2 (N.ltb_lt d (N.of_nat n))) by (apply Hd; left; auto).
      destruct (existsb (N.eqb d) acc) eqn:Ex.
      + destruct (IH acc) as (acc' & X & Na' & I); auto; [intros; apply Hd; right; auto|]. exists acc'. splits; auto.
        apply existsb_exists in Ex. destruct Ex as (y & Hy & Ey). apply N.eqb_eq in Ey. subst y.
        intros x. rewrite I. cbn [In]. split; [tauto|]. intros [|[<- | ]]; auto.
      + destruct (IH (acc ++ [d])) as (acc' & X & Na' & I); [intros; apply Hd; right; auto| |].
        * apply nodup_snoc; auto. intros Hx. rewrite <- not_true_iff_false in Ex. apply Ex, existsb_exists. exists d. split; auto. apply N.eqb_refl.
        * exists acc'. splits; auto. intros x. rewrite I, in_app_iff. cbn [In]. tauto.
  Qed.

  Lemma slow_next_ok : forall st S c, stands n st S -> letter c -> exists st',
    slow_next s st c = Ok st' /\ stands n st' (fun r => exists q, S q /\ E q c r).
  Proof.
    intros st S c (_ & B & I) Hc.
    assert (X : exists l, nth_error (w_letters s) (N.to_nat c) = Some l /\ forall q, (q < n)%nat -> exists ds,
      slow_dests s (N.of_nat q) l = Ok ds /\ forall x, In x ds <-> exists r, x = N.of_nat r /\ E q c r).
    { destruct (sl_next _ _ _ _ _ H i c (proj2 (sl_init _ _ _ _ _ H)) Hc) as (l & _ & L & _). exists l. split; auto.
      intros q Hq. destruct (sl_next _ _ _ _ _ H q c Hq Hc) as (l' & ds & L' & D). rewrite L in L'. injection L' as <-. eauto. }
    destruct X as (l & L & X). unfold slow_next. rewrite L. unfold slow_next_translated. rewrite (sl_states _ _ _ _ _ H).
    assert (G : forall st acc, (forall x, In x st -> x < N.of_nat n) -> NoDup acc -> exists st',
      foldm (fun acc q => let* ds := slow_dests s q l in slow_push (N.of_nat n) ds acc) st acc = Ok st' /\ NoDup st' /\
      forall x, In x st' <-> In x acc \/ exists q r, In (N.of_nat q) st /\ x = N.of_nat r /\ E q c r).
    { clear st B I. induction st as [|x st IH]; intros acc Hst Na; cbn [foldm].
      - exists acc. splits; auto. intros x. split; [auto|]. intros [|(q & r & [] & _)]; auto.
      - assert (Hx : x < N.of_nat n) by (apply Hst; left; auto).
        destruct (X (N.to_nat x)) as (ds & D & Id); [lia|]. rewrite Nnat.N2Nat.id in D. rewrite D. cbn [bind].
        destruct (slow_push_ok ds acc) as (a' & P & Na' & Ia); auto.
        { intros d Hd. apply Id in Hd. destruct Hd as (r & -> & Hr). apply (sl_bound _ _ _ _ _ H) in Hr. lia. }
        rewrite P. cbn [bind]. destruct (IH a') as (st' & R & Ns & Is); auto; [intros; apply Hst; right; auto|].
        exists st'. splits; auto. intros y. rewrite Is, Ia, Id. split.
        + intros [[|(r & -> & Hr)]|(q & r & Hq & -> & Hr)]; auto.
          * right. exists (N.to_nat x), r. splits; auto. left. lia.
          * right. exists q, r. splits; auto. right; auto.
        + intros [|(q & r & [-> | Hq] & -> & Hr)]; auto.
          * left. right. exists r. rewrite Nnat.Nat2N.id in *. auto.
          * right. exists q, r. auto. }
    destruct (G st []) as (st' & R & Ns & Is).
    { intros x Hx. apply I in Hx. destruct Hx as (q & -> & Hq). apply B in Hq. lia. }
    { constructor. }
    exists st'. split; auto. unfold stands. splits; auto.
    - intros r (q & _ & Hr). eapply (sl_bound _ _ _ _ _ H); eauto.
    - intros x. rewrite Is. cbn [In]. split.
      + intros [[]|(q & r & Hq & -> & Hr)]. exists r. split; auto. exists q. split; auto.
        apply I in Hq. destruct Hq as (q' & Eq & Hq). assert (q = q') by lia. congruence.
      + intros (r & -> & q & Hq & Hr). right. exists q, r. splits; auto. apply I. eauto.
  Qed.

  Lemma slow_steps : forall w st S, stands n st S -> is_word w -> exists st',
    steps (slow_ops s) st w = Ok st' /\ stands n st' (fun r => exists q, S q /\ path E q w r).
  Proof.
    assert (Nl : forall p r, path E p [] r -> p = r).
    { intros p r P. remember [] as w eqn:Ew. induction P; auto; [|discriminate]. exfalso. eapply (sl_noeps _ _ _ _ _ H); eauto. }
    assert (Cs : forall p c w r, path E p (c :: w) r -> exists q, E p c q /\ path E q w r).
    { intros p c w r P. inversion P; subst; [|eauto]. exfalso. eapply (sl_noeps _ _ _ _ _ H); eauto. }
    induction w as [|c w IH]; intros st S Hs Hw; cbn [steps].
    - exists st. split; auto. destruct Hs as (A & B & C). unfold stands. splits; auto.
      + intros r (q & Hq & P). apply Nl in P. subst. auto.
      + intros x. rewrite C. split; intros (q & -> & Hq); exists q; split; auto.
        * exists q. split; auto. constructor.
        * destruct Hq as (q' & Hq & P). apply Nl in P. subst. auto.
    - inversion Hw as [|? ? Hc Hw']; subst. destruct (slow_next_ok st S c Hs Hc) as (st1 & E1 & S1).
      unfold slow_ops at 1. cbn [o_step]. rewrite E1. cbn [bind]. destruct (IH st1 _ S1 Hw') as (st' & E2 & S2).
      exists st'. split; auto. destruct S2 as (A & B & C).
      assert (Q : forall r, (exists q, S q /\ path E q (c :: w) r) <-> exists q, (exists p, S p /\ E p c q) /\ path E q w r).
      { intros r. split.
        - intros (q & Hq & P). destruct (Cs _ _ _ _ P) as (q' & P1 & P2). eauto 6.
        - intros (q & (p & Hp & P1) & P2). exists p. split; auto. eapply path_step; eauto. destruct Hc; auto. }
      unfold stands. splits; auto.
      + intros r Hr. apply B, Q. exact Hr.
      + intros x. rewrite C. split; intros (r & -> & Hr); exists r; split; auto; apply Q; exact Hr.
  Qed.

  Lemma slow_init : stands n [w_start s] (fun q => q = i).
  Proof.
    destruct (sl_init _ _ _ _ _ H) as [A B]. unfold stands. splits.
    - constructor; [intros []|constructor].
    - intros; subst; auto.
    - intros x. cbn [In]. rewrite A. split; [intros [<- | []]; eauto|]. intros (q & -> & ->). auto.
  Qed.
  Lemma slow_final_ok : forall st S, stands n st S -> exists b, slow_final s st = Ok b /\ (b = true <-> exists q, S q /\ F q = true).
  Proof.
    intros st S (_ & B & C).
    assert (G : forall l, incl l st -> exists b, slow_final s l = Ok b /\ (b = true <-> exists q, In (N.of_nat q) l /\ F q = true)).
    { induction l as [|x l IH]; intros Hl; cbn [slow_final].
      - exists false. split; auto. split; [discriminate|]. intros (q & [] & _).
      - assert (Hx : In x st) by (apply Hl; left; auto). apply C in Hx. destruct Hx as (q & -> & Hq). rewrite Nnat.Nat2N.id.
        rewrite (sl_final _ _ _ _ _ H q (B q Hq)). destruct (F q) eqn:Fq.
        + exists true. split; auto. split; auto. intros _. exists q. split; auto. left; auto.
        + destruct IH as (b & Eb & Ib); [intros y Hy; apply Hl; right; auto|]. exists b. split; auto. rewrite Ib. split.
          * intros (r & Hr & Fr). exists r. split; auto. right; auto.
          * intros (r & [Hr|Hr] & Fr); [|eauto]. assert (q = r) by lia. congruence. }
    destruct (G st (incl_refl _)) as (b & Eb & Ib). exists b. split; auto. rewrite Ib. split; intros (q & Hq & Fq); exists q; split; auto.
    - apply C in Hq. destruct Hq as (q' & Eq & Hq). assert (q = q') by lia. congruence.
    - apply C. eauto.
  Qed.
  Lemma slow_works : works (slow_ops s) (fun st => exists S, stands n st S).
  Proof.
    split; unfold slow_ops; cbn [o_init o_step o_next o_final o_dead].
    - eexists. apply slow_init.
    - intros st c (S & Hs) Hc. destruct (slow_next_ok st S c Hs Hc) as (st' & E1 & S1). eauto.
    - auto.
    - intros st (S & Hs). destruct (slow_final_ok st S Hs) as (b & X & _). eauto.
    - eauto.
    - discriminate.
  Qed.
  (** Run (two states exchanged by pointer) is stepping. *)
  Lemma slow_run_steps : forall m bs b st, holds m b bs -> slow_run s m b (b + N.of_nat (length bs)) st = steps (slow_ops s) st bs.
  Proof.
    intros m bs b st Hh. unfold slow_run. replace (N.to_nat (b + N.of_nat (length bs) - b)) with (length bs) by lia.
    generalize [w_start s]. revert b st Hh. induction bs as [|c bs IH]; intros b st Hh d; cbn [length slow_run_loop steps]; auto.
    destruct Hh as [Fb Hh]. inversion Fb as [|? ? Hc Fb']; subst.
    assert (L : load8 m b = Ok c).
    { unfold load8. pose proof (Hh 0%nat (Nat.lt_0_succ _)) as X. cbn [nth] in X. rewrite N.add_0_r in X. rewrite X. reflexivity. }
    rewrite L. cbn [bind]. unfold slow_ops at 1. cbn [o_step]. destruct (slow_next s st c) as [st1| | |]; cbn [bind]; auto. apply IH.
    split; auto. intros j Hj. specialize (Hh (S j)). cbn [length nth] in Hh.
    replace (b + 1 + N.of_nat j) with (b + N.of_nat (S j)) by lia. apply Hh. lia.
  Qed.
End Shows.

(** ** Compilation *)
Definition push (v : list (list N)) (ix : N * N) : res (list (list N)) :=
  if (N.to_nat (fst ix) <? length v)%nat then Ok (upd (N.to_nat (fst ix)) (fun d => d ++ [snd ix]) v) else UB.
Lemma pushes_ok : forall l v, (forall ix, In ix l -> (N.to_nat (fst ix) < length v)%nat) ->
  exists v', foldm push l v = Ok v' /\ length v' = length v /\
    forall i d, nth_error v i = Some d -> exists d', nth_error v' i = Some d' /\ forall x, In x d' <-> In x d \/ In (N.of_nat i, x) l.
Proof.
  induction l as [|[j y] l IH]; intros v Hl; cbn [foldm].
  - exists v. splits; auto. intros i d Hd. exists d. split; auto. intros; cbn [In]; tauto.
  - pose proof (Hl _ (or_introl eq_refl)) as Hj. cbn [fst] in Hj. unfold push at 1. cbn [fst snd].
    rewrite (proj2 (Nat.ltb_lt _ _) Hj). cbn [bind].
    destruct (IH (upd (N.to_nat j) (fun d => d ++ [y]) v)) as (v' & R & L & X).
    { intros ix Hi. rewrite upd_length. apply Hl; right; auto. }
    rewrite upd_length in L. exists v'. splits; auto. intros i d Hd.
    destruct (X i (if Nat.eqb i (N.to_nat j) then d ++ [y] else d)) as (d' & D & I).
    { rewrite nth_error_upd, Hd. destruct (Nat.eqb i (N.to_nat j)); reflexivity. }
    exists d'. split; auto. intros x. rewrite I. cbn [In]. destruct (Nat.eqb_spec i (N.to_nat j)) as [->|Hne].
    + rewrite in_app_iff, Nnat.N2Nat.id. cbn [In]. split; [intros [[|[<- | []]]|]; auto|]. intros [|[[= <-]|]]; auto.
    + split; [intros [|]; auto|]. intros [|[Hx|]]; auto. injection Hx as -> ->. lia.
Qed.

Lemma index_lt : forall n k q j, (q < n -> j < k -> N.to_nat (N.of_nat q * N.of_nat k + N.of_nat j) < n * N.to_nat (N.of_nat k))%nat.
Proof.
  intros n k q j Hq Hj. rewrite Nnat.N2Nat.inj_add, Nnat.N2Nat.inj_mul, !Nnat.Nat2N.id.
  apply Nat.lt_le_trans with (S q * k)%nat; [cbn [Nat.mul]; lia|]. apply Nat.mul_le_mono_r. lia.
Qed.
Lemma nth_repeat : forall A (a : A) n i, (i < n)%nat -> nth_error (repeat a n) i = Some a.
Proof. intros A a. induction n as [|n IH]; intros [|i] Hi; cbn [repeat nth_error]; auto; try lia. apply IH. lia. Qed.

Lemma slow_letters_fill : forall p, wf_part p -> slow_letters p = fill_letters 0 p.
Proof.
  intros p W. unfold slow_letters, fill_letters. generalize (repeat 0 (N.to_nat MaxChar)).
  assert (A : forall r i ms, In (r, (i, ms)) (pset p) -> (N.of_nat i + 0) mod 65536 = N.of_nat i).
  { intros r i ms Hi. apply msorted_find in Hi; [|apply W]. apply (wp_idx _ W) in Hi. pose proof (part_size_le p W) as L. unfold part_size in L.
    rewrite N.add_0_r. apply N.mod_small. lia. }
  revert A. induction (pset p) as [|[r [i ms]] L IH]; intros A acc; cbn [fold_left]; auto.
  rewrite (A r i ms) by (left; auto). apply IH. intros; eapply A; right; eauto.
Qed.

Lemma sparse_twice : forall h, sparse (clear_hints (sparse h)) = clear_hints (sparse h).
Proof.
  intros h. pose (P := fun tr => fold_left (fun (p : partition) (c : N) => if c =? Epsilon then p else part_append (letters_equal tr) c p) all_letters part_empty).
  assert (X : forall f, sparse f = set_sparsed (set_letters f (P (trans f))) true) by (intros; reflexivity).
  clearbody P. rewrite !X. reflexivity.
Qed.
Lemma sparse_remove_epsilons : forall f, sparse (remove_epsilons f) = remove_epsilons f.
Proof. intros f. unfold remove_epsilons. cbv zeta. apply sparse_twice. Qed.

Section Compile.
  Variable f : fsm.
  Hypothesis B : built f.
  Hypothesis Hn : N.of_nat (size f) <= two32.
  Let g := remove_epsilons f.
  Let p := letters g.
  Let n := size f.
  Let lc := N.of_nat (part_size p).

  Definition slow_pushes : list (N * N) :=
    flat_map (fun from => flat_map (fun e : N * nat => map (fun to => (N.of_nat from * lc + N.of_nat (snd e), N.of_nat to mod two32)) (destinations g from (fst e))) (part_list p)) (seq 0 n).

  Lemma g_wf : wf g /\ all_in_part g /\ size g = n /\ initial g = initial f /\ sparsed g = true /\ (forall p q, ~ edge g p Epsilon q) /\ lang_eq (accepts g) (accepts f).
  Proof. destruct (remove_epsilons_ok f (built_wf _ B)) as (A1 & A2 & A3 & A4 & A5 & A6 & A7 & A8 & A9). splits; auto. Qed.

  Lemma class_ok : forall c i, In (c, i) (part_list p) -> part_rep p c = Some c /\ cls_of p c = i /\ nth_error (slow_letters p) (N.to_nat c) = Some (N.of_nat i).
  Proof.
    intros c i Hi. destruct g_wf as (W & _). pose proof (wf_letters _ W) as Wp. fold p in Wp.
    assert (R : part_rep p c = Some c) by (apply (part_list_rep p c Wp); eauto).
    apply (part_list_in p c i Wp) in Hi. destruct Hi as (ms & Hm). assert (C : cls_of p c = i) by (eapply cls_of_in; eauto; eapply (wp_self _ Wp); eauto).
    splits; auto. rewrite slow_letters_fill by auto. destruct (fill_letters_ok 0 p Wp c c R) as [X _]; [lia|]. rewrite X, C. f_equal. lia.
  Qed.

  Lemma slow_foldm : forall v, foldm (fun v from =>
      foldm (fun v '(c, _) => foldm (fun v to => slow_set_jump lc (slow_letters p) v from c to) (destinations g from c) v)
      (part_list p) v) (seq 0 n) v = foldm push slow_pushes v.
  Proof.
    intros v. unfold slow_pushes. rewrite foldm_flat. apply foldm_ext. intros v1 from _. rewrite foldm_flat. apply foldm_ext. intros v2 [c i] Hi.
    cbn [fst snd]. rewrite foldm_map. apply foldm_ext. intros v3 to _. unfold slow_set_jump. destruct (class_ok c i Hi) as (_ & _ & ->). reflexivity.
  Qed.

  Lemma rep_class : forall c, letter c -> exists r, part_rep p c = Some r /\ In (r, cls_of p c) (part_list p) /\ (cls_of p c < part_size p)%nat.
  Proof.
    intros c [H1 H2]. destruct g_wf as (W & A & _). pose proof (wf_letters _ W) as Wp. fold p in Wp.
    destruct (A c H1 H2) as [r Hr]. fold p in Hr. exists r. split; auto. pose proof Hr as Hr'.
    apply (wp_inv _ Wp) in Hr'. destruct Hr' as (i & ms & Hm & Hc). rewrite (cls_of_in p c r i ms Wp Hm Hc).
    split; [apply (part_list_in p r i Wp); eauto|]. eapply (wp_idx _ Wp); eauto.
  Qed.
  Lemma slow_in : forall q c x, (q < n)%nat -> letter c ->
    (In (N.of_nat q * lc + N.of_nat (cls_of p c), x) slow_pushes <-> exists r, x = N.of_nat r /\ edge g q c r).
  Proof.
    intros q c x Hq Hc. destruct g_wf as (W & A & Sz & _ & Sp & _). pose proof (wf_letters _ W) as Wp. fold p in Wp.
    assert (Dst : forall q c i, In (c, i) (part_list p) -> destinations g q c = row_get (row_at g q) c).
    { intros q0 c0 i0 Hi. unfold destinations, translate. rewrite Sp. cbn [negb orb]. destruct (class_ok c0 i0 Hi) as (R & _). fold p. rewrite R. destruct (N.eqb c0 Epsilon); auto. }
    assert (Sm : forall q c r, edge g q c r -> N.of_nat r mod two32 = N.of_nat r).
    { intros q0 c0 r Hr. apply edge_bound in Hr; auto. apply N.mod_small. fold n in Sz. lia. }
    destruct (rep_class c Hc) as (r & Hr & Hi & Li). unfold slow_pushes. rewrite in_flat_map. split.
    - intros (q' & Hq' & X). apply in_seq in Hq'. apply in_flat_map in X. destruct X as ([c' j] & Hj & X). cbn [fst snd] in X.
      apply in_map_iff in X. destruct X as (to & X & Hto). injection X as X <-.
      pose proof Hj as Hj'. apply (part_list_in p c' j Wp) in Hj'. destruct Hj' as (ms & Hm). pose proof (wp_idx _ Wp _ _ _ Hm) as Lj. fold (part_size p) in Lj.
      assert (Y : N.of_nat q' * lc + N.of_nat j = N.of_nat q * lc + N.of_nat (cls_of p c)) by exact X.
      apply (in_prod_lists 0) in Y; [|unfold lc; lia|unfold lc; lia]. destruct Y as [Y1 Y2]. assert (q' = q) by lia. assert (j = cls_of p c) by lia. subst q' j.
      rewrite (Dst q c' _ Hj) in Hto.
      assert (c' = r). { apply (part_list_in p r _ Wp) in Hi. destruct Hi as (ms' & Hm'). eapply (wp_inj _ Wp); eauto. } subst c'.
      assert (Ed : edge g q c to) by (unfold edge, erep; fold p; rewrite Hr; auto).
      exists to. split; auto. eapply Sm; eauto.
    - intros (to & -> & Ed). exists q. split; [apply in_seq; lia|]. apply in_flat_map. exists (r, cls_of p c). split; [exact Hi|]. cbn [fst snd].
      apply in_map_iff. exists to. split; [rewrite (Sm _ _ _ Ed); reflexivity|]. rewrite (Dst q r _ Hi).
      unfold edge, erep in Ed. fold p in Ed. rewrite Hr in Ed. auto.
  Qed.

  Lemma slow_compile_ok : exists s, slow_compile f = Ok s /\ w_null s = false /\ (exists v, w_jumps s = InVec v) /\ w_states s = N.of_nat (size f) /\
    slow_shows s n (edge g) (initial g) (is_final g) /\ lang_eq (accepts g) (accepts f).
  Proof.
    destruct g_wf as (W & A & Sz & Si & Sp & Ne & L). pose proof (wf_letters _ W) as Wp. fold p in Wp.
    unfold slow_compile. rewrite sparse_remove_epsilons. fold g. cbv zeta. rewrite Sz. fold p. fold lc. rewrite slow_foldm.
    destruct (pushes_ok slow_pushes (repeat [] (n * N.to_nat lc))) as (v & Ev & Lv & Xv).
    { intros [i x] Hi. rewrite repeat_length. cbn [fst]. unfold slow_pushes in Hi. apply in_flat_map in Hi. destruct Hi as (q & Hq & Hi). apply in_seq in Hq.
      apply in_flat_map in Hi. destruct Hi as ([c j] & Hj & Hi). apply in_map_iff in Hi. destruct Hi as (to & X & _). cbn [fst snd] in X. injection X as <- _.
      apply (part_list_in p c j Wp) in Hj. destruct Hj as (ms & Hm). apply (wp_idx _ Wp) in Hm. fold (part_size p) in Hm. apply index_lt; [lia|auto]. }
    rewrite Ev. cbn [bind]. eexists. split; [reflexivity|]. cbn [w_null w_jumps w_states]. splits; eauto.
    split; cbn [w_states w_start w_letters w_finals].
    - reflexivity.
    - split; auto. rewrite <- Sz. apply (wf_init _ W).
    - exact Ne.
    - intros a c b Hb. apply edge_bound in Hb; auto. lia.
    - intros q c Hq Hc. destruct (rep_class c Hc) as (r & Hr & Hi & Li). exists (N.of_nat (cls_of p c)).
      assert (Hl : nth_error (slow_letters p) (N.to_nat c) = Some (N.of_nat (cls_of p c))).
      { rewrite (slow_letters_fill p Wp). destruct (fill_letters_ok 0 p Wp c r Hr) as [X _]; [discriminate|]. rewrite N.add_0_r in X. exact X. }
      unfold slow_dests. cbn [w_jumps w_lcount].
      destruct (Xv (N.to_nat (N.of_nat q * lc + N.of_nat (cls_of p c))) []) as (d & Hd & Id).
      { apply nth_repeat. apply index_lt; auto. }
      exists d. refine (conj Hl (conj _ _)); [rewrite Hd; reflexivity|]. intros x. rewrite Id, Nnat.N2Nat.id, slow_in by auto. cbn [In]. tauto.
    - intros q Hq. rewrite nth_error_map. rewrite (nth_error_nth' (seq 0 n) 0%nat) by (rewrite seq_length; auto). rewrite seq_nth by auto. cbn [option_map Nat.add].
      f_equal. unfold fsm_tag. replace (tags g) with (tags f).
      + rewrite (proj1 (built_bare _ B)). cbn [mfind]. destruct (is_final g q); reflexivity.
      + symmetry. rewrite (proj1 (built_bare _ B)). apply (bare_noeps f (built_bare _ B)).
  Qed.
End Compile.

(** After a text the scanner is final iff the automaton accepts the text. *)
Lemma slow_accepts : forall s g n w, slow_shows s n (edge g) (initial g) (is_final g) -> is_word w -> exists st,
  steps (slow_ops s) [w_start s] w = Ok st /\ exists b, slow_final s st = Ok b /\ (b = true <-> accepts g w).
Proof.
  intros s g n w H Hw. destruct (slow_steps s n _ _ _ H w _ _ (slow_init s n _ _ _ H) Hw) as (st & E & S).
  exists st. split; auto. destruct (slow_final_ok s n _ _ _ H _ _ S) as (b & Eb & Ib). exists b. split; auto. rewrite Ib. unfold accepts. split.
  - intros (q & (q0 & -> & P) & Fq). exists q. split; auto. apply smem_in. exact Fq.
  - intros (q & P & Fq). exists q. split; eauto. apply smem_in. exact Fq.
Qed.
