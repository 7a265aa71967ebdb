(** A pair of scanners whose product is larger than Glue's lookup table. *)
From Coq Require Import List Bool Arith NArith Lia Sorted.
From Verif Require Import Util Spec PartitionModel FsmModel DetermineModel MinimizeModel FsmSem Api Prop_Build
  RunModel RunSpec RunProofs PrefixProofs ScannerModel ScannerSpec ScannerProofs ScannerCompile GlueModel GlueTable ScannerApi ScannerClosure ScannerUser.
Import ListNotations.

(** Two texts that lead to the same state have the same futures. *)
Lemma same_future : forall k s Ls a u v w i L, reports k s Ls -> is_word u -> is_word v -> is_word w ->
  steps (scanner_ops k s) (s_initial s) u = Ok a -> steps (scanner_ops k s) (s_initial s) v = Ok a ->
  nth_error Ls i = Some L -> (L (u ++ w) <-> L (v ++ w)).
Proof.
  intros k s Ls a u v w i L R Hu Hv Hw Eu Ev Hi.
  assert (X : forall x, is_word x -> steps (scanner_ops k s) (s_initial s) x = Ok a ->
    exists b ids, steps (scanner_ops k s) a w = Ok b /\ s_accepted k s b = Ok ids /\ (In (N.of_nat i) ids <-> L (x ++ w))).
  { intros x Hx Ex. destruct (R (x ++ w)) as (b & E & _ & _ & (ids & A & _ & H)); [apply Forall_app; auto|].
    rewrite steps_app, Ex in E. cbn [bind] in E. exists b, ids. splits; auto. rewrite H, Nnat.Nat2N.id. split.
    - intros (L' & E' & X'). congruence.
    - eauto. }
  destruct (X u Hu Eu) as (b & ids & E1 & A1 & <-). destruct (X v Hv Ev) as (b' & ids' & E2 & A2 & <-).
  assert (b' = b) by congruence. subst b'. assert (ids' = ids) by congruence. subst. reflexivity.
Qed.

(** How many pairs there can be. *)
Lemma at_least_le : forall k l r La Lb n, obtained k l La -> obtained k r Lb -> at_least k l r n -> (n <= s_states l * s_states r)%N.
Proof.
  intros k l r La Lb n Ol Or (sts & D & <- & H).
  destruct (fa_shows _ _ _ (obtained_faithful _ _ _ Ol)) as (cl & tl & Ml & Sl & _).
  destruct (fa_shows _ _ _ (obtained_faithful _ _ _ Or)) as (cr & tr & Mr & Sr & _).
  rewrite (sh_states _ _ _ _ Sl), (sh_states _ _ _ _ Sr).
  assert (I : incl sts (list_prod (map (addr k l) (seq 0 (m_states tl))) (map (addr k r) (seq 0 (m_states tr))))).
  { intros [x y] X. destruct (H _ X) as (w & Hw & E1 & E2). cbn [fst snd] in *.
    rewrite (sh_init _ _ _ _ Sl) in E1. rewrite (sh_init _ _ _ _ Sr) in E2.
    destruct (steps_addr k l cl tl Sl Ml w (m_start tl) (mo_start _ Ml) Hw) as [E1' L1].
    destruct (steps_addr k r cr tr Sr Mr w (m_start tr) (mo_start _ Mr) Hw) as [E2' L2].
    apply in_prod; apply in_map_iff.
    - exists (m_run tl (m_start tl) w). split; [|apply in_seq; lia]. apply ok_inj. etransitivity; [symmetry; exact E1'|exact E1].
    - exists (m_run tr (m_start tr) w). split; [|apply in_seq; lia]. apply ok_inj. etransitivity; [symmetry; exact E2'|exact E2]. }
  apply (NoDup_incl_length D) in I. rewrite prod_length, !map_length, !seq_length in I. lia.
Qed.

(** ** (a^n)* *)
Definition cyc (n : nat) : fsm := iterate (append_string fsm_new (repeat 97%N n)).
Lemma a_word : forall n, is_word (repeat 97%N n).
Proof. intros n. apply Forall_forall. intros x X. apply repeat_spec in X. subst x. split; [reflexivity|discriminate]. Qed.
Lemma new_uncompressed : uncompressed fsm_new.
Proof. reflexivity. Qed.
Lemma cyc_built : forall n, built (cyc n).
Proof. intros n. apply built_iterate, built_string; [apply built_new|apply new_uncompressed|apply a_word]. Qed.
Lemma cyc_lang : forall n m, accepts (cyc n) (repeat 97%N m) <-> exists j, m = n * j.
Proof.
  intros n m. assert (B : built (append_string fsm_new (repeat 97%N n))) by (apply built_string; [apply built_new|apply new_uncompressed|apply a_word]).
  assert (A : forall w, accepts (append_string fsm_new (repeat 97%N n)) w <-> w = repeat 97%N n).
  { intros w. rewrite (C02_append_string fsm_new _ built_new new_uncompressed (a_word n) w). split.
    - intros (u & v & -> & Hu & ->). apply FsmOps.fsm_new_lang in Hu. red in Hu. subst u. reflexivity.
    - intros ->. exists [], (repeat 97%N n). splits; auto; [|reflexivity]. apply FsmOps.fsm_new_lang. reflexivity. }
  unfold cyc. rewrite (C06_star _ B (repeat 97%N m)). split.
  - intros H. remember (repeat 97%N m) as w eqn:E. revert m E. induction H as [|u v Hu Hv IH]; intros m E.
    + exists 0. destruct m; [lia|discriminate].
    + apply A in Hu. subst u. assert (Lm : n + length v = m) by (apply (f_equal (@length N)) in E; rewrite app_length, !repeat_length in E; auto).
      destruct (IH (m - n)) as [j Hj]; [|exists (S j); lia]. rewrite <- Lm in E. rewrite repeat_app in E. apply app_inv_head in E. rewrite E. f_equal. lia.
  - intros [j ->]. induction j as [|j IH]; [rewrite Nat.mul_0_r; constructor|]. replace (n * S j) with (n + n * j) by lia. rewrite repeat_app. constructor; auto. apply A. auto.
Qed.

Definition placed_b (k : kind) (s : scanner) : bool := ((s_buf s mod 8 =? 0) && (s_base s + s_states s * row_bytes k (s_nletters s) <=? two64) &&
  (s_states s * row_bytes k (s_nletters s) <=? two31))%N.
Lemma placed_b_ok : forall k s, placed_b k s = true -> placed k s.
Proof.
  intros k s H. unfold placed_b in H. apply andb_prop in H as [H H3]. apply andb_prop in H as [H1 H2]. apply N.eqb_eq in H1. apply N.leb_le in H2, H3. split; auto.
Qed.
Definition compiles_b (k : kind) (buf : N) (f : fsm) (n : N) : bool :=
  match compile k buf f with Ok s => placed_b k s && negb (s_null s) && (s_states s <=? n)%N | _ => false end.
Lemma compiles_b_ok : forall k buf f n, k_nmask k <= 64 -> built f -> compiles_b k buf f n = true ->
  exists s, compile k buf f = Ok s /\ obtained k s [accepts f] /\ s_null s = false /\ (s_states s <= n)%N.
Proof.
  intros k buf f n Hn B. unfold compiles_b. destruct (compile k buf f) as [s| | |] eqn:E; try discriminate. intros H.
  apply andb_prop in H as [H H3]. apply andb_prop in H as [H1 H2]. apply N.leb_le in H3. exists s. splits; auto.
  - eapply ob_compile; eauto. apply placed_b_ok; auto.
  - destruct (s_null s); auto; discriminate.
Qed.

Definition wit_kind : kind := mkKind true 2.
Lemma wit_small : k_nmask wit_kind <= 64. Proof. cbn. lia. Qed.
Lemma wit64 : compiles_b wit_kind 4096 (cyc 64) 65 = true. Proof. vm_compute. reflexivity. Qed.
Lemma wit63 : compiles_b wit_kind 4096 (cyc 63) 64 = true. Proof. vm_compute. reflexivity. Qed.
Lemma wit67 : compiles_b wit_kind 4096 (cyc 67) 68 = true. Proof. vm_compute. reflexivity. Qed.
Definition default_b (k : kind) (buf : N) : bool := match default_scanner k buf with Ok s => placed_b k s | _ => false end.
Lemma default_b_ok : forall k buf, k_nmask k <= 64 -> default_b k buf = true -> exists s, default_scanner k buf = Ok s /\ obtained k s [].
Proof.
  intros k buf Hn. pose proof (ob_default k buf) as X. unfold default_b. revert X. generalize (default_scanner k buf). intros [s| | |] X H; try discriminate.
  exists s. split; [reflexivity|]. apply X; auto. apply placed_b_ok; auto.
Qed.
Lemma wit_null : default_b wit_kind 4096 = true. Proof. vm_compute. reflexivity. Qed.

Lemma cyc_future : forall n i j, (forall m, (exists t, i + m = n * t) <-> exists t, j + m = n * t) -> 1 <= n -> i <= j -> exists t, j = i + n * t.
Proof.
  intros n i j H Hn L. destruct (H ((n - 1) * i)) as [X _]. destruct X as [t T].
  - exists i. nia.
  - exists (t - i). assert (j + n * i = n * t + i) by nia. nia.
Qed.

Lemma overflow_witness : exists null l r La Lb,
  default_scanner wit_kind 4096 = Ok null /\ obtained wit_kind l La /\ obtained wit_kind r Lb /\
  forall b1 b2 maxSize, (262144 <= maxSize)%N -> glue wit_kind b1 b2 null l r maxSize = UB.
Proof.
  destruct (default_b_ok _ _ wit_small wit_null) as (null & Dn & On).
  destruct (compiles_b_ok _ _ _ _ wit_small (cyc_built 64) wit64) as (s1 & _ & O1 & N1 & B1).
  destruct (compiles_b_ok _ _ _ _ wit_small (cyc_built 63) wit63) as (s2 & _ & O2 & N2 & B2).
  destruct (compiles_b_ok _ _ _ _ wit_small (cyc_built 67) wit67) as (r & _ & Or & Nr & _).
  destruct (glue_limit_fits wit_kind 4096 4096 4096 null s1 s2 _ _ 0 O1 O2 N1 N2 Dn) as (l & _ & Nl & _ & Ol).
  - vm_compute. discriminate.
  - intros X. apply (at_least_le _ _ _ _ _ _ O1 O2) in X. change (glue_limit 0 + 2)%N with 80002%N in X.
    assert (s_states s1 * s_states s2 <= 65 * 64)%N by (apply N.mul_le_mono; auto). lia.
  - rewrite (obtained_count _ _ _ O1), (obtained_count _ _ _ O2). vm_compute. discriminate.
  - assert (U : user_address 4096) by (split; vm_compute; [reflexivity|discriminate]). specialize (Ol U U). cbn [app] in Ol.
    exists null, l, r, [accepts (cyc 64); accepts (cyc 63)], [accepts (cyc 67)]. splits; auto.
    intros b1 b2 maxSize Hm. eapply glue_past_capacity; eauto.
    { unfold glue_limit. destruct (N.eqb_spec maxSize 0); lia. }
    assert (Rl := obtained_reports _ _ _ Ol). assert (Rr := obtained_reports _ _ _ Or).
    destruct (fa_shows _ _ _ (obtained_faithful _ _ _ Ol)) as (cl & tl & Ml & Sl & _).
    destruct (fa_shows _ _ _ (obtained_faithful _ _ _ Or)) as (cr & tr & Mr & Sr & _).
    pose (al := fun i => addr wit_kind l (m_run tl (m_start tl) (repeat 97%N i))).
    pose (ar := fun i => addr wit_kind r (m_run tr (m_start tr) (repeat 97%N i))).
    assert (El : forall i, steps (scanner_ops wit_kind l) (s_initial l) (repeat 97%N i) = Ok (al i)).
    { intros i. rewrite (sh_init _ _ _ _ Sl). exact (proj1 (steps_addr _ l cl tl Sl Ml _ (m_start tl) (mo_start _ Ml) (a_word i))). }
    assert (Er : forall i, steps (scanner_ops wit_kind r) (s_initial r) (repeat 97%N i) = Ok (ar i)).
    { intros i. rewrite (sh_init _ _ _ _ Sr). exact (proj1 (steps_addr _ r cr tr Sr Mr _ (m_start tr) (mo_start _ Mr) (a_word i))). }
    clearbody al ar.
    assert (Cl : forall p n i j, nth_error [accepts (cyc 64); accepts (cyc 63)] p = Some (accepts (cyc n)) -> 1 <= n -> al i = al j -> i <= j -> exists t, j = i + n * t).
    { intros p n i j Hp Hn Ea L. apply cyc_future; auto. intros m. rewrite <- !cyc_lang, !repeat_app.
      refine (same_future _ _ _ (al i) _ _ _ p _ Rl (a_word i) (a_word j) (a_word m) (El i) _ Hp). rewrite Ea. apply El. }
    assert (Cr : forall i j, ar i = ar j -> i <= j -> exists t, j = i + 67 * t).
    { intros i j Ea L. apply cyc_future; auto; [|lia]. intros m. rewrite <- !cyc_lang, !repeat_app.
      refine (same_future _ _ _ (ar i) _ _ _ 0 _ Rr (a_word i) (a_word j) (a_word m) (Er i) _ eq_refl). rewrite Ea. apply Er. }
    exists (map (fun i => (al i, ar i)) (seq 0 (N.to_nat 262145))). splits.
    + apply map_nodup_in; [|apply seq_NoDup]. intros i j Hi Hj E. apply in_seq in Hi, Hj. injection E as Ea Eb.
      assert (X : forall i j, i <= j -> j < N.to_nat 262145 -> al i = al j -> ar i = ar j -> i = j).
      { clear - Cl Cr. intros i j L J Ea Eb. destruct (Cl 0 64 i j eq_refl ltac:(lia) Ea L) as [t1 H1].
        destruct (Cl 1 63 i j eq_refl ltac:(lia) Ea L) as [t2 H2]. destruct (Cr i j Eb L) as [t3 H3]. lia. }
      destruct (Nat.le_ge_cases i j); [|symmetry]; apply X; auto; lia.
    + rewrite map_length, seq_length. lia.
    + intros st X. apply in_map_iff in X as (i & <- & _). exists (repeat 97%N i). cbn [fst snd]. splits; [apply a_word|apply El|apply Er].
Qed.
