(** Gluing loaded scanners. *)
From Coq Require Import List Bool Arith NArith Lia.
From Verif Require Import Util Spec PartitionModel PartitionProofs FsmModel DetermineModel DetGeneric DetProofs RunModel RunSpec ScannerModel
  ScannerProofs ScannerCompile GlueModel GlueTable GlueProofs CountModel CountSpec RunProofs CountProofs SimpleProofs LoadedProofs.
Import ListNotations.
Local Open Scope N_scope.

(** ** Determine with a Next that can fail *)
Section DetM.
  Variable State : Type.
  Variable dec : State -> State -> bool.
  Variable next : State -> N -> res State.
  Variable nx : State -> N -> State.
  Variable ls : list (N * nat).
  Variable V : State -> Prop.
  Hypothesis Nx : forall s c i, V s -> In (c, i) ls -> next s c = Ok (nx s c) /\ V (nx s c).

  Lemma detm_row_eq : forall l s states budget rw, V s -> incl l ls -> Forall V states ->
    detm_row dec next s l states budget rw = Ok (det_row dec nx s l states budget rw) /\
    forall st b r, det_row dec nx s l states budget rw = Some (st, b, r) -> Forall V st.
  Proof.
    induction l as [|[c i] l IH]; intros s states budget rw Vs I F; cbn [detm_row det_row].
    - split; auto. intros st b r E. injection E as <- <- <-. auto.
    - destruct (Nx s c i Vs (I _ (or_introl eq_refl))) as [-> V1]. cbn [bind].
      assert (I' : incl l ls) by (intros x Hx; apply I; right; auto).
      destruct (index_of dec (nx s c) states); [apply IH; auto|]. destruct (budget =? 0); [split; [auto|discriminate]|].
      apply IH; auto. apply Forall_app. auto.
  Qed.
  Lemma detm_loop_eq : forall fuel idx states budget tr, Forall V states ->
    detm_loop dec next ls fuel idx states budget tr = Ok (det_loop dec nx (fun _ => true) ls fuel idx states budget tr).
  Proof.
    induction fuel as [|fuel IH]; intros idx states budget tr F; cbn [detm_loop det_loop]; auto.
    destruct (nth_error states idx) as [s|] eqn:E; auto. assert (Vs : V s) by (rewrite Forall_forall in F; apply F; eapply nth_error_In; eauto).
    destruct (detm_row_eq ls s states budget (repeat 0%nat (length ls)) Vs (incl_refl _) F) as [-> K]. cbn [bind].
    destruct (det_row dec nx s ls states budget (repeat 0%nat (length ls))) as [[[st b] r]|] eqn:R; auto. apply IH. eapply K; eauto.
  Qed.
  Lemma detm_run_eq : forall init max, V init -> detm_run dec next ls init max = Ok (det_run dec init nx (fun _ => true) ls max).
  Proof. intros init max Vi. unfold detm_run, det_run. apply detm_loop_eq. constructor; auto. Qed.
End DetM.

(** ** Actions of two scanners at once *)
Definition both (n x y : N) : N := N.lor x (N.shiftl y n mod two32).
Lemma both_bit : forall n x y j, n <= 16 -> j < 32 -> N.testbit (both n x y) j = N.testbit x j || (if j <? n then false else N.testbit y (j - n)).
Proof.
  intros n x y j Hn Hj. unfold both. rewrite N.lor_spec, testbit_mod32 by auto. f_equal. destruct (N.ltb_spec j n).
  - rewrite N.shiftl_spec_low; auto.
  - rewrite N.shiftl_spec_high'; auto.
Qed.
Lemma acts_high : forall n x j, acts_ok n x -> 32 <= j -> N.testbit x j = false.
Proof.
  intros n x j [H _] Hj. destruct (N.eq_dec x 0) as [->|Hx]; [apply N.bits_0|]. apply N.bits_above_log2. apply N.log2_lt_pow2; [lia|].
  apply N.lt_le_trans with two32; auto. change two32 with (2 ^ 32). apply N.pow_le_mono_r; lia.
Qed.
Lemma both_ok : forall n m x y, n + m <= 16 -> acts_ok n x -> acts_ok m y -> acts_ok (n + m) (both n x y).
Proof.
  intros n m x y H X Y. assert (B : forall j, 32 <= j -> N.testbit (both n x y) j = false).
  { intros j Hj. unfold both. rewrite N.lor_spec, (acts_high n x j X Hj). cbn [orb]. change two32 with (2 ^ 32). apply N.mod_pow2_bits_high. auto. }
  split.
  - destruct (N.eq_dec (both n x y) 0) as [->|Z]; [reflexivity|]. change two32 with (2 ^ 32). apply N.log2_lt_pow2; [lia|].
    destruct (N.lt_ge_cases (N.log2 (both n x y)) 32); auto. pose proof (N.bit_log2 _ Z) as T. rewrite B in T by auto. discriminate.
  - intros j T. destruct (N.lt_ge_cases j 32) as [Hj|Hj]; [|rewrite B in T by auto; discriminate].
    rewrite both_bit in T by lia. apply orb_true_iff in T as [T|T].
    + apply X in T. lia.
    + destruct (N.ltb_spec j n); [discriminate|]. apply Y in T. lia.
Qed.
Lemma both_left : forall n m x y i, n + m <= 16 -> acts_ok n x -> acts_ok m y -> N.of_nat i < n ->
  N.testbit (both n x y) (N.of_nat i) = N.testbit x (N.of_nat i) /\ N.testbit (both n x y) (16 + N.of_nat i) = N.testbit x (16 + N.of_nat i).
Proof.
  intros n m x y i H X Y Hi. rewrite !both_bit by lia. split.
  - destruct (N.ltb_spec (N.of_nat i) n); [apply orb_false_r|lia].
  - destruct (N.ltb_spec (16 + N.of_nat i) n); [lia|]. destruct (N.testbit y (16 + N.of_nat i - n)) eqn:T; [|apply orb_false_r].
    apply Y in T. lia.
Qed.
Lemma both_right : forall n m x y i, n + m <= 16 -> acts_ok n x -> acts_ok m y -> N.of_nat i < m ->
  N.testbit (both n x y) (n + N.of_nat i) = N.testbit y (N.of_nat i) /\ N.testbit (both n x y) (16 + (n + N.of_nat i)) = N.testbit y (16 + N.of_nat i).
Proof.
  intros n m x y i H X Y Hi. rewrite !both_bit by lia.
  destruct (N.ltb_spec (n + N.of_nat i) n); [lia|]. destruct (N.ltb_spec (16 + (n + N.of_nat i)) n); [lia|].
  replace (n + N.of_nat i - n) with (N.of_nat i) by lia. replace (16 + (n + N.of_nat i) - n) with (16 + N.of_nat i) by lia. split.
  - destruct (N.testbit x (n + N.of_nat i)) eqn:T; auto. apply X in T. lia.
  - destruct (N.testbit x (16 + (n + N.of_nat i))) eqn:T; auto. apply X in T. lia.
Qed.

Lemma part_list_length : forall p, length (part_list p) = part_size p.
Proof. intros p. unfold part_list, part_size. apply map_length. Qed.
Lemma not_NoDup : forall A (dec : forall x y : A, {x = y} + {x <> y}) (L : list A), ~ NoDup L -> exists a l1 l2 l3, L = l1 ++ a :: l2 ++ a :: l3.
Proof.
  intros A dec. induction L as [|a L IH]; intros H; [exfalso; apply H; constructor|]. destruct (in_dec dec a L) as [I|I].
  - apply in_split in I as (l2 & l3 & ->). exists a, [], l2, l3. reflexivity.
  - destruct IH as (b & l1 & l2 & l3 & ->); [|exists b, (a :: l1), l2, l3; reflexivity]. intros X. apply H. constructor; auto.
Qed.
Lemma clash : forall L : list (N * nat), (256 < length L)%nat -> NoDup (map snd L) ->
  exists c i c' i', In (c, i) L /\ In (c', i') L /\ i <> i' /\ N.of_nat i mod 256 = N.of_nat i' mod 256.
Proof.
  intros ls Big ND. set (h := fun x : N * nat => N.of_nat (snd x) mod 256). assert (NN : ~ NoDup (map h ls)).
  { intros X. assert (I : incl (map h ls) (map N.of_nat (seq 0 256))).
    { intros y H. apply in_map_iff in H as (x & <- & _). apply in_map_iff. exists (N.to_nat (h x)). split; [apply N2Nat.id|]. apply in_seq.
      unfold h. pose proof (N.mod_lt (N.of_nat (snd x)) 256 ltac:(discriminate)) as H. revert H. generalize (N.of_nat (snd x) mod 256). intros; lia. }
    pose proof (NoDup_incl_length X I) as H. rewrite !map_length, seq_length in H. lia. }
  apply (not_NoDup _ N.eq_dec) in NN. destruct NN as (a & l1 & l2 & l3 & E).
  apply map_eq_app in E as (k1 & k2 & E1 & E2 & E3). apply map_eq_cons in E3 as (x & k3 & -> & Hx & E3). apply map_eq_app in E3 as (k4 & k5 & -> & E4 & E5).
  apply map_eq_cons in E5 as (y & k6 & -> & Hy & _). destruct x as [c i], y as [c' i']. exists c, i, c', i'.
  splits.
  - rewrite E1. apply in_or_app. right. left. reflexivity.
  - rewrite E1. apply in_or_app. right. right. apply in_or_app. right. left. reflexivity.
  - rewrite E1 in ND. rewrite !map_app in ND. cbn [map snd] in ND. apply NoDup_remove_2 in ND. intros <-. apply ND. apply in_or_app. right.
    rewrite map_app. apply in_or_app. right. left. reflexivity.
  - unfold h in Hx, Hy. cbn [snd] in Hx, Hy. rewrite Hx, Hy. reflexivity.
Qed.

Section Glue.
  Variables l r : loaded.
  Hypothesis Ll : loaded_ok l.
  Hypothesis Lr : loaded_ok r.
  Hypothesis Pl : dplaced l.
  Hypothesis Pr : dplaced r.
  Hypothesis Cnt : d_count l + d_count r <= 16.

  Let p := glue_letters (d_letters l) (d_letters r).
  Let ls := part_list p.
  Let nx (st : N * N) (c : N) : N * N := okd (0%N, 0%N) (dglue_next l r st c).
  Let V (st : N * N) : Prop := dlive l (fst st) /\ dlive r (snd st).
  Let init : N * N := (d_initial l, d_initial r).

  (** What a letter does to a pair: the two states and the two actions. *)
  Lemma pair_step : forall st c, V st -> letter c -> exists x y, d_next l (fst st) c = Ok (fst (nx st c), x) /\ d_next r (snd st) c = Ok (snd (nx st c), y) /\
    V (nx st c) /\ acts_ok (d_count l) x /\ acts_ok (d_count r) y /\ dglue_next l r st c = Ok (nx st c).
  Proof.
    intros st c [V1 V2] Hc. destruct (live_next l Ll Pl _ c V1 Hc) as (a & x & E1 & A1 & X1). destruct (live_next r Lr Pr _ c V2 Hc) as (b & y & E2 & A2 & X2).
    exists x, y. assert (E : dglue_next l r st c = Ok (a, b)) by (unfold dglue_next; rewrite E1; cbn [bind]; rewrite E2; reflexivity).
    unfold nx. rewrite E. cbn [okd fst snd]. splits; auto. split; auto.
  Qed.
  Lemma dls_letter : forall c i, In (c, i) ls -> letter c /\ part_rep p c = Some c /\ cls_of p c = i.
  Proof.
    intros c i H. destruct (glue_letters_ok (d_letters l) (d_letters r)) as (Wp & _). fold p in Wp.
    apply (part_list_in p _ _ Wp) in H as [ms H]. pose proof (wp_self _ Wp _ _ _ H) as Hm.
    assert (R : part_rep p c = Some c) by (apply (wp_inv _ Wp); eauto). splits; auto.
    - apply (wp_range _ Wp _ _ R).
    - eapply cls_of_in; eauto.
  Qed.
  Lemma dinit_V : V init. Proof. split; apply live_init; auto. Qed.
  Lemma dls_facts : (forall c i, In (c, i) ls -> (i < length ls)%nat) /\ NoDup (map snd ls).
  Proof.
    destruct (glue_letters_ok (d_letters l) (d_letters r)) as (Wp & _). fold p in Wp. split.
    - apply part_list_idx; auto.
    - apply part_list_nodup; auto.
  Qed.
  Lemma d_next_class : forall s a c c', loaded_ok s -> letter c -> letter c' -> nth (N.to_nat c) (d_letters s) 0 = nth (N.to_nat c') (d_letters s) 0 ->
    d_next s a c = d_next s a c'.
  Proof.
    intros s a c c' L [Hc _] [Hc' _] E. unfold d_next. unfold MaxChar in *. pose proof (lo_llen _ L) as LL.
    rewrite (nth_error_nth' (d_letters s) 0) by lia. rewrite (nth_error_nth' (d_letters s) 0 (n := N.to_nat c')) by lia. rewrite E. reflexivity.
  Qed.
  Lemma dclass : forall c c', letter c -> part_rep p c = Some c' -> letter c' /\ forall st, d_next l (fst st) c = d_next l (fst st) c' /\ d_next r (snd st) c = d_next r (snd st) c' /\ nx st c = nx st c'.
  Proof.
    intros c c' Hc R. destruct (glue_letters_ok (d_letters l) (d_letters r)) as (Wp & _ & Eq). fold p in Wp, Eq.
    pose proof (part_rep_rep _ _ _ Wp R) as R'. assert (Hc' : letter c') by apply (wp_range _ Wp _ _ R'). split; auto.
    destruct (Eq _ _ _ _ R R') as [E _]. specialize (E eq_refl). unfold letters_eq in E. apply andb_true_iff in E as [E1 E2].
    apply N.eqb_eq in E1, E2. intros st. pose proof (d_next_class l (fst st) c c' Ll Hc Hc' E1) as X1. pose proof (d_next_class r (snd st) c c' Lr Hc Hc' E2) as X2.
    splits; auto. unfold nx, dglue_next. rewrite X1, X2. reflexivity.
  Qed.
  Lemma part_pos : (0 < part_size p)%nat.
  Proof.
    destruct (glue_letters_ok (d_letters l) (d_letters r)) as (Wp & All & _). fold p in Wp, All.
    destruct (All 0 ltac:(split; [reflexivity|discriminate])) as [c' R]. destruct (fill_bytes_ok p 0 c' Wp R) as [_ H]. lia.
  Qed.

  (** One state of the result for every pair, entered and left as the pair is. *)
  Definition glued_as (s : loaded) (states : list (N * N)) : Prop :=
    loaded_ok s /\ d_null s = false /\ d_count s = d_count l + d_count r /\ d_states s = N.of_nat (length states) /\ d_nletters s = N.of_nat (part_size p) /\
    d_initial s = d_state s 0 /\ nth_error states 0 = Some init /\
    (forall st, In st states -> dreach _ init nx (fun _ => true) ls st) /\
    (forall st c, In st states -> letter c -> In (nx st c) states) /\ d_letters s = fill_bytes p /\
    (d_nletters s <= 256 -> forall i st c, nth_error states i = Some st -> letter c -> exists j x y,
      nth_error states j = Some (nx st c) /\ d_next l (fst st) c = Ok (fst (nx st c), x) /\ d_next r (snd st) c = Ok (snd (nx st c), y) /\
      nth_error (d_jumps s) (slot s i c) = Some (shift_of s i j, both (d_count l) x y)).

  Variable max : N.
  Variables (b1 b2 : N).

  Lemma dglue_ok : forall states tr, (N.of_nat (length states) < two32) ->
    det_good _ init nx (fun _ => true) ls max states tr (length states) ->
    exists s, (let* s := dglue_accept b1 l r p states in
        let* s1 := foldm (dglue_connect l r states) (det_connects (part_list p) tr) s in Ok (copy_loaded b2 s1)) = Ok s /\ glued_as s states.
  Proof.
    intros states tr L32 G. destruct (glue_letters_ok (d_letters l) (d_letters r)) as (Wp & All & _). fold p in Wp, All.
    assert (GV : forall st, In st states -> V st).
    { intros st H. apply (dg_reach _ _ _ _ _ _ _ _ _ G) in H. induction H as [|s c i H IH _ Hin]; [apply dinit_V|].
      apply dls_letter in Hin as [Hc _]. destruct (pair_step s c IH Hc) as (x & y & _ & _ & H1 & _). exact H1. }
    assert (N0 : (0 < length states)%nat) by (apply nth_error_Some; rewrite (dg_init _ _ _ _ _ _ _ _ _ G); discriminate).
    unfold dglue_accept. destruct (init_loaded b1 (length states) p 0 (d_count l + d_count r)) as [s0| | |] eqn:EI;
      try (unfold init_loaded in EI; destruct (N.leb_spec two32 (N.of_nat (length states))); [lia|discriminate EI]).
    destruct (init_loaded_ok b1 (length states) p 0 (d_count l + d_count r) s0 Wp part_pos N0 Cnt EI) as (L0 & S0 & NL0 & RG0 & B0 & I0 & LT0 & OW0 & NU0).
    clear EI. cbn [bind].
    assert (TG : exists T, foldm (fun s '(i, st) => let* v := dglue_tag l r st in set_dtag s i v) (combine (seq 0 (length states)) states) s0 = Ok (set_dtags s0 T) /\ length T = length (d_tags s0)).
    { destruct (tags_ok (nat * (N * N)) (combine (seq 0 (length states)) states) fst (fun x => dglue_tag l r (snd x)) s0) as (T & E & LT).
      - intros [i st] H. cbn [fst snd]. pose proof (in_combine_l _ _ _ _ H) as H1. pose proof (in_combine_r _ _ _ _ H) as H2. apply in_seq in H1. split.
        + rewrite (lo_tlen _ L0), S0. lia.
        + destruct (GV st H2) as [(q1 & Q1 & E1) (q2 & Q2 & E2)]. unfold dglue_tag. rewrite E1, E2, !state_idx_ok by auto.
          rewrite !Nat2N.id. destruct (nth_error (d_tags l) q1) eqn:X1; [|apply nth_error_None in X1; rewrite (lo_tlen _ Ll) in X1; lia].
          destruct (nth_error (d_tags r) q2) eqn:X2; [|apply nth_error_None in X2; rewrite (lo_tlen _ Lr) in X2; lia]. eauto.
      - exists T. split; auto. rewrite <- E. apply foldm_ext. intros s [i st] _. reflexivity. }
    destruct TG as (T & -> & LT). cbn [bind]. pose proof (set_dtags_ok s0 T L0 LT) as L1. set (s1 := set_dtags s0 T) in *.
    assert (F1 : d_states s1 = N.of_nat (length states) /\ d_nletters s1 = N.of_nat (part_size p) /\ d_count s1 = d_count l + d_count r /\ d_letters s1 = fill_bytes p /\
      d_owned s1 = true /\ d_null s1 = false /\ d_initial s1 = d_state s1 0).
    { unfold d_count at 1. cbn [s1 set_dtags d_states d_nletters d_regexps d_letters d_owned d_null d_initial]. rewrite NU0. splits; auto. }
    clearbody s1. clear s0 L0 S0 NL0 RG0 B0 I0 LT0 OW0 NU0 T LT. destruct F1 as (S1 & NL1 & C1 & LT1 & OW1 & NU1 & IN1).
    (* the connections as writes *)
    destruct dls_facts as [LI LN].
    pose proof (det_connects_in _ init nx (fun _ => true) ls LN LI max states tr G) as CI. fold ls.
    set (act := fun (st : N * N) c => both (d_count l) (okd 0 (action_of l (fst st) c)) (okd 0 (action_of r (snd st) c))).
    set (ws := map (fun '(from, to, c) => (from, to, c, act (nth from states init) c)) (det_connects ls tr)).
    assert (EW : foldm (dglue_connect l r states) (det_connects ls tr) s1 = foldm wr ws s1).
    { unfold ws. rewrite foldm_map. apply foldm_ext. intros s [[from to] c] Hin. apply CI in Hin as (st & i & H1 & _ & H2 & H3).
      unfold dglue_connect, wr. rewrite H1. apply nth_error_nth with (d := init) in H1 as H1'. rewrite H1'.
      apply dls_letter in H2 as [Hc _]. assert (Vs : V st) by (apply GV; eapply nth_error_In; eauto).
      destruct (pair_step st c Vs Hc) as (x & y & E1 & E2 & _). destruct Vs as [V1 V2]. unfold act.
      rewrite (action_of_ok l Ll Pl _ c _ _ V1 Hc E1), (action_of_ok r Lr Pr _ c _ _ V2 Hc E2). reflexivity. }
    rewrite EW. clear EW.
    assert (HW : forall f t c a, In (f, t, c, a) ws -> exists st, nth_error states f = Some st /\ nth_error states t = Some (nx st c) /\ letter c /\ part_rep p c = Some c /\
      a = act st c /\ V st).
    { intros f t c a H. apply in_map_iff in H as ([[f' t'] c'] & E & H). injection E as -> -> -> <-. apply CI in H as (st & i & H1 & _ & H2 & H3).
      exists st. apply dls_letter in H2 as (Hc & Rc & _). apply nth_error_nth with (d := init) in H1 as H1'. rewrite H1'. splits; auto. apply GV. eapply nth_error_In; eauto. }
    assert (HA : forall st c, V st -> letter c -> acts_ok (d_count l + d_count r) (act st c)).
    { intros st c Vs Hc. destruct (pair_step st c Vs Hc) as (x & y & E1 & E2 & _ & X1 & X2 & _). destruct Vs as [V1 V2]. unfold act.
      rewrite (action_of_ok l Ll Pl _ c _ _ V1 Hc E1), (action_of_ok r Lr Pr _ c _ _ V2 Hc E2). cbn [okd]. apply both_ok; auto. }
    assert (NN : N.to_nat (d_states s1) = length states) by lia.
    destruct (writes_ok ws s1 (lo_jlen _ L1) (lo_lt _ L1) (nl_pos s1 L1)) as (J & EJ & LJ & KJ).
    { intros f t c a H. destruct (HW f t c a H) as (st & H1 & _). rewrite NN. apply nth_error_Some. congruence. }
    assert (L2 : loaded_ok (set_jumps s1 J)).
    { apply (writes_loaded ws s1 _ L1); auto. intros f t c a H. destruct (HW f t c a H) as (st & H1 & H2 & Hc & _ & -> & Vs). rewrite NN, C1. splits.
      - apply nth_error_Some. congruence.
      - apply nth_error_Some. congruence.
      - apply HA; auto. }
    rewrite EJ. cbn [bind]. exists (copy_loaded b2 (set_jumps s1 J)). split; auto.
    destruct (copy_loaded_ok _ b2 L2) as [L3 C3].
    assert (CP : copy_loaded b2 (set_jumps s1 J) = mkLoaded (d_states s1) (d_nletters s1) (d_regexps s1) (b2 + MaxChar + (d_initial s1 - d_base s1)) b2 (d_letters s1) J (d_tags s1) true false).
    { unfold copy_loaded. cbn [set_jumps d_owned]. rewrite OW1. reflexivity. }
    unfold glued_as. splits; auto.
    - rewrite CP. reflexivity.
    - rewrite C3. unfold d_count at 1. cbn [set_jumps d_null d_regexps]. exact C1.
    - rewrite CP. auto.
    - rewrite CP. auto.
    - rewrite CP. unfold d_state, d_base, state_size. cbn [d_initial d_buf d_nletters]. rewrite IN1. unfold d_state, d_base. lia.
    - apply (dg_init _ _ _ _ _ _ _ _ _ G).
    - apply (dg_reach _ _ _ _ _ _ _ _ _ G).
    - intros st c Hs Hc. destruct (All c Hc) as [c' R]. destruct (dclass c c' Hc R) as [Hc' CL]. destruct (CL st) as (_ & _ & ->).
      apply (det_good_all _ init nx (fun _ => true) ls max states tr G). pose proof (part_rep_rep _ _ _ Wp R) as R'. apply (part_list_rep p c' Wp) in R' as [k R'].
      eapply dreach_next; eauto. apply (dg_reach _ _ _ _ _ _ _ _ _ G). exact Hs.
    - rewrite CP. exact LT1.
    - rewrite CP. cbn [d_nletters]. intros H256. rewrite NL1 in H256. intros i st c Hi Hc.
      destruct (All c Hc) as [c' R]. destruct (dclass c c' Hc R) as [Hc' CL].
      assert (Vs : V st) by (apply GV; eapply nth_error_In; eauto). destruct (pair_step st c Vs Hc) as (x & y & E1 & E2 & _ & X1 & X2 & _).
      assert (SL : forall c, nth (N.to_nat c) (d_letters s1) 0 = nth (N.to_nat c) (fill_bytes p) 0) by (intros; rewrite LT1; reflexivity).
      assert (CLS : forall c c', part_rep p c = Some c' -> nth (N.to_nat c) (fill_bytes p) 0 = N.of_nat (cls_of p c)).
      { intros a a' Ra. destruct (fill_bytes_ok p a a' Wp Ra) as [A B]. apply nth_error_nth with (d := 0) in A. rewrite A. apply N.mod_small. lia. }
      pose proof (part_rep_rep _ _ _ Wp R) as R'.
      assert (CE : cls_of p c = cls_of p c'). { unfold cls_of, part_index. unfold part_rep in R, R'. rewrite R, R'. reflexivity. }
      set (s2 := mkLoaded _ _ _ _ _ _ _ _ _ _). assert (SS : forall f a, slot s2 f a = slot s1 f a) by reflexivity.
      assert (SC : slot s1 i c = slot s1 i c').
      { unfold slot. rewrite !SL. rewrite (CLS c c' R), (CLS c' c' R'), CE. reflexivity. }
      assert (Hi' : (i < N.to_nat (d_states s1))%nat) by (rewrite NN; apply nth_error_Some; congruence).
      destruct (slot_lt s1 i c' (lo_lt _ L1) (nl_pos s1 L1) Hi') as [SLT _].
      (* some connection writes there *)
      assert (J0 : exists t, In (i, t, c') (det_connects ls tr)).
      { assert (RD : In (nx st c') states).
        { apply (det_good_all _ init nx (fun _ => true) ls max states tr G). apply (part_list_rep p c' Wp) in R' as [k R'].
          eapply dreach_next; eauto. apply (dg_reach _ _ _ _ _ _ _ _ _ G). eapply nth_error_In; eauto. }
        apply In_nth_error in RD as [t RD]. exists t. apply CI. apply (part_list_rep p c' Wp) in R' as [k R']. exists st, k. splits; auto. }
      destruct J0 as [t0 J0].
      destruct (KJ (slot s1 i c')) as [[_ NW]|(f & t & a & v & A & B & C)].
      + rewrite LJ, (lo_jlen _ L1). auto.
      + exfalso. apply (NW i t0 c' (act (nth i states init) c')); auto. apply in_map_iff. exists (i, t0, c'). auto.
      + destruct (slot_inj s1 _ _ _ _ (lo_lt _ L1) (nl_pos s1 L1) B) as [-> B2]. destruct (HW _ _ _ _ A) as (st' & Z1 & Z2 & Z3 & Z4 & -> & _).
        rewrite Hi in Z1. injection Z1 as <-. rewrite !SL, (CLS a a Z4), (CLS c' c' R') in B2. apply Nat2N.inj in B2.
        assert (a = c').
        { apply (part_list_rep p a Wp) in Z4 as [k1 K1]. apply (part_list_rep p c' Wp) in R' as [k2 K2]. destruct (dls_letter _ _ K1) as (_ & _ & Q1).
          destruct (dls_letter _ _ K2) as (_ & _ & Q2). apply (part_list_in p _ _ Wp) in K1 as [m1 K1]. apply (part_list_in p _ _ Wp) in K2 as [m2 K2].
          assert (k1 = k2) by congruence. clear Q1 Q2. subst k2. apply (wp_inj _ Wp a c' k1 m1 m2); auto. }
        subst a. destruct (CL st) as (CL1 & CL2 & CL3). exists t, x, y. splits; auto; [congruence|].
        rewrite SS, SC. cbn [s2 d_jumps]. rewrite C. f_equal. f_equal. unfold act. destruct Vs as [V1 V2]. rewrite CL1 in E1. rewrite CL2 in E2.
        rewrite (action_of_ok l Ll Pl _ c' _ _ V1 Hc' E1), (action_of_ok r Lr Pr _ c' _ _ V2 Hc' E2). reflexivity.
  Qed.

  (** Pairs reached by texts *)
  Fixpoint run2 (st : N * N) (w : list N) : N * N := match w with [] => st | c :: w' => run2 (nx st c) w' end.
  Lemma run2_ok : forall w st, V st -> is_word w -> d_run l (fst st) w = Ok (fst (run2 st w)) /\ d_run r (snd st) w = Ok (snd (run2 st w)).
  Proof.
    induction w as [|c w IH]; intros st Vs Hw; cbn [d_run run2]; [auto|]. inversion Hw; subst.
    destruct (pair_step st c Vs H1) as (x & y & E1 & E2 & V1 & _). rewrite E1, E2. cbn [bind]. apply IH; auto.
  Qed.
  Lemma run2_app : forall w st c, run2 st (w ++ [c]) = nx (run2 st w) c.
  Proof. induction w as [|a w IH]; intros st c; cbn [run2 app]; auto. Qed.
  Lemma dreach_run2 : forall st, dreach _ init nx (fun _ => true) ls st -> exists w, is_word w /\ run2 init w = st.
  Proof.
    intros st H. induction H as [|st c i H IH _ Hin]; [exists []; split; [constructor|reflexivity]|].
    destruct IH as (w & Hw & E). exists (w ++ [c]). apply dls_letter in Hin as [Hc _]. split.
    - apply Forall_app. auto.
    - rewrite run2_app, E. reflexivity.
  Qed.
  Lemma run2_in : forall s states, glued_as s states -> forall w st, In st states -> is_word w -> In (run2 st w) states.
  Proof.
    intros s states G. destruct G as (_ & _ & _ & _ & _ & _ & _ & _ & K & _). induction w as [|c w IH]; intros st Hs Hw; cbn [run2]; auto.
    inversion Hw; subst. apply IH; auto.
  Qed.

  (** With more than 256 classes some letters are no longer told apart. *)
  Lemma classes_clash : (256 < part_size p)%nat -> exists c c', letter c /\ letter c' /\ letters_eq (d_letters l) (d_letters r) c c' = false /\
    nth (N.to_nat c) (fill_bytes p) 0 = nth (N.to_nat c') (fill_bytes p) 0.
  Proof.
    intros Big. destruct (glue_letters_ok (d_letters l) (d_letters r)) as (Wp & All & Eq). fold p in Wp, All, Eq.
    destruct dls_facts as [_ ND]. assert (LL : length ls = part_size p) by (unfold ls; apply part_list_length).
    rewrite <- LL in Big. destruct (clash ls Big ND) as (c & i & c' & i' & I1 & I2 & NE & HM).
    destruct (dls_letter _ _ I1) as (A1 & A2 & A3). destruct (dls_letter _ _ I2) as (B1 & B2 & B3). exists c, c'. splits; auto.
    - destruct (letters_eq (d_letters l) (d_letters r) c c') eqn:LE; auto. apply (Eq _ _ _ _ A2 B2) in LE. exfalso. apply NE. rewrite <- A3, <- B3, LE. reflexivity.
    - destruct (fill_bytes_ok p c c Wp A2) as [C1 _]. destruct (fill_bytes_ok p c' c' Wp B2) as [C2 _].
      apply nth_error_nth with (d := 0) in C1, C2. rewrite C1, C2, A3, B3. exact HM.
  Qed.

  (** The whole of Glue. *)
  Theorem dglue_cases : forall null, max <> 0 -> max + 1 < two32 -> exists s, dglue b1 b2 null l r max = Ok s /\
    ((exists states, glued_as s states /\ N.of_nat (length states) <= max + 1 /\ ~ many l r (max + 2)) \/
     s = null /\ many l r (max + 2)).
  Proof.
    intros null M0 M. unfold dglue, MAX_RE_COUNT. destruct (N.ltb_spec 16 (d_count l + d_count r)); [lia|].
    destruct (N.eqb_spec max 0); [contradiction|].
    assert (Nx : forall s c i, V s -> In (c, i) ls -> dglue_next l r s c = Ok (nx s c) /\ V (nx s c)).
    { intros s c i Vs H0. apply dls_letter in H0 as [Hc _]. destruct (pair_step s c Vs Hc) as (x & y & _ & _ & V1 & _ & _ & E). auto. }
    fold p ls init. rewrite (detm_run_eq _ pair_eqb (dglue_next l r) nx ls V Nx init max dinit_V). cbn [bind].
    destruct dls_facts as [LI LN].
    pose proof (det_run_ok _ pair_eqb init nx (fun _ => true) ls pair_eqb_ok LN LI max) as D.
    destruct (det_run pair_eqb init nx (fun _ => true) ls max) as [states tr| |].
    - destruct D as [G SZ]. destruct (dglue_ok states tr ltac:(lia) G) as (s & E & A). exists s. split; auto. left. exists states. splits; auto.
      intros (L & ND & LL & HL). assert (I : incl L states).
      { intros [a b] H0. apply HL in H0 as (w & Hw & H1 & H2). destruct (run2_ok w init dinit_V Hw) as [R1 R2]. unfold init in R1, R2. cbn [fst snd] in R1, R2.
        rewrite H1 in R1. rewrite H2 in R2. apply ok_inj in R1, R2. replace (a, b) with (run2 init w); [|rewrite R1, R2; apply surjective_pairing].
        apply (run2_in s states A); auto. destruct A as (_ & _ & _ & _ & _ & _ & N0 & _). eapply nth_error_In; exact N0. }
      pose proof (NoDup_incl_length ND I). lia.
    - exists null. split; auto. right. split; auto. destruct D as (L & D1 & D2 & D3). exists L. splits; auto. intros a b H0.
      destruct (dreach_run2 _ (D3 _ H0)) as (w & Hw & E). exists w. destruct (run2_ok w init dinit_V Hw) as [R1 R2]. rewrite E in R1, R2. auto.
    - destruct D.
  Qed.
End Glue.

(** ** What the counters see *)
Section Simulate.
  Variables l r s : loaded.
  Variable states : list (N * N).
  Hypothesis Ll : loaded_ok l.
  Hypothesis Lr : loaded_ok r.
  Hypothesis Pl : dplaced l.
  Hypothesis Pr : dplaced r.
  Hypothesis Cnt : d_count l + d_count r <= 16.
  Hypothesis G : glued_as l r s states.
  Hypothesis Ps : dplaced s.
  Hypothesis Few : d_nletters s <= 256.

  Lemma glued_next : forall i st c, nth_error states i = Some st -> letter c -> exists j a b x y,
    nth_error states j = Some (a, b) /\ d_next l (fst st) c = Ok (a, x) /\ d_next r (snd st) c = Ok (b, y) /\
    d_next s (d_state s (N.of_nat i)) c = Ok (d_state s (N.of_nat j), both (d_count l) x y).
  Proof.
    intros i st c Hi Hc. destruct G as (Ls & _ & _ & S1 & _ & _ & _ & _ & _ & _ & K). destruct (K Few i st c Hi Hc) as (j & x & y & H1 & H2 & H3 & H4).
    destruct (okd (0, 0) (dglue_next l r st c)) as [a b]. exists j, a, b, x, y. splits; auto.
    assert (Hi' : (i < N.to_nat (d_states s))%nat) by (rewrite S1, Nat2N.id; apply nth_error_Some; congruence).
    assert (Hj' : (j < N.to_nat (d_states s))%nat) by (rewrite S1, Nat2N.id; apply nth_error_Some; congruence).
    unfold d_next. destruct Hc as [Hc _]. unfold MaxChar in Hc.
    rewrite (nth_error_nth' (d_letters s) 0) by (rewrite (lo_llen _ Ls); lia).
    rewrite trans_at by auto. fold (slot s i c). rewrite H4. cbn [bind]. rewrite shift_ok by auto. reflexivity.
  Qed.

  Lemma glued_actions : forall w i st, nth_error states i = Some st -> dlive l (fst st) -> dlive r (snd st) -> is_word w ->
    exists xs ys, actions l (fst st) w = Ok xs /\ actions r (snd st) w = Ok ys /\ length xs = length ys /\
      Forall (acts_ok (d_count l)) xs /\ Forall (acts_ok (d_count r)) ys /\
      actions s (d_state s (N.of_nat i)) w = Ok (map (fun xy => both (d_count l) (fst xy) (snd xy)) (combine xs ys)).
  Proof.
    induction w as [|c w IH]; intros i st Hi V1 V2 Hw; cbn [actions].
    - exists [], []. splits; auto.
    - inversion Hw as [|? ? Hc Hw']; subst. destruct (glued_next i st c Hi Hc) as (j & a & b & x & y & H1 & H2 & H3 & H4).
      destruct (live_next l Ll Pl _ c V1 Hc) as (a' & x' & E1 & A1 & X1). destruct (live_next r Lr Pr _ c V2 Hc) as (b' & y' & E2 & A2 & X2).
      rewrite H2 in E1. injection E1 as <- <-. rewrite H3 in E2. injection E2 as <- <-.
      destruct (IH j (a, b) H1 A1 A2 Hw') as (xs & ys & I1 & I2 & I3 & I4 & I5 & I6). cbn [fst snd] in I1, I2.
      exists (x :: xs), (y :: ys). rewrite H2, H3, H4. cbn [bind]. rewrite I1, I2, I6. cbn [bind length combine map fst snd]. splits; auto.
  Qed.
  Lemma take_both : forall adv x y v, acts_ok (d_count l) x -> acts_ok (d_count r) y ->
    (forall i, (N.of_nat i < d_count l) -> v_take adv i (both (d_count l) x y) v = v_take adv i x v) /\
    (forall i, (N.of_nat i < d_count r) -> v_take adv (N.to_nat (d_count l) + i) (both (d_count l) x y) v = v_take adv i y v).
  Proof.
    intros adv x y v X Y. split; intros i Hi; unfold v_take.
    - destruct (both_left (d_count l) (d_count r) x y i Cnt X Y Hi) as [-> ->]. reflexivity.
    - replace (N.of_nat (N.to_nat (d_count l) + i)) with (d_count l + N.of_nat i) by lia.
      destruct (both_right (d_count l) (d_count r) x y i Cnt X Y Hi) as [-> ->]. reflexivity.
  Qed.
  Lemma fold_both : forall adv xs ys v, length xs = length ys -> Forall (acts_ok (d_count l)) xs -> Forall (acts_ok (d_count r)) ys ->
    (forall i, (N.of_nat i < d_count l) ->
      fold_left (fun v a => v_take adv i a v) (map (fun xy => both (d_count l) (fst xy) (snd xy)) (combine xs ys)) v = fold_left (fun v a => v_take adv i a v) xs v) /\
    (forall i, (N.of_nat i < d_count r) ->
      fold_left (fun v a => v_take adv (N.to_nat (d_count l) + i) a v) (map (fun xy => both (d_count l) (fst xy) (snd xy)) (combine xs ys)) v = fold_left (fun v a => v_take adv i a v) ys v).
  Proof.
    intros adv xs. induction xs as [|x xs IH]; intros [|y ys] v E X Y; try discriminate E; [split; reflexivity|].
    inversion X; inversion Y; subst. cbn [combine map fold_left fst snd]. destruct (take_both adv x y v H1 H5) as [T1 T2]. split; intros i Hi.
    - rewrite T1 by auto. apply IH; auto.
    - rewrite T2 by auto. apply IH; auto.
  Qed.

  Theorem glued_counts : forall adv w, is_word w ->
    (forall i n, (N.of_nat i < d_count l) -> (counts adv s w i n <-> counts adv l w i n)) /\
    (forall i n, (N.of_nat i < d_count r) -> (counts adv s w (N.to_nat (d_count l) + i) n <-> counts adv r w i n)).
  Proof.
    intros adv w Hw. destruct G as (Ls & _ & _ & _ & _ & I0 & N0 & _).
    pose proof (live_init l Ll) as VL. pose proof (live_init r Lr) as VR.
    destruct (glued_actions w 0 _ N0 VL VR Hw) as (xs & ys & A1 & A2 & A3 & A4 & A5 & A6). cbn [fst snd N.of_nat] in *. rewrite <- I0 in A6.
    assert (R : forall t acts i n, actions t (d_initial t) w = Ok acts -> (i < 16)%nat ->
      (counts adv t w i n <-> n = N.max (v_cur (fold_left (fun v a => v_take adv i a v) acts (mkView 0 0 false))) (v_tot (fold_left (fun v a => v_take adv i a v) acts (mkView 0 0 false))))).
    { intros t acts i n E Hi. destruct (steps_count_ok adv t w (c_init t) acts (init_ok t) E) as [st ES].
      destruct (steps_count adv t w _ _ (init_ok t) ES) as (acts' & B1 & _ & B3 & B4). cbn [c_init c_state] in B1. rewrite E in B1. injection B1 as <-.
      pose proof (result_view st i B3 Hi) as RV. rewrite (B4 i Hi), init_view in RV. split.
      - intros (st' & E1 & E2). rewrite ES in E1. injection E1 as <-. rewrite RV in E2. injection E2 as <-. reflexivity.
      - intros ->. exists st. auto. }
    destruct (fold_both adv xs ys (mkView 0 0 false) A3 A4 A5) as [F1 F2]. split; intros i n Hi.
    - rewrite (R s _ i n A6), (R l _ i n A1) by lia. rewrite F1 by auto. reflexivity.
    - rewrite (R s _ _ n A6), (R r _ i n A2) by lia. rewrite F2 by auto. reflexivity.
  Qed.
End Simulate.
