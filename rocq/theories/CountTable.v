(** From the pairs of words to the actions of the scanner. *)
From Coq Require Import List Bool Arith NArith Lia.
From Verif Require Import Util Spec PartitionModel PartitionProofs FsmModel DetermineModel FsmSem FsmBasics FsmOps FsmOps2 EpsProofs DetGeneric DetProofs Nfa
  DeadProofs ScannerModel ScannerProofs ScannerCompile CountModel CountSpec CountProofs LoadedProofs CountBuild DetSets CountAuto CountScan CountPairs.
Import ListNotations.

(** ** The automaton of the pairs simulates the pairs of words *)
Section Sim.
  Variables (f : fsm) (L : lang) (dead : list nat).
  Hypothesis W : wf f.
  Hypothesis Ain : all_in_part f.
  Hypothesis T : tracks f L.
  Hypothesis De : forall p c q, In q (destinations f p c) <-> edge f p c q.
  Hypothesis Dd : forall q, In q dead <-> DeadProofs.dead f q.
  Hypothesis Hne : ~ L [].
  Hypothesis Hany : forall u, L u -> Forall any_letter u.
  Hypothesis Hdec : forall u, is_word u -> L u \/ ~ L u.
  Hypothesis G1 : resumable L.
  Let D u i := walk (edge f) (initial f) u i.
  Definition pairs_of (st : nat * nat) (u v : word) : Prop := is_word u /\ is_word v /\ D u (fst st) /\ D v (snd st) /\ J L u v.

  Lemma pair_next_class : forall st c r, part_rep (letters f) c = Some r -> pair_next f dead st c = pair_next f dead st r.
  Proof.
    intros [i j] c r R. pose proof (part_rep_rep _ _ _ (wf_letters _ W) R) as R'.
    assert (X : forall p, destinations f p c = destinations f p r).
    { intros p. apply ssorted_ext; [apply row_get_sorted, W|apply row_get_sorted, W|]. intros q. rewrite !De. unfold edge, erep. rewrite R, R'. reflexivity. }
    unfold pair_next. cbn [fst snd]. rewrite !X. reflexivity.
  Qed.
  Lemma pairs_next : forall st u v c, pairs_of st u v -> letter c -> exists st1 u1 v1 o, pair_next f dead st c = Ok (st1, code o) /\ pstep L u v c u1 v1 o /\ pairs_of st1 u1 v1.
  Proof.
    intros [i j] u v c (Hu & Hv & Di & Dj & Hj) Hc. destruct (pair_step f L dead W T De Dd u v i j c Hu Hv Hc Di Dj) as (i1 & j1 & u1 & v1 & o & E & S & D1 & D2 & W1 & W2).
    exists (i1, j1), u1, v1, o. splits; auto. unfold pairs_of. cbn [fst snd]. splits; auto. exact (J_step L Hne Hany Hdec G1 u v c u1 v1 o Hu Hv Hc Hj S).
  Qed.
  Variables (states : list (nat * nat)) (sq : fsm).
  Hypothesis Run : sq_run f dead = Ok (states, sq).
  Let Spec := sq_run_spec f dead W (fun st => exists u v, pairs_of st u v) states sq.
  Lemma class_letter : forall r k ms, In (r, (k, ms)) (pset (letters f)) -> letter r /\ part_rep (letters f) r = Some r.
  Proof.
    intros r k ms H. assert (X : mfind r (pset (letters f)) = Some (k, ms)) by (apply msorted_find; auto; apply W).
    exact (pset_range _ _ _ _ _ (wf_letters _ W) H (wp_self _ (wf_letters _ W) _ _ _ X)).
  Qed.
  Lemma sq_facts : sq_ok states sq /\ NoDup states /\ outs_ok (outputs sq) /\ Forall (fun st => exists u v, pairs_of st u v) states /\
    nth_error states 0 = Some (initial f, initial f) /\ initial sq = 0 /\ (forall a st, nth_error states a = Some st -> row_done f dead states sq a st (pset (letters f))).
  Proof.
    apply Spec; auto.
    - intros st r k ms m b o (u & v & H) Hi E. destruct (class_letter r k ms Hi) as [Hr _]. destruct (pairs_next st u v r H Hr) as (st1 & u1 & v1 & o1 & E' & _ & H').
      rewrite E in E'. injection E' as <- _. eauto.
    - exists [], []. unfold pairs_of. cbn [fst snd]. splits; try reflexivity; try constructor. split; auto. apply begun_nil. auto.
  Qed.
  Definition at_words (a : nat) (u v : word) : Prop := exists st, nth_error states a = Some st /\ pairs_of st u v.
  Lemma sq_init : at_words (initial sq) [] [].
  Proof.
    destruct sq_facts as (_ & _ & _ & _ & N0 & I0 & _). rewrite I0. exists (initial f, initial f). split; auto. unfold pairs_of. cbn [fst snd].
    splits; try reflexivity; try constructor. split; auto. apply begun_nil. auto.
  Qed.
  Lemma code_inj : forall o o', code o = code o' -> o = o'.
  Proof. intros [[]|] [[]|] H; auto; discriminate H. Qed.
  Lemma sq_sim : forall a u v c, at_words a u v -> letter c -> exists b u1 v1 o, (forall x, edge sq a c x <-> x = b) /\ pstep L u v c u1 v1 o /\ at_words b u1 v1 /\ output sq a b = code o.
  Proof.
    intros a u v c (st & Ha & Hp) Hc. destruct sq_facts as (Q & Nd & Oo & FP & N0 & I0 & RDa). destruct (RDa a st Ha) as [R1 R2 R3 R4].
    destruct (pairs_next st u v c Hp Hc) as ([m k] & u1 & v1 & o & PN & S & Hp1).
    destruct (Ain c) as (r & R); [apply Hc|apply Hc|]. rewrite (pair_next_class st c r R) in PN.
    assert (X : exists i ms, mfind r (pset (letters f)) = Some (i, ms) /\ In c ms) by (apply (wp_inv _ (wf_letters _ W)); exact R).
    destruct X as (i & ms & X1 & X2). assert (He : In (r, (i, ms)) (pset (letters f))) by (apply mfind_in; auto).
    destruct (R2 _ He) as (b & o' & Hl). pose proof Hl as (m' & k' & L1 & L2). cbn [fst] in L1. rewrite PN in L1. injection L1 as <- <- <-.
    exists b, u1, v1, o. splits.
    - intros x. destruct Q as (_ & U & _). rewrite raw_uncompressed by exact U. rewrite R1. split.
      + intros ([r' [i' ms']] & o1 & H1 & H2 & H3). cbn [snd] in H2. destruct (pset_range _ _ _ _ _ (wf_letters _ W) H1 H2) as [_ Y]. rewrite R in Y. injection Y as <-.
        apply (leads_fun f dead states st (r, (i', ms')) x o1 b (code o) Nd H3). exact Hl.
      + intros ->. exists (r, (i, ms)), (code o). auto.
    - exact S.
    - exists (m, k). auto.
    - assert (Same : forall e o1, In e (pset (letters f)) -> leads f dead states st e b o1 -> o1 = code o).
      { intros [r' [i' ms']] o1 H1 (m' & k' & H2 & H3). rewrite L2 in H3. injection H3 as <- <-. cbn [fst] in H2. destruct (class_letter r' i' ms' H1) as [Hr' _].
        destruct (pairs_next st u v r' Hp Hr') as ([m' k'] & u2 & v2 & o2 & PN2 & S2 & Hp2). rewrite H2 in PN2. injection PN2 as <- <- ->. f_equal.
        destruct Hp as (Hu & Hv & Di & Dj & Hj). destruct Hp1 as (_ & _ & D1 & _), Hp2 as (_ & _ & D2 & _). cbn [fst] in D1, D2.
        symmetry. exact (no_collision f L dead W T Dd Hne Hany u v c r' u1 v1 u2 v2 o o2 m Hu Hv Hc Hr' Hj S S2 D1 D2). }
      destruct (N.eq_dec (code o) 0) as [Z|Z].
      + rewrite Z. apply R3. intros e o1 H1 H2. rewrite <- Z. eauto.
      + destruct (R4 b _ _ He Hl Z) as (e' & o1 & H1 & H2 & _ & ->). eauto.
  Qed.
End Sim.

(** ** The same of what Determine makes of it *)
Definition simulates (L : lang) (g : fsm) (R : nat -> word -> word -> Prop) : Prop :=
  R (initial g) [] [] /\ forall a u v c, R a u v -> letter c ->
    exists b u1 v1 o, (forall x, edge g a c x <-> x = b) /\ pstep L u v c u1 v1 o /\ R b u1 v1 /\ output g a b = code o.

Lemma fold_left_same : forall A B (step : A -> B -> A) l a, (forall b, In b l -> step a b = a) -> fold_left step l a = a.
Proof. intros A B step l. induction l as [|b l IH]; intros a H; cbn [fold_left]; auto. rewrite H by (left; auto). apply IH. intros b' Hb. apply H. right. auto. Qed.
Lemma no_eps_dest : forall f, (forall p q, ~ eps f p q) -> forall p, destinations f p Epsilon = [].
Proof.
  intros f H p. destruct (destinations f p Epsilon) as [|q l] eqn:E; auto. destruct (H p q). apply dest_eps. rewrite E. left. auto.
Qed.
Lemma remove_epsilons_outputs : forall f, wf f -> (forall p q, ~ edge f p Epsilon q) -> outputs (remove_epsilons f) = outputs f.
Proof.
  intros f W H. destruct (unsparse_spec f W) as [_ [_ [_ [_ [_ Hraw]]]]]. assert (Og : outputs (unsparse f) = outputs f) by reflexivity.
  unfold remove_epsilons. set (f1 := unsparse f) in *. clearbody f1.
  assert (H1 : forall p q, ~ eps f1 p q) by (intros p q X; apply (H p q); apply Hraw; exact X).
  assert (E1 : close_eps f1 = f1).
  { unfold close_eps. assert (I : inverse_eps f1 = repeat [] (size f1)).
    { unfold inverse_eps. apply fold_left_same. intros p _. rewrite no_eps_dest by exact H1. reflexivity. }
    rewrite I. rewrite fold_left_same; [reflexivity|]. intros thru Ht. apply in_seq in Ht. rewrite nth_repeat. reflexivity. }
  rewrite E1. assert (E2 : merge_all_eps f1 = f1).
  { unfold merge_all_eps. apply fold_left_same. intros p _. rewrite no_eps_dest by exact H1. reflexivity. }
  rewrite E2. rewrite <- Og. reflexivity.
Qed.
Lemma no_eps_path : forall (E : nat -> N -> nat -> Prop), (forall p q, ~ E p Epsilon q) -> forall p q, path E p [] q <-> q = p.
Proof.
  intros E H p q. rewrite walk_path by exact H. cbn [walk]. split; [intros [-> _]; auto|]. intros ->. auto.
Qed.
Lemma remove_epsilons_sim : forall L f R, wf f -> (forall p q, ~ edge f p Epsilon q) -> simulates L f R -> simulates L (remove_epsilons f) R.
Proof.
  intros L f R W H [S0 S]. destruct (remove_epsilons_ok f W) as (_ & _ & _ & In1 & _). destruct (remove_epsilons_edges f W) as (E1 & _).
  split; [rewrite In1; exact S0|]. intros a u v c Ha Hc. destruct (S a u v c Ha Hc) as (b & u1 & v1 & o & X1 & X2 & X3 & X4). exists b, u1, v1, o. splits; auto.
  - intros x. rewrite E1, <- X1. split.
    + intros [_ (t & P & Hx)]. apply (no_eps_path _ H) in P. subst t. exact Hx.
    + intros Hx. split; [apply Hc|]. exists a. split; auto. constructor.
  - rewrite output_lk, remove_epsilons_outputs, <- output_lk by auto. exact X4.
Qed.
Lemma determine_sim : forall L f R b g, wf f -> determined f = false -> outs_ok (outputs f) -> (forall p q, ~ edge f p Epsilon q) -> simulates L f R ->
  determine f 0 = Ok (b, g) -> exists R', simulates L g R'.
Proof.
  intros L f R b g W D O H S E. pose proof (remove_epsilons_sim L f R W H S) as S1. destruct b.
  - destruct (determine_sets f 0 g W D E) as (states & SO). rewrite <- (remove_epsilons_outputs f W H) in O. clear E. set (f1 := remove_epsilons f) in *. clearbody f1.
    destruct S1 as [S0 S1].
    exists (fun i u v => exists s a, nth_error states i = Some s /\ (forall q, In q s <-> q = a) /\ R a u v). split.
    + exists [initial f1], (initial f1). splits; auto; [apply (so_init _ _ _ SO)|]. intros q. cbn [In]. intuition.
    + intros i u v c (s & a & Hi & Hs & Ha) Hc. destruct (S1 a u v c Ha Hc) as (b & u1 & v1 & o & X1 & X2 & X3 & X4).
      destruct (so_step _ _ _ SO i s c Hi Hc) as (j & s' & J1 & J2 & J3).
      assert (Hs' : forall q, In q s' <-> q = b).
      { destruct J3 as [[(t & T1 & T2 & T3) ->]|[_ J3]].
        - apply Hs in T1. subst t. specialize (T3 c Hc). apply X1 in T3. subst b. exact Hs.
        - intros q. rewrite J3, <- X1. split.
          + intros (p & P1 & P2). apply Hs in P1. subst p. exact P2.
          + intros P. exists a. split; [apply Hs; auto|exact P]. }
      exists j, u1, v1, o. splits; auto.
      * exists s', b. auto.
      * rewrite <- X4. apply N.bits_inj. intros k. apply eq_iff_eq_true.
        rewrite (so_out _ _ _ SO O i j c Hc (proj2 (J1 j) eq_refl) k). split.
        -- intros (s1 & t & p & q & Y1 & Y2 & Y3 & Y4 & Y5). rewrite Hi in Y1. injection Y1 as <-. rewrite J2 in Y2. injection Y2 as <-.
           apply Hs in Y3. apply Hs' in Y4. subst. exact Y5.
        -- intros Y. exists s, s', a, b. splits; auto; [apply Hs; auto|apply Hs'; auto].
  - unfold determine in E. rewrite D in E. cbv zeta in E.
    destruct (det_run _ _ _ _ _ _) as [states tr| |]; try discriminate E; apply ok_pair in E as [E1 E2]. subst g. exists R. exact S1.
Qed.

(** ** The table *)
Lemma build_next : forall df remap g s0 s buf n, wf g -> all_in_part g -> (part_size (letters g) <= 256) -> (n <= 16)%N ->
  init_loaded buf (size g) (letters g) (initial g) n = Ok s0 -> (forall a, acts_ok n (remap a)) -> build_loaded df remap g s0 = Ok s -> dplaced s ->
  d_initial s = d_state s (N.of_nat (initial g)) /\
  forall i c j, i < size g -> letter c -> (forall x, edge g i c x <-> x = j) ->
    d_next s (d_state s (N.of_nat i)) c = Ok (d_state s (N.of_nat j), remap (output g i j)).
Proof.
  intros df remap g s0 s buf n W A PS Hn E0 HR E P.
  assert (PP : 0 < part_size (letters g)).
  { apply all_part_pos; [apply W|]. destruct (A 0%N eq_refl ltac:(discriminate)) as [r R]. eauto. }
  destruct (init_loaded_ok buf (size g) (letters g) (initial g) n s0 (wf_letters _ W) PP (wf_init _ W) Hn E0) as (L0 & S0 & NL0 & R0 & B0 & I0 & LT0 & O0 & N0).
  clear E0. assert (C0 : d_count s0 = n) by (unfold d_count; rewrite N0; auto).
  assert (L1 : loaded_ok s).
  { destruct (build_loaded_ok df remap g s0 s W L0 S0) as (X & _); auto. intros a. rewrite C0. auto. }
  rewrite build_loaded_eq in E. apply bind_ok in E as (dead & _ & E). apply bind_ok in E as (s1 & E1 & E).
  destruct (tags_ok nat (seq 0 (size g)) (fun q => q) (fun q => Ok (N.lor (fsm_tag g q) (if smem q dead then df else 0%N))) s0) as (T & ET & LT).
  { intros q Hq. apply in_seq in Hq. rewrite (lo_tlen _ L0), S0. split; [lia|eauto]. }
  cbn [bind] in ET. rewrite ET in E1. injection E1 as <-. pose proof (set_dtags_ok s0 T L0 LT) as L2.
  set (s1 := set_dtags s0 T) in *.
  assert (F1 : d_states s1 = N.of_nat (size g) /\ d_nletters s1 = N.of_nat (part_size (letters g)) /\ d_letters s1 = fill_bytes (letters g) /\ d_initial s1 = d_state s1 (N.of_nat (initial g))).
  { unfold s1. cbn [set_dtags d_states d_nletters d_letters d_initial]. splits; auto. }
  clearbody s1. destruct F1 as (S1 & NL1 & LT1 & IN1).
  destruct (writes_ok (build_writes remap g) s1 (lo_jlen _ L2) (lo_lt _ L2) (nl_pos _ L2)) as (J & EJ & LJ & KJ).
  { intros f t c a H. apply build_writes_in in H as (H1 & _). lia. }
  rewrite EJ in E. apply ok_inj in E. subst s. split; [exact IN1|].
  intros i c j Hi Hc Hj. destruct (A c (proj1 Hc) (proj2 Hc)) as [c' R]. pose proof (part_rep_rep _ _ _ (wf_letters _ W) R) as R'.
  assert (CLS : forall a a', part_rep (letters g) a = Some a' -> nth (N.to_nat a) (d_letters s1) 0%N = N.of_nat (cls_of (letters g) a)).
  { intros a a' Ra. destruct (fill_bytes_ok (letters g) a a' (wf_letters _ W) Ra) as [X Y]. rewrite LT1. apply nth_error_nth with (d := 0%N) in X. rewrite X. apply N.mod_small. lia. }
  assert (CE : cls_of (letters g) c = cls_of (letters g) c') by (unfold cls_of, part_index; unfold part_rep in R, R'; rewrite R, R'; reflexivity).
  assert (SC : slot s1 i c = slot s1 i c') by (unfold slot; rewrite (CLS c c' R), (CLS c' c' R'), CE; reflexivity).
  assert (DE : forall a x, part_rep (letters g) a = Some a -> (In x (destinations g i a) <-> edge g i a x)).
  { intros a x Ra. rewrite dest_rep by auto. unfold edge, erep. rewrite Ra. reflexivity. }
  assert (Hj' : forall x, In x (destinations g i c') <-> x = j).
  { intros x. rewrite DE by auto. rewrite <- Hj. unfold edge, erep. rewrite R, R'. reflexivity. }
  assert (Hi' : i < N.to_nat (d_states s1)) by lia.
  destruct (slot_lt s1 i c' (lo_lt _ L2) (nl_pos s1 L2) Hi') as [SLT _].
  assert (K : nth_error J (slot s1 i c) = Some (shift_of s1 i j, remap (output g i j))).
  { rewrite SC. destruct (KJ (slot s1 i c')) as [[_ NW]|(f & t & a & v & X & Y & Z)].
    - rewrite LJ, (lo_jlen _ L2). exact SLT.
    - exfalso. apply (NW i j c' (remap (output g i j))); auto. apply build_writes_in. splits; auto.
      + apply (part_list_rep _ c' (wf_letters _ W)). exact R'.
      + apply Hj'. auto.
    - destruct (slot_inj s1 _ _ _ _ (lo_lt _ L2) (nl_pos s1 L2) Y) as [-> Y2]. apply build_writes_in in X as (_ & (k1 & K1) & X3 & ->).
      assert (Ra : part_rep (letters g) a = Some a) by (apply (part_list_rep _ a (wf_letters _ W)); eauto).
      rewrite (CLS a a Ra), (CLS c' c' R') in Y2. apply Nat2N.inj in Y2.
      assert (a = c').
      { pose proof (proj2 (part_list_rep _ c' (wf_letters _ W)) R') as [k2 K2].
        apply (part_list_in _ _ _ (wf_letters _ W)) in K1 as [m1 K1]. apply (part_list_in _ _ _ (wf_letters _ W)) in K2 as [m2 K2].
        assert (QQ : forall x k m, part_rep (letters g) x = Some x -> mfind x (pset (letters g)) = Some (k, m) -> cls_of (letters g) x = k).
        { intros x k m RR MM. unfold cls_of, part_index. unfold part_rep in RR. rewrite RR, MM. reflexivity. }
        pose proof (QQ _ _ _ Ra K1) as Q1. pose proof (QQ _ _ _ R' K2) as Q2. assert (KK : k1 = k2) by congruence. rewrite <- KK in K2.
        exact (wp_inj _ (wf_letters _ W) a c' k1 m1 m2 K1 K2). }
      subst a. apply Hj' in X3. subst t. exact Z. }
  assert (Hjs : j < size g).
  { pose proof (proj2 (Hj' j) eq_refl) as X. exact (dest_bound _ _ _ _ W X). }
  assert (HL : nth_error (d_letters s1) (N.to_nat c) = Some (nth (N.to_nat c) (d_letters s1) 0%N)).
  { apply nth_error_nth'. rewrite (lo_llen _ L2). destruct Hc as [Hc _]. unfold MaxChar in Hc. lia. }
  unfold d_next. change (d_letters (set_jumps s1 J)) with (d_letters s1). rewrite HL.
  rewrite (trans_at (set_jumps s1 J)) by exact Hi'.
  change (d_jumps (set_jumps s1 J)) with J. change (d_nletters (set_jumps s1 J)) with (d_nletters s1).
  change (i * N.to_nat (d_nletters s1) + N.to_nat (nth (N.to_nat c) (d_letters s1) 0%N)) with (slot s1 i c). rewrite K. cbn [bind].
  change (shift_of s1 i j) with (shift_of (set_jumps s1 J) i j).
  rewrite (shift_ok (set_jumps s1 J) L1 P) by (cbn [set_jumps d_states]; lia). reflexivity.
Qed.
Lemma remap_events : forall o, events_of false 0 (counting_remap (code o)) = or_event o.
Proof. intros [[]|]; reflexivity. Qed.
Lemma table_events : forall L g R s, simulates L g R -> (forall a u v, R a u v -> a < size g) -> 
  (forall i c j, i < size g -> letter c -> (forall x, edge g i c x <-> x = j) -> d_next s (d_state s (N.of_nat i)) c = Ok (d_state s (N.of_nat j), counting_remap (output g i j))) ->
  forall w a u v acts, R a u v -> is_word w -> actions s (d_state s (N.of_nat a)) w = Ok acts -> exists u' v', pscan L u v w (flat_map (events_of false 0) acts) u' v'.
Proof.
  intros L g R s [_ S] Hb Hn. induction w as [|c w IH]; intros a u v acts Ha Hw E.
  - cbn [actions] in E. apply ok_inj in E. subst acts. exists u, v. cbn. auto.
  - inversion Hw; subst. destruct (S a u v c Ha H1) as (b & u1 & v1 & o & X1 & X2 & X3 & X4).
    cbn [actions] in E. rewrite (Hn a c b (Hb _ _ _ Ha) H1 X1) in E. cbn [bind] in E. apply bind_ok in E as (xs & E1 & E). apply ok_inj in E. subst acts.
    destruct (IH b u1 v1 xs X3 H2 E1) as (u' & v' & X5). exists u', v'. cbn [pscan flat_map]. exists u1, v1, o, (flat_map (events_of false 0) xs).
    rewrite X4, remap_events. auto.
Qed.
