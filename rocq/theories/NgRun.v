(** NoGlueLimitCountingScanner: its counters, and what they come to. *)
From Coq Require Import List Bool Arith NArith Lia.
From Verif Require Import Util Spec PartitionModel PartitionProofs FsmModel DetermineModel DetGeneric DetProofs FsmSem FsmBasics Api RunModel RunSpec ScannerModel
  ScannerProofs ScannerCompile GlueModel GlueTable GlueProofs CountModel CountSpec CountApi RunProofs CountProofs SimpleProofs LoadedProofs LoadedGlue CountBuild AdvModel AdvSpec AdvNfa AdvRun AdvSound AdvMain AdvFinds CountUser NgModel NgApi NgTable NgGlue NgGlued NgSem.
Import ListNotations.
Local Open Scope N_scope.
Local Opaque default_loaded.

(** ** The counters *)
Definition has (n : nat) (st : nstate) : Prop := length (ns_cur st) = n /\ length (ns_tot st) = n.
Definition pair_at (i : nat) (st : nstate) : N * N := (nth i (ns_cur st) 0, nth i (ns_tot st) 0).
Definition inb (i : nat) (ids : list N) : bool := existsb (N.eqb (N.of_nat i)) ids.
Lemma inb_in : forall i ids, inb i ids = true <-> In (N.of_nat i) ids.
Proof.
  intros i ids. unfold inb. rewrite existsb_exists. split.
  - intros (x & H & E). apply N.eqb_eq in E. congruence.
  - intros H. exists (N.of_nat i). split; auto. apply N.eqb_refl.
Qed.
Definition p_reset (b : bool) (p : N * N) : N * N := if b then (0, snd p) else p.
Definition p_incr (b : bool) (p : N * N) : N * N := if b then ((fst p + 1) mod two32, N.max (snd p) ((fst p + 1) mod two32)) else p.

Lemma resets_ok : forall n rs st, has n st -> ids_ok (N.of_nat n) rs -> exists st', foldm (fun st i => n_reset i st) rs st = Ok st' /\ has n st' /\ ns_state st' = ns_state st /\
  forall i, (i < n)%nat -> pair_at i st' = p_reset (inb i rs) (pair_at i st).
Proof.
  intros n. induction rs as [|r rs IH]; intros st [H1 H2] [ND F]; cbn [foldm].
  - exists st. splits; auto. split; auto.
  - apply NoDup_cons_iff in ND as [Hn Hnd]. apply Forall_cons_iff in F as [Hr Hf]. unfold n_reset at 1. destruct (N.ltb_spec r (N.of_nat (length (ns_cur st)))) as [L|L]; [|rewrite H1 in L; lia]. cbn [bind].
    destruct (IH (mkNS (ns_state st) (upd (N.to_nat r) (fun _ => 0) (ns_cur st)) (ns_tot st))) as (st' & E & HH & S & V).
    + split; cbn [ns_cur ns_tot]; [rewrite upd_len|]; auto.
    + split; auto.
    + exists st'. splits; auto. intros i Hi. rewrite (V i Hi). unfold pair_at. cbn [ns_cur ns_tot]. rewrite nth_upd by lia. unfold inb. cbn [existsb]. fold (inb i rs).
      destruct (N.eqb_spec (N.of_nat i) r) as [E1|E1].
      * replace (Nat.eqb (N.to_nat r) i) with true by (symmetry; apply Nat.eqb_eq; lia). cbn [orb]. unfold p_reset. destruct (inb i rs); reflexivity.
      * replace (Nat.eqb (N.to_nat r) i) with false by (symmetry; apply Nat.eqb_neq; lia). reflexivity.
Qed.
Lemma incrs_ok : forall n is st, has n st -> ids_ok (N.of_nat n) is -> exists st', foldm (fun st i => n_incr i st) is st = Ok st' /\ has n st' /\ ns_state st' = ns_state st /\
  forall i, (i < n)%nat -> pair_at i st' = p_incr (inb i is) (pair_at i st).
Proof.
  intros n. induction is as [|r is IH]; intros st [H1 H2] [ND F]; cbn [foldm].
  - exists st. splits; auto. split; auto.
  - apply NoDup_cons_iff in ND as [Hn Hnd]. apply Forall_cons_iff in F as [Hr Hf]. unfold n_incr at 1. destruct (N.ltb_spec r (N.of_nat (length (ns_cur st)))) as [L|L]; [|rewrite H1 in L; lia].
    destruct (N.ltb_spec r (N.of_nat (length (ns_tot st)))) as [L'|L']; [|rewrite H2 in L'; lia]. cbn [andb]. cbv zeta. cbn [bind].
    match goal with |- context [foldm _ is ?S] => destruct (IH S) as (st' & E & HH & S' & V) end.
    + split; cbn [ns_cur ns_tot]; rewrite upd_len; auto.
    + split; auto.
    + exists st'. splits; auto. intros i Hi. rewrite (V i Hi). unfold pair_at. cbn [ns_cur ns_tot]. rewrite !nth_upd by lia. unfold inb. cbn [existsb]. fold (inb i is).
      destruct (N.eqb_spec (N.of_nat i) r) as [E1|E1].
      * replace (Nat.eqb (N.to_nat r) i) with true by (symmetry; apply Nat.eqb_eq; lia). cbn [orb].
        replace (inb i is) with false. { unfold p_incr. cbn [fst snd]. replace (N.to_nat r) with i by lia. reflexivity. }
        symmetry. apply not_true_iff_false. rewrite inb_in. rewrite E1. auto.
      * replace (Nat.eqb (N.to_nat r) i) with false by (symmetry; apply Nat.eqb_neq; lia). reflexivity.
Qed.
Lemma take_ok : forall s n a st rs is, n_compat s = false -> has n st -> reads s a rs is -> ids_ok (N.of_nat n) rs -> ids_ok (N.of_nat n) is ->
  exists st', n_take s a st = Ok st' /\ has n st' /\ ns_state st' = ns_state st /\ forall i, (i < n)%nat -> pair_at i st' = p_incr (inb i is) (p_reset (inb i rs) (pair_at i st)).
Proof.
  intros s n a st rs is CM HS RD IR II. destruct (resets_ok n rs st HS IR) as (st1 & E1 & H1 & S1 & V1). destruct (incrs_ok n is st1 H1 II) as (st2 & E2 & H2 & S2 & V2).
  exists st2. split; [|splits; auto; [congruence|intros i Hi; rewrite (V2 i Hi), (V1 i Hi); reflexivity]].
  unfold n_take. rewrite CM. unfold reads in RD. destruct (N.eqb_spec a 0) as [->|Z].
  - assert (rs = [] /\ is = []) as [-> ->] by (destruct (n_acts s); [destruct RD as [(_ & H & H')|[H _]]; [auto|lia]|destruct RD; auto]). cbn [foldm] in E1, E2. congruence.
  - destruct (n_acts s) as [acts|].
    + destruct RD as [(H & _)|(_ & p & q & A1 & A2 & _)]; [contradiction|]. rewrite A1. cbn [bind]. rewrite E1. cbn [bind]. rewrite A2. cbn [bind]. exact E2.
    + destruct RD as [-> ->].
      assert (X1 : (if N.land a ResetAction =? 0 then Ok st else n_reset 0 st) = Ok st1).
      { destruct (N.land a ResetAction =? 0); cbn [foldm] in E1; [exact E1|]. destruct (n_reset 0 st); cbn [bind] in E1; auto; discriminate E1. }
      rewrite X1. cbn [bind]. destruct (N.land a IncrementAction =? 0); cbn [foldm] in E2; [exact E2|]. destruct (n_incr 0 st1); cbn [bind] in E2; auto; discriminate E2.
Qed.

(** The events of regexp i *)
Definition evs (b1 b2 : bool) : list event := (if b1 then [Rst] else []) ++ (if b2 then [Inc] else []).
Definition tracks (p : N * N) (e : nat * nat) : Prop := fst p = N.of_nat (fst e) /\ snd p = N.of_nat (Nat.max (fst e) (snd e)).
Lemma track_step : forall b1 b2 p e, tracks p e -> N.of_nat (S (fst e)) < two32 -> tracks (p_incr b2 (p_reset b1 p)) (fold_left ev_step (evs b1 b2) e) /\
  (fst (fold_left ev_step (evs b1 b2) e) <= S (fst e))%nat.
Proof.
  intros b1 b2 [c t] [cur best] [T1 T2] L. cbn [fst snd] in *. subst c t.
  assert (M0 : (0 + 1) mod two32 = 1) by reflexivity.
  assert (M : (N.of_nat cur + 1) mod two32 = N.of_nat (S cur)) by (rewrite N.mod_small; lia).
  unfold tracks, evs. destruct b1, b2; cbn [app fold_left ev_step p_reset p_incr fst snd]; rewrite ?M0, ?M; splits; lia.
Qed.
Definition own_events (x : N) : list event := evs (negb (N.land x ResetAction =? 0)) (negb (N.land x IncrementAction =? 0)).
Lemma own_advanced : forall x, own_events x = events_of true 0 (advanced_remap x).
Proof.
  intros x. unfold own_events, events_of, advanced_remap, evs. destruct (N.land x ResetAction =? 0), (N.land x IncrementAction =? 0); reflexivity.
Qed.
Lemma negb_iff : forall (b c : bool), (b = true <-> c = false) -> b = negb c.
Proof. intros [] [] H; cbn; auto; [destruct H as [H _]; specialize (H eq_refl); discriminate H|destruct H as [_ H]; specialize (H eq_refl); discriminate H]. Qed.

Lemma steps_ok : forall s, n_compat s = false -> forall w st acts, has (N.to_nat (n_count s)) st -> actions (n_base s) (ns_state st) w = Ok acts ->
  (forall a, In a acts -> exists rs is, reads s a rs is /\ ids_ok (n_count s) rs /\ ids_ok (n_count s) is) ->
  exists st', steps (n_ops s) st w = Ok st' /\ has (N.to_nat (n_count s)) st' /\
    forall i xs e, (i < N.to_nat (n_count s))%nat -> Forall2 (says s i) acts xs -> tracks (pair_at i st) e -> N.of_nat (fst e + length w) < two32 ->
      tracks (pair_at i st') (fold_left ev_step (flat_map own_events xs) e).
Proof.
  intros s CM. induction w as [|c w IH]; intros st acts HS A RA; cbn [actions] in A.
  - apply ok_inj in A. subst acts. exists st. splits; auto. intros i xs e _ F T _. inversion F; subst. exact T.
  - apply bind_ok in A as ([a1 x] & A1 & A). apply bind_ok in A as (acts' & A2 & A). apply ok_inj in A. subst acts.
    destruct (RA x (or_introl eq_refl)) as (rs & is & R1 & R2 & R3).
    destruct (take_ok s (N.to_nat (n_count s)) x (mkNS a1 (ns_cur st) (ns_tot st)) rs is CM HS R1 ltac:(rewrite N2Nat.id; exact R2) ltac:(rewrite N2Nat.id; exact R3)) as (st1 & T1 & T2 & T3 & T4).
    destruct (IH st1 acts' T2 ltac:(rewrite T3; exact A2) ltac:(intros a Ha; apply RA; right; auto)) as (st' & S1 & S2 & S3).
    exists st'. split.
    + cbn [steps n_ops o_step]. unfold n_next. rewrite A1. cbn [bind]. rewrite T1. cbn [bind]. exact S1.
    + split; auto. intros i xs e Hi F T L. inversion F as [|? z ? xs' Z F']; subst. cbn [flat_map]. rewrite fold_left_app. cbn [length] in L.
      destruct Z as (rs' & is' & Z1 & _ & _ & Z2 & Z3). destruct (reads_fun _ _ _ _ _ _ Z1 R1) as [-> ->]. rewrite <- inb_in in Z2, Z3. apply negb_iff in Z2, Z3.
      destruct (track_step (inb i rs) (inb i is) (pair_at i st) e T ltac:(lia)) as [X Y]. rewrite Z2, Z3 in X, Y. fold (own_events z) in X, Y.
      apply (S3 i xs'); auto; [|lia]. rewrite (T4 i Hi). rewrite Z2, Z3. exact X.
Qed.

(** ** The regexps' own scanners *)
Lemma same_table : forall (rm1 rm2 : N -> N) b1 b2 re sep s1 s2 m1 m2, built re -> built sep -> make_advanced rm1 b1 re sep = Ok (s1, m1) -> make_advanced rm2 b2 re sep = Ok (s2, m2) ->
  m1 = m2 /\ d_nletters s1 = d_nletters s2 /\ (dplaced s1 -> dplaced s2 -> d_nletters s1 <= 256 -> forall w, is_word w -> exists acts,
    actions s1 (d_initial s1) w = Ok (map rm1 acts) /\ actions s2 (d_initial s2) w = Ok (map rm2 acts)).
Proof.
  intros rm1 rm2 b1 b2 re sep s1 s2 m1 m2 Br Bs E F. unfold make_advanced in E, F.
  apply bind_ok in E as ([f r0] & E1 & E). rewrite E1 in F. cbn [bind] in F. apply bind_ok in E as (dead & E2 & E). rewrite E2 in F. cbn [bind] in F.
  apply bind_ok in E as ([t b'] & E3 & E). rewrite E3 in F. cbn [bind] in F. apply bind_ok in E as (t1 & E4 & E). rewrite E4 in F. cbn [bind] in F.
  apply bind_ok in E as (x1 & E5 & E). apply bind_ok in E as (y1 & E6 & E). apply ok_inj in E. injection E as -> ->.
  apply bind_ok in F as (x2 & F5 & F). apply bind_ok in F as (y2 & F6 & F). apply ok_inj in F. injection F as -> ->.
  destruct (counting_nfa_ok re sep f r0 Br Bs E1) as (A & B & OK & -> & _). pose proof OK as (_ & _ & W & Ain & _).
  destruct (determine_stands f (initial A) dead t m2 W E3) as (SH & lab & ST). pose proof (wf_letters _ W) as Wp.
  destruct (cf_minimize_ok _ _ _ t lab Wp SH ST) as (t1' & X & P1 & h & H1 & H2 & H3 & H4). rewrite E4 in X. apply ok_inj in X. subst t1'. destruct ST as (I0 & IL & ST).
  assert (AL : forall c, letter c -> exists r, part_rep (letters f) c = Some r) by (intros c [Hc Hn]; apply Ain; auto).
  assert (HI : (cf_init t1 < cf_size t1)%nat) by (rewrite <- H1; apply H2; exact I0).
  assert (HN : forall i c l, (i < cf_size t1)%nat -> In (c, l) (part_list (letters f)) -> (cf_next t1 i l < cf_size t1)%nat).
  { intros i c l Hi Hl. destruct (H3 i Hi) as (q & Hq & <-). destruct (H4 q c l Hq Hl) as [-> _]. apply H2. apply (ST q c l Hq Hl). }
  destruct (adv_table rm1 b1 (letters f) t1 x1 s1 Wp AL HI HN E5 E6) as (_ & A2 & _ & _ & _ & A6 & _ & A8).
  destruct (adv_table rm2 b2 (letters f) t1 x2 s2 Wp AL HI HN F5 F6) as (_ & B2 & _ & _ & _ & B6 & _ & B8).
  split; [reflexivity|]. split; [congruence|]. intros PL1 PL2 Few w Hw. rewrite A2 in Few. assert (PS : (part_size (letters f) <= 256)%nat) by lia.
  rewrite A6, B6. revert Hw HI. generalize (cf_init t1). induction w as [|c w IH]; intros i Hw Hi; cbn [actions].
  - exists []. auto.
  - inversion Hw; subst. rewrite (A8 PS PL1 i c Hi H5), (B8 PS PL2 i c Hi H5). cbn [bind].
    assert (Hn : (cf_next t1 i (cls_of (letters f) c) < cf_size t1)%nat).
    { destruct (AL c H5) as [c' R]. pose proof (part_rep_rep _ _ _ Wp R) as R'. pose proof (proj2 (part_list_rep _ c' Wp) R') as [l Hl]. rewrite (wf_cls _ c c' l Wp R Hl). eapply HN; eauto. }
    destruct (IH _ H6 Hn) as (acts & -> & ->). cbn [bind]. exists (cf_act t1 i (cls_of (letters f) c) :: acts). auto.
Qed.
Lemma map_id_ok : forall l : list N, map (fun a => a) l = l. Proof. induction l as [|x l IH]; cbn [map]; congruence. Qed.

(** ** What is counted *)
Theorem ng_counts : forall s Rs w i re sep b, nobtained s Rs -> nplaced s -> is_word w -> N.of_nat (length w) < two32 -> nth_error Rs i = Some (re, sep, b) ->
  exists buf s1 xs n, n_scanner buf re sep = Ok (s1, b) /\ nplaced s1 /\ actions (n_base s1) (d_initial (n_base s1)) w = Ok xs /\
    longest_run (flat_map own_events xs) n /\ forall m, ncounts s w i m <-> m = N.of_nat n.
Proof.
  intros s Rs w i re sep b O P Hw L Hi. destruct (nobtained_ok s Rs O) as [T M C S D F B K]. destruct (K P w Hw) as (acts & A & RA & SA).
  destruct (SA i re sep b Hi) as (buf & s1 & xs & X1 & X2 & X3 & X4).
  pose proof (fold_longest (flat_map own_events xs)) as FL.
  assert (IL : (i < N.to_nat (n_count s))%nat) by (rewrite C, Nat2N.id; apply nth_error_Some; congruence).
  assert (H0 : has (N.to_nat (n_count s)) (n_init s)) by (split; apply repeat_length).
  destruct (steps_ok s M w (n_init s) acts H0 A RA) as (st & S1 & [S2 S2'] & S3).
  assert (T0 : tracks (pair_at i (n_init s)) (0%nat, 0%nat)) by (unfold tracks, pair_at, n_init; cbn [ns_cur ns_tot fst snd]; rewrite nth_repeat; split; reflexivity).
  specialize (S3 i xs (0%nat, 0%nat) IL X4 T0 ltac:(cbn [fst Nat.add]; exact L)).
  destruct (fold_left ev_step (flat_map own_events xs) (0%nat, 0%nat)) as [cur best]. exists buf, s1, xs, (Nat.max cur best). splits; auto.
  destruct S3 as [R1 R2]. unfold pair_at in R1, R2. cbn [fst snd] in R1, R2.
  assert (RS : n_result st i = Ok (N.of_nat (Nat.max cur best))).
  { unfold n_result. rewrite (nth_error_nth' (ns_cur st) 0) by lia. rewrite (nth_error_nth' (ns_tot st) 0) by lia. rewrite R1, R2. f_equal. lia. }
  intros m. split.
  - intros (st' & E1 & E2). rewrite S1 in E1. apply ok_inj in E1. subst st'. rewrite RS in E2. apply ok_inj in E2. auto.
  - intros ->. exists st. auto.
Qed.
(** Result(i) is what AdvancedCountingScanner for that regexp and separator gives. *)
Theorem ng_as_advanced : forall s Rs w i re sep b ba sa b' n, nobtained s Rs -> nplaced s -> is_word w -> N.of_nat (length w) < two32 -> nth_error Rs i = Some (re, sep, b) ->
  advanced_scanner ba re sep = Ok (sa, b') -> dplaced sa -> b = b' /\ (ncounts s w i n <-> counts true sa w 0 n).
Proof.
  intros s Rs w i re sep b ba sa b' n O P Hw L Hi E Pa. destruct (ng_counts s Rs w i re sep b O P Hw L Hi) as (buf & s1 & xs & k & N1 & N2 & N3 & N4 & N5).
  destruct (ng_built _ _ (nobtained_ok s Rs O) i re sep b Hi) as [Br Bs].
  unfold n_scanner in N1. apply bind_ok in N1 as ([t m] & M1 & N1). apply ok_inj in N1. injection N1 as <- <-. cbn [n_base] in *.
  destruct (same_table _ _ _ _ _ _ _ _ _ _ Br Bs M1 E) as (-> & NL & ST). split; [reflexivity|]. rewrite N5.
  destruct (ST (proj1 N2) Pa (proj2 N2) w Hw) as (acts & A1 & A2). rewrite map_id_ok in A1. cbn [n_base] in N3. rewrite N3 in A1. apply ok_inj in A1. subst acts.
  destruct (counting_result true sa w 0 (counting_advanced _ _ _ _ _ Br Bs E) Pa Hw L ltac:(lia)) as (acts & k' & C1 & C2 & C3). rewrite A2 in C1. apply ok_inj in C1. subst acts.
  assert (EQ : flat_map own_events xs = flat_map (events_of true 0) (map advanced_remap xs)).
  { clear. induction xs as [|x xs IH]; cbn [map flat_map]; auto. rewrite own_advanced, IH. reflexivity. }
  rewrite EQ in N4. rewrite (longest_unique _ _ _ N4 C2). split.
  - intros ->. exact C3.
  - intros H. destruct C3 as (st & S1 & S2), H as (st' & S3 & S4). rewrite S1 in S3. apply ok_inj in S3. subst st'. rewrite S2 in S4. apply ok_inj in S4. auto.
Qed.

(** AdvancedCountingScanner's constructor succeeds whenever this one's does. *)
Lemma make_again : forall (rm1 rm2 : N -> N) buf re sep s1 m, built re -> built sep -> make_advanced rm1 buf re sep = Ok (s1, m) ->
  exists s2, make_advanced rm2 buf re sep = Ok (s2, m) /\ (dplaced s1 -> dplaced s2) /\ d_nletters s2 = d_nletters s1.
Proof.
  intros rm1 rm2 buf re sep s1 m Br Bs E. unfold make_advanced in *.
  apply bind_ok in E as ([f r0] & E1 & E). rewrite E1. cbn [bind]. apply bind_ok in E as (dead & E2 & E). rewrite E2. cbn [bind].
  apply bind_ok in E as ([t b'] & E3 & E). rewrite E3. cbn [bind]. apply bind_ok in E as (t1 & E4 & E). rewrite E4. cbn [bind].
  apply bind_ok in E as (s0 & E5 & E). apply bind_ok in E as (y1 & E6 & E). apply ok_inj in E. injection E as -> ->.
  destruct (counting_nfa_ok re sep f r0 Br Bs E1) as (A & B & OK & -> & _). pose proof OK as (_ & _ & W & Ain & _).
  destruct (determine_stands f (initial A) dead t m W E3) as (SH & lab & ST). pose proof (wf_letters _ W) as Wp.
  destruct (cf_minimize_ok _ _ _ t lab Wp SH ST) as (t1' & X & P1 & h & H1 & H2 & H3 & H4). rewrite E4 in X. apply ok_inj in X. subst t1'. destruct ST as (I0 & IL & ST).
  assert (HI : (cf_init t1 < cf_size t1)%nat) by (rewrite <- H1; apply H2; exact I0).
  assert (L0c : letter 0%N) by (split; [reflexivity|discriminate]).
  assert (PP : (0 < part_size (letters f))%nat) by (destruct (Ain 0%N (proj1 L0c) (proj2 L0c)) as [r R]; apply (part_rep_rep _ _ _ Wp) in R; apply (part_list_rep (letters f) r Wp) in R as [l R]; apply (part_list_idx _ Wp) in R; rewrite part_list_length in R; lia).
  destruct (init_loaded_ok buf (cf_size t1) (letters f) (cf_init t1) 1%N s0 Wp PP HI ltac:(lia) E5) as (L0 & S0 & _).
  rewrite adv_fill_eq in E6. rewrite E5. cbn [bind]. rewrite adv_fill_eq.
  assert (HW : forall rm f0 t0 c a, In (f0, t0, c, a) (adv_writes rm (letters f) t1) -> (f0 < N.to_nat (d_states s0))%nat).
  { intros rm f0 t0 c a H. apply adv_writes_in in H as [H _]. rewrite S0, Nat2N.id. exact H. }
  destruct (writes_ok (adv_writes rm1 (letters f) t1) s0 (lo_jlen _ L0) (lo_lt _ L0) (nl_pos _ L0) (HW rm1)) as (J1 & EJ1 & _).
  destruct (writes_ok (adv_writes rm2 (letters f) t1) s0 (lo_jlen _ L0) (lo_lt _ L0) (nl_pos _ L0) (HW rm2)) as (J2 & EJ2 & _).
  rewrite EJ1 in E6. apply ok_inj in E6. subst s1. rewrite EJ2. cbn [bind]. exists (set_jumps s0 J2). split; [reflexivity|]. split; [intros H; exact H|reflexivity].
Qed.
Lemma ng_advanced : forall s Rs w i re sep b n, nobtained s Rs -> nplaced s -> is_word w -> N.of_nat (length w) < two32 -> nth_error Rs i = Some (re, sep, b) ->
  ncounts s w i n -> built re /\ built sep /\ exists ba sa, advanced_scanner ba re sep = Ok (sa, b) /\ dplaced sa /\ d_nletters sa <= 256 /\ counts true sa w 0 n.
Proof.
  intros s Rs w i re sep b n O P Hw L Hi H. destruct (ng_built _ _ (nobtained_ok s Rs O) i re sep b Hi) as [Br Bs]. splits; auto.
  destruct (ng_counts s Rs w i re sep b O P Hw L Hi) as (buf & s1 & xs & k & N1 & N2 & _).
  unfold n_scanner in N1. apply bind_ok in N1 as ([t m] & M1 & N1). apply ok_inj in N1. injection N1 as <- <-.
  destruct (make_again _ advanced_remap _ _ _ _ _ Br Bs M1) as (s2 & E2 & D2 & L2). exists buf, s2. splits; auto.
  - apply D2. apply N2.
  - rewrite L2. apply N2.
  - apply (ng_as_advanced s Rs w i re sep m buf s2 m n O P Hw L Hi E2); auto. apply D2. apply N2.
Qed.
Lemma any_word : forall w, Forall any_letter w -> is_word w.
Proof. intros w H. eapply Forall_impl; [|exact H]. apply any_is_letter. Qed.
Theorem ng_sound : forall s Rs w i re sep b n, nobtained s Rs -> nplaced s -> Forall any_letter w -> N.of_nat (length w) < two32 -> nth_error Rs i = Some (re, sep, b) ->
  ncounts s w i (N.of_nat n) -> repeats (accepts re) (accepts sep) w n.
Proof.
  intros s Rs w i re sep b n O P Hw L Hi H. destruct (ng_advanced s Rs w i re sep b _ O P (any_word w Hw) L Hi H) as (Br & Bs & ba & sa & E & Pa & Fa & C).
  eapply advanced_sound; eauto.
Qed.
Theorem ng_finds : forall s Rs w i re sep n u, nobtained s Rs -> nplaced s -> Forall any_letter w -> N.of_nat (length w) < two32 -> nth_error Rs i = Some (re, sep, false) ->
  ncounts s w i (N.of_nat n) -> accepts sep u -> (exists x r y, w = x ++ r ++ y /\ r <> [] /\ accepts re r) -> (1 <= n)%nat.
Proof.
  intros s Rs w i re sep n u O P Hw L Hi H Hu Hr. destruct (ng_advanced s Rs w i re sep false _ O P (any_word w Hw) L Hi H) as (Br & Bs & ba & sa & E & Pa & Fa & C).
  exact (advanced_finds ba re sep sa w n u Br Bs E Pa Fa Hw L C Hu Hr).
Qed.
Theorem ng_runs : forall s Rs w, nobtained s Rs -> nplaced s -> is_word w -> exists st, steps (n_ops s) (n_init s) w = Ok st /\ n_count s = N.of_nat (length Rs) /\
  forall i, (i < length Rs)%nat -> exists n, n_result st i = Ok n.
Proof.
  intros s Rs w O P Hw. destruct (nobtained_ok s Rs O) as [T M C S D F B K]. destruct (K P w Hw) as (acts & A & RA & _).
  assert (H0 : has (N.to_nat (n_count s)) (n_init s)) by (split; apply repeat_length).
  destruct (steps_ok s M w (n_init s) acts H0 A RA) as (st & S1 & [S2 S2'] & _). exists st. splits; auto. intros i Hi. unfold n_result.
  rewrite (nth_error_nth' (ns_cur st) 0) by lia. rewrite (nth_error_nth' (ns_tot st) 0) by lia. eauto.
Qed.
(** Glue *)
Theorem ng_glue_total : forall b0 b1 b2 null l r Rl Rr m, nobtained l Rl -> nobtained r Rr -> nplaced l -> nplaced r -> n_default b0 = Ok null -> dlimit m + 1 < two32 ->
  exists s, n_glue b1 b2 null l r m = Ok s /\
    (d_null (n_base s) = false /\ n_count s = n_count l + n_count r /\ ~ many (n_base l) (n_base r) (dlimit m + 2) \/
     s = null /\ n_count s = 0 /\ many (n_base l) (n_base r) (dlimit m + 2)).
Proof.
  intros b0 b1 b2 null l r Rl Rr m Ol Or Pl Pr D M. pose proof (nobtained_ok _ _ Ol) as NL. pose proof (nobtained_ok _ _ Or) as NR.
  pose proof (ng_small _ _ NL) as S1. pose proof (ng_small _ _ NR) as S2.
  destruct (n_glue_cases l r (ng_table _ _ NL) (ng_table _ _ NR) Pl Pr (ng_decodes _ _ NL) (ng_decodes _ _ NR) ltac:(lia) (dlimit m) b1 b2 null m eq_refl M) as (s & E & C).
  exists s. split; auto. destruct C as [(states & (_ & _ & NU & CC & _) & NM)|[-> MY]].
  - left. auto.
  - right. splits; auto. destruct (n_default_what _ _ D) as (b & -> & _ & NU). apply empty_count. exact NU.
Qed.
