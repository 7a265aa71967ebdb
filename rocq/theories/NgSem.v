(** NoGlueLimitCountingScanner: what its actions are, however it was obtained. *)
From Coq Require Import List Bool Arith NArith Lia.
From Verif Require Import Util Spec PartitionModel PartitionProofs FsmModel DetermineModel DetGeneric DetProofs FsmSem Api RunModel RunSpec ScannerModel
  ScannerProofs ScannerCompile GlueModel GlueTable GlueProofs CountModel CountSpec CountApi RunProofs CountProofs SimpleProofs LoadedProofs LoadedGlue CountBuild AdvModel AdvRun AdvMain CountUser NgModel NgApi NgTable NgGlue NgGlued IoModel CountIoModel CountIo CountIoOk NgIo.
Import ListNotations.
Local Open Scope N_scope.

Lemma acts_none : forall a, acts_ok 0 a -> a = 0.
Proof.
  intros a [_ H]. destruct (N.eq_dec a 0) as [|Z]; auto. pose proof (N.bit_log2 _ Z) as T. apply H in T. lia.
Qed.
Lemma tlive_actions : forall s, table_ok s -> dplaced s -> forall w x, dlive s x -> is_word w -> exists acts, actions s x w = Ok acts.
Proof.
  intros s T P. induction w as [|c w IH]; intros x Lx Hw; cbn [actions]; [eauto|]. inversion Hw; subst. destruct (tlive s x c T P Lx H1) as (y & a & E & Ly & _). rewrite E. cbn [bind].
  destruct (IH y Ly H2) as [acts ->]. cbn [bind]. eauto.
Qed.
Lemma tinit : forall s, table_ok s -> dlive s (d_initial s).
Proof. intros s T. destruct (lo_init _ T) as (q & H & E). exists q. split; auto. Qed.

(** What the action of one regexp's own scanner says about it *)
Definition says (s : nscanner) (i : nat) (a x : N) : Prop := exists rs is, reads s a rs is /\ ids_ok (n_count s) rs /\ ids_ok (n_count s) is /\
  (In (N.of_nat i) rs <-> N.land x ResetAction =? 0 = false) /\ (In (N.of_nat i) is <-> N.land x IncrementAction =? 0 = false).
Definition speaks (s : nscanner) (Rs : list (fsm * fsm * bool)) : Prop := nplaced s -> forall w, is_word w ->
  exists acts, actions (n_base s) (d_initial (n_base s)) w = Ok acts /\
    (forall a, In a acts -> exists rs is, reads s a rs is /\ ids_ok (n_count s) rs /\ ids_ok (n_count s) is) /\
    forall i re sep b, nth_error Rs i = Some (re, sep, b) -> exists buf s1 xs, n_scanner buf re sep = Ok (s1, b) /\ nplaced s1 /\
      actions (n_base s1) (d_initial (n_base s1)) w = Ok xs /\ Forall2 (says s i) acts xs.
Record ng_ok (s : nscanner) (Rs : list (fsm * fsm * bool)) : Prop := {
  ng_table : table_ok (n_base s);
  ng_mode : n_compat s = false;
  ng_count : n_count s = N.of_nat (length Rs);
  ng_small : 2 * n_count s < two32;
  ng_decodes : decodes s;
  ng_full : nplaced s -> acts_full s;
  ng_built : forall i re sep b, nth_error Rs i = Some (re, sep, b) -> built re /\ built sep;
  ng_speaks : speaks s Rs }.

Lemma reads_single : forall s a, n_acts s = None -> n_count s = 1 -> exists rs is, reads s a rs is /\ ids_ok (n_count s) rs /\ ids_ok (n_count s) is /\
  (In 0 rs <-> N.land a ResetAction =? 0 = false) /\ (In 0 is <-> N.land a IncrementAction =? 0 = false).
Proof.
  intros s a E C. unfold reads. rewrite E, C. do 2 eexists. split; [split; reflexivity|].
  assert (S0 : ids_ok 1 [0]) by (split; [constructor; [intros []|constructor]|constructor; [lia|constructor]]).
  destruct (N.land a ResetAction =? 0), (N.land a IncrementAction =? 0); splits; auto using ids_nil; split; intros H; try discriminate H; auto; try destruct H; auto; left; auto.
Qed.
Lemma new_ok : forall buf re sep s simple, built re -> built sep -> n_scanner buf re sep = Ok (s, simple) -> ng_ok s [(re, sep, simple)].
Proof.
  intros buf re sep s simple Br Bs E. pose proof E as E0. unfold n_scanner in E. apply bind_ok in E as ([b sm] & E1 & E). apply ok_inj in E. injection E as <- <-.
  destruct (make_ok _ _ _ _ _ _ Br Bs E1) as (T & R1 & NU & _ & _). apply erase_table in T.
  assert (C : n_count (mkNG b None false) = 1) by (unfold n_count, d_count; cbn [n_base]; rewrite NU; exact R1).
  constructor; auto.
  - rewrite C. reflexivity.
  - intros [P _] x c Lx Hc. cbn [n_base] in *. destruct (tlive b x c T P Lx Hc) as (y & a & _ & _ & A). exists a.
    destruct (reads_single (mkNG b None false) a eq_refl C) as (rs & is & H1 & H2 & H3 & _). exists rs, is. auto.
  - intros _ a H. discriminate H.
  - intros [|i] re' sep' b' H; [injection H as <- <- <-; auto|destruct i; discriminate H].
  - intros P w Hw. cbn [n_base]. destruct (tlive_actions b T (proj1 P) w _ (tinit b T) Hw) as [acts A]. exists acts. split; auto. split.
    + intros a _. destruct (reads_single (mkNG b None false) a eq_refl C) as (rs & is & H1 & H2 & H3 & _). exists rs, is. auto.
    + intros [|i] re' sep' b' H; [|destruct i; discriminate H]. injection H as <- <- <-. exists buf, (mkNG b None false), acts. splits; auto.
      clear - C. induction acts as [|a acts IH]; constructor; auto.
      destruct (reads_single (mkNG b None false) a eq_refl C) as (rs & is & H). exists rs, is. exact H.
Qed.
Lemma empty_count : forall b, d_null b = true -> n_count (mkNG b None false) = 0.
Proof. intros b NU. unfold n_count, d_count. cbn [n_base]. rewrite NU. reflexivity. Qed.
Lemma empty_reads : forall b a, d_null b = true -> acts_ok (d_count b) a -> reads (mkNG b None false) a [] [].
Proof.
  intros b a NU H. pose proof (empty_count b NU) as C. unfold n_count in C. cbn [n_base] in C. rewrite C in H. apply acts_none in H. subst a. split; reflexivity.
Qed.
Lemma empty_actions : forall b, loaded_ok b -> dplaced b -> forall w x acts, dlive b x -> is_word w -> actions b x w = Ok acts -> Forall (acts_ok (d_count b)) acts.
Proof.
  intros b L P. induction w as [|c w IH]; intros x acts Lx Hw H; cbn [actions] in H; [apply ok_inj in H; subst; constructor|]. inversion Hw; subst.
  destruct (live_next b L P x c Lx H2) as (y & a & E & Ly & A). rewrite E in H. cbn [bind] in H. apply bind_ok in H as (xs & H & Ex). apply ok_inj in Ex. subst acts. constructor; auto. eapply IH; eauto.
Qed.
Lemma empty_decodes : forall b, loaded_ok b -> d_null b = true -> decodes (mkNG b None false).
Proof.
  intros b L NU [P _] x c Lx Hc. cbn [n_base] in *. destruct (live_next b L P x c Lx Hc) as (y & a & E & _ & A). exists a, [], []. split; [exact (action_of_ok b L P x c y a Lx Hc E)|].
  split; [apply empty_reads; auto|]. split; apply ids_nil.
Qed.
Lemma empty_speaks : forall b, loaded_ok b -> d_null b = true -> speaks (mkNG b None false) [].
Proof.
  intros b L NU [P _] w Hw. cbn [n_base] in *. destruct (tlive_actions b (strip_ok b L) P w _ (tinit b (strip_ok b L)) Hw) as [acts A]. exists acts. split; [exact A|]. split.
  - pose proof (empty_actions b L P w _ acts (tinit b (strip_ok b L)) Hw A) as X. intros a Ha. rewrite Forall_forall in X. exists [], []. split; [apply empty_reads; auto|]. split; apply ids_nil.
  - intros [|i] re sep b' H; discriminate H.
Qed.
Lemma empty_ok : forall b, loaded_ok b -> d_null b = true -> ng_ok (mkNG b None false) [].
Proof.
  intros b L NU. constructor.
  - apply strip_ok. exact L.
  - reflexivity.
  - rewrite (empty_count b NU). reflexivity.
  - rewrite (empty_count b NU). reflexivity.
  - apply empty_decodes; auto.
  - intros _ a H. discriminate H.
  - intros [|i] re sep b' H; discriminate H.
  - apply empty_speaks; auto.
Qed.
Local Opaque default_loaded.
Lemma n_default_eq : forall buf, n_default buf = bind (default_loaded buf) (fun b => Ok (mkNG b None false)).
Proof. intros buf. reflexivity. Qed.
Lemma n_default_what : forall buf s, n_default buf = Ok s -> exists b, s = mkNG b None false /\ loaded_ok b /\ d_null b = true.
Proof.
  intros buf s E. rewrite n_default_eq in E. apply bind_ok in E as (b & D & E). apply ok_inj in E. exists b. pose proof (default_loaded_ok buf b D) as (L & NU & _). split; [symmetry; exact E|]. split; assumption.
Qed.
Lemma default_ok : forall buf s, n_default buf = Ok s -> ng_ok s [].
Proof. intros buf s E. destruct (n_default_what buf s E) as (b & -> & L & NU). apply empty_ok; auto. Qed.
Lemma sim_ok : forall s s' Rs, ng_ok s Rs -> nplaced s -> similar (n_base s) (n_base s') -> n_acts s' = n_acts s -> n_compat s' = false -> ng_ok s' Rs.
Proof.
  intros s s' Rs [T M C S D F B K] P SI AC MO. pose proof SI as [F1 F2 F3 F4 CC FI T'].
  assert (CN : n_count s' = n_count s) by exact CC.
  assert (RD : forall a rs is, reads s' a rs is <-> reads s a rs is) by (intros; unfold reads; rewrite AC; reflexivity).
  constructor; auto.
  - rewrite CN. exact C.
  - rewrite CN. exact S.
  - intros P' x c (q & Hq & ->) Hc. rewrite F1 in Hq. rewrite CN.
    destruct (D P (d_state (n_base s) (N.of_nat q)) c ltac:(exists q; auto) Hc) as (a & rs & is & H1 & H2 & H3 & H4). exists a, rs, is. rewrite RD. splits; auto.
    destruct (tnext (n_base s) q c T (proj1 P) Hq Hc) as (q1 & a1 & A1 & _ & _ & A4). rewrite H1 in A4. injection A4 as <-.
    destruct (tnext (n_base s') q c T' (proj1 P') ltac:(rewrite F1; exact Hq) Hc) as (q2 & a2 & B1 & _ & _ & B4).
    rewrite B4. f_equal. unfold slot in A1, B1. rewrite F2, F3, F4 in B1. rewrite A1 in B1. injection B1 as _ ->. reflexivity.
  - intros _ a H. rewrite AC in H. apply F; auto.
  - intros P' w Hw. destruct (K P w Hw) as (acts & A & RA & SA). exists acts.
    destruct FI as (q & Hq & I1 & I2). rewrite I2. rewrite (sim_actions _ _ T SI (proj1 P) (proj1 P') w q Hq Hw). rewrite <- I1.
    split; auto. rewrite CN. split.
    + intros a Ha. destruct (RA a Ha) as (rs & is & H). exists rs, is. rewrite RD. exact H.
    + intros i re sep b H. destruct (SA i re sep b H) as (bf & s1 & xs & H1 & H2 & H3 & H4). exists bf, s1, xs. splits; auto.
      clear - H4 RD CN. induction H4 as [|a x acts xs H Hs IH]; constructor; auto. destruct H as (rs & is & H). exists rs, is. rewrite RD, CN. exact H.
Qed.
Lemma copy_ok : forall buf s Rs, ng_ok s Rs -> nplaced s -> ng_ok (n_copy buf s) Rs.
Proof.
  intros buf s Rs N P. apply (sim_ok s); auto.
  - apply copy_similar. apply N.
  - cbn [n_copy n_acts]. pose proof (ng_full _ _ N P) as F. destruct (n_acts s) as [a|] eqn:E; auto. cbn [option_map]. destruct (F a E) as [_ ->]. rewrite firstn_all. reflexivity.
  - apply (ng_mode _ _ N).
Qed.

Inductive Forall3 {A B C} (R : A -> B -> C -> Prop) : list A -> list B -> list C -> Prop :=
| F3_nil : Forall3 R [] [] []
| F3_cons : forall a b c la lb lc, R a b c -> Forall3 R la lb lc -> Forall3 R (a :: la) (b :: lb) (c :: lc).
Section Glued.
  Variables (l r s : nscanner) (states : list (N * N)).
  Hypothesis Tl : table_ok (n_base l).
  Hypothesis Tr : table_ok (n_base r).
  Hypothesis Pl : nplaced l.
  Hypothesis Pr : nplaced r.
  Hypothesis Dl : decodes l.
  Hypothesis Dr : decodes r.
  Hypothesis Cnt : n_count l + n_count r < two32.
  Hypothesis G : ng_as l r s states.
  Hypothesis Ps : nplaced s.
  Hypothesis Sm : nsmall s.
  (** An action of the result: both actions *)
  Definition both_say (a x y : N) : Prop := exists r1 i1 r2 i2, reads l x r1 i1 /\ reads r y r2 i2 /\
    ids_ok (n_count l) r1 /\ ids_ok (n_count l) i1 /\ ids_ok (n_count r) r2 /\ ids_ok (n_count r) i2 /\
    reads s a (r1 ++ map (fun i => i + n_count l) r2) (i1 ++ map (fun i => i + n_count l) i2).
  Lemma ng_next : forall i st c, nth_error states i = Some st -> dlive (n_base l) (fst st) -> dlive (n_base r) (snd st) -> letter c -> exists j st' a x y,
    nth_error states j = Some st' /\ dlive (n_base l) (fst st') /\ dlive (n_base r) (snd st') /\
    d_next (n_base l) (fst st) c = Ok (fst st', x) /\ d_next (n_base r) (snd st) c = Ok (snd st', y) /\
    action_of (n_base s) (d_state (n_base s) (N.of_nat i)) c = Ok a /\
    d_next (n_base s) (d_state (n_base s) (N.of_nat i)) c = Ok (d_state (n_base s) (N.of_nat j), a) /\ both_say a x y.
  Proof.
    intros i st c Hi V1 V2 Hc. destruct G as (GA & _ & _ & CS & K & _). pose proof GA as (GT & _ & _ & GS & _).
    destruct (glued_next (strip (n_base l)) (strip (n_base r)) (strip (n_base s)) states (count0 l r Cnt) GA (proj1 Ps) (proj2 Ps) i st c Hi Hc) as (j & a0 & b0 & x0 & y0 & N1 & N2 & N3 & N4).
    rewrite strip_next in N2, N3, N4.
    destruct (tlive (n_base l) _ c Tl (proj1 Pl) V1 Hc) as (a1 & x & X1 & X2 & X3). destruct (tlive (n_base r) _ c Tr (proj1 Pr) V2 Hc) as (b1 & y & Y1 & Y2 & Y3).
    rewrite X1 in N2. rewrite Y1 in N3. cbn [bind] in N2, N3. injection N2 as <- _. injection N3 as <- _.
    assert (Hq : (i < N.to_nat (d_states (n_base s)))%nat). { cbn [strip d_states] in GS. rewrite GS, Nat2N.id. apply nth_error_Some. congruence. }
    destruct (tnext (n_base s) i c GT (proj1 Ps) Hq Hc) as (j' & a & J1 & J2 & J3 & J4).
    change (d_state (strip (n_base s))) with (d_state (n_base s)) in N4. rewrite J3 in N4. cbn [bind] in N4. injection N4 as N4 _.
    exists j, (a1, b1), a, x, y. cbn [fst snd]. splits; auto; [rewrite <- N4; exact J3|].
    destruct (K (proj2 Ps) Sm i st c Hi Hc) as (sh & a' & rs & is & K1 & K2 & K3). rewrite J1 in K1. injection K1 as _ <-.
    destruct (key_ok l r Pl Pr Dl Dr Cnt st c (conj V1 V2) Hc) as (x' & y' & r1 & i1 & r2 & i2 & Q1 & Q2 & Q3 & Q4 & Q5 & Q6 & Q7 & Q8 & Q9).
    rewrite X3 in Q1. injection Q1 as <-. rewrite Y3 in Q2. injection Q2 as <-. rewrite K2 in Q9. injection Q9 as -> ->. exists r1, i1, r2, i2. splits; auto.
  Qed.
  Lemma ng_actions : forall w i st, nth_error states i = Some st -> dlive (n_base l) (fst st) -> dlive (n_base r) (snd st) -> is_word w -> exists acts xs ys,
    actions (n_base s) (d_state (n_base s) (N.of_nat i)) w = Ok acts /\ actions (n_base l) (fst st) w = Ok xs /\ actions (n_base r) (snd st) w = Ok ys /\ Forall3 both_say acts xs ys.
  Proof.
    induction w as [|c w IH]; intros i st Hi V1 V2 Hw; cbn [actions].
    - exists [], [], []. splits; auto. constructor.
    - inversion Hw; subst. destruct (ng_next i st c Hi V1 V2 H1) as (j & st' & a & x & y & A1 & A2 & A3 & A4 & A5 & _ & A6 & A7).
      destruct (IH j st' A1 A2 A3 H2) as (acts & xs & ys & I1 & I2 & I3 & I4). exists (a :: acts), (x :: xs), (y :: ys). rewrite A4, A5, A6. cbn [bind]. rewrite I1, I2, I3. cbn [bind]. splits; auto. constructor; auto.
  Qed.
End Glued.
Lemma in_left : forall n r1 r2 i, Forall (fun x => x < n) r1 -> N.of_nat i < n -> (In (N.of_nat i) (r1 ++ map (fun x => x + n) r2) <-> In (N.of_nat i) r1).
Proof.
  intros n r1 r2 i F H. rewrite in_app_iff. split; auto. intros [|X]; auto. apply in_map_iff in X as (y & E & _). lia.
Qed.
Lemma in_right : forall n r1 r2 i j, Forall (fun x => x < n) r1 -> N.of_nat j = n + N.of_nat i -> (In (N.of_nat j) (r1 ++ map (fun x => x + n) r2) <-> In (N.of_nat i) r2).
Proof.
  intros n r1 r2 i j F ->. rewrite Forall_forall in F. rewrite in_app_iff. split.
  - intros [X|X]; [apply F in X; lia|]. apply in_map_iff in X as (y & E & X). replace (N.of_nat i) with y by lia. exact X.
  - intros X. right. apply in_map_iff. exists (N.of_nat i). split; [lia|auto].
Qed.
(** Lists of ids are determined by the action. *)
Lemma reads_fun : forall s a r1 i1 r2 i2, reads s a r1 i1 -> reads s a r2 i2 -> r1 = r2 /\ i1 = i2.
Proof.
  intros s a r1 i1 r2 i2 H1 H2. unfold reads in *. destruct (n_acts s) as [acts|]; [|destruct H1, H2; subst; auto].
  destruct H1 as [(A1 & A2 & A3)|(A0 & p & q & A1 & A2 & A3)], H2 as [(B1 & B2 & B3)|(B0 & p' & q' & B1 & B2 & B3)]; subst; auto; try lia.
  rewrite A1 in B1. injection B1 as -> ->. rewrite A2 in B2. injection B2 as -> _. auto.
Qed.
Lemma glue_is_ok : forall l r s states Rl Rr, ng_ok l Rl -> ng_ok r Rr -> nplaced l -> nplaced r -> ng_as l r s states -> nsmall s -> ng_ok s (Rl ++ Rr).
Proof.
  intros l r s states Rl Rr NL NR Pl Pr G Sm. destruct NL as [Tl Ml Cl Sl Dl Fl Bl Kl], NR as [Tr Mr Cr Sr Dr Fr Br Kr].
  assert (Cnt : n_count l + n_count r < two32) by lia.
  pose proof G as (GA & GM & GN & GC & GK & GF). pose proof GA as (GT & _ & _ & GS & GL & GI & G0 & GR & GX & GB & _).
  assert (EX : forall a x y, both_say l r s a x y -> exists rs is, reads s a rs is /\ ids_ok (n_count s) rs /\ ids_ok (n_count s) is).
  { intros a x y (r1 & i1 & r2 & i2 & H1 & H2 & H3 & H4 & H5 & H6 & H7). do 2 eexists. split; [exact H7|]. rewrite GC. split; apply ids_app; auto. }
  assert (LV : forall st, In st states -> dlive (n_base l) (fst st) /\ dlive (n_base r) (snd st)).
  { intros st H. apply GR in H. induction H as [|q c i H IH _ Hin]; [split; [apply (tinit _ Tl)|apply (tinit _ Tr)]|].
    destruct (dls_letter _ _ c i Hin) as [Hc _]. destruct (pair_step (strip (n_base l)) (strip (n_base r)) Tl Tr (proj1 Pl) (proj1 Pr) q c IH Hc) as (x & y & _ & _ & V1 & _). exact V1. }
  constructor; auto.
  - rewrite GC, Cl, Cr, app_length. lia.
  - unfold nsmall in Sm. assert (X : 0 < d_states (n_base s) /\ 0 < d_nletters (n_base s)).
    { split; [|apply (nl_pos _ GT)]. cbn [strip d_states] in GS. rewrite GS. assert (Y : (0 < length states)%nat) by (apply nth_error_Some; congruence). lia. }
    nia.
  - intros P x c (q & Hq & ->) Hc. cbn [strip d_states] in GS. rewrite GS, Nat2N.id in Hq. destruct (nth_error states q) as [st|] eqn:E; [|apply nth_error_None in E; lia].
    destruct (LV st (nth_error_In _ _ E)) as [V1 V2].
    destruct (ng_next l r s states Tl Tr Pl Pr Dl Dr Cnt G P Sm q st c E V1 V2 Hc) as (j & st' & a & x & y & _ & _ & _ & _ & _ & A1 & _ & A2).
    destruct (EX a x y A2) as (rs & is & H). exists a, rs, is. auto.
  - intros P. apply GF; auto. apply P.
  - intros i re sep b H. destruct (Nat.lt_ge_cases i (length Rl)); [rewrite nth_error_app1 in H by auto; eapply Bl; eauto|rewrite nth_error_app2 in H by auto; eapply Br; eauto].
  - intros P w Hw. destruct (LV _ (nth_error_In _ _ G0)) as [V1 V2].
    destruct (ng_actions l r s states Tl Tr Pl Pr Dl Dr Cnt G P Sm w 0 _ G0 V1 V2 Hw) as (acts & xs & ys & A1 & A2 & A3 & A4).
    cbn [fst snd strip d_initial N.of_nat] in A1, A2, A3, GI. change (d_state (strip (n_base s))) with (d_state (n_base s)) in GI. rewrite <- GI in A1. exists acts. split; auto. split.
    + intros a Ha. clear - A4 EX Ha. induction A4 as [|a' x y acts xs ys H _ IH]; [destruct Ha|]. destruct Ha as [<-|Ha]; eauto.
    + intros i re sep b H. destruct (Kl Pl w Hw) as (acts' & E1 & _ & KL). rewrite A2 in E1. injection E1 as <-. destruct (Kr Pr w Hw) as (acts' & E2 & _ & KR). rewrite A3 in E2. injection E2 as <-.
      destruct (Nat.lt_ge_cases i (length Rl)) as [Hi|Hi].
      * rewrite nth_error_app1 in H by auto. destruct (KL i re sep b H) as (buf & s1 & zs & Z1 & Z2 & Z3 & Z4). exists buf, s1, zs. splits; auto.
        assert (Hi' : N.of_nat i < n_count l) by lia. clear - A4 Z4 GC Hi'. revert zs Z4. induction A4 as [|a x y acts xs ys H _ IH]; intros zs Z4; inversion Z4 as [|? y0 ? l' ZZ ZT]; subst; constructor; auto.
        destruct H as (r1 & i1 & r2 & i2 & H1 & H2 & H3 & H4 & H5 & H6 & H7). destruct ZZ as (rs & is & Q1 & _ & _ & Q2 & Q3). destruct (reads_fun _ _ _ _ _ _ Q1 H1) as [-> ->].
        do 2 eexists. split; [exact H7|]. rewrite GC. rewrite !in_left by (try apply H3; try apply H4; auto). splits; auto; apply ids_app; auto.
      * rewrite nth_error_app2 in H by auto. destruct (KR _ re sep b H) as (buf & s1 & zs & Z1 & Z2 & Z3 & Z4). exists buf, s1, zs. splits; auto.
        assert (Hi' : N.of_nat i = n_count l + N.of_nat (i - length Rl)) by lia. revert Z4 Hi'. generalize (i - length Rl)%nat. intros k Z4 Hi'. clear - A4 Z4 GC Hi'. revert zs Z4. induction A4 as [|a x y acts xs ys H _ IH]; intros zs Z4; inversion Z4 as [|? y0 ? l' ZZ ZT]; subst; constructor; auto.
        destruct H as (r1 & i1 & r2 & i2 & H1 & H2 & H3 & H4 & H5 & H6 & H7). destruct ZZ as (rs & is & Q1 & _ & _ & Q2 & Q3). destruct (reads_fun _ _ _ _ _ _ Q1 H2) as [-> ->].
        do 2 eexists. split; [exact H7|]. rewrite GC. rewrite !(in_right _ _ _ k i) by (try apply H3; try apply H4; auto). splits; auto; apply ids_app; auto.
Qed.

Lemma obtained_both : forall s Rs, nobtained s Rs -> ng_ok s Rs /\ fits s.
Proof.
  intros s Rs H. induction H as [buf re sep s simple Br Bs E|buf s E|buf s Rs H [IH FH] P|b0 b1 b2 null l r Rl Rr m s Hl [IHl Fl] Hr [IHr Fr] Pl Pr D M E NU Sm
    |this buf pad s Rs x null t rest s' st H [IH FH] P NU MO PL R E E'|m pad s Rs x ptr size s' p H [IH FH] P NU PL E Hm M Z E'].
  - split; [eapply new_ok; eauto|eapply new_fits; eauto].
  - split; [eapply default_ok; eauto|]. destruct (n_default_what buf s E) as (b & -> & L & _). apply loaded_fits. exact L.
  - split; [apply copy_ok; auto|apply copy_fits; auto].
  - destruct (n_default_what _ _ D) as (b & Eb & LB & X). split; [|apply (glue_fits _ _ _ _ _ _ _ E); subst null; apply loaded_fits; exact LB].
    pose proof (ng_small _ _ IHl) as S1. pose proof (ng_small _ _ IHr) as S2.
    destruct (n_glue_cases l r (ng_table _ _ IHl) (ng_table _ _ IHr) Pl Pr (ng_decodes _ _ IHl) (ng_decodes _ _ IHr) ltac:(lia) (dlimit m) b1 b2 null m eq_refl M) as (s' & E' & C).
    rewrite E in E'. apply ok_inj in E'. subst s'. destruct C as [(states & G & _)|[-> _]].
    + eapply glue_is_ok; eauto.
    + exfalso. rewrite Eb in NU. cbn [n_base] in NU. congruence.
  - pose proof (ng_small _ _ IH) as S1. rewrite (n_load_ok s pad x (ng_table _ _ IH) P NU ltac:(lia) FH (ng_full _ _ IH P) PL E) in E' by auto. apply ok_inj in E'. injection E' as <- _.
    split; [|exact FH]. apply (sim_ok s); auto. apply moved_similar; auto. apply IH.
  - pose proof (ng_small _ _ IH) as S1. rewrite (n_mmap_ok s pad x (ng_table _ _ IH) P NU ltac:(lia) FH (ng_full _ _ IH P) PL E m ptr size Hm (n_mmap_aligned _ _ _ _ E') M Z) in E'. apply ok_inj in E'. injection E' as <- _.
    split; [|exact FH]. apply (sim_ok s); auto. apply moved_similar; auto. apply IH.
Qed.
Theorem nobtained_ok : forall s Rs, nobtained s Rs -> ng_ok s Rs.
Proof. intros s Rs H. apply (obtained_both s Rs H). Qed.
Lemma nobtained_fits : forall s Rs, nobtained s Rs -> fits s.
Proof. intros s Rs H. apply (obtained_both s Rs H). Qed.
