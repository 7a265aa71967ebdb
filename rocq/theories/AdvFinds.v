(** AdvancedCountingScanner finds one piece if there is one, unless it is a simplified one. *)
From Coq Require Import List Bool Arith NArith Lia.
From Verif Require Import Util Spec PartitionModel PartitionProofs FsmModel DetermineModel MinimizeModel FsmSem FsmBasics Api Nfa EpsProofs
  RunModel RunSpec ScannerModel ScannerProofs ScannerCompile CountModel CountSpec CountProofs SimpleProofs LoadedProofs LoadedGlue CountBuild AdvModel AdvSpec AdvNfa AdvSound AdvRun AdvMain DeadProofs.
Import ListNotations.
Local Opaque all_letters all_bytes.

Lemma post_nothing : forall f d, g_matched d = [] -> g_separated d = [] -> g_lagging d = [] -> normalize f (full_post d) = d.
Proof.
  intros f [nm nu ns nl] EM ES EL. cbn [g_matched g_unmatched g_separated g_lagging] in *. subst nm ns nl. unfold full_post, update_lagging. cbn [is_nil g_matched g_unmatched g_separated g_lagging negb]. rewrite andb_false_r.
  unfold remove_dup_lagging. cbn [g_matched g_unmatched g_separated g_lagging filter]. unfold remove_dup_separated. cbn [g_matched g_unmatched g_separated g_lagging filter].
  unfold normalize. cbn [is_nil g_matched g_unmatched g_separated g_lagging negb]. rewrite !andb_false_r. reflexivity.
Qed.

Section Finds.
  Variables (A B f : fsm) (dd : list nat).
  Hypothesis OK : nfa_ok A B f.
  Hypothesis Dd : dead_states f = Ok dd.
  Let n := size A.
  Let NI := size A + size B.
  Lemma live_not_dead : forall w q, path (edge f) NI w q -> live f q -> ~ In q dd.
  Proof.
    intros w q P L D. destruct OK as (_ & _ & W & _ & If & _). destruct (dead_states_ok f W) as (d & E & H). rewrite Dd in E. apply ok_inj in E. subst d. apply H in D as [_ [D|D]]; auto.
    apply D. exists w. rewrite If. exact P.
  Qed.
  Lemma edge_noeps : forall p q, ~ edge f p Epsilon q.
  Proof. intros p q H. destruct OK as (_ & _ & _ & _ & _ & _ & He & _). apply He in H as [H _]. congruence. Qed.
  Lemma path_last : forall w p x q, path (edge f) p (w ++ [x]) q -> exists r, path (edge f) p w r /\ edge f r x q.
  Proof.
    induction w as [|c w IH]; intros p x q P; cbn [app] in P; apply path_inv in P as [[X _]|[(r & X & _)|(c' & r & w' & E & Hc & X & P)]]; try discriminate X; try (destruct (edge_noeps _ _ X)).
    - injection E as <- <-. apply path_inv in P as [[_ ->]|[(r' & X' & _)|(c' & r' & w' & E & _)]]; [|destruct (edge_noeps _ _ X')|discriminate E]. exists p. split; [apply path_nil|exact X].
    - injection E as <- <-. apply IH in P as (r' & P & H). exists r'. split; auto. eapply path_step; eauto.
  Qed.
  Lemma live_back : forall p x q, edge f p x q -> live f q -> live f p.
  Proof. intros p x q H (w & r & P & F). exists (x :: w), r. split; auto. eapply path_step; eauto. intros ->. eapply edge_noeps; eauto. Qed.
  Lemma loop_edge : forall x, letter x -> edge f NI x NI.
  Proof. intros x [H1 H2]. destruct OK as (_ & _ & _ & _ & _ & _ & He & _). apply He. split; [exact H2|]. right. split; [reflexivity|]. left. split; [reflexivity|exact H1]. Qed.

  (** Nothing has been found: all threads are followed *)
  Definition virgin (w : list N) (st : dstate) : Prop :=
    g_matched st = [] /\ g_separated st = [] /\ g_lagging st = [] /\
    (forall x, In x (g_unmatched st) -> snd x = NotMatched /\ (fst x = NI \/ (fst x < n /\ ~ In (fst x) (finals A)))) /\
    forall q, path (edge f) NI w q -> live f q -> In (q, NotMatched) (g_unmatched st).
  Lemma virgin_start : virgin [] (d_init f false).
  Proof.
    destruct OK as (_ & _ & _ & _ & If & _). split; [reflexivity|]. split; [reflexivity|]. split; [reflexivity|]. cbn [d_init g_unmatched]. split.
    - intros x [<-|[]]. cbn [fst snd]. split; auto.
    - intros q P _. apply path_inv in P as [[_ ->]|[(r & X & _)|(c & r & w' & E & _)]]; [left; rewrite If; reflexivity|destruct (edge_noeps _ _ X)|discriminate E].
  Qed.
  Lemma tag_fin : forall q, fsm_tag f q = Matched <-> In q (finals A) \/ (q = NI /\ In (initial A) (finals A)).
  Proof.
    destruct OK as (WA & _ & _ & _ & _ & _ & _ & _ & Ht & _). intros q. rewrite Ht. fold NI. destruct (smem q (finals A)) eqn:E; [apply smem_in in E; tauto|]. apply smem_false in E.
    destruct (Nat.eqb_spec q NI) as [->|Hq]; cbn [andb].
    - destruct (smem (initial A) (finals A)) eqn:E1; [apply smem_in in E1; tauto|]. apply smem_false in E1. split; [|tauto]. match goal with |- (if ?b then _ else _) = _ -> _ => destruct b; discriminate end.
    - split; [|tauto]. match goal with |- (if ?b then _ else _) = _ -> _ => destruct b; discriminate end.
  Qed.
  Lemma tag_low : forall q, q < n \/ q = NI -> fsm_tag f q = Matched \/ fsm_tag f q = 0%N.
  Proof.
    destruct OK as (_ & _ & _ & _ & _ & _ & _ & _ & Ht & _). intros q Hq. rewrite Ht. destruct (smem q (finals A)); auto. destruct (Nat.eqb q (size A + size B) && smem (initial A) (finals A)); auto.
    right. destruct (Nat.leb_spec (size A) q); cbn [andb]; auto. destruct (Nat.ltb_spec q (size A + size B)); auto. fold n in H. fold NI in H0. lia.
  Qed.

  Lemma virgin_step : forall w x c st, is_word w -> letter x -> (forall p q, In q (destinations f p c) <-> edge f p x q) -> live f NI -> invalid_range (class_of f c) = false -> virgin w st ->
    let '(st', a) := d_step f (initial A) dd false st c in N.land a IncrementAction <> 0%N \/ (a = 0%N /\ virgin (w ++ [x]) st').
  Proof.
    intros w x c st Hw Hx D LN IV (V1 & V2 & V3 & V4 & V5). pose proof OK as (WA & WB & W & _ & If & _ & He & Hf & Ht & _ & _).
    unfold d_step. rewrite IV. cbv zeta. set (nx := full_prepare f (initial A) dd st c).
    destruct (is_nil (g_matched nx)) eqn:EM; [|left; unfold transition_tag; rewrite EM; cbn [negb]; discriminate]. right. apply is_nil_true in EM.
    set (items := split_destinations f (initial A) dd (g_unmatched st) c).
    assert (PN : forall v, is_word v -> path (edge f) NI v NI).
    { intros v Hv. induction Hv as [|y v Hy Hv IH]; [apply path_nil|]. eapply path_step; [apply Hy|apply loop_edge; auto|exact IH]. }
    (* no item has been matched, so all are unmatched *)
    assert (NM : forall i, ~ In (KM, i) items).
    { intros i Hi. assert (X : In i (g_matched nx)) by (unfold nx, full_prepare; cbn [g_matched]; apply into_in; right; exact Hi). rewrite EM in X. destruct X. }
    assert (MK : forall p q, In (p, NotMatched) (g_unmatched st) -> edge f p x q -> ~ In q dd -> In (tagged f NotMatched q) items).
    { intros p q Hp He' Hd. unfold items, split_destinations. apply in_flat_map. exists (p, NotMatched). split; auto. apply in_or_app. left. unfold make_tagged. apply in_map. apply filter_In. split; [apply D; auto|].
      cbn [fst snd]. apply negb_true_iff. apply smem_false. exact Hd. }
    assert (NI0 : In (NI, NotMatched) (g_unmatched st) -> ~ In (initial A) (finals A)).
    { intros HN HI. apply (NM (NI, Matched)). assert (X : tagged f NotMatched NI = (KM, (NI, Matched))) by (unfold tagged; rewrite (proj2 (tag_fin NI)); [reflexivity|right; auto]).
      refine (eq_ind _ (fun z => In z items) (MK NI NI HN _ _) _ X); [apply loop_edge; exact Hx|]. apply (live_not_dead []); [apply path_nil|exact LN]. }
    assert (AE : forall p q, p < n -> ~ In p (finals A) -> cat_e A B p x q -> q < n).
    { intros p q Hp Hn [H|[(p' & q' & -> & _)|[H _]]]; [|fold n in Hp; lia|contradiction]. apply (edge_bound A p x q WA) in H. apply H. }
    assert (LOW : forall p q, In (p, NotMatched) (g_unmatched st) -> edge f p x q -> q < n \/ q = NI).
    { intros p q Hp H. apply He in H as [_ H]. fold NI in H. destruct (V4 _ Hp) as [_ [E|[E1 E2]]]; cbn [fst] in *.
      - subst p. destruct H as [H|[_ [[-> _]|H]]]; auto.
        + exfalso. destruct H as [H|[(p' & q' & H1 & _ & H)|[H _]]]; [apply (edge_bound A _ _ _ WA) in H; unfold NI in H; lia|apply (edge_bound B _ _ _ WB) in H; unfold NI in H1; lia|apply (wf_fin _ WA) in H; unfold NI in H; lia].
        + left. apply (AE (initial A) q); auto. apply (wf_init _ WA).
      - destruct H as [H|[-> _]]; [left; eapply AE; eauto|]. unfold NI, n in E1. lia. }
    assert (NF : forall p, In (p, NotMatched) (g_unmatched st) -> is_final f p = false).
    { intros p Hp. destruct (is_final f p) eqn:E; auto. exfalso. unfold is_final in E. apply smem_in in E. apply Hf in E. fold NI in E. destruct (V4 _ Hp) as [_ [Ep|[E1 E2]]]; cbn [fst] in *.
      - subst p. destruct E as [(b & E & Hb)|[_ [E|[_ E]]]].
        + apply (wf_fin _ WB) in Hb. unfold NI in E. lia.
        + apply (wf_fin _ WA) in E. unfold NI in E. lia.
        + exact (NI0 Hp E).
      - destruct E as [(b & E & Hb)|[_ [E|[E _]]]]; [fold n in E; lia|contradiction|unfold NI in E; fold n in E; lia]. }
    assert (AL : forall i, In i items -> exists p q, In (p, NotMatched) (g_unmatched st) /\ edge f p x q /\ i = (KU, (q, NotMatched)) /\ (q = NI \/ (q < n /\ ~ In q (finals A)))).
    { intros i Hi. pose proof Hi as Hi0. unfold items, split_destinations in Hi. apply in_flat_map in Hi as ([p t] & Hp & Hi). destruct (V4 _ Hp) as [Et _]. cbn [fst snd] in *. subst t. rewrite (NF p Hp), app_nil_r in Hi.
      unfold make_tagged in Hi. apply in_map_iff in Hi as (q & <- & Hq). apply filter_In in Hq as [Hq _]. apply D in Hq. exists p, q. split; auto. split; auto. pose proof (LOW p q Hp Hq) as LQ.
      destruct (tag_low q LQ) as [T|T].
      - exfalso. apply (NM (q, Matched)). assert (X : tagged f NotMatched q = (KM, (q, Matched))) by (unfold tagged; rewrite T; reflexivity). exact (eq_ind _ (fun z => In z items) Hi0 _ X).
      - split; [unfold tagged; rewrite T; reflexivity|]. destruct LQ as [LQ|LQ]; auto. right. split; auto. intros HF. assert (X : fsm_tag f q = Matched) by (apply tag_fin; auto). rewrite T in X. discriminate X. }
    assert (ES : g_separated nx = []).
    { unfold nx, full_prepare. cbn [g_separated]. rewrite V2. unfold split_destinations at 1. cbn [flat_map]. unfold into_all at 1. cbn [fold_left]. destruct (into KS items []) as [|y l] eqn:E; [exact E|].
      assert (X : In y (into KS items [])) by (rewrite E; left; auto). apply into_in in X as [[]|X]. apply AL in X as (p & q & _ & _ & X & _). discriminate X. }
    assert (EL : g_lagging nx = []) by (unfold nx, full_prepare; cbn [g_lagging]; rewrite V3; reflexivity).
    assert (EU : forall y, In y (g_unmatched nx) <-> In (KU, y) items) by (intros y; unfold nx, full_prepare; cbn [g_unmatched]; rewrite into_in; cbn [In]; fold items; tauto).
    assert (ALL : forall q, path (edge f) NI (w ++ [x]) q -> live f q -> In (q, NotMatched) (g_unmatched nx)).
    { intros q P L. pose proof (live_not_dead _ _ P L) as ND. apply path_last in P as (r & P & H). pose proof (V5 r P (live_back _ _ _ H L)) as Hr.
      pose proof (MK r q Hr H ND) as X. pose proof (AL _ X) as (p & q' & _ & _ & E & _). assert (q' = q) as -> by (unfold tagged in E; destruct (negb (NotMatched =? Matched)%N && (fsm_tag f q =? Matched)%N), ((NotMatched =? Separated)%N || (fsm_tag f q =? Separated)%N); congruence).
      apply EU. exact (eq_ind _ (fun z => In z items) X _ E). }
    assert (NE : g_unmatched nx <> []).
    { intros E. assert (X : In (NI, NotMatched) (g_unmatched nx)) by (apply ALL; [apply PN; apply Forall_app; auto|exact LN]). rewrite E in X. destruct X. }
    assert (TT : transition_tag nx = 0%N) by (unfold transition_tag; rewrite EM; cbn [is_nil negb]; destruct (is_nil (g_unmatched nx)) eqn:Z; [apply is_nil_true in Z; contradiction|reflexivity]).
    split; [exact TT|].
    pose proof (post_nothing f nx EM ES EL) as PO.
    rewrite PO. split; [exact EM|]. split; [exact ES|]. split; [exact EL|]. split; [|exact ALL].
    intros y Hy. apply EU, AL in Hy as (p & q & _ & _ & E & LQ). injection E as ->. cbn [fst snd]. split; auto.
  Qed.

  Lemma lift_A : forall u p q, path (edge A) p u q -> path (edge f) p u q.
  Proof.
    destruct OK as (_ & _ & _ & _ & _ & _ & He & _ & _ & NA & _). intros u p q P. induction P as [p|p x w q H P IH|p c x w q Hc H P IH]; [apply path_nil|destruct (NA _ _ H)|].
    eapply path_step; [exact Hc| |exact IH]. apply He. split; [exact Hc|]. left. left. exact H.
  Qed.
  Lemma lift_B : forall u p q, path (edge B) p u q -> path (edge f) (p + n) u (q + n).
  Proof.
    destruct OK as (_ & _ & _ & _ & _ & _ & He & _ & _ & _ & NB). intros u p q P. induction P as [p|p x w q H P IH|p c x w q Hc H P IH]; [apply path_nil|destruct (NB _ _ H)|].
    eapply path_step; [exact Hc| |exact IH]. apply He. split; [exact Hc|]. left. right. left. exists p, x. auto.
  Qed.
  Lemma live_final : forall q s, In q (finals A) -> accepts B s -> live f q.
  Proof.
    pose proof OK as (_ & _ & _ & _ & _ & _ & He & Hf & _ & _ & NB). intros q s Hq (b & P & Hb). apply path_inv in P as [[-> ->]|[(r & X & _)|(c & r & s' & -> & Hc & X & P)]]; [|destruct (NB _ _ X)|].
    - exists [], q. split; [apply path_nil|]. apply Hf. right. auto.
    - exists (c :: s'), (b + n). split; [|apply Hf; left; exists b; auto]. eapply path_step; [exact Hc| |apply lift_B; exact P]. apply He. split; [exact Hc|]. left. right. right. split; auto. exists r. auto.
  Qed.
  Lemma path_found : forall x u, is_word x -> u <> [] -> accepts A u -> exists q, In q (finals A) /\ path (edge f) NI (x ++ u) q.
  Proof.
    pose proof OK as (_ & _ & _ & _ & _ & _ & He & _ & _ & NA & _). intros x u Hx Hu (q & P & Hq). exists q. split; auto. apply path_app with (q := NI).
    - induction Hx as [|y v Hy Hv IH]; [apply path_nil|]. eapply path_step; [apply Hy|apply loop_edge; auto|exact IH].
    - apply path_inv in P as [[-> _]|[(r & X & _)|(c & r & s' & -> & Hc & X & P)]]; [congruence|destruct (NA _ _ X)|]. eapply path_step; [exact Hc| |apply lift_A; exact P].
      apply He. split; [exact Hc|]. right. split; [reflexivity|]. right. left. exact X.
  Qed.
  Lemma live_start : forall x u s, is_word x -> u <> [] -> accepts A u -> accepts B s -> live f NI.
  Proof.
    intros x u s Hx Hu H1 H2. destruct (path_found x u Hx Hu H1) as (q & Hq & P). destruct (live_final q s Hq H2) as (v & r & P' & Hr). exists ((x ++ u) ++ v), r. split; auto. eapply path_app; eauto.
  Qed.
  Lemma virgin_none : forall w st q, virgin w st -> In q (finals A) -> live f q -> ~ path (edge f) NI w q.
  Proof.
    intros w st q (_ & _ & _ & V4 & V5) Hq L P. destruct (V4 _ (V5 q P L)) as [_ [E|[_ E]]]; cbn [fst] in E; [|contradiction]. destruct OK as (WA & _). apply (wf_fin _ WA) in Hq. unfold NI in E. lia.
  Qed.

  Variables (s : loaded) (Rl : N -> dstate -> Prop).
  Hypothesis F : follows f (initial A) dd advanced_remap false s Rl.
  Lemma run_finds : live f NI -> forall w, Forall any_letter w -> forall v q st acts, is_word v -> virgin v st -> Rl q st -> actions s q w = Ok acts ->
    exists raw, acts = map advanced_remap raw /\ ((exists a, In a raw /\ N.land a IncrementAction <> 0%N) \/
      forall w1 w2 r, w = w1 ++ w2 -> In r (finals A) -> live f r -> ~ path (edge f) NI (v ++ w1) r).
  Proof.
    intros LN. destruct F as [_ Fs]. pose proof OK as (_ & _ & W & Ain & _). induction w as [|x w IH]; intros Hw v q st acts Hv V Rq E; cbn [actions] in E.
    - apply ok_inj in E. subst acts. exists []. split; auto. right. intros w1 w2 r X Hr L. symmetry in X. apply app_eq_nil in X as [-> _]. rewrite app_nil_r. eapply virgin_none; eauto.
    - inversion Hw as [|x' w' Hx Hw']. subst x' w'. pose proof (any_is_letter x Hx) as Lx. destruct (Ain x (proj1 Lx) (proj2 Lx)) as [c R].
      destruct (Fs q st x c Lx R Rq) as (q' & N1 & R1). rewrite N1 in E. cbn [bind] in E. apply bind_ok in E as (xs & E1 & E). apply ok_inj in E. subst acts.
      pose proof (virgin_step v x c st Hv Lx (fun p r => class_dest f x c p r W R) LN (valid_class f x c W Hx R) V) as S.
      assert (Hraw : forall w q acts, Forall any_letter w -> (exists st, Rl q st) -> actions s q w = Ok acts -> exists raw, acts = map advanced_remap raw).
      { clear - Fs Ain. induction w as [|y w IH]; intros q acts Hw [st Rq] E; cbn [actions] in E; [apply ok_inj in E; subst; exists []; auto|].
        inversion Hw as [|x' w' Hx Hw']. subst x' w'. pose proof (any_is_letter y Hx) as Lx. destruct (Ain y (proj1 Lx) (proj2 Lx)) as [c R].
        destruct (Fs q st y c Lx R Rq) as (q' & N1 & R1). rewrite N1 in E. cbn [bind] in E. apply bind_ok in E as (xs & E1 & E). apply ok_inj in E. subst acts.
        destruct (IH q' xs Hw' ltac:(eauto) E1) as [raw ->]. eexists (_ :: raw). reflexivity. }
      destruct (d_step f (initial A) dd false st c) as [st' a]. cbn [fst snd] in *. destruct S as [S|[-> S]].
      + destruct (Hraw w q' xs Hw' ltac:(eauto) E1) as [raw ->]. exists (a :: raw). split; auto. left. exists a. split; [left; auto|exact S].
      + destruct (IH Hw' (v ++ [x]) q' st' xs) as (raw & -> & H); auto; [apply Forall_app; auto|]. exists (0%N :: raw). split; auto. destruct H as [(a & H1 & H2)|H].
        * left. exists a. split; [right; auto|exact H2].
        * right. intros w1 w2 r X Hr L. destruct w1 as [|y w1]; cbn [app] in X; [rewrite app_nil_r; eapply virgin_none; eauto|]. injection X as <- X. specialize (H w1 w2 r X Hr L). rewrite <- app_assoc in H. exact H.
  Qed.
End Finds.

Lemma advanced_finds : forall buf re sep s w n u, built re -> built sep -> advanced_scanner buf re sep = Ok (s, false) -> dplaced s -> (d_nletters s <= 256)%N ->
  Forall any_letter w -> (N.of_nat (length w) < two32)%N -> counts true s w 0 (N.of_nat n) ->
  accepts sep u -> (exists x r y, w = x ++ r ++ y /\ r <> [] /\ accepts re r) -> 1 <= n.
Proof.
  intros buf re sep s w n u Br Bs E P Few Hw Lw (st & Hs & Hn) Hu (x & r & y & Ew & Nr & Hr). destruct (make_ok _ _ _ _ _ _ Br Bs E) as (_ & _ & _ & _ & M).
  destruct (M P Few) as (A & B & f & dd & Rl & OK & LA & LB & Dd & F). destruct (count_longest true s w st 0 ltac:(lia) Lw Hs) as (acts & m & H1 & [_ H2] & H3).
  rewrite Hn in H3. apply ok_inj in H3. apply Nat2N.inj in H3. subst m.
  assert (Hx : is_word x). { rewrite Ew in Hw. apply Forall_app in Hw as [Hw _]. eapply Forall_impl; [|exact Hw]. intros a. apply any_is_letter. }
  apply LA in Hr. apply LB in Hu.
  destruct (run_finds A B f dd OK Dd s Rl F (live_start A B f OK x r u Hx Nr Hr Hu) w Hw [] (d_initial s) (d_init f false) acts) as (raw & -> & [(a & Ha & I)|H]); auto.
  - constructor.
  - apply virgin_start; auto.
  - apply F.
  - apply in_split in Ha as (a1 & a2 & ->). apply H2. rewrite map_app, flat_map_app. cbn [map flat_map].
    assert (X : exists p, events_of true 0 (advanced_remap a) = p ++ [Inc]). { rewrite adv_events. destruct (N.eqb_spec (N.land a IncrementAction) 0) as [Z|Z]; [contradiction|]. eauto. }
    destruct X as [p X]. rewrite X. exists (flat_map (events_of true 0) (map advanced_remap a1) ++ p), [Inc], (flat_map (events_of true 0) (map advanced_remap a2)).
    split; [rewrite <- !app_assoc; reflexivity|]. split; [intros [Z|[]]; discriminate Z|reflexivity].
  - exfalso. destruct (path_found A B f OK x r Hx Nr Hr) as (q & Hq & Pq). apply (H (x ++ r) y q) in Pq; auto; [rewrite <- app_assoc; exact Ew|]. eapply live_final; eauto.
Qed.
