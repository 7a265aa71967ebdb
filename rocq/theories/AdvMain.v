(** AdvancedCountingScanner as made by its constructor. *)
From Coq Require Import List Bool Arith NArith Lia.
From Verif Require Import Util Spec PartitionModel PartitionProofs FsmModel DetermineModel MinimizeModel FsmSem FsmBasics Api ApiProofs BuildFacts CompProofs TagFacts DeadProofs DetGeneric DetProofs MinGeneric EpsProofs
  RunModel RunSpec ScannerModel ScannerProofs ScannerCompile GlueModel GlueTable GlueProofs CountModel CountSpec RunProofs CountProofs SimpleProofs LoadedProofs LoadedGlue CountBuild CountAuto AdvModel AdvSpec AdvNfa AdvSound AdvRun.
Import ListNotations.
Local Opaque all_letters all_bytes.

(** The automaton *)
Definition nfa_ok (A B f : fsm) : Prop :=
  wf A /\ wf B /\ wf f /\ all_in_part f /\ initial f = size A + size B /\ sparsed f = true /\
  (forall p c q, edge f p c q <-> c <> Epsilon /\ (cat_e A B p c q \/ (p = size A + size B /\ ((q = size A + size B /\ (c < MaxChar)%N) \/ cat_e A B (initial A) c q)))) /\
  (forall q, In q (finals f) <-> (exists b, q = b + size A /\ In b (finals B)) \/ (In (initial B) (finals B) /\ (In q (finals A) \/ (q = size A + size B /\ In (initial A) (finals A))))) /\
  (forall q, fsm_tag f q = if smem q (finals A) then Matched else if Nat.eqb q (size A + size B) && smem (initial A) (finals A) then Matched else if (size A <=? q) && (q <? size A + size B) then Separated else 0%N) /\
  (forall p q, ~ edge A p Epsilon q) /\ (forall p q, ~ edge B p Epsilon q).
Lemma counting_nfa_ok : forall re sep f r0, built re -> built sep -> counting_nfa re sep = Ok (f, r0) ->
  exists A B, nfa_ok A B f /\ r0 = initial A /\ lang_eq (accepts A) (accepts re) /\ lang_eq (accepts B) (accepts sep).
Proof.
  intros re sep f r0 Br Bs E. unfold counting_nfa in E. apply bind_ok in E as (A & EA & E). apply bind_ok in E as (B & EB & E). cbv zeta in E. apply ok_inj in E. pose proof (f_equal fst E) as E0. pose proof (f_equal snd E) as E9. unfold fst in E0. unfold snd in E9. subst f r0. clear E.
  destruct (canonize_ok re 0%N (built_good _ Br)) as [(g & X & WA & DA & _ & LA & _)|(X & _)]; [|congruence]. rewrite EA in X. apply ok_inj in X. subst g.
  destruct (canonize_ok sep 0%N (built_good _ Bs)) as [(g & X & WB & DB & _ & LB & _)|(X & _)]; [|congruence]. rewrite EB in X. apply ok_inj in X. subst g.
  destruct (bare_canonize _ _ _ (built_bare _ Br) EA) as [TA _]. destruct (bare_canonize _ _ _ (built_bare _ Bs) EB) as [TB _].
  exists A, B. split; [|split; [apply (f1_facts A B WA WB)|split; auto]].
  destruct (nfa_facts A B WA WB TA TB (proj2 (det_ok_deterministic _ WA DA)) (proj2 (det_ok_deterministic _ WB DB))) as (H1 & H2 & _ & H4 & H5 & _ & H7 & H8 & H9).
  unfold nfa_ok. split; [exact WA|]. split; [exact WB|]. split; [exact H1|]. split; [exact H2|]. split; [exact H4|]. split; [exact H5|]. split; [exact H7|]. split; [exact H8|]. split; [exact H9|]. split; [exact (proj2 (det_ok_deterministic _ WA DA))|exact (proj2 (det_ok_deterministic _ WB DB))].
Qed.
Lemma counting_nfa_total : forall re sep, built re -> built sep -> (exists r, counting_nfa re sep = Ok r) \/ counting_nfa re sep = Throw ETooComplicated.
Proof.
  intros re sep Br Bs. unfold counting_nfa.
  destruct (canonize_ok re 0%N (built_good _ Br)) as [(A & EA & _)|(EA & _)]; rewrite EA; cbn [bind]; [|right; reflexivity].
  destruct (canonize_ok sep 0%N (built_good _ Bs)) as [(B & EB & _)|(EB & _)]; rewrite EB; cbn [bind]; [|right; reflexivity]. left. eauto.
Qed.
Lemma determine_stands : forall f r0 dead t b, wf f -> counting_determine f r0 dead = Ok (t, b) ->
  shaped (part_size (letters f)) t /\ exists lab, stands (letters f) (d_step f r0 dead b) (d_init f b) t lab.
Proof.
  intros f r0 dead t b W E. unfold counting_determine in E. apply bind_ok in E as (r & E1 & E). destruct r as [t'|].
  - apply ok_inj in E. injection E as -> <-. apply cf_determine_ok in E1 as (H1 & _ & H2); auto.
  - apply bind_ok in E as (r2 & E2 & E). destruct r2 as [t'|]; [|discriminate E]. apply ok_inj in E. injection E as -> <-. apply cf_determine_ok in E2 as (H1 & _ & H2); auto.
Qed.

(** The scanner follows the determined states *)
Definition follows (f : fsm) (r0 : nat) (dead : list nat) (remap : N -> N) (b : bool) (s : loaded) (Rl : N -> dstate -> Prop) : Prop :=
  Rl (d_initial s) (d_init f b) /\ forall q st x c, letter x -> part_rep (letters f) x = Some c -> Rl q st ->
    exists q', d_next s q x = Ok (q', remap (snd (d_step f r0 dead b st c))) /\ Rl q' (fst (d_step f r0 dead b st c)).
Lemma make_ok : forall remap buf re sep s b, built re -> built sep -> make_advanced remap buf re sep = Ok (s, b) ->
  loaded_ok (erase s) /\ d_regexps s = 1%N /\ d_null s = false /\ ((forall a, acts_ok 1 (remap a)) -> loaded_ok s) /\
  (dplaced s -> (d_nletters s <= 256)%N -> exists A B f dead Rl, nfa_ok A B f /\ lang_eq (accepts A) (accepts re) /\ lang_eq (accepts B) (accepts sep) /\
     dead_states f = Ok dead /\ follows f (initial A) dead remap b s Rl).
Proof.
  intros remap buf re sep s b Br Bs E. unfold make_advanced in E. apply bind_ok in E as ([f r0] & E1 & E). apply bind_ok in E as (dead & E2 & E). apply bind_ok in E as ([t b'] & E3 & E).
  apply bind_ok in E as (t1 & E4 & E). apply bind_ok in E as (s0 & E5 & E). apply bind_ok in E as (s1 & E6 & E). apply ok_inj in E. injection E as -> ->.
  destruct (counting_nfa_ok re sep f r0 Br Bs E1) as (A & B & OK & -> & LA & LB). pose proof OK as (_ & _ & W & Ain & _).
  destruct (determine_stands f (initial A) dead t b W E3) as (SH & lab & ST). pose proof (wf_letters _ W) as Wp.
  destruct (cf_minimize_ok _ _ _ t lab Wp SH ST) as (t1' & X & P1 & h & H1 & H2 & H3 & H4). rewrite E4 in X. apply ok_inj in X. subst t1'. destruct ST as (I0 & IL & ST).
  assert (AL : forall c, letter c -> exists r, part_rep (letters f) c = Some r) by (intros c [Hc Hn]; apply Ain; auto).
  destruct (adv_table remap buf (letters f) t1 s0 s Wp AL) as (T1 & T2 & T3 & T4 & T5 & T6 & T7 & T8); auto.
  - rewrite <- H1. apply H2. exact I0.
  - intros i c l Hi Hl. destruct (H3 i Hi) as (q & Hq & <-). destruct (H4 q c l Hq Hl) as [-> _]. apply H2. apply (ST q c l Hq Hl).
  - split; [exact T1|]. split; [exact T4|]. split; [exact T5|]. split; [intros H; apply T7; auto|]. intros P Few.
    exists A, B, f, dead, (fun q st => exists i, i < cf_size t /\ q = d_state s (N.of_nat (h i)) /\ lab i = st). split; [exact OK|]. split; [exact LA|]. split; [exact LB|]. split; [exact E2|]. split.
    + exists (cf_init t). split; [exact I0|]. split; [rewrite H1; exact T6|exact IL].
    + intros q st x c Hx R (i & Hi & -> & <-). pose proof (part_rep_rep _ _ _ Wp R) as R'. pose proof (proj2 (part_list_rep _ c Wp) R') as [l Hl].
      assert (PS : part_size (letters f) <= 256) by lia.
      pose proof (wf_cls _ x c l Wp R Hl) as CL. destruct (ST i c l Hi Hl) as (S1 & S2 & S3). destruct (H4 i c l Hi Hl) as [N1 N2].
      exists (d_state s (N.of_nat (h (cf_next t i l)))). split.
      * rewrite (T8 PS P (h i) x (H2 i Hi) Hx), CL, N1, N2, S3. reflexivity.
      * exists (cf_next t i l). auto.
Qed.

(** Valid classes *)
Lemma any_is_letter : forall x, any_letter x -> letter x.
Proof. intros x [H|[->| ->]]; split; try (unfold MaxChar; lia); try reflexivity; try discriminate. unfold Epsilon. lia. Qed.
Lemma valid_class : forall f x c, wf f -> any_letter x -> part_rep (letters f) x = Some c -> invalid_range (class_of f c) = false.
Proof.
  intros f x c W Hx R. unfold part_rep in R. apply (wp_inv _ (wf_letters _ W)) in R as (i & ms & R & Hi). unfold class_of. rewrite R. unfold invalid_range.
  destruct (forallb (fun c0 => negb ((c0 <? 260) && negb (c0 =? 256))%N) ms) eqn:E; auto. rewrite forallb_forall in E. specialize (E x Hi). exfalso.
  destruct Hx as [Hx|[->| ->]]; [|discriminate E|discriminate E]. rewrite (proj2 (N.ltb_lt x 260)) in E by lia. rewrite (proj2 (N.eqb_neq x 256)) in E by lia. discriminate E.
Qed.
Lemma class_dest : forall f x c p q, wf f -> part_rep (letters f) x = Some c -> In q (destinations f p c) <-> edge f p x q.
Proof.
  intros f x c p q W R. pose proof (part_rep_rep _ _ _ (wf_letters _ W) R) as R'. rewrite (dest_rep f p c q R'). unfold edge, erep. rewrite R. reflexivity.
Qed.

(** Events and what they count *)
Definition ev1 (k : nat) (e : event) : nat := match e with Inc => S k | Rst => 0 end.
Lemma adv_events : forall a, events_of true 0 (advanced_remap a) = (if (N.land a ResetAction =? 0)%N then [] else [Rst]) ++ (if (N.land a IncrementAction =? 0)%N then [] else [Inc]).
Proof. intros a. unfold events_of, advanced_remap. destruct (N.land a ResetAction =? 0)%N, (N.land a IncrementAction =? 0)%N; vm_compute; reflexivity. Qed.
Lemma adv_act : forall a k, fold_left ev1 (events_of true 0 (advanced_remap a)) k = act a k.
Proof. intros a k. rewrite adv_events. unfold act. destruct (N.land a ResetAction =? 0)%N, (N.land a IncrementAction =? 0)%N; cbn; lia. Qed.
Lemma ev1_incs : forall y k, ~ In Rst y -> fold_left ev1 y k = k + incs y.
Proof.
  induction y as [|e y IH]; intros k H; cbn [fold_left].
  - unfold incs. cbn. lia.
  - rewrite IH by (intros X; apply H; right; auto). destruct e; [|exfalso; apply H; left; auto]. cbn. lia.
Qed.
Lemma cut_events : forall acts pre post k, flat_map (fun a => events_of true 0 (advanced_remap a)) acts = pre ++ post ->
  exists a1 a2, acts = a1 ++ a2 /\ fold_left ev1 pre k <= fold_left (fun k a => act a k) a1 k.
Proof.
  induction acts as [|a acts IH]; intros pre post k E; cbn [flat_map] in E.
  - symmetry in E. apply app_eq_nil in E as [-> _]. exists [], []. split; auto.
  - apply app_eq_app in E as (l & [[E1 E2]|[E1 E2]]).
    + destruct pre as [|e pre]; [exists [], (a :: acts); split; auto|]. exists [a], acts. split; auto. cbn [fold_left]. rewrite <- adv_act, E1, adv_events in *. clear IH E2. rewrite fold_left_app.
      assert (X : In e (events_of true 0 (advanced_remap a))) by (rewrite adv_events, E1; left; auto). clear X.
      destruct (N.land a ResetAction =? 0)%N, (N.land a IncrementAction =? 0)%N; cbn [app] in E1; try discriminate E1;
        injection E1 as <- E1; destruct pre as [|e' pre]; cbn [app] in E1; try discriminate E1; try (subst l; cbn; lia); injection E1 as <- E1; destruct pre; try discriminate E1; cbn [app] in E1; subst l; cbn; lia.
    + subst pre. destruct (IH l post (act a k) E2) as (a1 & a2 & -> & H). exists (a :: a1), a2. split; auto. cbn [fold_left]. rewrite fold_left_app, adv_act. exact H.
Qed.

(** Repeats *)
Lemma alternates_less : forall re sep n u, alternates re sep n u -> forall m, 1 <= m -> m <= n -> exists u1 u2, u = u1 ++ u2 /\ alternates re sep m u1.
Proof.
  intros re sep n u H. induction H as [r Hr|n u s r H IH Hs Hr]; intros m M1 M2.
  - assert (m = 1) as -> by lia. exists r, []. split; [rewrite app_nil_r; auto|constructor; auto].
  - destruct (Nat.eq_dec m (S n)) as [->|Hm].
    + exists (u ++ s ++ r), []. split; [rewrite app_nil_r; auto|constructor; auto].
    + destruct (IH m M1 ltac:(lia)) as (u1 & u2 & -> & H'). exists u1, (u2 ++ s ++ r). split; auto. rewrite <- !app_assoc. reflexivity.
Qed.
Lemma repeats_less : forall re sep w n m, repeats re sep w n -> m <= n -> repeats re sep w m.
Proof.
  intros re sep w n m [->|(x & u & y & -> & H)] L; [left; lia|]. destruct m as [|m]; [left; auto|]. right. destruct (alternates_less _ _ _ _ H (S m) ltac:(lia) L) as (u1 & u2 & -> & H').
  exists x, u1, (u2 ++ y). split; auto. rewrite <- app_assoc. reflexivity.
Qed.
Lemma repeats_app : forall re sep w v n, repeats re sep w n -> repeats re sep (w ++ v) n.
Proof. intros re sep w v n [->|(x & u & y & -> & H)]; [left; auto|right]. exists x, u, (y ++ v). split; auto. rewrite <- !app_assoc. reflexivity. Qed.
Lemma alternates_eq : forall re re' sep sep' n u, lang_eq re re' -> lang_eq sep sep' -> alternates re sep n u -> alternates re' sep' n u.
Proof. intros re re' sep sep' n u Hr Hs H. induction H as [r H|n u s r H IH H1 H2]; [apply alt_one, Hr; auto|apply alt_more; auto; [apply Hs|apply Hr]; auto]. Qed.
Lemma repeats_eq : forall re re' sep sep' w n, lang_eq re re' -> lang_eq sep sep' -> repeats re sep w n -> repeats re' sep' w n.
Proof. intros re re' sep sep' w n Hr Hs [->|(x & u & y & -> & H)]; [left; auto|right]. exists x, u, y. split; auto. eapply alternates_eq; eauto. Qed.

(** What is counted is there *)
Lemma run_repeats : forall A B f dead b s Rl, nfa_ok A B f -> follows f (initial A) dead advanced_remap b s Rl -> forall w, Forall any_letter w -> forall v k q st acts, inv A B f v k st -> Rl q st ->
  actions s q w = Ok acts -> exists raw, acts = map advanced_remap raw /\ forall a1 a2, raw = a1 ++ a2 -> repeats (accepts A) (accepts B) (v ++ w) (fold_left (fun k a => act a k) a1 k).
Proof.
  intros A B f dead b s Rl (WA & WB & W & Ain & If & _ & He & Hf & Ht & _) [_ F]. induction w as [|x w IH]; intros Hw v k q st acts I Rq E; cbn [actions] in E.
  - apply ok_inj in E. subst acts. exists []. split; auto. intros a1 a2 X. symmetry in X. apply app_eq_nil in X as [-> _]. cbn [fold_left]. apply repeats_app. apply (inv_repeats A B f If v k st I).
  - inversion Hw as [|x' w' Hx Hw']. subst x' w'. pose proof (any_is_letter x Hx) as Lx. destruct (Ain x (proj1 Lx) (proj2 Lx)) as [c R].
    destruct (F q st x c Lx R Rq) as (q' & N1 & R1). rewrite N1 in E. cbn [bind] in E. apply bind_ok in E as (xs & E1 & E). apply ok_inj in E. subst acts.
    pose proof (step_inv A B f dead WA WB He Hf Ht If v c x (fun p q H => proj1 (class_dest f x c p q W R) H) b k st I (valid_class f x c W Hx R)) as S.
    destruct (d_step f (initial A) dead b st c) as [st' a]. cbn [fst snd] in *.
    destruct (IH Hw' (v ++ [x]) (act a k) q' st' xs S R1 E1) as (raw & -> & H). exists (a :: raw). split; auto. intros a1 a2 X. destruct a1 as [|a' a1]; cbn [app] in X.
    + cbn [fold_left]. apply repeats_app. apply (inv_repeats A B f If v k st I).
    + injection X as <- X. cbn [fold_left]. rewrite <- app_assoc in H. apply (H a1 a2 X).
Qed.
Lemma advanced_sound : forall buf re sep s b w n, built re -> built sep -> advanced_scanner buf re sep = Ok (s, b) -> dplaced s -> (d_nletters s <= 256)%N ->
  Forall any_letter w -> (N.of_nat (length w) < two32)%N -> counts true s w 0 (N.of_nat n) -> repeats (accepts re) (accepts sep) w n.
Proof.
  intros buf re sep s b w n Br Bs E P Few Hw Lw (st & Hs & Hn). destruct (make_ok _ _ _ _ _ _ Br Bs E) as (_ & _ & _ & _ & M).
  destruct (M P Few) as (A & B & f & dead & Rl & OK & LA & LB & _ & F). destruct (count_longest true s w st 0 ltac:(lia) Lw Hs) as (acts & m & H1 & [H2 _] & H3).
  rewrite Hn in H3. apply ok_inj in H3. apply Nat2N.inj in H3. subst m.
  destruct (run_repeats A B f dead b s Rl OK F w Hw [] 0 (d_initial s) (d_init f b) acts) as (raw & -> & H); auto.
  - apply inv_start. apply OK.
  - apply F.
  - destruct H2 as (x & y & z & H2 & H4 & <-). rewrite flat_map_concat_map, map_map, <- flat_map_concat_map, app_assoc in H2. apply cut_events with (k := 0) in H2 as (a1 & a2 & X & Y).
    specialize (H a1 a2 X). cbn [app] in H. apply (repeats_eq _ _ _ _ _ _ LA LB). eapply repeats_less; [exact H|]. rewrite fold_left_app, ev1_incs in Y by auto. lia.
Qed.
Lemma advanced_acts : forall a, acts_ok 1 (advanced_remap a).
Proof.
  intros a. unfold advanced_remap. destruct (N.land a ResetAction =? 0)%N, (N.land a IncrementAction =? 0)%N; (split; [reflexivity|]; intros j H).
  - rewrite N.bits_0 in H. discriminate H.
  - change (N.lor 0 1) with (2 ^ 0)%N in H. rewrite N.pow2_bits_eqb in H. apply N.eqb_eq in H. lia.
  - change (N.lor 65536 0) with (2 ^ 16)%N in H. rewrite N.pow2_bits_eqb in H. apply N.eqb_eq in H. lia.
  - rewrite N.lor_spec in H. change 65536%N with (2 ^ 16)%N in H. change (N.testbit 1 j) with (N.testbit (2 ^ 0) j) in H. rewrite !N.pow2_bits_eqb in H. apply orb_true_iff in H as [H|H]; apply N.eqb_eq in H; lia.
Qed.
Lemma advanced_ok : forall buf re sep s b, built re -> built sep -> advanced_scanner buf re sep = Ok (s, b) -> loaded_ok s.
Proof. intros buf re sep s b Br Bs E. destruct (make_ok _ _ _ _ _ _ Br Bs E) as (_ & _ & _ & H & _). apply H. apply advanced_acts. Qed.
Lemma wr_ok : forall ws s, (forall x, In x (d_letters s) -> (x < d_nletters s)%N) -> length (d_jumps s) = N.to_nat (d_states s) * N.to_nat (d_nletters s) -> (0 < d_nletters s)%N ->
  (forall f t c a, In (f, t, c, a) ws -> f < N.to_nat (d_states s)) -> exists s', foldm wr ws s = Ok s'.
Proof. intros ws s H1 H2 H3 H4. destruct (writes_ok ws s H2 H1 ltac:(lia) H4) as (J & E & _). eauto. Qed.
(** The constructor returns or throws, unless the automaton is too large. *)
Lemma make_total : forall remap buf re sep, built re -> built sep ->
  (exists s b, make_advanced remap buf re sep = Ok (s, b)) \/ make_advanced remap buf re sep = Throw ETooComplicated \/
  make_advanced remap buf re sep = UB /\ exists f r0 dead t b, counting_nfa re sep = Ok (f, r0) /\ dead_states f = Ok dead /\ counting_determine f r0 dead = Ok (t, b) /\ (two32 <= N.of_nat (cf_size t))%N.
Proof.
  intros remap buf re sep Br Bs. unfold make_advanced. destruct (counting_nfa_total re sep Br Bs) as [[[f r0] E1]|E1]; [|right; left; rewrite E1; reflexivity]. rewrite E1. cbn [bind].
  destruct (counting_nfa_ok re sep f r0 Br Bs E1) as (A & B & (_ & _ & W & Ain & _) & _). pose proof (wf_letters _ W) as Wp.
  destruct (dead_states_ok f W) as (d & E2 & _). rewrite E2. cbn [bind].
  destruct (counting_determine f r0 d) as [[t b]|e| |] eqn:E3; cbn [bind].
  - destruct (determine_stands f r0 d t b W E3) as (SH & lab & ST). destruct (cf_minimize_ok _ _ _ t lab Wp SH ST) as (t1 & E4 & P1 & h & H1 & H2 & H3 & H4). rewrite E4. cbn [bind].
    destruct (init_loaded buf (cf_size t1) (letters f) (cf_init t1) 1) as [s0| | |] eqn:E5; unfold init_loaded in E5; destruct (N.leb_spec two32 (N.of_nat (cf_size t1))) as [L|L]; try discriminate E5; cbn [bind].
    + fold (init_loaded buf (cf_size t1) (letters f) (cf_init t1) 1) in E5.
      assert (L0c : letter 0%N) by (split; [reflexivity|discriminate]).
      assert (PP : 0 < part_size (letters f)) by (destruct (Ain 0%N (proj1 L0c) (proj2 L0c)) as [r R]; apply (part_rep_rep _ _ _ Wp) in R; apply (part_list_rep (letters f) r Wp) in R as [l R]; apply (part_list_idx _ Wp) in R; rewrite part_list_length in R; lia).
      assert (E5' : init_loaded buf (cf_size t1) (letters f) (cf_init t1) 1 = Ok s0) by (unfold init_loaded; rewrite (proj2 (N.leb_gt _ _) L); exact E5).
      destruct (init_loaded_ok buf (cf_size t1) (letters f) (cf_init t1) 1%N s0 Wp PP) as (L0 & S0 & _); auto; [rewrite <- H1; apply H2; apply ST|lia|].
      left. rewrite adv_fill_eq. destruct (wr_ok (adv_writes remap (letters f) t1) s0 (lo_lt _ L0) (lo_jlen _ L0)) as [s' ES].
      * pose proof (nl_pos _ L0). lia.
      * intros g0 t0 c a H. apply adv_writes_in in H as [H _]. rewrite S0, Nat2N.id. exact H.
      * rewrite ES. cbn [bind]. eauto.
    + right. right. split; auto. exists f, r0, d, t, b. split; auto. split; auto. split; auto.
      assert (cf_size t1 <= cf_size t); [|lia].
      pose proof (NoDup_incl_length (seq_NoDup (cf_size t1) 0) (l' := map h (seq 0 (cf_size t)))) as X. rewrite seq_length, map_length, seq_length in X. apply X. intros k Hk. apply in_seq in Hk.
      destruct (H3 k ltac:(lia)) as (q & Hq & <-). apply in_map. apply in_seq. lia.
  - right. left. unfold counting_determine in E3. destruct (cf_determine_total f r0 d false (N.of_nat (size f) * 4096) W) as [r Er]. rewrite Er in E3. cbn [bind] in E3. destruct r as [t|]; [discriminate E3|].
    destruct (cf_determine_total f r0 d true (two64 - 1) W) as [r Er2]. rewrite Er2 in E3. cbn [bind] in E3. destruct r as [t|]; [discriminate E3|]. congruence.
  - exfalso. unfold counting_determine in E3. destruct (cf_determine_total f r0 d false (N.of_nat (size f) * 4096) W) as [r Er]. rewrite Er in E3. cbn [bind] in E3. destruct r as [t|]; [discriminate E3|].
    destruct (cf_determine_total f r0 d true (two64 - 1) W) as [r Er2]. rewrite Er2 in E3. cbn [bind] in E3. destruct r as [t|]; discriminate E3.
  - exfalso. unfold counting_determine in E3. destruct (cf_determine_total f r0 d false (N.of_nat (size f) * 4096) W) as [r Er]. rewrite Er in E3. cbn [bind] in E3. destruct r as [t|]; [discriminate E3|].
    destruct (cf_determine_total f r0 d true (two64 - 1) W) as [r Er2]. rewrite Er2 in E3. cbn [bind] in E3. destruct r as [t|]; discriminate E3.
Qed.
