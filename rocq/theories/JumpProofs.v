(** Runs that skip over letters that do not change the state. *)
From Coq Require Import List Bool Arith NArith Lia.
From Verif Require Import Util Spec RunModel RunSpec RunProofs PrefixProofs.
Import ListNotations.
Set Implicit Arguments.
Unset Strict Implicit.
Local Open Scope N_scope.

Section Jumps.
  Variables (St P : Type) (o : ops St) (V : St -> Prop).
  Hypothesis W : works o V.
  Variable pr : pred St P.
  Hypothesis Hpr : forall acc st p, V st -> exists acc1 stop, pr acc st p = Ok (acc1, stop).

  (** [jumps bs b st acc out]: reading [bs] at address [b], the predicate being called after
      every letter or, as long as the state does not change, at some of them only. *)
  Inductive jumps : list N -> N -> St -> P -> outcome St P -> Prop :=
  | J_nil : forall b st acc, jumps [] b st acc (st, acc, false)
  | J_stop : forall c bs b st acc st1 acc1, o_step o st c = Ok st1 -> pr acc st1 (b + 1) = Ok (acc1, true) ->
      jumps (c :: bs) b st acc (st1, acc1, true)
  | J_step : forall c bs b st acc st1 acc1 out, o_step o st c = Ok st1 -> pr acc st1 (b + 1) = Ok (acc1, false) ->
      jumps bs (b + 1) st1 acc1 out -> jumps (c :: bs) b st acc out
  | J_skip : forall c bs b st acc out, o_step o st c = Ok st -> jumps bs (b + 1) st acc out -> jumps (c :: bs) b st acc out
  | J_call_stop : forall bs b st acc acc1, pr acc st b = Ok (acc1, true) -> jumps bs b st acc (st, acc1, true)
  | J_call : forall bs b st acc acc1 out, pr acc st b = Ok (acc1, false) -> jumps bs b st acc1 out -> jumps bs b st acc out.

  Lemma jumps_V : forall bs b st acc out, jumps bs b st acc out -> V st -> Forall byte bs -> V (fst (fst out)).
  Proof.
    intros bs b st acc out J. induction J; intros Hv Hb; cbn [fst]; auto; try (inversion Hb as [|? ? Hc Hb']; subst).
    - destruct (wk_step W Hv (byte_letter Hc)) as [s' [E Vs]]. congruence.
    - destruct (wk_step W Hv (byte_letter Hc)) as [s' [E Vs]]. apply IHJ; auto. congruence.
    - auto.
  Qed.
  Lemma jumps_psteps : forall xs ys b st acc st1 acc1 stop, psteps o pr xs b st acc = Ok (st1, acc1, stop) ->
    if stop then jumps (xs ++ ys) b st acc (st1, acc1, true)
    else forall out, jumps ys (b + N.of_nat (length xs)) st1 acc1 out -> jumps (xs ++ ys) b st acc out.
  Proof.
    induction xs as [|c xs IH]; intros ys b st acc st1 acc1 stop E; cbn [psteps app length] in *.
    - injection E as <- <- <-. intros out J. rewrite N.add_0_r in J. exact J.
    - destruct (o_step o st c) as [s'|x| |] eqn:Es; cbn [bind] in E; try discriminate.
      destruct (pr acc s' (b + 1)) as [[a' [|]]|x| |] eqn:Ep; cbn [bind] in E; try discriminate.
      + injection E as <- <- <-. eapply J_stop; eauto.
      + specialize (IH ys _ _ _ _ _ _ E). destruct stop.
        * eapply J_step; eauto.
        * intros out J. eapply J_step; eauto. apply IH. replace (b + 1 + N.of_nat (length xs)) with (b + N.of_nat (S (length xs))) by lia. exact J.
  Qed.
  Lemma jumps_skip : forall xs ys b st acc out, Forall (fun c => o_step o st c = Ok st) xs ->
    jumps ys (b + N.of_nat (length xs)) st acc out -> jumps (xs ++ ys) b st acc out.
  Proof.
    intros xs ys b st acc out H. revert b. induction H as [|c xs Hc H IH]; intros b J; cbn [app length] in *.
    - rewrite N.add_0_r in J. exact J.
    - apply J_skip; auto. apply IH. replace (b + 1 + N.of_nat (length xs)) with (b + N.of_nat (S (length xs))) by lia. exact J.
  Qed.
  Lemma jumps_app : forall xs ys b st acc out, jumps xs b st acc out ->
    match out with
    | (st1, acc1, true) => jumps (xs ++ ys) b st acc out
    | (st1, acc1, false) => forall out', jumps ys (b + N.of_nat (length xs)) st1 acc1 out' -> jumps (xs ++ ys) b st acc out'
    end.
  Proof.
    intros xs ys b st acc out J. induction J as [b st acc|c bs b st acc st1 acc1 E1 E2|c bs b st acc st1 acc1 [[s a] [|]] E1 E2 J IH|c bs b st acc [[s a] [|]] E1 J IH|bs b st acc acc1 E|bs b st acc acc1 [[s a] [|]] E J IH]; cbn [app length].
    - intros out' J. rewrite N.add_0_r in J. exact J.
    - eapply J_stop; eauto.
    - eapply J_step; eauto.
    - intros out' J'. eapply J_step; eauto. apply IH. replace (b + 1 + N.of_nat (length bs)) with (b + N.of_nat (S (length bs))) by lia. auto.
    - eapply J_skip; eauto.
    - intros out' J'. eapply J_skip; eauto. apply IH. replace (b + 1 + N.of_nat (length bs)) with (b + N.of_nat (S (length bs))) by lia. auto.
    - eapply J_call_stop; eauto.
    - eapply J_call; eauto.
    - intros out' J'. eapply J_call; eauto.
  Qed.

  Lemma psteps_total : forall bs b st acc, V st -> Forall byte bs ->
    exists st1 acc1 stop, psteps o pr bs b st acc = Ok (st1, acc1, stop) /\ V st1.
  Proof.
    induction bs as [|c bs IH]; intros b st acc Hv Hb; cbn [psteps]; [eauto 6|].
    inversion Hb as [|? ? Hc Hb']; subst. destruct (wk_step W Hv (byte_letter Hc)) as [s' [E Vs]]. rewrite E. cbn [bind].
    destruct (Hpr acc (b + 1) Vs) as (a' & [|] & Ep); rewrite Ep; cbn [bind]; eauto 6.
  Qed.

End Jumps.

(** ** DoRun, for any relation that can be put together from pieces *)
Section Rel.
  Variables (St P : Type) (o : ops St) (V : St -> Prop).
  Hypothesis W : works o V.
  Variable pr : pred St P.
  Hypothesis Hpr : forall acc st p, V st -> exists acc1 stop, pr acc st p = Ok (acc1, stop).
  Variable R : list N -> N -> St -> P -> outcome St P -> Prop.
  Hypothesis R_nil : forall b st acc, R [] b st acc (st, acc, false).
  Hypothesis R_V : forall bs b st acc out, R bs b st acc out -> V st -> Forall byte bs -> V (fst (fst out)).
  Hypothesis R_psteps : forall xs ys b st acc st1 acc1 stop, psteps o pr xs b st acc = Ok (st1, acc1, stop) ->
    if stop then R (xs ++ ys) b st acc (st1, acc1, true)
    else forall out, R ys (b + N.of_nat (length xs)) st1 acc1 out -> R (xs ++ ys) b st acc out.
  Hypothesis R_app : forall xs ys b st acc out, R xs b st acc out ->
    match out with
    | (st1, acc1, true) => R (xs ++ ys) b st acc out
    | (st1, acc1, false) => forall out', R ys (b + N.of_nat (length xs)) st1 acc1 out' -> R (xs ++ ys) b st acc out'
    end.

  Variable m : mem.

  (** A RunAligned that does what [R] says. *)
  Definition aligned_rel (al : N -> N -> St -> P -> res (outcome St P)) : Prop :=
    forall n bs b st acc, length bs = (8 * n)%nat -> b mod 8 = 0 -> holds m b bs -> V st ->
      exists out, al b (b + N.of_nat (length bs)) st acc = Ok out /\ R bs b st acc out.

  Lemma do_run_rel : forall al b bs st acc, aligned_rel al -> text_at m b bs -> V st ->
    exists st1 acc1 stop, do_run o m pr al b (b + N.of_nat (length bs)) st acc = Ok (st1, acc1) /\ R bs b st acc (st1, acc1, stop).
  Proof.
    intros al b bs st acc A (B & H & Pre) Hv. unfold do_run. rewrite !ldiff_7.
    set (e := b + N.of_nat (length bs)) in *.
    assert (Hb : b = b / 8 * 8 + b mod 8) by (pose proof (N.div_mod b 8); lia).
    assert (Hbm : b mod 8 < 8) by (apply N.mod_lt; lia).
    assert (He : e = e / 8 * 8 + e mod 8) by (pose proof (N.div_mod e 8); lia).
    assert (Hem : e mod 8 < 8) by (apply N.mod_lt; lia).
    set (hb := b / 8 * 8) in *. set (pb := b mod 8) in *. set (te := e / 8 * 8) in *. set (qe := e mod 8) in *.
    destruct (N.eqb_spec hb te) as [E|E].
    - unfold safe_run_chunk. replace (hb + (8 - (hb + 8 - b))) with b by lia.
      replace (N.to_nat (e - b)) with (length bs) by lia. rewrite safe_loop_ok by auto.
      destruct (@psteps_total _ _ o V W pr Hpr bs b st acc Hv (proj1 H)) as (st1 & acc1 & stop & Ep & _). rewrite Ep. cbn [bind].
      exists st1, acc1, stop. split; auto. apply (@R_psteps bs []) in Ep. rewrite app_nil_r in Ep.
      destruct stop; auto.
    - assert (T : hb < te).
      { assert (b <= e) by lia. assert (b / 8 <= e / 8) by (apply N.div_le_mono; lia). lia. }
      assert (T8 : hb + 8 <= te).
      { assert (b / 8 < e / 8) by lia. lia. }
      set (h := if N.eqb b hb then 0%nat else N.to_nat (hb + 8 - b)).
      set (hs := firstn h bs). set (rest := skipn h bs).
      set (w := N.to_nat (te - (b + N.of_nat h))).
      set (ws := firstn w rest). set (ts := skipn w rest).
      assert (Hh : (h <= length bs)%nat) by (unfold h; destruct (N.eqb_spec b hb); lia).
      assert (Ebs : bs = hs ++ ws ++ ts) by (unfold hs, ws, ts, rest; rewrite !firstn_skipn; auto).
      assert (Lh : length hs = h) by (unfold hs; rewrite firstn_length; lia).
      assert (Hrest : length rest = (length bs - h)%nat) by (unfold rest; rewrite skipn_length; auto).
      assert (Hw : (w <= length rest)%nat) by (unfold w; lia).
      assert (Lw : length ws = w) by (unfold ws; rewrite firstn_length; lia).
      assert (Lt : length ts = (length rest - w)%nat) by (unfold ts; rewrite skipn_length; auto).
      assert (Hhead : (if N.eqb b hb then hb else hb + 8) = b + N.of_nat h) by (unfold h; destruct (N.eqb_spec b hb); lia).
      rewrite Ebs in H. apply holds_app in H as [H1 H2]. apply holds_app in H2 as [H2 H3]. rewrite Lh in H2, H3. rewrite Lw in H3.
      assert (X1 : (if N.eqb b hb then Ok (st, acc, false) else run_chunk o m pr hb (8 - (hb + 8 - b)) (hb + 8 - b) st acc)
                   = psteps o pr hs b st acc).
      { destruct (N.eqb_spec b hb) as [Eb|Eb].
        - unfold h in hs. unfold hs. cbn [firstn psteps]. reflexivity.
        - destruct (@mapped_bytes m (N.to_nat pb) hb B) as [pre [Lp Hp]]; [intros x Hx; apply Pre; lia|].
          pose proof (@run_chunk_ok _ _ o pr m pre hs [] hb st acc) as X. rewrite app_nil_r in X.
          assert (Lh' : length hs = N.to_nat (hb + 8 - b)) by (rewrite Lh; unfold h; destruct (N.eqb_spec b hb); congruence).
          replace (8 - (hb + 8 - b)) with (N.of_nat (length pre)) by lia.
          replace (hb + 8 - b) with (N.of_nat (length hs)) by lia.
          rewrite X.
          + f_equal. lia.
          + rewrite app_length. lia.
          + apply holds_app. split; auto. replace (hb + N.of_nat (length pre)) with b by lia. auto. }
      rewrite X1, Hhead. clear X1. rewrite Ebs.
      destruct (@psteps_total _ _ o V W pr Hpr hs b st acc Hv (proj1 H1)) as (st1 & acc1 & stop & Ep & V1). rewrite Ep. cbn [bind].
      apply (@R_psteps hs (ws ++ ts)) in Ep. destruct stop; [eauto 6|].
      assert (Hle : b + N.of_nat h <= te) by (rewrite <- Hhead; destruct (N.eqb b hb); lia).
      assert (Te : te = b + N.of_nat h + N.of_nat (length ws)) by (rewrite Lw; unfold w; lia).
      assert (Mb : (b + N.of_nat h) mod 8 = 0).
      { rewrite <- Hhead. destruct (N.eqb b hb).
        - unfold hb. apply N.mod_mul. lia.
        - replace (hb + 8) with ((b / 8 + 1) * 8) by lia. apply N.mod_mul. lia. }
      destruct (A (w / 8)%nat ws (b + N.of_nat h) st1 acc1) as ([[st2 acc2] stop2] & Ea & Ja); auto.
      { rewrite Lw.
        assert (N.of_nat w mod 8 = 0).
        { assert (te mod 8 = 0) by (unfold te; apply N.mod_mul; lia).
          rewrite Te, Lw in H. rewrite <- N.add_mod_idemp_l in H by lia. rewrite Mb in H. exact H. }
        assert (w mod 8 = 0)%nat by (rewrite <- (Nat2N.id (w mod 8)), Nat2N.inj_mod; change (N.of_nat 8) with 8; rewrite H; reflexivity).
        pose proof (Nat.div_mod w 8). lia. }
      rewrite <- Te in Ea. rewrite Ea. cbn [bind].
      pose proof (R_V Ja V1 (proj1 H2)) as V2. cbn [fst] in V2.
      apply (R_app ts) in Ja. cbn in Ja. rewrite Lh in Ep. destruct stop2; [eauto 6|].
      destruct (N.eqb_spec (e - te) 0) as [Et|Et].
      + exists st2, acc2, false. split; auto. apply Ep, Ja. destruct ts; [|cbn [length] in Lt; lia]. apply R_nil.
      + unfold safe_run_chunk. rewrite N.add_0_r. replace (N.to_nat (e - te)) with (length ts) by lia.
        replace te with (b + N.of_nat h + N.of_nat w) by lia. rewrite safe_loop_ok by auto.
        destruct (@psteps_total _ _ o V W pr Hpr ts (b + N.of_nat h + N.of_nat w) st2 acc2 V2 (proj1 H3)) as (st3 & acc3 & stop3 & Ep3 & _).
        rewrite Ep3. cbn [bind]. exists st3, acc3, stop3. split; auto. apply Ep, Ja. rewrite Lw.
        apply (@R_psteps ts []) in Ep3. rewrite app_nil_r in Ep3. destruct stop3; auto.
  Qed.
End Rel.

(** ** Runs with skips *)
Section JumpRun.
  Variables (St P : Type) (o : ops St) (V : St -> Prop).
  Hypothesis W : works o V.
  Variable pr : pred St P.
  Hypothesis Hpr : forall acc st p, V st -> exists acc1 stop, pr acc st p = Ok (acc1, stop).
  Variable m : mem.

  Definition aligned_jumps (al : N -> N -> St -> P -> res (outcome St P)) : Prop := aligned_rel V (jumps o pr) m al.
  Lemma do_run_jumps : forall al b bs st acc, aligned_jumps al -> text_at m b bs -> V st ->
    exists st1 acc1 stop, do_run o m pr al b (b + N.of_nat (length bs)) st acc = Ok (st1, acc1) /\ jumps o pr bs b st acc (st1, acc1, stop).
  Proof.
    intros al b bs st acc A T Hv. apply (@do_run_rel _ _ o V W pr Hpr); auto.
    - constructor.
    - intros. eapply jumps_V; eauto.
    - intros. apply jumps_psteps; auto.
    - intros. apply jumps_app; auto.
  Qed.

  (** ... and without, on the states of V only. *)
  Definition aligned_plain (al : N -> N -> St -> P -> res (outcome St P)) : Prop :=
    aligned_rel V (fun bs b st acc out => psteps o pr bs b st acc = Ok out) m al.
  Lemma psteps_V : forall bs b st acc out, psteps o pr bs b st acc = Ok out -> V st -> Forall byte bs -> V (fst (fst out)).
  Proof.
    intros bs b st acc out E Hv Hb. destruct (@psteps_total _ _ o V W pr Hpr bs b st acc Hv Hb) as (st1 & acc1 & stop & E1 & V1).
    rewrite E in E1. injection E1 as ->. exact V1.
  Qed.
  Lemma do_run_plain : forall al b bs st acc, aligned_plain al -> text_at m b bs -> V st ->
    exists st1 acc1 stop, do_run o m pr al b (b + N.of_nat (length bs)) st acc = Ok (st1, acc1) /\ psteps o pr bs b st acc = Ok (st1, acc1, stop).
  Proof.
    intros al b bs st acc A T Hv.
    apply (@do_run_rel _ _ o V W pr Hpr (fun bs b st acc out => psteps o pr bs b st acc = Ok out)); auto.
    - intros. eapply psteps_V; eauto.
    - intros xs ys b0 s0 a0 st1 acc1 stop E. destruct stop; intros; rewrite psteps_app, E; auto.
    - intros xs ys b0 s0 a0 [[st1 acc1] [|]] E; intros; rewrite psteps_app, E; auto.
  Qed.
End JumpRun.

(** ** Run *)
Section RunJ.
  Variables (St : Type) (o : ops St) (V : St -> Prop).
  Hypothesis W : works o V.

  Lemma jumps_run : forall bs b st acc out, jumps o (run_pred (St := St)) bs b st acc out -> steps o st bs = Ok (fst (fst out)).
  Proof.
    intros bs b st acc out J. induction J; cbn [steps fst]; auto; try discriminate.
    - rewrite H. cbn [bind]. auto.
    - rewrite H. cbn [bind]. auto.
  Qed.
  Lemma run_with_jumps : forall m al b bs st, aligned_jumps o V (run_pred (St := St)) m al -> text_at m b bs -> V st ->
    run_with o m al b (b + N.of_nat (length bs)) st = steps o st bs.
  Proof.
    intros m al b bs st A T Hv. unfold run_with.
    destruct (@do_run_jumps _ _ o V W (run_pred (St := St))) with (m := m) (al := al) (b := b) (bs := bs) (st := st) (acc := tt) as (st1 & acc1 & stop & E & J); auto.
    { intros. unfold run_pred. eauto. }
    rewrite E. cbn [bind]. apply jumps_run in J. auto.
  Qed.

  (** ** ShortestPrefix *)
  Definition short_res (bs : list N) (b : N) (st st' : St) (pos : option N) : Prop :=
    match pos with
    | Some p => exists k, (0 < k)%nat /\ (k <= length bs)%nat /\ p = b + N.of_nat k /\ fin o st (firstn k bs) true /\
                  forall j, (0 < j)%nat -> (j < k)%nat -> fin o st (firstn j bs) false
    | None => (forall k, (0 < k)%nat -> (k <= length bs)%nat -> fin o st (firstn k bs) false) /\
              (forall w, is_word w -> fin o st (bs ++ w) true <-> fin o st' w true)
    end.
  Lemma short_cons : forall c bs b st s1 st' pos, o_step o st c = Ok s1 -> fin o s1 [] false -> short_res bs (b + 1) s1 st' pos ->
    short_res (c :: bs) b st st' pos.
  Proof.
    intros c bs b st s1 st' [p|] E F0 H.
    - destruct H as (k & K1 & K2 & -> & K3 & K4). exists (S k). cbn [length firstn]. splits; try lia.
      + apply (fin_cons _ _ E); auto.
      + intros j J1 J2. destruct j as [|[|j]]; [lia| |].
        * cbn [firstn]. apply (fin_cons _ _ E). auto.
        * change (firstn (S (S j)) (c :: bs)) with (c :: firstn (S j) bs). apply (fin_cons _ _ E). apply K4; lia.
    - destruct H as [H1 H2]. split.
      + intros k K1 K2. destruct k as [|[|k]]; [lia| |].
        * cbn [firstn]. apply (fin_cons _ _ E). auto.
        * change (firstn (S (S k)) (c :: bs)) with (c :: firstn (S k) bs). apply (fin_cons _ _ E). apply H1; cbn [length] in K2; lia.
      + intros w Hw. cbn [app]. rewrite (fin_cons _ _ E). apply H2; auto.
  Qed.
  Lemma short_dead : forall bs b st, V st -> o_dead o st = Ok true -> Forall byte bs -> short_res bs b st st None.
  Proof.
    intros bs b st Hv Hd Hb. split.
    - intros k _ _. apply (fin_dead W); auto. apply bytes_word. apply Forall_forall. intros x Hx. rewrite Forall_forall in Hb. apply Hb.
      rewrite <- (firstn_skipn k bs). apply in_or_app. auto.
    - intros w Hw. split; intros X; exfalso.
      + assert (Y : fin o st (bs ++ w) false) by (apply (fin_dead W); auto; apply Forall_app; split; auto; apply bytes_word; auto).
        pose proof (fin_fun X Y). discriminate.
      + pose proof (fin_fun X (fin_dead W Hv Hd Hw)). discriminate.
  Qed.
  Lemma jumps_shortest : forall bs b st acc out, jumps o (shortest_pred o) bs b st acc out -> acc = None -> V st -> o_final o st = Ok false ->
    Forall byte bs -> short_res bs b st (fst (fst out)) (snd (fst out)).
  Proof.
    intros bs b st acc out J. induction J; intros Ha Hv Hf Hb; cbn [fst snd]; subst acc.
    - split; [cbn; intros; lia|]. intros w _. cbn [app]. tauto.
    - inversion Hb as [|? ? Hc Hb']; subst. destruct (wk_step W Hv (byte_letter Hc)) as [s' [E Vs]]. rewrite E in H. injection H as <-.
      unfold shortest_pred in H0. destruct (wk_final W Vs) as [f Hff]. rewrite Hff in H0. cbn [bind] in H0. destruct f.
      + injection H0 as <-. exists 1%nat. splits; cbn [length]; auto; try lia.
        exists s'. cbn [firstn steps]. rewrite E. auto.
      + destruct (wk_dead W Vs) as [d Hd]. rewrite Hd in H0. cbn [bind] in H0. injection H0 as <- ->.
        apply short_cons with (s1 := s'); auto. exists s'; auto. apply short_dead; auto.
    - inversion Hb as [|? ? Hc Hb']; subst. destruct (wk_step W Hv (byte_letter Hc)) as [s' [E Vs]]. rewrite E in H. injection H as <-.
      unfold shortest_pred in H0. destruct (wk_final W Vs) as [f Hff]. rewrite Hff in H0. cbn [bind] in H0. destruct f; [discriminate|].
      destruct (wk_dead W Vs) as [d Hd]. rewrite Hd in H0. cbn [bind] in H0. injection H0 as <- ->.
      apply short_cons with (s1 := s'); auto. exists s'; auto.
    - inversion Hb; subst. apply short_cons with (s1 := st); auto. exists st; auto.
    - unfold shortest_pred in H. rewrite Hf in H. cbn [bind] in H. destruct (wk_dead W Hv) as [d Hd]. rewrite Hd in H. cbn [bind] in H.
      injection H as <- ->. apply short_dead; auto.
    - unfold shortest_pred in H. rewrite Hf in H. cbn [bind] in H. destruct (wk_dead W Hv) as [d Hd]. rewrite Hd in H. cbn [bind] in H.
      injection H as <- ->. auto.
  Qed.

  Lemma shortest_prefix_jumps : forall m al bm em b bs, aligned_jumps o V (shortest_pred o) m al -> text_at m b bs ->
    exists r, shortest_prefix_with o m al bm em b (b + N.of_nat (length bs)) = Ok r /\
      shortest_result (fun u => Accepts o (mark_if bm BeginMark ++ u)) em b bs r.
  Proof.
    intros m al bm em b bs A T. pose proof (proj1 (proj1 (proj2 T))) as Hb. apply (@shortest_prefix_ok _ o V W); auto.
    intros st Hv Hf.
    destruct (@do_run_jumps _ _ o V W (shortest_pred o)) with (m := m) (al := al) (b := b) (bs := bs) (st := st) (acc := @None N) as (st1 & acc1 & stop & E & J); auto.
    { intros acc s p Vs. unfold shortest_pred. destruct (wk_final W Vs) as [f F]. rewrite F. cbn [bind]. destruct f; eauto.
      destruct (wk_dead W Vs) as [d D]. rewrite D. cbn [bind]. eauto. }
    exists st1, acc1. splits; auto.
    - exact (jumps_V W J Hv Hb).
    - exact (jumps_shortest J eq_refl Hv Hf Hb).
  Qed.

  (** ** LongestPrefix *)
  Definition long_res (bs : list N) (b : N) (st : St) (acc : option N) (st' : St) (pos : option N) : Prop :=
    ((pos = acc /\ forall j, (0 < j)%nat -> (j <= length bs)%nat -> fin o st (firstn j bs) true -> steps o st (firstn j bs) = Ok st) \/
     (exists k, (k <= length bs)%nat /\ pos = Some (b + N.of_nat k) /\ fin o st (firstn k bs) true /\
        forall j, (k < j)%nat -> (j <= length bs)%nat -> fin o st (firstn j bs) true -> steps o st (firstn j bs) = steps o st (firstn k bs))) /\
    (forall w, is_word w -> fin o st (bs ++ w) true <-> fin o st' w true).
  Lemma long_dead : forall bs b st acc, V st -> o_dead o st = Ok true -> Forall byte bs -> long_res bs b st acc st acc.
  Proof.
    intros bs b st acc Hv Hd Hb.
    assert (D : forall w, is_word w -> ~ fin o st w true).
    { intros w Hw X. pose proof (fin_fun X (fin_dead W Hv Hd Hw)). discriminate. }
    split.
    - left. split; auto. intros j _ _ X. destruct (D (firstn j bs)); auto. apply bytes_word. apply Forall_forall. intros x Hx.
      rewrite Forall_forall in Hb. apply Hb. rewrite <- (firstn_skipn j bs). apply in_or_app; auto.
    - intros w Hw. split; intros X; exfalso; eapply D; [|exact X| |exact X]; auto. apply Forall_app; split; auto. apply bytes_word; auto.
  Qed.
  Lemma long_pr : forall acc st p acc1 stop, V st -> longest_pred o acc st p = Ok (acc1, stop) ->
    (o_final o st = Ok true /\ acc1 = Some p \/ o_final o st = Ok false /\ acc1 = acc) /\ o_dead o st = Ok stop.
  Proof.
    intros acc st p acc1 stop Hv E. unfold longest_pred in E. destruct (wk_final W Hv) as [f F]. rewrite F in *. cbn [bind] in E.
    destruct (wk_dead W Hv) as [d D]. rewrite D in *. cbn [bind] in E. injection E as <- <-. split; auto. destruct f; auto.
  Qed.
  Lemma long_cons : forall c bs b st s1 acc acc1 st' pos, o_step o st c = Ok s1 ->
    (o_final o s1 = Ok true /\ acc1 = Some (b + 1) \/ o_final o s1 = Ok false /\ acc1 = acc) ->
    long_res bs (b + 1) s1 acc1 st' pos -> long_res (c :: bs) b st acc st' pos.
  Proof.
    intros c bs b st s1 acc acc1 st' pos E F [H1 H2].
    assert (Hw : forall w, is_word w -> fin o st ((c :: bs) ++ w) true <-> fin o st' w true).
    { intros w Hw. cbn [app]. rewrite (fin_cons _ _ E). auto. }
    assert (St1 : forall n, steps o st (firstn (S n) (c :: bs)) = steps o s1 (firstn n bs)).
    { intros n. cbn [firstn steps]. rewrite E. reflexivity. }
    assert (Fi : forall n x, fin o st (firstn (S n) (c :: bs)) x <-> fin o s1 (firstn n bs) x).
    { intros n x. cbn [firstn]. apply (fin_cons _ _ E). }
    split; auto. destruct H1 as [[-> K]|(k & K1 & -> & K2 & K3)].
    - destruct F as [[F ->]|[F ->]].
      + right. exists 1%nat. splits; cbn [length]; auto; try lia.
        * rewrite Fi. cbn [firstn]. exists s1; auto.
        * intros [|j] J1 J2 X; [lia|]. rewrite !St1. cbn [firstn steps]. apply K; try lia. rewrite <- Fi. auto.
      + left. split; auto. intros [|j] J1 J2 X; [lia|]. exfalso. rewrite Fi in X.
        destruct j as [|j].
        * cbn [firstn] in X. assert (Y : fin o s1 [] false) by (exists s1; auto). pose proof (fin_fun X Y). discriminate.
        * cbn [length] in J2. pose proof (K (S j) ltac:(lia) ltac:(lia) X) as Y. destruct X as (z & Z1 & Z2). congruence.
    - right. exists (S k). splits; cbn [length]; try lia.
      + f_equal. lia.
      + rewrite Fi. auto.
      + intros [|j] J1 J2 X; [lia|]. rewrite !St1. rewrite Fi in X. apply K3; auto; lia.
  Qed.
  Lemma long_skip : forall c bs b st acc st' pos, o_step o st c = Ok st -> long_res bs (b + 1) st acc st' pos -> long_res (c :: bs) b st acc st' pos.
  Proof.
    intros c bs b st acc st' pos E [H1 H2].
    assert (Hw : forall w, is_word w -> fin o st ((c :: bs) ++ w) true <-> fin o st' w true).
    { intros w Hw. cbn [app]. rewrite (fin_cons _ _ E). auto. }
    assert (St1 : forall n, steps o st (firstn (S n) (c :: bs)) = steps o st (firstn n bs)).
    { intros n. cbn [firstn steps]. rewrite E. reflexivity. }
    assert (Fi : forall n x, fin o st (firstn (S n) (c :: bs)) x <-> fin o st (firstn n bs) x).
    { intros n x. cbn [firstn]. apply (fin_cons _ _ E). }
    split; auto. destruct H1 as [[-> K]|(k & K1 & -> & K2 & K3)].
    - left. split; auto. intros [|j] J1 J2 X; [lia|]. rewrite St1. rewrite Fi in X. cbn [length] in J2.
      destruct j as [|j]; [reflexivity|]. apply K; auto; lia.
    - right. exists (S k). splits; cbn [length]; try lia.
      + f_equal. lia.
      + rewrite Fi. auto.
      + intros [|j] J1 J2 X; [lia|]. rewrite !St1. rewrite Fi in X. apply K3; auto; lia.
  Qed.
  Lemma long_call : forall bs b st acc acc1 st' pos, 
    (o_final o st = Ok true /\ acc1 = Some b \/ o_final o st = Ok false /\ acc1 = acc) ->
    long_res bs b st acc1 st' pos -> long_res bs b st acc st' pos.
  Proof.
    intros bs b st acc acc1 st' pos [[F ->]|[F ->]] [H1 H2]; split; auto. destruct H1 as [[-> K]|K]; auto.
    right. exists 0%nat. splits; try lia.
    - f_equal. lia.
    - exists st. auto.
    - intros j J1 J2 X. cbn [firstn steps]. apply K; auto.
  Qed.
  Lemma jumps_longest : forall bs b st acc out, jumps o (longest_pred o) bs b st acc out -> V st -> Forall byte bs ->
    long_res bs b st acc (fst (fst out)) (snd (fst out)).
  Proof.
    intros bs b st acc out J. induction J; intros Hv Hb; cbn [fst snd].
    - split; [left; split; auto; cbn; intros; lia|]. intros w _. cbn [app]. tauto.
    - inversion Hb as [|? ? Hc Hb']; subst. destruct (wk_step W Hv (byte_letter Hc)) as [s' [E Vs]]. rewrite E in H. injection H as <-.
      destruct (long_pr Vs H0) as [F D]. apply (long_cons E F). apply long_dead; auto.
    - inversion Hb as [|? ? Hc Hb']; subst. destruct (wk_step W Hv (byte_letter Hc)) as [s' [E Vs]]. rewrite E in H. injection H as <-.
      destruct (long_pr Vs H0) as [F D]. apply (long_cons E F). auto.
    - inversion Hb; subst. apply long_skip; auto.
    - destruct (long_pr Hv H) as [F D]. apply (long_call F). apply long_dead; auto.
    - destruct (long_pr Hv H) as [F D]. apply (long_call F). auto.
  Qed.

  Lemma longest_total : forall acc s p, V s -> exists acc1 stop, longest_pred o acc s p = Ok (acc1, stop).
  Proof.
    intros acc s p Vs. unfold longest_pred. destruct (wk_final W Vs) as [f F]. rewrite F. cbn [bind].
    destruct (wk_dead W Vs) as [d D]. rewrite D. cbn [bind]. eauto.
  Qed.
  Lemma shortest_total : forall acc s p, V s -> exists acc1 stop, shortest_pred o acc s p = Ok (acc1, stop).
  Proof.
    intros acc s p Vs. unfold shortest_pred. destruct (wk_final W Vs) as [f F]. rewrite F. cbn [bind]. destruct f; eauto.
    destruct (wk_dead W Vs) as [d D]. rewrite D. cbn [bind]. eauto.
  Qed.
  Lemma longest_prefix_jumps : forall m al bm em b bs, aligned_jumps o V (longest_pred o) m al -> text_at m b bs ->
    exists r, longest_prefix_with o m al bm em b (b + N.of_nat (length bs)) = Ok r /\
      longest_up_to (fun u v => same_state o (mark_if bm BeginMark ++ u) (mark_if bm BeginMark ++ v))
        (fun u => Accepts o (mark_if bm BeginMark ++ u)) em b bs r.
  Proof.
    intros m al bm em b bs HA T. pose proof (proj1 (proj1 (proj2 T))) as Hb.
    destruct (@start_ok _ o V W bm BeginMark BeginMark_letter) as (s0 & E0 & V0 & T0).
    unfold longest_prefix_with. rewrite E0. cbn [bind].
    assert (A : forall u, Accepts o (mark_if bm BeginMark ++ u) <-> fin o s0 u true) by (intros; apply Accepts_fin; auto).
    destruct (wk_final W V0) as [f Hf]. rewrite Hf. cbn [bind].
    destruct (@do_run_jumps _ _ o V W (longest_pred o) longest_total m al b bs s0 (if f then Some b else None) HA T V0) as (st' & pos & stop & E & J).
    rewrite E. cbn [bind]. pose proof (jumps_V W J V0 Hb) as V'. apply jumps_longest in J; auto. cbn [fst snd] in *. destruct J as [H1 H2].
    assert (F0 : fin o s0 [] f) by (exists s0; auto).
    assert (NA : forall u, fin o s0 u false -> ~ Accepts o (mark_if bm BeginMark ++ u)).
    { intros u F X. apply A in X. pose proof (fin_fun F X). discriminate. }
    set (Same := fun u v => same_state o (mark_if bm BeginMark ++ u) (mark_if bm BeginMark ++ v)).
    assert (SM : forall u v s, steps o s0 u = Ok s -> steps o s0 v = Ok s -> Same u v).
    { intros u v s U1 U2. exists s. rewrite !steps_app, T0. auto. }
    assert (X : (exists k, (k <= length bs)%nat /\ pos = Some (b + N.of_nat k) /\ Accepts o (mark_if bm BeginMark ++ firstn k bs) /\
                   forall j, (k < j)%nat -> (j <= length bs)%nat -> Accepts o (mark_if bm BeginMark ++ firstn j bs) -> Same (firstn k bs) (firstn j bs)) \/
                (pos = None /\ no_prefix (fun u => Accepts o (mark_if bm BeginMark ++ u)) bs)).
    { destruct H1 as [[-> K]|(k & K1 & -> & K2 & K3)].
      - destruct f.
        + left. exists 0%nat. splits; try lia.
          * f_equal. lia.
          * apply A. auto.
          * intros j J1 J2 X. apply A in X. apply SM with s0; [reflexivity|]. apply K; auto.
        + right. split; auto. intros [|k] Hk; [apply NA; exact F0|]. intros X. apply A in X.
          pose proof (K (S k) ltac:(lia) Hk X) as Y. destruct X as (z & Z1 & Z2). congruence.
      - left. exists k. splits; auto; [apply A; auto|]. intros j J1 J2 X. apply A in X. pose proof (K3 j J1 J2 X) as Y.
        destruct K2 as (z & Z1 & Z2). apply SM with z; congruence. }
    destruct em.
    - destruct (wk_step W (c := EndMark) V' EndMark_letter) as [s2 [E2 V2]]. rewrite E2. cbn [bind].
      destruct (wk_final W V2) as [f2 Hf2]. rewrite Hf2. cbn [bind].
      assert (Y : Accepts o (mark_if bm BeginMark ++ bs ++ [EndMark]) <-> f2 = true).
      { assert (F' : fin o st' [EndMark] f2) by (exists s2; cbn [steps]; rewrite E2; auto). rewrite A.
        assert (Wd : is_word [EndMark]) by (repeat constructor; discriminate).
        rewrite (H2 _ Wd). split; [intros Q; apply (fin_fun F' Q)|intros ->; auto]. }
      exists (if f2 then Some (b + N.of_nat (length bs)) else pos). split; auto. destruct f2.
      + left. splits; auto. apply Y; auto.
      + assert (NY : ~ Accepts o (mark_if bm BeginMark ++ bs ++ [EndMark])) by (intros Q; apply Y in Q; discriminate).
        destruct X as [(k & K1 & -> & K2 & K3)|[-> K]].
        * right. split; auto. exists k. auto.
        * split; auto.
    - exists pos. split; auto. destruct X as [(k & K1 & -> & K2 & K3)|[-> K]].
      + right. split; [discriminate|]. exists k. auto.
      + split; auto. discriminate.
  Qed.
End RunJ.
