(** LongestPrefix, ShortestPrefix and the suffix functions. *)
From Coq Require Import List Bool Arith NArith Lia.
From Verif Require Import Util Spec RunModel RunSpec RunProofs.
Import ListNotations.
Set Implicit Arguments.
Unset Strict Implicit.
Local Open Scope N_scope.

Lemma byte_letter : forall c, byte c -> letter c.
Proof. intros c H. unfold byte, letter, MaxChar, Epsilon in *. lia. Qed.
Lemma bytes_word : forall bs, Forall byte bs -> is_word bs.
Proof. intros bs H. eapply Forall_impl; [|exact H]. apply byte_letter. Qed.
Lemma EndMark_letter : letter EndMark. Proof. split; [reflexivity|discriminate]. Qed.
Lemma BeginMark_letter : letter BeginMark. Proof. split; [reflexivity|discriminate]. Qed.

Section Works.
  Variable St : Type.
  Variable o : ops St.
  Variable V : St -> Prop.
  Hypothesis W : works o V.

  (** final after reading w from s *)
  Definition fin (s : St) (w : list N) (b : bool) : Prop := exists s', steps o s w = Ok s' /\ o_final o s' = Ok b.

  Lemma steps_V : forall w s, V s -> is_word w -> exists s', steps o s w = Ok s' /\ V s'.
  Proof.
    induction w as [|c w IH]; intros s Hs Hw; cbn [steps]; eauto.
    inversion Hw; subst. destruct (wk_step W (s := s) (c := c)) as [s1 [E V1]]; auto. rewrite E. cbn [bind]. auto.
  Qed.
  Lemma fin_total : forall w s, V s -> is_word w -> exists b, fin s w b.
  Proof.
    intros w s Hs Hw. destruct (@steps_V w s Hs Hw) as [s' [E V']]. destruct (wk_final W V') as [b Hb]. exists b, s'. auto.
  Qed.
  Lemma fin_fun : forall w s b b', fin s w b -> fin s w b' -> b = b'.
  Proof. intros w s b b' (s1 & E1 & F1) (s2 & E2 & F2). congruence. Qed.
  Lemma fin_cons : forall c w s s1 b, o_step o s c = Ok s1 -> (fin s (c :: w) b <-> fin s1 w b).
  Proof. intros c w s s1 b E. unfold fin. cbn [steps]. rewrite E. cbn [bind]. tauto. Qed.
  Lemma fin_dead : forall s w, V s -> o_dead o s = Ok true -> is_word w -> fin s w false.
  Proof.
    intros s w Hs D Hw. destruct (@steps_V w s Hs Hw) as [s' [E V']]. exists s'. split; auto. exact (wk_sound W Hs D Hw E).
  Qed.
  Lemma fin_app : forall u w s s1 b, steps o s u = Ok s1 -> (fin s (u ++ w) b <-> fin s1 w b).
  Proof. intros u w s s1 b E. unfold fin. rewrite steps_app, E. cbn [bind]. tauto. Qed.
  Lemma Accepts_fin : forall pre w s, steps o (o_init o) pre = Ok s -> (Accepts o (pre ++ w) <-> fin s w true).
  Proof. intros pre w s E. unfold Accepts, fin. rewrite steps_app, E. cbn [bind]. tauto. Qed.

  (** *** ShortestPrefix *)
  Lemma psteps_shortest : forall bs b st, V st -> Forall byte bs ->
    exists st' pos stop, psteps o (shortest_pred o) bs b st None = Ok (st', pos, stop) /\ V st' /\
    match pos with
    | Some p => exists k, (0 < k)%nat /\ (k <= length bs)%nat /\ p = b + N.of_nat k /\ fin st (firstn k bs) true /\
                  forall j, (0 < j)%nat -> (j < k)%nat -> fin st (firstn j bs) false
    | None => (forall k, (0 < k)%nat -> (k <= length bs)%nat -> fin st (firstn k bs) false) /\
              (forall w, is_word w -> fin st (bs ++ w) true <-> fin st' w true)
    end.
  Proof.
    induction bs as [|c bs IH]; intros b st Hs Hb.
    - exists st, None, false. splits; auto; [cbn; intros; lia|]. intros w _. cbn [app]. tauto.
    - inversion Hb as [|? ? Hc Hb']; subst. cbn [psteps].
      destruct (wk_step W (c := c) Hs (byte_letter Hc)) as [s1 [E V1]]. rewrite E. cbn [bind].
      unfold shortest_pred at 1. destruct (wk_final W V1) as [f Hf]. rewrite Hf. cbn [bind].
      assert (F1 : fin st [c] f) by (exists s1; split; auto; cbn [steps]; rewrite E; auto).
      destruct f.
      + cbn [bind]. exists s1, (Some (b + 1)), true. splits; auto. exists 1%nat. splits; auto; cbn [length]; try lia; auto.
      + destruct (wk_dead W V1) as [d Hd]. rewrite Hd. cbn [bind]. destruct d.
        * exists s1, None, true. split; auto. split; auto. split.
          -- intros k Hk1 Hk2. destruct k as [|k]; [lia|]. cbn [firstn]. apply (fin_cons _ _ E).
             apply fin_dead; auto. apply bytes_word. apply Forall_forall. intros x Hx. rewrite Forall_forall in Hb'. apply Hb'.
             rewrite <- (firstn_skipn k bs). apply in_or_app. auto.
          -- intros w Hw. cbn [app]. rewrite (fin_cons _ _ E). split; intros H; exfalso.
             ++ assert (X : fin s1 (bs ++ w) false) by (apply fin_dead; auto; apply Forall_app; split; auto; apply bytes_word; auto).
                pose proof (fin_fun H X). discriminate.
             ++ pose proof (fin_fun H (fin_dead V1 Hd Hw)). discriminate.
        * destruct (IH (b + 1) s1 V1 Hb') as (st' & pos & stop & E' & V' & H). exists st', pos, stop. rewrite E'. splits; auto.
          destruct pos as [p|].
          -- destruct H as (k & K1 & K2 & -> & K3 & K4). exists (S k). cbn [length firstn]. splits; try lia.
             ++ apply (fin_cons _ _ E); auto.
             ++ intros j J1 J2. destruct j as [|[|j]]; [lia| |].
                ** cbn [firstn]. auto.
                ** change (firstn (S (S j)) (c :: bs)) with (c :: firstn (S j) bs). apply (fin_cons _ _ E). apply K4; lia.
          -- destruct H as [H1 H2]. split.
             ++ intros k K1 K2. destruct k as [|[|k]]; [lia| |].
                ** cbn [firstn]. auto.
                ** change (firstn (S (S k)) (c :: bs)) with (c :: firstn (S k) bs). apply (fin_cons _ _ E). apply H1; cbn [length] in K2; lia.
             ++ intros w Hw. cbn [app]. rewrite (fin_cons _ _ E). apply H2; auto.
  Qed.

  Lemma start_ok : forall t mark, letter mark ->
    exists s, start_state o t mark = Ok s /\ V s /\ steps o (o_init o) (mark_if t mark) = Ok s.
  Proof.
    intros [|] mark Hm; cbn [start_state mark_if steps].
    - destruct (wk_step W (c := mark) (wk_init W) Hm) as [s [E Vs]]. exists s. rewrite E. auto.
    - exists (o_init o). splits; auto. apply (wk_init W).
  Qed.

  Variable m : mem.

  (** What is needed of a scanner's own RunAligned for ShortestPrefix. *)
  Lemma shortest_prefix_ok : forall al bm em b bs,
    (forall st, V st -> o_final o st = Ok false -> exists st' pos,
       do_run o m (shortest_pred o) al b (b + N.of_nat (length bs)) st None = Ok (st', pos) /\ V st' /\
       match pos with
       | Some p => exists k, (0 < k)%nat /\ (k <= length bs)%nat /\ p = b + N.of_nat k /\ fin st (firstn k bs) true /\
                     forall j, (0 < j)%nat -> (j < k)%nat -> fin st (firstn j bs) false
       | None => (forall k, (0 < k)%nat -> (k <= length bs)%nat -> fin st (firstn k bs) false) /\
                 (forall w, is_word w -> fin st (bs ++ w) true <-> fin st' w true)
       end) ->
    Forall byte bs ->
    exists r, shortest_prefix_with o m al bm em b (b + N.of_nat (length bs)) = Ok r /\
      shortest_result (fun u => Accepts o (mark_if bm BeginMark ++ u)) em b bs r.
  Proof.
    intros al bm em b bs HR Hb. destruct (start_ok bm BeginMark_letter) as (s0 & E0 & V0 & T0).
    unfold shortest_prefix_with. rewrite E0. cbn [bind].
    assert (A : forall u, Accepts o (mark_if bm BeginMark ++ u) <-> fin s0 u true) by (intros; apply Accepts_fin; auto).
    destruct (wk_final W V0) as [f Hf]. rewrite Hf. cbn [bind]. destruct f.
    { exists (Some b). split; auto. left. exists 0%nat. splits; try lia. cbn [firstn]. apply A. exists s0. auto. }
    destruct (HR s0 V0 Hf) as (st' & pos & E & V' & H). rewrite E. cbn [bind].
    assert (F0 : fin s0 [] false) by (exists s0; auto).
    assert (N0 : forall k, fin s0 (firstn k bs) false -> ~ Accepts o (mark_if bm BeginMark ++ firstn k bs)).
    { intros k F X. apply A in X. pose proof (fin_fun F X). discriminate. }
    destruct pos as [p|].
    - assert (X : shortest_result (fun u => Accepts o (mark_if bm BeginMark ++ u)) em b bs (Some p)).
      { destruct H as (k & K1 & K2 & -> & K3 & K4). left. exists k. splits; auto; [apply A; auto|].
        intros [|j] Hj; apply N0; [exact F0|apply K4; lia]. }
      destruct em; [|exists (Some p); auto].
      destruct (wk_step W (c := EndMark) V' EndMark_letter) as [s2 [E2 V2]]. rewrite E2. cbn [bind].
      destruct (wk_final W V2) as [f2 Hf2]. rewrite Hf2. cbn [bind]. exists (Some p); auto.
    - destruct H as [H1 H2]. assert (NP : no_prefix (fun u => Accepts o (mark_if bm BeginMark ++ u)) bs).
      { intros [|k] Hk; apply N0; [exact F0|apply H1; lia]. }
      destruct em; [|exists None; split; auto; split; auto; discriminate].
      destruct (wk_step W (c := EndMark) V' EndMark_letter) as [s2 [E2 V2]]. rewrite E2. cbn [bind].
      destruct (wk_final W V2) as [f2 Hf2]. rewrite Hf2. cbn [bind].
      assert (X : Accepts o (mark_if bm BeginMark ++ bs ++ [EndMark]) <-> f2 = true).
      { rewrite A. rewrite H2 by (repeat constructor; discriminate). split.
        - intros F. assert (F' : fin st' [EndMark] f2) by (exists s2; cbn [steps]; rewrite E2; auto). apply (fin_fun F' F).
        - intros ->. exists s2. cbn [steps]. rewrite E2. auto. }
      exists (if f2 then Some (b + N.of_nat (length bs)) else None). split; auto. destruct f2.
      + right. splits; auto. apply X; auto.
      + split; auto. intros _ Y. apply X in Y. discriminate.
  Qed.

  Lemma shortest_prefix_generic : forall bm em b bs, text_at m b bs ->
    exists r, shortest_prefix o m bm em b (b + N.of_nat (length bs)) = Ok r /\
      shortest_result (fun u => Accepts o (mark_if bm BeginMark ++ u)) em b bs r.
  Proof.
    intros bm em b bs T. apply shortest_prefix_ok; [|apply T]. intros st Hs _.
    rewrite do_run_ok by (auto; apply run_aligned_right).
    destruct (@psteps_shortest bs b st Hs) as (st' & pos & stop & E & V' & H); [apply T|]. exists st', pos. rewrite E. auto.
  Qed.

  (** *** LongestPrefix *)
  Lemma psteps_longest : forall bs b st acc, V st -> Forall byte bs ->
    exists st' pos stop, psteps o (longest_pred o) bs b st acc = Ok (st', pos, stop) /\ V st' /\
      (stop = true -> forall w, is_word w -> fin st (bs ++ w) false /\ fin st' w false) /\
      (stop = false -> steps o st bs = Ok st') /\
      ((exists k, (0 < k)%nat /\ (k <= length bs)%nat /\ pos = Some (b + N.of_nat k) /\ fin st (firstn k bs) true /\
          forall j, (k < j)%nat -> (j <= length bs)%nat -> fin st (firstn j bs) false) \/
       (pos = acc /\ forall k, (0 < k)%nat -> (k <= length bs)%nat -> fin st (firstn k bs) false)).
  Proof.
    induction bs as [|c bs IH]; intros b st acc Hs Hb.
    - exists st, acc, false. splits; auto; try discriminate.
      right. split; auto. cbn. intros; lia.
    - inversion Hb as [|? ? Hc Hb']; subst. cbn [psteps].
      destruct (wk_step W (c := c) Hs (byte_letter Hc)) as [s1 [E V1]]. rewrite E. cbn [bind].
      unfold longest_pred at 1. destruct (wk_final W V1) as [f Hf]. rewrite Hf. cbn [bind].
      destruct (wk_dead W V1) as [d Hd]. rewrite Hd. cbn [bind].
      assert (F1 : fin st [c] f) by (exists s1; split; auto; cbn [steps]; rewrite E; auto).
      assert (Bw : forall k, is_word (firstn k bs)).
      { intros k. apply bytes_word. apply Forall_forall. intros x Hx. rewrite Forall_forall in Hb'. apply Hb'.
        rewrite <- (firstn_skipn k bs). apply in_or_app. auto. }
      destruct d.
      + assert (f = false) by (pose proof (fin_dead V1 Hd (w := []) (Forall_nil _)) as [x [X1 X2]]; cbn [steps] in X1; congruence). subst f.
        exists s1, acc, true. splits; auto; try discriminate.
        * intros _ w Hw. split; [|apply fin_dead; auto]. cbn [app]. apply (fin_cons _ _ E). apply fin_dead; auto.
          apply Forall_app; split; auto; apply bytes_word; auto.
        * right. split; auto. intros [|k] K1 K2; [lia|]. cbn [firstn]. apply (fin_cons _ _ E). apply fin_dead; auto.
      + destruct (IH (b + 1) s1 (if f then Some (b + 1) else acc) V1 Hb') as (st' & pos & stop & E' & V' & H1 & H2 & H3).
        exists st', pos, stop. rewrite E'. splits; auto.
        * intros S w Hw. cbn [app]. rewrite (fin_cons _ _ E). apply H1; auto.
        * intros S. cbn [steps]. rewrite E. cbn [bind]. auto.
        * destruct H3 as [(k & K1 & K2 & -> & K3 & K4)|[-> K]].
          -- left. exists (S k). cbn [length firstn]. splits; try lia.
             ++ f_equal. lia.
             ++ apply (fin_cons _ _ E). auto.
             ++ intros [|j] J1 J2; [lia|]. cbn [firstn]. apply (fin_cons _ _ E). apply K4; lia.
          -- destruct f.
             ++ left. exists 1%nat. cbn [length firstn]. splits; try lia; auto.
                intros [|j] J1 J2; [lia|]. cbn [firstn]. apply (fin_cons _ _ E). apply K; lia.
             ++ right. split; auto. intros [|[|k]] K1 K2; [lia| |].
                ** cbn [firstn]. auto.
                ** change (firstn (S (S k)) (c :: bs)) with (c :: firstn (S k) bs). apply (fin_cons _ _ E). apply K; cbn [length] in K2; lia.
  Qed.

  Lemma longest_prefix_gen : forall al bm em b bs,
    (forall st acc, V st -> exists st' acc' stop, do_run o m (longest_pred o) al b (b + N.of_nat (length bs)) st acc = Ok (st', acc') /\
       psteps o (longest_pred o) bs b st acc = Ok (st', acc', stop)) -> text_at m b bs ->
    exists r, longest_prefix_with o m al bm em b (b + N.of_nat (length bs)) = Ok r /\
      longest_result (fun u => Accepts o (mark_if bm BeginMark ++ u)) em b bs r.
  Proof.
    intros al bm em b bs HR T. pose proof (proj1 (proj1 (proj2 T))) as Hb.
    destruct (start_ok bm BeginMark_letter) as (s0 & E0 & V0 & T0).
    unfold longest_prefix_with. rewrite E0. cbn [bind].
    assert (A : forall u, Accepts o (mark_if bm BeginMark ++ u) <-> fin s0 u true) by (intros; apply Accepts_fin; auto).
    destruct (wk_final W V0) as [f Hf]. rewrite Hf. cbn [bind].
    destruct (@psteps_longest bs b s0 (if f then Some b else None) V0 Hb) as (st' & pos & stop & E & V' & H1 & H2 & H3).
    destruct (HR s0 (if f then Some b else None) V0) as (st'' & pos'' & stop'' & E' & E''). rewrite E in E''. injection E'' as <- <- <-.
    rewrite E'. cbn [bind].
    assert (F0 : fin s0 [] f) by (exists s0; auto).
    assert (NA : forall u, fin s0 u false -> ~ Accepts o (mark_if bm BeginMark ++ u)).
    { intros u F X. apply A in X. pose proof (fin_fun F X). discriminate. }
    (* the part before the end mark *)
    assert (X : (exists k, (k <= length bs)%nat /\ pos = Some (b + N.of_nat k) /\ Accepts o (mark_if bm BeginMark ++ firstn k bs) /\
                   forall j, (k < j)%nat -> (j <= length bs)%nat -> ~ Accepts o (mark_if bm BeginMark ++ firstn j bs)) \/
                (pos = None /\ no_prefix (fun u => Accepts o (mark_if bm BeginMark ++ u)) bs)).
    { destruct H3 as [(k & K1 & K2 & -> & K3 & K4)|[-> K]].
      - left. exists k. splits; auto. apply A; auto.
      - destruct f.
        + left. exists 0%nat. splits; try lia.
          * f_equal. lia.
          * cbn [firstn]. apply A. auto.
          * intros j J1 J2. apply NA. apply K; auto.
        + right. split; auto. intros [|k] Hk; apply NA; [exact F0|apply K; lia]. }
    destruct em.
    - destruct (wk_step W (c := EndMark) V' EndMark_letter) as [s2 [E2 V2]]. rewrite E2. cbn [bind].
      destruct (wk_final W V2) as [f2 Hf2]. rewrite Hf2. cbn [bind].
      assert (Y : Accepts o (mark_if bm BeginMark ++ bs ++ [EndMark]) <-> f2 = true).
      { assert (F' : fin st' [EndMark] f2) by (exists s2; cbn [steps]; rewrite E2; auto). rewrite A.
        assert (Wd : is_word [EndMark]) by (repeat constructor; discriminate). destruct stop.
        - destruct (H1 eq_refl [EndMark] Wd) as [Q1 Q2]. split.
          + intros Q. pose proof (fin_fun Q Q1). discriminate.
          + intros ->. pose proof (fin_fun F' Q2). discriminate.
        - rewrite (fin_app [EndMark] true (H2 eq_refl)). split; [intros Q; apply (fin_fun F' Q)|intros ->; auto]. }
      exists (if f2 then Some (b + N.of_nat (length bs)) else pos). split; auto. destruct f2.
      + left. splits; auto. apply Y; auto.
      + assert (NY : ~ Accepts o (mark_if bm BeginMark ++ bs ++ [EndMark])) by (intros Q; apply Y in Q; discriminate).
        destruct X as [(k & K1 & -> & K2 & K3)|[-> K]].
        * right. split; auto. exists k. auto.
        * split; auto.
    - exists pos. split; auto. destruct X as [(k & K1 & -> & K2 & K3)|[-> K]].
      + right. split; [discriminate|]. exists k. auto.
      + split; auto. discriminate.
  Qed.
  Lemma longest_prefix_ok : forall al bm em b bs, aligned_right o (longest_pred o) m al -> text_at m b bs ->
    exists r, longest_prefix_with o m al bm em b (b + N.of_nat (length bs)) = Ok r /\
      longest_result (fun u => Accepts o (mark_if bm BeginMark ++ u)) em b bs r.
  Proof.
    intros al bm em b bs HR T. apply longest_prefix_gen; auto. intros st acc Hv.
    destruct (@psteps_longest bs b st acc Hv (proj1 (proj1 (proj2 T)))) as (st' & pos & stop & E & _).
    exists st', pos, stop. rewrite do_run_ok by auto. rewrite E. auto.
  Qed.
  Lemma longest_prefix_generic : forall bm em b bs, text_at m b bs ->
    exists r, longest_prefix o m bm em b (b + N.of_nat (length bs)) = Ok r /\
      longest_result (fun u => Accepts o (mark_if bm BeginMark ++ u)) em b bs r.
  Proof. intros. apply longest_prefix_ok; auto. apply run_aligned_right. Qed.

  (** *** Suffixes: the text read downwards from rb is cs *)
  Definition down (rb : N) (cs : list N) : Prop :=
    Forall byte cs /\ N.of_nat (length cs) <= rb /\ forall i, (i < length cs)%nat -> m (rb - N.of_nat i) = Some (nth i cs 0).
  Lemma down_cons : forall rb c cs, down rb (c :: cs) -> byte c /\ m rb = Some c /\ 0 < rb /\ down (rb - 1) cs.
  Proof.
    intros rb c cs (F & L & H). inversion F; subst. cbn [length] in *. split; auto. split; [|split; [lia|split; [auto|split; [lia|]]]].
    - specialize (H 0%nat). cbn [nth N.of_nat] in H. rewrite N.sub_0_r in H. apply H. lia.
    - intros i Hi. specialize (H (S i)). cbn [nth] in H. replace (rb - 1 - N.of_nat i) with (rb - N.of_nat (S i)) by lia. apply H. lia.
  Qed.
  Lemma down_rev : forall re bs, holds m (re + 1) bs -> down (re + N.of_nat (length bs)) (rev bs).
  Proof.
    intros re bs [F H]. split; [apply Forall_rev; auto|]. rewrite rev_length. split; [lia|]. intros i Hi.
    rewrite rev_nth by auto. rewrite <- H by lia. f_equal. lia.
  Qed.

  Lemma firstn_word : forall k cs, Forall byte cs -> is_word (firstn k cs).
  Proof.
    intros k cs H. apply bytes_word. apply Forall_forall. intros x Hx. rewrite Forall_forall in H. apply H.
    rewrite <- (firstn_skipn k cs). apply in_or_app. auto.
  Qed.

  Lemma longest_suffix_loop_ok : forall cs fuel rb re st acc, V st -> (length cs < fuel)%nat -> rb = re + N.of_nat (length cs) ->
    down rb cs ->
    exists st' rb' pos f, longest_suffix_loop o m fuel rb re st acc = Ok (st', rb', pos) /\ V st' /\ o_final o st' = Ok f /\
      ((rb' = re /\ steps o st cs = Ok st') \/
       (forall w, is_word w -> fin st (cs ++ w) false /\ fin st' w false)) /\
      let pos1 := if f : bool then Some rb' else pos in
      ((exists k, (k <= length cs)%nat /\ pos1 = Some (rb - N.of_nat k) /\ fin st (firstn k cs) true /\
          forall j, (k < j)%nat -> (j <= length cs)%nat -> fin st (firstn j cs) false) \/
       (pos1 = acc /\ forall k, (k <= length cs)%nat -> fin st (firstn k cs) false)).
  Proof.
    induction cs as [|c cs IH]; intros [|fuel] rb re st acc Hs Hf Hr Hd; try (cbn [length] in Hf; lia).
    - cbn [length N.of_nat] in Hr. rewrite N.add_0_r in Hr. subst rb. cbn [longest_suffix_loop]. rewrite N.eqb_refl. cbn [bind].
      destruct (wk_final W Hs) as [f Ef]. exists st, re, acc, f. splits; auto. cbv zeta. destruct f.
      + left. exists 0%nat. splits; auto.
        * f_equal. cbn. lia.
        * exists st. auto.
        * cbn. intros; lia.
      + right. split; auto. intros [|k] Hk; [|cbn in Hk; lia]. exists st. auto.
    - destruct (down_cons Hd) as (Hc & Em & Hp & Hd'). cbn [longest_suffix_loop].
      destruct (N.eqb_spec rb re) as [E|E]; [cbn [length] in Hr; lia|].
      destruct (wk_dead W Hs) as [d Ed]. rewrite Ed. cbn [bind]. destruct (wk_final W Hs) as [f0 Ef0].
      destruct d.
      + assert (Fd : forall w, is_word w -> fin st w false) by (intros; apply fin_dead; auto).
        assert (f0 = false) by (destruct (Fd [] (Forall_nil _)) as [x [X1 X2]]; cbn [steps] in X1; congruence). subst f0.
        exists st, rb, acc, false. splits; auto.
        * right. intros w Hw. split; auto. apply Fd. apply Forall_app. split; auto. apply bytes_word. apply Hd.
        * cbv zeta. right. split; auto. intros k _. apply Fd. apply firstn_word, Hd.
      + rewrite Ef0. cbn [bind]. unfold load8. rewrite Em. cbn [bind].
        destruct (wk_step W (c := c) Hs (byte_letter Hc)) as [s1 [E1 V1]]. rewrite E1. cbn [bind].
        destruct (IH fuel (rb - 1) re s1 (if f0 then Some rb else acc) V1) as (st' & rb' & pos & f & E' & V' & Ef & H1 & H2); auto;
          [cbn [length] in Hf; lia|cbn [length] in Hr; lia|].
        exists st', rb', pos, f. rewrite E'. splits; auto.
        * destruct H1 as [[-> H1]|H1].
          -- left. split; auto. cbn [steps]. rewrite E1. auto.
          -- right. intros w Hw. cbn [app]. rewrite (fin_cons _ _ E1). auto.
        * cbv zeta in *. destruct H2 as [(k & K1 & K2 & K3 & K4)|[K1 K2]].
          -- left. exists (S k). cbn [length firstn]. splits; try lia.
             ++ rewrite K2. f_equal. lia.
             ++ apply (fin_cons _ _ E1); auto.
             ++ intros [|j] J1 J2; [lia|]. cbn [firstn]. apply (fin_cons _ _ E1). apply K4; lia.
          -- rewrite K1. destruct f0.
             ++ left. exists 0%nat. cbn [firstn]. splits; try lia.
                ** f_equal. cbn. lia.
                ** exists st. auto.
                ** intros [|j] J1 J2; [lia|]. cbn [firstn]. apply (fin_cons _ _ E1). apply K2. cbn [length] in J2. lia.
             ++ right. split; auto. intros [|k] Hk; cbn [firstn].
                ** exists st. auto.
                ** apply (fin_cons _ _ E1). apply K2. cbn [length] in Hk. lia.
  Qed.

  Lemma longest_suffix_ok : forall em bm re bs, holds m (re + 1) bs ->
    exists r, longest_suffix o m em bm (re + N.of_nat (length bs)) re = Ok r /\
      longest_suffix_result (fun u => Accepts o (mark_if em EndMark ++ u)) bm (re + N.of_nat (length bs)) bs r.
  Proof.
    intros em bm re bs H. pose proof (down_rev H) as D. unfold longest_suffix.
    destruct (start_ok em EndMark_letter) as (s0 & E0 & V0 & T0). rewrite E0. cbn [bind].
    set (rb := re + N.of_nat (length bs)) in *.
    destruct (@longest_suffix_loop_ok (rev bs) (S (N.to_nat (rb - re))) rb re s0 None V0) as (st' & rb' & pos & f & E & V' & Ef & H1 & H2); auto;
      [rewrite rev_length; lia|rewrite rev_length; auto|].
    rewrite E. cbn [bind]. rewrite Ef. cbn [bind]. cbv zeta in H2. set (pos1 := if f then Some rb' else pos) in *.
    assert (A : forall u, Accepts o (mark_if em EndMark ++ u) <-> fin s0 u true) by (intros; apply Accepts_fin; auto).
    assert (NA : forall u, fin s0 u false -> ~ Accepts o (mark_if em EndMark ++ u)).
    { intros u F X. apply A in X. pose proof (fin_fun F X). discriminate. }
    rewrite rev_length in H2.
    assert (X : (exists k, (k <= length bs)%nat /\ pos1 = Some (rb - N.of_nat k) /\ Accepts o (mark_if em EndMark ++ firstn k (rev bs)) /\
                   forall j, (k < j)%nat -> (j <= length bs)%nat -> ~ Accepts o (mark_if em EndMark ++ firstn j (rev bs))) \/
                (pos1 = None /\ no_prefix (fun u => Accepts o (mark_if em EndMark ++ u)) (rev bs))).
    { destruct H2 as [(k & K1 & K2 & K3 & K4)|[K1 K2]].
      - left. exists k. splits; auto. apply A; auto.
      - right. split; auto. intros k Hk. rewrite rev_length in Hk. auto. }
    clearbody pos1. destruct bm.
    - destruct (wk_step W (c := BeginMark) V' BeginMark_letter) as [s2 [E2 V2]]. rewrite E2. cbn [bind].
      destruct (wk_final W V2) as [f2 Hf2]. rewrite Hf2. cbn [bind].
      assert (F' : fin st' [BeginMark] f2) by (exists s2; cbn [steps]; rewrite E2; auto).
      assert (Wd : is_word [BeginMark]) by (repeat constructor; discriminate).
      assert (Y : Accepts o (mark_if em EndMark ++ rev bs ++ [BeginMark]) <-> f2 = true).
      { rewrite A. destruct H1 as [[_ H1]|H1].
        - rewrite (fin_app [BeginMark] true H1). split; [intros Q; apply (fin_fun F' Q)|intros ->; auto].
        - destruct (H1 [BeginMark] Wd) as [Q1 Q2]. split.
          + intros Q. pose proof (fin_fun Q Q1). discriminate.
          + intros ->. pose proof (fin_fun F' Q2). discriminate. }
      exists (if f2 then Some rb' else pos1). split; auto. destruct f2.
      + left. splits; auto; [|apply Y; auto].
        destruct H1 as [[-> _]|H1]; [unfold rb; lia|]. exfalso. destruct (H1 [BeginMark] Wd) as [_ Q2].
        pose proof (fin_fun F' Q2). discriminate.
      + assert (NY : ~ Accepts o (mark_if em EndMark ++ rev bs ++ [BeginMark])) by (intros Q; apply Y in Q; discriminate).
        destruct X as [(k & K1 & -> & K2 & K3)|[-> K]].
        * right. split; auto. exists k. auto.
        * split; auto.
    - exists pos1. split; auto. destruct X as [(k & K1 & -> & K2 & K3)|[-> K]].
      + right. split; [discriminate|]. exists k. auto.
      + split; auto. discriminate.
  Qed.

  Lemma shortest_suffix_loop_ok : forall cs fuel rb re st, V st -> (length cs < fuel)%nat -> rb = re + N.of_nat (length cs) ->
    down rb cs ->
    exists st' rb' f, shortest_suffix_loop o m fuel rb re st = Ok (st', rb') /\ V st' /\ o_final o st' = Ok f /\
      if f then exists k, (k <= length cs)%nat /\ rb' = rb - N.of_nat k /\ fin st (firstn k cs) true /\
                  forall j, (j < k)%nat -> fin st (firstn j cs) false
      else forall k, (k <= length cs)%nat -> fin st (firstn k cs) false.
  Proof.
    induction cs as [|c cs IH]; intros [|fuel] rb re st Hs Hf Hr Hd; try (cbn [length] in Hf; lia).
    - cbn [length N.of_nat] in Hr. rewrite N.add_0_r in Hr. subst rb. cbn [shortest_suffix_loop]. rewrite N.eqb_refl. cbn [bind].
      destruct (wk_final W Hs) as [f Ef]. exists st, re, f. splits; auto. destruct f.
      + exists 0%nat. splits; auto; [cbn; lia|exists st; auto|intros; lia].
      + intros [|k] Hk; [|cbn in Hk; lia]. exists st. auto.
    - destruct (down_cons Hd) as (Hc & Em & Hp & Hd'). cbn [shortest_suffix_loop].
      destruct (N.eqb_spec rb re) as [E|E]; [cbn [length] in Hr; lia|].
      destruct (wk_final W Hs) as [f0 Ef0]. rewrite Ef0. cbn [bind]. destruct f0.
      { cbn [bind]. exists st, rb, true. splits; auto. exists 0%nat. splits; try lia. exists st; auto. }
      destruct (wk_dead W Hs) as [d Ed]. rewrite Ed. cbn [bind].
      destruct d.
      + exists st, rb, false. splits; auto. intros k _. apply fin_dead; auto. apply firstn_word, Hd.
      + unfold load8. rewrite Em. cbn [bind]. rewrite (wk_next W Hs (byte_letter Hc)).
        destruct (wk_step W (c := c) Hs (byte_letter Hc)) as [s1 [E1 V1]]. rewrite E1. cbn [bind].
        destruct (IH fuel (rb - 1) re s1 V1) as (st' & rb' & f & E' & V' & Ef & H2); auto;
          [cbn [length] in Hf; lia|cbn [length] in Hr; lia|].
        exists st', rb', f. rewrite E'. splits; auto. destruct f.
        * destruct H2 as (k & K1 & K2 & K3 & K4). exists (S k). cbn [length firstn]. splits; try lia.
          -- apply (fin_cons _ _ E1); auto.
          -- intros [|j] J; cbn [firstn]; [exists st; auto|]. apply (fin_cons _ _ E1). apply K4. lia.
        * intros [|k] Hk; cbn [firstn]; [exists st; auto|]. apply (fin_cons _ _ E1). apply H2. cbn [length] in Hk. lia.
  Qed.

  (** Without the begin mark. *)
  Lemma shortest_suffix_ok : forall em re bs, holds m (re + 1) bs ->
    exists r, shortest_suffix o m em false (re + N.of_nat (length bs)) re = Ok r /\
      shortest_suffix_result (fun u => Accepts o (mark_if em EndMark ++ u)) (re + N.of_nat (length bs)) bs r.
  Proof.
    intros em re bs H. pose proof (down_rev H) as D. unfold shortest_suffix.
    destruct (start_ok em EndMark_letter) as (s0 & E0 & V0 & T0). rewrite E0. cbn [bind].
    set (rb := re + N.of_nat (length bs)) in *.
    destruct (@shortest_suffix_loop_ok (rev bs) (S (N.to_nat (rb - re))) rb re s0 V0) as (st' & rb' & f & E & V' & Ef & H2); auto;
      [rewrite rev_length; lia|rewrite rev_length; auto|].
    rewrite E. cbn [bind]. rewrite Ef. cbn [bind]. rewrite rev_length in H2.
    assert (A : forall u, Accepts o (mark_if em EndMark ++ u) <-> fin s0 u true) by (intros; apply Accepts_fin; auto).
    assert (NA : forall u, fin s0 u false -> ~ Accepts o (mark_if em EndMark ++ u)).
    { intros u F X. apply A in X. pose proof (fin_fun F X). discriminate. }
    eexists. split; [reflexivity|]. destruct f.
    - destruct H2 as (k & K1 & -> & K3 & K4). exists k. splits; auto. apply A; auto.
    - intros k Hk. rewrite rev_length in Hk. auto.
  Qed.
End Works.
