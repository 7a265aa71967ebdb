(** run.h: chunked running equals stepping byte by byte. *)
From Coq Require Import List Bool Arith NArith Lia.
From Verif Require Import Util Spec RunModel RunSpec.
Import ListNotations.
Set Implicit Arguments.
Local Open Scope N_scope.

Lemma holds_app : forall m a xs ys, holds m a (xs ++ ys) <-> holds m a xs /\ holds m (a + N.of_nat (length xs)) ys.
Proof.
  intros m a xs ys. unfold holds. rewrite Forall_app. split.
  - intros [[H1 H2] H]. rewrite app_length in H. splits; auto.
    + intros i Hi. rewrite H by lia. rewrite app_nth1; auto.
    + intros i Hi. replace (a + N.of_nat (length xs) + N.of_nat i) with (a + N.of_nat (length xs + i)) by lia.
      rewrite H by lia. rewrite app_nth2 by lia. f_equal. f_equal. lia.
  - intros [[H1 H3] [H2 H4]]. splits; auto. rewrite app_length. intros i Hi. destruct (lt_dec i (length xs)) as [L|L].
    + rewrite H3 by lia. rewrite app_nth1; auto.
    + specialize (H4 (i - length xs)%nat). rewrite app_nth2 by lia.
      replace (a + N.of_nat i) with (a + N.of_nat (length xs) + N.of_nat (i - length xs)) by lia. apply H4. lia.
Qed.
Lemma holds_cons : forall m a x xs, holds m a (x :: xs) <-> byte x /\ m a = Some x /\ holds m (a + 1) xs.
Proof.
  intros m a x xs. change (x :: xs) with ([x] ++ xs). rewrite holds_app. cbn [length N.of_nat Pos.of_succ_nat].
  unfold holds at 1. split.
  - intros [[H H0] H1]. inversion H; subst. splits; auto. specialize (H0 0%nat). cbn in H0. rewrite N.add_0_r in H0. apply H0. lia.
  - intros (B & E & H). splits; auto. intros [|i] Hi; cbn in *; [|lia]. rewrite N.add_0_r. auto.
Qed.

(** The word made of bytes, least significant first. *)
Fixpoint le (bs : list N) : N := match bs with [] => 0 | b :: bs' => b + 256 * le bs' end.

Lemma load_le_ok : forall m bs a, holds m a bs -> load_le m (length bs) a = Ok (le bs).
Proof.
  intros m bs. induction bs as [|b bs IH]; intros a H; cbn [length load_le le]; auto.
  apply holds_cons in H as (B & E & H). unfold load8. rewrite E. cbn [bind]. rewrite IH by auto. reflexivity.
Qed.
Lemma land_255 : forall b r, b < 256 -> N.land (b + 256 * r) 255 = b.
Proof.
  intros b r H. change 255 with (N.ones 8). rewrite N.land_ones. change (2 ^ 8) with 256.
  rewrite N.mul_comm, N.mod_add by lia. apply N.mod_small; auto.
Qed.
Lemma shiftr_8 : forall b r, b < 256 -> N.shiftr (b + 256 * r) 8 = r.
Proof.
  intros b r H. rewrite N.shiftr_div_pow2. change (2 ^ 8) with 256.
  rewrite N.mul_comm, N.div_add by lia. rewrite N.div_small; auto.
Qed.
Lemma shiftr_le : forall xs ys, Forall byte xs -> N.shiftr (le (xs ++ ys)) (8 * N.of_nat (length xs)) = le ys.
Proof.
  intros xs ys H. induction H as [|x xs Hx H IH].
  - cbn [length N.of_nat app]. rewrite N.mul_0_r, N.shiftr_0_r. reflexivity.
  - replace (8 * N.of_nat (length (x :: xs))) with (8 + 8 * N.of_nat (length xs)) by (cbn [length]; lia).
    rewrite <- N.shiftr_shiftr. cbn [app le]. rewrite shiftr_8; auto.
Qed.
Lemma ldiff_7 : forall a, N.ldiff a 7 = a / 8 * 8.
Proof.
  intros a. change 7 with (N.ones 3). rewrite N.ldiff_ones_r, N.shiftl_mul_pow2, N.shiftr_div_pow2. reflexivity.
Qed.

Section Run.
  Variables (St P : Type).
  Variable o : ops St.
  Variable pr : pred St P.
  Notation outcome := (outcome St P).

  (** Stepping with the predicate called after every byte; [ptr] is the address of the
      first byte. *)
  Fixpoint psteps (bs : list N) (ptr : N) (st : St) (acc : P) : res outcome :=
    match bs with
    | [] => Ok (st, acc, false)
    | b :: bs' =>
        let* st1 := o_step o st b in
        let* (acc1, stop) := pr acc st1 (ptr + 1) in
        if stop : bool then Ok (st1, acc1, true) else psteps bs' (ptr + 1) st1 acc1
    end.

  Definition then_ (x : res outcome) (k : St -> P -> res outcome) : res outcome :=
    let* (st1, acc1, stop) := x in if stop : bool then Ok (st1, acc1, true) else k st1 acc1.

  Lemma psteps_app : forall xs ys ptr st acc,
    psteps (xs ++ ys) ptr st acc = then_ (psteps xs ptr st acc) (psteps ys (ptr + N.of_nat (length xs))).
  Proof.
    induction xs as [|x xs IH]; intros ys ptr st acc; cbn [app psteps length].
    - cbn [then_ bind]. rewrite N.add_0_r. reflexivity.
    - unfold then_. destruct (o_step o st x) as [st1|e| |]; cbn [bind]; auto.
      destruct (pr acc st1 (ptr + 1)) as [[acc1 [|]]|e| |]; cbn [bind]; auto.
      rewrite IH. unfold then_. replace (ptr + N.of_nat (S (length xs))) with (ptr + 1 + N.of_nat (length xs)) by lia. reflexivity.
  Qed.

  Variable m : mem.

  Lemma safe_loop_ok : forall bs ptr st acc, holds m ptr bs ->
    safe_loop o m pr (length bs) ptr st acc = psteps bs ptr st acc.
  Proof.
    induction bs as [|b bs IH]; intros ptr st acc H; cbn [length safe_loop psteps]; auto.
    apply holds_cons in H as (B & E & H). unfold load8. rewrite E. cbn [bind].
    destruct (o_step o st b) as [st1|e| |]; cbn [bind]; auto.
    destruct (pr acc st1 (ptr + 1)) as [[acc1 [|]]|e| |]; cbn [bind]; auto.
  Qed.
  Lemma chunk_loop_ok : forall xs ys ptr st acc, Forall byte xs ->
    chunk_loop o pr (length xs) (le (xs ++ ys)) (ptr + 1) st acc = psteps xs ptr st acc.
  Proof.
    induction xs as [|x xs IH]; intros ys ptr st acc H; cbn [length chunk_loop psteps app le]; auto.
    inversion H as [|? ? Hx H']; subst. rewrite land_255 by auto.
    destruct (o_step o st x) as [st1|e| |]; cbn [bind]; auto.
    destruct (pr acc st1 (ptr + 1)) as [[acc1 [|]]|e| |]; cbn [bind]; auto.
    rewrite shiftr_8; auto.
  Qed.

  (** RunChunk on the part [xs] of a word holding [pre ++ xs ++ post] *)
  Lemma run_chunk_ok : forall pre xs post p st acc, length (pre ++ xs ++ post) = 8%nat ->
    holds m p (pre ++ xs ++ post) ->
    run_chunk o m pr p (N.of_nat (length pre)) (N.of_nat (length xs)) st acc
    = psteps xs (p + N.of_nat (length pre)) st acc.
  Proof.
    intros pre xs post p st acc L H. unfold run_chunk. destruct (N.eqb_spec (N.of_nat (length xs)) 0) as [E|E].
    - destruct xs; [reflexivity|cbn in E; lia].
    - rewrite <- L. rewrite load_le_ok by auto. cbn [bind]. destruct H as [F _].
      rewrite !Forall_app in F. rewrite shiftr_le by apply F. rewrite Nat2N.id. apply chunk_loop_ok. apply F.
  Qed.
  Lemma run_chunk_word : forall xs p st acc, length xs = 8%nat -> holds m p xs ->
    run_chunk o m pr p 0 8 st acc = psteps xs p st acc.
  Proof.
    intros xs p st acc L H. pose proof (@run_chunk_ok [] xs [] p st acc) as X. cbn [app] in X. rewrite app_nil_r in X.
    specialize (X L H). rewrite L in X. change (N.of_nat (length [])) with 0 in X. rewrite N.add_0_r in X. exact X.
  Qed.

  (** A RunAligned implementation is right if it agrees with stepping on whole words. *)
  Definition aligned_right (al : N -> N -> St -> P -> res outcome) : Prop :=
    forall n bs b st acc, length bs = (8 * n)%nat -> b mod 8 = 0 -> holds m b bs ->
      al b (b + N.of_nat (length bs)) st acc = psteps bs b st acc.

  Lemma firstn_skipn_8 : forall A n (bs : list A), length bs = (8 * S n)%nat ->
    exists xs ys, bs = xs ++ ys /\ length xs = 8%nat /\ length ys = (8 * n)%nat.
  Proof.
    intros A n bs H. exists (firstn 8 bs), (skipn 8 bs). rewrite firstn_skipn, firstn_length, skipn_length. splits; auto; lia.
  Qed.

  Lemma aligned_loop_ok : forall n k bs b st acc, length bs = (8 * n)%nat -> (n < k)%nat -> holds m b bs ->
    aligned_loop o m pr k b (b + N.of_nat (length bs)) st acc = psteps bs b st acc.
  Proof.
    induction n as [|n IH]; intros [|k] bs b st acc L Hk H; try lia.
    - destruct bs; [|cbn in L; lia]. cbn [length aligned_loop N.of_nat]. rewrite N.add_0_r, N.eqb_refl. reflexivity.
    - destruct (@firstn_skipn_8 _ n bs L) as (xs & ys & -> & L1 & L2). cbn [aligned_loop].
      apply holds_app in H as [H1 H2].
      destruct (N.eqb_spec b (b + N.of_nat (length (xs ++ ys)))) as [E|E]; [rewrite app_length, L1 in E; lia|].
      rewrite run_chunk_word with (xs := xs) by auto. rewrite psteps_app. unfold then_.
      destruct (psteps xs b st acc) as [[[st1 acc1] [|]]|e| |]; cbn [bind]; auto.
      rewrite app_length, L1. replace (b + N.of_nat (8 + length ys)) with (b + 8 + N.of_nat (length ys)) by lia.
      rewrite L1 in H2. change (N.of_nat 8) with 8 in *. apply IH; auto. lia.
  Qed.
  Lemma run_aligned_right : aligned_right (run_aligned o m pr).
  Proof.
    intros n bs b st acc L _ H. unfold run_aligned, words_fuel. apply aligned_loop_ok with (n := n); auto.
    replace (b + N.of_nat (length bs) - b) with (N.of_nat (length bs)) by lia. rewrite L.
    replace (N.of_nat (8 * n)) with (N.of_nat n * 8) by lia. rewrite N.div_mul by lia. lia.
  Qed.

  (** The bytes of memory in a mapped interval. *)
  Lemma mapped_bytes : forall n a, bytes_mem m -> (forall x, a <= x < a + N.of_nat n -> m x <> None) ->
    exists bs, length bs = n /\ holds m a bs.
  Proof.
    induction n as [|n IH]; intros a B H.
    - exists []. split; auto. split; [constructor|cbn; intros; lia].
    - destruct (m a) as [x|] eqn:E; [|exfalso; apply (H a); auto; lia].
      destruct (IH (a + 1)) as [bs [L Hb]]; auto; [intros y Hy; apply H; lia|].
      exists (x :: bs). split; [cbn; lia|]. apply holds_cons. splits; auto. eapply B; eauto.
  Qed.

  Lemma do_run_ok : forall al b bs st acc, aligned_right al -> text_at m b bs ->
    do_run o m pr al b (b + N.of_nat (length bs)) st acc
    = let* (st1, acc1, _) := psteps bs b st acc in Ok (st1, acc1).
  Proof.
    intros al b bs st acc A (B & H & Pre). unfold do_run. rewrite !ldiff_7.
    set (e := b + N.of_nat (length bs)) in *.
    assert (Hb : b = b / 8 * 8 + b mod 8) by (pose proof (N.div_mod b 8); lia).
    assert (Hbm : b mod 8 < 8) by (apply N.mod_lt; lia).
    assert (He : e = e / 8 * 8 + e mod 8) by (pose proof (N.div_mod e 8); lia).
    assert (Hem : e mod 8 < 8) by (apply N.mod_lt; lia).
    set (hb := b / 8 * 8) in *. set (pb := b mod 8) in *. set (te := e / 8 * 8) in *. set (qe := e mod 8) in *.
    destruct (N.eqb_spec hb te) as [E|E].
    - unfold safe_run_chunk. replace (hb + (8 - (hb + 8 - b))) with b by lia.
      replace (N.to_nat (e - b)) with (length bs) by lia. rewrite safe_loop_ok by auto.
      destruct (psteps bs b st acc) as [[[st1 acc1] stop]|x| |]; reflexivity.
    - assert (T : hb < te).
      { assert (b <= e) by lia. assert (b / 8 <= e / 8) by (apply N.div_le_mono; lia). lia. }
      assert (T8 : hb + 8 <= te).
      { assert (b / 8 < e / 8) by lia. lia. }
      (* split the text into head part, words and tail part *)
      set (h := if N.eqb b hb then 0%nat else N.to_nat (hb + 8 - b)).
      set (hs := firstn h bs). set (rest := skipn h bs).
      set (w := N.to_nat (te - (b + N.of_nat h))).
      set (ws := firstn w rest). set (ts := skipn w rest).
      assert (Hh : (h <= length bs)%nat) by (unfold h; destruct (N.eqb_spec b hb); lia).
      assert (Ebs : bs = hs ++ ws ++ ts) by (unfold hs, ws, ts, rest; rewrite !firstn_skipn; auto).
      assert (Lh : length hs = h) by (unfold hs; rewrite firstn_length; lia).
      assert (Hrest : length rest = (length bs - h)%nat) by (unfold rest; rewrite skipn_length; auto).
      assert (Hw : (w <= length rest)%nat) by (unfold w; lia).
      assert (Lw : length ws = w) by (unfold ws; rewrite firstn_length; lia).
      assert (Lt : length ts = (length rest - w)%nat) by (unfold ts; rewrite skipn_length; auto).
      assert (Hhead : (if N.eqb b hb then hb else hb + 8) = b + N.of_nat h) by (unfold h; destruct (N.eqb_spec b hb); lia).
      rewrite Ebs in H. apply holds_app in H as [H1 H2]. apply holds_app in H2 as [H2 H3]. rewrite Lh in H2, H3. rewrite Lw in H3.
      assert (X1 : (if N.eqb b hb then Ok (st, acc, false) else run_chunk o m pr hb (8 - (hb + 8 - b)) (hb + 8 - b) st acc)
                   = psteps hs b st acc).
      { destruct (N.eqb_spec b hb) as [Eb|Eb].
        - unfold h in hs. unfold hs. cbn [firstn psteps]. reflexivity.
        - destruct (@mapped_bytes (N.to_nat pb) hb B) as [pre [Lp Hp]]; [intros x Hx; apply Pre; lia|].
          pose proof (@run_chunk_ok pre hs [] hb st acc) as X. rewrite app_nil_r in X.
          assert (Lh' : length hs = N.to_nat (hb + 8 - b)) by (rewrite Lh; unfold h; destruct (N.eqb_spec b hb); congruence).
          replace (8 - (hb + 8 - b)) with (N.of_nat (length pre)) by lia.
          replace (hb + 8 - b) with (N.of_nat (length hs)) by lia.
          rewrite X.
          + f_equal. lia.
          + rewrite app_length. lia.
          + apply holds_app. split; auto. replace (hb + N.of_nat (length pre)) with b by lia. auto. }
      rewrite X1, Hhead. rewrite Ebs at 1. rewrite psteps_app. unfold then_.
      destruct (psteps hs b st acc) as [[[st1 acc1] [|]]|x| |]; cbn [bind]; auto.
      rewrite psteps_app, Lh, Lw. unfold then_.
      assert (Hle : b + N.of_nat h <= te) by (rewrite <- Hhead; destruct (N.eqb b hb); lia).
      assert (Te : te = b + N.of_nat h + N.of_nat (length ws)) by (rewrite Lw; unfold w; lia).
      assert (Mb : (b + N.of_nat h) mod 8 = 0).
      { rewrite <- Hhead. destruct (N.eqb b hb).
        - unfold hb. apply N.mod_mul. lia.
        - replace (hb + 8) with ((b / 8 + 1) * 8) by lia. apply N.mod_mul. lia. }
      rewrite Te at 1. rewrite (A (w / 8)%nat ws (b + N.of_nat h) st1 acc1); auto.
      + destruct (psteps ws (b + N.of_nat h) st1 acc1) as [[[st2 acc2] [|]]|x| |]; cbn [bind]; auto.
        destruct (N.eqb_spec (e - te) 0) as [Et|Et].
        * destruct ts; [|cbn [length] in Lt; lia]. reflexivity.
        * unfold safe_run_chunk. rewrite N.add_0_r. replace (N.to_nat (e - te)) with (length ts) by lia.
          replace te with (b + N.of_nat h + N.of_nat w) by lia. rewrite safe_loop_ok by auto.
          replace (b + N.of_nat h + N.of_nat w) with (b + N.of_nat h + N.of_nat w) by lia.
          destruct (psteps ts _ st2 acc2) as [[[st3 acc3] s]|x| |]; reflexivity.
      + rewrite Lw.
        assert (N.of_nat w mod 8 = 0).
        { assert (te mod 8 = 0) by (unfold te; apply N.mod_mul; lia).
          rewrite Te, Lw in H. rewrite <- N.add_mod_idemp_l in H by lia. rewrite Mb in H. exact H. }
        assert (w mod 8 = 0)%nat by (rewrite <- (Nat2N.id (w mod 8)), Nat2N.inj_mod; change (N.of_nat 8) with 8; rewrite H; reflexivity).
        pose proof (Nat.div_mod w 8). lia.
  Qed.
End Run.

(** ** Run *)
Section RunPred.
  Variable St : Type.
  Variable o : ops St.
  Variable m : mem.

  Lemma psteps_run : forall bs ptr st acc,
    psteps o (run_pred (St := St)) bs ptr st acc = let* st1 := steps o st bs in Ok (st1, acc, false).
  Proof.
    induction bs as [|b bs IH]; intros ptr st acc; cbn [psteps steps]; auto.
    destruct (o_step o st b) as [st1|e| |]; cbn [bind run_pred]; auto.
  Qed.
  Lemma word_loop_ok : forall bs st, Forall byte bs -> word_loop o (length bs) (le bs) st = steps o st bs.
  Proof.
    induction bs as [|b bs IH]; intros st H; cbn [length word_loop steps le]; auto.
    inversion H; subst. rewrite land_255 by auto. destruct (o_step o st b) as [st1|e| |]; cbn [bind]; auto.
    rewrite shiftr_8; auto.
  Qed.
  Lemma steps_app : forall xs ys st, steps o st (xs ++ ys) = let* st1 := steps o st xs in steps o st1 ys.
  Proof.
    induction xs as [|x xs IH]; intros ys st; cbn [app steps]; auto.
    destruct (o_step o st x); cbn [bind]; auto.
  Qed.
  Lemma aligned_run_loop_ok : forall n k bs b st, length bs = (8 * n)%nat -> (n < k)%nat -> holds m b bs ->
    aligned_run_loop o m k b (b + N.of_nat (length bs)) st = steps o st bs.
  Proof.
    induction n as [|n IH]; intros [|k] bs b st L Hk H; try lia.
    - destruct bs; [|cbn in L; lia]. cbn [length aligned_run_loop N.of_nat]. rewrite N.add_0_r, N.eqb_refl. reflexivity.
    - destruct (@firstn_skipn_8 _ n bs L) as (xs & ys & -> & L1 & L2). cbn [aligned_run_loop].
      apply holds_app in H as [H1 H2].
      destruct (N.eqb_spec b (b + N.of_nat (length (xs ++ ys)))) as [E|E]; [rewrite app_length, L1 in E; lia|].
      pose proof (load_le_ok H1) as X. rewrite L1 in X. rewrite X. cbn [bind].
      pose proof (@word_loop_ok xs st (proj1 H1)) as Y. rewrite L1 in Y. rewrite Y. rewrite steps_app.
      destruct (steps o st xs) as [st1|e| |]; cbn [bind]; auto.
      rewrite app_length, L1. replace (b + N.of_nat (8 + length ys)) with (b + 8 + N.of_nat (length ys)) by lia.
      rewrite L1 in H2. change (N.of_nat 8) with 8 in *. apply IH; auto. lia.
  Qed.
  Lemma run_aligned_run_right : aligned_right o (run_pred (St := St)) m (run_aligned_run o m).
  Proof.
    intros n bs b st acc L _ H. unfold run_aligned_run, words_fuel. rewrite aligned_run_loop_ok with (n := n); auto.
    - rewrite psteps_run. reflexivity.
    - replace (b + N.of_nat (length bs) - b) with (N.of_nat (length bs)) by lia. rewrite L.
      replace (N.of_nat (8 * n)) with (N.of_nat n * 8) by lia. rewrite N.div_mul by lia. lia.
  Qed.

  Lemma run_with_ok : forall al b bs st, aligned_right o (run_pred (St := St)) m al -> text_at m b bs ->
    run_with o m al b (b + N.of_nat (length bs)) st = steps o st bs.
  Proof.
    intros al b bs st A T. unfold run_with. rewrite do_run_ok; auto. rewrite psteps_run.
    destruct (steps o st bs); reflexivity.
  Qed.
  Lemma run_ok : forall b bs st, text_at m b bs -> run o m b (b + N.of_nat (length bs)) st = steps o st bs.
  Proof. intros b bs st T. apply run_with_ok; auto. apply run_aligned_run_right. Qed.
End RunPred.

Lemma text_app : forall m b xs ys, text_at m b (xs ++ ys) -> text_at m b xs /\ text_at m (b + N.of_nat (length xs)) ys.
Proof.
  intros m b xs ys (B & H & Pre). apply holds_app in H as [H1 H2]. split; [split; [auto|split; auto]|].
  split; [auto|split; auto]. intros a Ha. destruct (N.lt_ge_cases a b) as [L|L].
  - apply Pre. split; auto. transitivity ((b + N.of_nat (length xs)) / 8 * 8); [|lia].
    apply N.mul_le_mono_r, N.div_le_mono; lia.
  - destruct H1 as [_ H1]. specialize (H1 (N.to_nat (a - b))). rewrite N2Nat.id in H1.
    replace (b + (a - b)) with a in H1 by lia. rewrite H1 by lia. discriminate.
Qed.

(** Feeding a text in pieces. *)
Lemma run_split : forall St (o : ops St) m b xs ys st, text_at m b (xs ++ ys) ->
  let mid := b + N.of_nat (length xs) in
  let e := b + N.of_nat (length (xs ++ ys)) in
  run o m b e st = let* st1 := run o m b mid st in run o m mid e st1.
Proof.
  intros St o m b xs ys st T mid e. destruct (text_app _ _ T) as [T1 T2]. unfold mid, e.
  rewrite run_ok by auto. rewrite run_ok by auto. rewrite steps_app. destruct (steps o st xs) as [s| | |]; cbn [bind]; auto.
  rewrite app_length. replace (b + N.of_nat (length xs + length ys)) with (b + N.of_nat (length xs) + N.of_nat (length ys)) by lia.
  rewrite run_ok by auto. reflexivity.
Qed.

(** ** Pairs *)
Lemma steps_pair : forall A B (o1 : ops A) (o2 : ops B) w a b a' b',
  steps (pair_ops o1 o2) (a, b) w = Ok (a', b') <-> steps o1 a w = Ok a' /\ steps o2 b w = Ok b'.
Proof.
  intros A B o1 o2 w. induction w as [|c w IH]; intros a b a' b'; cbn [steps].
  - split; [intros H; injection H as -> ->; auto|intros [H1 H2]; congruence].
  - cbn [pair_ops o_step]. destruct (o_step o1 a c) as [a1|e| |]; cbn [bind]; try (split; [discriminate|intros [? ?]; discriminate]).
    destruct (o_step o2 b c) as [b1|e| |]; cbn [bind]; try (split; [discriminate|intros [? ?]; discriminate]). apply IH.
Qed.
Lemma run_pair_ok : forall A B (o1 : ops A) (o2 : ops B) m b bs s1 s2 r1 r2, text_at m b bs ->
  (run_pair o1 o2 m b (b + N.of_nat (length bs)) (s1, s2) = Ok (r1, r2) <->
   steps o1 s1 bs = Ok r1 /\ steps o2 s2 bs = Ok r2).
Proof. intros A B o1 o2 m b bs s1 s2 r1 r2 T. unfold run_pair. rewrite run_ok by auto. apply steps_pair. Qed.
Lemma run_pair_alone : forall A B (o1 : ops A) (o2 : ops B) m b bs s1 s2 r1 r2, text_at m b bs ->
  let e := b + N.of_nat (length bs) in
  (run_pair o1 o2 m b e (s1, s2) = Ok (r1, r2) <-> run o1 m b e s1 = Ok r1 /\ run o2 m b e s2 = Ok r2).
Proof. intros A B o1 o2 m b bs s1 s2 r1 r2 T e. unfold e. rewrite run_pair_ok, !run_ok by auto. reflexivity. Qed.

Lemma run_pieces : forall St (o : ops St) m (pieces : list (N * list N)) st,
  Forall (fun p => text_at m (fst p) (snd p)) pieces ->
  fold_left (fun acc p => let* s := acc in run o m (fst p) (fst p + N.of_nat (length (snd p))) s) pieces (Ok st)
  = steps o st (concat (map snd pieces)).
Proof.
  intros St o m pieces st H.
  assert (X : forall x, fold_left (fun acc p => let* s := acc in run o m (fst p) (fst p + N.of_nat (length (snd p))) s) pieces x
                        = let* s := x in steps o s (concat (map snd pieces))).
  { induction H as [|p ps Hp H IH]; intros x; cbn [fold_left map concat].
    - destruct x; reflexivity.
    - rewrite IH. destruct x as [s| | |]; cbn [bind]; auto. rewrite run_ok by auto. rewrite steps_app. reflexivity. }
  apply X.
Qed.
