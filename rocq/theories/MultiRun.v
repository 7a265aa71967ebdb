(** RunAligned of multi.h: with exit masks, on any instruction set. *)
From Coq Require Import List Bool Arith NArith Lia.
From Verif Require Import Util Spec RunModel RunSpec RunProofs PrefixProofs JumpProofs ScannerModel ScannerSpec ScannerProofs CheckBytes.
Import ListNotations.
Local Open Scope N_scope.

Lemma word_size_pos : forall i, 0 < word_size i. Proof. intros []; reflexivity. Qed.
Lemma word_size_8 : forall i, word_size i = 8 * (word_size i / 8). Proof. intros []; reflexivity. Qed.
Lemma word_size_pow : forall i, exists p, word_size i = 2 ^ p. Proof. intros []; [exists 3|exists 3|exists 4]; reflexivity. Qed.

(** ** The masks of a row *)
Section Masks.
  Variables (k : kind) (s : scanner) (i : isa) (m : mem).
  Variable a : N.
  Variables (n : nat) (b : N) (bs : list N).
  Hypothesis Hlen : (S (length bs) <= n)%nat.
  Hypothesis Hby : Forall byte (b :: bs).
  Hypothesis Hnd : NoDup (b :: bs).
  Let es := (b :: bs) ++ repeat (last (b :: bs) 0) (n - S (length bs)).
  Let ms := flat_map (fun c => repeat (fill_size_t c) 4) es.
  Lemma es_length : length es = n.
  Proof. unfold es. rewrite app_length, repeat_length. cbn [length]. lia. Qed.
  Lemma last_In : forall (l : list N) x d, In (last (x :: l) d) (x :: l).
  Proof. intros l. induction l as [|y l IH]; intros x d; [left; auto|]. right. apply (IH y d). Qed.
  Lemma es_in : forall c, In c es <-> In c (b :: bs).
  Proof.
    intros c. unfold es. rewrite in_app_iff. split; auto. intros [H|H]; auto. apply repeat_spec in H. subst. apply last_In.
  Qed.
  Lemma es_byte : forall j, (j < n)%nat -> byte (nth j es 0).
  Proof.
    intros j Hj. assert (X : In (nth j es 0) es) by (apply nth_In; rewrite es_length; auto). apply es_in in X.
    rewrite Forall_forall in Hby. auto.
  Qed.
  Lemma ms_nth : forall l j r, (r < 4)%nat -> nth_error (flat_map (fun c => repeat (fill_size_t c) 4) l) (4 * j + r) = option_map fill_size_t (nth_error l j).
  Proof.
    induction l as [|x l IH]; intros j r Hr.
    - cbn [flat_map]. destruct (4 * j + r)%nat, j; reflexivity.
    - cbn [flat_map]. destruct j as [|j].
      + rewrite Nat.mul_0_r, Nat.add_0_l. rewrite nth_error_app1 by (rewrite repeat_length; auto). rewrite nth_error_nth' with (d := 0) by (rewrite repeat_length; auto).
        rewrite (nth_indep _ 0 (fill_size_t x)) by (rewrite repeat_length; auto). rewrite nth_repeat. reflexivity.
      + rewrite nth_error_app2 by (rewrite repeat_length; lia). rewrite repeat_length. replace (4 * S j + r - 4)%nat with (4 * j + r)%nat by lia. apply IH; auto.
  Qed.
  Lemma get_mask_es : forall j, (j < n)%nat -> get_mask j ms = fill_size_t (nth j es 0).
  Proof.
    intros j Hj. unfold get_mask, ms. pose proof (ms_nth es j 0 ltac:(lia)) as X. rewrite Nat.add_0_r in X.
    apply nth_error_nth. rewrite X. rewrite nth_error_nth' with (d := 0) by (rewrite es_length; auto). reflexivity.
  Qed.
  (** all exit letters are among the masks that are checked *)
  Lemma masks_used_ok : forall left q, (q + left < n)%nat ->
    let u := masks_used ms q left in (u <= q + left)%nat /\ ((q + left = n - 1)%nat ->
      forall j, (j < n)%nat -> exists j', (j' <= u)%nat /\ nth j' es 0 = nth j es 0).
  Proof.
    induction left as [|left IH]; intros q Hq; cbn [masks_used].
    - split; [lia|]. intros E j Hj. exists j. split; auto. lia.
    - destruct (N.eqb_spec (get_mask q ms) (get_mask (S q) ms)) as [E|E].
      + split; [lia|]. intros _ j Hj. rewrite !get_mask_es in E by lia. apply fill_inj in E; [|apply es_byte; lia|apply es_byte; lia].
        (* q is beyond the last exit *)
        assert (Q : (length bs <= q)%nat).
        { destruct (le_lt_dec (length bs) q) as [L|L]; auto. exfalso. unfold es in E. rewrite !app_nth1 in E by (cbn [length]; lia).
          apply NoDup_nth in E; auto; cbn [length]; lia. }
        destruct (le_lt_dec j q) as [L|L]; [exists j; auto|]. exists q. split; auto.
        assert (Z : forall x, (length bs <= x < n)%nat -> nth x es 0 = last (b :: bs) 0).
        { intros x Hx. unfold es. destruct (Nat.eq_dec x (length bs)) as [->|D].
          - rewrite app_nth1 by (cbn [length]; lia). clear. revert b. induction bs as [|y l IH]; intros x; [reflexivity|]. cbn [length nth last]. apply (IH y).
          - rewrite app_nth2 by (cbn [length]; lia). rewrite (nth_indep _ 0 (last (b :: bs) 0)) by (rewrite repeat_length; cbn [length]; lia). apply nth_repeat. }
        rewrite !Z by lia. reflexivity.
      + destruct (IH (S q)) as [I1 I2]; [lia|]. split; [lia|]. intros X. apply I2. lia.
  Qed.

  (** The bytes checked. *)
  Definition checked (u : nat) : list N := rev (firstn u es).
  Hypothesis Hal : (a + 8 * ((align_up (s_base s) (word_size i) - s_base s) / 8)) mod word_size i = 0.
  Let off := (align_up (s_base s) (word_size i) - s_base s) / 8.
  Hypothesis Hoff : i = SSE2 -> off <= 1.
  Hypothesis Hoff' : i <> SSE2 -> off = 0.

  Lemma mask_word_ok : forall j, (j < n)%nat -> mask_word i a ms j off = Ok (mask_of i (nth j es 0)).
  Proof.
    intros j Hj. unfold mask_word.
    assert (A : (a + 8 * N.of_nat (N.to_nat off + 4 * j)) mod word_size i = 0).
    { replace (a + 8 * N.of_nat (N.to_nat off + 4 * j)) with (a + 8 * off + N.of_nat j * 32) by lia.
      assert (X : exists q, 32 = q * word_size i) by (destruct i; [exists 4|exists 4|exists 2]; reflexivity).
      destruct X as [q X]. rewrite X, N.mul_assoc, N.mod_add by (pose proof (word_size_pos i); lia). exact Hal. }
    rewrite A. cbn [N.eqb negb].
    assert (E : forall r, (r < 4)%nat -> nth_error ms (4 * j + r) = Some (fill_size_t (nth j es 0))).
    { intros r Hr. unfold ms. rewrite ms_nth by auto. rewrite nth_error_nth' with (d := 0) by (rewrite es_length; auto). reflexivity. }
    destruct i; cbn [mask_of].
    - rewrite Hoff' by discriminate. change (N.to_nat 0 + 4 * j)%nat with (4 * j)%nat. rewrite <- (Nat.add_0_r (4 * j)). rewrite E by lia. reflexivity.
    - rewrite Hoff' by discriminate. change (N.to_nat 0 + 4 * j)%nat with (4 * j)%nat. rewrite <- (Nat.add_0_r (4 * j)). rewrite E by lia. reflexivity.
    - specialize (Hoff eq_refl). rewrite (Nat.add_comm (N.to_nat off)). rewrite E by lia.
      replace (S (4 * j + N.to_nat off)) with (4 * j + S (N.to_nat off))%nat by lia. rewrite E by lia. reflexivity.
  Qed.
  Lemma or_checks_ok : forall xs u acc, (u <= n)%nat -> or_checks i a ms off (le xs) u acc = Ok (lor_all i (checked u) xs acc).
  Proof.
    intros xs. induction u as [|u IH]; intros acc Hu; cbn [or_checks]; [reflexivity|].
    rewrite mask_word_ok by lia. cbn [bind]. rewrite IH by lia. f_equal. unfold checked.
    assert (X : firstn (S u) es = firstn u es ++ [nth u es 0]).
    { assert (L : (u < length es)%nat) by (rewrite es_length; lia). clear - L. revert u L. induction es as [|x l IH]; intros u L; [cbn in L; lia|].
      destruct u as [|u]; [reflexivity|]. cbn [firstn nth app]. f_equal. apply IH. cbn in L. lia. }
    rewrite X, rev_app_distr. unfold lor_all. cbn [rev app fold_left]. reflexivity.
  Qed.
  Lemma check_masks_ok : forall xs u, length xs = N.to_nat (word_size i) -> Forall byte xs -> (u < n)%nat ->
    exists g, check_masks i a ms off (le xs) u = Ok g /\ (g = true -> forall j, (j <= u)%nat -> ~ In (nth j es 0) xs).
  Proof.
    intros xs u L Hx Hu. unfold check_masks. rewrite mask_word_ok by auto. cbn [bind]. rewrite or_checks_ok by lia. cbn [bind].
    eexists. split; [reflexivity|]. intros G j Hj. apply negb_true_iff in G.
    assert (Hc : Forall byte (nth u es 0 :: checked u)).
    { constructor; [apply es_byte; auto|]. unfold checked. apply Forall_rev. apply Forall_forall. intros x X.
      assert (In x es) by (rewrite <- (firstn_skipn u es); apply in_or_app; auto). apply es_in in H. rewrite Forall_forall in Hby. auto. }
    fold (zmask i (nth u es 0) xs) in G. rewrite (any_set_ok i xs (nth u es 0) (checked u) L Hx Hc) in G. apply G.
    destruct (Nat.eq_dec j u) as [->|D]; [left; auto|]. right. unfold checked. apply in_rev. rewrite rev_involutive.
    assert (L' : (j < length (firstn u es))%nat) by (rewrite firstn_length, es_length; lia).
    apply (nth_In _ 0) in L'. assert (nth j (firstn u es) 0 = nth j es 0) as <-; auto.
    clear - D Hj. assert (j < u)%nat by lia. clear Hj D. revert u H. generalize j. induction es as [|x l IH]; intros j' u H; [rewrite firstn_nil; auto|].
    destruct u as [|u]; [lia|]. destruct j' as [|j']; [reflexivity|]. cbn [firstn nth]. apply IH. lia.
  Qed.

  (** the skipping loop stops at a word boundary, having passed over looping bytes only *)
  Lemma skip_loop_ok : forall w xs p fuel u, length xs = (w * N.to_nat (word_size i))%nat -> (w < fuel)%nat -> holds m p xs -> (u < n)%nat ->
    exists w1 ys zs, xs = ys ++ zs /\ length ys = (w1 * N.to_nat (word_size i))%nat /\ (w1 <= w)%nat /\
      skip_loop i m fuel a ms off u p (p + N.of_nat (length xs)) = Ok (p + N.of_nat (length ys)) /\
      forall j c, (j <= u)%nat -> In c ys -> c <> nth j es 0.
  Proof.
    induction w as [|w IH]; intros xs p fuel u L F H Hu; (destruct fuel as [|fuel]; [lia|]); cbn [skip_loop].
    - exists 0%nat, [], xs. destruct xs; [|discriminate]. cbn [length N.of_nat app]. rewrite N.add_0_r, N.eqb_refl. splits; auto.
    - pose proof (word_size_pos i) as Wp. set (z := N.to_nat (word_size i)) in *.
      assert (Zp : (0 < z)%nat) by (unfold z; lia).
      destruct (N.eqb_spec p (p + N.of_nat (length xs))) as [E|E]; [nia|].
      set (ws := firstn z xs). set (rest := skipn z xs).
      assert (Ex : xs = ws ++ rest) by (unfold ws, rest; rewrite firstn_skipn; auto).
      assert (Lw : length ws = z) by (unfold ws; rewrite firstn_length; nia).
      assert (Lr : length rest = (w * z)%nat) by (unfold rest; rewrite skipn_length; nia).
      rewrite Ex in H. apply holds_app in H as [H1 H2].
      pose proof (load_le_ok H1) as Ll. rewrite Lw in Ll. rewrite Ll. cbn [bind].
      destruct (check_masks_ok ws u Lw (proj1 H1) Hu) as (g & Eg & Hg). rewrite Eg. cbn [bind]. destruct g.
      + rewrite Lw in H2. assert (Ez : N.of_nat z = word_size i) by (unfold z; lia). rewrite Ez in H2.
        destruct (IH rest (p + word_size i) fuel u Lr ltac:(lia) H2 Hu) as (w1 & ys & zs & Er & Ly & Hw & Es & Hn).
        exists (S w1), (ws ++ ys), zs. splits.
        * rewrite Ex, Er, app_assoc. auto.
        * rewrite app_length, Lw, Ly. lia.
        * lia.
        * rewrite Ex, app_length, Lw. replace (p + N.of_nat (z + length rest)) with (p + word_size i + N.of_nat (length rest)) by lia.
          rewrite Es. rewrite app_length, Lw. f_equal. lia.
        * intros j c Hj Hc. apply in_app_iff in Hc as [Hc|Hc]; auto. intros ->. exact (Hg eq_refl j Hj Hc).
      + exists 0%nat, [], xs. cbn [length N.of_nat app]. rewrite N.add_0_r. splits; auto; lia.
  Qed.
End Masks.

Lemma fill_not_flag : forall c, byte c -> fill_size_t c <> NO_SHORTCUT /\ fill_size_t c <> NO_EXIT.
Proof.
  intros c Hc. rewrite fill_le by auto. cbn [repeat le]. unfold NO_SHORTCUT, NO_EXIT. lia.
Qed.
Lemma align_up_mul : forall t i, t <= align_up t (word_size i) /\ align_up t (word_size i) mod word_size i = 0 /\ align_up t (word_size i) < t + word_size i.
Proof.
  intros t i. assert (X : align_up t (word_size i) = (t + (word_size i - 1)) / word_size i * word_size i).
  { destruct i; [apply (align_up_pow t 3)|apply (align_up_pow t 3)|apply (align_up_pow t 4)]. }
  rewrite X. pose proof (word_size_pos i) as P. pose proof (N.div_mod (t + (word_size i - 1)) (word_size i)) as D.
  pose proof (N.mod_lt (t + (word_size i - 1)) (word_size i)) as R.
  set (q := (t + (word_size i - 1)) / word_size i) in *. assert (word_size i * q = q * word_size i) by lia.
  assert (Z : word_size i <> 0) by lia. specialize (D Z). specialize (R Z). clearbody q. rewrite H in D.
  match type of R with ?r < _ => set (rr := r) in *; clearbody rr end. set (qq := q * word_size i) in *. set (w := word_size i) in *. splits; [clear X; clearbody w qq; lia|apply N.mod_mul; auto|clear X; clearbody w qq; lia].
Qed.
Lemma align_down_mul : forall t i, align_down t (word_size i) <= t /\ align_down t (word_size i) mod word_size i = 0 /\ t < align_down t (word_size i) + word_size i.
Proof.
  intros t i. assert (X : align_down t (word_size i) = t / word_size i * word_size i).
  { destruct i; [apply (align_down_pow t 3)|apply (align_down_pow t 3)|apply (align_down_pow t 4)]. }
  rewrite X. pose proof (word_size_pos i) as P. pose proof (N.div_mod t (word_size i)) as D.
  pose proof (N.mod_lt t (word_size i)) as R. set (q := t / word_size i) in *. assert (word_size i * q = q * word_size i) by lia.
  assert (Z : word_size i <> 0) by lia. specialize (D Z). specialize (R Z). clearbody q. rewrite H in D.
  match type of R with ?r < _ => set (rr := r) in *; clearbody rr end. set (qq := q * word_size i) in *. set (w := word_size i) in *. splits; [clear X; clearbody w qq; lia|apply N.mod_mul; auto|clear X; clearbody w qq; lia].
Qed.

Section MultiRun.
  Variables (k : kind) (s : scanner) (cls : N -> nat) (t : machine).
  Hypothesis S : shows k s cls t.
  Hypothesis M : machine_ok t.
  Variables (i : isa) (m : mem).
  Let o := scanner_ops k s.
  Let V := visited k s t.
  Let off := (align_up (s_base s) (word_size i) - s_base s) / 8.

  Lemma base_8 : s_base s mod 8 = 0.
  Proof.
    unfold s_base, MaxChar. pose proof (pl_align _ _ (sh_placed _ _ _ _ S)) as A.
    replace (s_buf s + 2 * 264 + 8 * s_fsize s + 8 * s_states s) with (s_buf s + (66 + s_fsize s + s_states s) * 8) by lia.
    rewrite N.mod_add by lia. exact A.
  Qed.
  Lemma off_facts : 8 * off = align_up (s_base s) (word_size i) - s_base s /\ off <= 1 /\ (i <> SSE2 -> off = 0).
  Proof.
    unfold off. destruct (align_up_mul (s_base s) i) as (A1 & A2 & A3). pose proof base_8 as B8.
    assert (X : (align_up (s_base s) (word_size i)) mod 8 = 0).
    { apply N.mod_divide; [lia|]. apply N.mod_divide in A2; [|pose proof (word_size_pos i); lia].
      apply N.divide_trans with (word_size i); auto. exists (word_size i / 8). rewrite N.mul_comm. apply word_size_8. }
    apply N.mod_divide in X; [|lia]. apply N.mod_divide in B8; [|lia]. destruct X as [x X]. destruct B8 as [y Y].
    rewrite X, Y in *. replace (x * 8 - y * 8) with ((x - y) * 8) by lia. rewrite N.div_mul by lia. splits.
    - lia.
    - destruct i; cbn [word_size] in *; lia.
    - intros D. destruct i; cbn [word_size] in *; try congruence; lia.
  Qed.
  Lemma addr_aligned : forall q, (addr k s q + 8 * off) mod word_size i = 0.
  Proof.
    intros q. destruct off_facts as (E & _ & _). rewrite E. destruct (align_up_mul (s_base s) i) as (A1 & A2 & A3).
    unfold addr, index_to_state.
    replace (s_base s + N.of_nat q * row_bytes k (s_nletters s) + (align_up (s_base s) (word_size i) - s_base s))
      with (align_up (s_base s) (word_size i) + N.of_nat q * row_bytes k (s_nletters s)) by lia.
    destruct (row_size_facts k (s_nletters s)) as (_ & D & _). apply N.mod_divide in D; [|lia]. destruct D as [z ->].
    assert (X : exists y, 16 = y * word_size i) by (destruct i; [exists 2|exists 2|exists 1]; reflexivity). destruct X as [y X]. rewrite X.
    rewrite !N.mul_assoc, N.mod_add by (pose proof (word_size_pos i); lia). exact A2.
  Qed.

  Definition loops_at (a : N) (c : N) : Prop := o_step o a c = Ok a.
  Lemma loop_step : forall q c, (q < m_states t)%nat -> byte c -> m_next t q c = q -> loops_at (addr k s q) c.
  Proof. intros q c Hq Hc E. unfold loops_at, o. cbn [scanner_ops o_step]. rewrite (next_addr k s cls t S M) by (auto; apply byte_letter; auto). rewrite E. reflexivity. Qed.

  Lemma mask_facts : forall a, V a -> exists ne ns, no_exit k s a = Ok ne /\ no_shortcut k s a = Ok ns /\
    (ne = true -> forall c, byte c -> loops_at a c) /\
    (ne = false -> ns = false -> forall w xs p, length xs = (w * N.to_nat (word_size i))%nat -> holds m p xs ->
      exists w1 ys zs, xs = ys ++ zs /\ length ys = (w1 * N.to_nat (word_size i))%nat /\ (w1 <= w)%nat /\
        shortcut_run k s i m a off p (p + N.of_nat (length xs)) = Ok (p + N.of_nat (length ys)) /\
        Forall (loops_at a) ys).
  Proof.
    intros a Va. apply (visited_live k s cls t S M) in Va as [q [Hq ->]]. destruct (row_exists k s cls t S q Hq) as [r [Er Eh]].
    destruct (sh_row _ _ _ _ S q r Er) as (_ & _ & _ & _ & _ & Mk). unfold no_exit, no_shortcut, shortcut_run. rewrite Eh. cbn [bind].
    remember (r_masks r) as ms. destruct Mk as [Z|ms Z L G|ms Z L G Lo|b bs Lb By Nd Lo].
    - rewrite Z. exists false, true. splits; auto; discriminate.
    - destruct (k_nmask k) as [|n]; [lia|]. rewrite G. exists false, true. splits; auto; discriminate.
    - destruct (k_nmask k) as [|n]; [lia|]. rewrite G. exists true, false. splits; auto; try discriminate.
      intros _ c Hc. apply loop_step; auto.
    - destruct (k_nmask k) as [|n] eqn:En; [lia|].
      pose proof (get_mask_es (Datatypes.S n) b bs Lb 0 ltac:(lia)) as G. cbn [nth app] in G.
      set (ms := flat_map _ _) in *. rewrite G. inversion By as [|? ? Hb By']; subst. destruct (fill_not_flag b Hb) as [F1 F2].
      exists false, false. splits; try discriminate.
      + f_equal. apply N.eqb_neq. auto.
      + f_equal. apply N.eqb_neq. auto.
      + intros _ _ w xs p L H.
        destruct off_facts as (O1 & O2 & O3).
        destruct (masks_used_ok (Datatypes.S n) b bs Lb By Nd n 0 ltac:(lia)) as [U1 U2]. fold ms in U1, U2.
        set (u := masks_used ms 0 n) in *.
        destruct (skip_loop_ok s i m (addr k s q) (Datatypes.S n) b bs Lb By (addr_aligned q) (fun _ => O2) O3 w xs p
                   (Datatypes.S (N.to_nat ((p + N.of_nat (length xs) - p) / word_size i))) u L) as (w1 & ys & zs & E & Ly & Hw & Es & Hn); auto.
        { replace (p + N.of_nat (length xs) - p) with (N.of_nat (length xs)) by lia. rewrite L, Nat2N.inj_mul, N2Nat.id.
          rewrite N.div_mul by (pose proof (word_size_pos i); lia). lia. }
        { lia. }
        exists w1, ys, zs. splits; auto. apply Forall_forall. intros c Hc.
        assert (Bc : byte c). { destruct H as [Hx _]. rewrite Forall_forall in Hx. apply Hx. rewrite E. apply in_or_app; auto. }
        apply loop_step; auto. apply Lo; auto. intros X.
        assert (X' : In c ((b :: bs) ++ repeat (last (b :: bs) 0) (Datatypes.S n - Datatypes.S (length bs)))) by (apply in_or_app; auto).
        apply (In_nth _ _ 0) in X' as [j [Hj Ej]]. rewrite (es_length (Datatypes.S n) b bs Lb) in Hj.
        destruct (U2 ltac:(lia) j Hj) as (j' & J1 & J2). apply (Hn j' c J1 Hc). rewrite J2. auto.
  Qed.

  Variable P : Type.
  Variable pr : pred N P.
  Hypothesis Hpr : forall acc st p, V st -> exists acc1 stop, pr acc st p = Ok (acc1, stop).
  Let W : works o V := scanner_works k s cls t S M.

  Lemma multi_chunk_ok : forall n xs p st acc, length xs = (8 * n)%nat -> holds m p xs ->
    multi_chunk k s m pr n p st acc = psteps o pr xs p st acc.
  Proof.
    induction n as [|n IH]; intros xs p st acc L H; cbn [multi_chunk].
    - destruct xs; [reflexivity|discriminate].
    - destruct (@firstn_skipn_8 _ n xs L) as (ws & ys & E & L1 & L2). subst xs. apply holds_app in H as [H1 H2].
      fold o. rewrite (@run_chunk_word _ _ o pr m ws) by auto. rewrite psteps_app. unfold then_.
      destruct (psteps o pr ws p st acc) as [[[st1 acc1] [|]]|x| |]; cbn [bind]; auto.
      rewrite L1 in *. change (N.of_nat 8) with 8 in *. apply IH; auto.
  Qed.

  Lemma chunks_until_ok : forall n xs b h fuel st acc, length xs = (8 * n)%nat -> holds m b xs -> (n < fuel)%nat -> V st ->
    b <= h -> (h - b) mod 8 = 0 ->
    exists ys zs n1 st1 acc1 stop b1, xs = ys ++ zs /\ length ys = (8 * n1)%nat /\
      psteps o pr ys b st acc = Ok (st1, acc1, stop) /\ V st1 /\
      chunks_until k s m pr fuel b h (b + N.of_nat (length xs)) st acc = Ok (b1, (st1, acc1, stop)) /\
      (stop = false -> b1 = b + N.of_nat (length ys) /\ (b1 = h \/ zs = [])).
  Proof.
    induction n as [|n IH]; intros xs b h fuel st acc L H F Hv Hb Hm; (destruct fuel as [|fuel]; [lia|]); cbn [chunks_until].
    - destruct xs; [|discriminate]. exists [], [], 0%nat, st, acc, false, b. cbn [length N.of_nat psteps app]. rewrite N.add_0_r, N.eqb_refl, orb_true_r.
      splits; auto.
    - destruct (N.eqb_spec b h) as [E|E].
      + exists [], xs, 0%nat, st, acc, false, b. cbn [length N.of_nat psteps app orb]. rewrite N.add_0_r. splits; auto.
      + destruct (N.eqb_spec b (b + N.of_nat (length xs))) as [E'|E']; [lia|]. cbn [orb].
        destruct (@firstn_skipn_8 _ n xs L) as (ws & rest & Ex & L1 & L2). subst xs. apply holds_app in H as [H1 H2].
        fold o. rewrite (@run_chunk_word _ _ o pr m ws) by auto.
        destruct (@psteps_total _ _ o V W pr Hpr ws b st acc Hv (proj1 H1)) as (st1 & acc1 & stop & Ep & V1). rewrite Ep. cbn [bind].
        assert (Hh : b + 8 <= h).
        { apply N.mod_divide in Hm; [|lia]. destruct Hm as [z Hm]. lia. }
        rewrite L1 in *. change (N.of_nat 8) with 8 in *.
        destruct stop.
        * exists ws, rest, 1%nat, st1, acc1, true, b. splits; auto; discriminate.
        * destruct (IH rest (b + 8) h fuel st1 acc1) as (ys & zs & n1 & st2 & acc2 & stop & b1 & E1 & E2 & E3 & E4 & E5 & E6); auto; try lia.
          { replace (h - (b + 8)) with (h - b - 8) by lia. apply N.mod_divide in Hm; [|lia]. destruct Hm as [z Hm].
            apply N.mod_divide; [lia|]. exists (z - 1). lia. }
          exists (ws ++ ys), zs, (Datatypes.S n1), st2, acc2, stop, b1. splits; auto.
          -- rewrite <- app_assoc, E1. reflexivity.
          -- rewrite app_length. lia.
          -- rewrite psteps_app, Ep. unfold then_. cbn [bind]. rewrite L1. exact E3.
          -- rewrite <- E5. f_equal. rewrite app_length. lia.
          -- intros Es. destruct (E6 Es) as [X Y]. split; auto. rewrite app_length. lia.
  Qed.

  Lemma firstn_skipn_w : forall (A : Type) w d (bs : list A), length bs = (Datatypes.S w * d)%nat ->
    exists xs ys, bs = xs ++ ys /\ length xs = d /\ length ys = (w * d)%nat.
  Proof.
    intros A w d bs L. exists (firstn d bs), (skipn d bs). rewrite firstn_skipn, firstn_length, skipn_length. splits; auto; lia.
  Qed.
  Lemma ws_nat : N.to_nat (word_size i) = (8 * N.to_nat (word_size i / 8))%nat.
  Proof. destruct i; reflexivity. Qed.

  Lemma main_loop_ok : forall fuel w ws rest head ns st acc, length ws = (w * N.to_nat (word_size i))%nat ->
    holds m head (ws ++ rest) -> V st -> (ns = false -> no_shortcut k s st = Ok false) ->
    (2 * w + (if ns then 0 else 1) < fuel)%nat ->
    exists r, main_loop k s i m pr fuel off head (head + N.of_nat (length ws)) (head + N.of_nat (length (ws ++ rest))) ns st acc = Ok r /\
      match r with
      | Returned x => jumps o pr (ws ++ rest) head st acc x
      | Left st1 acc1 => V st1 /\ forall out, jumps o pr rest (head + N.of_nat (length ws)) st1 acc1 out -> jumps o pr (ws ++ rest) head st acc out
      end.
  Proof.
    pose proof (word_size_pos i) as Wp. set (d := N.to_nat (word_size i)) in *.
    induction fuel as [|fuel IH]; intros w ws rest head ns st acc L H Hv Hns F; [lia|]. cbn [main_loop].
    destruct w as [|w].
    - destruct ws; [|discriminate]. cbn [length N.of_nat app]. rewrite N.add_0_r, N.eqb_refl. cbn [negb]. rewrite andb_false_r.
      exists (Left st acc). split; auto.
    - destruct (N.eqb_spec head (head + N.of_nat (length ws))) as [E|E]; [lia|]. cbn [negb]. rewrite andb_true_r.
      destruct ns.
      + destruct (firstn_skipn_w _ w d ws L) as (xs & ys & -> & L1 & L2). rewrite <- app_assoc in *. apply holds_app in H as [H1 H2].
        rewrite (multi_chunk_ok _ xs) by (auto; rewrite L1; apply ws_nat).
        destruct (@psteps_total _ _ o V W pr Hpr xs head st acc Hv (proj1 H1)) as (st1 & acc1 & stop & Ep & V1). rewrite Ep. cbn [bind].
        apply (@jumps_psteps _ _ o pr xs (ys ++ rest)) in Ep. destruct stop.
        * exists (Returned (st1, acc1, true)). split; auto.
        * destruct (mask_facts st1 V1) as (ne & ns & _ & En & _ & _). rewrite En. cbn [bind].
          assert (Dx : N.of_nat (length xs) = word_size i) by (rewrite L1; unfold d; lia). rewrite Dx in *.
          destruct (IH w ys rest (head + word_size i) ns st1 acc1) as (r & Er & Hr); auto.
          { intros ->. auto. }
          { destruct ns; lia. }
          exists r. split.
          -- rewrite <- Er. f_equal; rewrite !app_length, !Nat2N.inj_add, Dx; lia.
          -- destruct r as [x|st2 acc2]; [apply Ep; auto|]. destruct Hr as [V2 Hr]. split; auto. intros out J. apply Ep, Hr.
             replace (head + word_size i + N.of_nat (length ys)) with (head + N.of_nat (length (xs ++ ys))); auto.
             rewrite app_length, Nat2N.inj_add, Dx. lia.
      + destruct (mask_facts st Hv) as (ne & ns & En1 & En2 & Hne & Hex). rewrite En1. cbn [bind].
        rewrite (Hns eq_refl) in En2. injection En2 as <-. destruct ne.
        * destruct (Hpr acc st (head + N.of_nat (length (ws ++ rest))) Hv) as (acc1 & stop & Ep). rewrite Ep. cbn [bind].
          exists (Returned (st, acc1, stop)). split; auto.
          rewrite <- (app_nil_r (ws ++ rest)). apply (@jumps_skip _ _ o pr).
          { destruct H as [Hb _]. eapply Forall_impl; [|exact Hb]. intros c Hc. apply Hne; auto. }
          destruct stop; [eapply J_call_stop; eauto|]. eapply J_call; eauto. constructor.
        * pose proof H as H'. apply holds_app in H as [H1 H2].
          destruct (Hex eq_refl eq_refl (Datatypes.S w) ws head L H1) as (w1 & ys & zs & Ew & L1 & Lw & Es & Fl).
          rewrite Es. cbn [bind]. rewrite Ew in H'. rewrite <- app_assoc in H'. apply holds_app in H' as [_ H3].
          assert (Lz : length zs = ((Datatypes.S w - w1) * d)%nat) by (rewrite Ew, app_length in L; nia).
          destruct (IH (Datatypes.S w - w1)%nat zs rest (head + N.of_nat (length ys)) true st acc) as (r & Er & Hr); auto; try discriminate; try lia.
          exists r. split.
          -- rewrite <- Er, Ew. f_equal; rewrite ?app_length; lia.
          -- rewrite Ew, <- app_assoc.
             assert (J : forall out, jumps o pr (zs ++ rest) (head + N.of_nat (length ys)) st acc out -> jumps o pr (ys ++ zs ++ rest) head st acc out)
               by (intros out; apply (@jumps_skip _ _ o pr); exact Fl).
             destruct r as [x|st2 acc2]; [auto|]. destruct Hr as [V2 Hr]. split; auto. intros out X. apply J, Hr.
             replace (head + N.of_nat (length ys) + N.of_nat (length zs)) with (head + N.of_nat (length (ys ++ zs))) by (rewrite app_length; lia). auto.
  Qed.

  (** With no masks nothing is skipped. *)
  Lemma main_loop_plain : k_nmask k = 0%nat -> forall w ws fuel head e st acc, length ws = (w * N.to_nat (word_size i))%nat ->
    holds m head ws -> (w < fuel)%nat ->
    main_loop k s i m pr fuel off head (head + N.of_nat (length ws)) e true st acc =
      let* (st1, acc1, stop) := psteps o pr ws head st acc in Ok (if stop : bool then Returned (st1, acc1, true) else Left st1 acc1).
  Proof.
    intros Z. pose proof (word_size_pos i) as Wp. set (d := N.to_nat (word_size i)) in *.
    induction w as [|w IH]; intros ws fuel head e st acc L H F; (destruct fuel as [|fuel]; [lia|]); cbn [main_loop].
    - destruct ws; [|discriminate]. cbn [length N.of_nat psteps]. rewrite N.add_0_r, N.eqb_refl. reflexivity.
    - destruct (N.eqb_spec head (head + N.of_nat (length ws))) as [E|E]; [lia|]. cbn [negb andb].
      destruct (firstn_skipn_w _ w d ws L) as (xs & ys & -> & L1 & L2). apply holds_app in H as [H1 H2].
      rewrite (multi_chunk_ok _ xs) by (auto; rewrite L1; apply ws_nat). rewrite psteps_app. unfold then_.
      destruct (psteps o pr xs head st acc) as [[[st1 acc1] [|]]|x| |]; cbn [bind]; auto.
      unfold no_shortcut. rewrite Z. cbn [bind].
      assert (Dx : N.of_nat (length xs) = word_size i) by (rewrite L1; unfold d; lia). rewrite Dx in *.
      rewrite <- (IH ys fuel (head + word_size i) e) by (auto; lia). f_equal. rewrite app_length, Nat2N.inj_add, Dx. lia.
  Qed.

  Lemma mod_ws_8 : forall x, x mod word_size i = 0 -> x mod 8 = 0.
  Proof.
    intros x E. apply N.mod_divide in E; [|pose proof (word_size_pos i); lia]. apply N.mod_divide; [lia|].
    apply N.divide_trans with (word_size i); auto. exists (word_size i / 8). rewrite N.mul_comm. apply word_size_8.
  Qed.
  Lemma sub_mod : forall d x y, 0 < d -> x mod d = 0 -> y mod d = 0 -> (x - y) mod d = 0.
  Proof.
    intros d x y Hd X Y. apply N.mod_divide in X; [|lia]. apply N.mod_divide in Y; [|lia]. destruct X as [a ->]. destruct Y as [c ->].
    rewrite <- N.mul_sub_distr_r. apply N.mod_mul. lia.
  Qed.
  Lemma fuel_enough : forall n b, (n < words_fuel b (b + N.of_nat (8 * n)))%nat.
  Proof.
    intros n b. unfold words_fuel. replace (b + N.of_nat (8 * n) - b) with (N.of_nat n * 8) by lia. rewrite N.div_mul by lia. lia.
  Qed.
  Lemma split_at : forall (A : Type) n (xs : list A), (n <= length xs)%nat -> exists ys zs, xs = ys ++ zs /\ length ys = n.
  Proof. intros A n xs H. exists (firstn n xs), (skipn n xs). rewrite firstn_skipn, firstn_length. split; auto. lia. Qed.

  (** The middle and the tail: [zs] is what is left after the first loop. *)
  Lemma whole_words : forall n zs b, length zs = (8 * n)%nat -> b mod word_size i = 0 -> holds m b zs ->
    exists w ws rest n2, zs = ws ++ rest /\ length ws = (w * N.to_nat (word_size i))%nat /\ length rest = (8 * n2)%nat /\
      align_down (b + N.of_nat (length zs)) (word_size i) = b + N.of_nat (length ws) /\
      (align_down (b + N.of_nat (length zs)) (word_size i) - b) / word_size i = N.of_nat w.
  Proof.
    intros n zs b L Hb H. set (e := b + N.of_nat (length zs)). destruct (align_down_mul e i) as (A1 & A2 & A3).
    set (tail := align_down e (word_size i)) in *. pose proof (word_size_pos i) as Wp.
    assert (Hbt : b <= tail).
    { apply N.mod_divide in Hb; [|lia]. apply N.mod_divide in A2; [|lia]. destruct Hb as [x Hb]. destruct A2 as [y Hy].
      rewrite Hb, Hy in *. apply N.mul_le_mono_r. assert (x * word_size i < (y + 1) * word_size i) by lia.
      apply N.mul_lt_mono_pos_r in H0; lia. }
    assert (D : (tail - b) mod word_size i = 0) by (apply sub_mod; auto).
    pose proof D as D8. apply mod_ws_8 in D8. apply N.mod_divide in D; [|lia]. destruct D as [w D].
    apply N.mod_divide in D8; [|lia]. destruct D8 as [w8 D8].
    destruct (split_at _ (N.to_nat (tail - b)) zs) as (ws & rest & E & Lw); [unfold e in *; lia|].
    exists (N.to_nat w), ws, rest, (n - N.to_nat w8)%nat. splits; auto.
    - rewrite Lw, D, N2Nat.inj_mul. reflexivity.
    - rewrite E, app_length in L. lia.
    - lia.
    - rewrite D, N.div_mul by lia. lia.
  Qed.

  Theorem multi_jumps : aligned_jumps o V pr m (multi_run_aligned k s i m pr).
  Proof.
    intros n bs b st acc L Hb H Hv. unfold multi_run_aligned. destruct (align_up_mul b i) as (A1 & A2 & A3).
    set (head := align_up b (word_size i)) in *.
    destruct (chunks_until_ok n bs b head (words_fuel b (b + N.of_nat (length bs))) st acc) as (ys & zs & n1 & st1 & acc1 & stop & b1 & E1 & E2 & E3 & E4 & E5 & E6); auto.
    { rewrite L. apply fuel_enough. }
    { apply sub_mod; try lia. apply mod_ws_8; auto. }
    rewrite E5. cbn [bind]. apply (@jumps_psteps _ _ o pr ys zs) in E3. rewrite <- E1 in E3.
    destruct stop; [exists (st1, acc1, true); auto|]. destruct (E6 eq_refl) as [B1 B2]. clear E6.
    destruct (N.eqb_spec b1 (b + N.of_nat (length bs))) as [Ee|Ee].
    { exists (st1, acc1, false). split; auto. apply E3. rewrite E1, app_length in Ee. destruct zs; [constructor|cbn [length] in Ee; lia]. }
    assert (Bh : b1 = head). { destruct B2 as [|X]; auto. subst zs. rewrite app_nil_r in E1. subst. congruence. }
    destruct (mask_facts st1 E4) as (ne & ns & M1 & M2 & Hne & Hex). rewrite M1. cbn [bind].
    pose proof H as H'. rewrite E1 in H'. apply holds_app in H' as [_ Hz]. rewrite <- B1 in Hz, E3.
    assert (Ebe : b + N.of_nat (length bs) = b1 + N.of_nat (length zs)) by (rewrite E1, app_length; lia). rewrite Ebe.
    destruct ne.
    { destruct (Hpr acc1 st1 (b1 + N.of_nat (length zs)) E4) as (acc2 & stop & Ep). rewrite Ep. cbn [bind].
      exists (st1, acc2, stop). split; auto. apply E3. rewrite <- (app_nil_r zs). apply (@jumps_skip _ _ o pr).
      { eapply Forall_impl; [|exact (proj1 Hz)]. intros c Hc. apply Hne; auto. }
      destruct stop; [eapply J_call_stop; eauto|]. eapply J_call; eauto. constructor. }
    rewrite M2. cbn [bind].
    assert (Lz : length zs = (8 * (n - n1))%nat) by (rewrite E1, app_length in L; lia).
    destruct (whole_words (n - n1) zs b1 Lz) as (w & ws & rest & n2 & Z1 & Z2 & Z3 & Z4 & Z5); auto; [rewrite Bh; auto|].
    rewrite <- Bh. rewrite Z5, Z4. fold off. rewrite Z1 in *.
    destruct (main_loop_ok (2 + 2 * N.to_nat (N.of_nat w)) w ws rest b1 ns st1 acc1) as (r & Er & Hr); auto.
    { intros ->. auto. }
    { destruct ns; lia. }
    rewrite Er. cbn [bind]. destruct r as [x|st2 acc2]; [exists x; split; auto|]. destruct Hr as [V2 Hr].
    apply holds_app in Hz as [_ Hr2].
    set (tail := b1 + N.of_nat (length ws)) in *.
    assert (Et : b1 + N.of_nat (length (ws ++ rest)) = tail + N.of_nat (length rest)) by (rewrite app_length; unfold tail; lia).
    rewrite Et. clearbody tail.
    destruct (chunks_until_ok n2 rest tail (tail + N.of_nat (length rest)) (words_fuel tail (tail + N.of_nat (length rest))) st2 acc2)
      as (ys' & zs' & n1' & st3 & acc3 & stop & b3 & F1 & F2 & F3 & F4 & F5 & F6); auto; try lia.
    { rewrite Z3. apply fuel_enough. }
    { rewrite Z3. replace (tail + N.of_nat (8 * n2) - tail) with (N.of_nat n2 * 8) by lia. apply N.mod_mul. lia. }
    rewrite F5. cbn [bind]. exists (st3, acc3, stop). split; auto. apply E3, Hr.
    apply (@jumps_psteps _ _ o pr ys' zs') in F3. rewrite <- F1 in F3. destruct stop; auto. apply F3.
    destruct (F6 eq_refl) as [G1 G2]. assert (zs' = []) as ->; [|constructor].
    destruct G2 as [G2|]; auto. rewrite F1, app_length in G2. destruct zs'; auto. cbn [length] in G2. lia.
  Qed.

  Theorem multi_right : k_nmask k = 0%nat -> forall n bs b st acc, length bs = (8 * n)%nat -> b mod 8 = 0 -> holds m b bs -> V st ->
    multi_run_aligned k s i m pr b (b + N.of_nat (length bs)) st acc = psteps o pr bs b st acc.
  Proof.
    intros Z n bs b st acc L Hb H Hv. unfold multi_run_aligned. destruct (align_up_mul b i) as (A1 & A2 & A3).
    set (head := align_up b (word_size i)) in *.
    destruct (chunks_until_ok n bs b head (words_fuel b (b + N.of_nat (length bs))) st acc) as (ys & zs & n1 & st1 & acc1 & stop & b1 & E1 & E2 & E3 & E4 & E5 & E6); auto.
    { rewrite L. apply fuel_enough. }
    { apply sub_mod; try lia. apply mod_ws_8; auto. }
    rewrite E5. cbn [bind]. 
    assert (Ep : psteps o pr bs b st acc = if stop then Ok (st1, acc1, true) else psteps o pr zs (b + N.of_nat (length ys)) st1 acc1).
    { rewrite E1, psteps_app, E3. unfold then_. cbn [bind]. destruct stop; reflexivity. }
    rewrite Ep. destruct stop; [auto|]. destruct (E6 eq_refl) as [B1 B2]. clear E6.
    destruct (N.eqb_spec b1 (b + N.of_nat (length bs))) as [Ee|Ee].
    { rewrite E1, app_length in Ee. destruct zs; [reflexivity|cbn [length] in Ee; lia]. }
    assert (Bh : b1 = head). { destruct B2 as [|X]; auto. subst zs. rewrite app_nil_r in E1. subst. congruence. }
    unfold no_exit, no_shortcut. rewrite Z. cbn [bind]. rewrite <- B1.
    pose proof H as H'. rewrite E1 in H'. apply holds_app in H' as [_ Hz]. rewrite <- B1 in Hz.
    assert (Ebe : b + N.of_nat (length bs) = b1 + N.of_nat (length zs)) by (rewrite E1, app_length; lia). rewrite Ebe.
    assert (Lz : length zs = (8 * (n - n1))%nat) by (rewrite E1, app_length in L; lia).
    destruct (whole_words (n - n1) zs b1 Lz) as (w & ws & rest & n2 & Z1 & Z2 & Z3 & Z4 & Z5); auto; [rewrite Bh; auto|].
    rewrite <- Bh. rewrite Z5, Z4. fold off. rewrite Z1 in *. apply holds_app in Hz as [Hw Hr2].
    rewrite (main_loop_plain Z w) by (auto; lia). rewrite psteps_app. unfold then_.
    destruct (@psteps_total _ _ o V W pr Hpr ws b1 st1 acc1 E4 (proj1 Hw)) as (st2 & acc2 & stop & Ew & V2). rewrite Ew. cbn [bind].
    destruct stop; auto.
    set (tail := b1 + N.of_nat (length ws)) in *.
    assert (Et : b1 + N.of_nat (length (ws ++ rest)) = tail + N.of_nat (length rest)) by (rewrite app_length; unfold tail; lia).
    rewrite Et. clearbody tail.
    destruct (chunks_until_ok n2 rest tail (tail + N.of_nat (length rest)) (words_fuel tail (tail + N.of_nat (length rest))) st2 acc2)
      as (ys' & zs' & n1' & st3 & acc3 & stop & b3 & F1 & F2 & F3 & F4 & F5 & F6); auto; try lia.
    { rewrite Z3. apply fuel_enough. }
    { rewrite Z3. replace (tail + N.of_nat (8 * n2) - tail) with (N.of_nat n2 * 8) by lia. apply N.mod_mul. lia. }
    rewrite F5. cbn [bind]. rewrite F1, psteps_app, F3. unfold then_. cbn [bind]. destruct stop; auto.
    destruct (F6 eq_refl) as [G1 G2]. assert (zs' = []) as ->; [|reflexivity].
    destruct G2 as [G2|]; auto. rewrite F1, app_length in G2. destruct zs'; auto. cbn [length] in G2. lia.
  Qed.
End MultiRun.
