(** The scanner constructor: the table in memory shows the canonical automaton. *)
From Coq Require Import List Bool Arith NArith Lia.
From Verif Require Import Util Spec PartitionModel FsmModel DetermineModel MinimizeModel PartitionProofs Nfa FsmSem FsmBasics
  RunModel RunSpec RunProofs PrefixProofs ScannerModel ScannerSpec ScannerProofs.
Import ListNotations.

(** ** Masks: four copies of each word *)
Definition quad (vs : list N) : list N := flat_map (fun v => repeat v 4) vs.
Lemma quad_cons : forall v vs, quad (v :: vs) = v :: v :: v :: v :: quad vs. Proof. reflexivity. Qed.
Lemma quad_repeat : forall v n, quad (repeat v n) = repeat v (4 * n).
Proof. intros v n. induction n as [|n IH]; [reflexivity|]. replace (4 * S n) with (4 + 4 * n) by lia. rewrite repeat_app, <- IH. reflexivity. Qed.
Lemma set_mask_quad : forall i v vs, set_mask i v (quad vs) = quad (upd i (fun _ => v) vs).
Proof.
  induction i as [|i IH]; intros v [|x vs]; try reflexivity.
  - unfold set_mask. cbn [seq fold_left]. rewrite quad_cons. replace (4 * S i) with (4 + 4 * i) by lia.
    cbn [upd]. rewrite quad_cons. rewrite <- IH. unfold set_mask. cbn [seq fold_left].
    cbn [Nat.add upd]. reflexivity.
Qed.
Lemma get_mask_quad : forall i vs, get_mask i (quad vs) = nth i vs 0%N.
Proof.
  unfold get_mask. induction i as [|i IH]; intros [|x vs]; try reflexivity.
  rewrite quad_cons. replace (4 * S i) with (S (S (S (S (4 * i))))) by lia. cbn [nth]. apply IH.
Qed.
Lemma quad_length : forall vs, length (quad vs) = 4 * length vs.
Proof. induction vs as [|v vs IH]; auto. rewrite quad_cons. cbn [length]. rewrite IH. lia. Qed.

Lemma upd_app_r : forall A (xs ys : list A) f, upd (length xs) f (xs ++ ys) = xs ++ upd 0 f ys.
Proof. induction xs as [|x xs IH]; intros ys f; cbn; [reflexivity|]. rewrite IH. reflexivity. Qed.

Lemma skipn_plus : forall A (l : list A) x y, skipn y (skipn x l) = skipn (x + y) l.
Proof. intros A l x. revert l. induction x as [|x IH]; intros l y; [reflexivity|]. destruct l as [|a l]; cbn [skipn Nat.add]; [destruct y; reflexivity|apply IH]. Qed.

(** Writing the bytes cs after those already written. *)
Lemma fold_set_mask : forall cs bs vs0, length bs + length cs <= length vs0 ->
  fold_left (fun '(i, a) c => (S i, set_mask i (fill_size_t c) a)) cs (length bs, quad (map fill_size_t bs ++ skipn (length bs) vs0))
  = (length (bs ++ cs), quad (map fill_size_t (bs ++ cs) ++ skipn (length (bs ++ cs)) vs0)).
Proof.
  induction cs as [|c cs IH]; intros bs vs0 H.
  - rewrite !app_nil_r. reflexivity.
  - cbn [fold_left]. rewrite set_mask_quad.
    assert (E : upd (length bs) (fun _ => fill_size_t c) (map fill_size_t bs ++ skipn (length bs) vs0)
                = map fill_size_t (bs ++ [c]) ++ skipn (length (bs ++ [c])) vs0).
    { rewrite map_app, app_length. cbn [map length]. rewrite <- (map_length fill_size_t bs) at 1. rewrite upd_app_r, <- app_assoc.
      f_equal. cbn [length] in H. destruct (skipn (length bs) vs0) as [|v vs] eqn:E.
      - apply (f_equal (@length N)) in E. rewrite skipn_length in E. cbn in E. lia.
      - cbn [upd app]. f_equal. replace (length bs + 1) with (S (length bs)) by lia.
        clear - E. revert vs0 E. induction (length bs) as [|n IH]; intros [|w ws] E; try discriminate.
        + cbn in *. congruence.
        + cbn [skipn] in *. apply IH. auto. }
    rewrite E. replace (S (length bs)) with (length (bs ++ [c])) by (rewrite app_length; cbn; lia).
    rewrite IH by (rewrite app_length; cbn [length] in *; lia). rewrite <- app_assoc. reflexivity.
Qed.

Section Masks.
  Variables (k : kind) (s : scanner) (cls : N -> nat) (next : N -> nat) (i : nat) (jumps : list N).
  Let n := k_nmask k.
  Let st := index_to_state k s (N.of_nat i).
  Hypothesis Hl : forall c, letter c -> nth_error (s_letters s) (N.to_nat c) = Some (N.of_nat (cls c) + header_size k)%N.
  Hypothesis Hc : forall l, l < length jumps -> exists c, letter c /\ cls c = l.
  Hypothesis Hb : forall c, letter c -> cls c < length jumps.
  Hypothesis Hj : forall c t, letter c -> nth_error jumps (cls c) = Some t -> (go k st t = st <-> next c = i).

  Lemma letter_bytes_ok : forall l c, In c (letter_bytes s (N.of_nat l + header_size k)) <-> byte c /\ cls c = l.
  Proof.
    intros l c. unfold letter_bytes. rewrite filter_In. unfold all_bytes.
    assert (I : In c (map N.of_nat (seq 0 256)) <-> byte c).
    { rewrite in_map_iff. unfold byte. split.
      - intros [x [<- Hx]]. apply in_seq in Hx. lia.
      - intros H. exists (N.to_nat c). rewrite in_seq. split; lia. }
    rewrite I. split; intros [H1 H2]; split; auto.
    - apply N.eqb_eq in H2. pose proof (Hl c (byte_letter H1)) as X. apply nth_error_nth with (d := 0%N) in X. rewrite X in H2. lia.
    - apply N.eqb_eq. pose proof (Hl c (byte_letter H1)) as X. apply nth_error_nth with (d := 0%N) in X. rewrite X. lia.
  Qed.
  Lemma letter_bytes_nodup : forall l, NoDup (letter_bytes s l).
  Proof.
    intros l. apply NoDup_filter. unfold all_bytes. apply FinFun.Injective_map_NoDup; [|apply seq_NoDup].
    intros x y. apply Nat2N.inj.
  Qed.

  Let vs0 := upd 0 (fun _ => NO_EXIT) (repeat NO_SHORTCUT n).
  Lemma vs0_length : length vs0 = n. Proof. unfold vs0. rewrite upd_length. apply repeat_length. Qed.

  Record inv (l : nat) (bs : list N) : Prop := {
    iv_len : length bs <= n;
    iv_nodup : NoDup bs;
    iv_in : forall c, In c bs -> byte c /\ cls c < l;
    iv_loop : forall c, byte c -> cls c < l -> ~ In c bs -> next c = i
  }.

  Lemma nodup_app : forall (xs ys : list N), NoDup xs -> NoDup ys -> (forall x, In x xs -> ~ In x ys) -> NoDup (xs ++ ys).
  Proof.
    induction xs as [|x xs IH]; intros ys H1 H2 H3; cbn; auto. inversion H1; subst. constructor.
    - rewrite in_app_iff. intros [X|X]; auto. apply (H3 x); cbn; auto.
    - apply IH; auto. intros y Hy. apply H3. cbn; auto.
  Qed.

  Lemma masks_loop_ok : forall js l bs, skipn l jumps = js -> l <= length jumps -> inv l bs ->
    exists bs' broke, masks_loop k s st js (N.of_nat l) (length bs) (quad (map fill_size_t bs ++ skipn (length bs) vs0))
      = (broke, length bs', quad (map fill_size_t bs' ++ skipn (length bs') vs0)) /\
      length bs' <= n /\ (broke = false -> inv (length jumps) bs').
  Proof.
    induction js as [|t js IH]; intros l bs E L I.
    - cbn [masks_loop]. exists bs, false. split; [reflexivity|]. split; [apply I|]. intros _.
      apply (f_equal (@length N)) in E. rewrite skipn_length in E. cbn in E. replace (length jumps) with l by lia. exact I.
    - assert (Ll : l < length jumps) by (apply (f_equal (@length N)) in E; rewrite skipn_length in E; cbn in E; lia).
      assert (Et : nth_error jumps l = Some t).
      { clear - E. revert l E. induction jumps as [|j jl IHj]; intros [|l] E; cbn in *; try discriminate; [congruence|]. apply IHj, E. }
      assert (E' : skipn (S l) jumps = js).
      { clear - E. revert l E. induction jumps as [|j jl IHj]; intros [|l] E; cbn [skipn] in *; try discriminate; [congruence|]. apply IHj, E. }
      cbn [masks_loop]. destruct (Hc l Ll) as [c0 [Lc0 Cc0]].
      replace (N.of_nat l + 1)%N with (N.of_nat (S l)) by lia.
      destruct (N.eqb_spec (go k st t) st) as [G|G].
      + apply IH; auto. split; try apply I.
        * intros c Hc'. destruct (iv_in _ _ I c Hc'). split; auto.
        * intros c Bc Cc Nc. destruct (Nat.eq_dec (cls c) l) as [Q|Q]; [|apply (iv_loop _ _ I); auto; lia].
          apply (Hj c t (byte_letter Bc)); auto. rewrite Q. auto.
      + destruct (Nat.ltb_spec (k_nmask k) (length bs + length (letter_bytes s (N.of_nat l + header_size k)))) as [B|B].
        * exists bs, true. splits; auto; [apply I|discriminate].
        * rewrite fold_set_mask by (rewrite vs0_length; exact B). apply IH; auto. split.
          -- rewrite app_length. exact B.
          -- apply nodup_app; [apply I|apply letter_bytes_nodup|]. intros c H1 H2. apply letter_bytes_ok in H2 as [_ H2].
             destruct (iv_in _ _ I c H1). lia.
          -- intros c Hx. apply in_app_iff in Hx as [Hx|Hx].
             ++ destruct (iv_in _ _ I c Hx). split; auto.
             ++ apply letter_bytes_ok in Hx as [H1 H2]. split; auto. lia.
          -- intros c Bc Cc Nc. rewrite in_app_iff, letter_bytes_ok in Nc.
             apply (iv_loop _ _ I); auto. destruct (Nat.eq_dec (cls c) l); [tauto|lia].
  Qed.

  Lemma fold_fill : forall m j last vs, j + m <= length vs ->
    fold_left (fun a x => set_mask x last a) (seq j m) (quad vs) = quad (firstn j vs ++ repeat last m ++ skipn (j + m) vs).
  Proof.
    induction m as [|m IH]; intros j last vs H.
    - cbn [seq fold_left repeat app]. rewrite Nat.add_0_r, firstn_skipn. reflexivity.
    - cbn [seq fold_left]. rewrite set_mask_quad, IH by (rewrite upd_length; lia). f_equal.
      assert (X : firstn j vs ++ last :: skipn (S j) vs = upd j (fun _ => last) vs).
      { assert (Lj : j < length vs) by lia. clear - Lj. revert j Lj. induction vs as [|v vs IHv]; intros [|j] Lj; cbn in Lj; try lia; [reflexivity|].
        cbn [firstn app upd]. rewrite <- IHv by lia. reflexivity. }
      rewrite <- X. rewrite firstn_app, firstn_firstn, firstn_length. replace (Nat.min (S j) j) with j by lia.
      replace (Nat.min j (length vs)) with j by lia. replace (S j - j) with 1 by lia. cbn [firstn].
      rewrite skipn_app, firstn_length. replace (Nat.min j (length vs)) with j by lia.
      rewrite (skipn_all2 (firstn j vs)) by (rewrite firstn_length; lia). cbn [app].
      replace (S j + m - j) with (S m) by lia. change (skipn (S m) (last :: skipn (S j) vs)) with (skipn m (skipn (S j) vs)).
      rewrite skipn_plus. rewrite <- app_assoc. replace (S j + m) with (j + S m) by lia. reflexivity.
  Qed.

  Lemma nth_upd0 : forall (vs : list N) v d, 0 < length vs -> nth 0 (upd 0 (fun _ => v) vs) d = v.
  Proof. intros [|x vs] v d H; [cbn in H; lia|reflexivity]. Qed.

  Lemma row_shortcuts_ok : forall r, r_jumps r = jumps -> r_masks r = repeat NO_SHORTCUT (4 * n) ->
    masks_ok n (fun c => next c = i) (r_masks (row_shortcuts k s i r)) /\
    r_flags (row_shortcuts k s i r) = r_flags r /\ r_jumps (row_shortcuts k s i r) = r_jumps r.
  Proof.
    intros r Ej Em. unfold row_shortcuts. rewrite Ej, Em. rewrite <- quad_repeat, set_mask_quad. fold vs0. fold st.
    assert (I0 : inv 0 []) by (split; cbn; try constructor; try tauto; try lia).
    destruct (@masks_loop_ok jumps 0 [] eq_refl (Nat.le_0_l _) I0) as (bs & broke & E & Lb & H).
    cbn [length map app skipn] in E. change (N.of_nat 0) with 0%N in E. rewrite E. cbn [r_masks r_flags r_jumps]. split; [|auto].
    assert (Lv : length (map fill_size_t bs ++ skipn (length bs) vs0) = n).
    { rewrite app_length, map_length, skipn_length, vs0_length. lia. }
    set (vs := map fill_size_t bs ++ skipn (length bs) vs0) in *.
    destruct n as [|n'] eqn:Hn.
    { destruct vs; [|discriminate]. destruct broke; unfold finish_masks; fold n; rewrite Hn; destruct (length bs);
        cbn; apply masks_none; auto. }
    destruct broke.
    - rewrite set_mask_quad. set (ws := upd 0 (fun _ => NO_SHORTCUT) vs). assert (Lw : length ws = S n') by (unfold ws; rewrite upd_length; auto).
      assert (W0 : nth 0 ws 0%N = NO_SHORTCUT) by (apply nth_upd0; lia).
      unfold finish_masks. fold n. rewrite Hn. set (j := match length bs with O => 1 | _ => length bs end).
      assert (Lj : 1 <= j <= S n') by (unfold j; destruct (length bs); lia).
      rewrite fold_fill by lia. apply masks_no_shortcut; [lia| |].
      + rewrite quad_length, !app_length, firstn_length, repeat_length, skipn_length. lia.
      + rewrite get_mask_quad. destruct ws as [|w ws']; [cbn in Lw; lia|]. destruct j as [|j']; [lia|]. cbn [firstn app nth]. exact W0.
    - specialize (H eq_refl). destruct bs as [|b bs].
      + unfold finish_masks. fold n. rewrite Hn. cbn [length]. rewrite fold_fill by lia. apply masks_no_exit; [lia| | |].
        * rewrite quad_length, !app_length, firstn_length, repeat_length, skipn_length. lia.
        * rewrite get_mask_quad. unfold vs, vs0. cbn. reflexivity.
        * intros c Bc. apply (iv_loop _ _ H); auto. apply Hb, byte_letter, Bc.
      + unfold finish_masks. fold n. rewrite Hn. cbn [length]. rewrite fold_fill by (cbn [length] in Lb; lia).
        assert (Eq : firstn (S (length bs)) vs ++ repeat (get_mask (S (length bs) - 1) (quad vs)) (S n' - S (length bs)) ++
                     skipn (S (length bs) + (S n' - S (length bs))) vs
                   = map fill_size_t ((b :: bs) ++ repeat (last (b :: bs) 0%N) (S n' - S (length bs)))).
        { rewrite skipn_all2 by (cbn [length] in Lb; lia). rewrite app_nil_r, map_app. f_equal.
          - unfold vs. rewrite firstn_app. replace (S (length bs)) with (length (map fill_size_t (b :: bs))) by (rewrite map_length; reflexivity).
            rewrite firstn_all, Nat.sub_diag. apply app_nil_r.
          - rewrite get_mask_quad. replace (map fill_size_t (repeat (last (b :: bs) 0%N) (S n' - S (length bs))))
              with (repeat (fill_size_t (last (b :: bs) 0%N)) (S n' - S (length bs))).
            2:{ induction (S n' - S (length bs)) as [|m IHm]; cbn [repeat map]; congruence. }
            f_equal. unfold vs. replace (S (length bs) - 1) with (length bs) by lia.
            rewrite app_nth1 by (rewrite map_length; cbn; lia). change 0%N with (fill_size_t 0) at 1. rewrite map_nth. f_equal.
            clear. revert b. induction bs as [|x xs IHx]; intros b; [reflexivity|]. exact (IHx x). }
        rewrite Eq. unfold quad. rewrite flat_map_concat_map, map_map, <- flat_map_concat_map. apply masks_exits.
        * cbn [length] in Lb. lia.
        * apply Forall_forall. intros c X. apply (iv_in _ _ H c X).
        * apply H.
        * intros c Bc Nc. apply (iv_loop _ _ H); auto. apply Hb, byte_letter, Bc.
  Qed.
End Masks.
