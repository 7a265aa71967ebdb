(** The tables of the scanners the interface gives have the sizes the counters say, and their
    entries fit in the types they are stored in. *)
From Coq Require Import List Bool Arith NArith Lia.
From Verif Require Import Util Spec PartitionModel FsmModel DetermineModel MinimizeModel RunModel ScannerModel GlueModel.
Import ListNotations.
Local Open Scope N_scope.

Definition row_fits (r : srow) : Prop := Forall (fun x => x < two64) (r_masks r) /\ r_flags r < two64.
Record fits (s : scanner) : Prop := mkFits {
  ft_fsize : s_fsize s < two32;
  ft_flen : length (s_final s) = N.to_nat (s_fsize s);
  ft_final : Forall (fun x => x < two64) (s_final s);
  ft_ilen : length (s_index s) = N.to_nat (s_states s);
  ft_index : Forall (fun x => x < two64) (s_index s);
  ft_letters : Forall (fun x => x < 65536) (s_letters s);
  ft_nrows : length (s_rows s) = N.to_nat (s_states s);
  ft_rows : Forall row_fits (s_rows s)
}.

Lemma upd_Forall : forall A (P : A -> Prop) f l i, (forall x, P x -> P (f x)) -> Forall P l -> Forall P (upd i f l).
Proof.
  intros A P f. induction l as [|x l IH]; intros i H F; destruct i; cbn [upd]; auto; inversion F; subst; constructor; auto.
Qed.
Lemma foldm_inv : forall S A (P : S -> Prop) (f : S -> A -> res S) l s s', (forall s x s', In x l -> P s -> f s x = Ok s' -> P s') ->
  P s -> foldm f l s = Ok s' -> P s'.
Proof.
  intros S A P f. induction l as [|x l IH]; intros s s' H Hs E; cbn [foldm] in E.
  - inversion E; subst. auto.
  - destruct (f s x) as [s1| | |] eqn:E1; cbn [bind] in E; try discriminate. eapply IH; [|eapply H; [left; eauto|exact Hs|exact E1]|exact E].
    intros. eapply H; eauto. right; auto.
Qed.
Lemma Forall_repeat : forall A (P : A -> Prop) x n, P x -> Forall P (repeat x n).
Proof. intros. induction n; cbn [repeat]; auto. Qed.
Lemma fold_left_inv : forall S A (P : S -> Prop) (f : S -> A -> S) l s, (forall s x, In x l -> P s -> P (f s x)) -> P s -> P (fold_left f l s).
Proof.
  intros S A P f. induction l as [|x l IH]; intros s H Hs; cbn [fold_left]; auto. apply IH; [|apply H; [left; auto|auto]]. intros. apply H; auto. right; auto.
Qed.

Lemma fill_letters_fits : forall hs p, Forall (fun x => x < 65536) (fill_letters hs p).
Proof.
  intros. unfold fill_letters. apply fold_left_inv; [|apply Forall_repeat; lia].
  intros acc [c [idx ms]] _ F. apply fold_left_inv; auto. intros a c' _ G. apply upd_Forall; auto. intros. apply N.mod_lt. lia.
Qed.
Lemma init_fits : forall k buf states p nf start rg s, init_scanner k buf states p nf start rg = Ok s -> fits s.
Proof.
  intros k buf states p nf start rg s E. unfold init_scanner in E. destruct (_ || _) eqn:B; [discriminate|]. apply orb_false_iff in B as [B1 B2].
  apply N.leb_gt in B1. inversion E; subst. clear E. split; cbn [s_fsize s_final s_index s_states s_letters s_rows].
  - rewrite Nat2N.inj_add. unfold two32 in *. lia.
  - rewrite repeat_length. lia.
  - apply Forall_repeat. reflexivity.
  - rewrite repeat_length. lia.
  - apply Forall_repeat. reflexivity.
  - apply fill_letters_fits.
  - rewrite repeat_length. lia.
  - apply Forall_repeat. split; cbn [r_masks r_flags]; [apply Forall_repeat|]; reflexivity.
Qed.
Lemma set_tag_fits : forall s q v s', v < two64 -> fits s -> set_tag s q v = Ok s' -> fits s'.
Proof.
  intros s q v s' V F E. unfold set_tag in E. destruct (q <? _)%nat; inversion E; subst. destruct F.
  split; cbn [set_rows s_fsize s_final s_index s_states s_letters s_rows]; auto.
  - rewrite upd_length. auto.
  - apply upd_Forall; auto. intros r [A B]. split; auto.
Qed.
Lemma set_jump_fits : forall k s a c b s', fits s -> set_jump k s a c b = Ok s' -> fits s'.
Proof.
  intros k s a c b s' F E. unfold set_jump in E. destruct (_ || _ || _); inversion E; subst. destruct F.
  split; cbn [set_rows s_fsize s_final s_index s_states s_letters s_rows]; auto.
  - rewrite upd_length. auto.
  - apply upd_Forall; [|assumption]. intros r [A B]. split; assumption.
Qed.
Lemma set_mask_fits : forall i v ms, v < two64 -> Forall (fun x => x < two64) ms -> Forall (fun x => x < two64) (set_mask i v ms).
Proof. intros. unfold set_mask. apply fold_left_inv; auto. intros. apply upd_Forall; auto. Qed.
Lemma get_mask_fits : forall i ms, Forall (fun x => x < two64) ms -> get_mask i ms < two64.
Proof.
  intros i ms F. unfold get_mask. destruct (nth_in_or_default (4 * i) ms 0) as [H| ->]; [|reflexivity]. rewrite Forall_forall in F. auto.
Qed.
Lemma lor_lt : forall n a b, a < 2 ^ n -> b < 2 ^ n -> N.lor a b < 2 ^ n.
Proof.
  intros n a b A B. rewrite <- (N.mod_small a (2 ^ n)), <- (N.mod_small b (2 ^ n)) by auto. rewrite <- !N.land_ones, <- N.land_lor_distr_l, N.land_ones.
  apply N.mod_lt. apply N.pow_nonzero. lia.
Qed.
Lemma fill_fits : forall c, fill_size_t c < two64.
Proof.
  intros c. unfold fill_size_t. assert (L : forall a b, a < two64 -> b < two64 -> N.lor a b < two64) by (intros; apply (lor_lt 64); auto).
  assert (M : forall a, a mod two64 < two64) by (intros; apply N.mod_lt; discriminate).
  assert (C : N.land c 255 < two64). { change 255 with (N.ones 8). rewrite N.land_ones. pose proof (N.mod_lt c (2 ^ 8) ltac:(discriminate)). cbn in *. unfold two64. lia. }
  repeat apply L; auto.
Qed.
Lemma masks_loop_fits : forall k s st js l ind ms, Forall (fun x => x < two64) ms -> Forall (fun x => x < two64) (snd (masks_loop k s st js l ind ms)).
Proof.
  intros k s st. induction js as [|t js IH]; intros l ind ms F; cbn [masks_loop]; auto.
  destruct (go k st t =? st); auto. destruct (_ <? _)%nat; auto.
  assert (G : Forall (fun x => x < two64) (snd (fold_left (fun '(i, a) c => (S i, set_mask i (fill_size_t c) a)) (letter_bytes s (l + header_size k)) (ind, ms)))).
  { apply (fold_left_inv _ _ (fun z => Forall (fun x => x < two64) (snd z))); auto. intros [i a] c _ H. cbn [snd] in *. apply set_mask_fits; auto using fill_fits. }
  destruct (fold_left _ _ _) as [i1 m1]. apply IH. exact G.
Qed.
Lemma finish_masks_fits : forall n ind ms, Forall (fun x => x < two64) ms -> Forall (fun x => x < two64) (finish_masks n ind ms).
Proof. intros. unfold finish_masks. apply fold_left_inv; auto. intros. apply set_mask_fits; auto. apply get_mask_fits; auto. Qed.
Lemma row_shortcuts_fits : forall k s i r, row_fits r -> row_fits (row_shortcuts k s i r).
Proof.
  intros k s i r [A B]. unfold row_shortcuts.
  pose proof (masks_loop_fits k s (index_to_state k s (N.of_nat i)) (r_jumps r) 0 0 _ (set_mask_fits 0 NO_EXIT _ ltac:(reflexivity) A)) as M.
  destruct (masks_loop _ _ _ _ _ _ _) as [[br ind] ms]. cbn [snd] in M. split; cbn [r_masks r_flags]; auto. apply finish_masks_fits.
  destruct br; auto. apply set_mask_fits; auto. reflexivity.
Qed.
Lemma build_shortcuts_fits : forall k s, fits s -> fits (build_shortcuts k s).
Proof.
  intros k s []. split; unfold build_shortcuts; cbn [set_rows s_fsize s_final s_index s_states s_letters s_rows]; auto.
  - rewrite map_length, combine_length, seq_length. lia.
  - apply Forall_forall. intros r H. apply in_map_iff in H as ([i r0] & <- & H). apply in_combine_r in H. apply row_shortcuts_fits.
    rewrite Forall_forall in ft_rows0. auto.
Qed.
Lemma final_table_fits : forall rows pos fin idx, final_table rows pos = (fin, idx) ->
  Forall (fun x => x < two64) fin /\ length idx = length rows /\ Forall (fun x => x <= pos + N.of_nat (length fin)) idx.
Proof.
  induction rows as [|r rows IH]; intros pos fin idx E; cbn [final_table] in E.
  - inversion E; subst. splits; auto.
  - destruct (final_table rows _) as [f1 i1] eqn:E1. inversion E; subst. clear E. apply IH in E1 as (A & B & C).
    set (here := if negb (N.land (r_flags r) FinalFlag =? 0) then [0; End_mark] else [End_mark]) in *.
    assert (Forall (fun x => x < two64) here) by (unfold here; destruct (negb _); repeat constructor).
    splits; cbn [length]; auto.
    + apply Forall_app; auto.
    + rewrite app_length. constructor; [lia|]. eapply Forall_impl; [|exact C]. cbn beta. intros. lia.
Qed.
Lemma finish_build_fits : forall k s s', fits s -> finish_build k s = Ok s' -> fits s'.
Proof.
  intros k s s' [] E. unfold finish_build in E. destruct (final_table (s_rows s) 0) as [fin idx] eqn:T. apply final_table_fits in T as (A & B & C).
  destruct (N.leb_spec (N.of_nat (length fin)) (s_fsize s)); inversion E; subst. clear E. apply build_shortcuts_fits.
  split; cbn [set_tables s_fsize s_final s_index s_states s_letters s_rows]; auto.
  - rewrite app_length, repeat_length. lia.
  - apply Forall_app. split; auto. apply Forall_repeat. reflexivity.
  - lia.
  - eapply Forall_impl; [|exact C]. cbn beta. intros. unfold two32, two64 in *. lia.
Qed.
Lemma build_fits : forall k g s0 s, fits s0 -> build_scanner k g s0 = Ok s -> fits s.
Proof.
  intros k g s0 s I E. revert E I.
  unfold build_scanner. destruct (dead_states g) as [d| | |]; cbn [bind]; try discriminate.
  generalize (seq 0 (size g)) (part_list (letters g)). intros qs ls E I.
  destruct (foldm _ qs s0) as [s1| | |] eqn:E1; cbn [bind] in E; try discriminate.
  assert (F1 : fits s1).
  { eapply (foldm_inv _ _ fits); [|exact I|exact E1]. cbn beta. intros. eapply set_tag_fits; eauto. unfold tag_value.
    pose proof (N.mod_lt (N.lor (N.lor (fsm_tag g x) (if is_final g x then FinalFlag else 0)) (if smem x d then DeadFlag else 0)) 256 ltac:(lia)).
    unfold two64. lia. }
  clear E1. destruct (foldm _ qs s1) as [s2| | |] eqn:E2; cbn [bind] in E; try discriminate.
  eapply finish_build_fits; [|exact E]. eapply (foldm_inv _ _ fits); [|exact F1|exact E2]. cbn beta. intros sa q sb _ Fa Ea.
  eapply (foldm_inv _ _ fits); [|exact Fa|exact Ea]. cbn beta. intros sc [c z] sd _ Fc Ec.
  eapply (foldm_inv _ _ fits); [|exact Fc|exact Ec]. cbn beta. intros. eapply set_jump_fits; eauto.
Qed.
Lemma compile_fits : forall k buf f s, compile k buf f = Ok s -> fits s.
Proof.
  intros k buf f s E. unfold compile in E. destruct (canonize f 0) as [g| | |]; cbn [bind] in E; try discriminate.
  destruct (init_scanner _ _ _ _ _ _ _) as [s0| | |] eqn:I; cbn [bind] in E; try discriminate. apply init_fits in I.
  eapply build_fits; eauto.
Qed.
Lemma default_fits : forall k buf s, default_scanner k buf = Ok s -> fits s.
Proof.
  intros k buf s. unfold default_scanner. pose proof (compile_fits k buf make_false) as C. destruct (compile k buf make_false) as [s0| | |]; cbn [bind]; intros E; try discriminate.
  inversion E; subst. destruct (C _ eq_refl). split; auto.
Qed.
Lemma deep_copy_fits : forall k k' buf s, fits s -> fits (deep_copy k k' buf s).
Proof.
  intros k k' buf s []. split; unfold deep_copy; cbn [s_fsize s_final s_index s_states s_letters s_rows]; auto.
  - apply Forall_map, Forall_forall. intros. apply N.mod_lt. lia.
  - rewrite map_length, combine_length, seq_length. lia.
  - apply Forall_forall. intros r H. apply in_map_iff in H as ([i r0] & <- & H). apply in_combine_r in H.
    rewrite Forall_forall in ft_rows0. destruct (ft_rows0 _ H) as [A B]. split; cbn [deep_copy_row r_masks r_flags]; auto.
    apply fold_left_inv; [|apply Forall_repeat; reflexivity]. intros. apply set_mask_fits; auto. apply get_mask_fits; auto.
Qed.
Lemma copy_fits : forall k buf s, fits s -> fits (copy_scanner k buf s).
Proof. intros k buf s F. unfold copy_scanner. destruct (s_owned s); auto. apply deep_copy_fits. auto. Qed.
Lemma convert_fits : forall k k' buf null s, fits null -> fits s -> fits (convert_scanner k k' buf null s).
Proof. intros k k' buf null s F G. unfold convert_scanner. destruct (s_null s); auto. apply deep_copy_fits. auto. Qed.

Lemma until_end_fits : forall l ids, Forall (fun x => x < two64) l -> until_end l = Ok ids -> Forall (fun x => x < two64) ids.
Proof.
  induction l as [|x l IH]; intros ids F E; cbn [until_end] in E; [discriminate|]. inversion F; subst. destruct (x =? End_mark).
  - inversion E; subst. auto.
  - destruct (until_end l) as [r| | |]; cbn [bind] in E; try discriminate. inversion E; subst. auto.
Qed.
Lemma accepted_fits : forall k s a ids, fits s -> s_accepted k s a = Ok ids -> Forall (fun x => x < two64) ids.
Proof.
  intros k s a ids F E. unfold s_accepted in E. destruct (nth_error _ _) as [b|]; [|discriminate]. eapply until_end_fits; [|exact E].
  pose proof (ft_final _ F) as G. rewrite <- (firstn_skipn (N.to_nat b) (s_final s)) in G. apply Forall_app in G. apply G.
Qed.
Lemma mapm_all : forall A B (P : B -> Prop) (f : A -> res B) l r, (forall x y, f x = Ok y -> P y) -> mapm f l = Ok r -> Forall P r /\ length r = length l.
Proof.
  intros A B P f. induction l as [|x l IH]; intros r H E; cbn [mapm] in E.
  - inversion E; subst. auto.
  - destruct (f x) as [y| | |] eqn:Ex; cbn [bind] in E; try discriminate. destruct (mapm f l) as [ys| | |]; cbn [bind] in E; try discriminate.
    inversion E; subst. destruct (IH _ H eq_refl). split; [constructor; eauto|cbn [length]; auto].
Qed.
Lemma glue_entry_fits : forall k l r st e, fits l -> fits r -> glue_entry k l r st = Ok e -> Forall (fun x => x < two64) (fst e) /\ snd e < two64.
Proof.
  intros k l r st e Fl Fr E. unfold glue_entry in E.
  destruct (s_accepted k l (fst st)) as [x| | |] eqn:Ex; cbn [bind] in E; try discriminate.
  destruct (s_accepted k r (snd st)) as [y| | |] eqn:Ey; cbn [bind] in E; try discriminate.
  destruct (s_isfinal k l (fst st)) as [fl| | |]; cbn [bind] in E; try discriminate.
  destruct (if fl then _ else _) as [fr| | |]; cbn [bind] in E; try discriminate.
  destruct (s_isdead k l (fst st)) as [dl| | |]; cbn [bind] in E; try discriminate.
  destruct (if dl then _ else _) as [dr| | |]; cbn [bind] in E; try discriminate.
  inversion E; subst. cbn [fst snd]. split.
  - apply Forall_app. split; [exact (accepted_fits _ _ _ _ Fl Ex)|]. apply Forall_map, Forall_forall. intros. apply N.mod_lt. discriminate.
  - destruct fr, dr; reflexivity.
Qed.
Lemma glue_tables_fits : forall es pos fin idx, Forall (fun e => Forall (fun x => x < two64) (fst e) /\ snd e < two64) es -> glue_tables es pos = (fin, idx) ->
  Forall (fun x => x < two64) fin /\ length idx = length es /\ Forall (fun x => x <= pos + N.of_nat (length fin)) idx /\
  length fin = (fold_right (fun e n => (length (fst e) + n)%nat) 0%nat es + length es)%nat.
Proof.
  induction es as [|[ids fl] es IH]; intros pos fin idx H E; cbn [glue_tables] in E.
  - inversion E; subst. splits; auto.
  - inversion H; subst. destruct (glue_tables es _) as [f1 i1] eqn:E1. inversion E; subst. clear E. apply IH in E1 as (A & B & C & D); auto.
    rewrite app_length in C. cbn [length] in C. cbn [fst] in *.
    splits; cbn [length fold_right fst]; auto.
    + apply Forall_app. split; auto. apply Forall_app. split; [tauto|]. repeat constructor.
    + rewrite !app_length. cbn [length]. constructor; [lia|]. eapply Forall_impl; [|exact C]. cbn beta. intros. lia.
    + rewrite !app_length. cbn [length]. lia.
Qed.
Lemma glue_accept_fits : forall k buf l r p states s, fits l -> fits r -> glue_accept k buf l r p states = Ok s -> fits s.
Proof.
  intros k buf l r p states s Fl Fr E. unfold glue_accept in E.
  destruct (mapm (glue_entry k l r) states) as [es| | |] eqn:M; cbn [bind] in E; try discriminate.
  apply (mapm_all _ _ (fun e => Forall (fun x => x < two64) (fst e) /\ snd e < two64)) in M as [M ML]; [|intros x y; exact (glue_entry_fits k l r x y Fl Fr)].
  destruct (init_scanner _ _ _ _ _ _ _) as [s0| | |] eqn:I; cbn [bind] in E; try discriminate.
  assert (I2 : s_fsize s0 = N.of_nat (fold_right (fun e n => (length (fst e) + n)%nat) 0%nat es + length states) /\ s_states s0 = N.of_nat (length states)).
  { unfold init_scanner in I. destruct (_ || _); [discriminate|]. inversion I; subst. auto. }
  apply init_fits in I. destruct I2 as [I2 I3].
  destruct (glue_tables es 0) as [fin idx] eqn:T. apply glue_tables_fits in T as (A & B & C & D); auto.
  eapply (foldm_inv _ _ fits); [| |exact E].
  - cbn beta. intros s1 [i e] s2 Hi F1 E1. eapply set_tag_fits; [|exact F1|exact E1]. apply in_combine_r in Hi. rewrite Forall_forall in M. apply (M _ Hi).
  - destruct I. split; cbn [set_tables s_fsize s_final s_index s_states s_letters s_rows]; auto.
    + lia.
    + lia.
    + eapply Forall_impl; [|exact C]. cbn beta. intros. unfold two32, two64 in *. lia.
Qed.
Lemma glue_result_fits : forall k b1 b2 null l r maxSize s, fits null -> fits l -> fits r -> glue k b1 b2 null l r maxSize = Ok s -> fits s.
Proof.
  intros k b1 b2 null l r maxSize s Fn Fl Fr E. unfold glue in E. destruct (s_null l); [inversion E; subst; apply copy_fits; auto|].
  destruct (s_null r); [inversion E; subst; apply copy_fits; auto|]. revert E. generalize (glue_letters (s_letters l) (s_letters r)). intros p E.
  destruct (glue_run _ _ _ _ _) as [[states tr| |]| | |]; cbn [bind] in E; try discriminate; [|inversion E; subst; auto].
  destruct (glue_accept k b1 l r p states) as [s0| | |] eqn:A; cbn [bind] in E; try discriminate. apply glue_accept_fits in A; auto.
  destruct (foldm _ _ s0) as [s1| | |] eqn:J; cbn [bind] in E; try discriminate. inversion E; subst. apply copy_fits, build_shortcuts_fits.
  eapply (foldm_inv _ _ fits); [|exact A|exact J]. cbn beta. intros sa [[x y] c] sb _ Fa Ea. eapply set_jump_fits; eauto.
Qed.
