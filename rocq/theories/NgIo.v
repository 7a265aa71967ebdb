(** NoGlueLimitCountingScanner: reading back what Save wrote. *)
From Coq Require Import List Bool Arith NArith Lia.
From Verif Require Import Util Spec PartitionModel PartitionProofs FsmModel DetermineModel MinimizeModel DetGeneric DetProofs RunModel RunSpec ScannerModel
  ScannerProofs ScannerCompile GlueModel GlueTable IoModel IoBytes ScannerApi CountModel CountSpec RunProofs CountProofs SimpleProofs LoadedProofs LoadedGlue CountBuild AdvModel NgModel CountIoModel CountIo CountIoOk CountApi NgApi NgTable NgGlue NgGlued.
From Verif Require Import IoModel.
Import ListNotations.
Local Open Scope N_scope.

(** ** All that is saved fits *)
Definition small_jumps (s : loaded) : Prop := Forall (fun j => fst j < two32 /\ snd j < two32) (d_jumps s).
Definition fits (s : nscanner) : Prop := small_jumps (n_base s) /\ forall a, n_acts s = Some a -> Forall (fun x => x < two32) a.

Lemma mod32 : forall x, x mod two32 < two32. Proof. intros. apply N.mod_lt. discriminate. Qed.
Lemma upd_forall : forall A (P : A -> Prop) x l i, Forall P l -> P x -> Forall P (upd i (fun _ => x) l).
Proof. intros A P x l. induction l as [|y l IH]; intros [|i] F H; inversion F; subst; cbn [upd]; constructor; auto. Qed.
Lemma set_djump_small : forall s f c t a s', set_djump s f c t a = Ok s' -> small_jumps s -> a < two32 -> small_jumps s'.
Proof.
  intros s f c t a s' H S A. unfold set_djump in H. destruct (_ <? _); [|discriminate H]. cbv zeta in H. apply ok_inj in H. subst s'. unfold small_jumps. cbn [set_jumps d_jumps].
  apply upd_forall; auto. cbn [fst snd]. split; auto. apply mod32.
Qed.
Lemma foldm_inv : forall S A (I : S -> Prop) (f : S -> A -> res S) L s s', (forall s x s', In x L -> f s x = Ok s' -> I s -> I s') -> foldm f L s = Ok s' -> I s -> I s'.
Proof.
  intros S A I f L. induction L as [|x L IH]; intros s s' H E Hs; cbn [foldm] in E; [apply ok_inj in E; subst; auto|].
  apply bind_ok in E as (s1 & E1 & E2). apply (IH s1 s'); auto; [intros; eapply H; eauto; right; auto|]. eapply H; eauto. left; auto.
Qed.
Lemma init_small : forall b n p q k s, init_loaded b n p q k = Ok s -> small_jumps s.
Proof.
  intros b n p q k s H. unfold init_loaded in H. destruct (_ <=? _); [discriminate H|]. cbv zeta in H. apply ok_inj in H. subst s. unfold small_jumps. cbn [d_jumps].
  apply Forall_forall. intros j Hj. apply repeat_spec in Hj. subst j. split; reflexivity.
Qed.

(** The constructor *)
Lemma tag_small : forall d, transition_tag d < 4.
Proof.
  intros d. unfold transition_tag. destruct (negb (is_nil (g_matched d))); [reflexivity|]. destruct (is_nil (g_unmatched d)); [|reflexivity].
  destruct (negb (is_nil (g_separated d))); destruct (has_tag _ _); reflexivity.
Qed.
Lemma step_small : forall f r dead simple st c, snd (d_step f r dead simple st c) < 4.
Proof.
  intros f r dead simple st c. unfold d_step. destruct (invalid_range _); [reflexivity|]. cbv zeta. cbn [snd]. destruct simple; [|apply tag_small].
  unfold simple_tag. cbv zeta. destruct (_ =? 0); [|apply tag_small]. rewrite (N.land_ones _ 1 : N.land _ IncrementAction = _). pose proof (N.mod_lt (transition_tag (simple_prepare f r dead st c)) (2 ^ 1) ltac:(discriminate)). change (2 ^ 1) with 2 in *. lia.
Qed.
Lemma cf_act_small : forall t q l, Forall (Forall (fun a => a < 4)) (cf_acts t) -> cf_act t q l < 4.
Proof.
  intros t q l F. unfold cf_act. destruct (nth_in_or_default q (cf_acts t) []) as [I|E]; [|rewrite E; destruct l; reflexivity]. rewrite Forall_forall in F. specialize (F _ I).
  destruct (nth_in_or_default l (nth q (cf_acts t) []) 0) as [J|E]; [|rewrite E; reflexivity]. rewrite Forall_forall in F. apply F. exact J.
Qed.
Lemma det_small : forall f r dead simple m t, cf_determine f r dead simple m = Ok (Some t) -> Forall (Forall (fun a => a < 4)) (cf_acts t).
Proof.
  intros f r dead simple m t H. unfold cf_determine in H. cbv zeta in H. destruct (det_run _ _ _ _ _ _) as [states tr| |]; [|discriminate H|discriminate H]. apply ok_inj in H. injection H as <-. cbn [cf_acts].
  apply Forall_forall. intros row Hr. apply in_map_iff in Hr as (st & <- & _). apply Forall_forall. intros a Ha. apply in_map_iff in Ha as (c & <- & _). apply step_small.
Qed.
Lemma determine_small : forall f r dead t b, counting_determine f r dead = Ok (t, b) -> Forall (Forall (fun a => a < 4)) (cf_acts t).
Proof.
  intros f r dead t b H. unfold counting_determine in H. apply bind_ok in H as (x & H1 & H). destruct x as [t'|]; [apply ok_inj in H; injection H as <- _; eapply det_small; eauto|].
  apply bind_ok in H as (x & H2 & H). destruct x as [t'|]; [apply ok_inj in H; injection H as <- _; eapply det_small; eauto|discriminate H].
Qed.
Lemma minimize_small : forall t nl t1, cf_minimize t nl = Ok t1 -> Forall (Forall (fun a => a < 4)) (cf_acts t) -> Forall (Forall (fun a => a < 4)) (cf_acts t1).
Proof.
  intros t nl t1 H F. unfold cf_minimize in H. apply bind_ok in H as (m & _ & H). unfold cf_accept in H. apply bind_ok in H as (rows & _ & H). apply ok_inj in H. subst t1. cbn [cf_acts].
  apply Forall_forall. intros row Hr. apply in_map_iff in Hr as (k & <- & _). apply Forall_forall. intros a Ha. apply in_map_iff in Ha as (l & <- & _). unfold cf_merged.
  assert (X : forall L a, a < 4 -> fold_left (fun a q => if Nat.eqb (m_class m q) k && negb (cf_act t q l =? 0) then cf_act t q l else a) L a < 4).
  { induction L as [|q L IH]; intros a Ha; cbn [fold_left]; auto. apply IH. destruct (_ && _); auto. apply cf_act_small. exact F. }
  apply X. reflexivity.
Qed.
Lemma new_fits : forall buf re sep s simple, n_scanner buf re sep = Ok (s, simple) -> fits s.
Proof.
  intros buf re sep s simple E. unfold n_scanner in E. apply bind_ok in E as ([b sm] & E & Ex). apply ok_inj in Ex. injection Ex as <- <-. unfold make_advanced in E.
  apply bind_ok in E as ([f r0] & E1 & E). apply bind_ok in E as (dead & E2 & E). apply bind_ok in E as ([t b'] & E3 & E).
  apply bind_ok in E as (t1 & E4 & E). apply bind_ok in E as (s0 & E5 & E). apply bind_ok in E as (s1 & E6 & E). apply ok_inj in E. injection E as <- _.
  split; [|intros a H; discriminate H]. cbn [n_base]. apply init_small in E5. apply determine_small in E3. apply (minimize_small _ _ _ E4) in E3.
  unfold adv_fill in E6. revert E6 E5. apply (foldm_inv _ _ small_jumps). intros s from s' _ H S. revert H S. apply (foldm_inv _ _ small_jumps). intros z [c l] z' _ H S. apply (set_djump_small _ _ _ _ _ _ H S).
  pose proof (cf_act_small t1 from l E3). unfold two32. lia.
Qed.
Lemma loaded_fits : forall b, loaded_ok b -> fits (mkNG b None false).
Proof. intros b L. split; [apply jumps_small; exact L|intros a H; discriminate H]. Qed.
Lemma copy_fits : forall buf s, fits s -> fits (n_copy buf s).
Proof.
  intros buf s [A B]. split.
  - cbn [n_copy n_base]. unfold small_jumps. destruct (copy_fields buf (n_base s)) as (_ & _ & _ & ->). exact A.
  - intros a H. cbn [n_copy n_acts] in H. destruct (n_acts s) as [t|]; [|discriminate H]. cbn [option_map] in H. injection H as <-. specialize (B t eq_refl).
    rewrite Forall_forall in B |- *. intros x Hx. apply B. rewrite <- (firstn_skipn (N.to_nat (hd 0 t)) t). apply in_or_app. left. exact Hx.
Qed.

(** Gluing *)
Lemma get_small : forall s a sh rs is, get_actions s a sh = Ok (rs, is) -> sh < two32 -> Forall (fun x => x < two32) rs /\ Forall (fun x => x < two32) is.
Proof.
  intros s a sh rs is H S. unfold get_actions in H. destruct (a =? 0); [apply ok_inj in H; injection H as <- <-; auto|]. destruct (n_acts s) as [t|].
  - apply bind_ok in H as ([r1 p] & _ & H). apply bind_ok in H as ([i1 q] & _ & H). apply ok_inj in H. injection H as <- <-.
    split; apply Forall_forall; intros x Hx; apply in_map_iff in Hx as (y & <- & _); apply mod32.
  - apply ok_inj in H. injection H as <- <-. destruct (N.land a ResetAction =? 0), (N.land a IncrementAction =? 0); auto.
Qed.
Definition g_fits (g : gstate) : Prop := small_jumps (g_sc g) /\ (forall k v, In (k, v) (g_map g) -> v < two32) /\ Forall (fun x => x < two32) (g_acts g).
Lemma connect_fits : forall l r states g e g', n_connect l r states g e = Ok g' -> g_fits g -> g_fits g'.
Proof.
  intros l r states g [[f t] c] g' H (A & B & C). unfold n_connect in H. destruct (nth_error states f) as [st|]; [|discriminate H]. apply bind_ok in H as ([rs is] & K & H).
  assert (KS : Forall (fun x => x < two32) rs /\ Forall (fun x => x < two32) is).
  { unfold glue_key in K. apply bind_ok in K as (x & _ & K). apply bind_ok in K as ([r1 i1] & K1 & K). apply bind_ok in K as (y & _ & K). apply bind_ok in K as ([r2 i2] & K2 & K). apply ok_inj in K. injection K as <- <-.
    apply get_small in K1; [|reflexivity]. apply get_small in K2; [|apply mod32]. destruct K1, K2. split; apply Forall_app; auto. }
  destruct (rs ++ is); [|destruct (glue_find (rs, is) (g_map g)) as [v|] eqn:GF]; cbv zeta in H; apply bind_ok in H as (s1 & H & Ex); apply ok_inj in Ex; subst g'; unfold g_fits; cbn [g_sc g_map g_acts].
  - split; [|auto]. eapply set_djump_small; eauto. reflexivity.
  - split; [|auto]. eapply set_djump_small; eauto. apply (B (rs, is)). apply glue_find_in in GF. exact GF.
  - split; [eapply set_djump_small; eauto; apply mod32|]. split.
    + intros k v [E|E]; [injection E as _ <-; apply mod32|eauto].
    + destruct KS as [K1 K2]. apply Forall_app. split; auto. cbn [app]. constructor; [apply mod32|]. apply Forall_app. split; auto. constructor; auto. apply mod32.
Qed.
Lemma accept_small : forall b l r p states s, dglue_accept b l r p states = Ok s -> small_jumps s.
Proof.
  intros b l r p states s H. unfold dglue_accept in H. apply bind_ok in H as (z & H1 & H). apply init_small in H1. revert H H1. apply (foldm_inv _ _ small_jumps).
  intros x [i st] x' _ H S. apply bind_ok in H as (v & _ & H). unfold set_dtag in H. destruct (_ <? _)%nat; [|discriminate H]. apply ok_inj in H. subst x'. exact S.
Qed.
Lemma glue_fits : forall b1 b2 null l r m s, n_glue b1 b2 null l r m = Ok s -> fits null -> fits s.
Proof.
  intros b1 b2 null l r m s H F. unfold n_glue in H. cbv zeta in H. apply bind_ok in H as (d & _ & H). destruct d as [states tr| |]; [|apply ok_inj in H; subst; exact F|discriminate H].
  apply bind_ok in H as (s0 & E0 & H). apply bind_ok in H as (g & E1 & H). apply ok_inj in H. subst s. apply copy_fits.
  assert (G : g_fits g).
  { revert E1. intros E1. refine (foldm_inv _ _ g_fits _ _ _ _ (fun g x g' _ => connect_fits l r states g x g') E1 _).
    split; [eapply accept_small; eauto|]. split; [intros k v []|repeat constructor]. }
  destruct G as (A & _ & C). split; [exact A|]. intros a Ha. cbn [n_success n_acts] in Ha. injection Ha as <-. apply (upd_forall _ (fun x => x < two32) _ _ 0 C). apply mod32.
Qed.

(** ** Reading back *)
Lemma strip_moved : forall b o s, strip (moved b o s) = moved b o (strip s). Proof. reflexivity. Qed.
Lemma moved_table : forall b o s, table_ok s -> d_null s = false -> table_ok (moved b o s).
Proof. intros b o s T NU. unfold table_ok. rewrite strip_moved. apply moved_ok; auto. Qed.
Lemma moved_similar : forall b o s, table_ok s -> d_null s = false -> similar s (moved b o s).
Proof.
  intros b o s T NU. constructor; auto.
  - unfold d_count. cbn. rewrite NU. reflexivity.
  - destruct (lo_init _ T) as (q & Hq & E). exists q. split; [exact Hq|]. split; [exact E|]. cbn [strip d_initial] in E. change (d_state (strip s)) with (d_state s) in E. cbn [moved d_initial]. rewrite E. unfold d_state, d_base, state_size. cbn. lia.
  - apply moved_table; auto.
Qed.
Lemma table_storable : forall s, table_ok s -> dplaced s -> d_nletters s <= 256 -> d_regexps s < two32 -> small_jumps s -> storable s.
Proof.
  intros s T P F RE J. assert (S0 : storable (strip s)).
  { apply storable_ok; auto; [reflexivity|]. cbn [strip d_jumps]. apply Forall_forall. intros j Hj. apply in_map_iff in Hj as (x & <- & Hx). unfold small_jumps in J. rewrite Forall_forall in J. apply J in Hx as [Hx _]. split; auto. reflexivity. }
  destruct S0 as [A0 A1 A2 A3 A4 A5 A6 A7 A8 A9]. cbn [strip d_states d_nletters d_letters d_jumps d_tags d_initial] in *. rewrite map_length in A5. constructor; auto.
Qed.
Definition n_bytes (s : nscanner) : list N := match n_acts s with Some t => array 4 t | None => le 4 0 end.
Lemma n_save_what : forall pad s x, n_save pad s = Ok x -> acts_full s -> d_states (n_base s) * d_nletters (n_base s) < two32 /\ x = img 7 5 pad [] (n_base s) ++ n_bytes s.
Proof.
  intros pad s x H F. unfold n_save in H. apply bind_ok in H as (a & H1 & H). apply save_img in H1 as [C ->]. split; auto. unfold n_bytes.
  destruct (n_acts s) as [t|] eqn:E; [|apply ok_inj in H; subst x; reflexivity]. destruct (F t E) as [_ L]. destruct (_ <? _); [discriminate H|]. apply ok_inj in H. subst x. rewrite L, firstn_all. reflexivity.
Qed.
Lemma n_save_total : forall pad s, d_states (n_base s) * d_nletters (n_base s) < two32 -> acts_full s -> n_save pad s = Ok (img 7 5 pad [] (n_base s) ++ n_bytes s).
Proof.
  intros pad s C F. unfold n_save. change ty_no_glue_limit with 5. rewrite save_total by auto. cbn [bind]. unfold n_bytes. destruct (n_acts s) as [t|] eqn:E; [|reflexivity].
  destruct (F t E) as [_ L]. destruct (N.ltb_spec (N.of_nat (length t)) (hd 0 t)); [lia|]. rewrite L, firstn_all. reflexivity.
Qed.
Section Io.
  Variables (s : nscanner) (pad x : list N).
  Hypothesis T : table_ok (n_base s).
  Hypothesis P : nplaced s.
  Hypothesis NU : d_null (n_base s) = false.
  Hypothesis NC : n_count s < two32.
  Hypothesis F : fits s.
  Hypothesis FU : acts_full s.
  Hypothesis PL : length pad = 4%nat.
  Hypothesis E : n_save pad s = Ok x.

  Lemma n_storable : storable (n_base s).
  Proof. apply table_storable; auto; [apply P|apply P| |apply F]. unfold n_count, d_count in NC. rewrite NU in NC. exact NC. Qed.
  Lemma n_load_ok : forall this buf null t rest, n_compat this = false -> droom buf (n_base s) ->
    n_load this buf null (mkStream t (x ++ rest)) = Ok (mkNG (moved buf true (n_base s)) (n_acts s) false, mkStream t rest).
  Proof.
    intros this buf null t rest MO R. destruct (n_save_what _ _ _ E FU) as [C ->]. pose proof (room_initial _ _ T R) as RI. unfold n_load. rewrite <- app_assoc.
    rewrite load_img7 by (auto using n_storable). cbn [bind fst snd]. change (5 =? ty_no_glue_limit) with true. cbv iota. destruct F as [_ FA]. unfold n_bytes. destruct (n_acts s) as [a|] eqn:EA.
    - destruct (FU a EA) as [NE L]. specialize (FA a eq_refl). destruct a as [|k b]; [contradiction|]. cbn [hd length] in L. inversion FA as [|? ? KB FB]; subst. unfold array at 1. cbn [flat_map]. fold (array 4 b). rewrite <- app_assoc.
      rewrite read_ok by reflexivity. cbn [bind]. rewrite unle_le by exact KB. destruct (N.eqb_spec k 0); [lia|].
      rewrite read_ok by (rewrite array_count; change (N.of_nat 4) with 4; lia). cbn [bind]. rewrite <- (app_nil_r (array 4 b)). rewrite words_array by (try exact FB; lia). rewrite MO. reflexivity.
    - rewrite read_ok by reflexivity. cbn [bind]. rewrite unle_le by reflexivity. rewrite MO. reflexivity.
  Qed.
  Lemma n_mmap_ok : forall m ptr size, holds m ptr x -> ptr mod 8 = 0 -> mappable ptr size -> N.of_nat (length x) <= size ->
    n_mmap m ptr size = Ok (mkNG (moved (ptr + 48) false (n_base s)) (n_acts s) false, ptr + N.of_nat (length x)).
  Proof.
    intros m ptr size H A (_ & _ & M3) Z. destruct (n_save_what _ _ _ E FU) as [C EX]. rewrite EX in *. pose proof n_storable as S. unfold n_mmap. rewrite app_length in Z |- *. rewrite Nat2N.inj_add in Z |- *.
    destruct (holds_split _ _ _ _ H) as [HI HB].
    destruct (mmap_img7 m 5 pad (n_base s) ptr size) as (z & EZ & HZ); auto; [lia|exact (states_pos _ T)|]. rewrite EZ. cbn [bind fst snd]. change (5 =? ty_no_glue_limit) with true. cbv iota.
    destruct F as [_ FA]. unfold n_bytes in *. set (q := ptr + N.of_nat (length (img 7 5 pad [] (n_base s)))) in *. destruct (n_acts s) as [a|] eqn:EA.
    - destruct (FU a EA) as [NE L]. specialize (FA a eq_refl). rewrite array_count in Z |- *. change (N.of_nat 4) with 4 in *.
      destruct a as [|k b]; [contradiction|]. cbn [hd] in L. pose proof HB as HB0. unfold array in HB0. cbn [flat_map] in HB0. rewrite (peek_here m 4 _ _ _ HB0) by apply le_length. cbn [bind].
      rewrite unle_le by (inversion FA; auto). destruct (N.eqb_spec k 0) as [K0|K0]; [rewrite K0 in L; discriminate L|]. rewrite <- (app_nil_r (array 4 (k :: b))) in HB.
      rewrite (peek_here m (N.to_nat (4 * k)) _ _ _ HB) by (rewrite array_length; lia). cbn [bind]. rewrite <- (app_nil_r (array 4 (k :: b))). rewrite words_array by (try exact FA; lia).
      unfold advance. cbn [fst]. do 2 f_equal. unfold q in *. rewrite N.mod_small by lia. lia.
    - rewrite <- (app_nil_r (le 4 0)) in HB. rewrite (peek_here m 4 _ _ _ HB) by apply le_length. cbn [bind]. rewrite unle_le by reflexivity. cbn [N.eqb]. unfold advance. cbn [fst]. do 2 f_equal.
      rewrite le_length in *. change (N.of_nat 4) with 4 in *. unfold q in *. rewrite N.mod_small by lia. lia.
  Qed.
End Io.
Lemma n_mmap_aligned : forall m ptr size v, n_mmap m ptr size = Ok v -> ptr mod 8 = 0.
Proof. intros m ptr size v H. unfold n_mmap in H. apply bind_ok in H as ([[ty s] c] & H & _). eapply mmap_aligned; eauto. Qed.
