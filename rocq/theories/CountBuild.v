(** The automata the constructor of CountingScanner makes are well formed, and its table is sound. *)
From Coq Require Import List Bool Arith NArith Lia.
From Verif Require Import Util Spec PartitionModel PartitionProofs FsmModel DetermineModel FsmSem FsmBasics FsmOps FsmOps2 EpsProofs DetGeneric DetProofs
  MinimizeModel CompProofs DeadProofs Api ApiProofs RunModel RunSpec ScannerModel ScannerProofs ScannerCompile GlueModel CountModel CountSpec RunProofs CountProofs
  SimpleProofs LoadedProofs.
Import ListNotations.

Local Opaque all_letters all_bytes.

Lemma ok_pair : forall A B (a a' : A) (b b' : B), Ok (a, b) = Ok (a', b') -> a = a' /\ b = b'.
Proof. intros A B a a' b b' E. injection E. auto. Qed.

(** Tags, outputs and finals do not matter to the shape *)
Lemma wf_set_tags : forall f t, wf f -> wf (set_tags f t).
Proof. intros f t []. split; auto. Qed.
Lemma wf_set_outputs : forall f t, wf f -> wf (set_outputs f t).
Proof. intros f t []. split; auto. Qed.
Lemma wf_set_final : forall f q b, wf f -> q < size f -> isAlt f = false -> wf (set_final f q b).
Proof.
  intros f q b [] H A. split; auto.
  - cbn [set_final set_finals finals]. intros x Hx. destruct b.
    + apply sadd_in in Hx as [->|Hx]; auto.
    + apply sremove_in in Hx; auto. apply wf_fin. tauto.
  - cbn [set_final set_finals finals]. destruct b; [apply sadd_sorted; auto|apply sremove_sorted; auto].
  - intros X. cbn [set_final set_finals isAlt] in X. congruence.
Qed.
Lemma adds_wf : forall f g S, adds f g S -> wf f -> uncompressed f -> isAlt g = false -> wf g.
Proof.
  intros f g S A W U Al. assert (U' : uncompressed g) by (unfold uncompressed in *; rewrite (ad_let _ _ _ A); auto). destruct W. split.
  - rewrite (ad_init _ _ _ A), (ad_size _ _ _ A). auto.
  - rewrite (ad_fin _ _ _ A), (ad_size _ _ _ A). auto.
  - rewrite (ad_fin _ _ _ A). auto.
  - apply (ad_rows _ _ _ A). auto.
  - rewrite (ad_let _ _ _ A). auto.
  - apply uncompressed_coherent; auto.
  - apply uncompressed_bcoherent; auto.
  - intros X. congruence.
Qed.
Lemma wf_connect : forall f a b c, wf f -> uncompressed f -> a < size f -> b < size f -> (c < MaxChar)%N -> wf (connect f a b c) /\ uncompressed (connect f a b c) /\
  size (connect f a b c) = size f.
Proof.
  intros f a b c W U Ha Hb Hc. pose proof (connect_adds f a b c Ha Hb Hc) as A. splits.
  - eapply adds_wf; eauto.
  - unfold uncompressed. rewrite (ad_let _ _ _ A). auto.
  - apply (ad_size _ _ _ A).
Qed.
Lemma wf_resize : forall f n, wf f -> uncompressed f -> isAlt f = false -> size f <= n -> wf (resize_fsm f n).
Proof.
  intros f n [] U A H. split; try rewrite size_resize; cbn [resize_fsm set_trans initial finals letters isAlt]; auto.
  - lia.
  - intros q Hq. apply wf_fin in Hq. lia.
  - apply rows_ok_resize; auto.
  - apply uncompressed_coherent. exact U.
  - apply uncompressed_bcoherent. exact U.
  - intros X. cbn in X. congruence.
Qed.
Lemma wf_unsparse : forall f, wf f -> wf (unsparse f).
Proof.
  intros f W. destruct (unsparse_spec f W) as ([B1 B2 B3 B4] & Sz & In0 & Fi & _ & Rw). split; auto; try apply W.
  - intros p c r R _ q. rewrite !Rw. change (letters (unsparse f)) with (letters f) in R.
    pose proof (part_rep_rep _ _ _ (wf_letters _ W) R) as R'. unfold edge, erep. rewrite R, R'. reflexivity.
  - intros q c r R _ p. rewrite !Rw. change (letters (unsparse f)) with (letters f) in R.
    pose proof (part_rep_rep _ _ _ (wf_letters _ W) R) as R'. unfold edge, erep. rewrite R, R'. reflexivity.
  - intros A. change (isAlt (unsparse f)) with (isAlt f) in A. destruct (wf_alt _ W A) as (A1 & A2 & A3). rewrite In0, Fi. splits; auto.
    + intros p c. rewrite Rw. unfold edge. apply A1.
    + intros c q H. apply Rw in H. eapply alt_edge_out; eauto.
Qed.

(** ** The doubled automaton *)
Lemma dup_tags_eq : forall l f, exists t, fold_left (fun g i => set_tags g (mset i CMatched (tags g))) l f = set_tags f t.
Proof.
  induction l as [|i l IH]; intros f; cbn [fold_left]; [exists (tags f); destruct f; reflexivity|].
  destruct (IH (set_tags f (mset i CMatched (tags f)))) as [t ->]. exists t. reflexivity.
Qed.
Lemma with_dup_adds : forall f, wf f -> exists t, let dup := set_tags f t in
  imported f dup (import_fsm f dup) /\
  adds (import_fsm f dup) (with_dup f) (fun p c q => In p (finals f) /\ c = Epsilon /\ q = size f + p).
Proof.
  intros f W. unfold with_dup. destruct (dup_tags_eq (seq 0 (size f)) f) as [t E]. rewrite E. exists t. cbn zeta.
  pose proof (import_ok f (set_tags f t) W (wf_set_tags f t W)) as I. split; auto. rewrite (im_fin _ _ _ I).
  eapply adds_ext.
  - apply adds_fold with (S := fun i p c q => p = i /\ c = Epsilon /\ q = size f + i). intros g i T Hi A.
    assert (Hs : i < size f) by (apply (wf_fin _ W); auto). destruct (Nat.ltb_spec i (size f)); [|lia].
    apply connect_adds.
    + rewrite (ad_size _ _ _ A), (im_size _ _ _ I). lia.
    + rewrite (ad_size _ _ _ A), (im_size _ _ _ I). change (size (set_tags f t)) with (size f). lia.
    + reflexivity.
  - cbn. intros p c q. split.
    + intros (x & H & -> & -> & ->). auto.
    + intros (H & -> & ->). eauto.
Qed.
Lemma with_dup_wf : forall f, wf f -> wf (with_dup f) /\ uncompressed (with_dup f) /\ size (with_dup f) = size f + size f.
Proof.
  intros f W. destruct (with_dup_adds f W) as (t & I & A). cbn zeta in I, A.
  assert (U : uncompressed (with_dup f)) by (unfold uncompressed; rewrite (ad_let _ _ _ A); apply (im_let _ _ _ I)).
  assert (Sz : size (with_dup f) = size f + size f) by (rewrite (ad_size _ _ _ A), (im_size _ _ _ I); reflexivity).
  assert (Ini : initial (with_dup f) = initial f) by (rewrite (ad_init _ _ _ A); apply (im_init _ _ _ I)).
  assert (Fin : finals (with_dup f) = finals f) by (rewrite (ad_fin _ _ _ A); apply (im_fin _ _ _ I)).
  pose proof (wf_init _ W) as WI. splits; auto. split; auto.
  - rewrite Ini, Sz. lia.
  - rewrite Fin, Sz. intros q Hq. apply (wf_fin _ W) in Hq. lia.
  - rewrite Fin. apply W.
  - apply (ad_rows _ _ _ A). apply (im_rows _ _ _ I).
  - apply uncompressed_letters; auto.
  - apply uncompressed_coherent; auto.
  - apply uncompressed_bcoherent; auto.
  - intros X. apply (ad_alt _ _ _ A) in X. rewrite (im_alt _ _ _ I) in X. destruct (wf_alt _ W X) as (A1 & A2 & A3). rewrite Ini, Fin. splits; auto.
    + intros p c H. apply (ad_raw _ _ _ A) in H as [H|(_ & _ & H)]; [|lia]. apply (im_raw _ _ _ I) in H as [H|(p' & q' & _ & H & _)]; [|lia].
      apply (A1 p (erep f c)). exact H.
    + intros c q H. apply (ad_raw _ _ _ A) in H as [H|(H & _)]; [|contradiction]. apply (im_raw _ _ _ I) in H as [H|(p' & q' & H & _)]; [|lia].
      eapply alt_edge_out; eauto.
Qed.

(** ** The automaton of the pairs *)
Definition sq_ok (states : list (nat * nat)) (sq : fsm) : Prop :=
  wf sq /\ uncompressed sq /\ isAlt sq = false /\ determined sq = false /\ size sq = length states.
Lemma sq_ok_output : forall states sq a b v, sq_ok states sq -> sq_ok states (set_output sq a b v).
Proof. intros states sq a b v (W & U & A & D & Sz). unfold sq_ok. splits; auto. apply wf_set_outputs. auto. Qed.
Lemma sq_connects : forall ms cur i sq n, wf sq -> uncompressed sq -> isAlt sq = false -> determined sq = false -> size sq = n -> cur < n -> i < n ->
  (forall c, In c ms -> (c < MaxChar)%N) ->
  let g := fold_left (fun g x => connect g cur i x) ms sq in wf g /\ uncompressed g /\ isAlt g = false /\ determined g = false /\ size g = n.
Proof.
  induction ms as [|c ms IH]; intros cur i sq n W U A D Sz Hc Hi Hm; cbn [fold_left]; [auto|].
  destruct (wf_connect sq cur i c W U ltac:(lia) ltac:(lia) (Hm c (or_introl eq_refl))) as (W1 & U1 & S1).
  apply IH; auto; [congruence|]. intros x Hx. apply Hm. right. auto.
Qed.
Lemma sq_row_ok : forall f dead cur st ls states sq states' sq', sq_ok states sq -> cur < length states ->
  (forall r i ms c, In (r, (i, ms)) ls -> In c ms -> (c < MaxChar)%N) ->
  sq_row f dead cur st ls states sq = Ok (states', sq') -> sq_ok states' sq' /\ exists ext, states' = states ++ ext.
Proof.
  intros f dead cur st ls. induction ls as [|[c [k ms]] ls IH]; intros states sq states' sq' Q Hc HL E; cbn [sq_row] in E.
  - apply ok_pair in E as [<- <-]. split; auto. exists []. rewrite app_nil_r. auto.
  - destruct (pair_next f dead st c) as [[[m b] out]| | |]; cbn [bind] in E; try discriminate E.
    assert (HM : forall x, In x ms -> (x < MaxChar)%N) by (intros x Hx; apply (HL c k ms x); auto; left; auto).
    assert (HL' : forall r i ms c, In (r, (i, ms)) ls -> In c ms -> (c < MaxChar)%N) by (intros r i ms' x H; apply (HL r i ms' x); right; auto).
    destruct Q as (W & U & A & D & Sz).
    assert (KEY : forall i states1 sq1, sq_ok states1 sq1 -> i < length states1 -> cur < length states1 -> (exists ext, states1 = states ++ ext) ->
      sq_row f dead cur st ls states1 (if (out =? 0)%N then fold_left (fun g x => connect g cur i x) ms sq1
        else set_output (fold_left (fun g x => connect g cur i x) ms sq1) cur i out) = Ok (states', sq') ->
      sq_ok states' sq' /\ exists ext, states' = states ++ ext).
    { intros i states1 sq1 (W1 & U1 & A1 & D1 & S1) Hi Hc1 [ext1 X1] E1.
      destruct (sq_connects ms cur i sq1 (length states1) W1 U1 A1 D1 S1 Hc1 Hi HM) as (W2 & U2 & A2 & D2 & S2).
      set (g := fold_left (fun g x => connect g cur i x) ms sq1) in *. clearbody g.
      assert (QG : sq_ok states1 (if (out =? 0)%N then g else set_output g cur i out)).
      { assert (QG : sq_ok states1 g) by (unfold sq_ok; splits; auto). destruct (out =? 0)%N; auto. apply sq_ok_output. exact QG. }
      destruct (IH states1 _ states' sq' QG Hc1 HL' E1) as [Q' [ext2 X2]]. split; auto. exists (ext1 ++ ext2). rewrite X2, X1, app_assoc. reflexivity. }
    destruct (index_of nat_pair_eqb (m, b) states) as [i|] eqn:IO.
    + apply (KEY i states sq); auto.
      * unfold sq_ok. splits; auto.
      * assert (PE : forall a b, nat_pair_eqb a b = true <-> a = b).
        { intros [x1 x2] [y1 y2]. unfold nat_pair_eqb. cbn [fst snd]. rewrite andb_true_iff, !Nat.eqb_eq. split; [intros []; congruence|intros X; injection X; auto]. }
        apply (index_of_some _ _ PE) in IO. apply nth_error_Some. congruence.
      * exists []. rewrite app_nil_r. auto.
    + apply (KEY (length states) (states ++ [(m, b)]) (resize_fsm sq (S (length states)))); auto.
      * unfold sq_ok. splits; auto.
        -- apply wf_resize; auto. lia.
        -- rewrite size_resize, app_length. cbn. lia.
      * rewrite app_length. cbn. lia.
      * rewrite app_length. cbn. lia.
      * eauto.
Qed.
Lemma pset_range : forall p r i ms c, wf_part p -> In (r, (i, ms)) (pset p) -> In c ms -> letter c /\ part_rep p c = Some r.
Proof.
  intros p r i ms c W H1 H2. assert (X : part_rep p c = Some r).
  { apply (wp_inv _ W). exists i, ms. split; auto. apply msorted_find; auto. apply W. }
  split; auto. apply (wp_range _ W _ _ X).
Qed.
Lemma sq_loop_ok : forall f dead fuel cur states sq states' sq', wf f -> sq_ok states sq ->
  sq_loop f dead fuel cur states sq = Ok (states', sq') -> sq_ok states' sq'.
Proof.
  intros f dead fuel. induction fuel as [|fuel IH]; intros cur states sq states' sq' W Q E; cbn [sq_loop] in E; [discriminate E|].
  destruct (nth_error states cur) as [st|] eqn:N0; [|apply ok_pair in E as [<- <-]; auto].
  set (sq1 := if (fsm_tag f (fst st) =? 0)%N then sq else set_tags sq (mset cur (fsm_tag f (fst st)) (tags sq))) in E. cbn zeta in E. fold sq1 in E.
  assert (Q1 : sq_ok states sq1).
  { unfold sq1, sq_ok. destruct Q as (Q1 & Q2 & Q3 & Q4 & Q5). destruct (fsm_tag f (fst st) =? 0)%N; splits; auto. apply wf_set_tags; auto. }
  clearbody sq1. assert (Hc : cur < length states) by (apply nth_error_Some; congruence).
  assert (Q2 : sq_ok states (set_final sq1 cur (is_final f (fst st)))).
  { destruct Q1 as (A1 & A2 & A3 & A4 & A5). unfold sq_ok. splits; auto. apply wf_set_final; auto. lia. }
  destruct (sq_row f dead cur st (pset (letters f)) states (set_final sq1 cur (is_final f (fst st)))) as [[states1 sq3]| | |] eqn:ER; cbn [bind] in E; try discriminate E.
  assert (HL : forall r i ms c, In (r, (i, ms)) (pset (letters f)) -> In c ms -> (c < MaxChar)%N).
  { intros r i ms c H1 H2. destruct (pset_range _ _ _ _ _ (wf_letters _ W) H1 H2) as [[H _] _]. exact H. }
  destruct (sq_row_ok _ _ _ _ _ _ _ _ _ Q2 Hc HL ER) as [Q3 _].
  eapply IH; eauto.
Qed.
Lemma sq_run_ok : forall f dead states sq, wf f -> sq_run f dead = Ok (states, sq) -> sq_ok states sq.
Proof.
  intros f dead states sq W E. eapply sq_loop_ok; eauto. unfold sq_ok. splits; try reflexivity. exact (built_wf _ built_new).
Qed.

(** ** Building the table *)
Lemma dest_bound : forall f q c x, wf f -> In x (destinations f q c) -> x < size f.
Proof.
  intros f q c x W H. unfold destinations in H. assert (X : raw f q (translate f c) x) by exact H. apply raw_bound in X; [tauto|apply W].
Qed.
Lemma build_loaded_ok : forall df remap g s s', wf g -> loaded_ok s -> d_states s = N.of_nat (size g) ->
  (forall a, acts_ok (d_count s) (remap a)) -> build_loaded df remap g s = Ok s' ->
  loaded_ok s' /\ exists T J, s' = set_jumps (set_dtags s T) J /\ length T = length (d_tags s).
Proof.
  intros df remap g s s' W L St A E. rewrite build_loaded_eq in E.
  apply bind_ok in E as (dead & _ & E). apply bind_ok in E as (s1 & E1 & E).
  destruct (tags_ok nat (seq 0 (size g)) (fun q => q) (fun q => Ok (N.lor (fsm_tag g q) (if smem q dead then df else 0%N))) s) as (T & ET & LT).
  { intros q Hq. apply in_seq in Hq. rewrite (lo_tlen _ L), St. split; [lia|eauto]. }
  cbn [bind] in ET. rewrite ET in E1. injection E1 as <-. pose proof (set_dtags_ok s T L LT) as L1.
  assert (HW : forall f t c a, In (f, t, c, a) (build_writes remap g) -> f < N.to_nat (d_states (set_dtags s T)) /\ t < N.to_nat (d_states (set_dtags s T)) /\ acts_ok (d_count (set_dtags s T)) a).
  { intros f t c a H. apply build_writes_in in H as (H1 & _ & H2 & ->). cbn [set_dtags d_states]. rewrite St, Nat2N.id. splits; [exact H1|exact (dest_bound _ _ _ _ W H2)|apply A]. }
  split; [eapply writes_loaded; eauto|].
  destruct (writes_ok (build_writes remap g) (set_dtags s T) (lo_jlen _ L1) (lo_lt _ L1) (nl_pos _ L1)) as (J & EJ & _).
  { intros f t c a H. apply (HW f t c a H). }
  rewrite EJ in E. injection E as <-. eauto.
Qed.
Lemma all_part_pos : forall p, wf_part p -> (exists c r, part_rep p c = Some r) -> 0 < part_size p.
Proof. intros p W (c & r & R). destruct (fill_bytes_ok p c r W R). lia. Qed.

Lemma counting_remap_ok : forall a, acts_ok 1 (counting_remap a).
Proof.
  intros a. unfold counting_remap. destruct (a =? N.lor CMatched CDead)%N; [|destruct (a =? CDead)%N]; split; try reflexivity; intros j H.
  - left. destruct (N.eq_dec j 0); [lia|]. change 1%N with (2 ^ 0)%N in H. rewrite N.pow2_bits_eqb in H. apply N.eqb_eq in H. lia.
  - right. change 65536%N with (2 ^ 16)%N in H. rewrite N.pow2_bits_eqb in H. apply N.eqb_eq in H. lia.
  - rewrite N.bits_0 in H. discriminate.
Qed.
Lemma determine_any : forall f m b g, wf f -> determined f = false -> determine f m = Ok (b, g) -> wf g /\ all_in_part g.
Proof.
  intros f m b g W D E. destruct (determine_ok f m W D) as (b' & g' & E' & W' & A' & _). rewrite E' in E. injection E as _ <-. auto.
Qed.
Lemma any_char_built : built any_char.
Proof.
  unfold any_char. apply built_or; [apply built_or|].
  - apply built_dot; [apply built_new|reflexivity].
  - apply built_append; [apply built_new|reflexivity|split; [reflexivity|discriminate]].
  - apply built_append; [apply built_new|reflexivity|split; [reflexivity|discriminate]].
Qed.
Local Opaque determine fsm_or fsm_cat fsm_and complement surround with_dup any_char unsparse.
Lemma counting_last : forall f m b h, wf f -> determined f = false -> determine f m = Ok (b, h) -> wf (unsparse h) /\ all_in_part (unsparse h).
Proof. intros f m b h W D E. destruct (determine_any f m b h W D E) as [W3 A3]. split; [apply wf_unsparse; exact W3|exact A3]. Qed.
Lemma counting_fsm_wf : forall re sep f, built re -> built sep -> counting_fsm re sep = Ok f -> wf f /\ all_in_part f.
Proof.
  intros re sep f Br Bs E. unfold counting_fsm in E.
  apply bind_ok in E as (nr & E1 & E). apply bind_ok in E as (a & E2 & E). apply bind_ok in E as ([b g] & E3 & E).
  apply bind_ok in E as ([b' h] & E4 & E). apply ok_inj in E. subst f.
  assert (B1 : built g).
  { eapply built_determine; [|exact E3]. apply built_cat; auto. eapply built_and; [exact Bs| |exact E2]. eapply built_complement; [|exact E1]. apply built_surround. auto. }
  destruct (with_dup_wf g (built_wf _ B1)) as (W1 & _).
  pose proof (proj1 (fsm_or_ok (with_dup g) any_char W1 (built_wf _ any_char_built))) as W2.
  exact (counting_last _ _ _ _ W2 (fsm_or_undet _ _) E4).
Qed.
Lemma counting_scanner_ok : forall buf re sep s, built re -> built sep -> counting_scanner buf re sep = Ok s ->
  loaded_ok s /\ d_null s = false /\ d_owned s = true /\ d_count s = 1%N /\ d_buf s = buf.
Proof.
  intros buf re sep s Br Bs E. unfold counting_scanner in E.
  apply bind_ok in E as (f & E1 & E). apply bind_ok in E as (dead & E2 & E). apply bind_ok in E as ([states sq] & E3 & E).
  apply bind_ok in E as ([b g] & E4 & E). apply bind_ok in E as (s0 & E5 & E).
  destruct (counting_fsm_wf re sep f Br Bs E1) as [Wf _]. destruct (sq_run_ok f dead states sq Wf E3) as (W1 & _ & _ & D1 & _).
  destruct (determine_any _ _ _ _ W1 D1 E4) as [Wg Ag].
  assert (PP : 0 < part_size (letters g)).
  { apply all_part_pos; [apply Wg|]. destruct (Ag 0%N eq_refl ltac:(discriminate)) as [r R]. eauto. }
  destruct (init_loaded_ok buf (size g) (letters g) (initial g) 1 s0 (wf_letters _ Wg) PP (wf_init _ Wg) ltac:(lia) E5) as (L0 & S0 & _ & R0 & B0 & _ & _ & O0 & N0).
  assert (C0 : d_count s0 = 1%N) by (unfold d_count; rewrite N0; auto).
  destruct (build_loaded_ok CDead counting_remap g s0 s Wg L0 S0) as (L1 & T & J & -> & _); auto.
  intros a. rewrite C0. apply counting_remap_ok.
Qed.
(** The null scanner: like a scanner of no regexps *)
Definition as_null (s : loaded) : loaded :=
  mkLoaded (d_states s) (d_nletters s) 1 (d_initial s) (d_buf s) (d_letters s) (d_jumps s) (d_tags s) false true.
Lemma as_null_ok : forall s, loaded_ok s -> d_count s = 0%N -> loaded_ok (as_null s).
Proof.
  intros s [] C. rewrite C in *. split; auto.
Qed.
Definition reown (n : N) (s : loaded) : loaded :=
  mkLoaded (d_states s) (d_nletters s) n (d_initial s) (d_buf s) (d_letters s) (d_jumps s) (d_tags s) (d_owned s) (d_null s).
Lemma reown_jump : forall n s f c t a, set_djump (reown n s) f c t a = let* x := set_djump s f c t a in Ok (reown n x).
Proof. intros n s f c t a. unfold set_djump. cbn [reown d_jumps]. cbn zeta. destruct (_ <? _)%N; reflexivity. Qed.
Lemma reown_tag : forall n s q v, set_dtag (reown n s) q v = let* x := set_dtag s q v in Ok (reown n x).
Proof. intros n s q v. unfold set_dtag. cbn [reown d_tags]. destruct (_ <? _)%nat; reflexivity. Qed.
Lemma reown_fold : forall n A (step : loaded -> A -> res loaded),
  (forall s x, step (reown n s) x = let* y := step s x in Ok (reown n y)) ->
  forall l s, foldm step l (reown n s) = let* y := foldm step l s in Ok (reown n y).
Proof.
  intros n A step H. induction l as [|x l IH]; intros s; cbn [foldm]; [reflexivity|]. rewrite H. destruct (step s x) as [y| | |]; cbn [bind]; auto.
Qed.
Lemma reown_build : forall n df remap f s, build_loaded df remap f (reown n s) = let* x := build_loaded df remap f s in Ok (reown n x).
Proof.
  intros n df remap f s. unfold build_loaded. destruct (if (df =? 0)%N then Ok [] else dead_states f) as [dead| | |]; cbn [bind]; auto.
  rewrite reown_fold by (intros; apply reown_tag).
  destruct (foldm _ (seq 0 (size f)) s) as [s1| | |]; cbn [bind]; auto.
  apply reown_fold. intros s2 q. apply reown_fold. intros s3 [c x]. apply reown_fold. intros s4 y. apply reown_jump.
Qed.
Lemma reown_init : forall n m buf q p i, (n < two32)%N -> (m < two32)%N -> init_loaded buf q p i n = let* x := init_loaded buf q p i m in Ok (reown n x).
Proof.
  intros n m buf q p i H H'. unfold init_loaded. destruct (_ <=? _)%N; [reflexivity|]. cbn [bind]. unfold reown. cbn. rewrite (N.mod_small n) by auto. reflexivity.
Qed.
Lemma default_loaded_ok : forall buf s, default_loaded buf = Ok s -> loaded_ok s /\ d_null s = true /\ d_owned s = false.
Proof.
  intros buf s E. unfold default_loaded in E. apply bind_ok in E as (g & E1 & E). apply bind_ok in E as (s0 & E2 & E). apply bind_ok in E as (s1 & E3 & E).
  assert (B : built g) by (eapply built_canonize; [apply built_false|exact E1]).
  assert (O : forall q q', output g q q' = 0%N).
  { vm_compute in E1. injection E1 as <-. intros q q'. reflexivity. }
  assert (Ag : exists c r, part_rep (letters g) c = Some r).
  { vm_compute in E1. injection E1 as <-. exists 0%N. eexists. vm_compute. reflexivity. }
  clear E1. pose proof (built_wf _ B) as Wg.
  pose proof (all_part_pos _ (wf_letters _ Wg) Ag) as PP.
  rewrite (reown_init 1 0) in E2 by reflexivity. apply bind_ok in E2 as (s2 & E4 & E2). apply ok_inj in E2. subst s0.
  rewrite reown_build in E3. apply bind_ok in E3 as (s3 & E5 & E3). apply ok_inj in E3, E. subst s1.
  destruct (init_loaded_ok buf (size g) (letters g) (initial g) 0 s2 (wf_letters _ Wg) PP (wf_init _ Wg) ltac:(lia) E4) as (L0 & S0 & N0 & R0 & B0 & I0 & T0 & O0 & U0).
  assert (C0 : d_count s2 = 0%N) by (unfold d_count; rewrite U0; auto).
  set (rm := fun a : N => a) in *.
  assert (E6 : build_loaded 0 (fun a => 0%N) g s2 = build_loaded 0 rm g s2).
  { unfold build_loaded, rm. cbn [N.eqb bind]. destruct (foldm _ (seq 0 (size g)) s2) as [y| | |]; cbn [bind]; auto.
    apply foldm_ext. intros z q _. apply foldm_ext. intros z' [c x] _. apply foldm_ext. intros z'' q' _. rewrite O. reflexivity. }
  rewrite E5 in E6.
  destruct (build_loaded_ok 0 (fun a => 0%N) g s2 s3 Wg L0 S0) as (L1 & T & J & -> & _); [intros _; apply acts_zero|exact E6|].
  subst s. splits; auto. apply (as_null_ok _ L1). exact C0.
Qed.
