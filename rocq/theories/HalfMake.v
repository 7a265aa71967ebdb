(** MakeScanner and MakeNonGreedyCounter: what the resulting automata are. *)
From Coq Require Import List Bool Arith NArith Lia.
From Verif Require Import Util Spec PartitionModel PartitionProofs FsmModel DetermineModel MinimizeModel Nfa NfaOps FsmSem FsmBasics FsmOps FsmOps2 EpsProofs DeadProofs DetProofs MinProofs CompProofs Api ApiProofs TagFacts ScannerModel ScannerSpec ScannerCompile HalfModel HalfSpec HalfCut HalfLang HalfTurn.
Import ListNotations.
Local Opaque all_letters all_bytes.

(** ** Tags stay zero *)
Lemma zt_fold : forall A (g : fsm -> A -> fsm) l f, (forall h x, zero_tags h -> zero_tags (g h x)) -> zero_tags f -> zero_tags (fold_left g l f).
Proof. intros A g l. induction l as [|x l IH]; intros f H B; cbn [fold_left]; auto. Qed.
Lemma zt_fold2 : forall A B (g : fsm * B -> A -> fsm * B) l f, (forall h x, zero_tags (fst h) -> zero_tags (fst (g h x))) -> zero_tags (fst f) -> zero_tags (fst (fold_left g l f)).
Proof. intros A B g l. induction l as [|x l IH]; intros f H Hb; cbn [fold_left]; auto. Qed.
Lemma zt_set : forall f q t, zero_tags f -> t = 0%N ->
  zero_tags (set_tags f (mset q (N.lor (match mfind q (tags f) with Some x => x | None => 0%N end) t) (tags f))).
Proof.
  intros f q t [A B] ->. split; auto. cbn [set_tags tags]. intros p x. rewrite mfind_mset. destruct (keqb_spec p q) as [->|]; [|apply B].
  intros H. apply some_inj in H. rewrite <- H. destruct (mfind q (tags f)) as [y|] eqn:F; auto. rewrite (B _ _ F). reflexivity.
Qed.
Lemma zt_bare : forall f, bare f -> zero_tags f.
Proof. intros f [A B]. split; auto. rewrite A. cbn. discriminate. Qed.
Lemma zt_tag : forall f, zero_tags f -> forall q, fsm_tag f q = 0%N.
Proof. intros f [_ Z] q. unfold fsm_tag. destruct (mfind q (tags f)) eqn:F; auto. eauto. Qed.

Lemma zt_prepend : forall f, zero_tags f -> zero_tags (prepend_anything f).
Proof.
  intros f H. unfold prepend_anything. set (f2 := fold_left _ _ _). assert (H2 : zero_tags f2) by (apply zt_fold; auto). clearbody f2. exact H2.
Qed.
Lemma zt_shortcut : forall from thru acc, zero_tags (fst acc) -> zero_tags (fst (shortcut_epsilon from thru acc)).
Proof.
  intros from thru [f inv] [A B]. cbn [fst] in *. unfold shortcut_epsilon. rewrite A. cbn [mfind].
  apply zt_fold2; [|split; auto]. intros [h i] x Hh. exact Hh.
Qed.
Lemma zt_merge : forall from f to, zero_tags f -> zero_tags (merge_epsilon from f to).
Proof.
  intros from f to [A B]. unfold merge_epsilon. rewrite A. cbn [mfind].
  set (f1 := fold_left _ _ _). assert (H1 : zero_tags f1).
  { apply zt_fold; [|split; auto]. intros h [c tos] Hh. exact Hh. }
  clearbody f1. set (f2 := if is_final f1 to then _ else _). assert (H2 : zero_tags f2) by (unfold f2; destruct (is_final f1 to); auto).
  clearbody f2. destruct (mfind to (tags f2)) as [t|] eqn:F.
  - pose proof (proj2 H2 _ _ F) as Ht. pose proof (zt_set f2 from t H2 Ht) as H3. cbn [set_tags outputs] in *. rewrite (proj1 H2). cbn [mfind]. exact H3.
  - rewrite (proj1 H2). cbn [mfind]. exact H2.
Qed.
Lemma zt_noeps : forall f, zero_tags f -> zero_tags (remove_epsilons f).
Proof.
  intros f H. unfold remove_epsilons. set (f1 := unsparse f). assert (H1 : zero_tags f1) by exact H. clearbody f1.
  set (f2 := close_eps f1). assert (H2 : zero_tags f2).
  { unfold f2, close_eps. apply zt_fold2; auto. intros [h inv] x Hh. cbn [fst] in Hh. apply zt_fold2; auto.
    intros acc y Ha. destruct (Nat.eqb y x); auto. apply zt_shortcut. auto. }
  clearbody f2. set (f3 := merge_all_eps f2). assert (H3 : zero_tags f3); [|clearbody f3; exact H3].
  unfold f3, merge_all_eps. apply zt_fold; auto. intros h x Hh. apply zt_fold; auto.
  intros h' y Hh'. destruct (Nat.eqb y x); auto. apply zt_merge; auto.
Qed.
Lemma zt_members : forall f ns s g, zero_tags f -> zero_tags g -> zero_tags (accept_members f ns s g).
Proof.
  intros f ns. induction s as [|j s IH]; intros g Hf Hg; cbn [accept_members]; auto.
  set (g1 := if is_final f j then set_final g ns true else g). assert (H1 : zero_tags g1) by (unfold g1; destruct (is_final f j); auto). clearbody g1.
  destruct (_ && _); auto. apply IH; auto. destruct (mfind j (tags f)) as [t|] eqn:F; auto. apply zt_set; auto. eapply Hf; eauto.
Qed.
Lemma zt_accept : forall f term states, zero_tags f -> zero_tags (accept_states f term states).
Proof.
  intros f term states Hf. unfold accept_states. set (g1 := clear_final _). assert (H1 : zero_tags g1) by (split; [reflexivity|cbn; discriminate]). clearbody g1.
  set (g2 := fold_left _ _ g1). assert (H2 : zero_tags g2).
  { apply zt_fold; auto. intros h x Hh. apply zt_members; auto. unfold accept_terminal. apply zt_fold; auto.
    intros h' y Hh'. destruct (smem y term); auto. apply zt_fold; auto. intros h'' [c z] Hh''. exact Hh''. }
  clearbody g2. destruct H2 as [A B]. split; auto. unfold set_outputs, accept_outputs. cbn [outputs]. rewrite (proj1 Hf). auto.
Qed.
Lemma zt_determine : forall f m b g, zero_tags f -> determine f m = Ok (b, g) -> zero_tags g.
Proof.
  intros f m b g H E. unfold determine in E. destruct (determined f); [injection E as <- <-; auto|].
  pose proof (zt_noeps f H) as H1. set (f1 := remove_epsilons f) in *. clearbody f1.
  destruct (det_run _ _ _ _ _ _); try discriminate; injection E as <- <-; auto.
  set (g1 := fold_left _ _ _). assert (H2 : zero_tags g1).
  { apply zt_fold; [|apply zt_accept; auto]. intros h [[x y] c] Hh. exact Hh. }
  clearbody g1. destruct H2 as [A B]. split; auto. unfold set_sparsed, set_outputs, prune_outputs. cbn [outputs]. rewrite A.
  cbn [mfind]. generalize (seq 0 (size g1)). intros l. induction l; cbn [fold_left]; auto.
Qed.
Lemma zt_minimize : forall f g, zero_tags f -> minimize f = Ok g -> zero_tags g.
Proof.
  intros f g H E. unfold minimize in E. destruct (rev_rows _ _ _); cbn [bind] in E; try discriminate.
  destruct (negb (determined f)); [injection E as <-; auto|]. destruct (min_run _ _ _ _ _); cbn [bind] in E; try discriminate.
  injection E as <-. unfold min_accept. set (g1 := set_final _ 0 false). assert (H1 : zero_tags g1) by (split; [reflexivity|cbn; discriminate]). clearbody g1.
  set (g2 := fold_left _ _ g1). assert (H2 : zero_tags g2).
  { apply zt_fold; auto. intros h x Hh. unfold min_accept_state.
    set (h1 := min_accept_row _ _ _ _). assert (Hh1 : zero_tags h1).
    { apply zt_fold; auto. intros h' [c tos] Hh'. exact Hh'. }
    clearbody h1. set (h2 := if is_final f x then _ else _). assert (Hh2 : zero_tags h2) by (unfold h2; destruct (is_final f x); auto). clearbody h2.
    destruct (mfind x (tags f)) as [t|] eqn:F; auto. apply zt_set; auto. eapply H; eauto. }
  destruct H2. split; auto. unfold set_outputs, min_outputs. cbn [outputs]. rewrite (proj1 H). reflexivity.
Qed.
Lemma zt_canonize : forall f m g, zero_tags f -> canonize f m = Ok g -> zero_tags g.
Proof.
  intros f m g H E. unfold canonize in E. destruct (determined f).
  - cbn [bind] in E. eapply zt_minimize; eauto.
  - destruct (determine f m) as [[b h]| | |] eqn:D; cbn [bind] in E; try discriminate. destruct b; cbn [bind] in E; [|discriminate].
    eapply zt_minimize; [|eauto]. eapply zt_determine; eauto.
Qed.
Lemma zt_sparse : forall f, zero_tags f -> zero_tags (set_determined (sparse f) false).
Proof. intros f [A B]. unfold sparse. generalize (fold_left (fun p c => if N.eqb c Epsilon then p else part_append (letters_equal (trans f)) c p) all_letters part_empty). intros p. split; [exact A|exact B]. Qed.
Definition detached (i : bool) (f : fsm) : fsm := fold_left (detach i) (seq 0 (size (unsparse f))) (unsparse f).
Lemma disconnect_unfold : forall i f, disconnect_finals i f = canonize (set_determined (sparse (if i then prepend_anything (detached i f) else detached i f)) false) 0.
Proof. reflexivity. Qed.
Lemma zt_detached : forall i g, wf g -> det_ok g -> isAlt g = false -> zero_tags g -> zero_tags (detached i g).
Proof.
  intros i g W D A [O T]. destruct (detached_rlang i g W D A) as (_ & _ & K & _). change (keeps (unsparse g) (detached i g)) in K.
  assert (O1 : outputs (unsparse g) = outputs g) by reflexivity. assert (T1 : tags (unsparse g) = tags g) by reflexivity.
  revert K O1 T1. generalize (detached i g) (unsparse g). intros f2 f1 K O1 T1.
  split; [rewrite (ke_out _ _ K); congruence|]. intros q t H. apply (ke_tags _ _ K) in H as [H|H]; auto. rewrite T1 in H. eauto.
Qed.
Lemma zt_disconnect : forall i g h, wf g -> det_ok g -> isAlt g = false -> zero_tags g -> disconnect_finals i g = Ok h -> zero_tags h.
Proof.
  intros i g h W D A Z E. rewrite disconnect_unfold in E. pose proof (zt_detached i g W D A Z) as Z2.
  revert E Z2. generalize (detached i g). intros f2 E Z2.
  assert (Z3 : zero_tags (if i then prepend_anything f2 else f2)) by (destruct i; [exact (zt_prepend _ Z2)|exact Z2]).
  revert E Z3. generalize (if i then prepend_anything f2 else f2). intros f3 E Z3.
  exact (zt_canonize _ _ _ (zt_sparse _ Z3) E).
Qed.

(** ** Canonical automata carry no hint *)
Lemma alt_fold : forall A (g : fsm -> A -> fsm) l f, (forall h x, isAlt h = false -> isAlt (g h x) = false) -> isAlt f = false -> isAlt (fold_left g l f) = false.
Proof. intros A g l. induction l as [|x l IH]; intros f H B; cbn [fold_left]; auto. Qed.
Lemma minimize_alt : forall f g, determined f = true -> minimize f = Ok g -> isAlt g = false.
Proof.
  intros f g D E. unfold minimize in E. destruct (rev_rows _ _ _); cbn [bind] in E; try discriminate.
  rewrite D in E. cbn [negb] in E. destruct (min_run _ _ _ _ _); cbn [bind] in E; try discriminate.
  injection E as <-. unfold min_accept. set (g1 := set_final _ 0 false). assert (H1 : isAlt g1 = false) by reflexivity. clearbody g1.
  set (g2 := fold_left _ _ g1). assert (H2 : isAlt g2 = false); [|clearbody g2; exact H2].
  apply alt_fold; auto. intros h x Hh. unfold min_accept_state.
  set (h1 := min_accept_row _ _ _ _). assert (Hh1 : isAlt h1 = false) by (apply alt_fold; auto; intros h' [c tos] Hh'; reflexivity).
  clearbody h1. set (h2 := if is_final f x then _ else _). assert (Hh2 : isAlt h2 = false) by (unfold h2; destruct (is_final f x); auto). clearbody h2.
  destruct (mfind x (tags f)); auto.
Qed.
Lemma canonize_alt : forall f m g, good f -> canonize f m = Ok g -> isAlt g = false.
Proof.
  intros f m g G E. unfold canonize in E. destruct (determined f) eqn:D.
  - cbn [bind] in E. eapply minimize_alt; eauto.
  - destruct (determine_good f m G) as [(h & Eh & _ & _ & Dh & _)|(h & Eh & _)]; rewrite Eh in E; cbn [bind] in E; [|discriminate].
    eapply minimize_alt; eauto.
Qed.

(** ** AllowHalfFinals *)
Lemma allow_ok : forall g, wf g -> det_ok g -> all_reachable g -> allow_half_finals g = true <-> right_closed (accepts g).
Proof.
  intros g W D Ra. unfold allow_half_finals. rewrite forallb_forall.
  assert (Dst : forall q c, q < size g -> part_rep (letters g) c = Some c -> exists y, destinations g q c = [y] /\ edge g q c y).
  { intros q c Hq Hc. destruct (do_fun _ D q c Hq Hc) as (y & Hy & M). exists y. split.
    - unfold destinations, translate. rewrite Hc. destruct (_ || _); unfold row_get; rewrite M; reflexivity.
    - apply (dedge g W D). eauto. }
  split.
  - intros H w c (q & P & Fq) Hc. assert (Hq : q < size g) by (eapply wf_fin; eauto).
    specialize (H q). rewrite in_seq in H. specialize (H ltac:(lia)).
    assert (F : is_final g q = true) by (apply smem_in; auto). rewrite F in H. rewrite forallb_forall in H.
    destruct Hc as [Hc1 Hc2]. destruct (do_all _ D c Hc1 Hc2) as [r Hr].
    pose proof (part_rep_rep _ _ _ (wf_letters _ W) Hr) as Hrr.
    destruct (Dst q r Hq Hrr) as (y & Ey & Hy).
    assert (exists i, In (r, i) (part_list (letters g))) as [i Hi].
    { apply (wp_inv _ (wf_letters _ W)) in Hrr as (i & ms & M & _). exists i. apply part_list_in; [apply W|eauto]. }
    specialize (H _ Hi). cbn beta iota in H. rewrite Ey in H. cbn [existsb] in H. rewrite orb_false_r in H. apply smem_in in H.
    exists y. split; auto. eapply path_app; [exact P|]. eapply path_step; [exact Hc2| |constructor].
    apply (dedge g W D) in Hy as (r' & R' & M'). rewrite Hrr in R'. apply some_inj in R'. subst r'. apply (dedge g W D). eauto.
  - intros H q Hq. apply in_seq in Hq. destruct (is_final g q) eqn:F; auto. apply smem_in in F. rewrite forallb_forall. intros [c i] Hi.
    apply part_list_in in Hi as [ms M]; [|apply W].
    assert (Hc : part_rep (letters g) c = Some c).
    { apply (wp_inv _ (wf_letters _ W)). exists i, ms. split; auto. eapply wp_self; eauto. apply W. }
    destruct (Dst q c) as (y & Ey & Hy); [lia|auto|]. rewrite Ey. cbn [existsb]. rewrite orb_false_r. apply smem_in.
    destruct (Ra q) as (w & Hw & P); [lia|].
    assert (Lc : letter c) by (apply (wp_range _ (wf_letters _ W)) in Hc; exact Hc).
    destruct (H w c) as (z & Pz & Fz); [exists q; auto|auto|].
    assert (Py : path (edge g) (initial g) (w ++ [c]) y).
    { eapply path_app; [exact P|]. eapply path_step; [apply Lc|exact Hy|constructor]. }
    rewrite (det_path_fun g W D _ _ _ _ Py Pz). exact Fz.
Qed.
Lemma right_closed_ext : forall L M, lang_eq L M -> right_closed L -> right_closed M.
Proof. intros L M E H w c Hw Hc. apply E, H; auto. apply E. auto. Qed.
Lemma L_shortest_ext : forall L M, lang_eq L M -> lang_eq (L_shortest L) (L_shortest M).
Proof.
  intros L M E w. unfold L_shortest. rewrite (E w). split; intros [A B]; split; auto; intros u v X Y Z; apply (B u v X Y), E, Z.
Qed.
Lemma L_until_end_ext : forall L M, lang_eq L M -> lang_eq (L_until_end L) (L_until_end M).
Proof. intros L M E w. split; intros (u & v & A & B & C); exists u, v; splits; auto; apply E; auto. Qed.
Lemma L_star_ext' : forall L M, lang_eq L M -> forall w, L_star L w -> L_star M w.
Proof. intros L M E w H. induction H; constructor; auto. apply E; auto. Qed.
Lemma L_plus_ext : forall L M, lang_eq L M -> lang_eq (L_plus L) (L_plus M).
Proof. intros L M E. apply L_cat_ext; auto. intros w. split; apply L_star_ext'; auto. apply lang_eq_sym; auto. Qed.
Lemma cut_lang_ext : forall i L M, lang_eq L M -> lang_eq (cut_lang i L) (cut_lang i M).
Proof.
  intros i L M E. unfold cut_lang. destruct i.
  - apply L_cat_ext; [apply lang_eq_refl|apply L_shortest_ext; auto].
  - apply L_plus_ext, L_shortest_ext; auto.
Qed.

(** ** The two constructions *)
Record made (g : fsm) (L : lang) : Prop := {
  ma_wf : wf g;
  ma_det : det_any g;
  ma_tags : zero_tags g;
  ma_lang : lang_eq (accepts g) L
}.

Lemma disconnect_size : forall i g h, wf g -> det_ok g -> isAlt g = false -> disconnect_finals i g = Ok h -> (N.of_nat (size h) <= 200001)%N.
Proof.
  intros i g h W D A E. rewrite disconnect_unfold in E.
  destruct (detached_rlang i g W D A) as (B2 & A2 & _ & _). change (basic (detached i g)) in B2. change (isAlt (detached i g) = false) in A2.
  revert E B2 A2. generalize (detached i g). intros f2 E B2 A2.
  assert (X : exists f3, (if i then prepend_anything f2 else f2) = f3 /\ basic f3 /\ isAlt f3 = false).
  { destruct i; eexists; (split; [reflexivity|]).
    - destruct (prepend_rlang f2 B2 A2) as [B3 L3]. split; [exact B3|apply prepend_alt].
    - split; auto. }
  destruct X as (f3 & X & B3 & A3). rewrite X in E. destruct (sparse_ok f3 B3 A3) as (W4 & _ & _).
  set (f4 := sparse f3) in *. clearbody f4.
  assert (G : good (set_determined f4 false)).
  { split; [|cbn; discriminate]. destruct W4. constructor; auto. }
  pose proof (canonize_size _ 0 h G eq_refl E) as S. exact S.
Qed.

Lemma make_scanner_ok : forall f, built f ->
  (exists g, make_scanner f = Ok g /\ made g (half_lang (accepts f)) /\ (determined f = false -> (N.of_nat (size g) <= 200002)%N)) \/
  make_scanner f = Throw ETooComplicated.
Proof.
  intros f B. unfold make_scanner.
  destruct (canonize_ok f 0 (built_good _ B)) as [(f1 & E1 & W1 & D1 & T1 & L1 & _)|[E1 _]]; [|right; rewrite E1; reflexivity].
  assert (B1 : built f1) by (eapply built_canonize; eauto). rewrite E1. cbn [bind].
  destruct (canonize_ok f1 0 (built_good _ B1)) as [(f2 & E2 & W2 & D2 & T2 & L2 & _)|[_ [X _]]]; [|congruence].
  assert (B2 : built f2) by (eapply built_canonize; eauto). rewrite E2. cbn [bind].
  pose proof (canonize_alt _ _ _ (built_good _ B1) E2) as A2.
  destruct (built_ok _ B2) as [_ R]. destruct (R T2) as [_ Ra]. pose proof (zt_bare _ (built_bare _ B2)) as Z2.
  assert (L : lang_eq (accepts f2) (accepts f)) by (eapply lang_eq_trans; eauto).
  pose proof (allow_ok f2 W2 D2 Ra) as Al.
  destruct (allow_half_finals f2).
  - assert (Rc : right_closed (accepts f)) by (apply (right_closed_ext _ _ L), Al; auto).
    destruct (disconnect_finals_ok true f2 W2 D2 A2) as [(h & E & Wh & Dh & Th & Rh & Lh)|E]; [left|right; exact E].
    exists h. split; [exact E|]. split; [|intros _; pose proof (disconnect_size true f2 h W2 D2 A2 E); lia].
    constructor; [exact Wh|exact (det_any_of _ Dh)|exact (zt_disconnect true f2 h W2 D2 A2 Z2 E)|].
    eapply lang_eq_trans; [exact Lh|]. eapply lang_eq_trans; [apply (cut_lang_ext true _ _ L)|]. intros w. unfold half_lang. cbn [cut_lang]. tauto.
  - assert (Rc : ~ right_closed (accepts f)).
    { intros X. apply (right_closed_ext _ _ (lang_eq_sym _ _ L)), Al in X. discriminate. }
    left. destruct (make_half_final_ok f2 W2 D2 A2) as (Wh & Dh & _ & Zh & Lh & Sh).
    revert Wh Dh Zh Lh Sh. generalize (make_half_final f2). intros h Wh Dh Zh Lh Sh. exists h. split; [reflexivity|]. split.
    + constructor; [exact Wh|exact Dh|exact (Zh Z2)|]. eapply lang_eq_trans; [exact Lh|]. eapply lang_eq_trans; [apply (L_until_end_ext _ _ L)|]. intros w. unfold half_lang. tauto.
    + intros Df. rewrite Sh. pose proof (canonize_size f 0 f1 (built_good _ B) Df E1) as S1. change (det_limit 0 + 1)%N with 200001%N in S1.
      assert (S2 : size f2 <= size f1).
      { unfold canonize in E2. rewrite T1 in E2. cbn [bind] in E2.
        destruct (minimize_ok f1 W1 D1 T1) as (g' & cls & E3 & _ & _ & _ & _ & _ & Su & _). rewrite E2 in E3. apply ok_inj in E3. subst g'.
        apply surj_le in Su. exact Su. }
      lia.
Qed.

Lemma make_non_greedy_ok : forall i sm f, built f ->
  (exists g, make_non_greedy i sm f = Ok g /\ made g (counter_lang i sm (accepts f)) /\ (N.of_nat (size g) <= 200001)%N) \/
  make_non_greedy i sm f = Throw ETooComplicated.
Proof.
  intros i sm f B. unfold make_non_greedy.
  destruct (canonize_ok f 0 (built_good _ B)) as [(f1 & E1 & W1 & D1 & T1 & L1 & _)|[E1 _]]; [|right; rewrite E1; reflexivity].
  assert (B1 : built f1) by (eapply built_canonize; eauto). rewrite E1. cbn [bind].
  destruct (prepend_anything_ok f1 W1) as (W2 & _ & L2). pose proof (built_prepend _ B1) as B2.
  assert (D2 : determined (prepend_anything f1) = false) by reflexivity.
  set (f2 := prepend_anything f1) in *. clearbody f2.
  destruct (remove_dead_ends_ok f2 W2) as (f3 & E3 & W3 & _ & L3). rewrite E3. cbn [bind].
  pose proof (built_dead _ _ B2 D2 E3) as B3.
  assert (D3 : determined f3 = false).
  { unfold remove_dead_ends in E3. destruct (dead_states f2) as [d| | |]; cbn [bind] in E3; try discriminate E3. apply ok_inj in E3. subst f3.
    clear - D2. cbn [clear_hints set_isAlt determined]. revert f2 D2. induction d as [|x d IH]; intros f2 D2; cbn [fold_left]; auto. }
  destruct (canonize_ok f3 0 (built_good _ B3)) as [(f4 & E4 & W4 & D4 & T4 & L4 & _)|[E4 _]]; [|right; rewrite E4; reflexivity].
  assert (B4 : built f4) by (eapply built_canonize; eauto). rewrite E4. cbn [bind].
  pose proof (canonize_alt _ _ _ (built_good _ B3) E4) as A4. pose proof (zt_bare _ (built_bare _ B4)) as Z4.
  assert (L : lang_eq (accepts f4) (L_cat L_any (accepts f))).
  { eapply lang_eq_trans; [exact L4|]. eapply lang_eq_trans; [exact L3|]. eapply lang_eq_trans; [exact L2|]. apply L_cat_ext; auto. apply lang_eq_refl. }
  destruct (negb i || sm) eqn:C.
  - destruct (disconnect_finals_ok i f4 W4 D4 A4) as [(h & E & Wh & Dh & Th & Rh & Lh)|E]; [left|right; exact E].
    exists h. split; [exact E|]. split; [|exact (disconnect_size i f4 h W4 D4 A4 E)].
    constructor; [exact Wh|exact (det_any_of _ Dh)|exact (zt_disconnect i f4 h W4 D4 A4 Z4 E)|].
    eapply lang_eq_trans; [exact Lh|]. eapply lang_eq_trans; [apply (cut_lang_ext i _ _ L)|]. unfold counter_lang, cut_lang.
    destruct i; [|apply lang_eq_refl]. cbn [negb orb] in C. rewrite C. apply lang_eq_refl.
  - left. exists f4. split; [reflexivity|]. split; [|exact (canonize_size f3 0 f4 (built_good _ B3) D3 E4)].
    constructor; [exact W4|exact (det_any_of _ D4)|exact Z4|]. unfold counter_lang. destruct i; [|discriminate C]. destruct sm; [discriminate C|]. exact L.
Qed.
