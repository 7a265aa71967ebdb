(** The lemmas behind the properties of the building calls, in the form the property
    files state them. *)
From Coq Require Import List Bool Arith NArith Lia.
From Verif Require Import Util Spec PartitionModel PartitionProofs FsmModel DetermineModel MinimizeModel Nfa NfaOps FsmSem FsmBasics FsmOps FsmOps2 FsmStrings DeadProofs EpsProofs DetGeneric DetProofs MinGeneric MinProofs CompProofs Api ApiProofs Check.
Import ListNotations.
Local Opaque all_letters.

Lemma f_append : forall f c, built f -> uncompressed f -> letter c ->
  lang_eq (accepts (append_special f c)) (L_cat (accepts f) (L_letter c)).
Proof. intros f c B. apply append_special_lang. apply built_wf; auto. Qed.
Lemma f_append_string : forall f s, built f -> uncompressed f -> is_word s ->
  lang_eq (accepts (append_string f s)) (L_cat (accepts f) (L_word s)).
Proof. intros f s B U H. apply append_string_ok; auto. apply built_wf; auto. Qed.
Lemma f_append_dot : forall f, built f -> uncompressed f ->
  lang_eq (accepts (append_dot f)) (L_cat (accepts f) L_anybyte).
Proof. intros f B U. apply append_dot_ok; auto. apply built_wf; auto. Qed.

Lemma refute : forall (L M : lang) w, ~ L w -> M w -> ~ lang_eq L M.
Proof. intros L M w H1 H2 H. apply H1, H; auto. Qed.
Lemma refute' : forall (L M : lang) w, L w -> ~ M w -> ~ lang_eq L M.
Proof. intros L M w H1 H2 H. apply H2, H; auto. Qed.

Lemma f_append_refuted : exists f c, built f /\ letter c /\
  ~ lang_eq (accepts (append_special f c)) (L_cat (accepts f) (L_letter c)).
Proof.
  exists (got fsm_new (complement (append_special fsm_new 97))), 120%N. split; [|split].
  - eapply built_complement with (f := append_special fsm_new 97%N).
    + constructor; [constructor|reflexivity|split; [reflexivity|discriminate]].
    + vm_compute. reflexivity.
  - split; [reflexivity|discriminate].
  - apply refute with [120%N].
    + apply (accepts_b_false _ _ 100). vm_compute. reflexivity.
    + exists [], [120%N]. split; auto. split; [|reflexivity]. apply (accepts_b_true _ _ 100). vm_compute. reflexivity.
Qed.

Lemma f_append_strings : forall f strs, built f -> uncompressed f ->
  (forall s, In s strs -> s <> [] /\ Forall byte s) ->
  exists g, append_strings f strs = Ok g /\ built g /\ lang_eq (accepts g) (L_cat (accepts f) (L_oneof strs)).
Proof.
  intros f strs B U H. destruct (append_strings_ok f (built_wf _ B) strs U H) as (g & E & _ & _ & L). exists g. splits; auto.
  eapply built_strings; eauto. apply H.
Qed.

Lemma f_cat : forall a b, built a -> built b -> ~ In (initial b) (finals b) ->
  lang_eq (accepts (fsm_cat a b)) (L_cat (accepts a) (accepts b)).
Proof. intros a b A B. apply fsm_cat_lang; apply built_wf; auto. Qed.
Lemma f_cat_sound : forall a b w, built a -> built b -> accepts (fsm_cat a b) w -> L_cat (accepts a) (accepts b) w.
Proof. intros a b w A B. apply fsm_cat_sound; apply built_wf; auto. Qed.
Lemma f_cat_complete : forall a b u v, built a -> built b -> accepts a u -> accepts b v -> v <> [] ->
  accepts (fsm_cat a b) (u ++ v).
Proof. intros a b u v A B H1 H2 H3. apply fsm_cat_complete; auto; apply built_wf; auto. Qed.
Lemma f_cat_refuted : exists a b w, built a /\ built b /\ L_cat (accepts a) (accepts b) w /\
  forall v, ~ accepts (fsm_cat a b) v.
Proof.
  exists (append_special fsm_new 97), fsm_new, [97%N]. assert (B : built (append_special fsm_new 97)).
  { constructor; [constructor|reflexivity|split; [reflexivity|discriminate]]. }
  splits; auto; [constructor| |].
  - exists [97%N], []. splits; auto; [|apply fsm_new_lang; reflexivity]. apply (accepts_b_true _ _ 100). vm_compute. reflexivity.
  - intros v H. pose proof (f_cat_sound _ _ _ B built_new H) as [u [x [-> [H1 H2]]]].
    apply (append_special_lang fsm_new 97 fsm_new_wf eq_refl) in H1 as [y [z [-> [H1 ->]]]]; [|split; [reflexivity|discriminate]].
    apply fsm_new_lang in H1, H2. unfold L_eps in *. subst. cbn [app] in H. revert H. apply (accepts_b_false _ _ 100). vm_compute. reflexivity.
Qed.

Lemma f_or : forall a b, built a -> built b -> lang_eq (accepts (fsm_or a b)) (L_or (accepts a) (accepts b)).
Proof. intros a b A B. apply fsm_or_ok; apply built_wf; auto. Qed.
Lemma f_iterate : forall f, built f -> lang_eq (accepts (iterate f)) (L_star (accepts f)).
Proof. intros f B. apply iterate_ok, built_wf; auto. Qed.
Lemma f_times : forall f n, built f -> ~ In (initial f) (finals f) -> lang_eq (accepts (fsm_times f n)) (L_pow (accepts f) n).
Proof. intros f n B H. apply fsm_times_ok; auto. apply built_wf; auto. Qed.
Lemma f_times_zero : forall f, lang_eq (accepts (fsm_times f 0)) L_eps.
Proof. intros f. apply fsm_new_lang. Qed.
Lemma f_times_refuted : exists f n w, built f /\ L_pow (accepts f) n w /\ ~ accepts (fsm_times f n) w.
Proof.
  exists fsm_new, 2, []. splits; [constructor| |].
  - cbn. exists [], []. splits; auto; [|apply fsm_new_lang; reflexivity]. exists [], []. splits; auto; [reflexivity|apply fsm_new_lang; reflexivity].
  - apply (accepts_b_false _ _ 100). vm_compute. reflexivity.
Qed.

Lemma f_prepend : forall f, built f -> lang_eq (accepts (prepend_anything f)) (L_cat L_any (accepts f)).
Proof. intros f B. apply prepend_anything_ok, built_wf; auto. Qed.
Lemma f_append_any : forall f, built f -> lang_eq (accepts (append_anything f)) (L_cat (accepts f) L_any).
Proof. intros f B. apply append_anything_ok, built_wf; auto. Qed.
Lemma f_surround : forall f, built f -> forall w, accepts (surround f) w <->
  exists x u y, w = x ++ u ++ y /\ is_word x /\ is_word y /\ accepts f u.
Proof.
  intros f B w. destruct (surround_ok f (built_wf _ B)) as (_ & _ & L). rewrite (L w). split.
  - intros (x & v & -> & Hx & u & y & -> & Hu & Hy). exists x, u, y. auto.
  - intros (x & u & y & -> & Hx & Hy & Hu). exists x, (u ++ y). splits; auto. exists u, y. auto.
Qed.

Lemma f_reverse : forall f, built f -> lang_eq (accepts (fsm_reverse f)) (L_rev (accepts f)).
Proof. intros f B. apply reverse_ok, built_wf; auto. Qed.
Lemma f_reverse_twice : forall f, built f -> lang_eq (accepts (fsm_reverse (fsm_reverse f))) (accepts f).
Proof.
  intros f B w. rewrite (f_reverse _ (built_reverse _ B) w). unfold L_rev. rewrite (f_reverse _ B (rev w)). unfold L_rev.
  rewrite rev_involutive. tauto.
Qed.

Lemma f_prefix : forall f, built f -> exists g, make_prefix f = Ok g /\ lang_eq (accepts g) (L_prefixes (accepts f)).
Proof. intros f B. destruct (make_prefix_ok f (built_wf _ B)) as (g & E & _ & _ & L). eauto. Qed.

Lemma f_suffix_complete : forall f w, built f -> L_suffixes (accepts f) w -> accepts (make_suffix f) w.
Proof. intros f w B. apply make_suffix_complete, built_wf; auto. Qed.
Lemma f_suffix : forall f, built f -> (forall p c, ~ edge f p c (initial f)) -> (forall q, q < size f -> reachable f q) ->
  lang_eq (accepts (make_suffix f)) (L_suffixes (accepts f)).
Proof. intros f B. apply make_suffix_lang, built_wf; auto. Qed.

Lemma f_suffix_refuted_loop : exists f w, built f /\ (forall q, q < size f -> reachable f q) /\
  accepts (make_suffix f) w /\ ~ L_suffixes (accepts f) w.
Proof.
  set (a := append_string fsm_new [97; 98]%N).
  assert (Wd : is_word [97; 98]%N) by (repeat apply Forall_cons; try apply Forall_nil; (split; [reflexivity|discriminate])).
  assert (Ba : built a) by (apply built_string; [apply built_new|reflexivity|exact Wd]).
  exists (prepend_anything a), [120; 98]%N. splits.
  - apply built_prepend; auto.
  - intros q Hq. assert (Sz : size (prepend_anything a) = 4) by (vm_compute; reflexivity). rewrite Sz in Hq.
    destruct q as [|[|[|[|]]]]; [| | | |lia].
    + exists []. apply (reach_b_true _ _ 100). vm_compute. reflexivity.
    + exists [97%N]. apply (reach_b_true _ _ 100). vm_compute. reflexivity.
    + exists [97;98]%N. apply (reach_b_true _ _ 100). vm_compute. reflexivity.
    + exists []. apply (reach_b_true _ _ 100). vm_compute. reflexivity.
  - apply (accepts_b_true _ _ 100). vm_compute. reflexivity.
  - intros [u H]. apply (f_prepend a Ba) in H as (x & y & E & _ & H).
    apply (f_append_string fsm_new [97;98]%N) in H; [|apply built_new|reflexivity|exact Wd].
    destruct H as (y1 & y2 & -> & H1 & ->). apply fsm_new_lang in H1. unfold L_eps in H1. subst y1. cbn [app] in E.
    change [120; 98]%N with ([120] ++ [98])%N in E. change [97; 98]%N with ([97] ++ [98])%N in E.
    rewrite !app_assoc in E. apply app_inj_tail in E as [E _]. apply app_inj_tail in E as [_ E]. discriminate.
Qed.
Lemma f_suffix_refuted_unreachable : exists f w, built f /\ (forall p c, ~ edge f p c (initial f)) /\
  accepts (make_suffix f) w /\ ~ L_suffixes (accepts f) w.
Proof.
  exists (append_special make_false 97), []. splits.
  - constructor; [constructor|reflexivity|split; [reflexivity|discriminate]].
  - intros p c H. unfold edge in H. destruct p as [|[|[|p]]]; cbn in H; destruct H.
  - apply (accepts_b_true _ _ 100). vm_compute. reflexivity.
  - intros [u H]. apply (append_special_lang make_false 97 make_false_wf eq_refl) in H; [|split; [reflexivity|discriminate]].
    destruct H as (x & y & _ & H & _). apply make_false_lang in H. destruct H.
Qed.

Lemma f_noeps : forall f, built f -> lang_eq (accepts (remove_epsilons f)) (accepts f) /\
  (forall p q, ~ edge (remove_epsilons f) p Epsilon q) /\ size (remove_epsilons f) = size f.
Proof. intros f B. destruct (remove_epsilons_ok f (built_wf _ B)) as (_ & _ & S & _ & _ & _ & _ & E & L). auto. Qed.

(** Letter classes. *)
Lemma f_classes_total : forall f c, letter c -> exists r i, part_rep (letters (sparse f)) c = Some r /\
  part_index (letters (sparse f)) c = Ok i /\ i < part_size (letters (sparse f)).
Proof.
  intros f c [H1 H2]. destruct (sparse_letters f) as [W [A C]]. pose proof (proj2 (C c) (conj H1 H2)) as X.
  unfold part_contains in X. unfold part_rep. destruct (mfind c (pinv (letters (sparse f)))) as [r|] eqn:E; [|discriminate].
  destruct (part_index_ok _ c r W E) as [i [I1 [I2 _]]]. eauto.
Qed.
Lemma f_classes_exact : forall f c d i j,
  part_index (letters (sparse f)) c = Ok i -> part_index (letters (sparse f)) d = Ok j ->
  (i = j <-> forall p, p < size f -> mfind c (row_at f p) = mfind d (row_at f p)).
Proof.
  intros f c d i j H1 H2. destruct (sparse_letters f) as [W [A C]]. set (p := letters (sparse f)) in *. clearbody p.
  unfold part_index in *. destruct (mfind c (pinv p)) as [rc|] eqn:Ec; [|discriminate]. destruct (mfind d (pinv p)) as [rd|] eqn:Ed; [|discriminate].
  destruct (mfind rc (pset p)) as [[ic mc]|] eqn:Fc; [|discriminate]. destruct (mfind rd (pset p)) as [[id md]|] eqn:Fd; [|discriminate].
  injection H1 as <-. injection H2 as <-.
  assert (X : rc = rd <-> letters_equal (trans f) c d = true).
  { eapply part_rep_eq; eauto; [intros; apply le_sym|intros a b e; apply le_trans]. }
  rewrite letters_equal_iff in X. split.
  - intros ->. pose proof (wp_inj _ W _ _ _ _ _ Fc Fd) as E.
    intros q Hq. apply (proj1 X E). apply nth_In; auto.
  - intros H. assert (E : rc = rd).
    { apply X. intros r Hr. apply In_nth with (d := []) in Hr as [q [Hq <-]]. apply H; auto. }
    subst. congruence.
Qed.
Lemma f_classes_onto : forall f i, i < part_size (letters (sparse f)) -> exists c, letter c /\ part_index (letters (sparse f)) c = Ok i.
Proof.
  intros f i Hi. destruct (sparse_letters f) as [W [A C]]. set (p := letters (sparse f)) in *. clearbody p.
  destruct (ls_surj _ (part_list_nodup _ W) (part_list_idx _ W) i) as [c Hc]; [rewrite part_list_len; exact Hi|].
  assert (R : part_rep p c = Some c) by (apply part_list_rep; eauto).
  exists c. split; [apply C; unfold part_contains; unfold part_rep in R; rewrite R; auto|].
  unfold part_index. unfold part_rep in R. rewrite R. apply part_list_in in Hc as [ms Hc]; auto. rewrite Hc. auto.
Qed.
Lemma f_unsparse : forall f, built f -> forall p c q,
  (In q (row_get (row_at (unsparse (sparse f)) p) c) <-> In q (row_get (row_at f p) c)).
Proof.
  intros f B p c q. assert (Ba : basic (set_isAlt f false)) by (destruct (wf_basic _ (built_wf _ B)); constructor; auto).
  destruct (sparse_ok (set_isAlt f false) Ba eq_refl) as (W & _ & E).
  destruct (unsparse_spec _ W) as (_ & _ & _ & _ & _ & R).
  change (raw (unsparse (sparse (set_isAlt f false))) p c q <-> raw (set_isAlt f false) p c q). rewrite R, E. tauto.
Qed.

(** Determine. *)
Lemma det_ok_deterministic : forall f, wf f -> det_ok f -> deterministic f /\ forall p q, ~ edge f p Epsilon q.
Proof.
  intros f W D. split; [|apply dedge_no_eps; auto]. intros p c Hp [H1 H2].
  destruct (dedge_total f W D p c Hp H1 H2) as [q [Hq E]]. exists q. split; auto. intros q'. split; [|intros ->; auto].
  intros E'. eapply dedge_fun; eauto.
Qed.

Lemma f_determine : forall f maxsize b g, built f -> determined f = false -> determine f maxsize = Ok (b, g) ->
  lang_eq (accepts g) (accepts f) /\
  (b = true -> deterministic g /\ (forall p q, ~ edge g p Epsilon q) /\
               (N.of_nat (size g) <= (if N.eqb maxsize 0 then 200000 else maxsize) + 1)%N /\ size g <= 2 ^ size f /\
               forall q, q < size g -> exists w, is_word w /\ path (edge g) (initial g) w q).
Proof.
  intros f maxsize b g B D E. destruct (determine_ok f maxsize (built_wf _ B) D) as (b' & g' & E' & Wg & _ & L & B1 & _).
  rewrite E in E'. injection E' as <- <-. split; auto. intros Hb. destruct (B1 Hb) as (Dg & _ & _ & S1 & S2 & R).
  destruct (det_ok_deterministic g Wg Dg). splits; auto.
Qed.

Lemma f_determine_total : forall f maxsize, built f -> exists b g, determine f maxsize = Ok (b, g).
Proof.
  intros f maxsize B. destruct (determined f) eqn:D; [exists true, f; unfold determine; rewrite D; auto|].
  destruct (determine_ok f maxsize (built_wf _ B) D) as (b & g & E & _). eauto.
Qed.
Lemma f_determine_fails : forall f maxsize g, built f -> determine f maxsize = Ok (false, g) ->
  lang_eq (accepts g) (accepts f) /\
  exists ss : list (list nat), NoDup ss /\ (N.of_nat (length ss) = (if N.eqb maxsize 0 then 200000 else maxsize) + 2)%N /\
     forall s, In s ss -> ssorted s /\ exists w, is_word w /\ forall q, In q s <-> path (edge g) (initial g) w q.
Proof.
  intros f maxsize g B E. destruct (determined f) eqn:D; [unfold determine in E; rewrite D in E; discriminate|].
  destruct (determine_ok f maxsize (built_wf _ B) D) as (b' & g' & E' & Wg & _ & L & _ & B2).
  rewrite E in E'. injection E' as <- <-. split; auto. apply B2; auto.
Qed.
Lemma f_determine_succeeds : forall f maxsize, built f ->
  (2 ^ N.of_nat (size f) <= (if N.eqb maxsize 0 then 200000 else maxsize) + 1)%N -> exists g, determine f maxsize = Ok (true, g).
Proof.
  intros f maxsize B H. destruct (determined f) eqn:D; [exists f; unfold determine; rewrite D; auto|].
  apply determine_small; auto. apply built_wf; auto.
Qed.

(** Minimize. *)
Lemma f_minimize : forall f, built f -> determined f = true -> exists g, minimize f = Ok g /\
  lang_eq (accepts g) (accepts f) /\ deterministic g /\ size g <= size f /\
  (forall x y, x < size g -> y < size g -> x <> y ->
     ~ (forall w, is_word w -> ((exists q, path (edge g) x w q /\ In q (finals g)) <-> (exists q, path (edge g) y w q /\ In q (finals g))))).
Proof.
  intros f B D. destruct (built_ok f B) as [W H]. destruct (H D) as [Df _].
  destruct (minimize_ok f W Df D) as (g & cls & E & Wg & Dg & _ & _ & C1 & C2 & I & P & A & N).
  exists g. splits; auto.
  - intros w. rewrite <- !acc_from_initial, I. apply A, W.
  - apply det_ok_deterministic; auto.
  - assert (V : exists k : nat -> nat, forall y, y < size g -> k y < size f /\ cls (k y) = y).
    { clear -C2. revert C2. generalize (size g). intros n. induction n as [|n IH]; intros X.
      - exists (fun _ => 0). intros; lia.
      - destruct IH as [k Hk]; [intros; apply X; lia|]. destruct (X n) as [y Hy]; [lia|].
        exists (fun i => if Nat.eqb i n then y else k i). intros i Hi. destruct (Nat.eqb_spec i n); [subst; auto|]. apply Hk. lia. }
    destruct V as [k Hk]. apply (pigeon k).
    + intros i Hi. apply Hk; auto.
    + intros i j Hi Hj Ek. destruct (Hk i Hi) as [_ E1], (Hk j Hj) as [_ E2]. congruence.
Qed.

(** Canonize. *)
Lemma f_canonize : forall f maxsize, built f ->
  (exists g, canonize f maxsize = Ok g /\ lang_eq (accepts g) (accepts f) /\ deterministic g /\
     forall d, dfa_valid d -> dfa_recognises d (accepts f) -> size g <= dfa_states d) \/
  (canonize f maxsize = Throw ETooComplicated /\ exists g, determine f maxsize = Ok (false, g)).
Proof.
  intros f maxsize B. destruct (built_ok f B) as [W H].
  destruct (canonize_ok f maxsize (built_good _ B)) as [(g & E & Wg & Dg & _ & L & N & R)|(E & _ & X)]; [left|right; auto].
  exists g. splits; auto; [apply det_ok_deterministic; auto|]. intros d V Rd. apply minimal; auto.
  - apply R. intros Hd. apply H; auto.
  - intros w Hw. rewrite (Rd w Hw). symmetry. apply L.
Qed.
Lemma f_canonical : forall f1 f2 m1 m2 g1 g2, built f1 -> built f2 -> lang_eq (accepts f1) (accepts f2) ->
  canonize f1 m1 = Ok g1 -> canonize f2 m2 = Ok g2 -> exists h, isomorphic g1 g2 h.
Proof.
  intros f1 f2 m1 m2 g1 g2 B1 B2 L E1 E2. destruct (built_ok f1 B1) as [W1 H1]. destruct (built_ok f2 B2) as [W2 H2].
  destruct (canonize_ok f1 m1 (built_good _ B1)) as [(g & E & Wg & Dg & _ & Lg & N & R)|(E & _ & X)]; [|congruence].
  destruct (canonize_ok f2 m2 (built_good _ B2)) as [(g' & E' & Wg' & Dg' & _ & Lg' & N' & R')|(E' & _ & X)]; [|congruence].
  rewrite E1 in E. injection E as <-. rewrite E2 in E'. injection E' as <-.
  apply iso_ok; auto.
  - apply R. intros Hd. apply H1; auto.
  - apply R'. intros Hd. apply H2; auto.
  - intros w. rewrite (Lg w), (L w), (Lg' w). tauto.
Qed.

(** Complement and intersection. *)
Lemma f_complement : forall f, built f ->
  (exists g, complement f = Ok g /\ built g /\ forall w, accepts g w <-> is_word w /\ ~ accepts f w) \/
  (complement f = Throw ETooComplicated /\ exists g, determine f 0 = Ok (false, g)).
Proof.
  intros f B. destruct (complement_ok f (built_good _ B)) as [(g & E & _ & _ & L)|(E & _ & X)]; [left|right; auto].
  exists g. splits; auto. eapply built_complement; eauto.
Qed.
Lemma f_complement_small : forall f, built f -> size f <= 17 -> exists g, complement f = Ok g.
Proof. intros f B. apply complement_small, built_good; auto. Qed.
Lemma f_and : forall a b, built a -> built b ->
  (exists g, fsm_and a b = Ok g /\ built g /\ lang_eq (accepts g) (L_and (accepts a) (accepts b))) \/
  fsm_and a b = Throw ETooComplicated.
Proof.
  intros a b A B. destruct (fsm_and_ok a b (built_good _ A) (built_good _ B)) as [(g & E & _ & _ & L)|E]; [left|right; auto].
  exists g. splits; auto. eapply built_and with (f := a) (g := b); eauto.
Qed.

(** Dead states. *)
Lemma f_dead_states : forall f, built f -> exists d, dead_states f = Ok d /\ forall q, In q d <->
  q < size f /\ (~ (exists w, path (edge f) (initial f) w q) \/ ~ (exists w r, path (edge f) q w r /\ In r (finals f))).
Proof. intros f B. exact (dead_states_ok f (built_wf _ B)). Qed.
Lemma f_remove_dead_ends : forall f, built f -> exists g, remove_dead_ends f = Ok g /\ lang_eq (accepts g) (accepts f) /\
  forall p c q, edge g p c q -> (exists w, path (edge g) (initial g) w p) /\ (exists w r, path (edge g) q w r /\ In r (finals g)).
Proof.
  intros f B. destruct (remove_dead_ends_ok f (built_wf _ B)) as (g & E & _ & _ & L). exists g. splits; auto.
  exact (remove_dead_ends_trim f g (built_wf _ B) E).
Qed.
