(** Expressions denote what their automata accept. *)
From Coq Require Import List Bool Arith NArith Lia.
From Verif Require Import Util Spec PartitionModel FsmModel DetermineModel MinimizeModel Nfa PartitionProofs FsmSem FsmBasics FsmOps FsmOps2 FsmStrings
  NfaOps MinProofs Api ApiProofs BuildFacts CompProofs Expr.
Import ListNotations.
Local Opaque all_letters all_bytes.

Definition start_final (f : fsm) : Prop := In (initial f) (finals f).
Lemma start_final_empty : forall f, start_final f -> accepts f [].
Proof. intros f H. exists (initial f). split; [constructor|exact H]. Qed.

Lemma cat_start : forall f g, wf f -> wf g -> ~ start_final (fsm_cat f g).
Proof.
  intros f g Wf Wg H. unfold start_final in H. destruct (cat_structure f g Wf Wg) as (A & B & _ & _ & _ & _ & _ & C & _).
  apply C in H. destruct H as (q & _ & H). rewrite B in H. pose proof (wf_init _ Wf). lia.
Qed.
Lemma or_start : forall f g, wf f -> wf g -> ~ start_final (fsm_or f g).
Proof. intros f g Wf Wg. destruct (fsm_or_ok f g Wf Wg) as (W & _). apply (wf_alt _ W). reflexivity. Qed.
Lemma iterate_start : forall f, ~ start_final (iterate f).
Proof.
  intros f. unfold start_final. change (initial (iterate f)) with (size (resize_fsm f (size f + 2)) - 2).
  change (finals (iterate f)) with [size (resize_fsm f (size f + 2)) - 1].
  rewrite size_resize. cbn [In]. lia.
Qed.
Lemma times_loop_start : forall n f ret, wf f -> wf ret -> n <> 0 -> ~ start_final (fsm_times_loop f n ret).
Proof.
  induction n as [|n IH]; intros f ret Wf Wr Hn; [congruence|]. cbn [fsm_times_loop].
  destruct (fsm_cat_wf ret f Wr Wf) as [W _]. destruct n as [|n]; [apply cat_start; auto|]. apply IH; auto.
Qed.
Lemma fold_same : forall A (g : fsm -> A -> fsm) l f, (forall h x, finals (g h x) = finals h /\ initial (g h x) = initial h) ->
  finals (fold_left g l f) = finals f /\ initial (fold_left g l f) = initial f.
Proof.
  intros A g l. induction l as [|x l IH]; intros f H; cbn [fold_left]; auto. destruct (IH (g f x) H) as [-> ->]. apply H.
Qed.
Lemma prepend_start : forall f, wf f -> ~ start_final (prepend_anything f).
Proof.
  intros f W H. unfold start_final, prepend_anything in H. cbn [initial set_determined set_initial finals connect clear_hints set_isAlt set_trans] in H.
  destruct (fold_same N (fun g c => connect g (size f) (size f) c) all_letters (resize_fsm f (size f + 1)) (fun h x => conj eq_refl eq_refl)) as [X _].
  rewrite X in H. apply (wf_fin _ W) in H. lia.
Qed.
Lemma append_any_start : forall f, wf f -> ~ start_final (append_anything f).
Proof.
  intros f W H. pose proof (append_anything_appended f W) as A. unfold start_final in H. rewrite (ap_fin _ _ _ _ A), (ap_init _ _ _ _ A) in H.
  destruct H as [H|[]]. pose proof (wf_init _ W). lia.
Qed.
Lemma reverse_start : forall f, wf f -> ~ start_final (fsm_reverse f).
Proof.
  intros f W H. unfold start_final, fsm_reverse in H. cbn [initial finals set_sparsed set_tags set_outputs set_initial] in H.
  match type of H with In _ (finals (fold_left ?g ?l ?z)) => destruct (fold_same nat g l z (fun h y => conj eq_refl eq_refl)) as [X _] end.
  rewrite X in H. destruct H as [H|[]]. pose proof (wf_init _ W). lia.
Qed.

Lemma L_cat_ext2 : forall A B A' B', lang_eq A A' -> lang_eq B B' -> lang_eq (L_cat A B) (L_cat A' B').
Proof. intros A B A' B' H1 H2 w. split; intros (u & v & -> & X & Y); exists u, v; splits; auto; try (apply H1; auto); apply H2; auto. Qed.
Lemma star_ext : forall A B, lang_eq A B -> lang_eq (L_star A) (L_star B).
Proof.
  assert (G : forall A B, lang_eq A B -> forall w, L_star A w -> L_star B w).
  { intros A B H w S. induction S; constructor; auto. apply H; auto. }
  intros A B H w. split; apply G; auto. intros v. symmetry. apply H.
Qed.
Lemma pow_ext : forall A B n, lang_eq A B -> lang_eq (L_pow A n) (L_pow B n).
Proof. intros A B n H. induction n as [|n IH]; cbn [L_pow]; [intros w; tauto|]. apply L_cat_ext2; auto. Qed.

Lemma comp_table_start : forall h, wf h -> ~ start_final (comp_table h).
Proof.
  intros h W H. unfold comp_table in H. rewrite size_resize in H. replace (size h + 1 - 1) with (size h) in H by lia.
  unfold start_final in H. cbn [finals initial set_determined set_final clear_final set_finals sadd] in H.
  destruct (fold_same nat (fun g i => if is_final g i then g else connect g i (size h) Epsilon) (seq 0 (size h + 1)) (resize_fsm h (size h + 1))) as [_ X].
  { intros g x. destruct (is_final g x); split; reflexivity. }
  destruct H as [H|[]]. rewrite X in H. cbn in H. pose proof (wf_init _ W). lia.
Qed.
Lemma complement_start : forall f g, good f -> complement f = Ok g -> ~ start_final g.
Proof.
  intros f g G. unfold complement. destruct (determine_good f 0 G) as [(g1 & -> & Wg & Dg & Hd & L & _)|(g1 & -> & H & Wg & L)]; cbn [bind negb]; [|discriminate].
  destruct (minimize_ok g1 Wg Dg Hd) as (h & cls & -> & Wh & _). cbn [bind]. fold (comp_table h).
  intros E. assert (g = comp_table h) by congruence. subst g. apply comp_table_start; auto.
Qed.
Lemma and_start : forall a b g, good a -> good b -> fsm_and a b = Ok g -> ~ start_final g.
Proof.
  intros a b g Ga Gb. unfold fsm_and. destruct (complement_ok a Ga) as [(ca & -> & Wa & Da & _)|(-> & _)]; cbn [bind]; [|discriminate].
  destruct (complement_ok b Gb) as [(cb & -> & Wb & Db & _)|(-> & _)]; cbn [bind]; [|discriminate].
  apply complement_start. apply good_undet; [apply fsm_or_ok; auto|apply fsm_or_undet].
Qed.

(** The outcome of building an expression. *)
Definition builds (e : expr) (f : fsm) : Prop :=
  built f /\ lang_eq (accepts f) (den e) /\ (apart e -> uncompressed f) /\ (start_final f -> loses_empty e).

Lemma builds_nonempty : forall e f, built f -> lang_eq (accepts f) (den e) -> ~ den e [] -> start_final f -> loses_empty e.
Proof. intros e f B L H S. exfalso. apply H, L, start_final_empty, S. Qed.

Lemma cat_nonempty : forall (A B : lang), ~ B [] -> ~ L_cat A B [].
Proof. intros A B H (u & v & E & _ & X). symmetry in E. apply app_eq_nil in E. destruct E as [-> ->]. auto. Qed.

Lemma build_ok : forall e, sane e -> (exists f, build e = Ok f /\ builds e f) \/ (build e = Throw ETooComplicated /\ has_not e).
Proof.
  induction e; cbn [sane build has_not]; intros Hs.
  - left. exists fsm_new. split; auto. split; [apply built_new|]. split; [apply fsm_new_lang|]. split; [intros _; reflexivity|intros _; exact I].
  - left. exists make_false. split; auto. split; [apply built_false|]. split; [apply make_false_lang|]. split; [reflexivity|].
    apply builds_nonempty; [apply built_false|apply make_false_lang|]. cbn. auto.
  - destruct Hs as (Hs & Ha & Hc). destruct (IHe Hs) as [(f & -> & B & L & U & S)|[-> N]]; cbn [bind]; [left|right; auto].
    specialize (U Ha). exists (append_special f c). split; auto.
    assert (Bg : built (append_special f c)) by (apply built_append; auto).
    assert (Lg : lang_eq (accepts (append_special f c)) (den (XAppend e c))).
    { eapply lang_eq_trans; [apply f_append; auto|]. apply L_cat_ext2; auto. intros w; tauto. }
    split; auto. split; auto. split.
    + intros _. apply (append_special_wf f c (built_wf _ B) U (proj1 Hc)).
    + apply builds_nonempty; auto. apply cat_nonempty. discriminate.
  - destruct Hs as (Hs & Ha & Hc). destruct (IHe Hs) as [(f & -> & B & L & U & S)|[-> N]]; cbn [bind]; [left|right; auto].
    specialize (U Ha). exists (append_string f s). split; auto.
    assert (Bg : built (append_string f s)) by (apply built_string; auto).
    assert (Lg : lang_eq (accepts (append_string f s)) (den (XString e s))).
    { eapply lang_eq_trans; [apply f_append_string; auto|]. apply L_cat_ext2; auto. intros w; tauto. }
    split; auto. split; auto. split.
    + intros _. apply (append_string_ok s f (built_wf _ B) U Hc).
    + destruct s as [|c s]; [cbn; auto|]. apply builds_nonempty; auto. apply cat_nonempty. discriminate.
  - destruct Hs as (Hs & Ha). destruct (IHe Hs) as [(f & -> & B & L & U & S)|[-> N]]; cbn [bind]; [left|right; auto].
    specialize (U Ha). exists (append_dot f). split; auto.
    assert (Bg : built (append_dot f)) by (apply built_dot; auto).
    assert (Lg : lang_eq (accepts (append_dot f)) (den (XDot e))).
    { eapply lang_eq_trans; [apply f_append_dot; auto|]. apply L_cat_ext2; auto. intros w; tauto. }
    split; auto. split; auto. split.
    + intros _. apply (append_dot_ok f (built_wf _ B) U).
    + apply builds_nonempty; auto. apply cat_nonempty. intros (c & _ & X). discriminate.
  - destruct Hs as (Hs & Ha & Hc). destruct (IHe Hs) as [(f & -> & B & L & U & S)|[-> N]]; cbn [bind]; [left|right; auto].
    specialize (U Ha). destruct (f_append_strings f ss B U Hc) as (g & E & Bg & Lg0). exists g. split; auto.
    assert (Lg : lang_eq (accepts g) (den (XStrings e ss))).
    { eapply lang_eq_trans; [exact Lg0|]. apply L_cat_ext2; auto. intros w; tauto. }
    split; auto. split; auto. split.
    + intros _. destruct (append_strings_ok f (built_wf _ B) ss U Hc) as (g' & E' & _ & U' & _). congruence.
    + apply builds_nonempty; auto. apply cat_nonempty. intros X. apply Hc in X. destruct X; congruence.
  - destruct Hs as (H1 & H2 & Hl). destruct (IHe1 H1) as [(f & -> & B & L & U & S)|[-> N]]; cbn [bind]; [|right; auto].
    destruct (IHe2 H2) as [(g & -> & B' & L' & U' & S')|[-> N]]; cbn [bind]; [left|right; auto].
    exists (fsm_cat f g). split; auto. split; [apply built_cat; auto|]. split; [|split].
    + eapply lang_eq_trans; [apply f_cat; auto|]. apply L_cat_ext2; auto.
    + intros _. apply fsm_cat_wf; apply built_wf; auto.
    + intros X. exfalso. revert X. apply cat_start; apply built_wf; auto.
  - destruct Hs as (H1 & H2). destruct (IHe1 H1) as [(f & -> & B & L & U & S)|[-> N]]; cbn [bind]; [|right; auto].
    destruct (IHe2 H2) as [(g & -> & B' & L' & U' & S')|[-> N]]; cbn [bind]; [left|right; auto].
    exists (fsm_or f g). split; auto. split; [apply built_or; auto|]. split; [|split].
    + eapply lang_eq_trans; [apply f_or; auto|]. intros w. cbn [den]. unfold L_or. rewrite (L w), (L' w). tauto.
    + intros _. apply fsm_or_ok; apply built_wf; auto.
    + intros X. exfalso. revert X. apply or_start; apply built_wf; auto.
  - destruct Hs as (H1 & H2). destruct (IHe1 H1) as [(f & -> & B & L & U & S)|[-> N]]; cbn [bind]; [|right; auto].
    destruct (IHe2 H2) as [(g & -> & B' & L' & U' & S')|[-> N]]; cbn [bind]; [|right; auto].
    destruct (f_and f g B B') as [(h & E & Bh & Lh)|E]; [left|right; auto]. exists h. split; auto. split; auto.
    assert (X : lang_eq (accepts h) (den (XAnd e1 e2))).
    { eapply lang_eq_trans; [exact Lh|]. intros w. cbn [den]. unfold L_and. rewrite (L w), (L' w). tauto. }
    split; auto. split; [intros []|]. intros Y. exfalso. revert Y. apply (and_start f g h); auto using built_good.
  - destruct (IHe Hs) as [(f & -> & B & L & U & S)|[-> N]]; cbn [bind]; [|right; auto].
    destruct (f_complement f B) as [(g & E & Bg & Lg)|[E _]]; [left|right; auto]. exists g. split; auto. split; auto.
    assert (X : lang_eq (accepts g) (den (XNot e))).
    { intros w. rewrite (Lg w). cbn [den]. unfold L_not. rewrite (L w). tauto. }
    split; auto. split; [intros []|]. intros Y. exfalso. revert Y. apply (complement_start f g); auto using built_good.
  - destruct (IHe Hs) as [(f & -> & B & L & U & S)|[-> N]]; cbn [bind]; [left|right; auto].
    exists (iterate f). split; auto. split; [apply built_iterate; auto|]. split; [|split].
    + eapply lang_eq_trans; [apply f_iterate; auto|]. apply star_ext; auto.
    + intros Ha. apply (iterate_ok f (built_wf _ B)); auto.
    + intros X. exfalso. revert X. apply iterate_start.
  - destruct Hs as (Hs & Hl). destruct (IHe Hs) as [(f & -> & B & L & U & S)|[-> N]]; cbn [bind]; [left|right; auto].
    exists (fsm_times f n). split; auto. split; [apply built_times; auto|].
    assert (Ns : ~ In (initial f) (finals f)) by (intros X; apply Hl, S, X). split; [|split].
    + eapply lang_eq_trans; [apply f_times; auto|]. apply pow_ext; auto.
    + intros _. apply (fsm_times_ok f n (built_wf _ B) Ns).
    + destruct n as [|n]; [cbn; auto|]. intros X. exfalso. revert X. apply times_loop_start; [apply built_wf; auto|apply fsm_new_wf|discriminate].
  - destruct (IHe Hs) as [(f & -> & B & L & U & S)|[-> N]]; cbn [bind]; [left|right; auto].
    exists (prepend_anything f). split; auto. split; [apply built_prepend; auto|]. split; [|split].
    + eapply lang_eq_trans; [apply f_prepend; auto|]. apply L_cat_ext2; auto. intros w; tauto.
    + intros Ha. apply (prepend_anything_ok f (built_wf _ B)); auto.
    + intros X. exfalso. revert X. apply prepend_start, built_wf; auto.
  - destruct (IHe Hs) as [(f & -> & B & L & U & S)|[-> N]]; cbn [bind]; [left|right; auto].
    exists (append_anything f). split; auto. split; [apply built_append_any; auto|]. split; [|split].
    + eapply lang_eq_trans; [apply f_append_any; auto|]. apply L_cat_ext2; auto. intros w; tauto.
    + intros Ha. apply (append_anything_ok f (built_wf _ B)); auto.
    + intros X. exfalso. revert X. apply append_any_start, built_wf; auto.
  - destruct (IHe Hs) as [(f & -> & B & L & U & S)|[-> N]]; cbn [bind]; [left|right; auto].
    exists (surround f). split; auto. split; [apply built_surround; auto|]. split; [|split].
    + intros w. rewrite (f_surround f B w). cbn [den]. unfold L_cat, L_any. split.
      * intros (x & u & y & -> & X & Y & A). exists x, (u ++ y). splits; auto. exists u, y. splits; auto. apply L; auto.
      * intros (x & r & -> & X & u & y & -> & A & Y). exists x, u, y. splits; auto. apply L; auto.
    + intros Ha. apply (surround_ok f (built_wf _ B)); auto.
    + intros X. exfalso. revert X. apply append_any_start. apply (prepend_anything_ok f (built_wf _ B)).
  - destruct (IHe Hs) as [(f & -> & B & L & U & S)|[-> N]]; cbn [bind]; [left|right; auto].
    exists (fsm_reverse f). split; auto. split; [apply built_reverse; auto|]. split; [|split].
    + eapply lang_eq_trans; [apply f_reverse; auto|]. intros w. cbn [den]. unfold L_rev. apply L.
    + intros Ha. apply (reverse_ok f (built_wf _ B)); auto.
    + intros X. exfalso. revert X. apply reverse_start, built_wf; auto.
Qed.

(** Every call used here leaves (or makes) the automaton not determined. *)
Lemma fold_det : forall A (g : fsm -> A -> fsm) l f, (forall h x, determined h = false -> determined (g h x) = false) -> determined f = false ->
  determined (fold_left g l f) = false.
Proof. intros A g l. induction l as [|x l IH]; intros f H D; cbn [fold_left]; auto. Qed.
Lemma fold2_det : forall A B (sel : A -> list B) (g : fsm -> A -> B -> fsm) l f, (forall h x y, determined h = false -> determined (g h x y) = false) ->
  determined f = false -> determined (fold_left (fun h x => fold_left (fun h y => g h x y) (sel x) h) l f) = false.
Proof. intros A B sel g l f H D. apply fold_det; auto. intros h x X. apply fold_det; auto. Qed.
Lemma ok_inj' : forall A (a b : A), Ok a = Ok b -> a = b.
Proof. congruence. Qed.
Lemma complement_det : forall f g, complement f = Ok g -> determined g = false.
Proof.
  intros f g. unfold complement. destruct (determine f 0) as [[[|] f1]| | |]; cbn [bind negb]; try discriminate.
  destruct (minimize f1) as [f2| | |]; cbn [bind]; try discriminate. intros E. apply ok_inj' in E. subst g. reflexivity.
Qed.
Lemma strings_det : forall e ss acc f l1 l2, fold_left (as_one e) ss acc = (f, l1, l2) -> determined (fst (fst acc)) = false -> determined f = false.
Proof.
  induction ss as [|s ss IH]; intros acc f l1 l2 E D; cbn [fold_left] in E; [subst acc; auto|]. eapply IH; [exact E|].
  destruct acc as [[f0 m1] m2]. destruct s as [|c [|c' s]]; [exact D|reflexivity|]. unfold as_one.
  destruct (mfind c m1); [destruct (as_inner f0 m2 n _) as [[f2 m3] st]|destruct (as_inner _ m2 (size f0) _) as [[f2 m3] st]]; reflexivity.
Qed.
Lemma d_special : forall f c, determined (append_special f c) = false.
Proof. intros. reflexivity. Qed.
Lemma d_dot : forall f, determined (append_dot f) = false.
Proof. intros. reflexivity. Qed.
Lemma d_cat : forall f g, determined (fsm_cat f g) = false.
Proof. intros. reflexivity. Qed.
Lemma d_or : forall f g, determined (fsm_or f g) = false.
Proof. intros. reflexivity. Qed.
Lemma d_iter : forall f, determined (iterate f) = false.
Proof. intros. reflexivity. Qed.
Lemma d_pre : forall f, determined (prepend_anything f) = false.
Proof. intros. reflexivity. Qed.
Lemma d_app : forall f, determined (append_anything f) = false.
Proof. intros. reflexivity. Qed.
Lemma d_string : forall s f, determined f = false -> determined (append_string f s) = false.
Proof. intros s f D. unfold append_string. apply fold_det; [intros; apply d_special|exact D]. Qed.
Lemma d_strings : forall f ss g, determined f = false -> append_strings f ss = Ok g -> determined g = false.
Proof.
  intros f ss g D E. unfold append_strings in E. match type of E with (if ?b then _ else _) = _ => destruct b end; try discriminate.
  match type of E with (let '(_, _) := ?x in _) = _ => destruct x as [[f2 m1] m2] eqn:X end. apply ok_inj' in E. subst g.
  apply strings_det in X; exact X || exact D.
Qed.
Lemma d_times : forall f n g, determined g = false -> determined (fsm_times_loop f n g) = false.
Proof. induction n as [|n IH]; intros g D; cbn [fsm_times_loop]; [exact D|]. apply IH, d_cat. Qed.
Lemma d_connect : forall f p q c, determined (connect f p q c) = determined f.
Proof. intros. reflexivity. Qed.
Lemma d_reverse : forall f, determined (fsm_reverse f) = false.
Proof.
  intros f. unfold fsm_reverse. cbn [determined set_sparsed set_tags set_outputs set_initial]. apply fold_det.
  - intros h x D. rewrite d_connect. exact D.
  - cbn [determined set_final clear_final set_finals]. unfold reverse_trans. apply fold_det; [|reflexivity]. intros h x D. apply fold_det; [|exact D].
    intros h' [c tos] D'. apply fold_det; [|exact D']. intros h2 y D2. rewrite d_connect. exact D2.
Qed.
Lemma bind_ok : forall A B (r : res A) (k : A -> res B) x, bind r k = Ok x -> exists a, r = Ok a /\ k a = Ok x.
Proof. intros A B [a| | |] k x E; try discriminate E. exists a. auto. Qed.
Lemma build_undetermined : forall e f, build e = Ok f -> determined f = false.
Proof.
  induction e; intros f E; cbn [build] in E.
  - apply ok_inj' in E. subst f. reflexivity.
  - apply ok_inj' in E. subst f. reflexivity.
  - apply bind_ok in E as (f0 & E0 & E). apply ok_inj' in E. subst f. apply d_special.
  - apply bind_ok in E as (f0 & E0 & E). apply ok_inj' in E. subst f. apply d_string. exact (IHe _ E0).
  - apply bind_ok in E as (f0 & E0 & E). apply ok_inj' in E. subst f. apply d_dot.
  - apply bind_ok in E as (f0 & E0 & E). exact (d_strings _ _ _ (IHe _ E0) E).
  - apply bind_ok in E as (f0 & E0 & E). apply bind_ok in E as (f1 & E1 & E). apply ok_inj' in E. subst f. apply d_cat.
  - apply bind_ok in E as (f0 & E0 & E). apply bind_ok in E as (f1 & E1 & E). apply ok_inj' in E. subst f. apply d_or.
  - apply bind_ok in E as (f0 & E0 & E). apply bind_ok in E as (f1 & E1 & E). unfold fsm_and in E.
    apply bind_ok in E as (g0 & _ & E). apply bind_ok in E as (g1 & _ & E). exact (complement_det _ _ E).
  - apply bind_ok in E as (f0 & E0 & E). exact (complement_det _ _ E).
  - apply bind_ok in E as (f0 & E0 & E). apply ok_inj' in E. subst f. apply d_iter.
  - apply bind_ok in E as (f0 & E0 & E). apply ok_inj' in E. subst f. unfold fsm_times. apply d_times. reflexivity.
  - apply bind_ok in E as (f0 & E0 & E). apply ok_inj' in E. subst f. apply d_pre.
  - apply bind_ok in E as (f0 & E0 & E). apply ok_inj' in E. subst f. apply d_app.
  - apply bind_ok in E as (f0 & E0 & E). apply ok_inj' in E. subst f. unfold surround. apply d_app.
  - apply bind_ok in E as (f0 & E0 & E). apply ok_inj' in E. subst f. apply d_reverse.
Qed.

Lemma cat_new_empty : exists w, den (XCat (XAppend XEmpty 97) XEmpty) w /\ forall v, ~ accepts (fsm_cat (append_special fsm_new 97) fsm_new) v.
Proof.
  exists [97%N]. split.
  - exists [97%N], []. splits; auto; [|reflexivity]. exists [], [97%N]. splits; auto; reflexivity.
  - assert (B : built (append_special fsm_new 97)) by (apply built_append; [apply built_new|reflexivity|split; [reflexivity|discriminate]]).
    intros v H. pose proof (f_cat_sound _ _ _ B built_new H) as [u [x [-> [H1 H2]]]].
    apply (append_special_lang fsm_new 97 fsm_new_wf eq_refl) in H1 as [y [z [-> [H1 ->]]]]; [|split; [reflexivity|discriminate]].
    apply fsm_new_lang in H1, H2. unfold L_eps in *. subst. cbn [app] in H. revert H. apply (Check.accepts_b_false _ _ 100). vm_compute. reflexivity.
Qed.
