(** Every automaton the API builds is well formed. *)
From Coq Require Import List Bool Arith NArith Lia.
From Verif Require Import Util Spec PartitionModel PartitionProofs FsmModel DetermineModel MinimizeModel Nfa NfaOps FsmSem FsmBasics FsmOps FsmOps2 FsmStrings DeadProofs EpsProofs DetGeneric DetProofs MinGeneric MinProofs CompProofs EncModel EncDot ApproxModel ApproxSpec ApproxProofs ApproxMain Api.
Import ListNotations.
Local Opaque all_letters.

Definition canon_good (f : fsm) : Prop := wf f /\ (determined f = true -> det_ok f /\ all_reachable f).

Lemma canon_good_good : forall f, canon_good f -> good f.
Proof. intros f [A B]. split; auto. intros H. apply B; auto. Qed.

Lemma undet_good : forall f, wf f -> determined f = false -> canon_good f.
Proof. intros f W D. split; auto. congruence. Qed.

Lemma uncompressed_undet : forall f, canon_good f -> uncompressed f -> determined f = false.
Proof.
  intros f [W G] U. destruct (determined f) eqn:E; auto. destruct (G eq_refl) as [D _].
  destruct (do_all _ D 0%N) as [r R]; [reflexivity|discriminate|]. rewrite U in R. discriminate.
Qed.

Lemma append_string_undet : forall s f, determined f = false -> determined (append_string f s) = false.
Proof. unfold append_string. induction s as [|c s IH]; intros f H; cbn [fold_left]; auto. Qed.

Lemma as_inner_undet : forall cs f ltr st f' ltr' st', determined f = false ->
  as_inner f ltr st cs = (f', ltr', st') -> determined f' = false.
Proof.
  induction cs as [|c cs IH]; intros f ltr st f' ltr' st' H E; cbn [as_inner] in E.
  - injection E as <- _ _. auto.
  - destruct (mfind (st, c) ltr); [eapply IH; eauto|]. eapply IH; [|exact E]. reflexivity.
Qed.
Lemma as_one_undet : forall e f a b s f' a' b', determined f = false -> as_one e (f, a, b) s = (f', a', b') -> determined f' = false.
Proof.
  intros e f a b s f' a' b' H E. unfold as_one in E. destruct s as [|c [|d s]].
  - injection E as <- _ _; auto.
  - injection E as <- _ _; auto.
  - destruct (match mfind c a with Some n => _ | None => _ end) as [[f1 a1] j].
    destruct (as_inner f1 b j (removelast (d :: s))) as [[f2 b2] st]. injection E as <- _ _. reflexivity.
Qed.
Lemma append_strings_undet : forall f strs g, determined f = false -> append_strings f strs = Ok g -> determined g = false.
Proof.
  intros f strs g H E. unfold append_strings in E. destruct (existsb _ strs); [discriminate|].
  assert (X : forall l e acc, determined (fst (fst acc)) = false -> determined (fst (fst (fold_left (as_one e) l acc))) = false).
  { induction l as [|s l IH]; intros e [[f0 a] b] H0; cbn [fold_left]; auto. apply IH.
    destruct (as_one e (f0, a, b) s) as [[f' a'] b'] eqn:E0. eapply as_one_undet; eauto. }
  specialize (X strs (size (resize_fsm f (size f + 1)) - 1) (resize_fsm f (size f + 1), [], []) H).
  destruct (fold_left _ strs _) as [[f2 a] b]. injection E as <-. exact X.
Qed.

Lemma connect_det : forall f a b c, determined (connect f a b c) = determined f.
Proof. reflexivity. Qed.
Lemma fold_det : forall X (step : fsm -> X -> fsm), (forall g x, determined (step g x) = determined g) ->
  forall l f, determined (fold_left step l f) = determined f.
Proof. intros X step H. induction l as [|x l IH]; intros f; cbn [fold_left]; auto. rewrite IH. auto. Qed.

Lemma reverse_undet : forall f, determined (fsm_reverse f) = false.
Proof.
  intros f. unfold fsm_reverse. cbn [determined set_sparsed set_tags set_outputs set_initial].
  rewrite fold_det by reflexivity. cbn [determined set_final clear_final set_finals].
  unfold reverse_trans. rewrite fold_det; [reflexivity|]. intros g x.
  apply fold_det. intros g0 [c tos]. apply fold_det. reflexivity.
Qed.
Lemma remove_dead_ends_undet : forall f g, remove_dead_ends f = Ok g -> determined g = determined f.
Proof.
  intros f g E. unfold remove_dead_ends in E. destruct (dead_states f); try discriminate. cbn [bind] in E. injection E as <-.
  cbn [clear_hints set_isAlt determined]. apply fold_det. reflexivity.
Qed.
Lemma make_prefix_undet : forall f g, make_prefix f = Ok g -> determined g = determined f.
Proof.
  intros f g E. unfold make_prefix in E. destruct (remove_dead_ends f) as [f1| | |] eqn:E1; try discriminate. cbn [bind] in E. injection E as <-.
  rewrite <- (remove_dead_ends_undet _ _ E1). cbn [clear_hints set_isAlt determined]. apply fold_det. intros g x. destruct (row_at g x); reflexivity.
Qed.
Lemma make_suffix_undet : forall f, determined (make_suffix f) = determined f.
Proof.
  intros f. unfold make_suffix. cbn [clear_hints set_isAlt determined]. apply fold_det. intros g x. destruct (Nat.eqb x (initial g)); reflexivity.
Qed.
Lemma times_undet : forall f n, determined (fsm_times f n) = false.
Proof.
  intros f n. unfold fsm_times. assert (X : forall n r, determined r = false -> determined (fsm_times_loop f n r) = false).
  { induction n0 as [|m IH]; intros r H; cbn [fsm_times_loop]; auto. }
  apply X. reflexivity.
Qed.
Lemma merge_epsilon_det : forall from f to, determined (merge_epsilon from f to) = determined f.
Proof.
  intros from f to. unfold merge_epsilon.
  set (f1 := fold_left _ (row_at f to) f).
  assert (D1 : determined f1 = determined f).
  { unfold f1. apply fold_det. intros g [c tos]. destruct (match mfind from (outputs f) with Some m => _ | None => _ end); reflexivity. }
  clearbody f1. rewrite <- D1.
  set (f2 := if is_final f1 to then set_final f1 from true else f1).
  assert (D2 : determined f2 = determined f1) by (unfold f2; destruct (is_final f1 to); reflexivity). clearbody f2. rewrite <- D2.
  set (f3 := match mfind to (tags f2) with Some _ => _ | None => f2 end).
  assert (D3 : determined f3 = determined f2) by (unfold f3; destruct (mfind to (tags f2)); reflexivity). clearbody f3. rewrite <- D3.
  destruct (mfind to (outputs f3)); reflexivity.
Qed.
Lemma remove_epsilons_undet : forall f, determined (remove_epsilons f) = determined f.
Proof.
  intros f. unfold remove_epsilons. cbn [clear_hints set_isAlt determined].
  change (determined (sparse ?x)) with (determined x). cbn [determined set_trans].
  unfold merge_all_eps. rewrite fold_det.
  2:{ intros g x. apply fold_det. intros g0 y. destruct (Nat.eqb y x); [reflexivity|]. apply merge_epsilon_det. }
  unfold close_eps.
  assert (S1 : forall from thru acc, determined (fst (shortcut_epsilon from thru acc)) = determined (fst acc)).
  { intros from thru [g inv]. unfold shortcut_epsilon. cbn [fst].
    generalize (destinations g thru Epsilon). intros l.
    set (has := match mfind from (outputs g) with Some _ => true | None => false end). set (fto := output g from thru).
    clearbody has fto. revert g inv. induction l as [|x l IH]; intros g inv; cbn [fold_left fst]; auto.
    rewrite IH. destruct has; reflexivity. }
  assert (S2 : forall l thru acc, determined (fst (fold_left (fun acc from => if Nat.eqb from thru then acc else shortcut_epsilon from thru acc) l acc)) = determined (fst acc)).
  { induction l as [|x l IH]; intros thru acc; cbn [fold_left]; auto. rewrite IH. destruct (Nat.eqb x thru); auto. }
  assert (S3 : forall l acc, determined (fst (fold_left (fun '(g, inv) thru =>
         fold_left (fun acc from => if Nat.eqb from thru then acc else shortcut_epsilon from thru acc)
                   (nth thru inv []) (g, inv)) l acc)) = determined (fst acc)).
  { induction l as [|x l IH]; intros [g inv]; cbn [fold_left]; auto. rewrite IH, S2. auto. }
  rewrite S3. reflexivity.
Qed.

Lemma determine_canon : forall f maxsize b g, canon_good f -> determine f maxsize = Ok (b, g) -> canon_good g.
Proof.
  intros f maxsize b g [W H] E. destruct (determined f) eqn:Hd.
  - unfold determine in E. rewrite Hd in E. injection E as _ <-. split; auto.
  - destruct (determine_ok f maxsize W Hd) as (b' & g' & E' & Wg & _ & _ & B1 & B2). rewrite E in E'. injection E' as <- <-.
    split; auto. intros D. destruct b.
    + destruct (B1 eq_refl) as (X1 & _ & _ & _ & _ & X2). split; auto.
    + exfalso. unfold determine in E. rewrite Hd in E. destruct (det_run _ _ _ _ _ _); try discriminate.
      injection E as <-. rewrite remove_epsilons_undet in D. congruence.
Qed.

Lemma minimize_canon : forall f g, canon_good f -> determined f = true -> minimize f = Ok g -> canon_good g.
Proof.
  intros f g [W H] D E. destruct (H D) as [Df Rf]. destruct (minimize_ok f W Df D) as (g' & cls & E' & Wg & Dg & Hg & _ & C1 & C2 & I & P & A & N).
  rewrite E in E'. injection E' as <-. split; auto. intros _. split; auto.
  intros x Hx. destruct (C2 x Hx) as [s [Hs <-]]. destruct (Rf s Hs) as [w [Hw Pw]]. exists w. split; auto.
  rewrite I. apply P; auto. apply W.
Qed.

Lemma fsm_times_wf : forall f n, wf f -> wf (fsm_times f n).
Proof.
  intros f n W. unfold fsm_times. assert (X : forall n r, wf r -> wf (fsm_times_loop f n r)).
  { induction n0 as [|m IH]; intros r H; cbn [fsm_times_loop]; auto. apply IH. apply fsm_cat_wf; auto. }
  apply X, fsm_new_wf.
Qed.

Lemma built_ok : forall f, built f -> canon_good f.
Proof.
  intros f B. induction B.
  - apply undet_good; [apply fsm_new_wf|reflexivity].
  - apply undet_good; [apply make_false_wf|reflexivity].
  - apply undet_good; [|reflexivity]. apply append_special_wf; auto; [apply IHB|apply H0].
  - pose proof (uncompressed_undet _ IHB H). apply undet_good; [|apply append_string_undet; auto]. apply append_string_ok; auto; apply IHB.
  - apply undet_good; [|reflexivity]. apply append_dot_ok; auto; apply IHB.
  - apply undet_good; [|apply d_utf8_dot]. apply utf8_append_dot_ok; auto; apply IHB.
  - pose proof (uncompressed_undet _ IHB H). apply undet_good; [|eapply append_strings_undet; eauto].
    destruct (append_strings_ok f (proj1 IHB) strs H) as (g' & E & W & _); [|congruence].
    intros s Hs. split; auto. intros ->. rewrite append_strings_empty in H1 by auto. discriminate.
  - apply undet_good; [|reflexivity]. apply fsm_cat_wf; [apply IHB1|apply IHB2].
  - apply undet_good; [|apply fsm_or_undet]. apply fsm_or_ok; [apply IHB1|apply IHB2].
  - destruct (fsm_and_ok f g (canon_good_good _ IHB1) (canon_good_good _ IHB2)) as [(x & E & W & D & _)|E]; [|congruence].
    rewrite H in E. injection E as <-. apply undet_good; auto.
  - apply undet_good; [|reflexivity]. apply iterate_ok; apply IHB.
  - destruct (complement_ok f (canon_good_good _ IHB)) as [(x & E & W & D & _)|(E & _)]; [|congruence].
    rewrite H in E. injection E as <-. apply undet_good; auto.
  - apply undet_good; [|apply times_undet]. apply fsm_times_wf, IHB.
  - apply undet_good; [|reflexivity]. apply prepend_anything_ok, IHB.
  - apply undet_good; [|reflexivity]. apply append_anything_ok, IHB.
  - apply undet_good; [|reflexivity]. apply surround_ok, IHB.
  - apply undet_good; [|apply reverse_undet]. apply reverse_ok, IHB.
  - apply undet_good; [|rewrite (make_prefix_undet _ _ H0); auto]. destruct (make_prefix_ok f (proj1 IHB)) as (x & E & W & _). congruence.
  - apply undet_good; [|rewrite make_suffix_undet; auto]. apply make_suffix_wf, IHB.
  - apply undet_good; [|rewrite (remove_dead_ends_undet _ _ H0); auto]. destruct (remove_dead_ends_ok f (proj1 IHB)) as (x & E & W & _). congruence.
  - apply undet_good; [|rewrite remove_epsilons_undet; auto]. apply remove_epsilons_ok, IHB.
  - eapply determine_canon; eauto.
  - eapply minimize_canon; eauto.
  - unfold canonize in H. destruct (determined f) eqn:Hd.
    + cbn [bind] in H. eapply minimize_canon; eauto.
    + destruct (determine f maxsize) as [[b h]| | |] eqn:E; try discriminate. cbn [bind] in H. destruct b; [|discriminate]. cbn [bind] in H.
      pose proof (determine_canon _ _ _ _ IHB E) as C.
      destruct (determine_ok f maxsize (proj1 IHB) Hd) as (b' & h' & E' & _ & _ & _ & B1 & _). rewrite E in E'. injection E' as <- <-.
      destruct (B1 eq_refl) as (_ & Dh & _). eapply minimize_canon; eauto.
  - pose proof (uncompressed_undet _ IHB H). pose proof (conj H H0 : plain f). apply undet_good; [apply approx_wf; auto; apply IHB|].
    rewrite approx_undet; auto; apply IHB.
Qed.

Lemma built_wf : forall f, built f -> wf f.
Proof. intros f B. apply built_ok; auto. Qed.
Lemma built_good : forall f, built f -> good f.
Proof. intros f B. apply canon_good_good, built_ok; auto. Qed.
