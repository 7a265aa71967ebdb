(** What a user of CapturingScanner can rely on. *)
From Coq Require Import List Bool Arith NArith Lia.
From Verif Require Import Util Spec PartitionModel FsmModel DetermineModel MinimizeModel Nfa FsmSem FsmBasics FsmOps FsmOps2 DetProofs CompProofs ApproxSpec Api ApiProofs Expr ExprProofs TagFacts ScannerModel RunModel RunSpec CountModel CountSpec
  CapModel CapSpec CapApi CapMarks CapMarks2 CapUser CapLeftUser FcapModel FcapSpec FcapProofs.
Import ListNotations.

(** ** A capture is kept *)
Lemma take_kept : forall a st, fc_captured st = true -> fc_take a st = st.
Proof. intros a st H. unfold fc_take. rewrite H, !andb_false_r. reflexivity. Qed.
Theorem fc_kept : forall s st w st', fc_captured st = true -> steps (fc_ops s) st w = Ok st' -> fc_begin st' = fc_begin st /\ fc_end st' = fc_end st.
Proof.
  intros s st w. revert st. induction w as [|c w IH]; intros st st' H E; cbn [steps] in E; [injection E as <-; auto|].
  unfold fc_ops at 1 in E. cbn [o_step] in E. unfold fc_next in E. destruct (d_next s (fc_state st) c) as [[q a]| | |]; cbn [bind] in E; try discriminate.
  set (st1 := mkFc q (fc_begin st) (fc_end st) ((fc_counter st + 1) mod two64)) in *. assert (H1 : fc_captured st1 = true) by exact H.
  rewrite (take_kept a st1 H1) in E. destruct (IH st1 st' H1 E) as [-> ->]. auto.
Qed.

(** ** Users' automata *)
Lemma captures_good : forall f L, captures f L -> good f.
Proof.
  intros f L C. induction C as [f B NM|f L C IH|f L gr C IH|f g L M C1 IH1 C2 IH2|f g L M C1 IH1 C2 IH2|f L C IH|f g L strs C IH U H E|f L C IH U].
  - apply built_good; auto.
  - apply good_undet; [exact (proj1 (captures_ok _ _ (cp_group _ _ C)))|reflexivity].
  - apply good_undet; [exact (proj1 (captures_ok _ _ (cp_repetition _ _ gr C)))|reflexivity].
  - apply good_undet; [exact (proj1 (captures_ok _ _ (cp_cat _ _ _ _ C1 C2)))|apply d_cat].
  - apply good_undet; [exact (proj1 (captures_ok _ _ (cp_or _ _ _ _ C1 C2)))|apply d_or].
  - apply good_undet; [exact (proj1 (captures_ok _ _ (cp_star _ _ C)))|apply d_iter].
  - apply good_undet; [exact (proj1 (captures_ok _ _ (cp_strings _ _ _ _ C U H E)))|]. eapply append_strings_undet; [|exact E]. destruct (determined f) eqn:Ed; auto. destruct IH as [_ IH]. specialize (IH Ed).
    destruct (do_all _ IH 0%N) as [r R]; [reflexivity|discriminate|]. rewrite U in R. discriminate R.
  - apply good_undet; [exact (proj1 (captures_ok _ _ (cp_dot _ _ C U)))|apply d_dot].
Qed.
Lemma contains_surround : forall f w, wf f -> is_word w -> (accepts (surround f) w <-> contains (accepts f) w).
Proof.
  intros f w W Hw. destruct (surround_ok f W) as (_ & _ & Hl). rewrite (Hl w). split.
  - intros (a & r & -> & _ & v & b & -> & Hv & _). exists a, v, b. auto.
  - intros (a & v & b & -> & Hv). unfold is_word in Hw. apply Forall_app in Hw as [Ha Hw]. apply Forall_app in Hw as [_ Hb]. exists a, (v ++ b). splits; auto. exists v, b. splits; auto.
Qed.
Lemma surround_captured : forall f L, captures f L -> uncompressed f -> good (surround f) /\ tags (surround f) = [].
Proof.
  intros f L C U. destruct (captures_ok f L C) as (W & O & NM & T & M). destruct (surround_structure f W U) as (W' & _ & _ & _ & _ & T' & _). split; [apply good_undet; auto|congruence].
Qed.

Theorem fcap_user : forall f L, captures f L -> uncompressed f ->
  (exists g, canonize (surround f) 0 = Ok g /\ forall buf, (N.of_nat (size g) < two32)%N -> part_size (letters g) <= 256 ->
    exists s, fc_compile buf (surround f) = Ok s /\ d_states s = N.of_nat (size g) /\ d_nletters s = N.of_nat (part_size (letters g)) /\ d_buf s = buf /\
    (dplaced s -> forall w, is_word w -> (N.of_nat (length w) < fc_npos)%N -> exists st fin acts, steps (fc_ops s) (fc_init s) w = Ok st /\ fc_final s st = Ok fin /\
      (fin = true <-> contains (accepts f) w) /\ fc_actions (d_next s) (d_initial s) w = Ok acts /\ length acts = length w /\ spells g (initial g) w acts /\ noted acts (fc_begin st) (fc_end st))) \/
  (canonize (surround f) 0 = Throw ETooComplicated /\ forall buf, fc_compile buf (surround f) = Throw ETooComplicated).
Proof.
  intros f L C U. destruct (captures_ok f L C) as (W & _). destruct (surround_captured f L C U) as [G T]. destruct (fc_runs _ G T) as [(g & E & _ & H)|X]; [left|right; exact X].
  exists g. split; auto. intros buf S P. destruct (H buf S P) as (s & X1 & X2 & X3 & X4 & R). exists s. splits; auto. intros D w Hw Lw.
  destruct (R D w Hw Lw) as (st & fin & acts & Y1 & Y2 & Y3 & Y4). exists st, fin, acts. splits; try apply Y4; auto. rewrite Y3. apply contains_surround; auto.
Qed.

(** ** Nothing to capture *)
Lemma spells_zero : forall f p w acts, outputs f = [] -> spells f p w acts -> Forall (fun a => a = 0%N) acts.
Proof. intros f p w acts O S. induction S as [p|p c q w acts E S IH]; constructor; auto. rewrite (bare_output f O). reflexivity. Qed.
Theorem fcap_bare : forall f g buf s w, built f -> canonize f 0 = Ok g -> (N.of_nat (size g) < two32)%N -> part_size (letters g) <= 256 -> fc_compile buf f = Ok s -> dplaced s ->
  is_word w -> (N.of_nat (length w) < fc_npos)%N -> exists st fin, steps (fc_ops s) (fc_init s) w = Ok st /\ fc_final s st = Ok fin /\ (fin = true <-> accepts f w) /\ fc_begin st = fc_npos /\ fc_end st = fc_npos.
Proof.
  intros f g buf s w B Eg S Ps E P Hw Lw. destruct (built_bare f B) as [T O]. destruct (fc_runs f (built_good f B) T) as [(g' & Eg' & _ & H)|(X & _)]; [|rewrite X in Eg; discriminate Eg].
  rewrite Eg in Eg'. injection Eg' as <-. destruct (bare_canonize f 0 g (built_bare f B) Eg) as [_ Og]. destruct (H buf S Ps) as (s' & E' & _ & _ & _ & R). rewrite E in E'. injection E' as <-.
  destruct (R P w Hw Lw) as (st & fin & acts & X1 & X2 & X3 & X4 & X5 & X6 & (k & Hk & Lb & Le & _)). exists st, fin. pose proof (spells_zero g _ _ _ Og X6) as Z.
  assert (N0 : forall i a, nth_error acts i = Some a -> a = 0%N) by (intros i a Ha; rewrite Forall_forall in Z; apply Z; eapply nth_error_In; eauto).
  splits; auto.
  - destruct Lb as [[? _]|(i & _ & (a & Ha & Ba) & _)]; auto. rewrite (N0 i a Ha), N.bits_0 in Ba. discriminate Ba.
  - destruct Le as [[? _]|(i & _ & (a & Ha & _ & Ba) & _)]; auto. rewrite (N0 i a Ha), N.bits_0 in Ba. discriminate Ba.
Qed.
