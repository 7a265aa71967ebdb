(** A greedy count at the front of the automaton is one at the front of the pattern. *)
From Coq Require Import List Bool Arith NArith ZArith Lia.
From Verif Require Import Util Spec PartitionModel FsmModel DetermineModel MinimizeModel Nfa NfaOps FsmSem FsmBasics FsmOps FsmOps2 FsmStrings
  EncModel EncSpec EncDot Api ApiProofs BuildFacts EncProofs Expr ExprProofs ScannerModel RegexModel RegexSpec RegexParse RegexProofs CapModel CapSpec CapApi CapMarks CapMarks2 CapAppend CapUser CapLeftUser TagFacts
  MarkModel MarkSpec MarkProofs MarkLang MarkUser MarkCalm.
Import ListNotations.
Local Opaque all_letters all_bytes.

Definition from0 (f : fsm) (q : nat) : Prop := path (edge f) (initial f) [] q.
Lemma from0_init : forall f, from0 f (initial f).
Proof. intros f. apply path_nil. Qed.
Lemma from0_step : forall f a b, from0 f a -> edge f a Epsilon b -> from0 f b.
Proof. intros f a b H X. unfold from0. change (@nil N) with (@nil N ++ []). eapply path_app; [exact H|]. apply path_eps1, X. Qed.
Lemma front_ind : forall f (I : nat -> Prop) (X : Prop), I (initial f) -> (forall a b, I a -> edge f a Epsilon b -> I b) ->
  (forall a b, I a -> edge f a Epsilon b -> N.testbit (output f a b) 2 = true -> X) -> greedy_front f -> X.
Proof.
  intros f I X H0 H1 H2 (q & r & P & E & B). refine (H2 q r _ E B). remember [] as w eqn:Ew. revert H0 Ew. induction P as [p|p q w r' He P IH|p c q w r' Hc He P IH]; intros H0 Ew; [auto| |discriminate Ew]. apply IH; auto. eapply H1; eauto.
Qed.
Lemma front_intro : forall f q r, from0 f q -> edge f q Epsilon r -> N.testbit (output f q r) 2 = true -> greedy_front f.
Proof. intros f q r A B C. exists q, r. auto. Qed.

Lemma front_cat_inv : forall a b, wf a -> wf b -> outs a -> outs b -> greedy_front (fsm_cat a b) -> greedy_front a \/ (accepts a [] /\ greedy_front b).
Proof.
  intros a b Wa Wb Oa Ob. destruct (cat_structure a b Wa Wb) as (_ & Ig & _). pose proof (cat_edge a b Wa Wb) as Eg. pose proof (cat_output a b Wa Wb Oa Ob) as Out.
  assert (Ba : forall p c q, edge a p c q -> p < size a /\ q < size a) by (intros; eapply edge_bound; eauto).
  apply (front_ind _ (fun q => (q < size a /\ from0 a q) \/ exists q', q = q' + size a /\ accepts a [] /\ from0 b q')).
  - left. rewrite Ig. split; [apply Wa|apply from0_init].
  - intros p q H X. apply Eg in X as [X|[(p' & q' & -> & -> & X)|(Fp & q' & -> & X)]].
    + destruct (Ba _ _ _ X) as [L1 L2]. destruct H as [[_ H]|(p' & -> & _)]; [|lia]. left. split; auto. eapply from0_step; eauto.
    + destruct H as [[L _]|(p1 & E & A & H)]; [lia|]. assert (p1 = p') by lia. subst p1. right. exists q'. splits; auto. eapply from0_step; eauto.
    + pose proof (wf_fin _ Wa _ Fp). destruct H as [[_ H]|(p1 & E & _)]; [|lia]. right. exists q'. splits; auto; [exists p; auto|]. eapply from0_step; [apply from0_init|exact X].
  - intros p q H X Bt. rewrite Out in Bt. apply Eg in X as [X|[(p' & q' & -> & -> & X)|(Fp & q' & -> & X)]].
    + destruct (Ba _ _ _ X) as [L1 L2]. destruct (Nat.leb_spec (size a) q); [lia|]. destruct H as [[_ H]|(p' & -> & _)]; [|lia]. left. eapply front_intro; eauto.
    + destruct H as [[L _]|(p1 & E & A & H)]; [lia|]. assert (p1 = p') by lia. subst p1. right. split; auto. destruct (Nat.leb_spec (size a) (q' + size a)); [|lia]. destruct (Nat.leb_spec (size a) (p' + size a)); [|lia].
      rewrite !Nat.add_sub in Bt. eapply front_intro; eauto.
    + pose proof (wf_fin _ Wa _ Fp). destruct H as [[_ H]|(p1 & E & _)]; [|lia]. right. split; [exists p; auto|]. destruct (Nat.leb_spec (size a) (q' + size a)); [|lia]. destruct (Nat.leb_spec (size a) p); [lia|].
      destruct (smem p (finals a)); [|discriminate Bt]. rewrite Nat.add_sub in Bt. eapply front_intro; [apply from0_init|exact X|exact Bt].
Qed.
Lemma front_or_inv : forall f rhs, wf f -> wf rhs -> outs f -> outs rhs -> greedy_front (fsm_or f rhs) -> greedy_front f \/ greedy_front rhs.
Proof.
  intros f rhs W1 W2 O1 O2. destruct (or_structure f rhs W1 W2) as (_ & _ & Og & _ & Cg). set (g := fsm_or f rhs) in *.
  assert (B1 : forall p c q, edge f p c q -> p < size f /\ q < size f) by (intros; eapply edge_bound; eauto).
  pose proof (wf_init _ W1) as I1. pose proof (wf_init _ W2) as I2.
  assert (Out : forall p y, output g p y = if (size f <=? p) && (size f <=? y) then output rhs (p - size f) (y - size f) else output f p y) by (intros; rewrite output_get, Og; apply import_output; auto).
  assert (Own : forall p y, y < size f -> output g p y = output f p y).
  { intros p y L. rewrite Out. destruct (Nat.leb_spec (size f) y); [lia|]. rewrite andb_false_r. reflexivity. }
  assert (Cross : forall p y, p < size f -> size f <= y -> output g p y = 0%N).
  { intros p y L L'. rewrite Out. destruct (Nat.leb_spec (size f) p); [lia|]. cbn [andb]. rewrite output_get. apply (okeys_out (size f)); [apply O1|lia]. }
  assert (Cross' : forall p y, size f <= p -> y < size f -> output g p y = 0%N).
  { intros p y L L'. rewrite Own by auto. rewrite output_get. apply (okeys_out (size f)); [apply O1|lia]. }
  assert (Sh : forall p y, output g (p + size f) (y + size f) = output rhs p y).
  { intros p y. rewrite Out. destruct (Nat.leb_spec (size f) (p + size f)); [|lia]. destruct (Nat.leb_spec (size f) (y + size f)); [|lia]. cbn [andb]. f_equal; lia. }
  assert (Far : forall y, output g (size f + size rhs) y = 0%N).
  { intros y. rewrite Out. destruct (Nat.leb_spec (size f) y).
    - destruct (Nat.leb_spec (size f) (size f + size rhs)); [|lia]. cbn [andb]. rewrite output_get. apply (okeys_out (size rhs)); [apply O2|lia].
    - rewrite andb_false_r. rewrite output_get. apply (okeys_out (size f)); [apply O1|lia]. }
  (* every transition by epsilon is one of the two automata or has no output and leads to where they begin *)
  assert (Kind : forall p q, edge g p Epsilon q -> edge f p Epsilon q \/ (exists p' q', p = p' + size f /\ q = q' + size f /\ edge rhs p' Epsilon q') \/
    (output g p q = 0%N /\ (q = initial f \/ exists q', q = q' + size f /\ from0 rhs q'))).
  { intros p q X. destruct Cg as [(_ & _ & _ & Ig & Eg)|[(_ & _ & Ig & Eg)|[(_ & _ & Ig & Eg)|(_ & _ & _ & Ig & Eg)]]]; apply Eg in X.
    - destruct X as [X|[X|(-> & _ & X)]]; auto. right; right. split; auto. destruct X as [X|X]; [auto|]. right. eexists. split; [exact X|apply from0_init].
    - destruct X as [X|[X|(-> & _ & ->)]]; auto. right; right. split; [apply Cross; lia|]. right. eexists. split; [reflexivity|apply from0_init].
    - destruct X as [X|[X|(-> & _ & ->)]]; auto. right; right. split; [apply Cross'; lia|auto].
    - destruct X as [X|[[X _]|(-> & _ & t & X & ->)]]; auto. right; right. split; [apply Cross; lia|]. right. exists t. split; auto. eapply from0_step; [apply from0_init|exact X]. }
  assert (Start : initial g = size f + size rhs \/ initial g = initial f \/ initial g = initial rhs + size f).
  { destruct Cg as [(_ & _ & _ & Ig & _)|[(_ & _ & Ig & _)|[(_ & _ & Ig & _)|(_ & _ & _ & Ig & _)]]]; auto. }
  clear Cg.
  apply (front_ind g (fun q => q = size f + size rhs \/ (q < size f /\ from0 f q) \/ exists q', q = q' + size f /\ from0 rhs q')).
  - destruct Start as [S|[S|S]]; rewrite S; auto; [right; left; split; [auto|apply from0_init]|]. right; right. eexists. split; [reflexivity|apply from0_init].
  - intros p q H X. destruct (Kind p q X) as [Y|[(p' & q' & -> & -> & Y)|(_ & [->|Y])]]; auto.
    + destruct (B1 _ _ _ Y) as [L1 L2]. destruct H as [->|[[_ H]|(p' & -> & _)]]; [lia| |lia]. right; left. split; auto. eapply from0_step; eauto.
    + destruct (edge_bound _ _ _ _ W2 Y) as [L1 L2]. destruct H as [H|[[H _]|(p1 & E & H)]]; [lia|lia|]. assert (p1 = p') by lia. subst p1. right; right. exists q'. split; auto. eapply from0_step; eauto.
    + right; left. split; [auto|apply from0_init].
  - intros p q H X Bt. destruct (Kind p q X) as [Y|[(p' & q' & -> & -> & Y)|(Z & _)]].
    + destruct (B1 _ _ _ Y) as [L1 L2]. destruct H as [->|[[_ H]|(p' & -> & _)]]; [lia| |lia]. left. rewrite Own in Bt by auto. eapply front_intro; eauto.
    + destruct (edge_bound _ _ _ _ W2 Y) as [L1 L2]. destruct H as [H|[[H _]|(p1 & E & H)]]; [lia|lia|]. assert (p1 = p') by lia. subst p1. right. rewrite Sh in Bt. eapply front_intro; eauto.
    + rewrite Z in Bt. discriminate Bt.
Qed.
Lemma front_star_inv : forall f, wf f -> outs f -> greedy_front (iterate f) -> greedy_front f.
Proof.
  intros f W O. destruct (iterate_structure f W) as (_ & Ig & _ & _ & _ & Og & Eg). set (g := iterate f) in *. pose proof (fun p q => output_same f g p q Og) as Out. pose proof (wf_init _ W) as WI.
  apply (front_ind g (fun q => size f <= q \/ from0 f q)).
  - left. lia.
  - intros p q H X. apply Eg in X as [X|(_ & [[-> [-> | ->]]|[Fp [-> | ->]]])]; try (left; lia); try (right; apply from0_init).
    destruct (edge_bound _ _ _ _ W X) as [L1 L2]. destruct H as [H|H]; [lia|]. right. eapply from0_step; eauto.
  - intros p q H X Bt. rewrite Out in Bt. apply Eg in X as [X|(_ & [[-> _]|[Fp _]])].
    + destruct (edge_bound _ _ _ _ W X) as [L1 L2]. destruct H as [H|H]; [lia|]. eapply front_intro; eauto.
    + rewrite output_get, (okeys_out (size f)) in Bt; [discriminate Bt|apply O|lia].
    + rewrite (o_final _ O) in Bt by auto. discriminate Bt.
Qed.
Lemma front_group_inv : forall f, wf f -> greedy_front (capture_mark f) -> greedy_front f.
Proof.
  intros f W. destruct (capture_structure f W) as (_ & _ & Ig & _ & _ & _ & _ & Og & Eg). set (g := capture_mark f) in *. pose proof (wf_init _ W) as WI.
  apply (front_ind g (fun q => size f <= q \/ from0 f q)).
  - left. lia.
  - intros p q H X. apply Eg in X as [X|(_ & [[-> ->]|[Fp ->]])]; try (left; lia); try (right; apply from0_init).
    destruct (edge_bound _ _ _ _ W X) as [L1 L2]. destruct H as [H|H]; [lia|]. right. eapply from0_step; eauto.
  - intros p q H X Bt. rewrite output_get, Og, oget_osets, oget_oset in Bt. destruct (smem p (finals f) && (q =? size f + 1))%bool eqn:Ea; [discriminate Bt|]. destruct ((p =? size f) && (q =? initial f))%bool eqn:Eb; [discriminate Bt|]. rewrite <- output_get in Bt.
    apply Eg in X as [X|(_ & [[-> ->]|[Fp ->]])].
    + destruct (edge_bound _ _ _ _ W X) as [L1 L2]. destruct H as [H|H]; [lia|]. eapply front_intro; eauto.
    + rewrite !Nat.eqb_refl in Eb. discriminate Eb.
    + apply smem_in in Fp. rewrite Fp, Nat.eqb_refl in Ea. discriminate Ea.
Qed.
Lemma front_rep_inv : forall f gr, wf f -> greedy_front (repetition_mark f gr) -> greedy_front f \/ (gr = true /\ accepts f []).
Proof.
  intros f gr W. destruct (repetition_structure f gr W) as (_ & _ & Ig & _ & _ & _ & _ & Og & Eg). set (g := repetition_mark f gr) in *. pose proof (wf_init _ W) as WI.
  apply (front_ind g (fun q => size f <= q \/ from0 f q)).
  - right. rewrite Ig. apply from0_init.
  - intros p q H X. apply Eg in X as [X|(_ & Fp & ->)]; [|left; lia].
    destruct (edge_bound _ _ _ _ W X) as [L1 L2]. destruct H as [H|H]; [lia|]. right. eapply from0_step; eauto.
  - intros p q H X Bt. rewrite output_get, Og, oget_osets in Bt. apply Eg in X as [X|(_ & Fp & ->)].
    + destruct (edge_bound _ _ _ _ W X) as [L1 L2]. destruct (Nat.eqb_spec q (size f)); [lia|]. rewrite andb_false_r, <- output_get in Bt. destruct H as [H|H]; [lia|]. left. eapply front_intro; eauto.
    + pose proof (wf_fin _ W _ Fp). destruct H as [H|H]; [lia|]. right. split; [|exists p; auto]. apply smem_in in Fp. rewrite Fp, Nat.eqb_refl in Bt. destruct gr; [reflexivity|discriminate Bt].
Qed.
(** appending adds no transition by epsilon *)
Lemma front_same : forall f g, wf f -> initial g = initial f -> outputs g = outputs f -> (forall p q, edge g p Epsilon q -> edge f p Epsilon q) -> greedy_front g -> greedy_front f.
Proof.
  intros f g W Ig Og Eg. apply (front_ind g (from0 f)).
  - rewrite Ig. apply from0_init.
  - intros a b H X. eapply from0_step; eauto.
  - intros a b H X Bt. rewrite (output_same f g a b Og) in Bt. eapply front_intro; eauto.
Qed.
Lemma front_strings_inv : forall f strs g, wf f -> uncompressed f -> (forall s, In s strs -> s <> [] /\ Forall byte s) -> append_strings f strs = Ok g -> greedy_front g -> greedy_front f.
Proof.
  intros f strs g W U H E. destruct (append_strings_ok f W strs U H) as (g0 & E0 & Wg & Ug & _). rewrite E in E0. apply ok_inj' in E0. subst g0. pose proof (strings_outputs _ _ _ E) as Og.
  unfold append_strings in E. destruct (existsb _ strs); [discriminate E|].
  pose proof (trie_start f W) as T0. rewrite size_resize in E. replace (size f + 1 - 1) with (size f) in E by lia.
  assert (Y : let '(g', sl', lt') := fold_left (as_one (size f)) strs (resize_fsm f (size f + 1), [], []) in
    exists wd' done', trie f g' sl' lt' done' wd' /\ forall x, done' x <-> False \/ In x strs) by exact (as_fold_ok f W strs _ _ _ _ _ T0 H).
  destruct (fold_left (as_one (size f)) strs (resize_fsm f (size f + 1), [], [])) as [[h sl] lt]. destruct Y as (wd & done & T & Ed). injection E as <-.
  apply front_same; auto; [apply (t_init _ _ _ _ _ _ T)|].
  assert (NB : ~ byte Epsilon) by (intros X; apply byte_letter in X; tauto).
  intros p q X. apply (fun Y => proj1 (raw_uncompressed _ p Epsilon q Ug) Y) in X. change (raw h p Epsilon q) in X. apply (t_raw _ _ _ _ _ _ T) in X. rewrite (raw_uncompressed f p Epsilon q U).
  destruct X as [X|[[X1 X2]|[X|[(-> & X1 & X2)|(-> & X1 & X2)]]]]; auto; exfalso; apply NB.
  - apply (t_sl _ _ _ _ _ _ T) in X2. apply X2.
  - apply (t_lt _ _ _ _ _ _ T) in X. apply X.
  - apply (t_done _ _ _ _ _ _ T) in X2 as [X2 _]. inversion X2; auto.
  - apply (t_done _ _ _ _ _ _ T) in X2 as [X2 _]. apply Forall_app in X2 as [_ X2]. inversion X2; auto.
Qed.
Lemma front_dot_inv_ : forall f g, wf f -> uncompressed f -> appended f g (fun c => byte c) (fun _ => False) -> outputs g = outputs f -> greedy_front g -> greedy_front f.
Proof.
  intros f g W U A Og. assert (Ug : uncompressed g) by (unfold uncompressed; rewrite (ap_let _ _ _ _ A); exact U).
  apply front_same; auto; [apply A|]. intros p q X. apply (fun Y => proj1 (raw_uncompressed _ p Epsilon q Ug) Y) in X. apply (ap_raw _ _ _ _ A) in X. rewrite (raw_uncompressed f p Epsilon q U).
  destruct X as [X|[(_ & B & _)|(_ & _ & [])]]; auto. apply byte_letter in B. tauto.
Qed.
Lemma front_dot_inv : forall f, wf f -> uncompressed f -> greedy_front (append_dot f) -> greedy_front f.
Proof. intros f W U. apply front_dot_inv_; auto; [apply append_dot_appended; auto|apply dot_same]. Qed.

(** ** Repetitions *)
Definition caps (f : fsm) : Prop := exists L, captures f L.
Lemma caps_ok : forall f, caps f -> wf f /\ outs f.
Proof. intros f [L C]. destruct (captures_ok f L C) as (W & O & _). auto. Qed.
Lemma caps_cat : forall a b, caps a -> caps b -> caps (fsm_cat a b).
Proof. intros a b [L A] [M B]. eexists. apply cp_cat; eauto. Qed.
Lemma caps_or : forall a b, caps a -> caps b -> caps (fsm_or a b).
Proof. intros a b [L A] [M B]. eexists. apply cp_or; eauto. Qed.
Lemma caps_star : forall a, caps a -> caps (iterate a).
Proof. intros a [L A]. eexists. apply cp_star; eauto. Qed.
Lemma caps_new : caps fsm_new.
Proof. exact (proj1 calm_new). Qed.
Lemma new_front : ~ greedy_front fsm_new.
Proof. apply calm_front, calm_new. Qed.
(** [f] is made of copies of [a] and has no greedy count at its front unless [a] has. *)
Definition like (a f : fsm) : Prop := caps f /\ (greedy_front f -> greedy_front a).
Lemma like_self : forall a, caps a -> like a a.
Proof. intros a C. split; auto. Qed.
Lemma like_new : forall a, like a fsm_new.
Proof. intros a. split; [apply caps_new|]. intros H. destruct (new_front H). Qed.
Lemma like_cat : forall a f g, like a f -> like a g -> like a (fsm_cat f g).
Proof.
  intros a f g [C1 H1] [C2 H2]. split; [apply caps_cat; auto|]. destruct (caps_ok f C1), (caps_ok g C2). intros X. apply front_cat_inv in X as [X|[_ X]]; auto.
Qed.
Lemma like_or : forall a f g, like a f -> like a g -> like a (fsm_or f g).
Proof.
  intros a f g [C1 H1] [C2 H2]. split; [apply caps_or; auto|]. destruct (caps_ok f C1), (caps_ok g C2). intros X. apply front_or_inv in X as [X|X]; auto.
Qed.
Lemma like_star : forall a f, like a f -> like a (iterate f).
Proof. intros a f [C H]. split; [apply caps_star; auto|]. destruct (caps_ok f C). intros X. apply front_star_inv in X; auto. Qed.
Lemma like_times : forall a f n, like a f -> like a (fsm_times f n).
Proof.
  intros a f n H. unfold fsm_times. assert (X : forall n r, like a r -> like a (fsm_times_loop f n r)). { clear n. induction n as [|n IH]; intros r Hr; cbn [fsm_times_loop]; auto. apply IH, like_cat; auto. }
  apply X, like_new.
Qed.
Lemma like_repeat : forall f lo hi, caps f -> like f (repeat_action f lo hi).
Proof.
  intros f lo hi C. pose proof (like_self f C) as H. unfold repeat_action. repeat match goal with |- like _ (if ?b then _ else _) => destruct b end; auto using like_cat, like_or, like_star, like_times, like_new.
Qed.
Lemma hd_skip : forall (l : list bool) n, hd true (skipn n l) = nth n l true.
Proof. induction l as [|b l IH]; intros [|n]; cbn; auto. Qed.

Section ENC.
  Variable e : encoding.
  Variable D : lang.
  Hypothesis G : good_encoding e D.
  Hypothesis HD : e_dot e = append_dot -> D = L_anybyte.
  Hypothesis HB : forall w, D w -> Forall byte w.
  Notation den := (re_den (e_to e) D).
  Notation at_front := (front (e_to e) D).

  Definition val_f (r : re) (gs : list bool) (v : value) : Prop := match v with VFsm f => greedy_front f -> at_front r gs | _ => True end.
  Lemma convert_f : forall r p gs v f, capturable e r -> val_m e D r p gs v -> val_f r gs v -> convert e v = Ok f -> caps f /\ (greedy_front f -> at_front r gs).
  Proof.
    intros r p gs v f Cr Hm Hf E. split.
    - destruct (convert_m e D G HD HB r p gs v Cr Hm) as [(f' & E' & X & _)|[E' _]]; rewrite E in E'; [apply ok_inj' in E'; subst f'; eapply within_captures; eauto|discriminate E'].
    - destruct v as [g|ss n| | |]; cbn [val_m] in Hm; try contradiction.
      + cbn [convert] in E. apply ok_inj' in E. subst g. exact Hf.
      + intros X. exfalso. revert X. apply calm_front, (convert_c e D G HD HB r p gs (VRange ss n) f Cr Hm I E).
      + intros X. exfalso. revert X. apply calm_front, (convert_c e D G HD HB r p gs VDot f Cr Hm I E).
  Qed.
  Lemma eval_m_front : forall r so p s v s', fits so r -> capturable e r -> regular r -> seeks s p -> eval_m e r s = Ok (v, s') -> val_f r (cm_flags s) v.
  Proof.
    induction r; intros so p s v s' F Cr R Sk E; cbn [capturable] in Cr; try contradiction.
    - injection E as <- _. exact I.
    - injection E as <- _. exact I.
    - cbn [fits] in F. destruct F as [_ F]. cbn [regular] in R. cbn [eval_m] in E. destruct (open_seeks s p Sk) as (p' & Sk').
      assert (Fl : cm_flags (cm_open s) = cm_flags s) by (unfold cm_open; repeat match goal with |- cm_flags (if ?b then _ else _) = _ => destruct b end; reflexivity).
      destruct (eval_m_ok e D G HD HB r _ _ _ F Cr Sk') as [(v1 & s1 & E1 & _ & (Rp & _) & _)|[E1 _]]; rewrite E1 in E; [|discriminate E]. cbn [bind] in E.
      pose proof (IHr _ _ _ _ _ F Cr R Sk' E1) as H1. pose proof (eval_m_lang e D G HD HB r _ _ _ _ _ F Cr R Sk' E1) as L1. rewrite Fl in H1. destruct v1 as [f| | | |]; try discriminate E. destruct L1 as (W & _). unfold cm_paren in E. rewrite Rp in E.
      destruct (_ && _)%bool; [injection E as <- _; cbn [val_f front]; intros X; apply front_group_inv in X; auto|]. destruct (_ && _)%bool; injection E as <- _; exact H1.
    - cbn [fits] in F. destruct F as [_ F]. destruct Cr as [Cr _]. cbn [regular] in R. destruct R as (R & C & N). cbn [eval_m] in E.
      destruct (eval_m_ok e D G HD HB r _ _ _ F Cr Sk) as [(v1 & s1 & E1 & Hv & _ & _ & Fl)|[E1 _]]; rewrite E1 in E; [|discriminate E]. cbn [bind] in E.
      pose proof (IHr _ _ _ _ _ F Cr R Sk E1) as H1. pose proof (eval_m_lang e D G HD HB r _ _ _ _ _ F Cr R Sk E1) as L1.
      destruct (convert e v1) as [f| | |] eqn:Ec; cbn [bind] in E; try discriminate E. destruct (convert_f _ _ _ _ _ Cr Hv H1 Ec) as [Cf Ff]. destruct (convert_l e D G _ _ _ Cr L1 Ec) as (W & L & V).
      destruct (repeat_w f lo hi W C) as (A1 & A2 & _ & _); [auto|]. destruct (like_repeat f lo hi Cf) as [_ Lk].
      unfold cm_paren, cm_count in E. cbn [cm_rep] in E. rewrite Fl, hd_skip in E. injection E as <- _. cbn [val_f front]. intros X. apply front_rep_inv in X as [X|[Eg X]]; [auto| |auto]. right. split; [exact Eg|].
      apply A2 in X. cbn [re_den]. destruct X as (n & X1 & X2 & X3). exists n. splits; auto. apply (pow_ext _ _ n L []); auto.
    - injection E as <- _. intros X. destruct (new_front X).
    - cbn [fits regular] in F, R. destruct F as (_ & F1 & F2). destruct R as (R1 & R2 & N). destruct Cr as [C1 C2]. cbn [eval_m] in E.
      destruct (eval_m_ok e D G HD HB r1 _ _ _ F1 C1 Sk) as [(va & s1 & E1 & Hva & Sk1 & _ & Fl)|[E1 _]]; rewrite E1 in E; [|discriminate E]. cbn [bind] in E.
      pose proof (IHr1 _ _ _ _ _ F1 C1 R1 Sk E1) as H1. pose proof (eval_m_lang e D G HD HB r1 _ _ _ _ _ F1 C1 R1 Sk E1) as L1.
      destruct (convert_m e D G HD HB _ _ _ _ C1 Hva) as [(a & Ea & Wa & Ua)|[Ea _]]; rewrite Ea in E; [|discriminate E]. cbn [bind] in E. destruct (convert_f _ _ _ _ _ C1 Hva H1 Ea) as [Ca Fa]. destruct (convert_l e D G _ _ _ C1 L1 Ea) as (_ & La & _).
      assert (U : uncompressed a). { apply Ua. destruct r1; auto; cbn [fits] in F1; [destruct F1 as [X|X]; discriminate X|destruct F1 as [X _]; discriminate X]. }
      destruct (caps_ok a Ca) as [W O].
      destruct (eval_m_ok e D G HD HB r2 _ _ _ F2 C2 Sk1) as [(v2 & s2 & E2 & Hv2 & _)|[E2 _]]; rewrite E2 in E; [|discriminate E]. cbn [bind] in E.
      pose proof (IHr2 _ _ _ _ _ F2 C2 R2 Sk1 E2) as H2. rewrite Fl in H2, Hv2.
      assert (CAT : forall b, convert e v2 = Ok b -> greedy_front (fsm_cat a b) -> at_front (RCat r1 r2) (cm_flags s)).
      { intros b Eb X. destruct (convert_f _ _ _ _ _ C2 Hv2 H2 Eb) as [Cb Fb]. destruct (caps_ok b Cb) as [Wb Ob]. cbn [front]. apply front_cat_inv in X as [X|[Y X]]; auto. right. split; auto. apply La, Y. }
      destruct v2 as [b|ss n| | |]; cbn [val_m] in Hv2; try contradiction.
      + cbn [convert bind] in E. injection E as <- _. exact (CAT b eq_refl).
      + destruct n.
        { destruct (convert e (VRange ss true)) as [b| | |] eqn:Eb; cbn [bind] in E; try discriminate E. injection E as <- _. exact (CAT b eq_refl). }
        destruct (append_range e a ss) as [g| | |] eqn:Eg; cbn [bind] in E; try discriminate E. injection E as <- _. cbn [val_f]. intros X. cbn [front]. left. apply Fa.
        unfold append_range in Eg. assert (P : forall s, In s (filter (fun s => match s with [] => false | _ => true end) (map (encode e) ss)) -> s <> [] /\ Forall byte s).
        { intros x Hs. apply filter_In in Hs. destruct Hs as [Hs Nx]. apply in_map_iff in Hs. destruct Hs as (y & <- & _). split; [intros Y; rewrite Y in Nx; discriminate Nx|]. apply encode_bytes, G. }
        destruct (filter _ _) as [|s0 strs]; [apply ok_inj' in Eg; subst g; exfalso; revert X; apply calm_front, bare_nobit; reflexivity|]. exact (front_strings_inv a _ g W U P Eg X).
      + subst r2. cbn [capturable] in C2. injection E as <- _. cbn [val_f front]. rewrite C2. intros X. left. apply Fa. apply front_dot_inv; auto.
    - cbn [fits regular] in F, R. destruct F as (_ & F1 & F2). destruct R as (R1 & R2). destruct Cr as [C1 C2]. cbn [eval_m] in E.
      destruct (eval_m_ok e D G HD HB r1 _ _ _ F1 C1 Sk) as [(va & s1 & E1 & Hva & Sk1 & _ & Fl)|[E1 _]]; rewrite E1 in E; [|discriminate E]. cbn [bind] in E.
      pose proof (IHr1 _ _ _ _ _ F1 C1 R1 Sk E1) as H1. destruct (convert e va) as [a| | |] eqn:Ea; cbn [bind] in E; try discriminate E. destruct (convert_f _ _ _ _ _ C1 Hva H1 Ea) as [Ca Fa].
      destruct (eval_m_ok e D G HD HB r2 _ _ _ F2 C2 Sk1) as [(v2 & s2 & E2 & Hv2 & _)|[E2 _]]; rewrite E2 in E; [|discriminate E]. cbn [bind] in E.
      pose proof (IHr2 _ _ _ _ _ F2 C2 R2 Sk1 E2) as H2. rewrite Fl in H2, Hv2. destruct (convert e v2) as [b| | |] eqn:Eb; cbn [bind] in E; try discriminate E. destruct (convert_f _ _ _ _ _ C2 Hv2 H2 Eb) as [Cb Fb].
      injection E as <- _. destruct (caps_ok a Ca), (caps_ok b Cb). cbn [val_f front]. intros X. apply front_or_inv in X as [X|X]; auto.
  Qed.
  Lemma compile_m_front : forall r pos gs f, fits Alternative r -> capturable e r -> regular r -> compile_m e pos gs r = Ok f -> greedy_front f -> at_front r gs.
  Proof.
    intros r pos gs f F Cr R E. unfold compile_m in E. assert (Sk : seeks (cm_new pos gs) pos) by (split; [reflexivity|left; split; reflexivity]).
    destruct (eval_m_ok e D G HD HB r _ _ _ F Cr Sk) as [(v & s & E1 & Hv & _)|[E1 _]]; rewrite E1 in E; [|discriminate E]. cbn [bind] in E.
    apply (convert_f r pos gs v f Cr Hv); auto. exact (eval_m_front r _ _ _ _ _ F Cr R Sk E1).
  Qed.
End ENC.

Theorem pattern_leftmost : forall e D w r pos gs f s t cl ans st, shipped e D -> derives Alternative w r -> capturable e r -> regular r -> ~ front (e_to e) D r gs ->
  compile_m e pos gs r = Ok f -> (N.of_nat (size f) + 2 <= two32)%N -> cap_compile (surround f) = Ok s -> is_word t -> (N.of_nat (length t) < nowhere)%N ->
  cap_run s t = Ok cl -> get_capture s cl = Ok (ans, Some st) ->
  exists u m v, t = u ++ strip m ++ v /\ mden (e_to e) D r pos gs m /\ g_begin st = mark_at u 0 m /\ g_end st = mark_at u 1 m /\
    forall u' x v', t = u' ++ x ++ v' -> re_den (e_to e) D r x -> length u <= length u'.
Proof.
  intros e D w r pos gs f s t cl ans st Sh Dr Cr R NF E Sz Es Ht Lt E1 E2. destruct (shipped_good e D Sh) as (G & HD & HB). apply derives_fits in Dr as [_ F].
  destruct (compile_m_ok e D G HD HB r pos gs F Cr) as [(f' & E' & (L & C & S) & U)|[E' _]]; rewrite E in E'; [|discriminate E']. apply ok_inj' in E'. subst f'.
  pose proof (compile_m_lang e D G HD HB r pos gs f F Cr R E) as Lf.
  destruct (captures_leftmost f L s t cl ans st C U (fun X => NF (compile_m_front e D G HD HB r pos gs f F Cr R E X)) Sz Es Ht Lt E1 E2) as (u & m & v & Et & Hm & Eb & Ee & Min). exists u, m, v. splits; auto.
  intros u' x v' Ex Hx. apply (Min u' x v' Ex). apply Lf, Hx.
Qed.
