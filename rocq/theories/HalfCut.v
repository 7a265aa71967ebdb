(** What cutting transitions off does to an automaton (half_final_fsm.cpp). *)
From Coq Require Import List Bool Arith NArith Lia.
From Verif Require Import Util Spec PartitionModel FsmModel DetermineModel MinimizeModel Nfa NfaOps FsmSem FsmBasics FsmOps FsmOps2 EpsProofs DetProofs CompProofs ScannerModel HalfModel HalfSpec.
Import ListNotations.
Local Opaque all_letters all_bytes.

(** ** Languages by the rows as they are *)
Definition rlang (f : fsm) : lang := fun w => exists q, path (raw f) (initial f) w q /\ In q (finals f).

Lemma sparse_lang : forall f, basic f -> isAlt f = false -> lang_eq (accepts (sparse f)) (rlang f).
Proof.
  intros f B A w. destruct (sparse_ok f B A) as (_ & _ & E). unfold accepts, rlang.
  change (initial (sparse f)) with (initial f). change (finals (sparse f)) with (finals f).
  split; intros (q & P & F); exists q; (split; [|exact F]); revert P; apply path_mono; intros; apply E; auto.
Qed.

Definition plain (f : fsm) : fsm := set_letters f part_empty.
Lemma plain_wf : forall f, basic f -> isAlt f = false -> wf (plain f).
Proof.
  intros f B A. constructor; try apply B.
  - apply uncompressed_letters. reflexivity.
  - apply uncompressed_coherent. reflexivity.
  - apply uncompressed_bcoherent. reflexivity.
  - intros H. change (isAlt f = true) in H. congruence.
Qed.
Lemma plain_lang : forall f, lang_eq (accepts (plain f)) (rlang f).
Proof.
  intros f w. unfold accepts, rlang. split; intros (q & P & F); exists q; (split; [|exact F]); revert P; apply path_mono; intros p c x H.
  - exact H.
  - exact H.
Qed.

Lemma prepend_plain : forall f, prepend_anything (plain f) = plain (prepend_anything f).
Proof.
  intros f. unfold prepend_anything, plain.
  assert (X : forall l s g, fold_left (fun g c => connect g s s c) l (set_letters g part_empty) =
    set_letters (fold_left (fun g c => connect g s s c) l g) part_empty).
  { induction l as [|c l IH]; intros s g; cbn [fold_left]; auto. rewrite <- IH. reflexivity. }
  change (resize_fsm (set_letters f part_empty) (size (set_letters f part_empty) + 1)) with (set_letters (resize_fsm f (size f + 1)) part_empty).
  change (size (set_letters f part_empty)) with (size f). rewrite X.
  generalize (fold_left (fun g c => connect g (size f) (size f) c) all_letters (resize_fsm f (size f + 1))). intros g. reflexivity.
Qed.
Lemma prepend_alt : forall f, isAlt (prepend_anything f) = false.
Proof.
  intros f. unfold prepend_anything. generalize (fold_left (fun g c => connect g (size f) (size f) c) all_letters (resize_fsm f (size f + 1))).
  intros g. reflexivity.
Qed.
Lemma prepend_rlang : forall f, basic f -> isAlt f = false ->
  basic (prepend_anything f) /\ lang_eq (rlang (prepend_anything f)) (L_cat L_any (rlang f)).
Proof.
  intros f B A. destruct (prepend_anything_ok (plain f) (plain_wf f B A)) as (W & _ & L). rewrite prepend_plain in W, L. split.
  - clear L. revert W. generalize (prepend_anything f). intros g []. constructor; auto.
  - clear W. revert L. generalize (prepend_anything f). intros g L.
    eapply lang_eq_trans; [apply lang_eq_sym, plain_lang|]. eapply lang_eq_trans; [exact L|].
    apply L_cat_ext; [apply lang_eq_refl|apply plain_lang].
Qed.

(** ** Cutting *)
Record cuts (f g : fsm) (T : nat -> N -> nat -> Prop) : Prop := {
  cu_size : size g = size f;
  cu_init : initial g = initial f;
  cu_fin : finals g = finals f;
  cu_sp : sparsed g = sparsed f;
  cu_det : determined g = determined f;
  cu_out : outputs g = outputs f;
  cu_tags : tags g = tags f;
  cu_alt : isAlt g = true -> isAlt f = true;
  cu_rows : rows_ok g;
  cu_pres : forall p c, pres g p c <-> pres f p c;
  cu_raw : forall p c q, raw g p c q <-> raw f p c q /\ ~ T p c q
}.
Lemma cuts_refl : forall f, rows_ok f -> cuts f f (fun _ _ _ => False).
Proof. intros. constructor; auto; tauto. Qed.
Lemma cuts_trans : forall f g h T U, cuts f g T -> cuts g h U -> cuts f h (fun p c q => T p c q \/ U p c q).
Proof.
  intros f g h T U A B. destruct A, B. constructor; try congruence; auto.
  - intros p c. rewrite cu_pres1. auto.
  - intros p c q. rewrite cu_raw1, cu_raw0. tauto.
Qed.
Lemma cuts_ext : forall f g T U, (forall p c q, raw f p c q -> (T p c q <-> U p c q)) -> cuts f g T -> cuts f g U.
Proof. intros f g T U X []. constructor; auto. intros p c q. rewrite cu_raw0. split; intros [A B]; split; auto; specialize (X p c q A); tauto. Qed.

Lemma disconnect_cuts : forall f a b c, rows_ok f -> cuts f (disconnect f a b c) (fun p c' q => p = a /\ c' = c /\ q = b).
Proof.
  intros f a b c W. destruct (disconnect_raw f a b c W) as (A & B & C & D & E & F). constructor; auto; [cbn; discriminate|].
  intros p c'. unfold pres, row_at, disconnect. cbn [trans clear_hints set_isAlt set_trans]. rewrite nth_upd.
  destruct (_ && _); [|tauto]. unfold row_disconnect. destruct (mfind c (nth p (trans f) [])) eqn:X; [|tauto].
  rewrite mfind_mset. destruct (keqb_spec c' c) as [->|]; [|tauto]. split; congruence.
Qed.
Lemma cut_list : forall q c ds f, rows_ok f ->
  cuts f (fold_left (fun g to => disconnect g q to c) ds f) (fun p c' x => p = q /\ c' = c /\ In x ds).
Proof.
  intros q c. induction ds as [|d ds IH]; intros f W; cbn [fold_left].
  - eapply cuts_ext; [|apply cuts_refl; auto]. intros p c' x _. cbn. tauto.
  - pose proof (disconnect_cuts f q d c W) as A. eapply cuts_ext; [|eapply cuts_trans; [exact A|apply IH; apply A]].
    intros p c' x _. cbn [In]. intuition auto.
Qed.
Lemma dests_plain : forall f x c y, sparsed f = false -> In y (destinations f x c) <-> raw f x c y.
Proof. intros f x c y H. unfold destinations, translate. rewrite H. reflexivity. Qed.
Definition cut_letter (q : nat) (g : fsm) (c : N) : fsm := fold_left (fun g to => disconnect g q to c) (destinations g q c) g.
Lemma cut_letters : forall q l f, rows_ok f -> sparsed f = false ->
  cuts f (fold_left (cut_letter q) l f) (fun p c x => p = q /\ In c l).
Proof.
  intros q. induction l as [|c l IH]; intros f W S; cbn [fold_left].
  - eapply cuts_ext; [|apply cuts_refl; auto]. intros p c' x _. cbn. tauto.
  - pose proof (cut_list q c (destinations f q c) f W) as A. fold (cut_letter q f c) in A.
    eapply cuts_ext; [|eapply cuts_trans; [exact A|apply IH; [apply A|rewrite (cu_sp _ _ _ A); auto]]].
    intros p c' x H. cbn [In]. split.
    + intros [(-> & -> & _)|[-> X]]; auto.
    + intros [-> [<-|X]]; auto. left. splits; auto. apply dests_plain; auto.
Qed.

(** ** DisconnectFinals, one state *)
Record keeps (f g : fsm) : Prop := {
  ke_size : size g = size f;
  ke_init : initial g = initial f;
  ke_fin : finals g = finals f;
  ke_sp : sparsed g = sparsed f;
  ke_out : outputs g = outputs f;
  ke_alt : isAlt g = true -> isAlt f = true;
  ke_rows : rows_ok g;
  ke_tags : forall q t, mfind q (tags g) = Some t -> t = 0%N \/ mfind q (tags f) = Some t
}.
Lemma keeps_trans : forall f g h, keeps f g -> keeps g h -> keeps f h.
Proof.
  intros f g h [] []. constructor; try congruence; auto.
  intros q t H. apply ke_tags1 in H as [H|H]; auto.
Qed.
Lemma cuts_keeps : forall f g T, cuts f g T -> keeps f g.
Proof. intros f g T []. constructor; auto. intros q t H. right. congruence. Qed.

Lemma tag_keeps : forall f q, rows_ok f -> keeps f (set_fsm_tag f q 0).
Proof.
  intros f q W. constructor; auto. intros x t. unfold set_fsm_tag. cbn [tags set_tags]. rewrite mfind_mset.
  destruct (keqb_spec x q) as [->|]; [|auto]. intros [= <-]. auto.
Qed.

(** The moves [detach] leaves at [q]. *)
Definition kept (intersects : bool) (f : fsm) (s : nat -> Prop) (E : nat -> N -> nat -> Prop) : nat -> N -> nat -> Prop :=
  fun p c x => (E p c x /\ ~ (In p (finals f) /\ s p)) \/ (intersects = false /\ In p (finals f) /\ s p /\ c = Epsilon /\ x = initial f).

Lemma detach_raw : forall i f q, rows_ok f -> sparsed f = false -> initial f < size f -> q < size f ->
  keeps f (detach i f q) /\ (forall p c x, raw (detach i f q) p c x <-> kept i f (fun p => p = q) (raw f) p c x).
Proof.
  intros i f q W S I Q. unfold detach, kept. pose proof (tag_keeps f q W) as K1. set (g1 := set_fsm_tag f q 0) in *.
  assert (R1 : forall p c x, raw g1 p c x <-> raw f p c x) by reflexivity.
  assert (F1 : is_final g1 q = is_final f q) by reflexivity.
  rewrite F1. destruct (is_final f q) eqn:F.
  2:{ split; [exact K1|]. intros p c x. rewrite R1. split.
      - intros H. left. split; auto. intros [A ->]. apply smem_in in A. unfold is_final in F. congruence.
      - intros [[H _]|(_ & A & -> & _)]; auto. apply smem_in in A. unfold is_final in F. congruence. }
  apply smem_in in F. pose proof (cut_letters q all_letters g1 (ke_rows _ _ K1) S) as A.
  unfold cut_letter in A. set (g2 := fold_left _ all_letters g1) in *. clearbody g2.
  pose proof (keeps_trans _ _ _ K1 (cuts_keeps _ _ _ A)) as K2.
  assert (R2 : forall p c x, raw g2 p c x <-> raw f p c x /\ ~ (In p (finals f) /\ p = q)).
  { intros p c x. rewrite (cu_raw _ _ _ A), R1. split; intros [H X]; split; auto.
    - intros [_ ->]. apply X. split; auto. apply all_letters_in. eapply raw_bound in H; eauto. tauto.
    - intros [-> _]. apply X. auto. }
  destruct i.
  - split; auto. intros p c x. rewrite R2. split; [auto|]. intros [H|[H _]]; [auto|discriminate H].
  - assert (C : adds g2 (connect g2 q (initial g2) Epsilon) (fun p c' x => p = q /\ c' = Epsilon /\ x = initial g2)).
    { apply connect_adds; rewrite ?(ke_size _ _ K2), ?(ke_init _ _ K2); auto. reflexivity. }
    rewrite (ke_init _ _ K2) in C |- *. set (g3 := connect g2 q (initial f) Epsilon) in *. clearbody g3. split.
    + apply (keeps_trans _ _ _ K2). destruct C. constructor; auto; try apply ad_rows; try apply K2. intros x t H. right. congruence.
    + intros p c x. rewrite (ad_raw _ _ _ C), R2. split.
      * intros [H|(-> & -> & ->)]; auto. right. auto.
      * intros [H|(_ & H & -> & -> & ->)]; auto.
Qed.
Lemma detach_all : forall i l f, rows_ok f -> sparsed f = false -> initial f < size f -> (forall q, In q l -> q < size f) -> NoDup l ->
  keeps f (fold_left (detach i) l f) /\
  (forall p c x, raw (fold_left (detach i) l f) p c x <-> kept i f (fun p => In p l) (raw f) p c x).
Proof.
  intros i. induction l as [|q l IH]; intros f W S I Q N; cbn [fold_left].
  - split; [constructor; auto|]. intros p c x. unfold kept. cbn [In]. tauto.
  - inversion N as [|? ? N1 N2]; subst. destruct (detach_raw i f q W S I) as [K R]; [apply Q; left; auto|].
    set (g := detach i f q) in *. clearbody g.
    destruct (IH g) as [K' R']; rewrite ?(ke_size _ _ K), ?(ke_init _ _ K), ?(ke_sp _ _ K); try apply K; auto.
    { intros y Hy. apply Q; right; auto. }
    split; [eapply keeps_trans; eauto|]. intros p c x. rewrite R'. unfold kept in *. rewrite (ke_fin _ _ K), (ke_init _ _ K), R. cbn [In].
    destruct (Nat.eq_dec p q) as [->|Hn]; [|intuition (subst; tauto || congruence)].
    split.
    + intros [[[[H1 H2]|H1] H3]|H]; tauto.
    + intros [[H1 H2]|H]; [left; split; [left; split; auto; tauto|tauto]|]. left. split; [|tauto]. right. tauto.
Qed.
