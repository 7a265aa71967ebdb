(** The building operations: they keep automata well-formed and have the expected language. *)
From Coq Require Import List Bool Arith NArith Lia.
From Verif Require Import Util Spec PartitionModel PartitionProofs FsmModel Nfa NfaOps FsmSem FsmBasics.
Import ListNotations.

Lemma accepts_nfa : forall f w, accepts f w <-> nfa_lang (edge f) (initial f) (fun q => In q (finals f)) w.
Proof. intros; reflexivity. Qed.

(** ** Constructors *)
Lemma fsm_new_wf : wf fsm_new.
Proof.
  constructor; cbn; auto.
  - intros q [<-|[]]; auto.
  - repeat constructor.
  - intros [|[|p]]; apply row_ok_nil.
  - apply wf_part_empty.
  - apply uncompressed_coherent; reflexivity.
  - apply uncompressed_bcoherent; reflexivity.
  - intros H; discriminate H.
Qed.

Lemma fsm_new_raw : forall p c q, ~ raw fsm_new p c q.
Proof. intros [|[|p]] c q []. Qed.

Lemma no_edges_path : forall (E : nat -> N -> nat -> Prop), (forall p c q, ~ E p c q) ->
  forall p w q, path E p w q -> w = [] /\ p = q.
Proof. intros E H p w q P; destruct P; auto; exfalso; eapply H; eauto. Qed.

Lemma fsm_new_lang : lang_eq (accepts fsm_new) L_eps.
Proof.
  intros w; split.
  - intros [q [H _]]. apply no_edges_path in H; [tauto|]. intros p c q' E. eapply fsm_new_raw, E.
  - intros ->. exists 0; split; [apply path_nil|left; auto].
Qed.

Lemma make_false_wf : wf make_false.
Proof.
  constructor; cbn; auto; try tauto.
  - constructor.
  - intros [|[|p]]; apply row_ok_nil.
  - apply wf_part_empty.
  - apply uncompressed_coherent; reflexivity.
  - apply uncompressed_bcoherent; reflexivity.
  - intros H; discriminate H.
Qed.
Lemma make_false_lang : lang_eq (accepts make_false) L_none.
Proof. intros w; split; [intros [q [_ []]]|intros []]. Qed.

(** ** Appending a fresh final state *)
Record appended (f g : fsm) (C D : N -> Prop) : Prop := {
  ap_size : size g = S (size f);
  ap_init : initial g = initial f;
  ap_fin : finals g = [size f];
  ap_let : letters g = letters f;
  ap_alt : isAlt g = false;
  ap_det : determined g = false;
  ap_raw : forall p c q, raw g p c q <->
    raw f p c q \/ (In p (finals f) /\ C c /\ q = size f) \/ (p = size f /\ q = size f /\ D c);
  ap_pres : forall p c, pres g p c <->
    pres f p c \/ (In p (finals f) /\ C c) \/ (p = size f /\ D c);
  ap_rows : rows_ok g
}.

Lemma appended_edge : forall f g C D, appended f g C D -> forall p c q, edge g p c q <->
  edge f p c q \/ (In p (finals f) /\ C (erep f c) /\ q = size f) \/ (p = size f /\ q = size f /\ D (erep f c)).
Proof.
  intros f g C D A p c q. rewrite !edge_raw, (erep_let g f) by apply A. apply A.
Qed.

(** Well-formedness: either nothing is compressed, or only epsilons enter the new state and
    its loops are class-invariant. *)
Lemma appended_wf : forall f g C D, wf f -> appended f g C D ->
  (uncompressed f \/ ((forall c, C c -> c = Epsilon) /\
                      (forall c r, part_rep (letters f) c = Some r -> (D c <-> D r)))) -> wf g.
Proof.
  intros f g C D W A H. assert (WP : wf_part (letters g)) by (rewrite (ap_let _ _ _ _ A); apply W).
  constructor; auto.
  - rewrite (ap_size _ _ _ _ A), (ap_init _ _ _ _ A). pose proof (wf_init _ W); lia.
  - rewrite (ap_size _ _ _ _ A), (ap_fin _ _ _ _ A). intros q [<-|[]]; lia.
  - rewrite (ap_fin _ _ _ _ A). repeat constructor.
  - apply A.
  - destruct H as [H|[HC HD]]; [apply uncompressed_coherent; unfold uncompressed; rewrite (ap_let _ _ _ _ A); auto|].
    intros p c r Hr Hp q. rewrite (ap_let _ _ _ _ A) in Hr.
    destruct (part_rep_not_eps _ _ _ (wf_letters _ W) Hr) as [N1 N2].
    rewrite !(ap_raw _ _ _ _ A).
    assert (HX : raw f p c q <-> raw f p r q).
    { apply (ap_pres _ _ _ _ A) in Hp as [Hp|[[_ Hp]|[-> Hp]]].
      - apply (wf_coh _ W p c r Hr Hp).
      - apply HC in Hp; congruence.
      - split; intros X; apply raw_bound in X; try apply W; lia. }
    rewrite HX, (HD c r Hr). split; intros [X|[[X [Y Z]]|X]]; auto; apply HC in Y; congruence.
  - destruct H as [H|[HC HD]]; [apply uncompressed_bcoherent; unfold uncompressed; rewrite (ap_let _ _ _ _ A); auto|].
    intros q c r Hr [p0 Hp] p. rewrite (ap_let _ _ _ _ A) in Hr.
    destruct (part_rep_not_eps _ _ _ (wf_letters _ W) Hr) as [N1 N2].
    rewrite !(ap_raw _ _ _ _ A).
    assert (HX : raw f p c q <-> raw f p r q).
    { apply (ap_raw _ _ _ _ A) in Hp as [Hp|[[_ [Hp _]]|[-> [-> Hp]]]].
      - apply (wf_bcoh _ W q c r Hr (ex_intro _ p0 Hp)).
      - apply HC in Hp; congruence.
      - split; intros X; apply raw_bound in X; try apply W; lia. }
    rewrite HX, (HD c r Hr). split; intros [X|[[X [Y Z]]|X]]; auto; apply HC in Y; congruence.
  - intros Ha. rewrite (ap_alt _ _ _ _ A) in Ha. discriminate.
Qed.

Lemma appended_lang : forall f g C D, wf f -> appended f g C D ->
  forall w, accepts g w <->
    exists u x v, w = u ++ x ++ v /\ accepts f u /\
      ((C Epsilon /\ x = []) \/ exists c, c <> Epsilon /\ C (erep f c) /\ x = [c]) /\
      Forall (fun c => D (erep f c) /\ c <> Epsilon) v.
Proof.
  intros f g C D W A w. rewrite accepts_nfa, (ap_init _ _ _ _ A), (ap_fin _ _ _ _ A).
  assert (X : nfa_lang (edge g) (initial f) (fun q => In q [size f]) w <-> nfa_lang (edge g) (initial f) (fun q => q = size f) w).
  { split; intros [q [H1 H2]]; exists q; split; auto; cbn in *; intuition. }
  rewrite X. rewrite (nfa_extend (edge f) (edge g) (size f) (initial f) (fun q => In q (finals f))
    (fun c => C (erep f c)) (fun c => D (erep f c))).
  - rewrite erep_Epsilon by apply W. reflexivity.
  - intros p c q H. eapply edge_bound; eauto.
  - apply W.
  - apply W.
  - apply appended_edge; auto.
Qed.

Lemma set_final_new : forall (q : nat), sadd q [] = [q].
Proof. reflexivity. Qed.

Lemma row_at_set_finals : forall f x p, row_at (set_finals f x) p = row_at f p.
Proof. reflexivity. Qed.

(** closing step shared by Append, AppendSpecial and AppendDot *)
Lemma appended_close : forall f g C, wf f ->
  adds (resize_fsm f (size f + 1)) g (fun p c q => In p (finals f) /\ C c /\ q = size f) ->
  isAlt g = false ->
  appended f (set_determined (set_final (clear_final g) (size g - 1) true) false) C (fun _ => False).
Proof.
  intros f g C W A Ha.
  assert (Es : size g = size f + 1) by (rewrite (ad_size _ _ _ A); apply size_resize).
  constructor.
  - change (size g = S (size f)). lia.
  - cbn. rewrite (ad_init _ _ _ A). reflexivity.
  - cbn. f_equal. lia.
  - cbn. rewrite (ad_let _ _ _ A). reflexivity.
  - exact Ha.
  - reflexivity.
  - intros p c q. etransitivity; [apply (ad_raw _ _ _ A p c q)|]. rewrite raw_resize by lia. tauto.
  - intros p c. etransitivity; [apply (ad_pres _ _ _ A p c)|]. rewrite pres_resize by lia.
    split.
    + intros [H|[q [H1 [H2 H3]]]]; auto.
    + intros [H|[[H1 H2]|[_ []]]]; eauto.
  - apply (ad_rows _ _ _ A). apply rows_ok_resize; [lia|apply W].
Qed.

Lemma append_special_appended : forall f c, wf f -> (c < MaxChar)%N ->
  appended f (append_special f c) (fun x => x = c) (fun _ => False).
Proof.
  intros f c W Hc. unfold append_special. apply appended_close; auto.
  eapply adds_ext; [apply connect_final_adds|].
  - intros q Hq. rewrite size_resize. apply (wf_fin _ W) in Hq. lia.
  - rewrite size_resize; lia.
  - auto.
  - intros p c' q. rewrite size_resize. replace (size f + 1 - 1) with (size f) by lia. reflexivity.
Qed.

Lemma append_special_wf : forall f c, wf f -> uncompressed f -> (c < MaxChar)%N ->
  wf (append_special f c) /\ uncompressed (append_special f c).
Proof.
  intros f c W U Hc. pose proof (append_special_appended f c W Hc) as A. split.
  - eapply appended_wf; eauto.
  - unfold uncompressed. rewrite (ap_let _ _ _ _ A); auto.
Qed.

Lemma append_special_lang : forall f c, wf f -> uncompressed f -> letter c ->
  lang_eq (accepts (append_special f c)) (L_cat (accepts f) (L_letter c)).
Proof.
  intros f c W U [Hc He] w. rewrite (appended_lang _ _ _ _ W (append_special_appended f c W Hc)). split.
  - intros [u [x [v [-> [A [B D]]]]]]. assert (v = []) by (destruct D as [|? ? []]; [auto|tauto]). subst v.
    rewrite app_nil_r. exists u, x. repeat split; auto. destruct B as [[B _]|[c' [B1 [B2 ->]]]]; [congruence|].
    rewrite erep_empty in B2 by auto. subst; reflexivity.
  - intros [u [x [-> [A B]]]]. unfold L_letter in B; subst x. exists u, [c], []. rewrite app_nil_r.
    repeat split; auto. right. exists c. rewrite erep_empty by auto. auto.
Qed.

Lemma append_string_ok : forall s f, wf f -> uncompressed f -> Forall letter s ->
  wf (append_string f s) /\ uncompressed (append_string f s) /\
  lang_eq (accepts (append_string f s)) (L_cat (accepts f) (L_word s)).
Proof.
  unfold append_string. induction s as [|c s IH]; intros f W U H; cbn [fold_left].
  - split; [auto|split; [auto|]]. apply lang_eq_sym, L_cat_eps_r.
  - inversion H; subst. destruct (append_special_wf f c W U) as [W' U']; [apply H2|].
    destruct (IH _ W' U' H3) as [A [B C]]. split; [auto|split; [auto|]].
    eapply lang_eq_trans; [exact C|]. eapply lang_eq_trans; [apply L_cat_ext; [apply append_special_lang; auto|apply lang_eq_refl]|].
    eapply lang_eq_trans; [apply L_cat_assoc|]. apply L_cat_ext; [apply lang_eq_refl|].
    intros v. unfold L_cat, L_letter, L_word. split.
    + intros [x [y [-> [-> ->]]]]. reflexivity.
    + intros ->. exists [c], s. auto.
Qed.

Lemma all_bytes_in : forall c, In c all_bytes <-> (c < 256)%N.
Proof.
  intros c. unfold all_bytes. rewrite in_map_iff. split.
  - intros [n [<- H]]. apply in_seq in H. lia.
  - intros H. exists (N.to_nat c). rewrite N2Nat.id. split; auto. apply in_seq. lia.
Qed.
Lemma all_letters_in : forall c, In c all_letters <-> (c < MaxChar)%N.
Proof.
  intros c. unfold all_letters, MaxChar. rewrite in_map_iff. split.
  - intros [n [<- H]]. apply in_seq in H. lia.
  - intros H. exists (N.to_nat c). rewrite N2Nat.id. split; auto. apply in_seq. lia.
Qed.
Lemma all_letters_NoDup : NoDup all_letters.
Proof. unfold all_letters. apply FinFun.Injective_map_NoDup; [intros x y; apply Nat2N.inj|apply seq_NoDup]. Qed.

Lemma append_dot_appended : forall f, wf f ->
  appended f (append_dot f) (fun c => byte c) (fun _ => False).
Proof.
  intros f W. unfold append_dot. apply appended_close; [auto| |reflexivity].
  - eapply adds_ext.
    + apply adds_fold with (S := fun c p c' q => In p (finals f) /\ c' = c /\ q = size f).
      intros g c T Hc A.
      assert (Es : size g = size f + 1) by (rewrite (ad_size _ _ _ A); apply size_resize).
      assert (Ef : finals g = finals f) by (rewrite (ad_fin _ _ _ A); reflexivity).
      eapply adds_ext; [apply connect_final_adds|].
      * rewrite Ef, Es. intros q Hq. apply (wf_fin _ W) in Hq; lia.
      * lia.
      * apply all_bytes_in in Hc. unfold MaxChar; lia.
      * cbn. intros p c' q. rewrite Ef, Es. replace (size f + 1 - 1) with (size f) by lia. tauto.
    + cbn beta. intros p c q. unfold byte. split.
      * intros [x [H1 [H2 [-> H3]]]]. apply all_bytes_in in H1. auto.
      * intros [H1 [H2 H3]]. exists c. rewrite all_bytes_in. auto.
Qed.

Lemma append_dot_ok : forall f, wf f -> uncompressed f ->
  wf (append_dot f) /\ uncompressed (append_dot f) /\
  lang_eq (accepts (append_dot f)) (L_cat (accepts f) L_anybyte).
Proof.
  intros f W U. pose proof (append_dot_appended f W) as A. split; [eapply appended_wf; eauto|].
  split; [unfold uncompressed; rewrite (ap_let _ _ _ _ A); auto|].
  intros w. rewrite (appended_lang _ _ _ _ W A). split.
  - intros [u [x [v [-> [H [B D]]]]]]. assert (v = []) by (destruct D as [|? ? []]; [auto|tauto]). subst v.
    rewrite app_nil_r. exists u, x. repeat split; auto. destruct B as [[B _]|[c' [B1 [B2 ->]]]]; [discriminate B|].
    rewrite erep_empty in B2 by auto. exists c'; auto.
  - intros [u [x [-> [H [c [B ->]]]]]]. exists u, [c], []. rewrite app_nil_r.
    repeat split; auto. right. exists c. rewrite erep_empty by auto. repeat split; auto.
    intros ->. discriminate B.
Qed.

(** ** AppendAnything, PrependAnything, Surround *)
Lemma loops_adds : forall f s, s < size f ->
  adds f (fold_left (fun g c => connect g s s c) all_letters f) (fun p c q => p = s /\ q = s /\ (c < MaxChar)%N).
Proof.
  intros f s Hs. eapply adds_ext.
  - apply adds_fold with (S := fun c p c' q => p = s /\ c' = c /\ q = s).
    intros g c T Hc A. apply all_letters_in in Hc. apply connect_adds; rewrite ?(ad_size _ _ _ A); auto.
  - cbn beta. intros p c q. split.
    + intros [x [H [-> [-> ->]]]]. apply all_letters_in in H. auto.
    + intros [-> [-> H]]. exists c. rewrite all_letters_in. auto.
Qed.

Lemma append_anything_appended : forall f, wf f ->
  appended f (append_anything f) (fun c => c = Epsilon) (fun c => (c < MaxChar)%N).
Proof.
  intros f W. unfold append_anything.
  set (f1 := resize_fsm f (size f + 1)).
  assert (E1 : size f1 = size f + 1) by apply size_resize.
  pose proof (loops_adds f1 (size f)) as A. 
  assert (A1 := A ltac:(lia)). clear A.
  set (f2 := fold_left _ _ _) in *.
  assert (E2 : size f2 = size f + 1) by (rewrite (ad_size _ _ _ A1); auto).
  assert (F2 : finals f2 = finals f) by (rewrite (ad_fin _ _ _ A1); auto).
  assert (A2 : adds f2 (connect_final f2 (size f) Epsilon) (fun p c q => In p (finals f) /\ c = Epsilon /\ q = size f)).
  { eapply adds_ext; [apply connect_final_adds|].
    - rewrite F2, E2. intros q Hq; apply (wf_fin _ W) in Hq; lia.
    - lia.
    - reflexivity.
    - cbn beta. rewrite F2. tauto. }
  pose proof (adds_trans _ _ _ _ _ A1 A2) as A3. cbn beta in A3.
  set (g := connect_final f2 (size f) Epsilon) in *.
  constructor.
  - change (size g = S (size f)). rewrite (ad_size _ _ _ A3), E1. lia.
  - change (initial g = initial f). rewrite (ad_init _ _ _ A3). reflexivity.
  - reflexivity.
  - change (letters g = letters f). rewrite (ad_let _ _ _ A3). reflexivity.
  - reflexivity.
  - reflexivity.
  - intros p c q. etransitivity; [apply (ad_raw _ _ _ A3 p c q)|]. unfold f1. rewrite raw_resize by lia. tauto.
  - intros p c. etransitivity; [apply (ad_pres _ _ _ A3 p c)|]. unfold f1. rewrite pres_resize by lia.
    split.
    + intros [H|[q [[H1 [H2 H3]]|[H1 [H2 H3]]]]]; auto.
    + intros [H|[[H1 H2]|[H1 H2]]]; auto; right; exists (size f); auto.
  - apply (ad_rows _ _ _ A3). apply rows_ok_resize; [lia|apply W].
Qed.

Lemma range_class : forall p c r, wf_part p -> part_rep p c = Some r -> ((c < MaxChar)%N <-> (r < MaxChar)%N).
Proof.
  intros p c r W H. pose proof (part_rep_rep _ _ _ W H) as H'. apply (wp_range _ W) in H, H'. tauto.
Qed.

Lemma erep_range : forall f c, wf f -> ((erep f c < MaxChar)%N <-> (c < MaxChar)%N).
Proof.
  intros f c W. unfold erep. destruct (part_rep (letters f) c) eqn:E; [|tauto].
  symmetry. eapply range_class; eauto. apply W.
Qed.

Lemma append_anything_ok : forall f, wf f ->
  wf (append_anything f) /\ (uncompressed f -> uncompressed (append_anything f)) /\
  lang_eq (accepts (append_anything f)) (L_cat (accepts f) L_any).
Proof.
  intros f W. pose proof (append_anything_appended f W) as A. split.
  - eapply appended_wf; eauto. right. split; auto. intros c r H. eapply range_class; eauto. apply W.
  - split; [unfold uncompressed; rewrite (ap_let _ _ _ _ A); auto|].
    intros w. rewrite (appended_lang _ _ _ _ W A).
    assert (X : forall v, Forall (fun c => (erep f c < MaxChar)%N /\ c <> Epsilon) v <-> is_word v).
    { intros v. unfold is_word, letter. rewrite !Forall_forall. split; intros H c Hc; specialize (H c Hc);
        rewrite erep_range in * by auto; auto. }
    split.
    + intros [u [x [v [-> [H [B D]]]]]]. apply X in D.
      destruct B as [[B ->]|[c' [B1 [B2 ->]]]].
      * exists u, v. auto.
      * exfalso. apply B1. unfold erep in B2. destruct (part_rep (letters f) c') eqn:E; auto.
        apply part_rep_not_eps in E; [tauto|apply W].
    + intros [u [v [-> [H D]]]]. exists u, [], v. split; [reflexivity|]. split; auto. split; auto. apply X; auto.
Qed.

Lemma prepend_anything_ok : forall f, wf f ->
  wf (prepend_anything f) /\ (uncompressed f -> uncompressed (prepend_anything f)) /\
  lang_eq (accepts (prepend_anything f)) (L_cat L_any (accepts f)).
Proof.
  intros f W. unfold prepend_anything.
  set (f1 := resize_fsm f (size f + 1)).
  assert (E1 : size f1 = size f + 1) by apply size_resize.
  pose proof (loops_adds f1 (size f)) as A. 
  assert (A1 := A ltac:(lia)). clear A.
  set (f2 := fold_left _ _ _) in *.
  assert (E2 : size f2 = size f + 1) by (rewrite (ad_size _ _ _ A1); auto).
  assert (I2 : initial f2 = initial f) by (rewrite (ad_init _ _ _ A1); auto).
  rewrite I2. pose proof (wf_init _ W) as WI.
  assert (A2 : adds f2 (connect f2 (size f) (initial f) Epsilon) (fun p c q => p = size f /\ c = Epsilon /\ q = initial f)).
  { apply connect_adds; try lia. reflexivity. }
  pose proof (adds_trans _ _ _ _ _ A1 A2) as A3. cbn beta in A3.
  set (g := connect f2 (size f) (initial f) Epsilon) in *.
  set (h := set_determined (set_initial g (size f)) false).
  assert (Lh : letters h = letters f) by (change (letters g = letters f); rewrite (ad_let _ _ _ A3); reflexivity).
  assert (Fh : finals h = finals f) by (change (finals g = finals f); rewrite (ad_fin _ _ _ A3); reflexivity).
  assert (Rh : forall p c q, raw h p c q <-> raw f p c q \/ (p = size f /\ q = size f /\ (c < MaxChar)%N) \/ (p = size f /\ c = Epsilon /\ q = initial f)).
  { intros p c q. etransitivity; [apply (ad_raw _ _ _ A3 p c q)|]. unfold f1. rewrite raw_resize by lia. tauto. }
  assert (Ph : forall p c, pres h p c <-> pres f p c \/ (p = size f /\ (c < MaxChar)%N)).
  { intros p c. etransitivity; [apply (ad_pres _ _ _ A3 p c)|]. unfold f1. rewrite pres_resize by lia.
    split.
    - intros [H|[q [[H1 [H2 H3]]|[H1 [-> H3]]]]]; auto. right; split; auto. reflexivity.
    - intros [H|[H1 H2]]; auto. right; exists (size f); auto. }
  assert (Sh : size h = size f + 1) by (change (size g = size f + 1); rewrite (ad_size _ _ _ A3); auto).
  assert (Hbig : forall c q, ~ raw f (size f) c q) by (intros c q H; apply raw_bound in H; [lia|apply W]).
  assert (Hbig' : forall c p, ~ raw f p c (size f)) by (intros c q H; apply raw_bound in H; [lia|apply W]).
  assert (Wh : wf h).
  { constructor.
    - change (size f < size h). lia.
    - rewrite Fh, Sh. intros q Hq. apply (wf_fin _ W) in Hq. lia.
    - rewrite Fh. apply W.
    - change (rows_ok g). apply (ad_rows _ _ _ A3). apply rows_ok_resize; [lia|apply W].
    - rewrite Lh; apply W.
    - intros p c r Hr Hp q. rewrite Lh in Hr.
      destruct (part_rep_not_eps _ _ _ (wf_letters _ W) Hr) as [N1 N2].
      pose proof (range_class _ _ _ (wf_letters _ W) Hr) as RC.
      assert (HX : raw f p c q <-> raw f p r q).
      { apply Ph in Hp as [Hp|[-> Hp]].
        - apply (wf_coh _ W p c r Hr Hp).
        - split; intros X; exfalso; eapply Hbig; eauto. }
      rewrite !Rh, HX, RC. intuition congruence.
    - intros q c r Hr [p0 Hp] p. rewrite Lh in Hr.
      destruct (part_rep_not_eps _ _ _ (wf_letters _ W) Hr) as [N1 N2].
      pose proof (range_class _ _ _ (wf_letters _ W) Hr) as RC.
      assert (HX : raw f p c q <-> raw f p r q).
      { apply Rh in Hp as [Hp|[[-> [-> Hp]]|[_ [-> _]]]].
        - apply (wf_bcoh _ W q c r Hr (ex_intro _ p0 Hp)).
        - split; intros X; exfalso; eapply Hbig'; eauto.
        - congruence. }
      rewrite !Rh, HX, RC. intuition congruence.
    - intros X; discriminate X. }
  split; [exact Wh|]. split; [unfold uncompressed; rewrite Lh; auto|].
  intros w. rewrite accepts_nfa, Fh. change (initial h) with (size f).
  rewrite (nfa_prepend (edge f) (edge h) (size f) (initial f) (fun q => In q (finals f)) (fun c => (c < MaxChar)%N)).
  - assert (X : forall v, Forall (fun c => (c < MaxChar)%N /\ c <> Epsilon) v <-> is_word v) by reflexivity.
    split.
    + intros [u [v [-> [A B]]]]. exists u, v. auto.
    + intros [u [v [-> [A B]]]]. exists u, v. auto.
  - intros p c q H. eapply edge_bound; eauto.
  - apply W.
  - apply W.
  - intros p c q. rewrite !edge_raw, (erep_let h f) by apply Lh. rewrite Rh, erep_range by auto.
    assert (X : erep f c = Epsilon <-> c = Epsilon).
    { unfold erep. destruct (part_rep (letters f) c) eqn:E; [|tauto].
      apply part_rep_not_eps in E; [tauto|apply W]. }
    rewrite X. tauto.
Qed.

Lemma surround_ok : forall f, wf f ->
  wf (surround f) /\ (uncompressed f -> uncompressed (surround f)) /\
  lang_eq (accepts (surround f)) (L_cat L_any (L_cat (accepts f) L_any)).
Proof.
  intros f W. unfold surround. destruct (prepend_anything_ok f W) as [W1 [U1 H1]].
  destruct (append_anything_ok _ W1) as [W2 [U2 H2]]. split; auto. split; auto.
  eapply lang_eq_trans; [exact H2|]. eapply lang_eq_trans; [apply L_cat_ext; [exact H1|apply lang_eq_refl]|].
  apply L_cat_assoc.
Qed.

(** ** Iterate *)
Lemma iterate_ok : forall f, wf f ->
  wf (iterate f) /\ (uncompressed f -> uncompressed (iterate f)) /\
  lang_eq (accepts (iterate f)) (L_star (accepts f)).
Proof.
  intros f W. unfold iterate. pose proof (wf_init _ W) as WI.
  set (f1 := resize_fsm f (size f + 2)).
  assert (E1 : size f1 = size f + 2) by apply size_resize. rewrite E1.
  replace (size f + 2 - 2) with (size f) by lia. replace (size f + 2 - 1) with (size f + 1) by lia.
  assert (A1 : adds f1 (connect f1 (size f) (size f + 1) Epsilon) (fun p c q => p = size f /\ c = Epsilon /\ q = size f + 1))
    by (apply connect_adds; try lia; reflexivity).
  set (f2 := connect f1 _ _ _) in *.
  assert (I2 : initial f2 = initial f) by reflexivity. rewrite I2.
  assert (E2 : size f2 = size f + 2) by (rewrite (ad_size _ _ _ A1); auto).
  assert (A2 : adds f2 (connect f2 (size f) (initial f) Epsilon) (fun p c q => p = size f /\ c = Epsilon /\ q = initial f))
    by (apply connect_adds; try lia; reflexivity).
  set (f3 := connect f2 _ _ _) in *.
  assert (I3 : initial f3 = initial f) by reflexivity. rewrite I3.
  assert (E3 : size f3 = size f + 2) by (rewrite (ad_size _ _ _ A2); auto).
  assert (F3 : finals f3 = finals f) by reflexivity.
  assert (A3 : adds f3 (connect_final f3 (initial f) Epsilon) (fun p c q => In p (finals f) /\ c = Epsilon /\ q = initial f)).
  { rewrite <- F3. apply connect_final_adds; try lia; try reflexivity. rewrite F3, E3. intros q Hq; apply (wf_fin _ W) in Hq; lia. }
  set (f4 := connect_final f3 _ _) in *.
  assert (E4 : size f4 = size f + 2) by (rewrite (ad_size _ _ _ A3); auto).
  assert (F4 : finals f4 = finals f) by (rewrite (ad_fin _ _ _ A3); auto).
  assert (A4 : adds f4 (connect_final f4 (size f + 1) Epsilon) (fun p c q => In p (finals f) /\ c = Epsilon /\ q = size f + 1)).
  { rewrite <- F4. apply connect_final_adds; try lia; try reflexivity. rewrite F4, E4. intros q Hq; apply (wf_fin _ W) in Hq; lia. }
  pose proof (adds_trans _ _ _ _ _ (adds_trans _ _ _ _ _ (adds_trans _ _ _ _ _ A1 A2) A3) A4) as A. cbn beta in A.
  clearbody f4. clear A1 A2 A3 A4.
  set (f5 := connect_final f4 _ _) in *.
  assert (Ef1 : forall p c q, raw f1 p c q <-> raw f p c q) by (intros; apply raw_resize; lia).
  assert (Cf1 : coherent f1).
  { intros p c r Hr Hp q. rewrite !Ef1. unfold f1 in Hp. rewrite pres_resize in Hp by lia. apply (wf_coh _ W p c r Hr Hp). }
  assert (Bf1 : bcoherent f1).
  { intros q c r Hr [p0 Hp] p. rewrite !Ef1. rewrite Ef1 in Hp. apply (wf_bcoh _ W q c r Hr). eauto. }
  set (h := set_determined _ false).
  assert (Lh : letters h = letters f) by (change (letters f5 = letters f); rewrite (ad_let _ _ _ A); reflexivity).
  assert (Sh : size h = size f + 2) by (change (size f5 = size f + 2); rewrite (ad_size _ _ _ A); auto).
  split; [constructor|split].
  - change (size f < size h). lia.
  - change (finals h) with [size f + 1]. rewrite Sh. intros q [<-|[]]. lia.
  - change (finals h) with [size f + 1]. repeat constructor.
  - change (rows_ok f5). apply (ad_rows _ _ _ A). apply rows_ok_resize; [lia|apply W].
  - rewrite Lh; apply W.
  - change (coherent f5). eapply adds_eps_coherent; [exact A|apply W|exact Cf1|]. cbn. intuition.
  - change (bcoherent f5). eapply adds_eps_bcoherent; [exact A|apply W|exact Bf1|]. cbn. intuition.
  - intros X; discriminate X.
  - unfold uncompressed; rewrite Lh; auto.
  - eapply lang_eq_trans; [|apply (nfa_star (edge f) (edge h) (size f) (size f) (size f + 1) (initial f) (fun q => In q (finals f)))]; try lia.
    + intros w. rewrite accepts_nfa. change (initial h) with (size f). change (finals h) with [size f + 1].
      split; intros [q [P Q]]; exists q; split; auto; cbn in *; intuition.
    + intros p c q H. eapply edge_bound; eauto.
    + apply W.
    + intros p c q. rewrite !edge_raw, (erep_let h f) by apply Lh.
      etransitivity; [apply (ad_raw _ _ _ A)|]. rewrite Ef1.
      assert (X : erep f c = Epsilon <-> c = Epsilon).
      { unfold erep. destruct (part_rep (letters f) c) eqn:E; [|tauto].
        apply part_rep_not_eps in E; [tauto|apply W]. }
      rewrite X. intuition.
Qed.
