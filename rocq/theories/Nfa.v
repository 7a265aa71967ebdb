(** Paths in letter-labelled graphs with epsilon edges, and the facts about them that do
    not depend on the model of the code. *)
From Coq Require Import List Bool Arith NArith Lia.
From Verif Require Import Spec.
Import ListNotations.

Section Path.
  Variable E : nat -> N -> nat -> Prop.

  (** [path p w q]: from p one can reach q reading exactly the letters of w *)
  Inductive path : nat -> word -> nat -> Prop :=
  | path_nil : forall p, path p [] p
  | path_eps : forall p q w r, E p Epsilon q -> path q w r -> path p w r
  | path_step : forall p c q w r, c <> Epsilon -> E p c q -> path q w r -> path p (c :: w) r.

  Lemma path_app : forall p u q v r, path p u q -> path q v r -> path p (u ++ v) r.
  Proof.
    intros p u q v r H; revert v r; induction H; intros v' r' H'; cbn; auto.
    - eapply path_eps; eauto.
    - eapply path_step; eauto.
  Qed.

  Lemma path_eps1 : forall p q, E p Epsilon q -> path p [] q.
  Proof. intros. eapply path_eps; eauto using path_nil. Qed.
  Lemma path_step1 : forall p c q, c <> Epsilon -> E p c q -> path p [c] q.
  Proof. intros. eapply path_step; eauto using path_nil. Qed.

  Lemma path_split : forall u p v r, path p (u ++ v) r -> exists q, path p u q /\ path q v r.
  Proof.
    intros u p v r H. remember (u ++ v) as w eqn:Ew. revert u v Ew.
    induction H as [p|p q w r He H IH|p c q w r Hc He H IH]; intros u v Ew.
    - symmetry in Ew; apply app_eq_nil in Ew as [-> ->]. eauto using path_nil.
    - destruct (IH _ _ Ew) as [s [H1 H2]]. exists s; split; auto. eapply path_eps; eauto.
    - destruct u as [|x u]; cbn in Ew.
      + exists p. split; [apply path_nil|]. subst v. eapply path_step; eauto.
      + injection Ew as -> ->. destruct (IH u v eq_refl) as [s [H1 H2]].
        exists s; split; auto. eapply path_step; eauto.
  Qed.

  Lemma path_inv : forall p w q, path p w q ->
    (w = [] /\ q = p) \/ (exists m, E p Epsilon m /\ path m w q) \/
    (exists c m w', w = c :: w' /\ c <> Epsilon /\ E p c m /\ path m w' q).
  Proof. intros p w q H; destruct H; eauto 10. Qed.

  Lemma path_word : forall p w q, path p w q -> Forall (fun c => c <> Epsilon) w.
  Proof. intros p w q H; induction H; auto. Qed.

  (** A set of states closed under edges is never left. *)
  Lemma path_closed : forall (S : nat -> Prop),
    (forall p c q, S p -> E p c q -> S q) ->
    forall p w q, path p w q -> S p -> S q.
  Proof. intros S HS p w q H; induction H; eauto. Qed.
End Path.

Lemma path_map : forall (E E' : nat -> N -> nat -> Prop) (h : nat -> nat) (S : nat -> Prop),
  (forall p c q, S p -> E p c q -> S q) ->
  (forall p c q, S p -> E p c q -> E' (h p) c (h q)) ->
  forall p w q, path E p w q -> S p -> path E' (h p) w (h q).
Proof.
  intros E E' h S HS Hh p w q H; induction H; intros Hp.
  - apply path_nil.
  - eapply path_eps; [apply Hh; eauto|]. eauto.
  - eapply path_step; [auto|apply Hh; eauto|]. eauto.
Qed.

Lemma path_mono : forall (E E' : nat -> N -> nat -> Prop),
  (forall p c q, E p c q -> E' p c q) -> forall p w q, path E p w q -> path E' p w q.
Proof.
  intros E E' H p w q Hp. apply (path_map E E' (fun x => x) (fun _ => True)); auto.
Qed.

Lemma path_ext : forall (E E' : nat -> N -> nat -> Prop),
  (forall p c q, E p c q <-> E' p c q) -> forall p w q, path E p w q <-> path E' p w q.
Proof. intros E E' H p w q; split; apply path_mono; intros; apply H; auto. Qed.

(** Reversal *)
Lemma path_rev : forall (E E' : nat -> N -> nat -> Prop),
  (forall p c q, E p c q -> E' q c p) ->
  forall p w q, path E p w q -> path E' q (rev w) p.
Proof.
  intros E E' HE p w q H; induction H; cbn.
  - apply path_nil.
  - rewrite <- (app_nil_r (rev w)). eapply path_app; eauto. apply path_eps1; auto.
  - eapply path_app; eauto. apply path_step1; auto.
Qed.

(** Language of a graph *)
Definition nfa_lang (E : nat -> N -> nat -> Prop) (i : nat) (F : nat -> Prop) : lang :=
  fun w => exists q, path E i w q /\ F q.

(** Concatenation, as done by copying the outgoing edges of the second automaton's initial
    state to the final states of the first one. *)
Section Cat.
  Variables (E1 E2 E : nat -> N -> nat -> Prop) (n i1 i2 : nat) (F1 F2 : nat -> Prop).
  Hypothesis H1 : forall p c q, E1 p c q -> p < n /\ q < n.
  Hypothesis HF1 : forall p, F1 p -> p < n.
  Hypothesis Hi1 : i1 < n.
  Hypothesis HE : forall p c q, E p c q <->
    E1 p c q \/ (exists p' q', p = p' + n /\ q = q' + n /\ E2 p' c q') \/
    (F1 p /\ exists q', q = q' + n /\ E2 i2 c q').

  Let F q := exists q', q = q' + n /\ F2 q'.

  Lemma cat_right : forall p w q, path E p w q -> forall p', p = p' + n ->
    exists q', q = q' + n /\ path E2 p' w q'.
  Proof.
    intros p w q H; induction H as [p|p q w r He H IH|p c q w r Hc He H IH]; intros p' ->.
    - eauto using path_nil.
    - apply HE in He as [He|[[a [b [Ea [-> He]]]]|[He _]]].
      + apply H1 in He; lia.
      + assert (a = p') by lia; subst a. destruct (IH _ eq_refl) as [q' [-> Hq]].
        eexists; split; [reflexivity|]. eapply path_eps; eauto.
      + apply HF1 in He; lia.
    - apply HE in He as [He|[[a [b [Ea [-> He]]]]|[He _]]].
      + apply H1 in He; lia.
      + assert (a = p') by lia; subst a. destruct (IH _ eq_refl) as [q' [-> Hq]].
        eexists; split; [reflexivity|]. eapply path_step; eauto.
      + apply HF1 in He; lia.
  Qed.

  Lemma cat_left : forall p w q, path E p w q -> p < n ->
    (q < n /\ path E1 p w q) \/
    (exists u v m q', w = u ++ v /\ path E1 p u m /\ F1 m /\ q = q' + n /\ path E2 i2 v q').
  Proof.
    intros p w q H; induction H as [p|p q w r He H IH|p c q w r Hc He H IH]; intros Hp.
    - left; split; auto using path_nil.
    - apply HE in He as [He|[[a [b [-> [-> He]]]]|[He [q' [-> He2]]]]].
      + destruct (H1 _ _ _ He) as [_ Hq]. destruct (IH Hq) as [[Hr IHp]|[u [v [m [q' [-> [A [B [C D]]]]]]]]].
        * left; split; auto. eapply path_eps; eauto.
        * right. exists u, v, m, q'. repeat split; auto. eapply path_eps; eauto.
      + lia.
      + destruct (cat_right _ _ _ H _ eq_refl) as [r' [-> Hr]].
        right. exists [], w, p, r'. repeat split; auto using path_nil. eapply path_eps; eauto.
    - apply HE in He as [He|[[a [b [-> [-> He]]]]|[He [q' [-> He2]]]]].
      + destruct (H1 _ _ _ He) as [_ Hq]. destruct (IH Hq) as [[Hr IHp]|[u [v [m [q' [-> [A [B [C D]]]]]]]]].
        * left; split; auto. eapply path_step; eauto.
        * right. exists (c :: u), v, m, q'. repeat split; auto. eapply path_step; eauto.
      + lia.
      + destruct (cat_right _ _ _ H _ eq_refl) as [r' [-> Hr]].
        right. exists [], (c :: w), p, r'. repeat split; auto using path_nil. eapply path_step; eauto.
  Qed.

  Lemma cat_copy : forall p w q, path E2 p w q -> path E (p + n) w (q + n).
  Proof.
    intros p w q H. apply (path_map E2 E (fun x => x + n) (fun _ => True)); auto.
    intros a c b _ Hab. apply HE. right; left; eauto 6.
  Qed.

  Theorem nfa_cat_sound : forall w, nfa_lang E i1 F w -> L_cat (nfa_lang E1 i1 F1) (nfa_lang E2 i2 F2) w.
  Proof.
    intros w [q [Hp [q' [-> Hq']]]].
    destruct (cat_left _ _ _ Hp Hi1) as [[Hq _]|[u [v [m [q'' [-> [A [B [C D]]]]]]]]]; [lia|].
    assert (q'' = q') by lia; subst q''. exists u, v. split; auto. split; [exists m; auto|exists q'; auto].
  Qed.

  (** completeness, whenever the second word does not need the second automaton's initial
      state to be final *)
  Theorem nfa_cat_complete : forall u v, nfa_lang E1 i1 F1 u -> nfa_lang E2 i2 F2 v ->
    (v <> [] \/ ~ F2 i2) -> nfa_lang E i1 F (u ++ v).
  Proof.
    intros u v [m [Hm HFm]] [q [Hq HFq]] Hne.
    exists (q + n). split; [|exists q; auto].
    eapply path_app; [eapply path_mono; [|exact Hm]; intros; apply HE; auto|].
    apply path_inv in Hq as [[-> ->]|[[x [He Hq]]|[c [x [w' [-> [Hc [He Hq]]]]]]]].
    - destruct Hne; contradiction.
    - apply path_eps with (x + n); [apply HE; right; right; split; eauto|]. apply cat_copy; auto.
    - apply path_step with (x + n); [auto|apply HE; right; right; split; eauto|]. apply cat_copy; auto.
  Qed.

  Theorem nfa_cat : ~ F2 i2 -> lang_eq (nfa_lang E i1 F) (L_cat (nfa_lang E1 i1 F1) (nfa_lang E2 i2 F2)).
  Proof.
    intros Hi2 w; split; [apply nfa_cat_sound|].
    intros [u [v [-> [H1' H2']]]]. apply nfa_cat_complete; auto.
  Qed.
End Cat.

(** Union by a fresh initial state *)
Lemma path_from_copy : forall (E2 E : nat -> N -> nat -> Prop) (n : nat) (S : nat -> Prop),
  (forall p c q, S p -> E (p + n) c q -> exists q', S q' /\ q = q' + n /\ E2 p c q') ->
  forall p w q, path E p w q -> forall p', p = p' + n -> S p' -> exists q', S q' /\ q = q' + n /\ path E2 p' w q'.
Proof.
  intros E2 E n S HE p w q H; induction H as [p|p q w r He H IH|p c q w r Hc He H IH]; intros p' -> Hp.
  - eauto using path_nil.
  - apply HE in He as [b [Hb [-> He]]]; auto. destruct (IH _ eq_refl Hb) as [q' [Hq' [-> Hq]]].
    exists q'. repeat split; auto. eapply path_eps; eauto.
  - apply HE in He as [b [Hb [-> He]]]; auto. destruct (IH _ eq_refl Hb) as [q' [Hq' [-> Hq]]].
    exists q'. repeat split; auto. eapply path_step; eauto.
Qed.

Lemma path_restrict : forall (E1 E : nat -> N -> nat -> Prop) (S : nat -> Prop),
  (forall p c q, S p -> E p c q -> S q /\ E1 p c q) ->
  forall p w q, path E p w q -> S p -> S q /\ path E1 p w q.
Proof.
  intros E1 E S HE p w q H; induction H as [p|p q w r He H IH|p c q w r Hc He H IH]; intros Hp.
  - auto using path_nil.
  - apply HE in He as [Hq He]; auto. destruct (IH Hq). split; auto. eapply path_eps; eauto.
  - apply HE in He as [Hq He]; auto. destruct (IH Hq). split; auto. eapply path_step; eauto.
Qed.
