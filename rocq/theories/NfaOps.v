(** Language facts about the graph constructions used by the building operations,
    independent of the model of the code. *)
From Coq Require Import List Bool Arith NArith Lia.
From Verif Require Import Spec Nfa.
Import ListNotations.

Lemma lang_eq_refl : forall L, lang_eq L L.
Proof. intros L w; tauto. Qed.
Lemma lang_eq_sym : forall L M, lang_eq L M -> lang_eq M L.
Proof. intros L M H w; rewrite (H w); tauto. Qed.
Lemma lang_eq_trans : forall L M N, lang_eq L M -> lang_eq M N -> lang_eq L N.
Proof. intros L M N H1 H2 w; rewrite (H1 w); apply H2. Qed.

Lemma L_cat_ext : forall L L' M M', lang_eq L L' -> lang_eq M M' -> lang_eq (L_cat L M) (L_cat L' M').
Proof.
  intros L L' M M' H1 H2 w; split; intros [u [v [-> [A B]]]]; exists u, v; split; auto; split;
    try apply H1; try apply H2; auto.
Qed.
Lemma L_or_ext : forall L L' M M', lang_eq L L' -> lang_eq M M' -> lang_eq (L_or L M) (L_or L' M').
Proof. intros L L' M M' H1 H2 w. unfold L_or. rewrite (H1 w), (H2 w). tauto. Qed.
Lemma L_star_ext : forall L L', lang_eq L L' -> lang_eq (L_star L) (L_star L').
Proof.
  intros L L' H w; split; intros Hw; induction Hw; constructor; auto; apply H; auto.
Qed.
Lemma L_cat_assoc : forall L M N, lang_eq (L_cat (L_cat L M) N) (L_cat L (L_cat M N)).
Proof.
  intros L M N w; split.
  - intros [u [v [-> [[u1 [u2 [-> [A B]]]] C]]]]. exists u1, (u2 ++ v). rewrite app_assoc.
    repeat split; auto. exists u2, v; auto.
  - intros [u [v [-> [A [v1 [v2 [-> [B C]]]]]]]]. exists (u ++ v1), v2. rewrite app_assoc.
    repeat split; auto. exists u, v1; auto.
Qed.
Lemma L_cat_eps_l : forall L, lang_eq (L_cat L_eps L) L.
Proof.
  intros L w; split; [intros [u [v [-> [-> H]]]]; auto|]. intros H. exists [], w; repeat split; auto.
Qed.
Lemma L_cat_eps_r : forall L, lang_eq (L_cat L L_eps) L.
Proof.
  intros L w; split.
  - intros [u [v [-> [H ->]]]]. rewrite app_nil_r; auto.
  - intros H. exists w, []; rewrite app_nil_r; repeat split; auto.
Qed.
Lemma L_pow_shift : forall L n, lang_eq (L_cat L (L_pow L n)) (L_pow L (S n)).
Proof.
  intros L n; induction n as [|n IH]; cbn [L_pow].
  - eapply lang_eq_trans; [apply L_cat_eps_r|apply lang_eq_sym, L_cat_eps_l].
  - eapply lang_eq_trans; [apply lang_eq_sym, L_cat_assoc|].
    apply L_cat_ext; [exact IH|apply lang_eq_refl].
Qed.

(** Appending: a fresh state n entered from the final states on the labels C, with
    self-loops on the labels D. *)
Section Extend.
  Variables (E E' : nat -> N -> nat -> Prop) (n i : nat) (F : nat -> Prop) (C D : N -> Prop).
  Hypothesis HB : forall p c q, E p c q -> p < n /\ q < n.
  Hypothesis HF : forall p, F p -> p < n.
  Hypothesis Hi : i < n.
  Hypothesis HE : forall p c q, E' p c q <->
    E p c q \/ (F p /\ C c /\ q = n) \/ (p = n /\ q = n /\ D c).

  Lemma extend_loop : forall p w q, path E' p w q -> p = n -> q = n /\ Forall D w.
  Proof.
    intros p w q H; induction H as [p|p q w r He H IH|p c q w r Hc He H IH]; intros ->; auto.
    - apply HE in He as [He|[[He _]|[_ [-> _]]]]; auto; [apply HB in He; lia|apply HF in He; lia].
    - apply HE in He as [He|[[He _]|[_ [-> HD]]]]; [apply HB in He; lia|apply HF in He; lia|].
      destruct (IH eq_refl); split; auto.
  Qed.

  Lemma extend_loop_inv : forall w, Forall (fun c => D c /\ c <> Epsilon) w -> path E' n w n.
  Proof.
    intros w H; induction H as [|c w [Hc He] H IH]; [apply path_nil|].
    eapply path_step; eauto. apply HE. auto.
  Qed.

  Lemma extend_split : forall p w q, path E' p w q -> p < n -> q = n ->
    exists u m x v, w = u ++ x ++ v /\ path E p u m /\ F m /\
      ((C Epsilon /\ x = []) \/ exists c, c <> Epsilon /\ C c /\ x = [c]) /\ Forall D v.
  Proof.
    intros p w q H; induction H as [p|p q w r He H IH|p c q w r Hc He H IH]; intros Hp Hq.
    - lia.
    - apply HE in He as [He|[[HFp [HC ->]]|[-> _]]]; [| |lia].
      + destruct (HB _ _ _ He) as [_ Hq']. destruct (IH Hq' Hq) as [u [m [x [v [-> [A [B G]]]]]]].
        exists u, m, x, v. repeat split; auto; try apply G. eapply path_eps; eauto.
      + destruct (extend_loop _ _ _ H eq_refl) as [_ HD].
        exists [], p, [], w. repeat split; auto using path_nil.
    - apply HE in He as [He|[[HFp [HC ->]]|[-> _]]]; [| |lia].
      + destruct (HB _ _ _ He) as [_ Hq']. destruct (IH Hq' Hq) as [u [m [x [v [-> [A [B G]]]]]]].
        exists (c :: u), m, x, v. repeat split; auto; try apply G. eapply path_step; eauto.
      + destruct (extend_loop _ _ _ H eq_refl) as [_ HD].
        exists [], p, [c], w. repeat split; eauto using path_nil.
  Qed.

  Theorem nfa_extend : forall w, nfa_lang E' i (fun q => q = n) w <->
    exists u x v, w = u ++ x ++ v /\ nfa_lang E i F u /\
      ((C Epsilon /\ x = []) \/ exists c, c <> Epsilon /\ C c /\ x = [c]) /\
      Forall (fun c => D c /\ c <> Epsilon) v.
  Proof.
    intros w; split.
    - intros [q [H Hq]]. pose proof (path_word _ _ _ _ H) as HW.
      destruct (extend_split _ _ _ H Hi Hq) as [u [m [x [v [-> [A [B [G HD]]]]]]]].
      exists u, x, v. split; auto. split; [exists m; auto|]. split; auto.
      rewrite !Forall_app in HW. rewrite Forall_forall in *. destruct HW as [_ [_ HW]].
      rewrite Forall_forall in HW. auto.
    - intros [u [x [v [-> [[m [A B]] [G HD]]]]]]. exists n; split; auto.
      assert (P1 : path E' i u m) by (eapply path_mono; [|exact A]; intros; apply HE; auto).
      eapply path_app; [exact P1|].
      eapply path_app; [|apply extend_loop_inv; exact HD].
      destruct G as [[HC ->]|[c [Hc [HC ->]]]].
      + apply path_eps1, HE. auto.
      + apply path_step1; auto. apply HE. auto.
  Qed.
End Extend.

(** Prepending: a fresh initial state with self-loops on all labels D and an epsilon edge
    to the old initial state. *)
Section Prepend.
  Variables (E E' : nat -> N -> nat -> Prop) (n i : nat) (F : nat -> Prop) (D : N -> Prop).
  Hypothesis HB : forall p c q, E p c q -> p < n /\ q < n.
  Hypothesis HF : forall p, F p -> p < n.
  Hypothesis Hi : i < n.
  Hypothesis HE : forall p c q, E' p c q <->
    E p c q \/ (p = n /\ c = Epsilon /\ q = i) \/ (p = n /\ q = n /\ D c).

  Lemma prepend_split : forall p w q, path E' p w q -> p = n -> q < n ->
    exists u v, w = u ++ v /\ Forall (fun c => D c /\ c <> Epsilon) u /\ path E i v q.
  Proof.
    intros p w q H; induction H as [p|p q w r He H IH|p c q w r Hc He H IH]; intros -> Hq.
    - lia.
    - apply HE in He as [He|[[_ [_ ->]]|[_ [-> _]]]]; auto; [apply HB in He; lia|].
      exists [], w. repeat split; auto.
      eapply (path_restrict E E' (fun x => x < n)) in H; try tauto; auto.
      intros a c b Ha Hab. apply HE in Hab as [Hab|[[-> _]|[-> _]]]; try lia. split; auto. apply HB in Hab; tauto.
    - apply HE in He as [He|[[_ [-> ->]]|[_ [-> HD]]]]; auto; [apply HB in He; lia|congruence|].
      destruct (IH eq_refl Hq) as [u [v [-> [A B]]]]. exists (c :: u), v. repeat split; auto.
  Qed.

  Theorem nfa_prepend : forall w, nfa_lang E' n F w <->
    exists u v, w = u ++ v /\ Forall (fun c => D c /\ c <> Epsilon) u /\ nfa_lang E i F v.
  Proof.
    intros w; split.
    - intros [q [H Hq]]. destruct (prepend_split _ _ _ H eq_refl (HF _ Hq)) as [u [v [-> [A B]]]].
      exists u, v. repeat split; auto. exists q; auto.
    - intros [u [v [-> [A [q [B G]]]]]]. exists q; split; auto.
      eapply path_app with n.
      + induction A as [|c u [Hc He] A IH]; [apply path_nil|]. eapply path_step; eauto. apply HE; auto.
      + eapply path_eps; [apply HE; right; left; eauto|].
        eapply path_mono; [|exact B]. intros; apply HE; auto.
  Qed.
End Prepend.

(** Iteration *)
Section Star.
  Variables (E E' : nat -> N -> nat -> Prop) (n s0 s1 i : nat) (F : nat -> Prop).
  Hypothesis HB : forall p c q, E p c q -> p < n /\ q < n.
  Hypothesis HF : forall p, F p -> p < n.
  Hypothesis Hi : i < n.
  Hypothesis Hs0 : n <= s0.
  Hypothesis Hs1 : n <= s1.
  Hypothesis Hs : s0 <> s1.
  Hypothesis HE : forall p c q, E' p c q <->
    E p c q \/ (c = Epsilon /\ ((p = s0 /\ (q = s1 \/ q = i)) \/ (F p /\ (q = i \/ q = s1)))).

  Lemma star_end : forall p w q, path E' p w q -> p = s1 -> w = [].
  Proof.
    intros p w q H; destruct H as [p|p q w r He H|p c q w r Hc He H]; intros ->; auto; exfalso;
      apply HE in He as [He|[_ [[He _]|[He _]]]]; try (apply HB in He; lia); try congruence; apply HF in He; lia.
  Qed.

  Lemma star_split : forall p w q, path E' p w q -> p < n -> q = s1 ->
    exists u m v, w = u ++ v /\ path E p u m /\ F m /\ L_star (nfa_lang E i F) v.
  Proof.
    intros p w q H; induction H as [p|p q w r He H IH|p c q w r Hc He H IH]; intros Hp Hq.
    - lia.
    - apply HE in He as [He|[_ [[-> _]|[HFp [->| ->]]]]].
      + destruct (HB _ _ _ He) as [_ Hq']. destruct (IH Hq' Hq) as [u [m [v [-> [A [B G]]]]]].
        exists u, m, v. repeat split; auto. eapply path_eps; eauto.
      + lia.
      + destruct (IH Hi Hq) as [u [m [v [-> [A [B G]]]]]]. exists [], p, (u ++ v).
        repeat split; auto using path_nil. constructor; auto. exists m; auto.
      + exists [], p, w. repeat split; auto using path_nil. rewrite (star_end _ _ _ H eq_refl). constructor.
    - apply HE in He as [He|[-> _]]; [|congruence].
      destruct (HB _ _ _ He) as [_ Hq']. destruct (IH Hq' Hq) as [u [m [v [-> [A [B G]]]]]].
      exists (c :: u), m, v. repeat split; auto. eapply path_step; eauto.
  Qed.

  Lemma star_build : forall v, L_star (nfa_lang E i F) v -> path E' i v s1 \/ v = [].
  Proof.
    intros v H; induction H as [|u v [m [A B]] H IH]; auto. left.
    assert (P1 : path E' i u m) by (eapply path_mono; [|exact A]; intros; apply HE; auto).
    eapply path_app; [exact P1|]. destruct IH as [IH| ->].
    - eapply path_eps; [apply HE; right; split; [auto|right; split; [exact B|left; reflexivity]]|exact IH].
    - apply path_eps1, HE. right; split; auto.
  Qed.

  Theorem nfa_star : lang_eq (nfa_lang E' s0 (fun q => q = s1)) (L_star (nfa_lang E i F)).
  Proof.
    intros w; split.
    - intros [q [H Hq]]. inversion H as [|p q' w' r He H'|p c q' w' r Hc He H']; subst.
      + congruence.
      + apply HE in He as [He|[_ [[_ [->| ->]]|[He _]]]].
        * apply HB in He; lia.
        * rewrite (star_end _ _ _ H' eq_refl). constructor.
        * destruct (star_split _ _ _ H' Hi eq_refl) as [u [m [v [-> [A [B G]]]]]].
          constructor; auto. exists m; auto.
        * apply HF in He; lia.
      + apply HE in He as [He|[-> _]]; [apply HB in He; lia|congruence].
    - intros H. exists s1; split; auto. destruct (star_build _ H) as [Hp| ->].
      + eapply path_eps; [|exact Hp]. apply HE; auto 6.
      + apply path_eps1, HE; auto 6.
  Qed.
End Star.

(** Union *)
Section Union.
  Variables (E1 E2 E : nat -> N -> nat -> Prop) (n i1 i2 : nat) (F1 F2 : nat -> Prop).
  Hypothesis HB : forall p c q, E1 p c q -> p < n /\ q < n.
  Hypothesis HF1 : forall p, F1 p -> p < n.
  Hypothesis Hi1 : i1 < n.
  Let F q := F1 q \/ exists q', q = q' + n /\ F2 q'.
  Let R := fun p c q => exists p' q', p = p' + n /\ q = q' + n /\ E2 p' c q'.

  Lemma union_left : forall (S : nat -> Prop), 
    (forall p c q, p < n -> S p -> E p c q -> S q /\ E1 p c q) ->
    forall p w q, path E p w q -> p < n -> S p -> q < n /\ path E1 p w q.
  Proof.
    intros S HS p w q H Hp HSp.
    destruct (path_restrict E1 E (fun x => x < n /\ S x)) with (p := p) (w := w) (q := q) as [A B]; auto; [|tauto].
    intros a c b [Ha HSa] Hab. destruct (HS _ _ _ Ha HSa Hab) as [X Y]. destruct (HB _ _ _ Y). auto.
  Qed.

  Lemma union_F_left : forall q, F q -> q < n -> F1 q.
  Proof. intros q [H|[q' [-> H]]] Hq; auto; lia. Qed.
  Lemma union_F_right : forall q, F (q + n) -> F2 q.
  Proof.
    intros q [H|[q' [E' H]]].
    - apply HF1 in H; lia.
    - assert (q = q') by lia; subst; auto.
  Qed.

  (** fresh initial state s *)
  Theorem nfa_union_fresh : forall s, n <= s -> (forall p c q, ~ E2 p c (s - n) /\ ~ E2 (s - n) c q) -> ~ F2 (s - n) -> i2 <> s - n ->
    (forall p c q, E p c q <-> E1 p c q \/ R p c q \/ (p = s /\ c = Epsilon /\ (q = i1 \/ q = i2 + n))) ->
    lang_eq (nfa_lang E s F) (L_or (nfa_lang E1 i1 F1) (nfa_lang E2 i2 F2)).
  Proof.
    intros s Hs Hfresh HFs Hi2 HE w; split.
    - intros [q [H HFq]]. apply path_inv in H as [[-> ->]|[[q' [He H']]|[c [q' [w' [-> [Hc [He H']]]]]]]].
      + exfalso. destruct HFq as [HFq|[q' [-> HFq]]]; [apply HF1 in HFq; lia|].
        replace (q' + n - n) with q' in * by lia. contradiction.
      + apply HE in He as [He|[[p' [q'' [-> [-> He]]]]|[_ [_ [->| ->]]]]].
        * apply HB in He; lia.
        * exfalso. replace (p' + n - n) with p' in * by lia. eapply Hfresh; eauto.
        * left. destruct (union_left (fun _ => True)) with (p := i1) (w := w) (q := q) as [A B]; auto.
          -- intros a c b Ha _ Hab. apply HE in Hab as [Hab|[[p' [q'' [-> [-> _]]]]|[-> _]]]; try lia; auto.
          -- exists q; split; auto. apply union_F_left; auto.
        * right. destruct (path_from_copy E2 E n (fun x => x <> s - n)) with (p := i2 + n) (w := w) (q := q) (p' := i2) as [q' [Sq [-> B]]]; auto.
          -- intros a c b Ha Hab. apply HE in Hab as [Hab|[[p' [q'' [Ep [-> Hab]]]]|[Ea _]]].
             ++ apply HB in Hab; lia.
             ++ assert (p' = a) by lia; subst p'. exists q''. split; [intros ->; apply (proj1 (Hfresh a c 0)); exact Hab|auto].
             ++ lia.
          -- exists q'; split; auto. apply union_F_right; auto.
      + apply HE in He as [He|[[p' [q'' [-> [-> He]]]]|[_ [-> _]]]]; [apply HB in He; lia| |congruence].
        exfalso. replace (p' + n - n) with p' in * by lia. eapply Hfresh; eauto.
    - intros [[q [H Hq]]|[q [H Hq]]].
      + exists q; split; [|left; auto]. apply path_eps with i1; [apply HE; auto 6|].
        eapply path_mono; [|exact H]. intros; apply HE; auto.
      + exists (q + n); split; [|right; eauto]. apply path_eps with (i2 + n); [apply HE; auto 6|].
        apply (path_map E2 E (fun x => x + n) (fun _ => True)); auto.
        intros a c b _ Hab. apply HE. right; left. exists a, b; auto.
  Qed.

  (** the first automaton's initial state is never re-entered: hang the second one off it *)
  Theorem nfa_union_left : (forall p c, ~ E1 p c i1) ->
    (forall p c q, E p c q <-> E1 p c q \/ R p c q \/ (p = i1 /\ c = Epsilon /\ q = i2 + n)) ->
    lang_eq (nfa_lang E i1 F) (L_or (nfa_lang E1 i1 F1) (nfa_lang E2 i2 F2)).
  Proof.
    intros Hni HE w.
    assert (HL : forall p w q, path E p w q -> p < n -> p <> i1 -> q < n /\ path E1 p w q).
    { intros p w' q H Hp Hne. eapply (union_left (fun x => x <> i1)); eauto.
      intros a c b Ha Hai Hab. apply HE in Hab as [Hab|[[p' [q' [-> _]]]|[-> _]]]; [|lia|congruence].
      split; auto. intros ->. eapply Hni; eauto. }
    assert (HR : forall p w q, path E p w q -> forall p', p = p' + n -> exists q', True /\ q = q' + n /\ path E2 p' w q').
    { intros p w' q H p' ->. eapply (path_from_copy E2 E n (fun _ => True)); eauto.
      intros a c b _ Hab. apply HE in Hab as [Hab|[[p'' [q' [Ea [-> Hab]]]]|[Ea _]]].
      - apply HB in Hab; lia.
      - assert (p'' = a) by lia; subst; eauto.
      - lia. }
    split.
    - intros [q [H HFq]]. apply path_inv in H as [[-> ->]|[[q' [He H']]|[c [q' [w' [-> [Hc [He H']]]]]]]].
      + left. exists i1. split; [apply path_nil|]. apply union_F_left; auto.
      + apply HE in He as [He|[[p' [q'' [Ei [-> He]]]]|[_ [_ ->]]]].
        * left. destruct (HL _ _ _ H') as [A B]; [apply HB in He; tauto|intros ->; eapply Hni; eauto|].
          exists q. split; [|apply union_F_left; auto]. eapply path_eps; eauto.
        * lia.
        * right. destruct (HR _ _ _ H' _ eq_refl) as [q' [_ [-> B]]]. exists q'; split; auto. apply union_F_right; auto.
      + apply HE in He as [He|[[p' [q'' [Ei [-> He]]]]|[_ [-> _]]]].
        * left. destruct (HL _ _ _ H') as [A B]; [apply HB in He; tauto|intros ->; eapply Hni; eauto|].
          exists q. split; [|apply union_F_left; auto]. eapply path_step; eauto.
        * lia.
        * congruence.
    - intros [[q [H Hq]]|[q [H Hq]]].
      + exists q; split; [|left; auto]. eapply path_mono; [|exact H]. intros; apply HE; auto.
      + exists (q + n); split; [|right; eauto]. apply path_eps with (i2 + n); [apply HE; auto 6|].
        apply (path_map E2 E (fun x => x + n) (fun _ => True)); auto.
        intros a c b _ Hab. apply HE. right; left. exists a, b; auto.
  Qed.

  (** the second automaton's initial state is never re-entered *)
  Theorem nfa_union_right : (forall p c, ~ E2 p c i2) ->
    (forall p c q, E p c q <-> E1 p c q \/ R p c q \/ (p = i2 + n /\ c = Epsilon /\ q = i1)) ->
    lang_eq (nfa_lang E (i2 + n) F) (L_or (nfa_lang E1 i1 F1) (nfa_lang E2 i2 F2)).
  Proof.
    intros Hni HE w.
    assert (HL : forall p w q, path E p w q -> p < n -> q < n /\ path E1 p w q).
    { intros p w' q H Hp. eapply (union_left (fun x => True)); eauto.
      intros a c b Ha Hai Hab. apply HE in Hab as [Hab|[[p' [q' [-> _]]]|[-> _]]]; [auto|lia|lia]. }
    assert (HR : forall p w q, path E p w q -> forall p', p = p' + n -> p' <> i2 -> exists q', q' <> i2 /\ q = q' + n /\ path E2 p' w q').
    { intros p w' q H p' -> Hne. eapply (path_from_copy E2 E n (fun x => x <> i2)); eauto.
      intros a c b Ha Hab. apply HE in Hab as [Hab|[[p'' [q' [Ea [-> Hab]]]]|[Ea _]]].
      - apply HB in Hab; lia.
      - assert (p'' = a) by lia; subst. exists q'. repeat split; auto. intros ->; eapply Hni; eauto.
      - lia. }
    split.
    - intros [q [H HFq]]. apply path_inv in H as [[-> ->]|[[q' [He H']]|[c [q' [w' [-> [Hc [He H']]]]]]]].
      + right. exists i2. split; [apply path_nil|]. apply union_F_right; auto.
      + apply HE in He as [He|[[p' [q'' [Ei [-> He]]]]|[_ [_ ->]]]].
        * apply HB in He; lia.
        * right. assert (p' = i2) by lia; subst p'.
          destruct (HR _ _ _ H' _ eq_refl) as [q' [_ [-> B]]]; [intros ->; eapply Hni; eauto|].
          exists q'; split; [|apply union_F_right; auto]. eapply path_eps; eauto.
        * left. destruct (HL _ _ _ H') as [A B]; auto. exists q; split; auto. apply union_F_left; auto.
      + apply HE in He as [He|[[p' [q'' [Ei [-> He]]]]|[_ [-> _]]]].
        * apply HB in He; lia.
        * right. assert (p' = i2) by lia; subst p'.
          destruct (HR _ _ _ H' _ eq_refl) as [q' [_ [-> B]]]; [intros ->; eapply Hni; eauto|].
          exists q'; split; [|apply union_F_right; auto]. eapply path_step; eauto.
        * congruence.
    - intros [[q [H Hq]]|[q [H Hq]]].
      + exists q; split; [|left; auto]. apply path_eps with i1; [apply HE; auto 6|].
        eapply path_mono; [|exact H]. intros; apply HE; auto.
      + exists (q + n); split; [|right; eauto].
        apply (path_map E2 E (fun x => x + n) (fun _ => True)); auto.
        intros a c b _ Hab. apply HE. right; left. exists a, b; auto.
  Qed.

  (** both initial states only fan out: move the second fan to the first one *)
  Theorem nfa_union_both : (forall p c, ~ E1 p c i1) -> (forall p c, ~ E2 p c i2) -> ~ F2 i2 ->
    (forall c q, E2 i2 c q -> c = Epsilon) ->
    (forall p c q, E p c q <-> E1 p c q \/ (R p c q /\ p <> i2 + n) \/ (p = i1 /\ c = Epsilon /\ exists t, E2 i2 Epsilon t /\ q = t + n)) ->
    lang_eq (nfa_lang E i1 F) (L_or (nfa_lang E1 i1 F1) (nfa_lang E2 i2 F2)).
  Proof.
    intros Hni1 Hni2 HnF Hfan HE w.
    assert (HL : forall p w q, path E p w q -> p < n -> p <> i1 -> q < n /\ path E1 p w q).
    { intros p w' q H Hp Hne. eapply (union_left (fun x => x <> i1)); eauto.
      intros a c b Ha Hai Hab. apply HE in Hab as [Hab|[[[p' [q' [-> _]]] _]|[-> _]]]; [|lia|congruence].
      split; auto. intros ->. eapply Hni1; eauto. }
    assert (HR : forall p w q, path E p w q -> forall p', p = p' + n -> exists q', True /\ q = q' + n /\ path E2 p' w q').
    { intros p w' q H p' ->. eapply (path_from_copy E2 E n (fun _ => True)); eauto.
      intros a c b _ Hab. apply HE in Hab as [Hab|[[[p'' [q' [Ea [-> Hab]]]] _]|[Ea _]]].
      - apply HB in Hab; lia.
      - assert (p'' = a) by lia; subst; eauto.
      - lia. }
    split.
    - intros [q [H HFq]]. apply path_inv in H as [[-> ->]|[[q' [He H']]|[c [q' [w' [-> [Hc [He H']]]]]]]].
      + left. exists i1. split; [apply path_nil|]. apply union_F_left; auto.
      + apply HE in He as [He|[[[p' [q'' [Ei [-> He]]]] _]|[_ [_ [t [Ht ->]]]]]].
        * left. destruct (HL _ _ _ H') as [A B]; [apply HB in He; tauto|intros ->; eapply Hni1; eauto|].
          exists q. split; [|apply union_F_left; auto]. eapply path_eps; eauto.
        * lia.
        * right. destruct (HR _ _ _ H' _ eq_refl) as [q' [_ [-> B]]].
          exists q'; split; [|apply union_F_right; auto]. eapply path_eps; eauto.
      + apply HE in He as [He|[[[p' [q'' [Ei [-> He]]]] _]|[_ [-> _]]]].
        * left. destruct (HL _ _ _ H') as [A B]; [apply HB in He; tauto|intros ->; eapply Hni1; eauto|].
          exists q. split; [|apply union_F_left; auto]. eapply path_step; eauto.
        * lia.
        * congruence.
    - intros [[q [H Hq]]|[q [H Hq]]].
      + exists q; split; [|left; auto]. eapply path_mono; [|exact H]. intros; apply HE; auto.
      + exists (q + n); split; [|right; eauto].
        apply path_inv in H as [[-> ->]|[[q' [He H']]|[c [q' [w' [-> [Hc [He H']]]]]]]]; [contradiction| |exfalso; apply Hc; eapply Hfan; eauto].
        eapply path_eps; [apply HE; right; right; eauto|].
        apply (path_map E2 E (fun x => x + n) (fun x => x <> i2)); auto.
        * intros a c b _ Hab ->. eapply Hni2; eauto.
        * intros a c b Ha Hab. apply HE. right; left. split; [exists a, b; auto|lia].
        * intros ->. eapply Hni2; eauto.
  Qed.
End Union.

(** Reversal *)
Theorem nfa_reverse : forall (E E' : nat -> N -> nat -> Prop) n i (F : nat -> Prop),
  (forall p c q, E p c q -> p < n /\ q < n) -> (forall q, F q -> q < n) -> i < n ->
  (forall p c q, E' p c q <-> E q c p \/ (p = n /\ c = Epsilon /\ F q)) ->
  lang_eq (nfa_lang E' n (fun q => q = i)) (L_rev (nfa_lang E i F)).
Proof.
  intros E E' n i F HB HF Hi HE w; unfold L_rev; split.
  - intros [q [H ->]]. apply path_inv in H as [[-> ->]|[[q' [He H']]|[c [q' [w' [-> [Hc [He H']]]]]]]].
    + lia.
    + apply HE in He as [He|[_ [_ HFq]]]; [apply HB in He; lia|].
      exists q'. split; auto.
      destruct (path_restrict (fun p c q => E q c p) E' (fun x => x < n)) with (p := q') (w := w) (q := i) as [_ P]; auto.
      * intros a c b Ha Hab. apply HE in Hab as [Hab|[-> _]]; [|lia]. split; auto. apply HB in Hab; tauto.
      * apply path_rev with (E' := E) in P; auto.
    + apply HE in He as [He|[_ [-> _]]]; [apply HB in He; lia|congruence].
  - intros [q [H HFq]]. exists i; split; auto.
    eapply path_eps; [apply HE; right; eauto|].
    rewrite <- (rev_involutive w). apply path_rev with (E := E); auto. intros; apply HE; auto.
Qed.
