(** The shift-reduce parser accepts exactly what the grammar derives, and the grammar is
    unambiguous. *)
From Coq Require Import List Bool Arith NArith ZArith Lia.
From Verif Require Import Util Spec RegexModel.
Import ListNotations.

(** The tokens of a tree. *)
Fixpoint toks (r : re) : list token :=
  match r with
  | RLetters ss n => [KLetters ss n]
  | RDot => [KDot]
  | RBegin => [KBegin]
  | REnd => [KEnd]
  | RGroup a => KOpen :: toks a ++ [KClose]
  | RCount t lo hi => toks t ++ [KCount lo hi]
  | REps => []
  | RCat c i => toks c ++ toks i
  | RNot c => KNot :: toks c
  | RAnd j n => toks j ++ KAnd :: toks n
  | ROr a j => toks a ++ KOr :: toks j
  end.
(** The trees of a sort. *)
Fixpoint fits (s : sort) (r : re) : Prop :=
  match r with
  | RLetters _ _ | RDot | RBegin | REnd => s = Termn \/ s = Iteration
  | RGroup a => (s = Termn \/ s = Iteration) /\ fits Alternative a
  | RCount t _ _ => s = Iteration /\ fits Termn t
  | REps => s <> Termn /\ s <> Iteration
  | RCat c i => (s <> Termn /\ s <> Iteration) /\ fits Concatenation c /\ fits Iteration i
  | RNot c => (s = Negation \/ s = Conjunction \/ s = Alternative) /\ fits Concatenation c
  | RAnd j n => (s = Conjunction \/ s = Alternative) /\ fits Conjunction j /\ fits Negation n
  | ROr a j => s = Alternative /\ fits Alternative a /\ fits Conjunction j
  end.

Lemma fits_up : forall r,
  (fits Conjunction r -> fits Alternative r) /\ (fits Negation r -> fits Conjunction r) /\
  (fits Concatenation r -> fits Negation r) /\ (fits Termn r -> fits Iteration r).
Proof. intros r. destruct r; cbn; splits; intros H; intuition; try discriminate; try congruence. Qed.

Lemma derives_fits : forall s w r, derives s w r -> w = toks r /\ fits s r.
Proof.
  intros s w r H. induction H; cbn [toks]; repeat match goal with X : _ /\ _ |- _ => destruct X end; subst; split; auto; try (cbn [fits]; splits; auto; discriminate);
    apply fits_up; auto.
Qed.
Lemma fits_derives : forall r s, fits s r -> derives s (toks r) r.
Proof.
  assert (T : forall w r, derives Termn w r -> forall s, s = Termn \/ s = Iteration -> derives s w r).
  { intros w r H s [-> | ->]; auto. apply g_iter_term; auto. }
  assert (C : forall w r, derives Concatenation w r -> forall s, s <> Termn /\ s <> Iteration -> derives s w r).
  { intros w r H s [N1 N2]. destruct s; try congruence; auto.
    - apply g_alt_conj, g_conj_neg, g_neg_cat; auto.
    - apply g_conj_neg, g_neg_cat; auto.
    - apply g_neg_cat; auto. }
  induction r; intros s H; cbn [fits] in H; cbn [toks].
  - apply T; auto. constructor.
  - apply T; auto. constructor.
  - apply T; auto. constructor.
  - apply T; auto. constructor.
  - apply T; [|apply H]. apply g_group, IHr, H.
  - destruct H as [-> H]. apply g_iter, IHr, H.
  - apply C; auto. constructor.
  - destruct H as (A & B & D). apply C; auto. apply g_cat; auto.
  - destruct H as [A B]. assert (X : derives Negation (KNot :: toks r) (RNot r)) by (apply g_neg; auto).
    destruct A as [-> | [-> | ->]]; [exact X|apply g_conj_neg, X|apply g_alt_conj, g_conj_neg, X].
  - destruct H as (A & B & D). assert (X : derives Conjunction (toks r1 ++ KAnd :: toks r2) (RAnd r1 r2)) by (apply g_conj; auto).
    destruct A as [-> | ->]; [exact X|apply g_alt_conj, X].
  - destruct H as (-> & B & D). apply g_alt; auto.
Qed.

(** ** The parser reads every tree back. *)
(** the frame after an iteration, and after a concatenation *)
Definition with_iter (f : frame) (i : re) : frame :=
  match i with
  | RCount _ _ _ => mkFrame (r_alt f) (r_conj f) (r_not f) (RCat (flush f) i) None
  | _ => with_term f i
  end.
Fixpoint with_cat (f : frame) (c : re) : frame :=
  match c with
  | RCat c i => with_iter (with_cat f c) i
  | _ => f
  end.
Lemma flush_with_iter : forall f i, flush (with_iter f i) = RCat (flush f) i.
Proof. intros f i. destruct i; reflexivity. Qed.
Lemma flush_with_cat : forall f c, r_cat f = REps -> r_term f = None -> fits Concatenation c -> flush (with_cat f c) = c.
Proof.
  intros f c A B. induction c; intros F; cbn [with_cat]; cbn in F; try (destruct F as [[X|X] _]; discriminate X); try (destruct F as [X|X]; discriminate X);
    try (destruct F as [X _]; discriminate X); try (destruct F as [[X|[X|X]] _]; discriminate X).
  - unfold flush. rewrite B. exact A.
  - rewrite flush_with_iter, IHc1; auto. apply F.
Qed.
Lemma with_iter_fields : forall f i, r_alt (with_iter f i) = r_alt f /\ r_conj (with_iter f i) = r_conj f /\ r_not (with_iter f i) = r_not f.
Proof. intros f i. destruct i; cbn; auto. Qed.
Lemma with_cat_fields : forall f c, r_alt (with_cat f c) = r_alt f /\ r_conj (with_cat f c) = r_conj f /\ r_not (with_cat f c) = r_not f.
Proof.
  intros f c. induction c; cbn [with_cat]; auto. destruct (with_iter_fields (with_cat f c1) c2) as (A & B & C).
  destruct IHc1 as (A' & B' & C'). splits; congruence.
Qed.

Lemma parse_loop_cons : forall k w f st, parse_loop (k :: w) f st = match k with
      | KLetters ss n => parse_loop w (with_term f (RLetters ss n)) st
      | KDot => parse_loop w (with_term f RDot) st
      | KBegin => parse_loop w (with_term f RBegin) st
      | KEnd => parse_loop w (with_term f REnd) st
      | KCount lo hi => match r_term f with Some t => parse_loop w (mkFrame (r_alt f) (r_conj f) (r_not f) (RCat (r_cat f) (RCount t lo hi)) None) st | None => None end
      | KNot => match r_not f, r_cat f, r_term f with false, REps, None => parse_loop w (mkFrame (r_alt f) (r_conj f) true REps None) st | _, _, _ => None end
      | KAnd => parse_loop w (mkFrame (r_alt f) (Some (close_conj f)) false REps None) st
      | KOr => parse_loop w (mkFrame (Some (close_alt f)) None false REps None) st
      | KOpen => parse_loop w fresh (f :: st)
      | KClose => match st with [] => None | g :: stack => parse_loop w (with_term g (RGroup (close_alt f))) stack end
      end.
Proof. reflexivity. Qed.

(** One statement per sort, proved together by induction on the tree.  A tree of a sort that
    starts at the beginning of a frame leaves a frame that closes to it. *)
Definition reads_iter (r : re) : Prop := fits Iteration r -> forall rest f st, parse_loop (toks r ++ rest) f st = parse_loop rest (with_iter f r) st.
Definition reads_cat (r : re) : Prop := fits Concatenation r -> forall rest f st, parse_loop (toks r ++ rest) f st = parse_loop rest (with_cat f r) st.
Definition reads_neg (r : re) : Prop := fits Negation r -> forall rest a j st, exists g, r_alt g = a /\ r_conj g = j /\ close_neg g = r /\
  parse_loop (toks r ++ rest) (mkFrame a j false REps None) st = parse_loop rest g st.
Definition reads_conj (r : re) : Prop := fits Conjunction r -> forall rest a st, exists g, r_alt g = a /\ close_conj g = r /\
  parse_loop (toks r ++ rest) (mkFrame a None false REps None) st = parse_loop rest g st.
Definition reads_alt (r : re) : Prop := fits Alternative r -> forall rest st, exists g, close_alt g = r /\
  parse_loop (toks r ++ rest) fresh st = parse_loop rest g st.

Lemma cat_neg : forall r, reads_cat r -> fits Concatenation r -> forall rest a j st, exists g, r_alt g = a /\ r_conj g = j /\ close_neg g = r /\
  parse_loop (toks r ++ rest) (mkFrame a j false REps None) st = parse_loop rest g st.
Proof.
  intros r H F rest a j st. exists (with_cat (mkFrame a j false REps None) r). destruct (with_cat_fields (mkFrame a j false REps None) r) as (A & B & C).
  splits; auto. unfold close_neg. rewrite C. apply flush_with_cat; auto.
Qed.
Lemma neg_conj : forall r, reads_neg r -> fits Negation r -> forall rest a st, exists g, r_alt g = a /\ close_conj g = r /\
  parse_loop (toks r ++ rest) (mkFrame a None false REps None) st = parse_loop rest g st.
Proof.
  intros r H F rest a st. destruct (H F rest a None st) as (g & A & B & C & E). exists g. splits; auto. unfold close_conj. rewrite B. exact C.
Qed.
Lemma conj_alt : forall r, reads_conj r -> fits Conjunction r -> forall rest st, exists g, close_alt g = r /\
  parse_loop (toks r ++ rest) fresh st = parse_loop rest g st.
Proof.
  intros r H F rest st. destruct (H F rest None st) as (g & A & B & E). exists g. splits; auto. unfold close_alt. rewrite A. exact B.
Qed.
Lemma up : forall r, reads_iter r -> reads_cat r ->
  (fits Negation r -> fits Concatenation r) -> (fits Conjunction r -> fits Negation r) -> (fits Alternative r -> fits Conjunction r) ->
  reads_iter r /\ reads_cat r /\ reads_neg r /\ reads_conj r /\ reads_alt r.
Proof.
  intros r T C H1 H2 H3.
  assert (N : reads_neg r) by (intros F; apply cat_neg; auto).
  assert (J : reads_conj r) by (intros F; apply neg_conj; auto).
  assert (A : reads_alt r) by (intros F; apply conj_alt; auto).
  splits; auto.
Qed.

Lemma fits_termn : forall r, fits Termn r -> fits Iteration r /\ forall f, with_iter f r = with_term f r.
Proof. intros r F. split; [apply fits_up, F|]. intros f. destruct r; auto. destruct F as [X _]. discriminate X. Qed.

Ltac no_sort := match goal with
  | |- ?A = ?B \/ _ -> _ => let X := fresh in intros [X|X]; discriminate X
  | |- (?A = ?B \/ _) /\ _ -> _ => let X := fresh in intros [[X|X] _]; discriminate X
  | |- ?A = ?B /\ _ -> _ => let X := fresh in intros [X _]; discriminate X
  end.
Lemma reads : forall r, reads_iter r /\ reads_cat r /\ reads_neg r /\ reads_conj r /\ reads_alt r.
Proof.
  induction r.
  - apply up; unfold reads_iter, reads_cat; cbn; try no_sort. intros _ rest f st. reflexivity.
  - apply up; unfold reads_iter, reads_cat; cbn; try no_sort. intros _ rest f st. reflexivity.
  - apply up; unfold reads_iter, reads_cat; cbn; try no_sort. intros _ rest f st. reflexivity.
  - apply up; unfold reads_iter, reads_cat; cbn; try no_sort. intros _ rest f st. reflexivity.
  - destruct IHr as (_ & _ & _ & _ & A). apply up; unfold reads_iter, reads_cat; cbn [fits toks]; try no_sort.
    intros [_ F] rest f st. cbn [app]. rewrite parse_loop_cons. rewrite <- app_assoc. cbn [app].
    destruct (A F (KClose :: rest) (f :: st)) as (g & C & ->). rewrite parse_loop_cons. rewrite C. reflexivity.
  - destruct IHr as (I & _). apply up; unfold reads_iter, reads_cat; cbn [fits toks]; try no_sort.
    intros [_ F] rest f st. destruct (fits_termn r F) as [F' E]. rewrite <- app_assoc. cbn [app]. rewrite (I F'), E, parse_loop_cons. reflexivity.
  - apply up; unfold reads_iter, reads_cat; cbn [fits toks]; try tauto.
    + intros _. split; discriminate.
    + intros _. split; discriminate.
    + intros _. split; discriminate.
  - destruct IHr1 as (_ & C & _). destruct IHr2 as (I & _).
    apply up; unfold reads_iter, reads_cat; cbn [fits toks]; try tauto.
    + intros (_ & F1 & F2) rest f st. rewrite <- app_assoc. rewrite (C F1), (I F2). reflexivity.
    + intros (_ & F). split; auto; split; discriminate.
    + intros (_ & F). split; auto; split; discriminate.
    + intros (_ & F). split; auto; split; discriminate.
  - destruct IHr as (_ & C & _).
    assert (N : reads_neg (RNot r)).
    { intros [_ F] rest a j st. cbn [toks app]. rewrite parse_loop_cons. cbn [r_not r_cat r_term r_alt r_conj]. rewrite (C F).
      destruct (with_cat_fields (mkFrame a j true REps None) r) as (X & Y & Z).
      eexists. split; [|split; [|split; [|reflexivity]]]; auto. unfold close_neg. rewrite Z. cbn [r_not]. rewrite flush_with_cat; auto. }
    assert (J : reads_conj (RNot r)).
    { intros [_ F]. apply neg_conj; auto. cbn [fits]. auto. }
    splits; auto.
    + intros [X _]. destruct X as [X|[X|X]]; discriminate X.
    + intros [X _]. destruct X as [X|[X|X]]; discriminate X.
    + intros [_ F]. apply conj_alt; auto. cbn [fits]. auto.
  - destruct IHr1 as (_ & _ & _ & J1 & _). destruct IHr2 as (_ & _ & N2 & _).
    assert (J : reads_conj (RAnd r1 r2)).
    { intros (_ & F1 & F2) rest a st. cbn [toks]. rewrite <- app_assoc. cbn [app].
      destruct (J1 F1 (KAnd :: toks r2 ++ rest) a st) as (g & A & C & ->). rewrite parse_loop_cons, C, A.
      destruct (N2 F2 rest a (Some r1) st) as (h & A' & B' & C' & E'). exists h. splits; auto. unfold close_conj. rewrite B', C'. reflexivity. }
    splits; auto.
    + intros [X _]. destruct X as [X|X]; discriminate X.
    + intros [X _]. destruct X as [X|X]; discriminate X.
    + intros [X _]. destruct X as [X|X]; discriminate X.
    + intros [_ F]. apply conj_alt; auto. cbn [fits]. auto.
  - destruct IHr1 as (_ & _ & _ & _ & A1). destruct IHr2 as (_ & _ & _ & J2 & _). splits.
    + intros [X _]. discriminate X.
    + intros [X _]. discriminate X.
    + intros [X _]. discriminate X.
    + intros [X _]. discriminate X.
    + intros (_ & F1 & F2) rest st. cbn [toks]. rewrite <- app_assoc. cbn [app].
      destruct (A1 F1 (KOr :: toks r2 ++ rest) st) as (g & C & ->). rewrite parse_loop_cons, C.
      destruct (J2 F2 rest (Some r1) st) as (h & A' & C' & E'). exists h. splits; auto. unfold close_alt. rewrite A', C'. reflexivity.
Qed.

Lemma parse_complete : forall w r, derives Alternative w r -> parse w = Some r.
Proof.
  intros w r H. apply derives_fits in H. destruct H as [-> F]. unfold parse. destruct (reads r) as (_ & _ & _ & _ & A).
  destruct (A F [] []) as (g & C & E). rewrite app_nil_r in E. rewrite E. cbn. rewrite C. reflexivity.
Qed.

(** ** What the parser returns is a tree of the grammar with the tokens read. *)
Definition ofits (s : sort) (o : option re) : Prop := match o with Some r => fits s r | None => True end.
Definition frame_ok (f : frame) : Prop :=
  ofits Alternative (r_alt f) /\ ofits Conjunction (r_conj f) /\ fits Concatenation (r_cat f) /\ ofits Termn (r_term f).
Definition otoks (o : option re) (sep : list token) : list token := match o with Some r => toks r ++ sep | None => [] end.
(** the tokens a frame, and the frames below it, have read *)
Definition ftoks (f : frame) : list token :=
  otoks (r_alt f) [KOr] ++ otoks (r_conj f) [KAnd] ++ (if r_not f then [KNot] else []) ++ toks (r_cat f) ++ otoks (r_term f) [].
Fixpoint stoks (st : list frame) : list token := match st with [] => [] | f :: st => stoks st ++ ftoks f ++ [KOpen] end.

Lemma close_ok : forall f, frame_ok f -> fits Concatenation (flush f) /\ fits Negation (close_neg f) /\ fits Conjunction (close_conj f) /\ fits Alternative (close_alt f) /\
  toks (close_alt f) = ftoks f /\ toks (close_conj f) = otoks (r_conj f) [KAnd] ++ (if r_not f then [KNot] else []) ++ toks (r_cat f) ++ otoks (r_term f) [].
Proof.
  intros f (A & B & C & D).
  assert (F1 : fits Concatenation (flush f)).
  { unfold flush. destruct (r_term f) as [t|]; auto. cbn [fits]. splits; auto; try discriminate. apply fits_up, D. }
  assert (T1 : toks (flush f) = toks (r_cat f) ++ otoks (r_term f) []).
  { unfold flush. destruct (r_term f) as [t|]; cbn; rewrite app_nil_r; auto. }
  assert (F2 : fits Negation (close_neg f)).
  { unfold close_neg. destruct (r_not f); [cbn [fits]; auto|apply fits_up, F1]. }
  assert (T2 : toks (close_neg f) = (if r_not f then [KNot] else []) ++ toks (r_cat f) ++ otoks (r_term f) []).
  { unfold close_neg. destruct (r_not f); cbn [toks app]; rewrite T1; auto. }
  assert (F3 : fits Conjunction (close_conj f)).
  { unfold close_conj. destruct (r_conj f); [cbn [fits]; auto|apply fits_up, F2]. }
  assert (T3 : toks (close_conj f) = otoks (r_conj f) [KAnd] ++ (if r_not f then [KNot] else []) ++ toks (r_cat f) ++ otoks (r_term f) []).
  { unfold close_conj. destruct (r_conj f); cbn [toks otoks app]; rewrite T2; auto. rewrite <- app_assoc. reflexivity. }
  assert (F4 : fits Alternative (close_alt f)).
  { unfold close_alt. destruct (r_alt f); [cbn [fits]; auto|apply fits_up, F3]. }
  splits; auto. unfold close_alt, ftoks. destruct (r_alt f); cbn [toks otoks app]; rewrite T3; auto. rewrite <- app_assoc. reflexivity.
Qed.
Lemma with_term_ok : forall f t, frame_ok f -> fits Termn t -> frame_ok (with_term f t) /\ ftoks (with_term f t) = ftoks f ++ toks t.
Proof.
  intros f t F H. split.
  - destruct (close_ok f F) as (X & _). destruct F as (A & B & _ & _). unfold frame_ok, with_term; cbn [r_alt r_conj r_cat r_term ofits]. auto.
  - unfold ftoks, with_term, flush; cbn [r_alt r_conj r_not r_cat r_term otoks]. rewrite app_nil_r. destruct (r_term f); cbn [toks otoks]; rewrite ?app_nil_r, <- ?app_assoc; reflexivity.
Qed.

Lemma parse_loop_sound : forall w f st r, frame_ok f -> Forall frame_ok st -> parse_loop w f st = Some r ->
  fits Alternative r /\ toks r = stoks st ++ ftoks f ++ w.
Proof.
  induction w as [|k w IH]; intros f st r F S H.
  - cbn in H. destruct st; [|discriminate]. injection H as <-. destruct (close_ok f F) as (_ & _ & _ & A & B & _). split; auto. cbn [stoks app]. rewrite app_nil_r. exact B.
  - assert (TERM : forall t, fits Termn t -> parse_loop w (with_term f t) st = Some r -> fits Alternative r /\ toks r = stoks st ++ ftoks f ++ toks t ++ w).
    { intros t Ft Ht. destruct (with_term_ok f t F Ft) as [X Y]. apply IH in Ht; auto. rewrite Y in Ht. rewrite <- app_assoc in Ht. exact Ht. }
    destruct (close_ok f F) as (FL & FN & FJ & FA & TA & TJ). pose proof F as (A & B & C & D).
    rewrite parse_loop_cons in H. destruct k.
    + apply TERM in H; cbn; auto.
    + destruct (r_term f) as [t|] eqn:E; [|discriminate]. apply IH in H; auto.
      * destruct H as [H1 H2]. split; auto. rewrite H2. unfold ftoks; cbn [r_alt r_conj r_not r_cat r_term otoks toks]. rewrite E; cbn [otoks]. rewrite <- !app_assoc. reflexivity.
      * unfold frame_ok; cbn [r_alt r_conj r_cat r_term ofits fits]. cbn in D. splits; auto; discriminate.
    + apply TERM in H; cbn; auto.
    + apply IH in H; auto.
      * destruct H as [H1 H2]. split; auto. rewrite H2. unfold ftoks at 1; cbn [r_alt r_conj r_not r_cat r_term otoks toks app]. rewrite TJ. unfold ftoks. rewrite !app_nil_r, <- !app_assoc. reflexivity.
      * unfold frame_ok; cbn [r_alt r_conj r_cat r_term ofits fits]. splits; auto; discriminate.
    + destruct (r_not f) eqn:E1; [discriminate|]. destruct (r_cat f) eqn:E2; try discriminate. destruct (r_term f) eqn:E3; [discriminate|]. apply IH in H; auto.
      * destruct H as [H1 H2]. split; auto. rewrite H2. unfold ftoks; cbn [r_alt r_conj r_not r_cat r_term otoks toks app]. rewrite E1, E2, E3. cbn [toks otoks app]. rewrite <- !app_assoc. reflexivity.
      * unfold frame_ok; cbn [r_alt r_conj r_cat r_term ofits fits]. splits; auto; discriminate.
    + apply IH in H; auto.
      * destruct H as [H1 H2]. split; auto. rewrite H2. unfold ftoks at 1; cbn [r_alt r_conj r_not r_cat r_term otoks toks app]. rewrite TA. rewrite !app_nil_r, <- !app_assoc. reflexivity.
      * unfold frame_ok; cbn [r_alt r_conj r_cat r_term ofits fits]. splits; auto; discriminate.
    + apply IH in H; [|unfold frame_ok; cbn; splits; auto; discriminate|constructor; auto].
      destruct H as [H1 H2]. split; auto. rewrite H2. cbn. rewrite <- !app_assoc. reflexivity.
    + destruct st as [|g st]; [discriminate|]. inversion S as [|? ? G S']; subst.
      destruct (with_term_ok g (RGroup (close_alt f)) G) as [X Y]; [cbn [fits]; auto|]. apply IH in H; auto.
      destruct H as [H1 H2]. split; auto. rewrite H2, Y. cbn [toks stoks]. rewrite TA, <- !app_assoc. cbn [app]. rewrite <- !app_assoc. reflexivity.
    + apply TERM in H; cbn; auto.
    + apply TERM in H; cbn; auto.
Qed.
Lemma parse_sound : forall w r, parse w = Some r -> derives Alternative w r.
Proof.
  intros w r H. apply parse_loop_sound in H; [|unfold frame_ok; cbn; splits; auto; discriminate|constructor]. cbn in H. destruct H as [A <-]. apply fits_derives, A.
Qed.
