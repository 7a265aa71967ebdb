(** Patterns without operators in a Regexp: substring search, with and without anchors. *)
From Coq Require Import List Bool Arith NArith Lia.
From Verif Require Import Util Spec PartitionModel FsmModel FsmSem FsmBasics Api EncModel EncSpec RunModel RunSpec ScannerModel ScannerSpec ScannerApi SimpleModel
  RegexModel RegexSpec RegexParse RegexProofs RegexUser LexModel LexSpec LexItems LexTotal LexUser EasyModel EasyProofs.
Import ListNotations.

Lemma mark_split : forall bs u q, Forall byte bs -> bs ++ [EndMark] = u ++ EndMark :: q -> bs = u /\ q = [].
Proof.
  induction bs as [|c bs IH]; intros [|d u] q F E; cbn [app] in E.
  - injection E as <-. auto.
  - injection E as _ E. destruct u; discriminate.
  - injection E as -> _. inversion F as [|? ? H ?]; subst. unfold byte, EndMark in H. lia.
  - injection E as -> E. inversion F; subst. destruct (IH u q H2 E) as [-> ->]. auto.
Qed.
Lemma no_mark : forall bs m, Forall byte bs -> (256 <= m)%N -> ~ In m bs.
Proof. intros bs m F H X. rewrite Forall_forall in F. apply F in X. unfold byte in X. lia. Qed.
Lemma infix_marks : forall ab ae bs u, Forall byte bs -> Forall byte u ->
  (exists p q, BeginMark :: bs ++ [EndMark] = p ++ (mark_if ab BeginMark ++ u ++ mark_if ae EndMark) ++ q) <->
  (exists p q, bs = p ++ u ++ q /\ (ab = true -> p = []) /\ (ae = true -> q = [])).
Proof.
  intros ab ae bs u Fb Fu.
  assert (X : forall p q, bs ++ [EndMark] = p ++ (u ++ mark_if ae EndMark) ++ q -> exists p' q', bs = p' ++ u ++ q' /\ (p = [] -> p' = []) /\ (ae = true -> q' = [])).
  { intros p q E. destruct ae; cbn [mark_if] in E.
    - rewrite <- !app_assoc, app_assoc in E. cbn [app] in E. apply mark_split in E; auto. destruct E as [-> _]. exists p, []. rewrite app_nil_r. auto.
    - rewrite app_nil_r in E. destruct q as [|z q _] using rev_ind.
      + rewrite app_nil_r in E. destruct u as [|c u]; [exists [], bs; splits; auto; discriminate|]. exfalso.
        assert (Y : In EndMark (c :: u)).
        { destruct (@exists_last _ (c :: u) ltac:(discriminate)) as (v & y & Ey). rewrite Ey, app_assoc in E. apply app_inj_tail in E. destruct E as [_ ->]. rewrite Ey. apply in_or_app. right. left. reflexivity. }
        exact (no_mark _ EndMark Fu ltac:(unfold EndMark; lia) Y).
      + rewrite !app_assoc in E. apply app_inj_tail in E. destruct E as [-> _]. exists p, q. rewrite <- app_assoc. splits; auto. discriminate. }
  split.
  - intros (p & q & E). destruct ab; cbn [mark_if app] in E.
    + destruct p as [|d p]; cbn [app] in E.
      * injection E as E. destruct (X [] q E) as (p' & q' & -> & Hp & Hq). exists p', q'. auto.
      * exfalso. injection E as _ E. apply (no_mark (bs) BeginMark Fb ltac:(unfold BeginMark; lia)).
        assert (Y : In BeginMark (bs ++ [EndMark])) by (rewrite E; apply in_or_app; right; left; reflexivity).
        apply in_app_or in Y. destruct Y as [Y|[Y|[]]]; [exact Y|discriminate Y].
    + destruct p as [|d p]; cbn [app] in E.
      * destruct u as [|c u]; cbn [app] in E.
        -- destruct ae; cbn [mark_if app] in E; [discriminate E|]. exists [], bs. splits; auto; discriminate.
        -- exfalso. injection E as <- _. inversion Fu as [|? ? H ?]; subst. unfold byte, BeginMark in H. lia.
      * injection E as _ E. destruct (X p q E) as (p' & q' & -> & Hp & Hq). exists p', q'. splits; auto. discriminate.
  - intros (p & q & -> & Hp & Hq). exists (if ab then [] else BeginMark :: p), (if ae then [] else q ++ [EndMark]).
    destruct ab; [rewrite Hp by auto|]; (destruct ae; [rewrite Hq by auto|]); cbn [mark_if app]; rewrite ?app_nil_r, <- ?app_assoc; reflexivity.
Qed.

Definition anchors (a : bool) (i : item) : list item := if a then [i] else [].
Lemma encodes_bytes : forall T ds x, (forall c, Forall byte (T c)) -> encodes T ds x -> Forall byte x.
Proof. intros T ds x H E. induction E; [constructor|apply Forall_app; auto]. Qed.

Section Literal.
  Variables (k : kind) (b0 b1 b2 : N) (added : list feature) (icase andnot ab ae : bool) (is : list item) (cs : list N) (e : encoding) (D : lang) (text : list N).
  Hypotheses (K : k_nmask k <= 64) (A1 : user_address b1) (A2 : user_address b2) (O : options added icase andnot) (F : Forall (item_ok andnot) is)
    (Hl : Forall2 literal is cs) (E : shipped e D) (T : from_local_all e text = Ok (pattern_text (anchors ab IBegin ++ is ++ anchors ae IEnd)))
    (Sz : forall f, parse_local added e text = Ok f -> (N.of_nat (size f) <= 4294967294)%N).

  Lemma regexp_literal : exists y, regexp_init k b0 b1 b2 added e text = Ok y /\ forall i m b bs, text_at m b bs ->
    exists res, regexp_matches k y i m b (b + N.of_nat (length bs)) = Ok res /\
      (res = true <-> exists p u q ds, bs = p ++ u ++ q /\ (ab = true -> p = []) /\ (ae = true -> q = []) /\ Forall2 (lit icase) cs ds /\ encodes (e_to e) ds u).
  Proof.
    assert (F' : Forall (item_ok andnot) (anchors ab IBegin ++ is ++ anchors ae IEnd)).
    { apply Forall_app. split; [destruct ab; constructor; [exact I|constructor]|]. apply Forall_app. split; auto. destruct ae; constructor; [exact I|constructor]. }
    destruct (regexp_init_ok k b0 b1 b2 added icase andnot _ e D text K A1 A2 O F' E T Sz) as (ts & M & P).
    apply Forall2_app_inv_l in M. destruct M as (t1 & t23 & M1 & M & ->). apply Forall2_app_inv_l in M. destruct M as (t2 & t3 & M2 & M3 & ->).
    assert (Kt : Forall (fun t => exists ss, t = KLetters ss false) t2).
    { clear - Hl M2. revert t2 M2. induction Hl as [|i c is cs L H IH]; intros ts M; inversion M; subst; constructor; auto.
      destruct (literal_letters icase i c y L H2) as (l & -> & _). eauto. }
    set (r1 := if ab then RCat REps RBegin else REps).
    assert (G1 : derives Concatenation t1 r1).
    { unfold r1. destruct ab; cbn [anchors] in M1; inversion M1 as [|? t ? ? H H']; subst; [|constructor]. inversion H'; subst. cbn in H. subst t.
      change [KBegin] with ([] ++ [KBegin]). apply g_cat; [constructor|]. apply g_iter_term, g_begin. }
    pose proof (letters_derives t2 t1 r1 G1 Kt) as G2.
    assert (R1 : regular r1 /\ ~ negates r1) by (unfold r1; destruct ab; cbn; tauto).
    destruct (letters_regular t2 r1 (proj1 R1) (proj2 R1) Kt) as [R2 N2].
    pose proof (letters_den (e_to e) D icase is cs t2 Hl M2 r1) as L2.
    set (r2 := fold_left _ t2 r1) in *. clearbody r2.
    set (r3 := if ae then RCat r2 REnd else r2).
    assert (G3 : derives Concatenation ((t1 ++ t2) ++ t3) r3).
    { unfold r3. destruct ae; cbn [anchors] in M3; inversion M3 as [|? t ? ? H H']; subst; [|rewrite app_nil_r; exact G2]. inversion H'; subst. cbn in H. subst t.
      apply g_cat; auto. apply g_iter_term, g_end. }
    assert (R3 : regular r3 /\ ~ negates r3) by (unfold r3; destruct ae; cbn; tauto). rewrite <- app_assoc in G3.
    assert (G : derives Alternative (t1 ++ t2 ++ t3) r3) by (apply g_alt_conj, g_conj_neg, g_neg_cat; exact G3).
    destruct (P r3 G (proj1 R3)) as [(y & Ey & Q)|[_ X]]; [|exfalso; apply R3, X]. exists y. split; auto. intros i m b bs Hm.
    destruct (Q i m b bs Hm) as (res & Er & I). exists res. split; auto. rewrite I. clear Q I Er.
    assert (L3 : forall x, re_den (e_to e) D r3 x <-> exists u ds, x = mark_if ab BeginMark ++ u ++ mark_if ae EndMark /\ Forall2 (lit icase) cs ds /\ encodes (e_to e) ds u).
    { assert (L1 : forall x, re_den (e_to e) D r1 x <-> x = mark_if ab BeginMark).
      { intros x. unfold r1. destruct ab; cbn [re_den mark_if]; [|reflexivity]. unfold L_cat, L_eps, L_letter. split.
        - intros (? & ? & -> & -> & ->). reflexivity.
        - intros ->. exists [], [BeginMark]. auto. }
      assert (L2' : forall x, re_den (e_to e) D r2 x <-> exists u ds, x = mark_if ab BeginMark ++ u /\ Forall2 (lit icase) cs ds /\ encodes (e_to e) ds u).
      { intros x. rewrite L2. split.
        - intros (u & v & ds & -> & A & B). apply L1 in A. subst u. eauto.
        - intros (u & ds & -> & B). exists (mark_if ab BeginMark), u, ds. rewrite L1. auto. }
      intros x. unfold r3. destruct ae; cbn [re_den mark_if].
      - unfold L_cat, L_letter. split.
        + intros (v & z & -> & A & ->). apply L2' in A. destruct A as (u & ds & -> & B). exists u, ds. rewrite <- app_assoc. auto.
        + intros (u & ds & -> & B). exists (mark_if ab BeginMark ++ u), [EndMark]. rewrite L2', <- app_assoc. splits; auto. eauto.
      - rewrite L2'. split; intros (u & ds & -> & B); exists u, ds; rewrite app_nil_r; auto. }
    pose proof (fun c => ge_to e D (shipped_good e D E) c) as Bt. unfold contains. split.
    - intros (p & w & q & Ew & Hw). apply L3 in Hw. destruct Hw as (u & ds & -> & B).
      destruct (proj1 (infix_marks ab ae bs u (proj1 (proj1 (proj2 Hm))) (encodes_bytes _ _ _ Bt (proj2 B)))) as (p' & q' & -> & Hp & Hq); [eauto|].
      exists p', u, q', ds. splits; auto; apply B.
    - intros (p & u & q & ds & Eb & Hp & Hq & B).
      destruct (proj2 (infix_marks ab ae bs u (proj1 (proj1 (proj2 Hm))) (encodes_bytes _ _ _ Bt (proj2 B)))) as (p' & q' & Ep); [eauto|].
      exists p', (mark_if ab BeginMark ++ u ++ mark_if ae EndMark), q'. split; auto. apply L3. eauto.
  Qed.
End Literal.
