(** The lexer with the feature Capture stops on every text, with one flag for each count. *)
From Coq Require Import List Bool Arith NArith ZArith Lia.
From Verif Require Import Util Spec RegexModel EncModel EncProofs UniModel LexModel LexSpec UniFacts LexProofs LexItems LexTotal MarkLexModel MarkLexSpec MarkLex.
Import ListNotations.
Local Open Scope N_scope.

Lemma peek_cons : forall s c, peek_char s = c -> c <> End -> exists r, s = c :: r.
Proof. intros [|d r] c H N; cbn in H; [congruence|subst; eauto]. Qed.
Lemma capture_cases : forall c, capture_accepts c = true -> c = 40 \/ c = 43 \/ c = 42 \/ c = 63 \/ c = 123.
Proof. intros c H. unfold capture_accepts in H. repeat (apply orb_prop in H as [H|H]); apply N.eqb_eq in H; auto 6. Qed.
(** What Lex does on a text that begins with a character it accepts. *)
Lemma capture_lex_cases : forall c r, capture_accepts c = true -> exists g r', (length r' <= length r)%nat /\
  ((c = 40 /\ capture_lex (c :: r) = Ok (Some TOpen, None, r')) \/
   (exists lo hi, capture_lex (c :: r) = Ok (Some (TCount lo hi), Some g, r')) \/
   (c = 123 /\ capture_lex (c :: r) = Ok (None, Some g, 123 :: r'))).
Proof.
  intros c r A.
  assert (K : exists g r', (length r' <= length r)%nat /\ (if peek_char r =? 63 then let* (_, s) := get_char r in Ok (Some false, s) else Ok (Some true, r)) = Ok (Some g, r')).
  { destruct (peek_char r =? 63) eqn:E; [|eauto]. apply N.eqb_eq in E. destruct (peek_cons _ _ E) as (r1 & ->); [discriminate|].
    rewrite get_plain by lia. cbn [bind]. exists false, r1. split; [cbn; lia|reflexivity]. }
  destruct K as (g & r' & L & K). destruct (capture_cases c A) as [->|C].
  - exists g, r. split; [lia|]. left. split; reflexivity.
  - exists g, r'. split; [exact L|]. right. unfold capture_lex. rewrite get_plain by lia. cbn [bind]. rewrite A. cbn [negb].
    destruct C as [->|[->|[->| ->]]]; cbn [N.eqb Pos.eqb]; rewrite K; cbn [bind]; eauto. 
Qed.
Lemma lex_count_counts : forall r t s', lex_count (123 :: r) = Ok (t, s') -> exists lo hi, t = TCount lo hi.
Proof.
  intros r t s' E. unfold lex_count in E. rewrite get_plain in E by lia. cbn [bind] in E. replace ((123 =? ctl 123) || (123 =? ctl 125))%bool with false in E by reflexivity.
  destruct (get_char r) as [[c1 s1]|?| |]; cbn [bind] in E; try discriminate. destruct (negb _); [discriminate|].
  destruct (read_count _ _ _ _) as [[[lo c2] s2]|?| |]; cbn [bind] in E; try discriminate. destruct (c2 =? 125); [injection E as <- _; eauto|].
  destruct (negb _); [discriminate|]. destruct (get_char s2) as [[c3 s3]|?| |]; cbn [bind] in E; try discriminate.
  destruct (c3 =? 125); [injection E as <- _; eauto|]. destruct (negb _); [discriminate|].
  destruct (read_count _ _ _ _) as [[[hi c4] s4]|?| |]; cbn [bind] in E; try discriminate. destruct (negb _); [discriminate|]. injection E as <- _. eauto.
Qed.
Lemma do_lex_m_leaves : forall fs s, leaves (length s) (do_lex_m fs s) /\
  forall t g s', do_lex_m fs s = Ok (t, g, s') -> t = TFinish \/ (length s' < length s)%nat.
Proof.
  intros fs s. unfold do_lex_m. destruct (get_char s) as [[c s1]|e| |] eqn:G; cbn [bind];
    [|destruct (get_cases s) as [[-> X]|[X|(c0 & s0 & X & _)]]; rewrite X in G; try discriminate; injection G as <-; split; [reflexivity|discriminate]
     |destruct (get_cases s) as [[-> X]|[X|(c0 & s0 & X & _)]]; rewrite X in G; discriminate
     |destruct (get_cases s) as [[-> X]|[X|(c0 & s0 & X & _)]]; rewrite X in G; discriminate].
  destruct (get_weight _ _ _ G) as [W _]. rewrite <- unget_length in W. set (s2 := unget_char c s1) in *. clearbody s2. clear G.
  destruct (peek_char s2 =? End) eqn:E; [split; [cbn; lia|intros t g s' X; injection X as <- <- <-; auto]|].
  assert (P : forall r : res (term * option bool * list N), leaves (pred (length s)) r -> (0 < length s)%nat -> leaves (length s) r /\ forall t g s', r = Ok (t, g, s') -> t = TFinish \/ (length s' < length s)%nat).
  { intros r Hr L. split; [eapply leaves_le; [exact Hr|lia]|]. intros t g s' ->. cbn in Hr. right. lia. }
  destruct s2 as [|d r]; [discriminate E|]. cbn [peek_char] in *. cbn [length] in W.
  assert (Q : forall (g : option bool) r', (length r' <= length r)%nat -> leaves (pred (length s))
    match find (fun f => feature_accepts f d) fs with
    | Some f => let* (t, s) := feature_lex f (d :: r') in Ok (t, g, s)
    | None => let* (c, s) := get_char (d :: r') in Ok (lex_plain c, g, s) end).
  { intros g r' L. destruct (find _ fs) as [f|].
    - eapply leaves_bind; [apply feature_leaves|]. intros t s3 _ L3. cbn in L3 |- *. lia.
    - eapply leaves_bind; [apply get_leaves|]. intros t s3 _ L3. cbn in L3 |- *. lia. }
  destruct (capture_accepts d) eqn:A.
  - destruct (capture_lex_cases d r A) as (g & r' & L & [(-> & ->)|[(lo & hi & ->)|(-> & ->)]]); cbn [bind]; apply P; try lia; try (cbn; lia). apply Q, L.
  - cbn [bind]. apply P; [|lia]. apply Q, le_n.
Qed.
Lemma lex_m_leaves : forall fs s, leaves (length s) (lex_m fs s) /\ forall t g s', lex_m fs s = Ok (Some t, g, s') -> (length s' < length s)%nat.
Proof.
  intros fs s. unfold lex_m. destruct (do_lex_m_leaves fs s) as [L D]. destruct (do_lex_m fs s) as [[[t g] s1]|e| |]; cbn [bind]; cbn in L; try (split; [exact L|discriminate]).
  destruct (alter_all_plain fs t) as [P Q]. destruct (alter_all fs t) as [t1|e| |]; cbn in P; cbn [bind]; try contradiction; [|split; [exact P|discriminate]].
  destruct (check_plain t1) as [->| ->]; cbn [bind]; [|split; [reflexivity|discriminate]]. split; [exact L|].
  intros tk g' s' X. injection X as T _ <-. destruct (D t g s1 eq_refl) as [->|]; auto.
  destruct (Q t1 eq_refl) as [Q1 _]. rewrite (Q1 eq_refl) in T. discriminate.
Qed.
Lemma lex_loop_m_total : forall fs fuel s, (length s < fuel)%nat ->
  (exists p, lex_loop_m fs fuel s = Ok p) \/ lex_loop_m fs fuel s = Throw ESyntax \/ lex_loop_m fs fuel s = UB.
Proof.
  intros fs. induction fuel as [|k IH]; intros s L; [lia|]. cbn [lex_loop_m]. destruct (lex_m_leaves fs s) as [P D].
  destruct (lex_m fs s) as [[[[t|] g] s1]|e| |]; cbn [bind]; cbn in P; auto; [|left; eauto|subst; auto|contradiction].
  specialize (D t g s1 eq_refl). destruct (IH s1 ltac:(lia)) as [([ts gs] & ->)|[->| ->]]; cbn [bind]; eauto.
Qed.
Theorem lex_all_m_total : forall fs s, (exists ts gs, lex_all_m fs s = Ok (ts, gs)) \/ lex_all_m fs s = Throw ESyntax \/ lex_all_m fs s = UB.
Proof. intros fs s. destruct (lex_loop_m_total fs (S (length s)) s ltac:(lia)) as [([ts gs] & E)|E]; [left; eauto|right; exact E]. Qed.

(** ** One flag for each count *)
Lemma range_loop_letters : forall fuel c s cs n t s', range_loop fuel c s cs n = Ok (t, s') -> exists l m, t = TLetters l m.
Proof.
  induction fuel as [|k IH]; intros c s cs n t s' E; [discriminate|]. cbn [range_loop] in E. destruct (c =? End); [discriminate|].
  destruct (c =? ctl 93); [injection E as <- _; eauto|]. cbv zeta in E.
  destruct (if c =? ctl 120 then read_unicode (unget_char c s) else Ok (0, s)) as [[u s1]|?| |]; cbn [bind] in E; try discriminate.
  match type of E with bind ?x _ = _ => destruct x as [[cs1 s2]|?| |] end; cbn [bind] in E; try discriminate.
  destruct (get_char s2) as [[c2 s3]|?| |]; cbn [bind] in E; try discriminate. exact (IH _ _ _ _ _ _ E).
Qed.
Lemma lex_range_letters : forall s t s', lex_range s = Ok (t, s') -> exists l m, t = TLetters l m.
Proof.
  intros s t s' E. unfold lex_range in E. destruct (get_char s) as [[c1 s1]|?| |]; cbn [bind] in E; try discriminate. cbv zeta in E.
  destruct (_ || _)%bool; [injection E as <- _; unfold character; eauto|]. destruct (get_char s1) as [[c2 s2]|?| |]; cbn [bind] in E; try discriminate.
  destruct (_ =? _); [|exact (range_loop_letters _ _ _ _ _ _ _ E)]. destruct (get_char s2) as [[c3 s3]|?| |]; cbn [bind] in E; try discriminate.
  exact (range_loop_letters _ _ _ _ _ _ _ E).
Qed.
Definition uncounted (t : term) : Prop := forall lo hi, t <> TCount lo hi.
Lemma plain_uncounted : forall c, capture_accepts c = false -> uncounted (lex_plain c).
Proof.
  intros c A lo hi. unfold capture_accepts in A. repeat (apply orb_false_elim in A as [A ?]). unfold lex_plain.
  repeat match goal with H : (c =? _) = false |- _ => rewrite H; clear H end.
  repeat match goal with |- context [if ?b then _ else _] => destruct b end; discriminate.
Qed.
Lemma feature_uncounted : forall f c r t s', feature_accepts f c = true -> capture_accepts c = false -> c <> 92 -> feature_lex f (c :: r) = Ok (t, s') -> uncounted t.
Proof.
  intros f c r t s' F A N E lo hi ->. destruct f; cbn [feature_accepts feature_lex] in F, E; try discriminate.
  - destruct (read_unicode _) as [[x y]|?| |]; cbn [bind] in E; discriminate.
  - unfold capture_accepts in A. repeat (apply orb_false_elim in A as [A ?]). assert (G : ((c =? ctl 123) || (c =? ctl 125))%bool = true) by (destruct (c =? 123); [discriminate|exact F]).
    unfold lex_count in E. rewrite get_plain in E by auto. cbn [bind] in E. rewrite G in E. discriminate.
  - destruct (lex_range_letters _ _ _ E) as (l & m & X). discriminate.
  - rewrite get_plain in E by auto. cbn [bind] in E. repeat match type of E with (if ?b then _ else _) = _ => destruct b end; discriminate E.
Qed.
Lemma ctl_uncounted : forall d, uncounted (lex_plain (ctl d)).
Proof.
  intros d. apply plain_uncounted. unfold capture_accepts.
  assert (K : forall k, N.testbit k 15 = false -> (ctl d =? k) = false).
  { intros k H. apply N.eqb_neq. intros E. apply (f_equal (fun x => N.testbit x 15)) in E. unfold ctl in E. rewrite N.lor_spec, H in E. discriminate E. }
  repeat (apply orb_false_intro); apply K; reflexivity.
Qed.
Lemma find_brace : forall added icase andnot, options added icase andnot -> find (fun f => feature_accepts f 123) (features added) = Some FCount.
Proof.
  intros added icase andnot O. destruct (options_cases _ _ _ O) as [(-> & -> & ->)|[(-> & -> & ->)|[(-> & -> & ->)|([->| ->] & -> & ->)]]]; reflexivity.
Qed.
Lemma do_lex_m_flag : forall added icase andnot s t g s', options added icase andnot -> do_lex_m (features added) s = Ok (t, g, s') ->
  ((exists lo hi, t = TCount lo hi) /\ g <> None) \/ (uncounted t /\ g = None).
Proof.
  intros added icase andnot s t g s' O E. unfold do_lex_m in E. destruct (get_char s) as [[c s1]|e| |]; cbn [bind] in E; try discriminate.
  destruct (unget_char c s1) as [|d r]; cbn [peek_char] in E.
  { rewrite N.eqb_refl in E. injection E as <- <- _. right. split; [discriminate|reflexivity]. }
  destruct (d =? End); [injection E as <- <- _; right; split; [discriminate|reflexivity]|].
  destruct (capture_accepts d) eqn:A.
  - destruct (capture_lex_cases d r A) as (g' & r' & L & [(-> & X)|[(lo & hi & X)|(-> & X)]]); rewrite X in E; cbn [bind] in E.
    + injection E as <- <- _. right. split; [discriminate|reflexivity].
    + injection E as <- <- _. left. split; [eauto|discriminate].
    + rewrite (find_brace _ _ _ O) in E. cbn [feature_lex] in E. destruct (lex_count (123 :: r')) as [[t1 s3]|?| |] eqn:C; cbn [bind] in E; try discriminate.
      injection E as <- <- _. left. split; [exact (lex_count_counts _ _ _ C)|discriminate].
  - cbn [bind] in E. right. destruct (find _ (features added)) as [f|] eqn:F.
    + apply find_some in F as [_ F]. destruct (feature_lex f (d :: r)) as [[t1 s3]|?| |] eqn:C; cbn [bind] in E; try discriminate. injection E as <- <- _.
      split; [|reflexivity]. apply (feature_uncounted f d r t1 s3 F A); [|exact C]. intros ->. destruct f; discriminate F.
    + cbn [get_char] in E. destruct (d =? 92).
      * destruct r as [|d2 r]; cbn [bind] in E; [discriminate|]. injection E as <- <- _. split; [apply ctl_uncounted|reflexivity].
      * cbn [bind] in E. injection E as <- <- _. split; [apply plain_uncounted, A|reflexivity].
Qed.
Lemma alter_count : forall fs t t', alter_all fs t = Ok t' -> (exists lo hi, t = TCount lo hi /\ t' = TCount lo hi) \/ (uncounted t /\ uncounted t').
Proof.
  intros fs t t' E. unfold alter_all in E. revert t E. induction (rev fs) as [|f l IH]; intros t E; cbn [fold_left] in E.
  - injection E as <-. destruct t; try (right; split; discriminate). left. eauto.
  - cbn [bind] in E. destruct (alter f t) as [t1|e| |] eqn:X.
    + assert (K : (exists lo hi, t = TCount lo hi /\ t1 = TCount lo hi) \/ (uncounted t /\ uncounted t1)).
      { destruct t as [cs n|lo hi| | | | | | | | |]; try (injection X as <-; right; split; discriminate); [|injection X as <-; left; eauto].
        right. split; [discriminate|]. destruct f; cbn [alter] in X; try (injection X as <-; discriminate).
        destruct (alter_classes_eq cs n) as (cs' & _ & Y). rewrite Y in X. cbv zeta in X. destruct (_ && _)%bool in X; [discriminate|]. injection X as <-. discriminate. }
      destruct (IH t1 E) as [(lo & hi & -> & ->)|[U U']]; destruct K as [(lo' & hi' & -> & K)|[V V']]; try (exfalso; apply (V' lo hi); reflexivity); try (exfalso; apply (U lo' hi'); exact K).
      * left. injection K as <- <-. eauto.
      * right. auto.
    + exfalso. clear - E. induction l; cbn in E; [discriminate|auto].
    + exfalso. clear - E. induction l; cbn in E; [discriminate|auto].
    + exfalso. clear - E. induction l; cbn in E; [discriminate|auto].
Qed.
Theorem flags_counts : forall added icase andnot s ts gs r, options added icase andnot -> lex_all_m (features added) s = Ok (ts, gs) -> derives Alternative ts r -> MarkSpec.ncounts r = length gs.
Proof.
  intros added icase andnot s ts gs r O E D. rewrite (derives_counts _ _ _ D). clear D r. unfold lex_all_m in E. revert E. generalize (S (length s)). intros fuel. revert s ts gs.
  induction fuel as [|k IH]; intros s ts gs E; [discriminate|]. cbn [lex_loop_m] in E. unfold lex_m in E.
  destruct (do_lex_m (features added) s) as [[[t g] s1]|?| |] eqn:D; cbn [bind] in E; try discriminate. apply (do_lex_m_flag _ _ _ _ _ _ _ O) in D.
  destruct (alter_all (features added) t) as [t1|?| |] eqn:A; cbn [bind] in E; try discriminate. apply alter_count in A.
  destruct (check_plain t1) as [C|C]; rewrite C in E; cbn [bind] in E; [|discriminate].
  destruct (to_token t1) as [tk|] eqn:T; [|injection E as <- <-; reflexivity].
  destruct (lex_loop_m (features added) k s1) as [[ts1 gs1]|?| |] eqn:R; cbn [bind] in E; try discriminate. apply IH in R.
  injection E as <- <-. change (tk :: ts1) with ([tk] ++ ts1). rewrite count_tokens_app, R.
  destruct A as [(lo & hi & -> & ->)|[U U']]; destruct D as [[(lo' & hi' & X) G]|[V G]].
  - injection T as <-. destruct g; [reflexivity|congruence].
  - exfalso. apply (V lo hi). reflexivity.
  - exfalso. apply (U lo' hi'). exact X.
  - subst g. destruct t1; try discriminate T; try (injection T as <-; reflexivity). exfalso. apply (U' lo hi). reflexivity.
Qed.
