(** The lexer with the feature Capture reads the items of LexSpec.v as the one without it does, and
    a question mark behind *, + or ? as their being non-greedy. *)
From Coq Require Import List Bool Arith NArith ZArith Lia.
From Verif Require Import Util Spec PartitionModel FsmModel EncModel RegexModel UniModel LexModel LexSpec LexProofs LexItems MarkSpec MarkLexModel MarkLexSpec.
Import ListNotations.
Local Open Scope N_scope.

Definition with_flag (g : option bool) (r : res (term * list N)) : res (term * option bool * list N) :=
  let* (t, s) := r in Ok (t, g, s).
Lemma lex_m_of : forall fs s g o s', do_lex_m fs s = with_flag g (do_lex fs s) -> lex fs s = Ok (o, s') -> lex_m fs s = Ok (o, g, s').
Proof.
  intros fs s g o s' E L. unfold lex_m. rewrite E. unfold lex in L. unfold with_flag.
  destruct (do_lex fs s) as [[t s1]|?| |]; cbn [bind] in *; try discriminate.
  destruct (alter_all fs t) as [t2|?| |]; cbn [bind] in *; try discriminate.
  destruct (check_term t2) as [t3|?| |]; cbn [bind] in *; try discriminate. injection L as <- <-. reflexivity.
Qed.
(** The character looked at is none that Capture accepts. *)
Lemma do_lex_m_plain : forall fs s c t, c <> 92 -> ~ reserved c -> same s (c :: t) -> capture_accepts c = false -> do_lex_m fs s = with_flag None (do_lex fs s).
Proof.
  intros fs s c t H R S A. rewrite (do_lex_plain fs s c t H R S). unfold do_lex_m. rewrite (same_get _ _ S), get_plain by auto. cbn [bind].
  rewrite unget_plain by (apply not_end, R). cbn [peek_char]. replace (c =? End) with false by (symmetry; apply N.eqb_neq, not_end, R).
  rewrite A. cbn [bind]. rewrite get_plain by auto. unfold with_flag. destruct (find _ fs); reflexivity.
Qed.
Lemma ctl_not_capture : forall d, d < 255 -> capture_accepts (ctl d) = false.
Proof. intros d H. unfold capture_accepts. rewrite ctl_eq by lia. repeat (apply orb_false_intro); apply N.eqb_neq; lia. Qed.
Lemma do_lex_m_esc : forall fs s d t, d < 255 -> same s (92 :: d :: t) -> do_lex_m fs s = with_flag None (do_lex fs s).
Proof.
  intros fs s d t H S. rewrite (do_lex_esc fs s d t H S). unfold do_lex_m. rewrite (same_get _ _ S). cbn [get_char]. rewrite N.eqb_refl. cbn [bind].
  assert (E : ctl d <> End) by (rewrite ctl_eq by lia; unfold End; lia).
  rewrite unget_plain by auto. cbn [peek_char]. replace (ctl d =? End) with false by (symmetry; apply N.eqb_neq, E).
  rewrite (ctl_not_capture d H). cbn [bind]. rewrite get_plain by (rewrite ctl_eq by lia; lia). unfold with_flag. destruct (find _ fs); reflexivity.
Qed.
Lemma do_lex_m_brace : forall fs t, peek_char t <> 63 -> do_lex_m fs (123 :: t) = with_flag (Some true) (do_lex fs (123 :: t)).
Proof.
  intros fs t P. assert (R : ~ reserved 123) by (apply low_plain; reflexivity).
  rewrite (do_lex_plain fs _ 123 t) by (auto using same_refl; lia).
  unfold do_lex_m. rewrite get_plain by lia. cbn [bind]. rewrite unget_plain by (apply not_end, R). cbn [peek_char].
  replace (123 =? End) with false by reflexivity. replace (capture_accepts 123) with true by reflexivity.
  unfold capture_lex. rewrite get_plain by lia. cbn [bind]. replace (capture_accepts 123) with true by reflexivity. cbn [negb].
  replace (123 =? 40) with false by reflexivity. replace (123 =? 43) with false by reflexivity. replace (123 =? 42) with false by reflexivity.
  replace (123 =? 63) with false by reflexivity.
  replace (peek_char t =? 63) with false by (symmetry; apply N.eqb_neq, P). cbn [bind]. rewrite unget_plain by (apply not_end, R).
  rewrite get_plain by lia. unfold with_flag. destruct (find _ fs); reflexivity.
Qed.
Lemma do_lex_m_quick : forall fs c t, c = 42 \/ c = 43 \/ c = 63 ->
  do_lex_m fs (c :: 63 :: t) = Ok (lex_plain c, Some false, t) /\ (peek_char t <> 63 -> do_lex_m fs (c :: t) = Ok (lex_plain c, Some true, t)).
Proof.
  intros fs c t C. split.
  - destruct C as [->|[->| ->]]; reflexivity.
  - intros P. assert (Q : (peek_char t =? 63) = false) by (apply N.eqb_neq, P).
    assert (R : ~ reserved c) by (apply low_plain; lia). unfold do_lex_m. rewrite get_plain by lia. cbn [bind].
    rewrite unget_plain by (apply not_end, R). cbn [peek_char]. replace (c =? End) with false by (symmetry; apply N.eqb_neq, not_end, R).
    unfold capture_lex. rewrite get_plain by lia. cbn [bind]. rewrite Q. destruct C as [->|[->| ->]]; reflexivity.
Qed.
Lemma do_lex_m_open : forall fs t, do_lex_m fs (40 :: t) = Ok (TOpen, None, t).
Proof. reflexivity. Qed.
Lemma other_term_m : forall added icase andnot t tk g s' s, options added icase andnot -> (forall cs n, t <> TLetters cs n) ->
  to_token t = Some tk -> do_lex_m (features added) s = Ok (t, g, s') -> lex_m (features added) s = Ok (Some tk, g, s').
Proof.
  intros added icase andnot t tk g s' s O H T E. unfold lex_m. rewrite E. cbn [bind]. destruct (alter_other _ _ _ t O H) as [-> K]. cbn [bind].
  rewrite K. cbn [bind]. rewrite T. reflexivity.
Qed.

Definition flag_of (p : piece) : option bool := if counts (fst p) then Some (negb (snd p)) else None.
Lemma digit_peek : forall ds r, number_ok ds -> peek_char (ds ++ r) <> 63.
Proof. intros ds r H. destruct (first_digit ds r H) as (c & s & -> & D). cbn [peek_char]. unfold decdigit in D. lia. Qed.
Lemma lex_piece : forall added icase andnot i lazy s t, options added icase andnot -> item_ok andnot i -> (lazy = true -> quick i = true) ->
  (quick i = true -> lazy = false -> peek_char t <> 63) -> same s (piece_text (i, lazy) ++ t) -> starts t ->
  exists tk s', lex_m (features added) s = Ok (Some tk, flag_of (i, lazy), s') /\ same s' t /\ stands_for icase i tk.
Proof.
  intros added icase andnot i lazy s t O H Q P S St. unfold flag_of. cbn [fst snd]. unfold piece_text in S. cbn [fst snd] in S.
  destruct (quick i) eqn:K.
  - assert (C : exists c, item_text i = [c] /\ (c = 42 \/ c = 43 \/ c = 63) /\ counts i = true /\ (exists tk, to_token (lex_plain c) = Some tk /\ stands_for icase i tk) /\ forall cs n, lex_plain c <> TLetters cs n).
    { destruct i; try discriminate K; eexists; (split; [reflexivity|]); (split; [lia|]); (split; [reflexivity|]);
        (split; [eexists; split; reflexivity|]); intros cs n; discriminate. }
    destruct C as (c & Tx & C & Cn & (tk & T & M) & NL). rewrite Cn. rewrite Tx in S. rewrite <- app_assoc in S. cbn [app] in S.
    apply same_plain in S; [|lia]. subst s. exists tk, t. split; [|split; [apply same_refl|exact M]].
    destruct (do_lex_m_quick (features added) c t C) as [E1 E2].
    destruct lazy; cbn [app negb]; eapply (other_term_m added icase andnot); eauto.
  - assert (lazy = false) as -> by (destruct lazy; auto; discriminate Q; auto).
    rewrite app_nil_r in S.
    destruct (lex_item added icase andnot i s t O H S St) as (tk & s' & E & S' & M). exists tk, s'. split; [|auto].
    destruct i as [c|c|a b|ds|k neg|neg ms| | | | | | | | | |ds|ds|ds es| |]; try discriminate K; cbn [counts quick negb item_text app] in *.
    + destruct H as (I & R & W). eapply lex_m_of; [|exact E]. eapply do_lex_m_plain; [|exact R|exact S|].
      * intros ->. apply I. now left.
      * unfold capture_accepts. repeat (apply orb_false_intro); apply N.eqb_neq; intros ->; apply I; cbn; auto 20.
    + eapply lex_m_of; [|exact E]. eapply do_lex_m_esc; [|exact S]. cbn in H. destruct andnot; cbn in H; lia.
    + eapply lex_m_of; [|exact E]. eapply do_lex_m_esc; [|exact S]. reflexivity.
    + eapply lex_m_of; [|exact E]. eapply do_lex_m_esc; [|exact S]. reflexivity.
    + eapply lex_m_of; [|exact E]. eapply do_lex_m_esc; [|exact S]. destruct neg; [apply cls_upper_low|apply cls_low].
    + eapply lex_m_of; [|exact E]. eapply do_lex_m_plain; [| |exact S|reflexivity]; [lia|apply low_plain; reflexivity].
    + eapply lex_m_of; [|exact E]. eapply do_lex_m_plain; [| |exact S|reflexivity]; [lia|apply low_plain; reflexivity].
    + eapply lex_m_of; [|exact E]. eapply do_lex_m_plain; [| |exact S|reflexivity]; [lia|apply low_plain; reflexivity].
    + eapply lex_m_of; [|exact E]. eapply do_lex_m_plain; [| |exact S|reflexivity]; [lia|apply low_plain; reflexivity].
    + apply same_plain in S; [|lia]. subst s. eapply lex_m_of; [|exact E].
      rewrite do_lex_m_open, (do_lex_plain _ _ 40 t) by (auto using same_refl; try lia; apply low_plain; reflexivity).
      destruct (options_cases _ _ _ O) as [(-> & -> & ->)|[(-> & -> & ->)|[(-> & -> & ->)|([->| ->] & -> & ->)]]]; reflexivity.
    + eapply lex_m_of; [|exact E]. eapply do_lex_m_plain; [| |exact S|reflexivity]; [lia|apply low_plain; reflexivity].
    + eapply lex_m_of; [|exact E]. eapply do_lex_m_plain; [| |exact S|reflexivity]; [lia|apply low_plain; reflexivity].
    + apply same_plain in S; [|lia]. subst s. eapply lex_m_of; [|exact E]. apply do_lex_m_brace. rewrite <- app_assoc. apply digit_peek, H.
    + apply same_plain in S; [|lia]. subst s. eapply lex_m_of; [|exact E]. apply do_lex_m_brace. rewrite <- app_assoc. apply digit_peek, H.
    + apply same_plain in S; [|lia]. subst s. eapply lex_m_of; [|exact E]. apply do_lex_m_brace. rewrite <- app_assoc. apply digit_peek, H.
    + eapply lex_m_of; [|exact E]. eapply do_lex_m_plain; [| |exact S|reflexivity]; [lia|apply low_plain; reflexivity].
    + eapply lex_m_of; [|exact E]. eapply do_lex_m_plain; [| |exact S|reflexivity]; [lia|apply low_plain; reflexivity].
Qed.
Lemma pieces_start : forall andnot ps, pieces_ok andnot ps -> starts (pieces_text ps).
Proof.
  intros andnot [|[i q] ps] H; [left; reflexivity|]. cbn [pieces_text flat_map]. unfold piece_text. cbn [fst]. rewrite <- app_assoc. apply (item_starts andnot), H.
Qed.
Lemma pieces_peek : forall andnot ps, pieces_ok andnot ps -> (forall b r, ps <> (IOpt, b) :: r) -> peek_char (pieces_text ps) <> 63.
Proof.
  intros andnot [|[i q] ps] H N; [discriminate|]. destruct H as (H & _). cbn [pieces_text flat_map]. unfold piece_text. cbn [fst]. rewrite <- app_assoc.
  destruct i; cbn [item_text app peek_char]; try lia; try (exfalso; apply (N q ps); reflexivity).
  destruct H as (I & _). intros ->. apply I. cbn. auto 20.
Qed.
Lemma lex_pieces : forall added icase andnot ps fuel s, options added icase andnot -> pieces_ok andnot ps -> same s (pieces_text ps) ->
  (length ps < fuel)%nat -> exists ts, lex_loop_m (features added) fuel s = Ok (ts, pieces_greedy ps) /\ Forall2 (stands_for icase) (map fst ps) ts.
Proof.
  intros added icase andnot ps. induction ps as [|[i q] ps IH]; intros fuel s O F S L; destruct fuel as [|n]; try (cbn in L; lia); cbn [lex_loop_m].
  - destruct S as [->|(d & r & _ & E & _)]; [|discriminate]. cbn [pieces_text flat_map].
    rewrite (lex_m_of (features added) [] None None [] ltac:(reflexivity) (lex_end _ _ _ O)). cbn [bind]. exists []. split; [reflexivity|constructor].
  - cbn [pieces_text flat_map] in S. fold (pieces_text ps) in S. destruct F as (H & Q & N & F).
    assert (P : quick i = true -> q = false -> peek_char (pieces_text ps) <> 63) by (intros A B; apply (pieces_peek andnot); auto).
    destruct (lex_piece added icase andnot i q s _ O H Q P S (pieces_start _ _ F)) as (tk & s' & E & S' & M).
    rewrite E. cbn [bind]. destruct (IH n s' O F S' ltac:(cbn in L; lia)) as (ts & E2 & M2). rewrite E2. cbn [bind].
    exists (tk :: ts). split; [|constructor; assumption]. unfold flag_of, pieces_greedy. cbn [flat_map fst snd]. destruct (counts i); reflexivity.
Qed.
Lemma pieces_length : forall ps, (length ps <= length (pieces_text ps))%nat.
Proof.
  induction ps as [|[i q] ps IH]; cbn [pieces_text flat_map length]; [lia|]. fold (pieces_text ps). unfold piece_text. cbn [fst]. rewrite !app_length.
  assert (0 < length (item_text i))%nat; [|lia]. destruct i; cbn; lia.
Qed.
Theorem lex_all_m_ok : forall added icase andnot ps, options added icase andnot -> pieces_ok andnot ps ->
  exists ts, lex_all_m (features added) (pieces_text ps) = Ok (ts, pieces_greedy ps) /\ Forall2 (stands_for icase) (map fst ps) ts.
Proof.
  intros added icase andnot ps O F. apply (lex_pieces added icase andnot ps _ _ O F (same_refl _)). pose proof (pieces_length ps). lia.
Qed.

(** ** As many counts in the pattern as there are flags *)
Definition count_tokens (w : list token) : nat := length (filter (fun k => match k with KCount _ _ => true | _ => false end) w).
Lemma count_tokens_app : forall u v, count_tokens (u ++ v) = (count_tokens u + count_tokens v)%nat.
Proof. intros u v. unfold count_tokens. rewrite filter_app, app_length. reflexivity. Qed.
Lemma derives_counts : forall so w r, derives so w r -> ncounts r = count_tokens w.
Proof.
  intros so w r H. assert (K : forall k u, count_tokens (k :: u) = (count_tokens [k] + count_tokens u)%nat) by (intros k u; exact (count_tokens_app [k] u)).
  induction H; cbn [ncounts]; try assumption; try reflexivity; rewrite K || rewrite count_tokens_app; try rewrite count_tokens_app; try rewrite (K KOr); try rewrite (K KAnd); cbn; lia.
Qed.
Lemma stands_count : forall icase i t, stands_for icase i t -> count_tokens [t] = if counts i then 1%nat else 0%nat.
Proof. intros icase i t H. destruct i; cbn in H |- *; try (subst t; reflexivity); destruct H as (cs & -> & _); reflexivity. Qed.
Lemma pieces_counts : forall icase ps ts, Forall2 (stands_for icase) (map fst ps) ts -> count_tokens ts = length (pieces_greedy ps).
Proof.
  intros icase ps. induction ps as [|p ps IH]; intros ts H; inversion H as [|x t l ts' Hx Ht]; subst; [reflexivity|].
  change (t :: ts') with ([t] ++ ts'). rewrite count_tokens_app, (stands_count _ _ _ Hx), (IH _ Ht). unfold pieces_greedy. cbn [flat_map]. rewrite app_length.
  destruct (counts (fst p)); reflexivity.
Qed.
Theorem pattern_lexed : forall added icase andnot ps, options added icase andnot -> pieces_ok andnot ps ->
  exists ts, lex_all_m (features added) (pieces_text ps) = Ok (ts, pieces_greedy ps) /\ Forall2 (stands_for icase) (map fst ps) ts /\
    forall r, derives Alternative ts r -> ncounts r = length (pieces_greedy ps).
Proof.
  intros added icase andnot ps O F. destruct (lex_all_m_ok added icase andnot ps O F) as (ts & E & M). exists ts. split; [exact E|]. split; [exact M|].
  intros r D. rewrite (derives_counts _ _ _ D). exact (pieces_counts icase ps ts M).
Qed.
Lemma lazy_flags : forall ps, Forall (fun p => counts (fst p) = true -> snd p = true) ps -> Forall (fun b => b = false) (pieces_greedy ps).
Proof.
  intros ps H. induction H as [|[i q] ps Hp H IH]; [constructor|]. unfold pieces_greedy. cbn [flat_map fst snd] in *. destruct (counts i); [|exact IH].
  constructor; [|exact IH]. rewrite (Hp eq_refl). reflexivity.
Qed.
