(** The automaton the parser builds from a regular tree accepts exactly what the tree
    denotes. *)
From Coq Require Import List Bool Arith NArith ZArith Lia.
From Verif Require Import Util Spec PartitionModel FsmModel DetermineModel MinimizeModel Nfa NfaOps FsmSem FsmBasics FsmOps FsmOps2 FsmStrings DeadProofs CompProofs
  EncModel EncSpec EncDot Api ApiProofs BuildFacts EncProofs Expr ExprProofs RegexModel RegexSpec RegexParse.
Import ListNotations.
Local Opaque all_letters all_bytes.

(** An encoding does what the parser needs: [D] is the language its AppendDot appends. *)
Record good_encoding (e : encoding) (D : lang) : Prop := {
  ge_dot : forall f, wf f -> uncompressed f -> wf (e_dot e f) /\ uncompressed (e_dot e f) /\ lang_eq (accepts (e_dot e f)) (L_cat (accepts f) D);
  ge_built : forall f, built f -> uncompressed f -> built (e_dot e f);
  ge_det : forall f, determined (e_dot e f) = false;
  ge_some : ~ D [];
  ge_word : forall w, D w -> is_word w;
  ge_dec : forall w, D w \/ ~ D w;
  ge_to : forall c, Forall byte (e_to e c)
}.
Lemma byte_word : forall w, Forall byte w -> is_word w.
Proof. intros w H. eapply Forall_impl; [|exact H]. unfold byte, letter, Epsilon, MaxChar. intros c X. split; lia. Qed.
Lemma good_latin1 : good_encoding latin1 L_anybyte.
Proof.
  split.
  - intros f W U. cbn [e_dot latin1]. destruct (append_dot_ok f W U) as (A & B & C). auto.
  - intros f B U. apply built_dot; auto.
  - intros f. apply d_dot.
  - intros (c & _ & X). discriminate X.
  - intros w (c & Hc & ->). apply byte_word. auto.
  - intros w. destruct w as [|c [|d w]].
    + right. intros (c & _ & X). discriminate X.
    + destruct (N.lt_ge_cases c 256) as [H|H]; [left; exists c; auto|right]. intros (d & Hd & X). injection X as ->. unfold byte in Hd. lia.
    + right. intros (x & _ & X). discriminate X.
  - intros c. cbn [e_to latin1]. unfold latin1_to_local. destruct (N.ltb_spec c 128); auto. constructor; auto. unfold byte, uchar. apply N.mod_lt. discriminate.
Qed.
Lemma announces_byte : forall c n, announces c n -> byte c.
Proof. unfold announces, byte. intros c n H. lia. Qed.
Lemma good_utf8 : good_encoding utf8 L_utf8char.
Proof.
  split.
  - intros f W U. apply utf8_append_dot_ok; auto.
  - intros f B U. apply built_utf8_dot; auto.
  - intros f. apply d_utf8_dot.
  - intros (c & v & X & _). discriminate X.
  - intros w (c & v & -> & A & F). apply byte_word. constructor; [eapply announces_byte, A|]. eapply Forall_impl; [|exact F]. unfold continuation, byte. intros; lia.
  - intros w. destruct w as [|c v]; [right; intros (c & v & X & _); discriminate X|].
    assert (A : announces c (length v) \/ ~ announces c (length v)).
    { unfold announces. destruct (N.lt_ge_cases c 128), (N.lt_ge_cases c 192), (N.lt_ge_cases c 224), (N.lt_ge_cases c 240), (N.lt_ge_cases c 248);
        destruct (length v) as [|[|[|[|n]]]]; lia. }
    assert (F : Forall continuation v \/ ~ Forall continuation v).
    { destruct (Forall_dec continuation) with (l := v) as [X|X]; auto. intros x. unfold continuation.
      destruct (Z_lt_le_dec (Z.of_N x) 128) as [H1|H1]; [|destruct (Z_lt_le_dec (Z.of_N x) 192) as [H2|H2]]; [right|left|right]; lia. }
    destruct A as [A|A]; [|right; intros (c' & v' & X & A' & _); injection X as -> ->; auto].
    destruct F as [F|F]; [|right; intros (c' & v' & X & _ & F'); injection X as -> ->; auto].
    left. exists c, v. auto.
  - intros c. apply to_local_bytes.
Qed.

Lemma and_det : forall a b g, fsm_and a b = Ok g -> determined g = false.
Proof.
  intros a b g H. unfold fsm_and in H. apply bind_ok in H. destruct H as (ca & _ & H). apply bind_ok in H. destruct H as (cb & _ & H). eapply complement_det, H.
Qed.

(** ** Languages of repetitions *)
Lemma pow_add : forall L n m w, L_pow L (n + m) w <-> L_cat (L_pow L n) (L_pow L m) w.
Proof.
  intros L n m. induction m as [|m IH]; intros w.
  - rewrite Nat.add_0_r. cbn [L_pow]. split.
    + intros H. exists w, []. rewrite app_nil_r. splits; auto; reflexivity.
    + intros (u & v & -> & H & X). unfold L_eps in X. subst. rewrite app_nil_r. exact H.
  - rewrite Nat.add_succ_r. cbn [L_pow]. split.
    + intros (u & v & -> & H & X). apply IH in H. destruct H as (x & y & -> & Hx & Hy). exists x, (y ++ v). splits; auto; [apply app_assoc_reverse|]. exists y, v. auto.
    + intros (u & v & -> & H & (x & y & -> & Hx & Hy)). exists (u ++ x), y. splits; auto; [apply app_assoc|]. apply IH. exists u, x. auto.
Qed.
Lemma star_pow : forall L w, L_star L w <-> exists n, L_pow L n w.
Proof.
  intros L w. split.
  - intros H. induction H as [|u v H1 H2 [n IH]]; [exists 0; reflexivity|]. exists (1 + n). apply pow_add. exists u, v. splits; auto. exists [], u. splits; auto; reflexivity.
  - intros [n H]. revert w H. induction n as [|n IH]; intros w H; [rewrite H; constructor|].
    change (S n) with (1 + n) in H. apply pow_add in H. destruct H as (u & v & -> & (x & y & -> & Hx & Hy) & H). cbn [L_pow] in Hx. unfold L_eps in Hx. subst x. cbn [app]. constructor; auto.
Qed.
Lemma pow_opt : forall L M k w, lang_eq M (L_or L L_eps) -> (L_pow M k w <-> exists n, n <= k /\ L_pow L n w).
Proof.
  intros L M k w E. revert w. induction k as [|k IH]; intros w.
  - split; [intros H; exists 0; auto|]. intros (n & Hn & H). replace n with 0 in H by lia. exact H.
  - cbn [L_pow]. split.
    + intros (u & v & -> & H & X). apply IH in H. destruct H as (n & Hn & H). apply E in X. destruct X as [X|X].
      * exists (S n). split; [lia|]. exists u, v. auto.
      * unfold L_eps in X. subst v. rewrite app_nil_r. exists n. split; auto.
    + intros (n & Hn & H). destruct (Nat.eq_dec n (S k)) as [->|N].
      * destruct H as (u & v & -> & H & X). exists u, v. splits; auto; [apply IH; exists k; auto|apply E; left; auto].
      * exists w, []. rewrite app_nil_r. splits; auto; [apply IH; exists n; split; auto; lia|apply E; right; reflexivity].
Qed.
Lemma pow_one : forall L w, L_pow L 1 w <-> L w.
Proof.
  intros L w. split.
  - intros (u & v & -> & H & X). unfold L_eps in H. cbn in H. unfold L_eps in H. subst u. exact X.
  - intros H. exists [], w. splits; auto; reflexivity.
Qed.

(** ** Strings of a range *)
Lemma encode_iff : forall e s w, encode e s = w /\ w <> [] <-> s <> [] /\ encodes (e_to e) s w.
Proof.
  intros e. induction s as [|c s IH]; intros w.
  - cbn. split; [intros [<- X]; congruence|intros [X _]; congruence].
  - cbn [encode]. split.
    + intros [E N]. split; [discriminate|]. destruct (e_to e c) as [|b bs] eqn:T; [congruence|].
      destruct s as [|d s].
      * subst w. rewrite <- T. rewrite <- (app_nil_r (e_to e c)). constructor; [rewrite T; discriminate|constructor].
      * destruct (encode e (d :: s)) as [|x xs] eqn:R; [congruence|]. subst w. rewrite <- T. constructor; [rewrite T; discriminate|]. apply IH. split; auto. discriminate.
    + intros [_ H]. inversion H as [|? ? v N Hs]; subst. destruct (e_to e c) as [|b bs] eqn:T; [congruence|]. split; [|discriminate].
      destruct s as [|d s]; [inversion Hs; subst; rewrite app_nil_r; reflexivity|].
      destruct (proj2 (IH v)) as [R N']; [split; auto; discriminate|]. rewrite R. destruct v; [congruence|reflexivity].
Qed.
Lemma encode_bytes : forall e s, (forall c, Forall byte (e_to e c)) -> Forall byte (encode e s).
Proof.
  intros e s H. induction s as [|c s IH]; [constructor|]. cbn [encode]. pose proof (H c) as X. destruct (e_to e c) as [|b bs]; [constructor|].
  destruct s as [|d s]; auto. destruct (encode e (d :: s)); [constructor|]. apply Forall_app. auto.
Qed.

Section ENC.
  Variable e : encoding.
  Variable D : lang.
  Hypothesis G : good_encoding e D.
  Notation den := (re_den (e_to e) D).

  Definition fsm_for (r : re) (f : fsm) : Prop :=
    built f /\ lang_eq (accepts f) (den r) /\ determined f = false /\ (start_final f -> void r) /\
    (match r with REps | RCat _ _ => True | _ => False end -> uncompressed f).
  Definition value_for (r : re) (v : value) : Prop :=
    match v with
    | VFsm f => fsm_for r f
    | VRange ss n => r = RLetters ss n
    | VDot => r = RDot
    | VBegin => r = RBegin
    | VEnd => r = REnd
    end.

  Lemma append_range_ok : forall a ss, built a -> uncompressed a -> determined a = false ->
    exists g, append_range e a ss = Ok g /\ built g /\ uncompressed g /\ determined g = false /\
      lang_eq (accepts g) (L_cat (accepts a) (L_range (e_to e) ss)).
  Proof.
    intros a ss B U Da. unfold append_range.
    set (strings := filter _ (map (encode e) ss)).
    assert (S : forall w, In w strings <-> L_range (e_to e) ss w).
    { intros w. unfold strings. rewrite filter_In, in_map_iff. unfold L_range. split.
      - intros [(s & E & Hs) N]. exists s. assert (X : s <> [] /\ encodes (e_to e) s w) by (apply encode_iff; split; auto; destruct w; congruence). tauto.
      - intros (s & Hs & N & X). destruct (proj2 (encode_iff e s w)) as [E W]; auto. split; [exists s; auto|]. destruct w; congruence. }
    assert (P : forall s, In s strings -> s <> [] /\ Forall byte s).
    { intros s Hs. unfold strings in Hs. apply filter_In in Hs. destruct Hs as [Hs N]. apply in_map_iff in Hs. destruct Hs as (x & <- & _).
      split; [intros X; rewrite X in N; discriminate N|]. apply encode_bytes, G. }
    destruct strings as [|s0 strs] eqn:E.
    - exists make_false. splits; auto; [apply built_false|reflexivity|]. intros w. rewrite (make_false_lang w). split; [intros []|].
      intros (u & v & _ & _ & X). apply S in X. destruct X.
    - rewrite <- E in *. destruct (f_append_strings a strings B U P) as (g & Eg & Bg & Lg). exists g. splits; auto.
      + destruct (append_strings_ok a (built_wf _ B) strings U P) as (g' & E' & _ & U' & _). congruence.
      + eapply d_strings; [exact Da|exact Eg].
      + eapply lang_eq_trans; [exact Lg|]. apply L_cat_ext2; [intros w; tauto|]. intros w. apply S.
  Qed.
  Lemma range_some : forall ss, ~ L_range (e_to e) ss [].
  Proof. intros ss (s & _ & N & X). inversion X as [E|c s' w N' X' E H]; [congruence|]. apply app_eq_nil in H. destruct H as [H1 H2]. rewrite H1, H2 in N'. apply N'. reflexivity. Qed.
  Lemma new_cat : forall L, lang_eq (L_cat (accepts fsm_new) L) L.
  Proof.
    intros L w. split.
    - intros (u & v & -> & Hu & Hv). apply fsm_new_lang in Hu. unfold L_eps in Hu. subst u. exact Hv.
    - intros H. exists [], w. splits; auto. apply fsm_new_lang. reflexivity.
  Qed.

  Lemma cat_with : forall a b, built a -> built b -> ~ start_final b ->
    built (fsm_cat a b) /\ lang_eq (accepts (fsm_cat a b)) (L_cat (accepts a) (accepts b)) /\ determined (fsm_cat a b) = false /\ uncompressed (fsm_cat a b) /\ ~ start_final (fsm_cat a b).
  Proof.
    intros a b A B N. splits; [apply built_cat; auto|apply f_cat; auto|apply d_cat|apply fsm_cat_wf; apply built_wf; auto|apply cat_start; apply built_wf; auto].
  Qed.
  Lemma times_with : forall f n, built f -> ~ start_final f ->
    built (fsm_times f n) /\ lang_eq (accepts (fsm_times f n)) (L_pow (accepts f) n) /\ determined (fsm_times f n) = false /\ (n <> 0 -> ~ start_final (fsm_times f n)).
  Proof.
    intros f n B N. splits; [apply built_times; auto|apply f_times; auto|apply d_times; reflexivity|]. intros H. apply times_loop_start; auto; [apply built_wf; auto|apply fsm_new_wf].
  Qed.

  Lemma to_size_small : forall z, (0 <= z < 2147483648)%Z -> Z.of_nat (to_size z) = z.
  Proof. intros z H. unfold to_size. rewrite Z.mod_small by lia. lia. Qed.

  Lemma repeat_ok : forall f lo hi, built f -> count_ok lo hi -> (start_final f -> lo = 0%Z \/ lo = 1%Z /\ hi = Inf) ->
    let g := repeat_action f lo hi in
    built g /\ lang_eq (accepts g) (L_repeat (accepts f) lo hi) /\ determined g = false /\ (start_final g -> lo = 0%Z /\ hi = 0%Z).
  Proof.
    intros f lo hi B [C1 C2] N. cbn zeta. unfold repeat_action, Inf in *.
    destruct (Z.eqb_spec lo 0) as [E0|E0]; cbn [andb].
    - subst lo. destruct (Z.eqb_spec hi 1) as [E1|E1].
      { subst hi. splits.
        - apply built_or; [exact B|apply built_new].
        - eapply lang_eq_trans; [apply f_or; [exact B|apply built_new]|]. intros w. unfold L_or, L_repeat, Inf. rewrite (fsm_new_lang w). split.
          + intros [H|H]; [exists 1|exists 0]; splits; try lia; auto. apply pow_one; auto.
          + intros (n & _ & Hn & H). destruct n as [|[|n]]; [right; exact H|left; apply pow_one, H|exfalso; lia].
        - apply d_or.
        - intros X. exfalso. revert X. apply or_start; [apply built_wf, B|apply fsm_new_wf]. }
      cbn [andb]. destruct (Z.eqb_spec hi (-1)) as [E2|E2].
      { subst hi. splits.
        - apply built_iterate; auto.
        - eapply lang_eq_trans; [apply f_iterate; auto|]. intros w. rewrite star_pow. unfold L_repeat, Inf. split; [intros (n & H); exists n; splits; auto; lia|intros (n & _ & _ & H); eauto].
        - apply d_iter.
        - intros X. exfalso. revert X. apply iterate_start. }
      change (to_size 0) with 0. replace (Z.eqb 0 1) with false by reflexivity. cbn [andb]. change (fsm_times f 0) with fsm_new. destruct (Z.eqb_spec hi 0) as [E3|E3].
      { subst hi. cbn [negb]. splits; [apply built_new| |reflexivity|intros _; auto]. intros w. rewrite (fsm_new_lang w). unfold L_repeat, Inf. split.
        - intros H. exists 0. splits; auto; lia.
        - intros (n & _ & Hn & H). replace n with 0 in H by lia. exact H. }
      cbn [negb]. rewrite Z.sub_0_r. set (o := fsm_or f fsm_new).
      assert (Bo : built o) by (apply built_or; [exact B|apply built_new]).
      assert (No : ~ start_final o) by (apply or_start; [apply built_wf, B|apply fsm_new_wf]).
      assert (Lo : lang_eq (accepts o) (L_or (accepts f) L_eps)).
      { eapply lang_eq_trans; [apply f_or; [exact B|apply built_new]|]. intros w. unfold L_or. rewrite (fsm_new_lang w). tauto. }
      destruct (times_with o (to_size hi) Bo No) as (Bt & Lt & _ & Nt).
      assert (Hh : Z.of_nat (to_size hi) = hi) by (apply to_size_small; lia).
      destruct (cat_with fsm_new (fsm_times o (to_size hi)) built_new Bt) as (Bc & Lc & Dc & _ & Nc); [apply Nt; lia|].
      splits; auto; [|intros X; exfalso; auto]. eapply lang_eq_trans; [exact Lc|]. intros w. rewrite (new_cat _ w), (Lt w), (pow_opt _ _ _ w Lo). unfold L_repeat, Inf. split.
      + intros (n & Hn & H). exists n. splits; auto; lia.
      + intros (n & _ & Hn & H). exists n. split; auto. lia.
    - assert (Hl : Z.of_nat (to_size lo) = lo) by (apply to_size_small; lia).
      assert (CAT : forall m M g, built g -> ~ start_final g -> lang_eq (accepts g) M -> forall h, built h -> lang_eq (accepts h) (L_pow (accepts f) m) ->
        built (fsm_cat h g) /\ lang_eq (accepts (fsm_cat h g)) (L_cat (L_pow (accepts f) m) M) /\ determined (fsm_cat h g) = false /\ ~ start_final (fsm_cat h g)).
      { intros m M g Bg Ng Lg h Bh Lh. destruct (cat_with h g Bh Bg Ng) as (A1 & A2 & A3 & _ & A4). splits; auto. eapply lang_eq_trans; [exact A2|]. apply L_cat_ext2; auto. }
      assert (STAR : forall m, Z.of_nat m = lo -> lang_eq (L_cat (L_pow (accepts f) m) (L_star (accepts f))) (L_repeat (accepts f) lo Inf)).
      { intros m Hm w. unfold L_repeat. split.
        - intros (u & v & -> & H1 & H2). apply star_pow in H2. destruct H2 as (n & H2). exists (m + n). splits; auto; [lia|]. apply pow_add. exists u, v. auto.
        - intros (n & H1 & _ & H2). replace n with (m + (n - m)) in H2 by lia. apply pow_add in H2. destruct H2 as (u & v & -> & H2 & H3). exists u, v. splits; auto. apply star_pow. eauto. }
      assert (GEN : ~ start_final f -> hi <> (-1)%Z -> let g := if negb (Z.eqb hi lo) then fsm_cat (fsm_times f (to_size lo)) (fsm_times (fsm_or f fsm_new) (to_size (hi - lo))) else fsm_times f (to_size lo) in
        built g /\ lang_eq (accepts g) (L_repeat (accepts f) lo hi) /\ determined g = false /\ (start_final g -> lo = 0%Z /\ hi = 0%Z)).
      { intros Ns E2. destruct (times_with f (to_size lo) B Ns) as (Bt & Lt & Dt & Nt).
        destruct (Z.eqb_spec hi lo) as [E3|E3]; cbn [negb].
        * splits; auto; [|intros X; exfalso; apply Nt; auto; lia]. eapply lang_eq_trans; [exact Lt|]. intros w. unfold L_repeat, Inf. split.
          -- intros H. exists (to_size lo). splits; auto; lia.
          -- intros (n & H1 & H2 & H). replace n with (to_size lo) in H by lia. exact H.
        * set (o := fsm_or f fsm_new).
          assert (Bo : built o) by (apply built_or; [exact B|apply built_new]).
          assert (No : ~ start_final o) by (apply or_start; [apply built_wf, B|apply fsm_new_wf]).
          assert (Lo : lang_eq (accepts o) (L_or (accepts f) L_eps)).
          { eapply lang_eq_trans; [apply f_or; [exact B|apply built_new]|]. intros w. unfold L_or. rewrite (fsm_new_lang w). tauto. }
          assert (Hh : Z.of_nat (to_size (hi - lo)) = (hi - lo)%Z) by (apply to_size_small; lia).
          destruct (times_with o (to_size (hi - lo)) Bo No) as (Bk & Lk & _ & Nk).
          destruct (CAT (to_size lo) _ _ Bk (Nk ltac:(lia)) Lk _ Bt Lt) as (A1 & A2 & A3 & A4). splits; auto; [|intros X; exfalso; auto].
          eapply lang_eq_trans; [exact A2|]. intros w. unfold L_repeat, Inf. split.
          -- intros (u & v & -> & H1 & H2). apply (pow_opt _ _ _ v Lo) in H2. destruct H2 as (n & Hn & H2). exists (to_size lo + n). splits; [lia|lia|]. apply pow_add. exists u, v. auto.
          -- intros (n & H1 & H2 & H). replace n with (to_size lo + (n - to_size lo)) in H by lia. apply pow_add in H. destruct H as (u & v & -> & H & H'). exists u, v. splits; auto.
             apply (pow_opt _ _ _ v Lo). exists (n - to_size lo). split; auto. lia. }
      destruct (Z.eqb_spec lo 1) as [E1|E1]; cbn [andb].
      + destruct (Z.eqb_spec hi (-1)) as [E2|E2]; [|apply GEN; [intros X; apply N in X; destruct X as [X|[_ X]]; lia|exact E2]].
        { subst lo hi. destruct (CAT 1 (L_star (accepts f)) (iterate f) (built_iterate _ B) (iterate_start f) (f_iterate f B) f B) as (A1 & A2 & A3 & A4).
          - intros w. rewrite pow_one. tauto.
          - splits; auto; [|intros X; exfalso; auto]. eapply lang_eq_trans; [exact A2|]. apply STAR. reflexivity. }
      + assert (Ns : ~ start_final f) by (intros X; apply N in X; destruct X as [X|[X _]]; lia).
        destruct (times_with f (to_size lo) B Ns) as (Bt & Lt & Dt & Nt).
        destruct (Z.eqb_spec hi (-1)) as [E2|E2].
        { subst hi. destruct (CAT (to_size lo) (L_star (accepts f)) (iterate f) (built_iterate _ B) (iterate_start f) (f_iterate f B) _ Bt Lt) as (A1 & A2 & A3 & A4).
          splits; auto; [|intros X; exfalso; auto]. eapply lang_eq_trans; [exact A2|]. apply STAR. exact Hl. }
        apply GEN; auto.
  Qed.

  Lemma dead_det : forall f g, wf f -> remove_dead_ends f = Ok g -> determined g = determined f.
  Proof. intros f g W H. destruct (remove_dead_ends_spec f W) as (g' & E & R & _). rewrite H in E. apply ok_inj' in E. subst g'. apply (rm_det _ _ _ R). Qed.

  Lemma convert_ok : forall r v, value_for r v ->
    (exists f, convert e v = Ok f /\ fsm_for r f) \/ (convert e v = Throw ETooComplicated /\ negates r).
  Proof.
    intros r v H. destruct v as [f|ss n| | |]; cbn [value_for convert] in *.
    - left. eauto.
    - subst r. destruct (append_range_ok fsm_new ss built_new eq_refl eq_refl) as (a & -> & Ba & Ua & Da & La). cbn [bind].
      assert (La' : lang_eq (accepts a) (L_range (e_to e) ss)) by (eapply lang_eq_trans; [exact La|apply new_cat]).
      destruct n; cbn [negates].
      + destruct (ge_dot e D G fsm_new fsm_new_wf eq_refl) as (Wd & Ud & Ld).
        pose proof (ge_built e D G fsm_new built_new eq_refl) as Bd.
        assert (Ld' : lang_eq (accepts (e_dot e fsm_new)) D) by (eapply lang_eq_trans; [exact Ld|apply new_cat]).
        destruct (f_complement _ Bd) as [(x & -> & Bx & Lx)|[-> _]]; cbn [bind]; [|right; auto].
        pose proof (built_or _ _ Ba Bx) as Bo.
        destruct (f_complement _ Bo) as [(b & Eb & Bb & Lb)|[-> _]]; cbn [bind]; [|right; auto]. rewrite Eb. cbn [bind].
        pose proof (complement_det _ _ Eb) as Db.
        destruct (f_remove_dead_ends b Bb) as (g & Eg & Lg & _). left. exists g. split; auto.
        assert (L : lang_eq (accepts g) (den (RLetters ss true))).
        { intros w. rewrite (Lg w), (Lb w), (f_or _ _ Ba Bx w). unfold L_or. rewrite (La' w), (Lx w), (Ld' w). cbn [re_den]. pose proof (ge_word _ _ G w). pose proof (ge_dec _ _ G w). tauto. }
        split; [eapply built_dead; eauto|]. split; auto. split; [rewrite (dead_det _ _ (built_wf _ Bb) Eg); auto|]. split; [|intros []].
        intros X. apply start_final_empty in X. apply L in X. cbn [re_den] in X. destruct X as [X _]. destruct (ge_some _ _ G X).
      + left. exists a. split; auto. split; auto. split; auto. split; auto. split; [|intros []]. intros X. apply start_final_empty in X. apply La' in X. destruct (range_some _ X).
    - subst r. left. exists (e_dot e fsm_new). split; auto. destruct (ge_dot e D G fsm_new fsm_new_wf eq_refl) as (Wd & Ud & Ld).
      assert (L : lang_eq (accepts (e_dot e fsm_new)) D) by (eapply lang_eq_trans; [exact Ld|apply new_cat]).
      split; [apply (ge_built e D G); [apply built_new|reflexivity]|]. split; [exact L|]. split; [apply (ge_det e D G)|]. split; [|intros []].
      intros X. apply start_final_empty in X. apply L in X. destruct (ge_some _ _ G X).
    - subst r. left. exists (append_special fsm_new BeginMark). split; auto.
      assert (L : lang_eq (accepts (append_special fsm_new BeginMark)) (L_letter BeginMark)).
      { eapply lang_eq_trans; [apply f_append; [apply built_new|reflexivity|split; [reflexivity|discriminate]]|apply new_cat]. }
      split; [apply built_append; [apply built_new|reflexivity|split; [reflexivity|discriminate]]|]. split; [exact L|]. split; [apply d_special|]. split; [|intros []].
      intros X. apply start_final_empty in X. apply L in X. discriminate X.
    - subst r. left. exists (append_special fsm_new EndMark). split; auto.
      assert (L : lang_eq (accepts (append_special fsm_new EndMark)) (L_letter EndMark)).
      { eapply lang_eq_trans; [apply f_append; [apply built_new|reflexivity|split; [reflexivity|discriminate]]|apply new_cat]. }
      split; [apply built_append; [apply built_new|reflexivity|split; [reflexivity|discriminate]]|]. split; [exact L|]. split; [apply d_special|]. split; [|intros []].
      intros X. apply start_final_empty in X. apply L in X. discriminate X.
  Qed.

  (** Evaluating and converting together. *)
  Lemma with_fsm : forall r, (exists v, eval e r = Ok v /\ value_for r v) \/ (eval e r = Throw ETooComplicated /\ negates r) ->
    (exists f, compile_re e r = Ok f /\ fsm_for r f) \/ (compile_re e r = Throw ETooComplicated /\ negates r).
  Proof.
    intros r [(v & E & H)|[E H]]; unfold compile_re; rewrite E; cbn [bind]; [|right; auto]. apply convert_ok; auto.
  Qed.
  Lemma eval_count : forall t lo hi, eval e (RCount t lo hi) = (let* orig := compile_re e t in Ok (VFsm (repeat_action orig lo hi))).
  Proof. intros. unfold compile_re. cbn [eval]. destruct (eval e t); reflexivity. Qed.
  Lemma eval_not : forall c, eval e (RNot c) = (let* f := compile_re e c in let* g := complement f in Ok (VFsm g)).
  Proof. intros. unfold compile_re. cbn [eval]. destruct (eval e c); reflexivity. Qed.
  Lemma eval_and : forall j n, eval e (RAnd j n) = (let* f := compile_re e j in let* g := compile_re e n in let* h := fsm_and f g in Ok (VFsm h)).
  Proof. intros. unfold compile_re. cbn [eval]. destruct (eval e j); cbn [bind]; auto. destruct (convert e a); cbn [bind]; auto. destruct (eval e n); cbn [bind]; auto. Qed.
  Lemma eval_or : forall a j, eval e (ROr a j) = (let* f := compile_re e a in let* g := compile_re e j in Ok (VFsm (fsm_or f g))).
  Proof. intros a j. unfold compile_re. cbn [eval]. destruct (eval e a) as [x| | |]; cbn [bind]; auto. destruct (convert e x); cbn [bind]; auto. destruct (eval e j); cbn [bind]; auto. Qed.
  Lemma eval_cat : forall c i, eval e (RCat c i) = (let* a := compile_re e c in
      let* v := eval e i in
      match v with
      | VRange ss false => let* f := append_range e a ss in Ok (VFsm f)
      | VDot => Ok (VFsm (e_dot e a))
      | _ => let* b := convert e v in Ok (VFsm (fsm_cat a b))
      end).
  Proof. intros. unfold compile_re. cbn [eval]. destruct (eval e c); cbn [bind]; auto. Qed.

  Lemma eval_ok : forall r s, fits s r -> regular r ->
    (exists v, eval e r = Ok v /\ value_for r v) \/ (eval e r = Throw ETooComplicated /\ negates r).
  Proof.
    induction r; intros s F R.
    - left. eexists. split; [reflexivity|reflexivity].
    - left. eexists. split; [reflexivity|reflexivity].
    - left. eexists. split; [reflexivity|reflexivity].
    - left. eexists. split; [reflexivity|reflexivity].
    - cbn [fits regular] in F, R. cbn [eval negates]. destruct F as [_ F]. destruct (IHr _ F R) as [(v & E & H)|X]; [left|right; auto]. exists v. split; auto.
      destruct v as [f|ss n| | |]; cbn [value_for] in *; try (subst r; cbn in F; destruct F as [X|X]; discriminate X).
      destruct H as (A1 & A2 & A3 & A4 & A5). split; auto. split; auto. split; auto. split; auto. intros [].
    - cbn [fits regular] in F, R. destruct F as [_ F]. destruct R as (R & C & N). cbn [negates]. rewrite eval_count.
      destruct (with_fsm _ (IHr _ F R)) as [(f & -> & B & L & Df & S & _)|[-> X]]; cbn [bind]; [left|right; auto].
      eexists. split; [reflexivity|]. cbn [value_for].
      destruct (repeat_ok f lo hi B C) as (A1 & A2 & A3 & A4); [auto|]. split; auto. split; [|split; auto; split; auto; intros []].
      eapply lang_eq_trans; [exact A2|]. intros w. cbn [re_den]. unfold L_repeat. split; intros (n & H1 & H2 & H3); exists n; splits; auto; apply (pow_ext _ _ n L w); auto.
    - left. eexists. split; [reflexivity|]. split; [apply built_new|]. split; [apply fsm_new_lang|]. split; [reflexivity|]. split; [intros _; exact I|reflexivity].
    - cbn [fits regular] in F, R. destruct F as (_ & F1 & F2). destruct R as (R1 & R2 & N). cbn [negates]. rewrite eval_cat.
      destruct (with_fsm _ (IHr1 _ F1 R1)) as [(a & -> & Ba & La & Da & _ & Ua)|[-> X]]; cbn [bind]; [|right; auto].
      assert (U : uncompressed a).
      { apply Ua. destruct r1; auto; cbn in F1; try (destruct F1 as [[X|X] _]; discriminate X); try (destruct F1 as [X|X]; discriminate X);
          try (destruct F1 as [X _]; discriminate X); try (destruct F1 as [[X|[X|X]] _]; discriminate X). }
      assert (CAT : forall v, value_for r2 v -> (exists x, (let* b := convert e v in Ok (VFsm (fsm_cat a b))) = Ok x /\ value_for (RCat r1 r2) x) \/
                    ((let* b := convert e v in Ok (VFsm (fsm_cat a b))) = Throw ETooComplicated /\ (negates r1 \/ negates r2))).
      { intros v Hv. destruct (convert_ok _ _ Hv) as [(b & -> & Bb & Lb & Db & Sb & _)|[-> X]]; cbn [bind]; [left|right; auto].
        eexists. split; [reflexivity|]. destruct (cat_with a b Ba Bb (fun X => N (Sb X))) as (A1 & A2 & A3 & A4 & A5).
        split; auto. split; [|split; auto; split; auto; intros X; destruct (A5 X)]. eapply lang_eq_trans; [exact A2|]. apply L_cat_ext2; auto. }
      destruct (IHr2 _ F2 R2) as [(v & -> & H)|[-> X]]; cbn [bind]; [|right; auto].
      destruct v as [b|ss n| | |].
      + exact (CAT (VFsm b) H).
      + destruct n; [exact (CAT (VRange ss true) H)|]. cbn [value_for] in H. subst r2. left.
        destruct (append_range_ok a ss Ba U Da) as (g & -> & Bg & Ug & Dg & Lg). cbn [bind]. eexists. split; [reflexivity|].
        assert (L : lang_eq (accepts g) (den (RCat r1 (RLetters ss false)))) by (eapply lang_eq_trans; [exact Lg|]; apply L_cat_ext2; [exact La|intros w; cbn [re_den]; tauto]).
        split; auto. split; auto. split; auto. split; auto. intros X. exfalso. apply start_final_empty in X. apply L in X. revert X. apply cat_nonempty. apply range_some.
      + cbn [value_for] in H. subst r2. left. eexists. split; [reflexivity|]. destruct (ge_dot e D G a (built_wf _ Ba) U) as (Wd & Ud & Ld).
        assert (L : lang_eq (accepts (e_dot e a)) (den (RCat r1 RDot))) by (eapply lang_eq_trans; [exact Ld|]; apply L_cat_ext2; [exact La|intros w; cbn [re_den]; tauto]).
        split; [apply (ge_built e D G); auto|]. split; auto. split; [apply (ge_det e D G)|]. split; auto. intros X. exfalso. apply start_final_empty in X. apply L in X. revert X. apply cat_nonempty. apply G.
      + exact (CAT VBegin H).
      + exact (CAT VEnd H).
    - cbn [fits regular] in F, R. destruct F as (_ & F). cbn [negates]. rewrite eval_not.
      destruct (with_fsm _ (IHr _ F R)) as [(f & -> & B & L & Df & S & _)|[-> X]]; cbn [bind]; [|right; auto].
      destruct (f_complement f B) as [(g & E & Bg & Lg)|[-> _]]; cbn [bind]; [|right; auto]. left. rewrite E. cbn [bind]. eexists. split; [reflexivity|].
      split; auto. split; [intros w; rewrite (Lg w), (L w); cbn [re_den]; unfold L_not; tauto|]. split; [eapply complement_det; eauto|]. split; [|intros []].
      intros X. exfalso. revert X. apply (complement_start f g); auto using built_good.
    - cbn [fits regular] in F, R. destruct F as (_ & F1 & F2). destruct R as (R1 & R2). cbn [negates]. rewrite eval_and.
      destruct (with_fsm _ (IHr1 _ F1 R1)) as [(f & -> & Bf & Lf & Df & _)|[-> X]]; cbn [bind]; [|right; auto].
      destruct (with_fsm _ (IHr2 _ F2 R2)) as [(g & -> & Bg & Lg & Dg & _)|[-> X]]; cbn [bind]; [|right; auto].
      destruct (f_and f g Bf Bg) as [(h & E & Bh & Lh)|E]; [|right; rewrite E; auto]. left. rewrite E. cbn [bind]. eexists. split; [reflexivity|].
      split; auto. split; [intros w; rewrite (Lh w); cbn [re_den]; unfold L_and; rewrite (Lf w), (Lg w); tauto|].
      split; [apply (and_det f g h E)|]. split; [|intros []]. intros X. exfalso. revert X. apply (and_start f g h); auto using built_good.
    - cbn [fits regular] in F, R. destruct F as (_ & F1 & F2). destruct R as (R1 & R2). cbn [negates]. rewrite eval_or.
      destruct (with_fsm _ (IHr1 _ F1 R1)) as [(f & -> & Bf & Lf & Df & _)|[-> X]]; cbn [bind]; [|right; auto].
      destruct (with_fsm _ (IHr2 _ F2 R2)) as [(g & -> & Bg & Lg & Dg & _)|[-> X]]; cbn [bind]; [left|right; auto].
      eexists. split; [reflexivity|]. split; [apply built_or; auto|].
      split; [intros w; rewrite (f_or _ _ Bf Bg w); cbn [re_den]; unfold L_or; rewrite (Lf w), (Lg w); tauto|].
      split; [apply d_or|]. split; [|intros []]. intros X. exfalso. revert X. apply or_start; apply built_wf; auto.
  Qed.
  Lemma compile_ok : forall r s, fits s r -> regular r ->
    (exists f, compile_re e r = Ok f /\ fsm_for r f) \/ (compile_re e r = Throw ETooComplicated /\ negates r).
  Proof. intros r s F R. apply with_fsm. eapply eval_ok; eauto. Qed.
End ENC.
