(** The lexer stops on every input, and what it rejects. *)
From Coq Require Import List Bool Arith NArith ZArith Lia.
From Verif Require Import Util Spec RegexModel EncModel EncProofs UniModel LexModel LexSpec UniFacts LexProofs LexItems.
Import ListNotations.
Local Open Scope N_scope.

(** An outcome of a reading function: it ran to its end, and left at most [n] characters. *)
Definition leaves {A} (n : nat) (r : res (A * list N)) : Prop :=
  match r with Ok (_, s) => (length s <= n)%nat | Throw e => e = ESyntax | UB => True | OutOfFuel => False end.
Lemma leaves_bind : forall {A B} m n (r : res (A * list N)) (k : A -> list N -> res (B * list N)),
  leaves m r -> (forall a s, r = Ok (a, s) -> (length s <= m)%nat -> leaves n (k a s)) -> leaves n (let* (a, s) := r in k a s).
Proof. intros A B m n [[a s]|e| |] k H K; cbn in *; auto. Qed.
Lemma leaves_le : forall {A} m n (r : res (A * list N)), leaves m r -> (m <= n)%nat -> leaves n r.
Proof. intros A m n [[a s]|e| |] H L; cbn in *; auto. lia. Qed.
Definition plain_res {A} (r : res A) : Prop := match r with Ok _ => True | Throw e => e = ESyntax | _ => False end.
Lemma leaves_pure : forall {A B} n (r : res A) (k : A -> res (B * list N)), plain_res r -> (forall a, leaves n (k a)) -> leaves n (let* a := r in k a).
Proof. intros A B n [a|e| |] k H K; cbn in *; auto; contradiction. Qed.

Definition weight (c : N) (s : list N) : nat := if c =? End then length s else S (length s).
Lemma get_cases : forall s, (s = [] /\ get_char s = Ok (End, [])) \/ get_char s = Throw ESyntax \/
  exists c s', get_char s = Ok (c, s') /\ (length s' < length s)%nat.
Proof.
  intros [|c s]; auto. right. cbn [get_char]. destruct (c =? 92).
  - destruct s as [|d s]; auto. right. exists (ctl d), s. cbn. split; auto.
  - right. exists c, s. cbn. auto.
Qed.
Lemma get_weight : forall s c s', get_char s = Ok (c, s') -> (weight c s' <= length s)%nat /\ (length s' <= pred (length s))%nat.
Proof.
  intros s c s' E. unfold weight. destruct (get_cases s) as [[-> G]|[G|(c0 & s0 & G & L)]]; rewrite G in E; try discriminate; injection E as <- <-.
  - cbn. auto.
  - destruct (c0 =? End); lia.
Qed.
Lemma get_leaves : forall s, leaves (pred (length s)) (get_char s).
Proof. intros s. destruct (get_cases s) as [[-> G]|[G|(c0 & s0 & G & L)]]; rewrite G; cbn; lia || reflexivity. Qed.
Lemma unget_length : forall c s, length (unget_char c s) = weight c s.
Proof. intros c s. unfold unget_char, weight. destruct (c =? End); reflexivity. Qed.
Lemma read_hex_leaves : forall stop fuel ds c s, (weight c s < fuel)%nat -> leaves (weight c s) (read_hex stop fuel ds c s).
Proof.
  intros stop. induction fuel as [|k IH]; intros ds c s L; [lia|]. cbn [read_hex]. destruct (stop c (length ds)).
  - cbn. rewrite unget_length. lia.
  - destruct (negb (is_hex c)) eqn:E; [reflexivity|].
    assert (c <> End) by (intros ->; vm_compute in E; discriminate).
    assert (weight c s = S (length s)) as W by (unfold weight; apply N.eqb_neq in H; rewrite H; reflexivity). rewrite W in *.
    eapply leaves_bind; [apply get_leaves|]. intros d s' G _. destruct (get_weight _ _ _ G) as [X _].
    eapply leaves_le; [apply IH; lia|lia].
Qed.
Lemma hex_to_dec_plain : forall ds, plain_res (hex_to_dec ds).
Proof. intros ds. unfold hex_to_dec. cbv zeta. destruct (_ <=? _); [reflexivity|]. destruct (_ <? _); cbn; auto. Qed.
Lemma weight_le : forall c s, (weight c s <= S (length s))%nat. Proof. intros c s. unfold weight. destruct (c =? End); lia. Qed.
Lemma read_unicode_leaves : forall s, leaves (pred (length s)) (read_unicode s).
Proof.
  intros s. unfold read_unicode. eapply leaves_bind; [apply get_leaves|]. intros c0 s0 _ L0. destruct (peek_char s0 =? 123).
  - eapply leaves_bind; [apply get_leaves|]. intros c1 s1 _ L1. eapply leaves_bind; [apply get_leaves|]. intros c2 s2 G2 L2.
    destruct (get_weight _ _ _ G2) as [W2 _]. pose proof (weight_le c2 s2).
    eapply leaves_bind; [apply read_hex_leaves; lia|]. intros ds s3 _ L3. eapply leaves_bind; [apply get_leaves|]. intros c4 s4 _ L4.
    destruct (negb (c4 =? 125)); [reflexivity|]. apply leaves_pure; [apply hex_to_dec_plain|]. intros v. cbn. lia.
  - eapply leaves_bind; [apply get_leaves|]. intros c2 s2 G2 L2.
    destruct (get_weight _ _ _ G2) as [W2 _]. pose proof (weight_le c2 s2).
    eapply leaves_bind; [apply read_hex_leaves; lia|]. intros ds s3 _ L3.
    destruct (negb (length ds =? 2)%nat); [reflexivity|]. apply leaves_pure; [apply hex_to_dec_plain|]. intros v. cbn. lia.
Qed.
Lemma range_loop_leaves : forall fuel c s cs neg, (weight c s < fuel)%nat -> leaves (length s) (range_loop fuel c s cs neg).
Proof.
  induction fuel as [|k IH]; intros c s cs neg L; [lia|]. cbn [range_loop]. destruct (c =? End) eqn:E; [reflexivity|].
  destruct (c =? ctl 93); [cbn; lia|]. cbv zeta. assert (W : weight c s = S (length s)) by (unfold weight; rewrite E; reflexivity).
  eapply (leaves_bind (length s)).
  { destruct (c =? ctl 120); [|cbn; lia]. eapply leaves_le; [apply read_unicode_leaves|]. rewrite unget_length, W. cbn. lia. }
  intros u s1 _ L1. eapply (leaves_bind (length s)).
  { destruct (_ && _)%bool.
    - eapply leaves_bind; [apply get_leaves|]. intros c2 s2 _ L2. eapply leaves_bind; [apply get_leaves|]. intros c3 s3 G3 L3.
      destruct (get_weight _ _ _ G3) as [W3 _].
      eapply (leaves_bind (length s)).
      { destruct (c3 =? ctl 120).
        - eapply leaves_le; [apply read_unicode_leaves|]. rewrite unget_length. lia.
        - cbv zeta. destruct (is_control _); [reflexivity|cbn; lia]. }
      intros e s4 _ L4. cbn. exact L4.
    - destruct (c =? ctl 45); [cbn; lia|]. destruct (_ && _)%bool; [cbn; lia|]. destruct (_ || _)%bool; [cbn; lia|reflexivity]. }
  intros cs' s2 _ L2. eapply leaves_bind; [apply get_leaves|]. intros d s3 G3 L3. destruct (get_weight _ _ _ G3) as [W3 _].
  eapply leaves_le; [apply IH|lia].
  assert (weight (correct d rc) s3 <= length s2)%nat; [|lia].
  unfold weight in W3 |- *. destruct (N.eq_dec d End) as [->|ND].
  - change (correct End rc) with End. rewrite N.eqb_refl in *. exact W3.
  - apply N.eqb_neq in ND. rewrite ND in W3. destruct (correct d rc =? End); lia.
Qed.
Lemma lex_range_leaves : forall s, leaves (pred (length s)) (lex_range s).
Proof.
  intros s. unfold lex_range. eapply leaves_bind; [apply get_leaves|]. intros c0 s0 _ L0. cbv zeta.
  destruct (_ || _)%bool; [cbn; lia|]. eapply leaves_bind; [apply get_leaves|]. intros c1 s1 _ L1. destruct (_ =? _).
  - eapply leaves_bind; [apply get_leaves|]. intros c2 s2 _ L2. pose proof (weight_le (correct c2 rc) s2).
    eapply leaves_le; [apply range_loop_leaves; lia|lia].
  - pose proof (weight_le (correct c1 rc) s1). eapply leaves_le; [apply range_loop_leaves; lia|lia].
Qed.
Definition leaves2 {A} (n : nat) (r : res (A * N * list N)) : Prop :=
  match r with Ok (_, _, s) => (length s <= n)%nat | Throw e => e = ESyntax | UB => True | OutOfFuel => False end.
Lemma leaves2_bind : forall {A B} m n (r : res (A * N * list N)) (k : A -> N -> list N -> res (B * list N)),
  leaves2 m r -> (forall a c s, r = Ok (a, c, s) -> (length s <= m)%nat -> leaves n (k a c s)) -> leaves n (let* (a, c, s) := r in k a c s).
Proof. intros A B m n [[[a c] s]|e| |] k H K; cbn in *; auto. Qed.
Lemma read_count_leaves : forall fuel n c s, (weight c s < fuel)%nat -> leaves2 (length s) (read_count fuel n c s).
Proof.
  induction fuel as [|k IH]; intros n c s L; [lia|]. cbn [read_count]. destruct (is_digit c) eqn:D; [|cbn; lia].
  destruct (next_count n c) as [m|e| |] eqn:E; cbn [bind]; try (cbn; auto; fail).
  - destruct (get_cases s) as [[-> G]|[G|(c0 & s0 & G & L0)]]; rewrite G; cbn [bind]; [|reflexivity|].
    + assert (c <> End) by (intros ->; rewrite digit_control in D; [discriminate|reflexivity]).
      apply N.eqb_neq in H. unfold weight in L. rewrite H in L. apply IH. unfold weight. rewrite N.eqb_refl. cbn in *. lia.
    + assert (c <> End) by (intros ->; rewrite digit_control in D; [discriminate|reflexivity]).
      apply N.eqb_neq in H. unfold weight in L. rewrite H in L. pose proof (weight_le c0 s0).
      specialize (IH m c0 s0 ltac:(lia)). destruct (read_count k m c0 s0) as [[[a c1] s1]|e| |]; cbn in *; auto. lia.
  - unfold next_count in E. cbv zeta in E. destruct (_ || _)%bool; discriminate.
  - unfold next_count in E. cbv zeta in E. destruct (_ || _)%bool; discriminate.
Qed.
Lemma lex_count_leaves : forall s, leaves (pred (length s)) (lex_count s).
Proof.
  intros s. unfold lex_count. eapply leaves_bind; [apply get_leaves|]. intros c0 s0 _ L0. destruct (_ || _)%bool; [cbn; lia|].
  eapply leaves_bind; [apply get_leaves|]. intros c1 s1 _ L1. destruct (negb _); [reflexivity|]. pose proof (weight_le c1 s1).
  eapply leaves2_bind; [apply read_count_leaves; lia|]. intros lo c2 s2 _ L2. destruct (c2 =? 125); [cbn; lia|]. destruct (negb _); [reflexivity|].
  eapply leaves_bind; [apply get_leaves|]. intros c3 s3 _ L3. destruct (c3 =? 125); [cbn; lia|]. destruct (negb _); [reflexivity|].
  pose proof (weight_le c3 s3). eapply leaves2_bind; [apply read_count_leaves; lia|]. intros hi c4 s4 _ L4. destruct (negb _); [reflexivity|]. cbn. lia.
Qed.
Lemma feature_leaves : forall f s, leaves (pred (length s)) (feature_lex f s).
Proof.
  intros [| | | | |] s; cbn [feature_lex]; try reflexivity.
  - eapply leaves_bind; [apply read_unicode_leaves|]. intros c s1 _ L. exact L.
  - apply lex_count_leaves.
  - apply lex_range_leaves.
  - eapply leaves_bind; [apply get_leaves|]. intros c s1 _ L. repeat (destruct (_ || _)%bool; [exact L|]). repeat (destruct (_ =? _); [exact L|]). reflexivity.
Qed.
Lemma do_lex_leaves : forall fs s, leaves (length s) (do_lex fs s) /\
  forall t s', do_lex fs s = Ok (t, s') -> t = TFinish \/ (length s' < length s)%nat.
Proof.
  intros fs s. unfold do_lex. destruct (get_char s) as [[c s1]|e| |] eqn:G; cbn [bind];
    [|destruct (get_cases s) as [[-> X]|[X|(c0 & s0 & X & _)]]; rewrite X in G; try discriminate; injection G as <-; split; [reflexivity|discriminate]
     |destruct (get_cases s) as [[-> X]|[X|(c0 & s0 & X & _)]]; rewrite X in G; discriminate
     |destruct (get_cases s) as [[-> X]|[X|(c0 & s0 & X & _)]]; rewrite X in G; discriminate].
  destruct (get_weight _ _ _ G) as [W _]. rewrite <- unget_length in W. set (s2 := unget_char c s1) in *.
  destruct (peek_char s2 =? End) eqn:E; [split; [cbn; lia|intros t s' X; injection X as <- <-; auto]|].
  assert (0 < length s2)%nat by (destruct s2; [discriminate|cbn; lia]).
  assert (P : forall r, leaves (pred (length s2)) r -> leaves (length s) r /\ forall t s', r = Ok (t, s') -> t = TFinish \/ (length s' < length s)%nat).
  { intros r Hr. split; [eapply leaves_le; [exact Hr|lia]|]. intros t s' ->. cbn in Hr. right. lia. }
  destruct (find _ fs) as [f|].
  - apply P, feature_leaves.
  - apply P. eapply leaves_bind; [apply get_leaves|]. intros d s3 _ L. exact L.
Qed.
Lemma alter_plain : forall f t, plain_res (alter f t) /\ forall t', alter f t = Ok t' -> (t = TFinish <-> t' = TFinish).
Proof.
  intros f t. destruct t as [cs negated| | | | | | | | | |];
    try (destruct f; (split; [exact I|intros t' X; injection X as <-; split; intros; congruence])).
  destruct f; cbn [alter]; try (split; [exact I|intros t' X; injection X as <-; split; intros; congruence]).
  - destruct (alter_classes_eq cs negated) as (cs' & _ & E). rewrite E. cbv zeta.
    destruct (_ && _)%bool; (split; [cbn; auto|]); intros t' X; [discriminate X|]. injection X as <-. split; discriminate.
  - split; [exact I|]. intros t' X. injection X as <-. unfold alter_case. split; discriminate.
Qed.
Lemma alter_all_plain : forall fs t, plain_res (alter_all fs t) /\ forall t', alter_all fs t = Ok t' -> (t = TFinish <-> t' = TFinish).
Proof.
  intros fs. unfold alter_all. induction (rev fs) as [|f l IH]; intros t; cbn [fold_left].
  - split; [exact I|]. intros t' X. injection X as <-. tauto.
  - cbn [bind]. destruct (alter_plain f t) as [P Q]. destruct (alter f t) as [t1|e| |]; cbn in P; try contradiction.
    + destruct (IH t1) as [P1 Q1]. split; auto. intros t' X. rewrite (Q t1 eq_refl). apply Q1, X.
    + subst e. assert (Z : fold_left (fun r f => let* t := r in alter f t) l (Throw ESyntax) = Throw ESyntax) by (clear; induction l; auto).
      rewrite Z. split; [reflexivity|discriminate].
Qed.
Lemma check_plain : forall t, (check_term t = Ok t) \/ check_term t = Throw ESyntax.
Proof. intros [cs n| | | | | | | | | |]; cbn; auto. destruct (existsb is_control cs); auto. Qed.
Lemma lex_leaves : forall fs s, leaves (length s) (lex fs s) /\ forall t s', lex fs s = Ok (Some t, s') -> (length s' < length s)%nat.
Proof.
  intros fs s. unfold lex. destruct (do_lex_leaves fs s) as [L D]. destruct (do_lex fs s) as [[t s1]|e| |]; cbn [bind]; cbn in L; try (split; [exact L|discriminate]).
  destruct (alter_all_plain fs t) as [P Q]. destruct (alter_all fs t) as [t1|e| |]; cbn in P; cbn [bind]; try contradiction; [|split; [exact P|discriminate]].
  destruct (check_plain t1) as [->| ->]; cbn [bind]; [|split; [reflexivity|discriminate]]. split; [exact L|].
  intros tk s' X. injection X as T <-. destruct (D t s1 eq_refl) as [->|]; auto.
  destruct (Q t1 eq_refl) as [Q1 _]. rewrite (Q1 eq_refl) in T. discriminate.
Qed.
Lemma lex_loop_total : forall fs fuel s, (length s < fuel)%nat ->
  (exists ts, lex_loop fs fuel s = Ok ts) \/ lex_loop fs fuel s = Throw ESyntax \/ lex_loop fs fuel s = UB.
Proof.
  intros fs. induction fuel as [|k IH]; intros s L; [lia|]. cbn [lex_loop]. destruct (lex_leaves fs s) as [P D].
  destruct (lex fs s) as [[[t|] s1]|e| |]; cbn [bind]; cbn in P; auto; [|left; eauto|subst; auto|contradiction].
  specialize (D t s1 eq_refl). destruct (IH s1 ltac:(lia)) as [(ts & ->)|[->| ->]]; cbn [bind]; eauto.
Qed.
Lemma lex_all_total : forall fs s, (exists ts, lex_all fs s = Ok ts) \/ lex_all fs s = Throw ESyntax \/ lex_all fs s = UB.
Proof. intros fs s. apply lex_loop_total. lia. Qed.

(** ** No token holds a reserved character *)
Lemma lex_clean : forall fs s cs n s', lex fs s = Ok (Some (KLetters cs n), s') -> forall str x, In str cs -> In x str -> ~ reserved x.
Proof.
  intros fs s cs n s' E str x I J. unfold lex in E. destruct (do_lex fs s) as [[t s1]|e| |]; try discriminate. cbn [bind] in E.
  destruct (alter_all fs t) as [t1|e| |]; try discriminate. cbn [bind] in E.
  destruct t1 as [l m| | | | | | | | | |]; cbn [check_term] in E; try (cbn in E; discriminate).
  destruct (existsb is_control l) eqn:X; [discriminate|]. cbn [bind to_token] in E. injection E as <- _ _.
  apply in_map_iff in I as (c & <- & Hc). destruct J as [<-|[]]. intros R. apply control_iff in R.
  assert (existsb is_control l = true) by (apply existsb_exists; eauto). congruence.
Qed.
Lemma lex_all_clean : forall fs s ts cs n str x, lex_all fs s = Ok ts -> In (KLetters cs n) ts -> In str cs -> In x str -> ~ reserved x.
Proof.
  intros fs s ts cs n str x. unfold lex_all. generalize (S (length s)). intros fuel. revert s ts.
  induction fuel as [|k IH]; intros s ts E H I J; [discriminate|]. cbn [lex_loop] in E.
  destruct (lex fs s) as [[[t|] s1]|e| |] eqn:L; try discriminate; cbn [bind] in E; [|injection E as <-; destruct H].
  destruct (lex_loop fs k s1) as [ts1|e| |] eqn:L1; try discriminate. cbn [bind] in E. injection E as <-.
  destruct H as [->|H]; [eapply lex_clean; eauto|eapply IH; eauto].
Qed.

(** ** Unknown escapes *)
Lemma lex_prefix : forall added icase andnot is t s fuel, options added icase andnot -> Forall (item_ok andnot) is -> starts t ->
  same s (pattern_text is ++ t) -> (length is <= fuel)%nat ->
  exists ts s', Forall2 (stands_for icase) is ts /\ same s' t /\
    lex_loop (features added) fuel s = let* r := lex_loop (features added) (fuel - length is) s' in Ok (ts ++ r).
Proof.
  intros added icase andnot is t. induction is as [|i is IH]; intros s fuel O F St S L.
  - exists [], s. split; auto. split; auto. rewrite Nat.sub_0_r. destruct (lex_loop _ fuel s); reflexivity.
  - destruct fuel as [|k]; [cbn in L; lia|]. cbn [pattern_text flat_map] in S. fold (pattern_text is) in S. rewrite <- app_assoc in S.
    assert (St1 : starts (pattern_text is ++ t)).
    { destruct is as [|j is]; auto. cbn [pattern_text flat_map]. rewrite <- app_assoc. apply (item_starts andnot). apply (Forall_inv (Forall_inv_tail F)). }
    destruct (lex_item added icase andnot i s _ O (Forall_inv F) S St1) as (tk & s1 & E & S1 & M).
    destruct (IH s1 k O (Forall_inv_tail F) St S1 ltac:(cbn in L; lia)) as (ts & s' & M2 & S2 & E2).
    exists (tk :: ts), s'. split; auto. split; auto. cbn [lex_loop]. rewrite E. cbn [bind]. rewrite E2. cbn [length Nat.sub].
    destruct (lex_loop _ _ s'); reflexivity.
Qed.
Lemma unknown_class : forall d, d < 256 -> ~ In d (escapable true) -> find_class (ctl d) = None /\ strchr lex_controls d = false.
Proof.
  intros d Hd. revert d Hd.
  bytes (fun d => existsb (N.eqb d) (escapable true) || (match find_class (ctl d) with None => true | _ => false end && negb (strchr lex_controls d)))%bool.
  intros NI. apply orb_prop in X as [X|X].
  - apply existsb_exists in X as (y & I & E). apply N.eqb_eq in E. subst y. contradiction.
  - apply andb_prop in X as [X1 X2]. apply negb_true_iff in X2. destruct (find_class (ctl H)); [discriminate|auto].
Qed.
Lemma amp_class : find_class (ctl 38) = None /\ strchr lex_controls 38 = false /\ find_class (ctl 126) = None /\ strchr lex_controls 126 = false.
Proof. vm_compute. auto. Qed.
Lemma unknown_escape : forall added icase andnot is d t, options added icase andnot -> Forall (item_ok andnot) is -> d < 255 -> ~ In d (escapable andnot) ->
  lex_all (features added) (pattern_text is ++ 92 :: d :: t) = Throw ESyntax.
Proof.
  intros added icase andnot is d t O F Hd NI. unfold lex_all.
  destruct (lex_prefix added icase andnot is (92 :: d :: t) _ (S (length (pattern_text is ++ 92 :: d :: t))) O F (starts_esc d t Hd) (same_refl _)) as (ts & s' & _ & S' & ->).
  { rewrite app_length. pose proof (items_length is). lia. }
  assert (E : lex (features added) s' = Throw ESyntax).
  { unfold lex. rewrite (do_lex_esc _ _ d t Hd S'), (find_feature _ _ _ _ O).
    assert (K : find_class (ctl d) = None /\ strchr lex_controls d = false).
    { destruct (N.eq_dec d 38) as [->|N1]; [split; apply amp_class|]. destruct (N.eq_dec d 126) as [->|N2]; [split; apply amp_class|].
      apply unknown_class; [lia|]. intros X. apply NI. unfold escapable, special in *. destruct andnot; auto.
      rewrite !in_app_iff in *. destruct X as [X|[[X|X]|X]]; auto. cbn in X. lia. }
    destruct K as [K1 K2].
    assert (Q : forall x, In x (escapable andnot) -> (ctl d =? ctl x) = false).
    { intros x Hx. apply N.eqb_neq. intros Y. apply NI.
      assert (x < 256) by (unfold escapable, special in Hx; destruct andnot; cbn in Hx; lia). rewrite !ctl_eq in Y by lia. replace d with x by lia. exact Hx. }
    assert (R : forall x, x < 256 -> (ctl d =? x) = false) by (intros x Hx; apply N.eqb_neq; rewrite ctl_eq by lia; lia).
    rewrite (Q 120), (Q 91), (Q 93), (Q 123), (Q 125), !R by (try lia; unfold escapable, special; destruct andnot; cbn; auto 20). cbn [orb].
    assert ((andnot && ((ctl d =? ctl 38) || (ctl d =? ctl 126)))%bool = false) as ->.
    { destruct andnot; auto. rewrite (Q 38), (Q 126) by (unfold escapable, special; cbn; auto 20). reflexivity. }
    unfold lex_plain. rewrite !R by lia. rewrite (strip_ctl d) by lia. rewrite K2, andb_false_r. cbn [bind].
    unfold character. rewrite (alter_all_eq _ _ _ _ _ O). destruct (alter_classes_eq (case_set icase [ctl d]) false) as (cs' & I & ->). cbv zeta.
    assert (C1 : forall x, In x (case_set icase [ctl d]) <-> x = ctl d).
    { intros x. rewrite case_set_in. split.
      - intros (y & [<-|[]] & L). apply lit_control in L; auto. lia.
      - intros ->. exists (ctl d). split; [now left|]. apply lit_control; auto. lia. }
    assert (C2 : class_of (ctl d) = None) by (unfold class_of; rewrite K1; destruct (is_control _); reflexivity).
    assert (existsb (fun c => in_class c && is_upper (strip c))%bool (case_set icase [ctl d]) = false) as ->.
    { apply not_true_is_false. intros X. apply existsb_exists in X as (c & Hc & X). apply C1 in Hc. subst c. unfold in_class in X. rewrite C2 in X. discriminate. }
    cbn [andb orb bind check_term].
    assert (existsb is_control cs' = true) as ->; [|reflexivity]. apply existsb_exists. exists (ctl d). split; [|apply control_ctl; lia].
    apply I. exists (ctl d). split; [apply C1; auto|]. unfold image. rewrite C2. reflexivity. }
  assert (length is < S (length (pattern_text is ++ (92 :: d :: t)%N)))%nat as H by (rewrite app_length; pose proof (items_length is); lia).
  destruct (S (length (pattern_text is ++ (92 :: d :: t)%N)) - length is)%nat eqn:Q; [lia|]. cbn [lex_loop]. rewrite E. reflexivity.
Qed.
