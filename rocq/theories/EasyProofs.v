(** easy.h: a Regexp matches the texts that contain a match. *)
From Coq Require Import List Bool Arith NArith Lia.
From Verif Require Import Util Spec Nfa NfaOps PartitionModel PartitionProofs FsmModel DetermineModel MinimizeModel FsmSem FsmBasics FsmOps FsmOps2 EpsProofs DetProofs MinProofs CompProofs
  Api ApiProofs BuildFacts EncModel RunModel RunSpec RunProofs PrefixProofs ScannerModel ScannerSpec ScannerApi ScannerCompile ScannerUser GlueModel SimpleModel SimpleApi SlowProofs SimpleUser
  RegexModel RegexSpec RegexParse RegexProofs RegexUser LexModel LexSpec LexItems LexTotal LexUser EasyModel.
Import ListNotations.

(** ** BeginsWithCircumflex *)
Lemma sadd_new : forall (d : nat) h, NoDup h -> ~ In d h -> NoDup (sadd d h) /\ length (sadd d h) = S (length h).
Proof.
  intros d h. induction h as [|y h IH]; intros ND M; cbn [sadd]; [split; [constructor; auto; constructor|reflexivity]|]. inversion ND; subst.
  destruct (keqb d y) eqn:E; [exfalso; apply M; left; symmetry; apply keqb_eq; exact E|].
  destruct (kltb d y); [split; [constructor; auto|reflexivity]|].
  destruct IH as [A B]; auto; [intros X; apply M; right; exact X|]. split; [|cbn; rewrite B; reflexivity].
  constructor; auto. rewrite sadd_in. intros [->|X]; [apply M; left; auto|auto].
Qed.
Lemma circ_push_ok : forall n ds h q h' q', fold_left circ_push ds (h, q) = (h', q') ->
  NoDup h -> (forall x, In x h -> x < n) -> (forall x, In x ds -> x < n) ->
  exists new, q' = q ++ new /\ NoDup h' /\ (forall x, In x h' -> x < n) /\ length h' = length h + length new /\
    (forall x, In x h' <-> In x h \/ In x new) /\ (forall x, In x ds -> In x h').
Proof.
  intros n ds. induction ds as [|d ds IH]; intros h q h' q' E ND Hh Hd.
  - injection E as <- <-. exists []. rewrite app_nil_r. splits; auto.
    + intros x. cbn. tauto.
    + intros x [].
  - cbn [fold_left] in E. unfold circ_push at 2 in E. destruct (smem d h) eqn:M.
    + apply smem_in in M. destruct (IH _ _ _ _ E ND Hh) as (new & A1 & A2 & A3 & A4 & A5 & A6); [intros x X; apply Hd; right; exact X|].
      exists new. splits; auto. intros x [<-|X]; auto. apply A5. auto.
    + apply smem_false in M. destruct (sadd_new d h ND M) as [ND2 L2].
      destruct (IH _ _ _ _ E ND2) as (new & A1 & A2 & A3 & A4 & A5 & A6).
      * intros x X. apply sadd_in in X as [->|X]; auto. apply Hd. left. auto.
      * intros x X. apply Hd. right. exact X.
      * exists (d :: new). rewrite A1, <- app_assoc. splits; auto.
        -- rewrite A4, L2. cbn. lia.
        -- intros x. rewrite A5, sadd_in. cbn. intuition.
        -- intros x [<-|X]; auto. apply A5. left. apply sadd_in. auto.
Qed.
Definition clear_start (f : fsm) (p : nat) : Prop := forall c, pres f p c -> c = Epsilon \/ c = BeginMark.
Lemma outgoing_clear : forall f p, existsb (fun c => negb (N.eqb c Epsilon) && negb (N.eqb c BeginMark)) (outgoing_letters f p) = false <-> clear_start f p.
Proof.
  intros f p. unfold outgoing_letters, clear_start, pres. split.
  - intros H c Hc. destruct (N.eq_dec c Epsilon); auto. destruct (N.eq_dec c BeginMark); auto. exfalso.
    rewrite <- not_true_iff_false in H. apply H. apply existsb_exists. exists c. split.
    + apply mkeys_in. exact Hc.
    + apply N.eqb_neq in n, n0. rewrite n, n0. reflexivity.
  - intros H. apply not_true_is_false. intros X. apply existsb_exists in X as (c & Hc & X). apply mkeys_in in Hc.
    destruct (H c Hc) as [->| ->]; rewrite N.eqb_refl in X; cbn in X; rewrite ?andb_false_r in X; discriminate.
Qed.
Section Circ.
  Variable f : fsm.
  Hypothesis W : wf f.
  Lemma dest_eps : forall p, destinations f p Epsilon = row_get (row_at f p) Epsilon.
  Proof. intros p. unfold destinations, translate. rewrite N.eqb_refl, orb_true_r. reflexivity. Qed.
  Lemma dest_lt : forall p q, In q (destinations f p Epsilon) -> q < size f.
  Proof. intros p q H. rewrite dest_eps in H. apply (raw_bound f p Epsilon q); [apply W|exact H]. Qed.
  Lemma circ_loop_ok : forall fuel h q, NoDup h -> (forall x, In x h -> x < size f) -> length q + (size f - length h) < fuel ->
    (forall x, In x q -> In x h) -> (forall p, In p h -> ~ In p q -> clear_start f p /\ forall r, In r (destinations f p Epsilon) -> In r h) ->
    exists b, circ_loop fuel f h q = Ok b /\
      (b = true -> exists H, (forall x, In x h -> In x H) /\ forall p, In p H -> clear_start f p /\ forall r, In r (destinations f p Epsilon) -> In r H).
  Proof.
    induction fuel as [|k IH]; intros h q ND Hh M Q C; [lia|]. cbn [circ_loop]. destruct q as [|p q].
    - exists true. split; auto. intros _. exists h. split; auto.
    - destruct (fold_left circ_push (destinations f p Epsilon) (h, p :: q)) as [h' q'] eqn:E.
      destruct (circ_push_ok (size f) _ _ _ _ _ E ND Hh (dest_lt p)) as (new & -> & ND' & Hh' & L & I' & Ds).
      destruct (existsb _ (outgoing_letters f p)) eqn:X; [exists false; split; auto; discriminate|]. apply outgoing_clear in X. cbn [app tl].
      assert (Hlen : length h' <= size f).
      { rewrite <- (seq_length (size f) 0). apply NoDup_incl_length; auto. intros x Hx. apply in_seq. specialize (Hh' x Hx). lia. }
      destruct (IH h' (q ++ new) ND' Hh') as (b & Eb & Hb).
      + rewrite app_length. cbn in M. lia.
      + intros x Hx. apply I'. apply in_app_or in Hx as [Hx|Hx]; auto. left. apply Q. right. exact Hx.
      + intros r Hr Nr. apply I' in Hr as [Hr|Hr]; [|exfalso; apply Nr; apply in_or_app; auto].
        destruct (Nat.eq_dec r p) as [->|Nrp]; [split; auto|].
        destruct (C r Hr) as [C1 C2]; [intros [Y|Y]; [congruence|apply Nr; apply in_or_app; auto]|]. split; auto. intros s Hs. apply I'. left. auto.
      + exists b. split; auto. intros T. destruct (Hb T) as (H & A & B). exists H. split; auto. intros x Hx. apply A, I'. auto.
  Qed.
  Lemma circumflex_ok : exists b, begins_with_circumflex f = Ok b /\
    (b = true -> exists H, In (initial f) H /\ forall p, In p H -> clear_start f p /\ forall r, In r (destinations f p Epsilon) -> In r H).
  Proof.
    destruct (circ_loop_ok (S (size f)) [initial f] [initial f]) as (b & E & H).
    - constructor; [intros []|constructor].
    - intros x [<-|[]]. apply W.
    - cbn [length]. pose proof (wf_init _ W). lia.
    - auto.
    - intros p Hp Np. contradiction.
    - exists b. split; [exact E|]. intros T. destruct (H T) as (S & A & B). exists S. split; auto. apply A. left. auto.
  Qed.

  (** The initial state shows its letters: either none is compressed, or 0 stands for itself. *)
  Definition plain_start : Prop := uncompressed f \/ pres f (initial f) 0%N.
  Lemma circumflex_words : plain_start -> begins_with_circumflex f = Ok true ->
    forall u, accepts f u -> u = [] \/ exists v, u = BeginMark :: v.
  Proof.
    intros P E u [q [Pa _]]. destruct circumflex_ok as (b & E' & H). rewrite E in E'. injection E' as <-. destruct (H eq_refl) as (S & Hi & Hc).
    destruct P as [U|P]; [|destruct (Hc _ Hi) as [X _]; destruct (X _ P) as [Y|Y]; discriminate Y].
    clear H. revert Hi. induction Pa as [p|p m w q Hr Pa IH|p c m w q Hn Hr Pa IH]; intros Hi; [auto| |].
    - apply IH. destruct (Hc _ Hi) as [_ X]. apply X. rewrite dest_eps. rewrite edge_raw, (erep_empty f _ U) in Hr. exact Hr.
    - right. destruct (Hc _ Hi) as [X _]. rewrite edge_raw, (erep_empty f _ U) in Hr.
      assert (Y : pres f p c). { unfold pres. unfold raw, row_get in Hr. destruct (mfind c (row_at f p)); [discriminate|destruct Hr]. }
      destruct (X c Y) as [Z|Z]; [contradiction|]. subst c. eauto.
  Qed.
End Circ.

(** ** Automata with compressed letters that the parser makes: complements *)
Definition class_step (eq : N -> N -> bool) (p : partition) (c : N) : partition := if N.eqb c Epsilon then p else part_append eq c p.
Lemma part_rep_append : forall eq ls p c, ~ In c ls -> part_rep (fold_left (class_step eq) ls p) c = part_rep p c.
Proof.
  intros eq ls. induction ls as [|t ls IH]; intros p c H; [reflexivity|]. cbn [fold_left]. rewrite IH by (intros X; apply H; right; exact X).
  unfold class_step. destruct (N.eqb t Epsilon); [reflexivity|]. unfold part_append, part_rep. assert (c <> t) by (intros ->; apply H; left; auto).
  destruct (part_join eq t (pset p)) as [[r s]|]; cbn [pinv]; rewrite mfind_mset; destruct (keqb c t) eqn:E; auto; apply keqb_eq in E; contradiction.
Qed.
Lemma letters_cons : exists l, all_letters = 0%N :: l /\ ~ In 0%N l.
Proof.
  exists (map N.of_nat (seq 1 263)). split; [reflexivity|]. intros H. apply in_map_iff in H as (x & Hx & I). apply in_seq in I. lia.
Qed.
Lemma zero_first : forall eq, part_rep (fold_left (class_step eq) all_letters part_empty) 0%N = Some 0%N.
Proof.
  intros eq. destruct letters_cons as (l & -> & N). cbn [fold_left]. rewrite part_rep_append by exact N. reflexivity.
Qed.
Lemma sparse_zero : forall f, part_rep (letters (sparse f)) 0%N = Some 0%N.
Proof. intros f. exact (zero_first (letters_equal (trans f))). Qed.
Lemma clear_letters : forall f, letters (clear_hints f) = letters f. Proof. reflexivity. Qed.
Lemma clear_zero : forall f, part_rep (letters (clear_hints (sparse f))) 0%N = Some 0%N.
Proof. intros f. rewrite clear_letters. apply sparse_zero. Qed.
Lemma letters_fold : forall A (g : fsm -> A -> fsm) l f, (forall f x, letters (g f x) = letters f) -> letters (fold_left g l f) = letters f.
Proof. intros A g l. induction l as [|x l IH]; intros f H; [reflexivity|]. cbn [fold_left]. rewrite IH by exact H. apply H. Qed.
Lemma letters_connect : forall f p q c, letters (connect f p q c) = letters f. Proof. reflexivity. Qed.
Lemma letters_members : forall f ns s g, letters (accept_members f ns s g) = letters g.
Proof.
  intros f ns s. induction s as [|q s IH]; intros g; cbn [accept_members]; [reflexivity|]. cbv zeta.
  destruct (_ && _); [destruct (is_final f q); reflexivity|]. rewrite IH. destruct (is_final f q); destruct (mfind q (tags f)); reflexivity.
Qed.
Lemma letters_terminal : forall f term ns s g, letters (accept_terminal f term ns s g) = letters g.
Proof.
  intros f term ns s g. unfold accept_terminal. apply letters_fold. intros h x. destruct (smem x term); [|reflexivity].
  apply letters_fold. intros h' [c v]. apply letters_connect.
Qed.
Lemma determine_letters : forall f m g, determined f = false -> determine f m = Ok (true, g) -> letters g = letters (remove_epsilons f).
Proof.
  intros f m g D E. unfold determine in E. rewrite D in E. cbv zeta in E. revert E. generalize (remove_epsilons f). intros f1.
  generalize (det_run (@seqb nat _) [initial f1] (fsm_next f1) (fsm_required (terminal_states f1)) (part_list (letters f1)) (if N.eqb m 0 then 200000%N else m)).
  intros [states tr| |] E; try discriminate. injection E as <-. cbn [letters set_sparsed set_outputs].
  rewrite letters_fold by (intros h [[a b] c]; apply letters_connect). unfold accept_states. cbn [letters set_outputs].
  rewrite letters_fold; [reflexivity|]. intros h ns. rewrite letters_members. apply letters_terminal.
Qed.
Lemma minimize_letters : forall f g, minimize f = Ok g -> letters g = letters f.
Proof.
  intros f g E. unfold minimize in E. destruct (rev_rows (letters f) 0 (trans f)) as [t| | |]; try discriminate. cbn [bind] in E.
  destruct (negb (determined f)); [injection E as <-; reflexivity|]. destruct (min_run _ _ _ _ _) as [m| | |]; try discriminate. cbn [bind] in E. injection E as <-.
  unfold min_accept. cbn [letters set_outputs set_initial]. rewrite letters_fold; [reflexivity|].
  intros h q. unfold min_accept_state, min_accept_row. cbv zeta.
  assert (X : forall r d x, letters (fold_left (fun g '(c, tos) => connect g d (m_class m (hd 0 tos)) c) r x) = letters x) by (intros; apply letters_fold; intros y [c v]; reflexivity).
  destruct (mfind q (tags f)); destruct (is_final f q); cbn [letters set_tags]; rewrite ?X; try reflexivity; apply X.
Qed.
Lemma comp_table_raw : forall f p c q, raw f p c q -> initial (comp_table f) = initial f /\ raw (comp_table f) p c q.
Proof.
  intros f p c q H. unfold comp_table. cbv zeta. set (f1 := resize_fsm f (size f + 1)).
  assert (E1 : size f1 = size f + 1) by apply size_resize. rewrite E1. replace (size f + 1 - 1) with (size f) by lia.
  set (f2 := fold_left _ (seq 0 (size f + 1)) f1).
  assert (A : adds f1 f2 (fun p c q => exists x, In x (seq 0 (size f + 1)) /\ (~ In x (finals f) /\ p = x /\ c = Epsilon /\ q = size f))).
  { unfold f2. apply adds_fold with (S := fun x p c q => ~ In x (finals f) /\ p = x /\ c = Epsilon /\ q = size f).
    intros g x T Hx A. unfold is_final. rewrite (ad_fin _ _ _ A). change (finals f1) with (finals f). apply in_seq in Hx.
    destruct (smem x (finals f)) eqn:F.
    - apply smem_in in F. eapply adds_ext; [apply adds_refl|]. tauto.
    - apply smem_false in F. eapply adds_ext.
      + apply connect_adds; rewrite ?(ad_size _ _ _ A), ?E1; try lia. reflexivity.
      + cbn. tauto. }
  clearbody f2. split; [change (initial f2 = initial f); rewrite (ad_init _ _ _ A); reflexivity|].
  change (raw f2 p c q). apply (ad_raw _ _ _ A). left. apply raw_resize; [lia|exact H].
Qed.
Lemma complement_plain : forall f g, good f -> determined f = false -> complement f = Ok g -> plain_start g.
Proof.
  intros f g G D E. right. unfold complement in E. destruct (determine_good f 0 G) as [(h & E1 & Wh & Dh & Hd & _)|(h & E1 & _)]; rewrite E1 in E; cbn [bind negb] in E; [|discriminate].
  destruct (minimize_ok h Wh Dh Hd) as (k & cls & E2 & Wk & Dk & _). rewrite E2 in E. cbn [bind] in E. fold (comp_table k) in E. injection E as <-.
  assert (R : part_rep (letters k) 0%N = Some 0%N).
  { rewrite (minimize_letters _ _ E2), (determine_letters _ _ _ D E1). unfold remove_epsilons. cbv zeta. apply clear_zero. }
  destruct (do_fun _ Dk (initial k) 0%N (wf_init _ Wk) R) as (q & Hq & M).
  assert (H : raw k (initial k) 0%N q) by (unfold raw, row_get; rewrite M; left; reflexivity).
  destruct (comp_table_raw k (initial k) 0%N q H) as [I0 H0]. rewrite I0. unfold pres. unfold raw, row_get in H0. intros X. rewrite X in H0. destruct H0.
Qed.

Lemma bind_ok : forall A B (x : res A) (k : A -> res B) y, bind x k = Ok y -> exists a, x = Ok a /\ k a = Ok y.
Proof. intros A B [a| | |] k y H; try discriminate. eauto. Qed.
Lemma ok_inj' : forall A (x y : A), Ok x = Ok y -> x = y.
Proof. congruence. Qed.
Lemma and_plain : forall a b g, built a -> built b -> fsm_and a b = Ok g -> plain_start g.
Proof.
  intros a b g A B E. unfold fsm_and in E. apply bind_ok in E. destruct E as (a' & Ea & E). apply bind_ok in E. destruct E as (b' & Eb & E).
  pose proof (built_or a' b' (built_complement a a' A Ea) (built_complement b b' B Eb)) as H.
  eapply complement_plain; [apply built_good; exact H|apply fsm_or_undet|exact E].
Qed.
Lemma or_plain : forall a b, built a -> built b -> plain_start (fsm_or a b).
Proof. intros a b A B. left. apply (fsm_or_ok a b); apply built_wf; auto. Qed.
Lemma parsed_plain : forall e D r f, good_encoding e D -> fits Alternative r -> regular r -> compile_re e r = Ok f -> plain_start f.
Proof.
  intros e D r f G F R E. pose proof (RegexProofs.compile_ok e D G r Alternative F R) as V.
  assert (U : (match r with REps | RCat _ _ => True | _ => False end) -> uncompressed f).
  { destruct V as [(f' & E' & _ & _ & _ & _ & U)|[E' _]]; [|congruence].
    rewrite E in E'. apply ok_inj' in E'. subst f'. intros X. apply U. destruct r; exact X. }
  clear V.
  destruct r; cbn [fits] in F; try (left; apply U; exact I); clear U; cbn [regular] in R.
  - destruct F as [X|X]; discriminate X.
  - destruct F as [X|X]; discriminate X.
  - destruct F as [X|X]; discriminate X.
  - destruct F as [X|X]; discriminate X.
  - destruct F as [[X|X] _]; discriminate X.
  - destruct F as [X _]. discriminate X.
  - destruct F as [_ F]. unfold compile_re in E. rewrite eval_not in E. apply bind_ok in E. destruct E as (v & E & Ev).
    apply bind_ok in E. destruct E as (g & Eg & E). apply bind_ok in E. destruct E as (h & Eh & E). apply ok_inj' in E. subst v.
    cbn [convert] in Ev. apply ok_inj' in Ev. subst h.
    destruct (RegexProofs.compile_ok e D G r _ F R) as [(g' & Eg' & Bg & _ & Dg & _)|[Eg' _]]; rewrite Eg in Eg'; [|discriminate].
    apply ok_inj' in Eg'. subst g'. eapply complement_plain; eauto. apply built_good, Bg.
  - destruct F as (_ & F1 & F2). destruct R as [R1 R2]. unfold compile_re in E. rewrite eval_and in E. apply bind_ok in E. destruct E as (v & E & Ev).
    apply bind_ok in E. destruct E as (g & Eg & E). apply bind_ok in E. destruct E as (h & Eh & E). apply bind_ok in E. destruct E as (x & Ex & E). apply ok_inj' in E. subst v.
    cbn [convert] in Ev. apply ok_inj' in Ev. subst x.
    destruct (RegexProofs.compile_ok e D G r1 _ F1 R1) as [(g' & Eg' & Bg & _)|[Eg' _]]; rewrite Eg in Eg'; [|discriminate]. apply ok_inj' in Eg'. subst g'.
    destruct (RegexProofs.compile_ok e D G r2 _ F2 R2) as [(h' & Eh' & Bh & _)|[Eh' _]]; rewrite Eh in Eh'; [|discriminate]. apply ok_inj' in Eh'. subst h'.
    exact (and_plain _ _ _ Bg Bh Ex).
  - destruct F as (_ & F1 & F2). destruct R as [R1 R2]. unfold compile_re in E. rewrite eval_or in E. apply bind_ok in E. destruct E as (v & E & Ev).
    apply bind_ok in E. destruct E as (g & Eg & E). apply bind_ok in E. destruct E as (h & Eh & E). apply ok_inj' in E. subst v.
    cbn [convert] in Ev. apply ok_inj' in Ev. subst f.
    destruct (RegexProofs.compile_ok e D G r1 _ F1 R1) as [(g' & Eg' & Bg & _)|[Eg' _]]; rewrite Eg in Eg'; [|discriminate]. apply ok_inj' in Eg'. subst g'.
    destruct (RegexProofs.compile_ok e D G r2 _ F2 R2) as [(h' & Eh' & Bh & _)|[Eh' _]]; rewrite Eh in Eh'; [|discriminate]. apply ok_inj' in Eh'. subst h'.
    exact (or_plain _ _ Bg Bh).
Qed.

(** ** The scanners a Regexp holds *)
Lemma size_append_anything : forall f, wf f -> size (append_anything f) = S (size f).
Proof. intros f W. exact (ap_size _ _ _ _ (append_anything_appended f W)). Qed.
Lemma append_anything_undet : forall f, determined (append_anything f) = false.
Proof. reflexivity. Qed.
Lemma size_prepend_anything : forall f, wf f -> size (prepend_anything f) = S (size f).
Proof.
  intros f W. unfold prepend_anything. set (f1 := resize_fsm f (size f + 1)).
  assert (E1 : size f1 = size f + 1) by apply size_resize.
  pose proof (loops_adds f1 (size f) ltac:(lia)) as A. set (f2 := fold_left _ all_letters f1) in *.
  assert (E2 : size f2 = size f + 1) by (rewrite (ad_size _ _ _ A); auto).
  assert (I2 : initial f2 < size f2) by (rewrite (ad_init _ _ _ A), E2; change (initial f1) with (initial f); pose proof (wf_init _ W); lia).
  change (size (connect f2 (size f) (initial f2) Epsilon) = S (size f)).
  rewrite (ad_size _ _ _ (connect_adds f2 (size f) (initial f2) Epsilon ltac:(lia) I2 eq_refl)). lia.
Qed.

Lemma compile_determined : forall k buf f g, determined f = false -> determine f 0 = Ok (true, g) -> determined g = true -> compile k buf g = compile k buf f.
Proof. intros k buf f g D E Dg. unfold compile, canonize. rewrite D, Dg, E. reflexivity. Qed.

Lemma copy_placed : forall k b s, k_nmask k <= 64 -> user_address b -> s_owned s = true -> (s_states s <= 200001)%N -> (s_nletters s <= 264)%N -> (s_fsize s <= 400002)%N ->
  placed k (copy_scanner k b s) /\ s_null (copy_scanner k b s) = false.
Proof.
  intros k b s K [A1 A2] O Es El Ef. unfold copy_scanner. rewrite O. split; [|reflexivity].
  assert (R : (row_bytes k (s_nletters s) <= 8000)%N) by (apply row_bytes_le; auto).
  assert (T : (s_states s * row_bytes k (s_nletters s) <= 200001 * 8000)%N) by (apply N.mul_le_mono; lia).
  split; unfold s_base; cbn [deep_copy s_buf s_states s_nletters s_fsize]; [exact A1| |intros _; unfold two31; lia].
  unfold two64, MaxChar. lia.
Qed.

Lemma fast_ok : forall k b1 b2 f g, k_nmask k <= 64 -> built f -> determined f = false -> user_address b1 -> user_address b2 -> determine f 0 = Ok (true, g) ->
  exists s, compile k b1 g = Ok s /\ obtained k (copy_scanner k b2 s) [accepts f] /\ s_null (copy_scanner k b2 s) = false.
Proof.
  intros k b1 b2 f g K B D [A1 A2] U E.
  assert (Dg : determined g = true).
  { destruct (determine_good f 0 (built_good _ B)) as [(g' & E' & _ & _ & H & _)|(g' & E' & _)]; rewrite E in E'; [|discriminate]. injection E' as <-. exact H. }
  rewrite (compile_determined k b1 f g D E Dg).
  destruct (canonize_ok f 0 (built_good _ B)) as [(h & C & W & _)|[C X]].
  - destruct (compile_canon k b1 f B K h D C) as (s & Es & Ns & _ & P).
    exists s. split; auto. specialize (P A1 A2).
    destruct (ScannerCompile.compile_ok k b1 f B K s Es) as (h' & d & C' & _ & _ & _ & _ & _ & _ & _ & _ & _ & _ & Ow & _ & Ss & Sl & Sf).
    rewrite C in C'. injection C' as <-.
    pose proof (part_size_le _ (wf_letters _ W)). pose proof (finals_le h W).
    destruct (copy_placed k b2 s K U Ow Ns ltac:(lia) ltac:(lia)) as [P2 N2]. split; auto. apply ob_copy; auto. eapply ob_compile; eauto.
  - destruct X as [_ [g' E']]. congruence.
Qed.

Lemma slow_compile_null : forall f s, built f -> (N.of_nat (size f) <= 4294967296)%N -> slow_compile f = Ok s -> w_null s = false.
Proof. intros f s B Sz E. destruct (slow_compile_ok f B Sz) as (s' & E' & H & _). congruence. Qed.
Lemma slow_ok : forall f g, built f -> determined f = false -> (N.of_nat (size f) <= 4294967296)%N -> determine f 0 = Ok (false, g) ->
  exists s, slow_compile g = Ok s /\ obtained_slow (slow_copy s) [accepts g] /\ lang_eq (accepts g) (accepts f).
Proof.
  intros f g B D Sz E.
  destruct (determine_ok f 0 (built_wf _ B) D) as (b & g' & E' & _ & _ & L & _ & F). rewrite E in E'. injection E' as <- <-. destruct (F eq_refl) as [Sg _].
  destruct (slow_total g (built_determine _ _ _ _ B E) ltac:(rewrite Sg; exact Sz)) as (s & Es & O). exists s. splits; auto. apply ol_copy; auto.
  eapply slow_compile_null; [|rewrite Sg; exact Sz|exact Es]. eapply built_determine; eauto.
Qed.

(** A text around which the marks were put contains a word of [L]. *)
Definition contains (L : lang) (w : word) : Prop := exists p u q, w = p ++ u ++ q /\ L u.

Lemma easy_language : forall f c, built f -> plain_start f -> begins_with_circumflex f = Ok c -> forall bs, Forall byte bs ->
  (accepts (append_anything (if c then f else prepend_anything f)) (BeginMark :: bs ++ [EndMark]) <-> contains (accepts f) (BeginMark :: bs ++ [EndMark])).
Proof.
  intros f c B P C bs Hb. set (w := BeginMark :: bs ++ [EndMark]).
  assert (Hw : is_word w).
  { unfold w. constructor; [apply BeginMark_letter|]. apply Forall_app. split; [apply bytes_word, Hb|constructor; [apply EndMark_letter|constructor]]. }
  assert (Sub : forall p u q, w = p ++ u ++ q -> is_word p /\ is_word q).
  { intros p u q E. rewrite E in Hw. apply Forall_app in Hw. destruct Hw as [? Hw]. apply Forall_app in Hw. tauto. }
  destruct c.
  - rewrite (f_append_any f B w). split.
    + intros (u & q & E & Hu & _). exists [], u, q. auto.
    + intros (p & u & q & E & Hu). destruct (circumflex_words f (built_wf _ B) P C u Hu) as [->|[v ->]].
      * exists [], w. splits; auto.
      * destruct p as [|x p]; [exists (BeginMark :: v), q; splits; auto; apply (Sub [] (BeginMark :: v) q E)|].
        exfalso. unfold w in E. cbn [app] in E. injection E as _ E. assert (X : In BeginMark (bs ++ [EndMark])) by (rewrite E; apply in_or_app; right; left; reflexivity).
        apply in_app_or in X. destruct X as [X|[X|[]]]; [|discriminate X]. rewrite Forall_forall in Hb. apply Hb in X. unfold byte, BeginMark in X. lia.
  - rewrite (f_append_any (prepend_anything f) (built_prepend f B) w). split.
    + intros (v & q & E & Hv & _). apply (f_prepend f B) in Hv. destruct Hv as (p & u & -> & _ & Hu). exists p, u, q. split; auto. rewrite E, app_assoc. reflexivity.
    + intros (p & u & q & E & Hu). destruct (Sub p u q E) as [Hp Hq]. exists (p ++ u), q. splits; auto; [rewrite <- app_assoc; exact E|].
      apply (f_prepend f B). exists p, u. auto.
Qed.

Lemma easy_ok : forall k b1 b2 x f, k_nmask k <= 64 -> user_address b1 -> user_address b2 -> s_null (x_fast x) = true ->
  built f -> plain_start f -> (N.of_nat (size f) <= 4294967294)%N ->
  exists y, regexp_of_fsm k b1 b2 x f = Ok y /\ forall i m b bs, text_at m b bs ->
    exists r, regexp_matches k y i m b (b + N.of_nat (length bs)) = Ok r /\ (r = true <-> contains (accepts f) (BeginMark :: bs ++ [EndMark])).
Proof.
  intros k b1 b2 x f K A1 A2 X B P Sz. destruct (circumflex_ok f (built_wf _ B)) as (c & C & _). unfold regexp_of_fsm. rewrite C. cbn [bind].
  pose proof (fun bs => easy_language f c B P C bs) as L.
  assert (B1 : built (append_anything (if c then f else prepend_anything f))) by (destruct c; [|apply built_append_any, built_prepend; auto]; apply built_append_any; auto).
  assert (S1 : (N.of_nat (size (append_anything (if c then f else prepend_anything f))) <= 4294967296)%N).
  { destruct c; rewrite size_append_anything; [lia|apply built_wf; auto|rewrite size_prepend_anything by (apply built_wf; auto); lia|apply built_wf, built_prepend; auto]. }
  assert (D1 : determined (append_anything (if c then f else prepend_anything f)) = false) by reflexivity.
  set (f1 := append_anything (if c then f else prepend_anything f)) in *. clearbody f1.
  destruct (determine_good f1 0 (built_good _ B1)) as [(g & E & _)|(g & E & _)]; rewrite E; cbn [bind].
  - destruct (fast_ok k b1 b2 f1 g K B1 D1 A1 A2 E) as (s & -> & O & N0). cbn [bind]. eexists. split; [reflexivity|]. intros i m b bs T.
    unfold regexp_matches. cbn [x_fast]. rewrite N0. cbn [negb].
    destruct (ob_matches k _ _ O i m true true b bs T) as (r & E1 & H). exists r. split; [exact E1|]. rewrite H, any_of_one. cbn [mark_if app]. apply L, T.
  - destruct (slow_ok f1 g B1 D1 S1 E) as (s & -> & O & Lg). cbn [bind]. eexists. split; [reflexivity|]. intros i m b bs T.
    unfold regexp_matches. cbn [x_fast x_slow]. rewrite X. cbn [negb]. unfold slow_matches, start_state.
    destruct (obtained_slow_tells _ _ O (BeginMark :: bs ++ [EndMark])) as (st & Es & (fin & Ef & H) & _).
    { constructor; [apply BeginMark_letter|]. apply Forall_app. split; [apply bytes_word, T|constructor; [apply EndMark_letter|constructor]]. }
    cbn [steps] in Es. apply bind_ok in Es. destruct Es as (s1 & E1 & Es). rewrite E1. cbn [bind].
    rewrite RunProofs.steps_app in Es. apply bind_ok in Es. destruct Es as (s2 & E2 & Es).
    rewrite (slow_run_steps _ m bs b s1 (proj1 (proj2 T))), E2. cbn [bind]. cbn [steps] in Es. apply bind_ok in Es. destruct Es as (s3 & E3 & Es). injection Es as <-.
    rewrite E3. cbn [bind]. exists fin. split; auto. rewrite H, any_of_one, (Lg _). apply L, T.
Qed.

(** ** Regexp::Init *)
Lemma default_total : forall k b0, k_nmask k <= 64 -> exists s, default_scanner k b0 = Ok s /\ s_null s = true.
Proof.
  intros k b0 K. assert (B : built make_false) by apply built_false.
  destruct (canonize_ok make_false 0 (built_good _ B)) as [(g & C & _)|[_ [_ [g' X]]]].
  - destruct (compile_canon k b0 make_false B K g eq_refl C) as (s & E & _). unfold default_scanner. rewrite E. cbn [bind]. eexists. split; reflexivity.
  - exfalso. destruct (determine_small make_false 0 (built_wf _ B) eq_refl) as [g E]; [vm_compute; discriminate|]. congruence.
Qed.
Lemma slow_default_total : exists s, slow_default = Ok s.
Proof.
  destruct (slow_total make_false built_false) as (s & E & _); [vm_compute; discriminate|]. unfold slow_default. rewrite E. cbn [bind]. eexists. reflexivity.
Qed.

Lemma parse_plain : forall e D w r f, shipped e D -> derives Alternative w r -> regular r -> parse_tokens e w = Ok f -> plain_start f.
Proof.
  intros e D w r f E H R P. unfold parse_tokens in P. rewrite (parse_complete _ _ H) in P. apply derives_fits in H. destruct H as [_ F].
  exact (parsed_plain e D r f (shipped_good _ _ E) F R P).
Qed.

Section Init.
  Variables (k : kind) (b0 b1 b2 : N) (added : list feature) (icase andnot : bool) (is : list item) (e : encoding) (D : lang) (text : list N).
  Hypotheses (K : k_nmask k <= 64) (A1 : user_address b1) (A2 : user_address b2) (O : options added icase andnot) (F : Forall (item_ok andnot) is)
    (E : shipped e D) (T : from_local_all e text = Ok (pattern_text is))
    (Sz : forall f, parse_local added e text = Ok f -> (N.of_nat (size f) <= 4294967294)%N).

  Lemma regexp_init_ok : exists ts, Forall2 (stands_for icase) is ts /\ forall r, derives Alternative ts r -> regular r ->
    (exists y, regexp_init k b0 b1 b2 added e text = Ok y /\ forall i m b bs, text_at m b bs ->
       exists res, regexp_matches k y i m b (b + N.of_nat (length bs)) = Ok res /\
         (res = true <-> contains (re_den (e_to e) D r) (BeginMark :: bs ++ [EndMark]))) \/
    (regexp_init k b0 b1 b2 added e text = Throw ETooComplicated /\ negates r).
  Proof.
    destruct (lex_all_ok added icase andnot is O F) as (ts & L & M). exists ts. split; auto. intros r H R.
    destruct (default_total k b0 K) as (s0 & E0 & N0). destruct slow_default_total as (w0 & W0).
    assert (P : parse_local added e text = parse_tokens e ts).
    { unfold parse_local. rewrite T. cbn [bind]. unfold parse_pattern. unfold features in L. rewrite L. reflexivity. }
    unfold regexp_init. rewrite E0. cbn [bind]. rewrite W0. cbn [bind]. rewrite P.
    destruct (pattern_ok e D ts r E H R) as [(f & Pf & B & _ & Lf)|[Pf Ng]]; rewrite Pf; cbn [bind]; [left|right; auto].
    destruct (easy_ok k b1 b2 (mkRegexp s0 w0) f K A1 A2 N0 B (parse_plain e D ts r f E H R Pf)) as (y & Ey & Q); [apply Sz; rewrite P; exact Pf|].
    exists y. split; auto. intros i m b bs Hm. destruct (Q i m b bs Hm) as (res & Er & I). exists res. split; auto. rewrite I.
    split; intros (p & u & q & X & Y); exists p, u, q; split; auto; apply Lf; auto.
  Qed.
End Init.
