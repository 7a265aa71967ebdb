(** The pairs of states of the constructor of CountingScanner: what their automaton does, in terms
    of the pairs of words of CountScan. *)
From Coq Require Import List Bool Arith NArith Lia.
From Verif Require Import Util Spec PartitionModel PartitionProofs FsmModel DetermineModel FsmSem FsmBasics FsmOps FsmOps2 EpsProofs DetGeneric DetProofs Nfa
  DeadProofs ScannerModel CountModel CountSpec CountBuild DetSets CountAuto CountScan.
Import ListNotations.

Definition code (o : option event) : N := match o with None => 0%N | Some Inc => 3%N | Some Rst => 1%N end.

(** ** One step *)
Section Step.
  Variables (f : fsm) (L : lang) (dead : list nat).
  Hypothesis W : wf f.
  Hypothesis T : tracks f L.
  Hypothesis De : forall p c q, In q (destinations f p c) <-> edge f p c q.
  Hypothesis Dd : forall q, In q dead <-> DeadProofs.dead f q.
  Let D u i := walk (edge f) (initial f) u i.

  Lemma D_fun : forall u i j, is_word u -> D u i -> D u j -> i = j.
  Proof. intros u i j Hu H1 H2. destruct (tk_det _ _ T u Hu) as (k & K). apply K in H1, H2. congruence. Qed.
  Lemma D_size : forall u i, D u i -> i < size f.
  Proof.
    intros u i H. destruct u as [|c u _] using rev_ind; [cbn in H; subst i; apply W|]. apply walk_snoc in H as (p & _ & H). apply edge_bound in H; tauto.
  Qed.
  Lemma alive_live : forall u i, is_word u -> D u i -> (alive L u <-> ~ In i dead).
  Proof.
    intros u i Hu H. rewrite Dd. unfold DeadProofs.dead. pose proof (D_size _ _ H) as Bi. split.
    - intros (y & Hy & F) [_ [R|R]].
      + apply R. exists u. apply walk_path; [apply T|]. split; auto. apply word_noeps. auto.
      + apply R. assert (Wy : is_word (u ++ y)) by (apply Forall_app; auto). destruct (tk_det _ _ T _ Wy) as (j & J). pose proof (proj2 (J j) eq_refl) as P.
        apply (tk_fin _ _ T _ _ Wy P) in F. exists y, j. split; auto. apply walk_app in P as (i' & P1 & P2). rewrite <- (D_fun u i i' Hu H P1) in P2.
        apply walk_path; [apply T|]. split; auto. apply word_noeps. auto.
    - intros N. destruct (live_dec f i W Bi) as [(y & j & P & F)|X]; [|destruct N; auto].
      assert (Wy : is_word y).
      { clear - P W. induction P; auto; [constructor|]. constructor; auto. split; auto. eapply edge_letter; eauto. }
      apply walk_path in P as [P _]; [|apply T]. exists y. split; auto. assert (Wu : is_word (u ++ y)) by (apply Forall_app; auto).
      apply (tk_fin _ _ T _ j Wu); auto. apply walk_app. eauto.
  Qed.
  Lemma hit_final : forall u i, is_word u -> D u i -> (hit L u <-> is_final f i = true).
  Proof. intros u i Hu H. unfold hit. rewrite <- (tk_fin _ _ T u i Hu H). unfold is_final. rewrite smem_in. reflexivity. Qed.
  Lemma begun_tag : forall u i, is_word u -> D u i -> (begun L u <-> N.land (fsm_tag f i) CMatched = 2%N) /\ (~ begun L u <-> N.land (fsm_tag f i) CMatched = 0%N).
  Proof.
    intros u i Hu H. pose proof (tk_tag _ _ T u i Hu H) as X. unfold begun. rewrite <- X, land2. destruct (N.testbit (fsm_tag f i) 1); split; split; intros Y; try reflexivity; try discriminate Y; congruence.
  Qed.
  Lemma pair_step : forall u v i j c, is_word u -> is_word v -> letter c -> D u i -> D v j ->
    exists i1 j1 u1 v1 o, pair_next f dead (i, j) c = Ok (i1, j1, code o) /\ pstep L u v c u1 v1 o /\ D u1 i1 /\ D v1 j1 /\ is_word u1 /\ is_word v1.
  Proof.
    intros u v i j c Hu Hv Hc Di Dj.
    assert (Head : forall x y, is_word x -> D x y -> exists z l, destinations f y c = z :: l /\ D (x ++ [c]) z).
    { intros x y Hx Dx. assert (Wx : is_word (x ++ [c])) by (apply Forall_app; auto). destruct (tk_det _ _ T _ Wx) as (z & Z). pose proof (proj2 (Z z) eq_refl) as P.
      apply walk_snoc in P as (y' & P1 & P2). rewrite <- (D_fun x y y' Hx Dx P1) in P2. apply De in P2. destruct (destinations f y c) as [|z' l] eqn:E; [destruct P2|].
      exists z', l. split; auto. apply walk_snoc. exists y. split; auto. apply De. rewrite E. left. auto. }
    destruct (Head u i Hu Di) as (m & lm & Em & Dm). destruct (Head v j Hv Dj) as (b & lb & Eb & Db).
    assert (Wm : is_word (u ++ [c])) by (apply Forall_app; auto). assert (Wb : is_word (v ++ [c])) by (apply Forall_app; auto).
    unfold pair_next. cbn [fst snd]. rewrite Em, Eb.
    assert (KEY : forall u1 m1 o, main_of L u v c u1 o -> D u1 m1 -> is_word u1 ->
      exists i1 j1 u1 v1 o', Ok (m1, (if is_final f m1 || is_final f b && (N.land (fsm_tag f m1) CMatched =? 0)%N then initial f else b), code o) = Ok (i1, j1, code o') /\
        pstep L u v c u1 v1 o' /\ D u1 i1 /\ D v1 j1 /\ is_word u1 /\ is_word v1).
    { intros u1 m1 o Hm D1 W1. pose proof (hit_final u1 m1 W1 D1) as H1. pose proof (hit_final _ _ Wb Db) as H2. destruct (begun_tag u1 m1 W1 D1) as [_ H3].
      destruct (is_final f m1 || is_final f b && (N.land (fsm_tag f m1) CMatched =? 0)%N) eqn:EB.
      - exists m1, (initial f), u1, [], o. split; [reflexivity|]. splits; auto; [|reflexivity|constructor]. split; auto. left. split; auto.
        apply orb_true_iff in EB as [EB|EB]; [tauto|]. apply andb_true_iff in EB as [E1 E2]. apply N.eqb_eq in E2. tauto.
      - exists m1, b, u1, (v ++ [c]), o. split; [reflexivity|]. splits; auto. split; auto. right. apply orb_false_iff in EB as [E1 E2].
        split; [intros X; apply H1 in X; congruence|]. split; auto. intros [X Y]. apply H2 in X. apply H3 in Y. rewrite X, Y in E2. discriminate E2. }
    pose proof (alive_live _ _ Wm Dm) as Al. destruct (smem m dead) eqn:Sm.
    - apply smem_in in Sm. destruct (begun_tag _ _ Wm Dm) as [B1 B2]. rewrite (land2 (fsm_tag f m)) in *.
      destruct (N.testbit (fsm_tag f m) 1).
      + apply (KEY (v ++ [c]) b (Some Inc)); auto. right. split; [tauto|]. split; auto. left. split; auto. tauto.
      + apply (KEY (v ++ [c]) b (Some Rst)); auto. right. split; [tauto|]. split; auto. right. split; auto. tauto.
    - apply (KEY (u ++ [c]) m None); auto. left. splits; auto. apply Al. intros X. apply smem_in in X. congruence.
  Qed.

  (** ** Two letters to the same pair *)
  Hypothesis Hne : ~ L [].
  Hypothesis Hany : forall u, L u -> Forall any_letter u.
  Lemma one_way : forall u v c c' u1 v1 u1' v1' o' i, is_word u -> is_word v -> letter c -> letter c' -> J L u v ->
    pstep L u v c u1 v1 None -> pstep L u v c' u1' v1' o' -> D u1 i -> D u1' i -> o' = None.
  Proof.
    intros u v c c' u1 v1 u1' v1' o' i Hu Hv Hc Hc' Hj [S1 _] [S2 _] D1 D2.
    destruct S1 as [(A1 & -> & _)|(_ & _ & [[_ X]|[_ X]])]; try discriminate X.
    destruct S2 as [(_ & _ & ->)|(A2 & -> & _)]; auto. exfalso.
    assert (Wx : is_word (u ++ [c])) by (apply Forall_app; auto). assert (Wy : is_word (v ++ [c'])) by (apply Forall_app; auto).
    assert (A3 : alive L (v ++ [c'])) by (apply (alive_live _ i Wy D2), (alive_live _ i Wx D1); auto).
    destruct (tk_split _ _ T) as (dupm & anym & Sp).
    assert (F0 : forall m, (forall y, is_word y -> L (m ++ y)) -> L m) by (intros m H; specialize (H [] ltac:(constructor)); rewrite app_nil_r in H; exact H).
    assert (Pre : forall (x : word) d m z, x ++ [d] = m ++ z -> z <> [] -> exists z', x = m ++ z').
    { intros x d m z E Nz. destruct z as [|e z _] using rev_ind; [congruence|]. rewrite app_assoc in E. apply app_inj_tail in E as [E _]. eauto. }
    destruct Hj as [[Nb [->| ->]]|(k & Lk & -> & Nb & _)].
    - cbn [app] in *. assert (Hc1 : any1 [c']) by (exists c'; split; auto; apply (alive_any L Hany) in A3; inversion A3; auto).
      destruct (Sp [c'] i Wy D2) as [_ S1].
      { intros m z E Nz F. destruct (Pre [] c' m z E Nz) as (z' & E'). symmetry in E'. apply app_eq_nil in E' as [-> _]. apply Hne, F0. exact F. }
      destruct (Sp (u ++ [c]) i Wx D1) as [_ S2].
      { intros m z E Nz F. destruct (Pre u c m z E Nz) as (z' & ->). apply Nb. exists m, z'. auto. }
      apply S1, S2, any1_snoc in Hc1 as [-> _]. apply A2. exact A3.
    - auto.
    - destruct (Sp ((k ++ v) ++ [c]) i Wx D1) as [S1 _].
      { intros m z E Nz F. destruct (Pre (k ++ v) c m z E Nz) as (z' & E'). apply A2. rewrite E', <- app_assoc. exists []. rewrite app_nil_r. split; [constructor|]. left. apply F.
        assert (X : is_word (m ++ z')) by (rewrite <- E'; auto). apply Forall_app in X. apply Forall_app. split; [tauto|auto]. }
      destruct (Sp (v ++ [c']) i Wy D2) as [S2 _].
      { intros m z E Nz F. destruct (Pre v c' m z E Nz) as (z' & ->). apply Nb. exists m, z'. auto. }
      destruct (proj1 S2) as (m & z & E & Nz & Lm).
      { apply S1. exists k, (v ++ [c]). rewrite app_assoc. splits; auto. intros X. apply app_eq_nil in X as [_ X]. discriminate X. }
      destruct (Pre v c' m z E Nz) as (z' & ->). apply Nb. exists m, z'. auto.
  Qed.
  Lemma no_collision : forall u v c c' u1 v1 u1' v1' o o' i, is_word u -> is_word v -> letter c -> letter c' -> J L u v ->
    pstep L u v c u1 v1 o -> pstep L u v c' u1' v1' o' -> D u1 i -> D u1' i -> o = o'.
  Proof.
    intros u v c c' u1 v1 u1' v1' o o' i Hu Hv Hc Hc' Hj S1 S2 D1 D2.
    destruct o as [e|]; [|symmetry; eapply (one_way u v c c'); eauto].
    destruct o' as [e'|]; [|eapply (one_way u v c' c); eauto].
    destruct S1 as [[(_ & _ & X)|(A1 & _ & B1)] _]; [discriminate X|]. destruct S2 as [[(_ & _ & X)|(A2 & _ & B2)] _]; [discriminate X|].
    assert (E : forall d, ~ alive L (u ++ [d]) -> (begun L (u ++ [d]) <-> begun L u)).
    { intros d A. rewrite begun_snoc. split; auto. intros [H|H]; auto. destruct (A (alive_of_L L _ H)). }
    pose proof (E c A1). pose proof (E c' A2). destruct B1 as [[B1 ->]|[B1 ->]], B2 as [[B2 ->]|[B2 ->]]; auto; tauto.
  Qed.
End Step.

(** ** The automaton of the pairs *)
Lemma NoDup_app_snoc : forall (A : Type) (l : list A) x, NoDup l -> ~ In x l -> NoDup (l ++ [x]).
Proof.
  intros A l x H N. induction H as [|y l Hy H IH]; cbn; [constructor; [intros []|constructor]|]. constructor.
  - intros X. apply in_app_iff in X as [X|[X|[]]]; auto. subst. apply N. left. auto.
  - apply IH. intros X. apply N. right. auto.
Qed.
Lemma nat_pair_eqb_eq : forall a b, nat_pair_eqb a b = true <-> a = b.
Proof.
  intros [x1 x2] [y1 y2]. unfold nat_pair_eqb. cbn [fst snd]. rewrite andb_true_iff, !Nat.eqb_eq. split; [intros []; congruence|intros X; injection X; auto].
Qed.
Lemma output_set : forall f a b v p q, output (set_output f a b v) p q = if Nat.eqb p a && Nat.eqb q b then v else output f p q.
Proof.
  intros f a b v p q. unfold output, set_output. cbn [outputs set_outputs]. rewrite mfind_mset. destruct (keqb_spec p a) as [->|N].
  - rewrite Nat.eqb_refl. cbn [andb]. rewrite mfind_mset. destruct (keqb_spec q b) as [->|N].
    + rewrite Nat.eqb_refl. reflexivity.
    + destruct (Nat.eqb_spec q b); [congruence|]. destruct (mfind a (outputs f)); reflexivity.
  - destruct (Nat.eqb_spec p a); [congruence|]. reflexivity.
Qed.
Lemma set_output_ok : forall f a b v, outs_ok (outputs f) -> outs_ok (outputs (set_output f a b v)).
Proof.
  intros f a b v [S1 S2]. unfold set_output. cbn [outputs set_outputs]. split; [apply mset_sorted; auto|].
  intros p m. rewrite mfind_mset. destruct (keqb_spec p a) as [->|N].
  - intros X. injection X as <-. apply mset_sorted. destruct (mfind a (outputs f)) eqn:E; [eauto|constructor].
  - eauto.
Qed.
Lemma sq_connects_raw : forall ms cur i sq p c q, cur < size sq -> i < size sq -> (forall x, In x ms -> (x < MaxChar)%N) ->
  (raw (fold_left (fun g x => connect g cur i x) ms sq) p c q <-> raw sq p c q \/ (p = cur /\ In c ms /\ q = i)) /\
  outputs (fold_left (fun g x => connect g cur i x) ms sq) = outputs sq /\ initial (fold_left (fun g x => connect g cur i x) ms sq) = initial sq.
Proof.
  induction ms as [|x ms IH]; intros cur i sq p c q Hc Hi Hm; cbn [fold_left].
  - cbn [In]. tauto.
  - pose proof (connect_adds sq cur i x Hc Hi (Hm x (or_introl eq_refl))) as A. destruct (IH cur i (connect sq cur i x) p c q) as (R & O & I).
    + rewrite (ad_size _ _ _ A). auto. + rewrite (ad_size _ _ _ A). auto. + intros y Hy. apply Hm. right. auto.
    + splits; auto. rewrite R, (ad_raw _ _ _ A). cbn [In]. intuition.
Qed.
Section Square.
  Variables (f : fsm) (dead : list nat).
  Definition cls := (N * (nat * list N))%type.
  (** a class of letters leads from the pair [st] to the pair numbered [b] with the output [o] *)
  Definition leads (states : list (nat * nat)) (st : nat * nat) (e : cls) (b : nat) (o : N) : Prop :=
    exists m k, pair_next f dead st (fst e) = Ok (m, k, o) /\ nth_error states b = Some (m, k).
  Record row_done (states : list (nat * nat)) (sq : fsm) (a : nat) (st : nat * nat) (es : list cls) : Prop := {
    rd_edge : forall c b, raw sq a c b <-> exists e o, In e es /\ In c (snd (snd e)) /\ leads states st e b o;
    rd_next : forall e, In e es -> exists b o, leads states st e b o;
    rd_none : forall b, (forall e o, In e es -> leads states st e b o -> o = 0%N) -> output sq a b = 0%N;
    rd_some : forall b e o, In e es -> leads states st e b o -> o <> 0%N -> exists e' o', In e' es /\ leads states st e' b o' /\ o' <> 0%N /\ output sq a b = o'
  }.
  Definition same_row (sq sq' : fsm) (a : nat) : Prop := (forall c b, raw sq' a c b <-> raw sq a c b) /\ forall b, output sq' a b = output sq a b.
  Lemma nth_ext : forall (l ext : list (nat * nat)) b x, nth_error l b = Some x -> nth_error (l ++ ext) b = Some x.
  Proof. intros l ext b x H. rewrite nth_error_app1; auto. apply nth_error_Some. congruence. Qed.
  Lemma leads_ext : forall states ext st e b o, leads states st e b o -> leads (states ++ ext) st e b o.
  Proof. intros states ext st e b o (m & k & H1 & H2). exists m, k. split; auto. apply nth_ext. auto. Qed.
  Lemma leads_fun : forall states st e b o b' o', NoDup states -> leads states st e b o -> leads states st e b' o' -> b = b' /\ o = o'.
  Proof.
    intros states st e b o b' o' Nd (m & k & H1 & H2) (m' & k' & H1' & H2'). rewrite H1 in H1'. injection H1' as <- <- <-. split; auto.
    apply (proj1 (NoDup_nth_error states) Nd); [apply nth_error_Some|]; congruence.
  Qed.
  (** a complete row stays complete when more pairs are found *)
  Lemma row_done_ext : forall states ext sq sq' a st es, NoDup (states ++ ext) -> row_done states sq a st es -> same_row sq sq' a -> row_done (states ++ ext) sq' a st es.
  Proof.
    intros states ext sq sq' a st es Nd [R1 R2 R3 R4] [S1 S2].
    assert (Back : forall e b o, In e es -> leads (states ++ ext) st e b o -> leads states st e b o).
    { intros e b o He H. destruct (R2 e He) as (b' & o' & H'). destruct (leads_fun _ _ _ _ _ _ _ Nd H (leads_ext _ ext _ _ _ _ H')) as [-> ->]. auto. }
    split.
    - intros c b. rewrite S1, R1. split; intros (e & o & H1 & H2 & H3); exists e, o; splits; auto. apply leads_ext. auto.
    - intros e He. destruct (R2 e He) as (b & o & H). exists b, o. apply leads_ext. auto.
    - intros b H. rewrite S2. apply R3. intros e o He Hl. apply (H e o He). apply leads_ext. auto.
    - intros b e o He Hl Ho. destruct (R4 b e o He (Back _ _ _ He Hl) Ho) as (e' & o' & H1 & H2 & H3 & H4). exists e', o'. rewrite S2. splits; auto. apply leads_ext. auto.
  Qed.
  Lemma sq_row_spec : forall ls cur st es states sq states' sq', sq_ok states sq -> NoDup states -> outs_ok (outputs sq) -> cur < length states ->
    (forall r i ms c, In (r, (i, ms)) ls -> In c ms -> (c < MaxChar)%N) -> row_done states sq cur st es ->
    sq_row f dead cur st ls states sq = Ok (states', sq') ->
    sq_ok states' sq' /\ NoDup states' /\ outs_ok (outputs sq') /\ (exists ext, states' = states ++ ext) /\ row_done states' sq' cur st (es ++ ls) /\
    (forall a, a <> cur -> same_row sq sq' a) /\ initial sq' = initial sq.
  Proof.
    induction ls as [|[r [k ms]] ls IH]; intros cur st es states sq states' sq' Q Nd Oo Hc HL RD E; cbn [sq_row] in E.
    - apply ok_pair in E as [<- <-]. rewrite app_nil_r. splits; auto. + exists []. rewrite app_nil_r. auto. + intros a _. split; intros; reflexivity.
    - destruct (pair_next f dead st r) as [[[m b] out]| | |] eqn:PN; cbn [bind] in E; try discriminate E.
      assert (HM : forall x, In x ms -> (x < MaxChar)%N) by (intros x Hx; apply (HL r k ms x); auto; left; auto).
      assert (HL' : forall r i ms c, In (r, (i, ms)) ls -> In c ms -> (c < MaxChar)%N) by (intros r' i' ms' x H; apply (HL r' i' ms' x); right; auto).
      assert (KEY : forall i states1 sq1, sq_ok states1 sq1 -> NoDup states1 -> outs_ok (outputs sq1) -> nth_error states1 i = Some (m, b) -> cur < length states1 -> (exists ext, states1 = states ++ ext) ->
        (forall a, same_row sq sq1 a) -> initial sq1 = initial sq ->
        sq_row f dead cur st ls states1 (if (out =? 0)%N then fold_left (fun g x => connect g cur i x) ms sq1
          else set_output (fold_left (fun g x => connect g cur i x) ms sq1) cur i out) = Ok (states', sq') ->
        sq_ok states' sq' /\ NoDup states' /\ outs_ok (outputs sq') /\ (exists ext, states' = states ++ ext) /\ row_done states' sq' cur st (es ++ (r, (k, ms)) :: ls) /\
        (forall a, a <> cur -> same_row sq sq' a) /\ initial sq' = initial sq).
      { intros i states1 sq1 Q1 Nd1 O1 Hi Hc1 [ext1 X1] SR I1 E1. destruct Q1 as (W1 & U1 & A1 & D1 & S1).
        assert (Li : i < length states1) by (apply nth_error_Some; congruence).
        destruct (sq_connects ms cur i sq1 (length states1) W1 U1 A1 D1 S1 Hc1 Li HM) as (W2 & U2 & A2 & D2 & S2).
        assert (R2 : forall p c q, raw (fold_left (fun g x => connect g cur i x) ms sq1) p c q <-> raw sq1 p c q \/ (p = cur /\ In c ms /\ q = i)).
        { intros p c q. apply (sq_connects_raw ms cur i sq1 p c q); auto; lia. }
        destruct (sq_connects_raw ms cur i sq1 0 0%N 0) as (_ & O2 & I2); [lia|lia|auto|].
        set (g := fold_left (fun g x => connect g cur i x) ms sq1) in *. clearbody g.
        assert (Og : forall p q, output g p q = output sq1 p q) by (intros p q; unfold output; rewrite O2; reflexivity).
        subst states1. pose proof (row_done_ext _ ext1 _ _ _ _ _ Nd1 RD (SR cur)) as RD1.
        set (h := if (out =? 0)%N then g else set_output g cur i out) in *.
        assert (QH : sq_ok (states ++ ext1) h).
        { assert (QG : sq_ok (states ++ ext1) g) by (unfold sq_ok; splits; auto). unfold h. destruct (out =? 0)%N; auto. apply sq_ok_output. exact QG. }
        assert (OH : outs_ok (outputs h)) by (unfold h; destruct (out =? 0)%N; [|apply set_output_ok]; rewrite O2; exact O1).
        assert (RH : forall p c q, raw h p c q <-> raw sq1 p c q \/ (p = cur /\ In c ms /\ q = i)) by (intros p c q; rewrite <- R2; unfold h; destruct (out =? 0)%N; reflexivity).
        assert (VH : forall p q, output h p q = if negb (out =? 0)%N && (Nat.eqb p cur && Nat.eqb q i) then out else output sq1 p q).
        { intros p q. unfold h. destruct (out =? 0)%N; cbn [negb andb]; [apply Og|]. rewrite output_set, Og. reflexivity. }
        assert (IH_ : initial h = initial sq) by (rewrite <- I1, <- I2; unfold h; destruct (out =? 0)%N; reflexivity).
        clearbody h.
        assert (Le : leads (states ++ ext1) st (r, (k, ms)) i out) by (exists m, b; auto).
        assert (LeU : forall b' o', leads (states ++ ext1) st (r, (k, ms)) b' o' -> b' = i /\ o' = out) by (intros b' o' H; apply (leads_fun _ _ _ _ _ _ _ Nd1 H Le)).
        assert (RDH : row_done (states ++ ext1) h cur st (es ++ [(r, (k, ms))])).
        { destruct RD1 as [E0 E1' E2 E3]. split.
          - intros c b'. rewrite RH, E0. split.
            + intros [(e & o & H1 & H2 & H3)|(_ & H1 & ->)]; [exists e, o|exists (r, (k, ms)), out]; splits; auto; apply in_app_iff; cbn; auto.
            + intros (e & o & H1 & H2 & H3). apply in_app_iff in H1 as [H1|[<-|[]]]; [left; eauto|]. right. apply LeU in H3 as [-> ->]. auto.
          - intros e He. apply in_app_iff in He as [He|[<-|[]]]; eauto.
          - intros b' H. rewrite VH.
            assert (X : forall e o, In e es -> leads (states ++ ext1) st e b' o -> o = 0%N) by (intros e o He; apply H, in_app_iff; auto).
            destruct (N.eqb_spec out 0) as [->|No]; cbn [negb andb]; [apply E2; auto|]. destruct (Nat.eqb_spec b' i) as [->|Nb]; [|rewrite andb_false_r; apply E2; auto].
            destruct No. apply (H (r, (k, ms)) out); auto. apply in_app_iff; cbn; auto.
          - intros b' e o He Hl Ho. rewrite VH. rewrite Nat.eqb_refl. cbn [andb]. destruct (N.eqb_spec out 0) as [Z|No]; cbn [negb andb].
            + apply in_app_iff in He as [He|[<-|[]]]; [|apply LeU in Hl as [_ ->]; congruence].
              destruct (E3 b' e o He Hl Ho) as (e' & o' & H1 & H2 & H3 & H4). exists e', o'. splits; auto. apply in_app_iff; auto.
            + destruct (Nat.eqb_spec b' i) as [->|Nb].
              * exists (r, (k, ms)), out. splits; auto. apply in_app_iff; cbn; auto.
              * apply in_app_iff in He as [He|[<-|[]]]; [|apply LeU in Hl as [-> _]; congruence].
                destruct (E3 b' e o He Hl Ho) as (e' & o' & H1 & H2 & H3 & H4). exists e', o'. splits; auto. apply in_app_iff; auto. }
        destruct (IH cur st (es ++ [(r, (k, ms))]) (states ++ ext1) h states' sq' QH Nd1 OH Hc1 HL' RDH E1) as (Z1 & Z2 & Z3 & (ext2 & Z4) & Z5 & Z6 & Z7).
        splits; auto.
        - exists (ext1 ++ ext2). rewrite Z4, app_assoc. reflexivity.
        - rewrite <- app_assoc in Z5. exact Z5.
        - intros a Na. destruct (Z6 a Na) as [Y1 Y2], (SR a) as [X1 X2]. split.
          + intros c b'. rewrite Y1, RH, X1. tauto.
          + intros b'. rewrite Y2, VH, X2. destruct (Nat.eqb_spec a cur); [congruence|]. cbn [andb]. rewrite andb_false_r. reflexivity.
        - congruence. }
      destruct (index_of nat_pair_eqb (m, b) states) as [i|] eqn:IO.
      + apply (index_of_some _ _ nat_pair_eqb_eq) in IO. apply (KEY i states sq); auto.
        * exists []. rewrite app_nil_r. auto.
        * intros a. split; intros; reflexivity.
      + apply (index_of_none _ _ nat_pair_eqb_eq) in IO. destruct Q as (W & U & A & D & Sz).
        apply (KEY (length states) (states ++ [(m, b)]) (resize_fsm sq (S (length states)))); auto.
        * unfold sq_ok. splits; auto; [apply wf_resize; auto; lia|]. rewrite size_resize, app_length. cbn. lia.
        * apply NoDup_app_snoc; auto.
        * rewrite nth_error_app2 by lia. rewrite Nat.sub_diag. reflexivity.
        * rewrite app_length. cbn. lia.
        * eauto.
        * intros a. split; [|intros; reflexivity]. intros c q. apply raw_resize. lia.
  Qed.
  Lemma sq_row_all : forall (P : nat * nat -> Prop) cur st, (forall r k ms m b o, In (r, (k, ms)) (pset (letters f)) -> pair_next f dead st r = Ok (m, b, o) -> P (m, b)) ->
    forall ls states sq states' sq', incl ls (pset (letters f)) -> Forall P states -> sq_row f dead cur st ls states sq = Ok (states', sq') -> Forall P states'.
  Proof.
    intros P cur st HP. induction ls as [|[r [k ms]] ls IH]; intros states sq states' sq' Hi F E; cbn [sq_row] in E.
    - apply ok_pair in E as [<- _]. exact F.
    - destruct (pair_next f dead st r) as [[[m b] out]| | |] eqn:PN; cbn [bind] in E; try discriminate E.
      assert (Hi' : incl ls (pset (letters f))) by (intros x Hx; apply Hi; right; auto). assert (Pm : P (m, b)) by (apply (HP r k ms m b out); auto; apply Hi; left; auto).
      destruct (index_of nat_pair_eqb (m, b) states) as [i|]; [exact (IH _ _ _ _ Hi' F E)|]. apply (IH _ _ _ _ Hi') in E; auto. apply Forall_app. auto.
  Qed.
  Hypothesis W : wf f.
  Definition empty_row (sq : fsm) (a : nat) : Prop := (forall c b, ~ raw sq a c b) /\ forall b, output sq a b = 0%N.
  Lemma sq_loop_spec : forall (P : nat * nat -> Prop), (forall st r k ms m b o, P st -> In (r, (k, ms)) (pset (letters f)) -> pair_next f dead st r = Ok (m, b, o) -> P (m, b)) ->
    forall fuel cur states sq states' sq', sq_ok states sq -> NoDup states -> outs_ok (outputs sq) -> Forall P states ->
    (forall a st, a < cur -> nth_error states a = Some st -> row_done states sq a st (pset (letters f))) -> (forall a, cur <= a -> empty_row sq a) ->
    sq_loop f dead fuel cur states sq = Ok (states', sq') ->
    sq_ok states' sq' /\ NoDup states' /\ outs_ok (outputs sq') /\ Forall P states' /\ (exists ext, states' = states ++ ext) /\ initial sq' = initial sq /\
    (forall a st, nth_error states' a = Some st -> row_done states' sq' a st (pset (letters f))).
  Proof.
    intros P HP fuel. induction fuel as [|fuel IH]; intros cur states sq states' sq' Q Nd Oo FP RD RE E; cbn [sq_loop] in E; [discriminate E|].
    destruct (nth_error states cur) as [st|] eqn:N0.
    2:{ apply ok_pair in E as [<- <-]. splits; auto.
        - exists []. rewrite app_nil_r. auto.
        - intros a st Ha. apply RD; auto. apply nth_error_None in N0. assert (a < length states) by (apply nth_error_Some; congruence). lia. }
    set (sq1 := if (fsm_tag f (fst st) =? 0)%N then sq else set_tags sq (mset cur (fsm_tag f (fst st)) (tags sq))) in E. cbn zeta in E. fold sq1 in E.
    assert (Q1 : sq_ok states sq1).
    { unfold sq1, sq_ok. destruct Q as (Q1 & Q2 & Q3 & Q4 & Q5). destruct (fsm_tag f (fst st) =? 0)%N; splits; auto. apply wf_set_tags; auto. }
    assert (S1 : forall a, same_row sq sq1 a) by (intros a; unfold sq1; destruct (fsm_tag f (fst st) =? 0)%N; split; intros; reflexivity).
    assert (O1 : outs_ok (outputs sq1)) by (unfold sq1; destruct (fsm_tag f (fst st) =? 0)%N; exact Oo).
    assert (I1 : initial sq1 = initial sq) by (unfold sq1; destruct (fsm_tag f (fst st) =? 0)%N; reflexivity).
    clearbody sq1. assert (Hc : cur < length states) by (apply nth_error_Some; congruence).
    assert (Q2 : sq_ok states (set_final sq1 cur (is_final f (fst st)))).
    { destruct Q1 as (A1 & A2 & A3 & A4 & A5). unfold sq_ok. splits; auto. apply wf_set_final; auto. lia. }
    assert (S2 : forall a, same_row sq (set_final sq1 cur (is_final f (fst st))) a) by (intros a; destruct (S1 a); split; auto).
    assert (O2 : outs_ok (outputs (set_final sq1 cur (is_final f (fst st))))) by exact O1.
    assert (I2 : initial (set_final sq1 cur (is_final f (fst st))) = initial sq) by exact I1.
    set (sq2 := set_final sq1 cur (is_final f (fst st))) in *. clearbody sq2.
    destruct (sq_row f dead cur st (pset (letters f)) states sq2) as [[states1 sq3]| | |] eqn:ER; cbn [bind] in E; try discriminate E.
    assert (HL : forall r i ms c, In (r, (i, ms)) (pset (letters f)) -> In c ms -> (c < MaxChar)%N).
    { intros r i ms c H1 H2. destruct (pset_range _ _ _ _ _ (wf_letters _ W) H1 H2) as [[H _] _]. exact H. }
    assert (RD0 : row_done states sq2 cur st []).
    { destruct (RE cur (le_n _)) as [Z1 Z2]. destruct (S2 cur) as [Y1 Y2]. split.
      - intros c b. rewrite Y1. split; [intros H; destruct (Z1 _ _ H)|intros (e & o & [] & _)].
      - intros e [].
      - intros b _. rewrite Y2. apply Z2.
      - intros b e o []. }
    destruct (sq_row_spec _ _ _ _ _ _ _ _ Q2 Nd O2 Hc HL RD0 ER) as (Q3 & Nd3 & O3 & (ext & X3) & RD3 & SR3 & I3). cbn [app] in RD3.
    assert (FP3 : Forall P states1).
    { apply (sq_row_all P cur st) in ER; auto; [|apply incl_refl]. intros r k ms m b o. apply HP. apply (proj1 (Forall_forall _ _) FP). eapply nth_error_In; eauto. }
    apply (IH (S cur)) in E; auto.
    - destruct E as (Z1 & Z2 & Z3 & Z4 & (ext' & Z5) & Z6 & Z7). splits; auto; [|congruence]. exists (ext ++ ext'). rewrite Z5, X3, app_assoc. reflexivity.
    - intros a st' Ha Hs. assert (a = cur \/ a < cur) as [->|Ha'] by lia.
      + rewrite X3, nth_error_app1 in Hs by auto. assert (st' = st) by congruence. subst st'. exact RD3.
      + assert (La : a < length states) by lia. subst states1. rewrite nth_error_app1 in Hs by auto. apply (row_done_ext states ext sq sq3); auto.
        destruct (S2 a) as [Y1 Y2], (SR3 a ltac:(lia)) as [X1 X2]. split; [intros c b; rewrite X1; auto|intros b; rewrite X2; auto].
    - intros a Ha. destruct (RE a ltac:(lia)) as [Z1 Z2]. destruct (S2 a) as [Y1 Y2], (SR3 a ltac:(lia)) as [X1 X2]. split.
      + intros c b H. apply X1, Y1 in H. apply (Z1 c b H).
      + intros b. rewrite X2, Y2. apply Z2.
  Qed.
  Lemma sq_run_spec : forall (P : nat * nat -> Prop) states sq, (forall st r k ms m b o, P st -> In (r, (k, ms)) (pset (letters f)) -> pair_next f dead st r = Ok (m, b, o) -> P (m, b)) ->
    P (initial f, initial f) -> sq_run f dead = Ok (states, sq) ->
    sq_ok states sq /\ NoDup states /\ outs_ok (outputs sq) /\ Forall P states /\ nth_error states 0 = Some (initial f, initial f) /\ initial sq = 0 /\
    (forall a st, nth_error states a = Some st -> row_done states sq a st (pset (letters f))).
  Proof.
    intros P states sq HP P0 E. unfold sq_run in E.
    apply (sq_loop_spec P HP) in E; auto.
    - destruct E as (Z1 & Z2 & Z3 & Z4 & (ext & Z5) & Z6 & Z7). splits; auto. rewrite Z5. reflexivity.
    - unfold sq_ok. splits; try reflexivity. exact (ApiProofs.built_wf _ Api.built_new).
    - constructor; [intros []|constructor].
    - split; [constructor|]. intros p m H. discriminate H.
    - intros a st Ha. lia.
    - intros a _. split; [|intros; reflexivity]. intros c b H. unfold raw, row_at in H. destruct a as [|[|a]]; cbn in H; exact H.
  Qed.
End Square.
