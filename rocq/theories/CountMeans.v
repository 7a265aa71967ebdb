(** What the constructor of CountingScanner makes counts. *)
From Coq Require Import List Bool Arith NArith Lia.
From Verif Require Import Util Spec PartitionModel PartitionProofs FsmModel DetermineModel MinimizeModel FsmSem FsmBasics FsmOps FsmOps2 EpsProofs DetGeneric DetProofs Nfa
  CompProofs DeadProofs Api ApiProofs BuildFacts TagFacts RunModel RunSpec ScannerModel ScannerProofs ScannerCompile CountModel CountSpec CountApi CountProofs LoadedProofs CountBuild CountUser
  DetSets CountAuto CountScan CountPairs CountTable.
Import ListNotations.
Local Opaque all_letters all_bytes.

(** ** UnSparse *)
Lemma unsparse_edge : forall g, wf g -> forall p c q, edge (unsparse g) p c q <-> edge g p c q.
Proof.
  intros g W p c q. destruct (unsparse_spec g W) as [_ [_ [_ [_ [_ Hraw]]]]]. rewrite edge_raw, Hraw. change (erep (unsparse g) c) with (erep g c).
  unfold edge. replace (erep g (erep g c)) with (erep g c); [reflexivity|]. unfold erep at 1 3. destruct (part_rep (letters g) c) as [r|] eqn:R.
  - unfold erep. rewrite (part_rep_rep _ _ _ (wf_letters _ W) R). reflexivity.
  - unfold erep. rewrite R. reflexivity.
Qed.
Lemma unsparse_dest : forall g, wf g -> forall p c q, In q (destinations (unsparse g) p c) <-> edge (unsparse g) p c q.
Proof.
  intros g W p c q. destruct (unsparse_spec g W) as [_ [_ [_ [_ [_ Hraw]]]]]. rewrite unsparse_edge by auto. rewrite <- Hraw. reflexivity.
Qed.
Lemma walk_ext : forall (E E' : nat -> N -> nat -> Prop), (forall p c q, E p c q <-> E' p c q) -> forall w p q, walk E p w q <-> walk E' p w q.
Proof.
  intros E E' H. induction w as [|c w IH]; intros p q; cbn [walk]; [tauto|]. split; intros (m & X & Y); exists m; split; try (apply H; exact X); apply IH; exact Y.
Qed.
Lemma tracks_unsparse : forall g L, wf g -> tracks g L -> tracks (unsparse g) L.
Proof.
  intros g L W [T1 T2 T3 T4 T5 T6]. pose proof (walk_ext _ _ (unsparse_edge g W)) as X.
  change (initial g) with (initial (unsparse g)) in *. change (finals g) with (finals (unsparse g)) in *.
  split; auto.
  - intros u Hu. destruct (T1 u Hu) as [i Hi]. exists i. intros x. rewrite X. apply Hi.
  - intros u i Hu H. apply X in H. auto.
  - intros u i Hu H. apply X in H. exact (T4 u i Hu H).
  - destruct T5 as (d & a & T5). exists d, a. intros u i Hu H. apply X in H. auto.
  - intros p q H. exact (T6 p q (proj1 (unsparse_edge g W p Epsilon q) H)).
Qed.

(** ** The scanner as a pair of words *)
Section Means.
  Variables (L : lang) (g : fsm).
  Hypothesis W : wf g.
  Hypothesis Ain : all_in_part g.
  Hypothesis T : tracks g L.
  Hypothesis Hany : forall u, L u -> Forall any_letter u.
  Hypothesis Hdec : forall u, is_word u -> L u \/ ~ L u.
  Hypothesis G1 : resumable L.
  Variables (dead : list nat) (states : list (nat * nat)) (sq h : fsm) (b : bool).
  Hypothesis Ed : dead_states (unsparse g) = Ok dead.
  Hypothesis Es : sq_run (unsparse g) dead = Ok (states, sq).
  Hypothesis Eh : determine sq 0 = Ok (b, h).
  Lemma square_sim : exists R, simulates L h R.
  Proof.
    pose proof (wf_unsparse g W) as W1. pose proof (tracks_unsparse g L W T) as T1. pose proof (unsparse_dest g W) as De.
    assert (A1 : all_in_part (unsparse g)) by exact Ain. pose proof (tk_ne _ _ T) as Hne.
    destruct (dead_states_ok _ W1) as (d & E & Dd). rewrite Ed in E. apply ok_inj in E. subst d. set (f := unsparse g) in *. clearbody f.
    destruct (sq_facts f L dead W1 T1 De Dd Hne Hany Hdec G1 states sq Es) as ((SW & SU & _ & SD & SS) & Nd & Oo & _ & _ & _ & RD).
    apply (determine_sim L sq (at_words f L states) b h SW SD Oo); auto.
    - intros p q H. pose proof (edge_bound sq p _ q SW H) as [Hp _]. rewrite SS in Hp. destruct (nth_error states p) as [st|] eqn:E; [|apply nth_error_None in E; lia].
      rewrite raw_uncompressed in H by exact SU. apply (rd_edge _ _ _ _ _ _ _ (RD p st E)) in H as ([r [i ms]] & o & H1 & H2 & _). cbn [snd] in H2.
      destruct (pset_range _ _ _ _ _ (wf_letters _ W1) H1 H2) as [[_ X] _]. apply X. reflexivity.
    - split; [exact (sq_init f L dead W1 T1 De Dd Hne Hany Hdec G1 states sq Es)|]. intros a u v c Ha Hc.
      exact (sq_sim f L dead W1 A1 T1 De Dd Hne Hany Hdec G1 states sq Es a u v c Ha Hc).
  Qed.
  Variables (buf : N) (s0 s : loaded).
  Hypothesis E0 : init_loaded buf (size h) (letters h) (initial h) 1 = Ok s0.
  Hypothesis E1 : build_loaded CDead counting_remap h s0 = Ok s.
  Hypothesis P : dplaced s.
  Hypothesis Few : (d_nletters s <= 256)%N.
  Lemma square_events : forall w acts, is_word w -> actions s (d_initial s) w = Ok acts -> exists u v, pscan L [] [] w (flat_map (events_of false 0) acts) u v.
  Proof.
    destruct square_sim as (R & S). pose proof (wf_unsparse g W) as W1.
    destruct (sq_run_ok _ dead states sq W1 Es) as (SW & _ & _ & SD & _). destruct (determine_any _ _ _ _ SW SD Eh) as [Wh Ah].
    assert (PS : part_size (letters h) <= 256).
    { assert (PP : 0 < part_size (letters h)) by (apply all_part_pos; [apply Wh|]; destruct (Ah 0%N eq_refl ltac:(discriminate)) as [r X]; eauto).
      destruct (init_loaded_ok buf (size h) (letters h) (initial h) 1 s0 (wf_letters _ Wh) PP (wf_init _ Wh) ltac:(lia) E0) as (L0 & S0 & NL & _ & _ & _ & _ & _ & N0).
      destruct (build_loaded_ok CDead counting_remap h s0 s Wh L0 S0) as (_ & T' & J' & Es' & _); auto.
      { intros a. unfold d_count. rewrite N0. destruct (init_loaded_ok buf (size h) (letters h) (initial h) 1 s0 (wf_letters _ Wh) PP (wf_init _ Wh) ltac:(lia) E0) as (_ & _ & _ & -> & _). apply counting_remap_ok. }
      rewrite Es' in Few. change (d_nletters s0 <= 256)%N in Few. lia. }
    destruct (build_next CDead counting_remap h s0 s buf 1 Wh Ah PS ltac:(lia) E0 counting_remap_ok E1 P) as [I Nx].
    intros w acts Hw E. rewrite I in E. apply (table_events L h R s S) with (a := initial h) (w := w); auto; [|apply S].
    intros a u v Ha. destruct S as [_ S]. destruct (S a u v 0%N Ha ltac:(split; [reflexivity|discriminate])) as (x & _ & _ & _ & X & _).
    apply (edge_bound h a 0%N x Wh). apply X. auto.
  Qed.
End Means.

(** ** The automaton of the pieces *)
Lemma fsm_cat_undet : forall a b, determined (fsm_cat a b) = false.
Proof. reflexivity. Qed.
Local Opaque determine fsm_or fsm_cat fsm_and complement surround with_dup any_char unsparse.
Lemma pieces_of : forall re sep nr a, built re -> built sep -> complement (surround re) = Ok nr -> fsm_and sep nr = Ok a ->
  built a /\ forall w, accepts (fsm_cat a re) w <-> piece (accepts re) (accepts sep) w.
Proof.
  intros re sep nr a Br Bs E1 E2. assert (Bsr : built (surround re)) by (apply built_surround; auto).
  assert (Bn : built nr) by (eapply built_complement; [|exact E1]; auto). assert (Ba : built a) by (eapply built_and; [exact Bs|exact Bn|exact E2]).
  split; auto.
  assert (La : forall u, accepts a u <-> accepts sep u /\ ~ exists x y z, u = x ++ y ++ z /\ accepts re y).
  { intros u. destruct (f_and sep nr Bs Bn) as [(a' & E2' & _ & La)|X]; [|rewrite E2 in X; discriminate X]. rewrite E2 in E2'. apply ok_inj in E2'. subst a'.
    destruct (f_complement (surround re) Bsr) as [(nr' & E1' & _ & Ln)|[X _]]; [|rewrite E1 in X; discriminate X]. rewrite E1 in E1'. apply ok_inj in E1'. subst nr'.
    rewrite (La u). unfold L_and. rewrite Ln, (f_surround re Br). split.
    - intros [H1 [H2 H3]]. split; auto. intros (x & y & z & -> & H4). apply H3. apply Forall_app in H2 as [X1 X2]. apply Forall_app in X2 as [_ X3]. exists x, y, z. auto.
    - intros [H1 H2]. splits; auto; [exact (accepts_is_word _ _ (built_wf _ Bs) H1)|]. intros (x & y & z & -> & _ & _ & H4). apply H2. eauto. }
  intros w. unfold piece. destruct (in_dec Nat.eq_dec (initial re) (finals re)) as [I|I].
  - assert (H0 : accepts re []) by (exists (initial re); split; [constructor|auto]). split.
    + intros H. apply f_cat_sound in H; auto. destruct H as (u & v & _ & H & _). apply La in H as [_ H]. exfalso. apply H. exists [], [], u. auto.
    + intros (u & v & _ & _ & _ & H). exfalso. apply H. exists [], [], u. auto.
  - rewrite (f_cat a re Ba Br I w). unfold L_cat. split.
    + intros (u & v & -> & H1 & H2). apply La in H1 as [H1 H3]. exists u, v. auto.
    + intros (u & v & -> & H1 & H2 & H3). exists u, v. splits; auto. apply La. auto.
Qed.
Lemma piece_ne : forall re sep : lang, ~ piece re sep [].
Proof. intros re sep (a & b & E & H1 & H2 & H3). symmetry in E. apply app_eq_nil in E as [-> ->]. apply H3. exists [], [], []. auto. Qed.
Lemma M_accepts : forall A u, wf A -> (forall p q, ~ edge A p Epsilon q) -> is_word u -> (M A u <-> accepts A u).
Proof.
  intros A u W H Hu. unfold M, accepts. split; intros (x & X & Y); exists x; split; auto.
  - apply walk_path; auto. split; auto. apply word_noeps; auto.
  - apply walk_path in X; auto. tauto.
Qed.
Lemma edge_word : forall A u p x, wf A -> (forall p q, ~ edge A p Epsilon q) -> walk (edge A) p u x -> is_word u.
Proof.
  intros A u. induction u as [|c u IH]; intros p x W H X; [constructor|]. cbn [walk] in X. destruct X as (m & X1 & X2). constructor; [|exact (IH m x W H X2)].
  split; [exact (edge_letter A p c m W X1)|]. intros ->. exact (H p m X1).
Qed.

(** Everything about [tracks] and the rest carries over to an equivalent language. *)
Lemma tracks_lang : forall f L L', lang_eq L L' -> tracks f L -> tracks f L'.
Proof.
  intros f L L' H [T1 T2 T3 T4 T5 T6]. assert (X : forall u, L' u <-> L u) by (intros u; symmetry; apply H). split; auto.
  - rewrite X. auto.
  - intros u i Hu Hi. rewrite X. auto.
  - intros u i Hu Hi. rewrite (T4 u i Hu Hi). split; intros (m & z & E & Hm); exists m, z; split; auto; apply X; auto.
  - destruct T5 as (d & a & T5). exists d, a. intros u i Hu Hi Hn. destruct (T5 u i Hu Hi) as [Y1 Y2].
    + intros m z E Hz Hc. apply (Hn m z E Hz). intros y Hy. apply X. auto.
    + split; auto. rewrite Y1. split; intros (m & z & E & Hz & Hm); exists m, z; splits; auto; apply X; auto.
Qed.

Lemma counting_events : forall buf re sep s, built re -> built sep -> counting_scanner buf re sep = Ok s -> determinable re sep -> dplaced s -> (d_nletters s <= 256)%N ->
  let L := piece (accepts re) (accepts sep) in (forall u, L u -> Forall any_letter u) -> resumable L ->
  (forall u, is_word u -> L u \/ ~ L u) /\
  forall w acts, is_word w -> actions s (d_initial s) w = Ok acts -> exists u v, pscan L [] [] w (flat_map (events_of false 0) acts) u v.
Proof.
  intros buf re sep s Br Bs E (nr & a & A & g & D1 & D2 & D3 & D4) P Few L Hany G1.
  destruct (pieces_of re sep nr a Br Bs D1 D2) as [Ba Lp]. fold L in Lp.
  assert (Bc : built (fsm_cat a re)) by (apply built_cat; auto). assert (BA : built A) by (eapply built_determine; [exact Bc|exact D3]).
  pose proof (built_wf _ BA) as WA.
  destruct (determine_ok (fsm_cat a re) 0 (built_wf _ Bc) (fsm_cat_undet _ _)) as (b' & A' & D3' & _ & _ & LA & DA & _).
  rewrite D3 in D3'. apply ok_pair in D3' as [<- <-]. destruct (DA eq_refl) as (DO & _). clear DA.
  destruct (det_ok_deterministic A WA DO) as [Dt He].
  assert (LM : lang_eq (M A) L).
  { intros u. split.
    - intros H. assert (Hu : is_word u) by (destruct H as (x & X & _); exact (edge_word A u _ x WA He X)). apply Lp, LA. apply M_accepts; auto.
    - intros H. apply Lp in H. assert (Hu : is_word u) by exact (accepts_is_word _ _ (built_wf _ Bc) H). apply LA in H. apply M_accepts; auto. }
  assert (Hdec : forall u, is_word u -> L u \/ ~ L u).
  { intros u Hu. destruct (accepts_dec_det A WA DO u Hu) as [X|X].
    - left. apply Lp, LA. exact X.
    - right. intros Y. apply X, LA, Lp. exact Y. }
  split; auto.
  assert (Tr : tracks g L).
  { apply (tracks_lang g (M A) L LM). apply (auto_tracks A g WA (proj1 (built_bare A BA)) He); auto.
    - intros p c Hp Hc. destruct (Dt p c Hp Hc) as (q & _ & Hq). eauto.
    - intros Hi. apply (piece_ne (accepts re) (accepts sep)). apply LM. exists (initial A). split; [reflexivity|auto]. }
  unfold counting_scanner in E. apply bind_ok in E as (f & E1 & E). apply bind_ok in E as (dead & E2 & E). apply bind_ok in E as ([states sq] & E3 & E).
  apply bind_ok in E as ([b h] & E4 & E). apply bind_ok in E as (s0 & E5 & E).
  unfold counting_fsm in E1. rewrite D1 in E1. cbn [bind] in E1. rewrite D2 in E1. cbn [bind] in E1. rewrite D3 in E1. cbn [bind] in E1. rewrite D4 in E1. cbn [bind] in E1.
  apply ok_inj in E1. subst f.
  destruct (with_dup_wf A WA) as (W1 & _). pose proof (proj1 (fsm_or_ok (with_dup A) any_char W1 (built_wf _ any_char_built))) as W2.
  destruct (determine_any _ _ _ _ W2 (fsm_or_undet _ _) D4) as [Wg Ag].
  intros w acts Hw Ha. exact (square_events L g Wg Ag Tr Hany Hdec G1 dead states sq h b E2 E3 E4 buf s0 s E5 E P Few w acts Hw Ha).
Qed.
