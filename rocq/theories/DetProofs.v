(** Determine. *)
From Coq Require Import List Bool Arith NArith Lia.
From Verif Require Import Util Spec PartitionModel PartitionProofs FsmModel DetermineModel Nfa NfaOps FsmSem FsmBasics FsmOps FsmOps2 DeadProofs EpsProofs DetGeneric.
Import ListNotations.
Local Opaque all_letters.

(** What it means for an automaton to be deterministic in the representation Determine
    produces: rows list representatives only, each exactly once, with one destination. *)
Record det_ok (f : fsm) : Prop := {
  do_all : all_in_part f;
  do_keys : forall p c, pres f p c -> part_rep (letters f) c = Some c;
  do_fun : forall p c, p < size f -> part_rep (letters f) c = Some c ->
    exists q, q < size f /\ mfind c (row_at f p) = Some [q]
}.

Lemma part_list_in : forall p c i, wf_part p -> In (c, i) (part_list p) <-> exists ms, mfind c (pset p) = Some (i, ms).
Proof.
  intros p c i W. unfold part_list. rewrite in_map_iff. split.
  - intros [[r [j ms]] [[= -> ->] H]]. exists ms. apply msorted_find; auto. apply W.
  - intros [ms H]. exists (c, (i, ms)). split; auto. apply mfind_in; auto.
Qed.
Lemma part_list_rep : forall p c, wf_part p -> (exists i, In (c, i) (part_list p)) <-> part_rep p c = Some c.
Proof.
  intros p c W. split.
  - intros [i H]. apply part_list_in in H as [ms H]; auto. apply (wp_inv _ W). exists i, ms. split; auto. eapply wp_self; eauto.
  - intros H. apply (wp_inv _ W) in H as [i [ms [H _]]]. exists i. apply part_list_in; eauto.
Qed.
Lemma part_list_len : forall p, length (part_list p) = length (pset p).
Proof. intros. apply map_length. Qed.
Lemma part_list_idx : forall p, wf_part p -> forall c i, In (c, i) (part_list p) -> i < length (part_list p).
Proof. intros p W c i H. rewrite part_list_len. apply part_list_in in H as [ms H]; auto. eapply wp_idx; eauto. Qed.
Lemma part_list_nodup : forall p, wf_part p -> NoDup (map snd (part_list p)).
Proof.
  intros p W. assert (K : NoDup (map fst (part_list p))).
  { unfold part_list. rewrite map_map. erewrite map_ext; [apply (pset_classes p W)|]. intros [a [b c]]; auto. }
  assert (J : forall c c' i, In (c, i) (part_list p) -> In (c', i) (part_list p) -> c = c').
  { intros c c' i H1 H2. apply part_list_in in H1 as [m1 H1]; auto. apply part_list_in in H2 as [m2 H2]; auto. eapply wp_inj; eauto. }
  revert K J. generalize (part_list p) as l. clear. induction l as [|[c i] l IH]; cbn; intros K J; constructor.
  - intros H. apply in_map_iff in H as [[c' i'] [<- H]]. cbn in *. inversion K; subst. apply H2.
    assert (c = c') by (eapply J; eauto). subst. apply in_map_iff. exists (c', i'); auto.
  - inversion K; subst. apply IH; auto. intros; eapply J; eauto.
Qed.

Section Subset.
  Variable f : fsm.
  Hypothesis W : wf f.
  Hypothesis HA : all_in_part f.
  Hypothesis Hsp : sparsed f = true.
  Hypothesis Heps : forall p q, ~ raw f p Epsilon q.

  Let term := terminal_states f.
  Let ls := part_list (letters f).

  Lemma dest_rep : forall p c q, part_rep (letters f) c = Some c -> In q (destinations f p c) <-> raw f p c q.
  Proof.
    intros p c q H. unfold destinations, translate. rewrite H. destruct (negb (sparsed f) || N.eqb c Epsilon); reflexivity.
  Qed.

  Lemma next_in : forall s c q, part_rep (letters f) c = Some c ->
    In q (fsm_next f s c) <-> exists p, In p s /\ raw f p c q.
  Proof.
    intros s c q H. unfold fsm_next.
    assert (G : forall s acc, In q (fold_left (fun acc q => sunion acc (destinations f q c)) s acc) <->
      In q acc \/ exists p, In p s /\ raw f p c q).
    { clear s. induction s as [|x s IH]; intros acc; cbn [fold_left].
      - split; auto. intros [X|[p [[] _]]]; auto.
      - rewrite IH, sunion_in, (dest_rep x c q H). split.
        + intros [[X|X]|[p [X Y]]]; auto; right; [exists x|exists p]; split; auto; [left|right]; auto.
        + intros [X|[p [[<-|X] Y]]]; eauto. }
    rewrite G. cbn. split; auto. intros [[]|X]; auto.
  Qed.
  Lemma next_sorted : forall s c, ssorted (fsm_next f s c).
  Proof.
    intros s c. unfold fsm_next. assert (G : forall s acc, ssorted acc -> ssorted (fold_left (fun acc q => sunion acc (destinations f q c)) s acc)).
    { clear s. induction s as [|x s IH]; intros acc H; cbn [fold_left]; auto. apply IH. apply sunion_sorted; auto. }
    apply G. constructor.
  Qed.

  Lemma term_in : forall q, In q term <-> In q (finals f) /\ forall c, part_rep (letters f) c = Some c -> raw f q c q.
  Proof.
    intros q. unfold term, terminal_states. rewrite filter_In, forallb_forall. split.
    - intros [A B]. split; auto. intros c H. apply part_rep_key in H; [|apply W]. apply in_map_iff in H as [[c' v] [<- H]].
      specialize (B _ H). cbn in B. unfold raw, row_get. cbn. destruct (mfind c' (row_at f q)); [|discriminate]. apply smem_in; auto.
    - intros [A B]. split; auto. intros [c v] H. assert (X : part_rep (letters f) c = Some c).
      { apply part_rep_key; [apply W|]. apply in_map_iff. exists (c, v); auto. }
      specialize (B c X). unfold raw, row_get in B. destruct (mfind c (row_at f q)); [|destruct B]. apply smem_in; auto.
  Qed.

  Lemma req_false : forall s, fsm_required term s = false <-> exists q, In q s /\ In q term.
  Proof.
    intros s. unfold fsm_required. rewrite negb_false_iff, existsb_exists. split; intros [q [A B]]; exists q; split; auto; apply smem_in; auto.
  Qed.

  (** ** The acceptance pass *)
  Definition same_but_fin (g h : fsm) : Prop :=
    trans h = trans g /\ initial h = initial g /\ letters h = letters g /\ sparsed h = sparsed g /\
    determined h = determined g /\ isAlt h = isAlt g.

  Lemma sbf_trans : forall a b c, same_but_fin a b -> same_but_fin b c -> same_but_fin a c.
  Proof. unfold same_but_fin. intros a b c (?&?&?&?&?&?) (?&?&?&?&?&?). splits; congruence. Qed.

  Lemma accept_members_ok : forall ns s g, let h := accept_members f ns s g in
    same_but_fin g h /\ (ssorted (finals g) -> ssorted (finals h)) /\
    (forall q, In q (finals h) <-> In q (finals g) \/ (q = ns /\ exists j, In j s /\ In j (finals f))).
  Proof.
    intros ns s; induction s as [|j s IH]; intros g; cbn [accept_members].
    - split; [repeat split; auto|]. split; auto. intros q. split; auto. intros [X|[_ [j [[] _]]]]; auto.
    - set (g1 := if is_final f j then set_final g ns true else g).
      assert (B1 : same_but_fin g g1) by (unfold g1; destruct (is_final f j); repeat split; auto).
      assert (S1 : ssorted (finals g) -> ssorted (finals g1)).
      { unfold g1. destruct (is_final f j); auto. cbn. intros. apply sadd_sorted; auto. }
      assert (F1 : forall q, In q (finals g1) <-> In q (finals g) \/ (q = ns /\ In j (finals f))).
      { intros q. unfold g1. destruct (is_final f j) eqn:E; unfold is_final in E.
        - apply smem_in in E. cbn. rewrite sadd_in. tauto.
        - apply smem_false in E. tauto. }
      destruct (is_final f j && match tags f with [] => true | _ => false end) eqn:Brk.
      + apply andb_true_iff in Brk as [Brk _]. unfold is_final in Brk. apply smem_in in Brk.
        split; auto. split; auto. intros q. rewrite F1. split.
        * intros [X|[X Y]]; auto. right. split; auto. exists j. split; auto. left; auto.
        * intros [X|[X _]]; auto.
      + set (g2 := match mfind j (tags f) with None => g1 | Some t => _ end).
        assert (B2 : same_but_fin g1 g2 /\ finals g2 = finals g1) by (unfold g2; destruct (mfind j (tags f)); repeat split; auto).
        destruct B2 as [B2 F2]. destruct (IH g2) as [A [B C]]. split; [eapply sbf_trans; [exact B1|]; eapply sbf_trans; eauto|].
        split; [rewrite F2 in B; auto|]. intros q. rewrite C, F2, F1. split.
        * intros [[X|[X Y]]|[X [k [Y Z]]]]; auto; right; split; auto; [exists j|exists k]; split; auto; [left|right]; auto.
        * intros [X|[X [k [[<-|Y] Z]]]]; eauto.
  Qed.

  Lemma accept_terminal_ok : forall ns s g, ns < size g ->
    adds g (accept_terminal f term ns s g) (fun p c q => p = ns /\ q = ns /\ part_rep (letters f) c = Some c /\ exists j, In j s /\ In j term).
  Proof.
    intros ns s g Hn. unfold accept_terminal. eapply adds_ext.
    - apply (adds_fold _ _ (fun j p c q => p = ns /\ q = ns /\ part_rep (letters f) c = Some c /\ In j term)).
      intros h j T Hj A. destruct (smem j term) eqn:E.
      + apply smem_in in E. eapply adds_ext.
        * apply (adds_fold _ _ (fun '(c0, _) p c q => p = ns /\ q = ns /\ c = c0)).
          intros k [c0 v] T' Hin A'. eapply adds_ext; [apply connect_adds|].
          -- rewrite (ad_size _ _ _ A'), (ad_size _ _ _ A); auto.
          -- rewrite (ad_size _ _ _ A'), (ad_size _ _ _ A); auto.
          -- assert (X : part_rep (letters f) c0 = Some c0) by (apply part_rep_key; [apply W|]; apply in_map_iff; exists (c0, v); auto).
             apply (wp_range _ (wf_letters _ W)) in X; tauto.
          -- cbn. tauto.
        * cbn beta. intros p c q. split.
          -- intros [[c0 v] [Hin [-> [-> ->]]]]. splits; auto. apply part_rep_key; [apply W|]. apply in_map_iff. exists (c0, v); auto.
          -- intros [-> [-> [X _]]]. apply part_rep_key in X; [|apply W]. apply in_map_iff in X as [[c' v] [<- X]]. exists (c', v). auto.
      + apply smem_false in E. eapply adds_ext; [apply adds_refl|]. cbn; tauto.
    - cbn beta. intros p c q. split.
      + intros [j [H1 [H2 [H3 [H4 H5]]]]]. splits; auto. exists j; auto.
      + intros [H2 [H3 [H4 [j [H1 H5]]]]]. exists j; auto.
  Qed.

  Definition accept_step (states : list (list nat)) (g : fsm) (ns : nat) : fsm :=
    let s := nth ns states [] in accept_members f ns s (accept_terminal f term ns s g).

  Record accd (g : fsm) (states : list (list nat)) (k : nat) : Prop := {
    ac_size : size g = length states;
    ac_init : initial g = 0;
    ac_let : letters g = letters f;
    ac_sp : sparsed g = false;
    ac_det : determined g = true;
    ac_alt : isAlt g = false;
    ac_raw : forall p c q, raw g p c q <-> p < k /\ q = p /\ part_rep (letters f) c = Some c /\ exists j, In j (nth p states []) /\ In j term;
    ac_pres : forall p c, pres g p c -> exists q, raw g p c q;
    ac_rows : rows_ok g;
    ac_fs : ssorted (finals g);
    ac_fin : forall q, In q (finals g) <-> q < k /\ exists j, In j (nth q states []) /\ In j (finals f)
  }.

  Lemma accept_fold : forall states k, k <= length states -> forall g0, accd g0 states 0 ->
    accd (fold_left (accept_step states) (seq 0 k) g0) states k.
  Proof.
    intros states k; induction k as [|k IH]; intros Hk g0 G0; [exact G0|].
    rewrite seq_S, fold_left_app. cbn [fold_left plus]. specialize (IH ltac:(lia) g0 G0).
    set (g := fold_left (accept_step states) (seq 0 k) g0) in *. clearbody g. unfold accept_step.
    set (s := nth k states []). destruct IH.
    pose proof (accept_terminal_ok k s g ltac:(lia)) as A. set (h := accept_terminal f term k s g) in *. clearbody h.
    destruct (accept_members_ok k s h) as [(T&I&L&Sp&D&Al) [FS F]]. set (h' := accept_members f k s h) in *. clearbody h'.
    assert (Rw : forall p, row_at h' p = row_at h p) by (intros; unfold row_at; rewrite T; auto).
    assert (Sz : size h' = size h) by (unfold size; rewrite T; auto).
    assert (R : forall p c q, raw h' p c q <-> raw h p c q) by (intros; unfold raw; rewrite Rw; tauto).
    constructor.
    - rewrite Sz, (ad_size _ _ _ A); auto.
    - rewrite I, (ad_init _ _ _ A); auto.
    - rewrite L, (ad_let _ _ _ A); auto.
    - rewrite Sp, (ad_sp _ _ _ A); auto.
    - rewrite D, (ad_det _ _ _ A); auto.
    - rewrite Al. destruct (isAlt h) eqn:E; auto. apply (ad_alt _ _ _ A) in E. congruence.
    - intros p c q. rewrite R, (ad_raw _ _ _ A), ac_raw0. split.
      + intros [[X [Y Z]]|[-> [-> Z]]]; split; auto; lia.
      + intros [X [-> Z]]. destruct (Nat.eq_dec p k) as [->|]; auto. left. split; [lia|auto].
    - intros p c H. unfold pres in H. rewrite Rw in H. apply (ad_pres _ _ _ A) in H as [H|[q H]].
      + apply ac_pres0 in H as [q H]. exists q. apply R, (ad_raw _ _ _ A); auto.
      + exists q. apply R, (ad_raw _ _ _ A); auto.
    - intros p. rewrite Rw, Sz. apply (ad_rows _ _ _ A); auto.
    - apply FS. rewrite (ad_fin _ _ _ A). auto.
    - intros q. rewrite F, (ad_fin _ _ _ A), ac_fin0. split.
      + intros [[X Y]|[-> Y]]; split; auto; lia.
      + intros [X Y]. destruct (Nat.eq_dec q k) as [->|]; auto. left. split; [lia|auto].
  Qed.

  Lemma accept_states_ok : forall states, 0 < length states -> accd (accept_states f term states) states (length states).
  Proof.
    intros states Hl. unfold accept_states. set (g1 := clear_final _).
    assert (A1 : accd g1 states 0).
    { assert (Rw : forall p, row_at g1 p = []).
      { intros p. change (row_at g1 p) with (row_at (resize_fsm fsm_new (length states)) p). rewrite row_at_resize; [|cbn; lia].
        destruct p as [|[|]]; reflexivity. }
      constructor; try reflexivity.
      - unfold size, g1. cbn [trans clear_final set_finals set_letters set_determined set_initial]. apply size_resize.
      - intros p c q. unfold raw. rewrite Rw. split; [intros []|lia].
      - intros p c H. unfold pres in H. rewrite Rw in H. destruct (H eq_refl).
      - intros p. rewrite Rw. apply row_ok_nil.
      - constructor.
      - intros q. split; [intros []|lia]. }
    pose proof (accept_fold states (length states) (le_n _) g1 A1) as A.
    assert (E : forall g2, g2 = fold_left (accept_step states) (seq 0 (length states)) g1 -> accd g2 states (length states) ->
      accd (set_outputs g2 (accept_outputs f states (outputs g2))) states (length states)).
    { intros g2 _ []. constructor; auto. }
    apply (E _ eq_refl A).
  Qed.

  (** ** The subset automaton *)
  Variable max : N.
  Variable states : list (list nat).
  Variable tr : list (nat * list nat).
  Hypothesis G : det_good _ [initial f] (fsm_next f) (fsm_required term) ls max states tr (length states).

  Let g := set_sparsed (let g1 := fold_left (fun g '(from, to, c) => connect g from to c) (det_connects ls tr) (accept_states f term states) in
             set_outputs g1 (prune_outputs g1)) (sparsed f).

  Lemma states_pos : 0 < length states.
  Proof. apply nth_error_Some. rewrite (dg_init _ _ _ _ _ _ _ _ _ G). discriminate. Qed.

  Lemma conn_adds : adds (accept_states f term states)
    (fold_left (fun g '(from, to, c) => connect g from to c) (det_connects ls tr) (accept_states f term states))
    (fun p c q => exists s, nth_error states p = Some s /\ fsm_required term s = true /\ part_rep (letters f) c = Some c /\
        nth_error states q = Some (fsm_next f s c)).
  Proof.
    pose proof (accept_states_ok states states_pos) as A.
    pose proof (det_connects_in _ _ _ _ _ (part_list_nodup _ (wf_letters _ W)) (part_list_idx _ (wf_letters _ W)) _ _ _ G) as C.
    eapply adds_ext.
    - apply (adds_fold _ _ (fun '(from, to, l) p c q => p = from /\ c = l /\ q = to)).
      intros h [[from to] c] T Hin B. apply C in Hin as [s [i [H1 [H2 [H3 H4]]]]].
      apply connect_adds; try (rewrite (ad_size _ _ _ B), (ac_size _ _ _ A); apply nth_error_Some; congruence).
      assert (X : part_rep (letters f) c = Some c) by (apply part_list_rep; [apply W|eauto]).
      apply (wp_range _ (wf_letters _ W)) in X; tauto.
    - cbn beta. intros p c q. split.
      + intros [[[from to] l] [Hin [-> [-> ->]]]]. apply C in Hin as [s [i [H1 [H2 [H3 H4]]]]]. exists s. splits; auto.
        apply part_list_rep; [apply W|eauto].
      + intros [s [H1 [H2 [H3 H4]]]]. apply part_list_rep in H3 as [i H3]; [|apply W]. exists (p, q, c). split; auto.
        apply C. exists s, i. auto.
  Qed.

  Lemma g_raw : forall p c q, raw g p c q <-> exists s, nth_error states p = Some s /\ part_rep (letters f) c = Some c /\
     nth_error states q = Some (if fsm_required term s then fsm_next f s c else s).
  Proof.
    intros p c q. pose proof (accept_states_ok states states_pos) as A.
    change (raw g p c q) with (raw (fold_left (fun g '(from, to, c) => connect g from to c) (det_connects ls tr) (accept_states f term states)) p c q).
    rewrite (ad_raw _ _ _ conn_adds), (ac_raw _ _ _ A). split.
    - intros [[H1 [-> [H2 H3]]]|[s [H1 [H2 [H3 H4]]]]].
      + exists (nth p states []). rewrite (nth_error_nth' _ [] H1). splits; auto.
        apply req_false in H3. rewrite H3. auto.
      + exists s. rewrite H2. auto.
    - intros [s [H1 [H2 H3]]]. destruct (fsm_required term s) eqn:R.
      + right. exists s. auto.
      + left. assert (Hp : p < length states) by (apply nth_error_Some; congruence).
        split; auto. pose proof (dg_nodup _ _ _ _ _ _ _ _ _ G) as ND. rewrite NoDup_nth_error in ND.
        split; [symmetry; apply ND; auto; congruence|]. split; auto. apply req_false. rewrite (nth_error_nth _ _ _ H1). auto.
  Qed.

  Lemma g_size : size g = length states.
  Proof.
    pose proof (accept_states_ok states states_pos) as A.
    change (size g) with (size (fold_left (fun g '(from, to, c) => connect g from to c) (det_connects ls tr) (accept_states f term states))).
    rewrite (ad_size _ _ _ conn_adds). apply A.
  Qed.

  Lemma g_letters : letters g = letters f.
  Proof.
    pose proof (accept_states_ok states states_pos) as A.
    change (letters g) with (letters (fold_left (fun g '(from, to, c) => connect g from to c) (det_connects ls tr) (accept_states f term states))).
    rewrite (ad_let _ _ _ conn_adds). apply A.
  Qed.

  Lemma g_initial : initial g = 0.
  Proof.
    pose proof (accept_states_ok states states_pos) as A.
    change (initial g) with (initial (fold_left (fun g '(from, to, c) => connect g from to c) (det_connects ls tr) (accept_states f term states))).
    rewrite (ad_init _ _ _ conn_adds). apply A.
  Qed.

  Lemma g_finals : forall q, In q (finals g) <-> exists s, nth_error states q = Some s /\ exists j, In j s /\ In j (finals f).
  Proof.
    intros q. pose proof (accept_states_ok states states_pos) as A.
    change (finals g) with (finals (fold_left (fun g '(from, to, c) => connect g from to c) (det_connects ls tr) (accept_states f term states))).
    rewrite (ad_fin _ _ _ conn_adds), (ac_fin _ _ _ A). split.
    - intros [H1 H2]. exists (nth q states []). split; auto. apply nth_error_nth'; auto.
    - intros [s [H1 H2]]. split; [apply nth_error_Some; congruence|]. rewrite (nth_error_nth _ _ _ H1). auto.
  Qed.

  Lemma g_rows : rows_ok g.
  Proof.
    pose proof (accept_states_ok states states_pos) as A.
    change (rows_ok (fold_left (fun g '(from, to, c) => connect g from to c) (det_connects ls tr) (accept_states f term states))).
    apply (ad_rows _ _ _ conn_adds). apply A.
  Qed.

  Lemma g_pres : forall p c, pres g p c -> exists q, raw g p c q.
  Proof.
    intros p c H. pose proof (accept_states_ok states states_pos) as A.
    change (pres (fold_left (fun g '(from, to, c) => connect g from to c) (det_connects ls tr) (accept_states f term states)) p c) in H.
    assert (X : exists q, raw (fold_left (fun g '(from, to, c) => connect g from to c) (det_connects ls tr) (accept_states f term states)) p c q).
    { apply (ad_pres _ _ _ conn_adds) in H as [H|[q H]].
      - apply (ac_pres _ _ _ A) in H as [q H]. exists q. apply (ad_raw _ _ _ conn_adds); auto.
      - exists q. apply (ad_raw _ _ _ conn_adds); auto. }
    exact X.
  Qed.

  Lemma next_state : forall p s c, nth_error states p = Some s -> part_rep (letters f) c = Some c ->
    exists q, nth_error states q = Some (if fsm_required term s then fsm_next f s c else s).
  Proof.
    intros p s c H Hc. apply part_list_rep in Hc as [i Hi]; [|apply W].
    destruct (fsm_required term s) eqn:R; [|eauto].
    assert (Hp : p < length states) by (apply nth_error_Some; congruence).
    destruct (dg_done _ _ _ _ _ _ _ _ _ G p s Hp H R) as [rw Hrw].
    apply (dg_rows _ _ _ _ _ _ _ _ _ G) in Hrw as [_ [s' [A [_ [_ B]]]]]. rewrite H in A. injection A as <-. eauto.
  Qed.

  Lemma g_wf : wf g.
  Proof.
    pose proof (accept_states_ok states states_pos) as A.
    constructor.
    - rewrite g_initial, g_size. apply states_pos.
    - intros q Hq. apply g_finals in Hq as [s [H _]]. rewrite g_size. apply nth_error_Some; congruence.
    - change (ssorted (finals (fold_left (fun g '(from, to, c) => connect g from to c) (det_connects ls tr) (accept_states f term states)))).
      rewrite (ad_fin _ _ _ conn_adds). apply A.
    - apply g_rows.
    - rewrite g_letters. apply W.
    - intros p c r H P q. rewrite g_letters in H. apply g_pres in P as [x P]. apply g_raw in P as [s [_ [P _]]].
      assert (r = c) by congruence. subst. tauto.
    - intros q c r H [p P]. rewrite g_letters in H. apply g_raw in P as [s [_ [P _]]].
      assert (r = c) by congruence. subst. tauto.
    - intros H. change (isAlt (fold_left (fun g '(from, to, c) => connect g from to c) (det_connects ls tr) (accept_states f term states)) = true) in H.
      apply (ad_alt _ _ _ conn_adds) in H. rewrite (ac_alt _ _ _ A) in H. discriminate.
  Qed.

  Lemma g_det : det_ok g.
  Proof.
    constructor.
    - intros c H1 H2. rewrite g_letters. auto.
    - intros p c H. apply g_pres in H as [q H]. apply g_raw in H as [s [_ [H _]]]. rewrite g_letters. auto.
    - intros p c Hp Hc. rewrite g_letters in Hc. rewrite g_size in *.
      pose proof (nth_error_nth' states [] Hp) as Hs. set (s := nth p states []) in *.
      destruct (next_state p s c Hs Hc) as [q Hq].
      exists q. split; [apply nth_error_Some; congruence|].
      assert (U : forall x, raw g p c x <-> x = q).
      { intros x. rewrite g_raw. split.
        - intros [s' [X [Y Z]]]. rewrite Hs in X. injection X as <-.
          pose proof (dg_nodup _ _ _ _ _ _ _ _ _ G) as ND. rewrite NoDup_nth_error in ND. apply ND; [apply nth_error_Some|]; congruence.
        - intros ->. exists s. auto. }
      unfold raw, row_get in U. destruct (mfind c (row_at g p)) as [t|] eqn:M; [|exfalso; apply (proj2 (U q)); auto].
      f_equal. destruct (g_rows p) as [_ R]. destruct (R _ _ M) as [_ [St _]].
      apply ssorted_ext; auto; [constructor; constructor|]. intros x. rewrite U. cbn. intuition.
  Qed.

  Lemma g_lang : forall w i s, nth_error states i = Some s ->
    ((exists q, path (edge g) i w q /\ In q (finals g)) <-> exists p, In p s /\ exists q, path (edge f) p w q /\ In q (finals f)).
  Proof.
    assert (Ef : forall p c q, edge f p c q -> exists r, part_rep (letters f) c = Some r /\ raw f p r q).
    { intros p c q H. unfold edge, erep in H. destruct (part_rep (letters f) c) as [r|] eqn:R; [eauto|]. exfalso.
      change (raw f p c q) in H. pose proof (raw_bound _ _ _ _ (wf_rows _ W) H) as [_ [_ B]].
      destruct (HA c B) as [r X]; [|congruence]. intros ->. eapply Heps; eauto. }
    assert (Eg : forall p c q, edge g p c q -> exists r, part_rep (letters f) c = Some r /\ raw g p r q).
    { intros p c q H. unfold edge, erep in H. rewrite g_letters in H. destruct (part_rep (letters f) c) as [r|] eqn:R; [eauto|]. exfalso.
      change (raw g p c q) in H. apply g_raw in H as [s [_ [X _]]]. congruence. }
    assert (Fe : forall p c r q, part_rep (letters f) c = Some r -> raw f p r q -> edge f p c q).
    { intros p c r q H1 H2. unfold edge, erep. rewrite H1. auto. }
    assert (Ge : forall p c r q, part_rep (letters f) c = Some r -> raw g p r q -> edge g p c q).
    { intros p c r q H1 H2. unfold edge, erep. rewrite g_letters, H1. auto. }
    assert (Neps : forall c r, part_rep (letters f) c = Some r -> c <> Epsilon).
    { intros c r H. apply part_rep_not_eps in H; [tauto|apply W]. }
    induction w as [|c w IH]; intros i s Hi.
    - split.
      + intros [q [P F]]. destruct (path_inv _ _ _ _ P) as [[_ ->]|[(m & H1 & P1)|(c & m & w1 & E & _)]]; [|exfalso|discriminate].
        * apply g_finals in F as [s' [A [j [B C]]]]. rewrite Hi in A. injection A as <-. exists j. split; auto. exists j. split; auto. constructor.
        * apply Eg in H1 as [r [H1 _]]. apply (Neps _ _ H1); auto.
      + intros [p [Hp [q [P F]]]]. destruct (path_inv _ _ _ _ P) as [[_ ->]|[(m & H1 & P1)|(c & m & w1 & E & _)]]; [|exfalso|discriminate].
        * exists i. split; [constructor|]. apply g_finals. eauto.
        * apply Ef in H1 as [r [H1 _]]. apply (Neps _ _ H1); auto.
    - split.
      + intros [q [P F]]. destruct (path_inv _ _ _ _ P) as [[E _]|[(m & H1 & P1)|(c' & m & w1 & E & Hc & H1 & P1)]]; [discriminate|exfalso|].
        * apply Eg in H1 as [r [H1 _]]. apply (Neps _ _ H1); auto.
        * injection E as <- <-. apply Eg in H1 as [r [H1 H2]]. apply g_raw in H2 as [s' [A [B C]]]. rewrite Hi in A. injection A as <-.
          destruct (proj1 (IH m _ C) (ex_intro _ q (conj P1 F))) as [p [Hp [q' [P' F']]]].
          destruct (fsm_required term s) eqn:R.
          -- apply next_in in Hp as [p0 [X Y]]; auto. exists p0. split; auto. exists q'. split; auto. eapply path_step; eauto.
          -- apply req_false in R as [t [T1 T2]]. exists t. split; auto.
             (* a terminal state loops on every letter, so it accepts any word of the alphabet *)
             apply term_in in T2 as [T2 T3]. exists t. split; auto.
             assert (Loop : forall w a b, path (edge g) a w b -> path (edge f) t w t).
             { clear -Eg Neps T3 Fe W. intros w a b P. induction P as [|a b w c H P IH|a c b w d Hc H P IH].
               - constructor.
               - apply Eg in H as [r [H _]]. exfalso. apply (Neps _ _ H); auto.
               - apply Eg in H as [r [H1 H2]]. eapply path_step; eauto. eapply Fe; eauto. apply T3.
                 eapply part_rep_rep; eauto. apply W. }
             eapply Loop; eauto.
      + intros [p [Hp [q [P F]]]]. destruct (path_inv _ _ _ _ P) as [[E _]|[(m & H1 & P1)|(c' & m & w1 & E & Hc & H1 & P1)]]; [discriminate|exfalso|].
        * apply Ef in H1 as [r [H1 _]]. apply (Neps _ _ H1); auto.
        * injection E as <- <-. apply Ef in H1 as [r [H1 H2]].
          assert (Hr : part_rep (letters f) r = Some r) by (eapply part_rep_rep; eauto; apply W).
          destruct (next_state i s r Hi Hr) as [j Hj].
          assert (Hg : raw g i r j) by (apply g_raw; eauto).
          destruct (fsm_required term s) eqn:R.
          -- assert (Hm : In m (fsm_next f s r)) by (apply next_in; eauto).
             destruct (proj2 (IH j _ Hj) (ex_intro _ m (conj Hm (ex_intro _ q (conj P1 F))))) as [q' [P' F']].
             exists q'. split; auto. eapply path_step; eauto.
          -- apply req_false in R as R'. destruct R' as [t [T1 T2]]. apply term_in in T2 as [T2 T3].
             assert (Loop : forall w a b, path (edge f) a w b -> path (edge f) t w t).
             { clear -Ef Neps T3 Fe W. intros w a b P. induction P as [|a b w c H P IH|a c b w d Hc H P IH].
               - constructor.
               - apply Ef in H as [r [H _]]. exfalso. apply (Neps _ _ H); auto.
               - apply Ef in H as [r [H1 H2]]. eapply path_step; eauto. eapply Fe; eauto. apply T3.
                 eapply part_rep_rep; eauto. apply W. }
             assert (Ht : exists p, In p s /\ exists q, path (edge f) p w q /\ In q (finals f)).
             { exists t. split; auto. exists t. split; auto. eapply Loop; eauto. }
             destruct (proj2 (IH j _ Hj) Ht) as [q' [P' F']].
             exists q'. split; auto. eapply path_step; eauto.
  Qed.

  Lemma g_accepts : lang_eq (accepts g) (accepts f).
  Proof.
    intros w. unfold accepts. rewrite g_initial. rewrite (g_lang w 0 [initial f] (dg_init _ _ _ _ _ _ _ _ _ G)).
    split; [intros [p [[<-|[]] X]]; auto|]. intros X. exists (initial f). split; [left; auto|auto].
  Qed.

  (** every state of the result is reached by some word *)
  Lemma g_reach : forall i, i < size g -> exists w, is_word w /\ path (edge g) (initial g) w i.
  Proof.
    intros i Hi. rewrite g_size in Hi. rewrite g_initial.
    pose proof (nth_error_nth' states [] Hi) as Hs.
    pose proof (dg_reach _ _ _ _ _ _ _ _ _ G (nth i states [])) as R. specialize (R (nth_In _ _ Hi)).
    remember (nth i states []) as s eqn:Es. clear Es Hi. revert i Hs. induction R as [|s c k R IH Rq Hin]; intros i Hs.
    - exists []. split; [constructor|]. pose proof (dg_init _ _ _ _ _ _ _ _ _ G) as D0.
      pose proof (dg_nodup _ _ _ _ _ _ _ _ _ G) as ND. rewrite NoDup_nth_error in ND.
      assert (i = 0); [|subst; constructor]. apply ND; [apply nth_error_Some|]; congruence.
    - pose proof (det_good_all _ _ _ _ _ _ _ _ G s R) as Hsin. apply In_nth_error in Hsin as [j Hj].
      destruct (IH j Hj) as [w [Hw P]].
      assert (Hc : part_rep (letters f) c = Some c) by (apply part_list_rep; [apply W|eauto]).
      pose proof (wp_range _ (wf_letters _ W) _ _ Hc) as [Hr Hne].
      exists (w ++ [c]). split; [apply Forall_app; split; auto; constructor; [split|]; auto|].
      eapply path_app; [exact P|]. eapply path_step; [auto| |constructor].
      unfold edge, erep. rewrite g_letters, Hc. apply g_raw. exists s. rewrite Rq. auto.
  Qed.
End Subset.

(** ** Counting sorted subsets *)
Fixpoint sublists {A} (l : list A) : list (list A) :=
  match l with [] => [[]] | x :: l => sublists l ++ map (cons x) (sublists l) end.
Lemma sublists_length : forall A (l : list A), length (sublists l) = 2 ^ length l.
Proof. induction l; cbn; auto. rewrite app_length, map_length, IHl. lia. Qed.
Lemma filter_sublist : forall A (h : A -> bool) l, In (filter h l) (sublists l).
Proof.
  induction l as [|x l IH]; cbn; auto. destruct (h x); apply in_app_iff; [right; apply in_map; auto|left; auto].
Qed.
Lemma seq_filter_sorted : forall (h : nat -> bool) n a, ssorted (filter h (seq a n)).
Proof.
  induction n as [|n IH]; intros a; cbn [seq filter]; [constructor|].
  destruct (h a); [|apply IH]. constructor; [apply IH|]. apply Forall_forall. intros y Hy. apply filter_In in Hy as [Hy _].
  apply in_seq in Hy. apply Nat.ltb_lt. lia.
Qed.
Lemma subsets_bound : forall n (ss : list (list nat)), NoDup ss ->
  (forall s, In s ss -> ssorted s /\ forall q, In q s -> q < n) -> length ss <= 2 ^ n.
Proof.
  intros n ss ND H. replace n with (length (seq 0 n)) by apply seq_length. rewrite <- sublists_length.
  apply NoDup_incl_length; auto. intros s Hs. destruct (H s Hs) as [S B].
  replace s with (filter (fun q => smem q s) (seq 0 n)); [apply filter_sublist|].
  apply ssorted_ext; auto.
  - apply seq_filter_sorted.
  - intros q. rewrite filter_In, in_seq, smem_in. split; [tauto|]. intros Hq. specialize (B q Hq). split; auto. lia.
Qed.

(** The set of states the automaton may be in after reading a word. *)
Definition reach_set (f : fsm) (w : word) : nat -> Prop := fun q => path (edge f) (initial f) w q.

Lemma dreach_word : forall f, wf f -> sparsed f = true ->
  (forall p q, ~ raw f p Epsilon q) -> forall s,
  dreach _ [initial f] (fsm_next f) (fsm_required (terminal_states f)) (part_list (letters f)) s ->
  ssorted s /\ exists w, is_word w /\ forall q, In q s <-> reach_set f w q.
Proof.
  intros f W Hsp He s H. induction H as [|s c i H [IHs [w [Hw IH]]] R Hin].
  - split; [constructor; constructor|]. exists []. split; [constructor|]. intros q. split.
    + intros [<-|[]]. constructor.
    + intros P. destruct (path_inv _ _ _ _ P) as [[_ ->]|[(m & H1 & P1)|(c & m & w1 & E & _)]]; [left; auto|exfalso|discriminate].
      apply edge_Epsilon in H1; [|apply W]. eapply He; eauto.
  - split; [apply next_sorted|].
    assert (Hc : part_rep (letters f) c = Some c) by (apply part_list_rep; [apply W|eauto]).
    pose proof (wp_range _ (wf_letters _ W) _ _ Hc) as [Hr Hne].
    exists (w ++ [c]). split; [apply Forall_app; split; auto; constructor; [split|]; auto|].
    intros q. rewrite next_in by auto. unfold reach_set. split.
    + intros [p [Hp Hq]]. apply IH in Hp. eapply path_app; [exact Hp|]. eapply path_step; [auto| |constructor].
      unfold edge, erep. rewrite Hc. exact Hq.
    + intros P. apply path_split in P as [p [P1 P2]]. exists p. split; [apply IH; auto|].
      destruct (path_inv _ _ _ _ P2) as [[E _]|[(m & H1 & _)|(c' & m & w1 & E & _ & H1 & P3)]]; [discriminate|exfalso|].
      * apply edge_Epsilon in H1; [|apply W]. eapply He; eauto.
      * injection E as <- <-. destruct (path_inv _ _ _ _ P3) as [[_ ->]|[(m' & H1' & _)|(c' & m' & w1 & E & _)]]; [|exfalso|discriminate].
        -- unfold edge, erep in H1. rewrite Hc in H1. exact H1.
        -- apply edge_Epsilon in H1'; [|apply W]. eapply He; eauto.
Qed.

Definition det_limit (maxsize : N) : N := if N.eqb maxsize 0 then 200000%N else maxsize.

(** C16, C17 *)
Lemma determine_ok : forall f maxsize, wf f -> determined f = false ->
  exists b g, determine f maxsize = Ok (b, g) /\ wf g /\ all_in_part g /\ lang_eq (accepts g) (accepts f) /\
    (b = true -> det_ok g /\ determined g = true /\ sparsed g = true /\ (N.of_nat (size g) <= det_limit maxsize + 1)%N /\
        size g <= 2 ^ size f /\ forall i, i < size g -> exists w, is_word w /\ path (edge g) (initial g) w i) /\
    (b = false -> size g = size f /\ exists ss : list (list nat), NoDup ss /\ (N.of_nat (length ss) = det_limit maxsize + 2)%N /\
        forall s, In s ss -> ssorted s /\ exists w, is_word w /\ forall q, In q s <-> reach_set g w q).
Proof.
  intros f maxsize W D. unfold determine. rewrite D. fold (det_limit maxsize).
  destruct (remove_epsilons_ok f W) as (W1 & A1 & Sz & In1 & Sp & Al & He & He' & L).
  set (f1 := remove_epsilons f) in *. clearbody f1.
  pose proof (det_run_ok _ (@seqb nat _) [initial f1] (fsm_next f1) (fsm_required (terminal_states f1)) (part_list (letters f1))
     seqb_eq (part_list_nodup _ (wf_letters _ W1)) (part_list_idx _ (wf_letters _ W1)) (det_limit maxsize)) as R.
  destruct (det_run (@seqb nat _) [initial f1] (fsm_next f1) (fsm_required (terminal_states f1)) (part_list (letters f1)) (det_limit maxsize)) as [states tr| |].
  - destruct R as [G Lim]. exists true. eexists. split; [reflexivity|].
    split; [eapply g_wf; eauto|].
    pose proof (g_det f1 W1 A1 _ _ _ G) as DO. split; [apply DO|].
    split; [eapply lang_eq_trans; [eapply g_accepts; eauto|exact L]|].
    split; [|discriminate]. intros _. split; [exact DO|]. split; [|split; [|split; [|split]]].
    + pose proof (accept_states_ok f1 W1 states) as X. pose proof (conn_adds f1 W1 _ _ _ G) as Y. cbn [determined set_sparsed set_outputs].
      rewrite (ad_det _ _ _ Y). apply X. eapply states_pos; eauto.
    + exact Sp.
    + pose proof (g_size f1 W1 _ _ _ G) as Z. cbn zeta in Z. rewrite Z. auto.
    + pose proof (g_size f1 W1 _ _ _ G) as Z. cbn zeta in Z. rewrite Z. apply subsets_bound; [apply G|].
      intros s Hs. apply (dg_reach _ _ _ _ _ _ _ _ _ G) in Hs. apply dreach_word in Hs as [S1 [w [_ S2]]]; auto. split; auto.
      intros q Hq. apply S2 in Hq. rewrite <- Sz. unfold reach_set in Hq.
      eapply (path_closed _ (fun q => q < size f1)); [|exact Hq|apply W1]. intros p c q' _ E. eapply edge_bound; eauto.
    + eapply g_reach; eauto.
  - exists false, f1. split; [reflexivity|]. splits; auto; [discriminate|]. intros _. split; auto.
    destruct R as [l [H1 [H2 H3]]]. exists l. splits; auto. intros s Hs. apply dreach_word; auto.
  - destruct R.
Qed.
