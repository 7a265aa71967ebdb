(** AppendStrings: the prefix tree built for a list of strings. *)
From Coq Require Import List Bool Arith NArith Lia.
From Verif Require Import Util Spec PartitionModel PartitionProofs FsmModel Nfa NfaOps FsmSem FsmBasics FsmOps FsmOps2.
Import ListNotations.

(** induction on paths from the left end *)
Lemma path_ind_right : forall (E : nat -> N -> nat -> Prop) (P : word -> nat -> Prop),
  (forall w p q, P w p -> E p Epsilon q -> P w q) ->
  (forall w p c q, P w p -> c <> Epsilon -> E p c q -> P (w ++ [c]) q) ->
  forall p w q, path E p w q -> forall u, P u p -> P (u ++ w) q.
Proof.
  intros E P H1 H2 p w q H; induction H as [p|p q w r He H IH|p c q w r Hc He H IH]; intros u Hu.
  - rewrite app_nil_r; auto.
  - apply IH. eapply H1; eauto.
  - change (c :: w) with ([c] ++ w). rewrite app_assoc. apply IH. eapply H2; eauto.
Qed.

Section Trie.
  Variable f : fsm.
  Hypothesis W : wf f.
  Let n := size f.

  (** [wd s] is the word spelled by tree node s; [done] the strings already entered *)
  Record trie (g : fsm) (sl : smap N nat) (lt : smap (nat * N) nat) (done : list N -> Prop)
      (wd : nat -> list N) : Prop := {
    t_init : initial g = initial f;
    t_fin : finals g = finals f;
    t_let : letters g = letters f;
    t_alt : isAlt g = true -> isAlt f = true;
    t_size : n < size g;
    t_rows : rows_ok g;
    t_raw : forall p c q, raw g p c q <->
      raw f p c q \/ (In p (finals f) /\ mfind c sl = Some q) \/ mfind (p, c) lt = Some q \/
      (q = n /\ In p (finals f) /\ done [c]) \/ (q = n /\ n < p < size g /\ done (wd p ++ [c]));
    t_sl : forall c s, mfind c sl = Some s -> n < s < size g /\ wd s = [c] /\ byte c;
    t_lt : forall s c s', mfind (s, c) lt = Some s' -> n < s < s' /\ s' < size g /\ wd s' = wd s ++ [c] /\ byte c;
    t_ne : forall s, n < s < size g -> wd s <> [];
    t_inj : forall s s', n < s < size g -> n < s' < size g -> wd s = wd s' -> s = s';
    t_reach : forall s, n < s < size g -> (exists c, mfind c sl = Some s) \/ (exists p c, mfind (p, c) lt = Some s);
    t_done : forall w, done w -> Forall byte w /\ ((exists c, w = [c]) \/ exists p c, n < p < size g /\ w = wd p ++ [c])
  }.

  Ltac tne T := match goal with E : ?w ?s = [] |- _ => refine (t_ne _ _ _ _ _ T s _ E); auto; lia end.

  Lemma app_single_inj : forall (u v : list N) a b, u ++ [a] = v ++ [b] -> u = v /\ a = b.
  Proof. apply app_inj_tail. Qed.

  Lemma byte_max : forall c, byte c -> (c < MaxChar)%N.
  Proof. unfold byte, MaxChar. intros; lia. Qed.
  Lemma byte_eps : forall c, byte c -> c <> Epsilon.
  Proof. unfold byte, Epsilon. intros; lia. Qed.

  (** no node spells w yet: neither a tree edge nor an entered string knows it *)
  Lemma trie_fresh_inner : forall g sl lt done wd s c, trie g sl lt done wd -> n < s < size g -> mfind (s, c) lt = None ->
    forall p, n < p < size g -> wd p <> wd s ++ [c].
  Proof.
    intros g sl lt done wd s c T Hs Hn p Hp E. destruct (t_reach _ _ _ _ _ T p Hp) as [[c' H]|[s' [c' H]]].
    - apply (t_sl _ _ _ _ _ T) in H as [_ [H _]]. rewrite H in E. change [c'] with ([] ++ [c']) in E.
      apply app_inj_tail in E as [E _]. symmetry in E. tne T.
    - pose proof H as H'. apply (t_lt _ _ _ _ _ T) in H as [H0 [H1 [H _]]]. rewrite H in E.
      apply app_inj_tail in E as [E ->]. apply (t_inj _ _ _ _ _ T) in E; [|lia|auto]. subst. congruence.
  Qed.
  Lemma trie_fresh_first : forall g sl lt done wd c, trie g sl lt done wd -> mfind c sl = None ->
    forall p, n < p < size g -> wd p <> [c].
  Proof.
    intros g sl lt done wd c T Hn p Hp E. destruct (t_reach _ _ _ _ _ T p Hp) as [[c' H]|[s' [c' H]]].
    - pose proof H as H'. apply (t_sl _ _ _ _ _ T) in H as [_ [H _]]. rewrite H in E. injection E as ->. congruence.
    - apply (t_lt _ _ _ _ _ T) in H as [H0 [H1 [H _]]]. rewrite H in E.
      change [c] with ([] ++ [c]) in E. apply app_inj_tail in E as [E ->].
      tne T.
  Qed.

  Definition wset (wd : nat -> list N) (s : nat) (w : list N) (x : nat) := if Nat.eqb x s then w else wd x.
  Lemma wset_same : forall wd s w, wset wd s w s = w.
  Proof. intros; unfold wset. rewrite Nat.eqb_refl; auto. Qed.
  Lemma wset_other : forall wd s w x, x <> s -> wset wd s w x = wd x.
  Proof. intros; unfold wset. destruct (Nat.eqb_spec x s); congruence. Qed.

  (** a fresh node with word w, whatever edge leads to it *)
  Lemma trie_grow : forall g sl lt done wd g' S sl' lt' w,
    trie g sl lt done wd ->
    adds (resize_fsm g (size g + 1)) g' S ->
    (forall p, n < p < size g -> wd p <> w) -> w <> [] ->
    (forall c s, mfind c sl' = Some s <-> mfind c sl = Some s \/ (w = [c] /\ s = size g /\ mfind c sl' = Some s)) ->
    (forall p c s, mfind (p, c) lt' = Some s <-> mfind (p, c) lt = Some s \/ (n < p < size g /\ w = wd p ++ [c] /\ s = size g /\ mfind (p, c) lt' = Some s)) ->
    (forall p c q, S p c q <-> (In p (finals f) /\ mfind c sl' = Some q /\ q = size g) \/ (mfind (p, c) lt' = Some q /\ q = size g)) ->
    ((exists c, w = [c] /\ mfind c sl' = Some (size g)) \/ (exists p c, mfind (p, c) lt' = Some (size g))) ->
    Forall byte w ->
    trie (set_determined g' false) sl' lt' done (wset wd (size g) w) /\ size (set_determined g' false) = size g + 1.
  Proof.
    intros g sl lt done wd g' S sl' lt' w T A Hfr Hw Hsl Hlt HS Hr Hb.
    assert (Sz : size (set_determined g' false) = size g + 1) by (rewrite <- (size_resize g (size g + 1)); apply (ad_size _ _ _ A)).
    assert (Blast : forall u c, w = u ++ [c] -> byte c).
    { intros u c ->. apply Forall_app in Hb as [_ Hb]. inversion Hb; auto. }
    split; [|auto]. pose proof (t_size _ _ _ _ _ T) as Sg. constructor.
    - etransitivity; [apply (ad_init _ _ _ A)|apply T].
    - etransitivity; [apply (ad_fin _ _ _ A)|apply T].
    - etransitivity; [apply (ad_let _ _ _ A)|apply T].
    - intros H. apply (t_alt _ _ _ _ _ T). apply (ad_alt _ _ _ A H).
    - lia.
    - apply (ad_rows _ _ _ A). apply rows_ok_resize; [lia|apply T].
    - intros p c q. etransitivity; [apply (ad_raw _ _ _ A)|]. rewrite raw_resize by lia.
      rewrite (t_raw _ _ _ _ _ T), HS, Sz. split.
      + intros [[H|[[H1 H2]|[H|[H|[H1 [H2 H3]]]]]]|[[H1 [H2 H3]]|[H1 H2]]]; auto.
        * right; left. split; auto. apply Hsl; auto.
        * right; right; left. apply Hlt; auto.
        * do 4 right. split; auto. split; [lia|]. rewrite wset_other by lia. auto.
      + intros [H|[[H1 H2]|[H|[H|[H1 [H2 H3]]]]]]; auto 6.
        * apply Hsl in H2 as [H2|[-> [-> H2]]]; auto 6.
        * apply Hlt in H as [H|[X [Y [-> H]]]]; auto 6.
        * destruct (Nat.eq_dec p (size g)) as [->|Hne].
          -- exfalso. rewrite wset_same in H3. apply (t_done _ _ _ _ _ T) in H3 as [_ [[c' H3]|[p [c' [H4 H3]]]]].
             ++ change [c'] with ([] ++ [c']) in H3. apply app_inj_tail in H3 as [H3 _]. auto.
             ++ apply app_inj_tail in H3 as [H3 _]. eapply Hfr; eauto.
          -- rewrite wset_other in H3 by auto. left. do 4 right. split; auto. split; [lia|auto].
    - rewrite Sz. intros c s H. apply Hsl in H as [H|[-> [-> H]]].
      + apply (t_sl _ _ _ _ _ T) in H as [H1 [H2 H3]]. split; [lia|]. rewrite wset_other by lia. auto.
      + split; [lia|]. rewrite wset_same. split; auto. apply (Blast []); auto.
    - rewrite Sz. intros p c s H. apply Hlt in H as [H|[H0 [-> [-> H]]]].
      + apply (t_lt _ _ _ _ _ T) in H as [H1 [H2 [H3 H4]]]. split; [lia|]. split; [lia|]. rewrite !wset_other by lia. auto.
      + split; [lia|]. split; [lia|]. rewrite wset_same, wset_other by lia. split; auto. apply (Blast (wd p)); auto.
    - rewrite Sz. intros s Hs. destruct (Nat.eq_dec s (size g)) as [->|Hne].
      + rewrite wset_same; auto.
      + rewrite wset_other by auto. apply (t_ne _ _ _ _ _ T). lia.
    - rewrite Sz. intros s s' Hs Hs'. destruct (Nat.eq_dec s (size g)) as [->|Hne], (Nat.eq_dec s' (size g)) as [->|Hne']; auto.
      + rewrite wset_same, wset_other by auto. intros E. exfalso. apply (Hfr s'); auto. lia.
      + rewrite wset_same, wset_other by auto. intros E. exfalso. apply (Hfr s); auto. lia.
      + rewrite !wset_other by auto. apply (t_inj _ _ _ _ _ T); lia.
    - rewrite Sz. intros s Hs. destruct (Nat.eq_dec s (size g)) as [->|Hne].
      + destruct Hr as [[c [_ Hr]]|Hr]; eauto.
      + destruct (t_reach _ _ _ _ _ T s) as [[c H]|[p [c H]]]; [lia| |].
        * left. exists c. apply Hsl; auto.
        * right. exists p, c. apply Hlt; auto.
    - rewrite Sz. intros v Hv. apply (t_done _ _ _ _ _ T) in Hv as [Hv1 [Hv2|[p [c [H1 H2]]]]]; split; auto.
      right. exists p, c. split; [lia|]. rewrite wset_other by lia. auto.
  Qed.

  (** entering a string: only the edges to the common final state change *)
  Lemma trie_enter : forall g sl lt done wd g' S w,
    trie g sl lt done wd -> adds g g' S -> Forall byte w ->
    ((exists c, w = [c] /\ forall p c' q, S p c' q <-> In p (finals f) /\ c' = c /\ q = n) \/
     (exists s c, n < s < size g /\ w = wd s ++ [c] /\ forall p c' q, S p c' q <-> p = s /\ c' = c /\ q = n)) ->
    trie (set_determined g' false) sl lt (fun x => done x \/ x = w) wd.
  Proof.
    intros g sl lt done wd g' S w T A Hb HS.
    assert (Sz : size (set_determined g' false) = size g) by apply (ad_size _ _ _ A).
    constructor; try (rewrite Sz; apply T).
    - etransitivity; [apply (ad_init _ _ _ A)|apply T].
    - etransitivity; [apply (ad_fin _ _ _ A)|apply T].
    - etransitivity; [apply (ad_let _ _ _ A)|apply T].
    - intros H. apply (t_alt _ _ _ _ _ T). apply (ad_alt _ _ _ A H).
    - apply (ad_rows _ _ _ A). apply T.
    - intros p c q. etransitivity; [apply (ad_raw _ _ _ A)|]. rewrite (t_raw _ _ _ _ _ T), Sz.
      destruct HS as [[a [-> HS]]|[s [a [Hs [-> HS]]]]]; rewrite HS.
      + split.
        * intros [[H|[H|[H|[H|H]]]]|[H1 [-> ->]]]; auto 6; [tauto|tauto|]. right; right; right; left. auto.
        * intros [H|[H|[H|[[H1 [H2 [H3|H3]]]|[H1 [H2 [H3|H3]]]]]]]; auto 8.
          -- injection H3 as ->. auto.
          -- exfalso. change [a] with ([] ++ [a]) in H3. apply app_inj_tail in H3 as [H3 _]. tne T.
      + split.
        * intros [[H|[H|[H|[H|H]]]]|[-> [-> ->]]]; auto 6; [tauto|tauto|]. do 4 right. auto.
        * intros [H|[H|[H|[[H1 [H2 [H3|H3]]]|[H1 [H2 [H3|H3]]]]]]]; auto 8.
          -- exfalso. change [c] with ([] ++ [c]) in H3. apply app_inj_tail in H3 as [H3 _]. symmetry in H3. tne T.
          -- apply app_inj_tail in H3 as [H3 ->]. apply (t_inj _ _ _ _ _ T) in H3; auto.
    - intros v [Hv| ->].
      + rewrite Sz. apply (t_done _ _ _ _ _ T); auto.
      + split; auto. rewrite Sz. destruct HS as [[c [-> _]]|[s [c [H1 [-> _]]]]]; [left|right]; eauto.
  Qed.

  Lemma as_inner_ok : forall cs g sl lt done wd state,
    trie g sl lt done wd -> n < state < size g -> Forall byte (wd state ++ cs) ->
    let '(g', lt', st') := as_inner g lt state cs in
    exists wd', trie g' sl lt' done wd' /\ n < st' < size g' /\ wd' st' = wd state ++ cs.
  Proof.
    induction cs as [|c cs IH]; intros g sl lt done wd state T Hs Hb; cbn [as_inner].
    - exists wd. rewrite app_nil_r. auto.
    - destruct (mfind (state, c) lt) as [m|] eqn:F.
      + destruct (t_lt _ _ _ _ _ T _ _ _ F) as [H1 [H2 [H3 _]]].
        replace (wd state ++ c :: cs) with (wd m ++ cs) in * by (rewrite H3, <- app_assoc; reflexivity).
        apply (IH g sl lt done wd m); auto. lia.
      + assert (Hc : Forall byte (wd state ++ [c])).
        { apply Forall_app in Hb as [Hb1 Hb2]. inversion Hb2; subst. apply Forall_app; auto. }
        assert (Hc' : byte c) by (apply Forall_app in Hc as [_ Hc]; inversion Hc; auto).
        pose proof (trie_grow g sl lt done wd (connect (resize_fsm g (size g + 1)) state (size g) c)
          (fun p c' q => p = state /\ c' = c /\ q = size g) sl (mset (state, c) (size g) lt) (wd state ++ [c]) T) as G.
        destruct G as [G1 G2].
        * apply connect_adds; rewrite ?size_resize; [lia|lia|apply byte_max; auto].
        * eapply trie_fresh_inner; eauto.
        * intros E; apply app_eq_nil in E as [_ E]; discriminate.
        * intros c0 s. split; auto. intros [H|[E _]]; auto. exfalso. change [c0] with ([] ++ [c0]) in E.
          apply app_inj_tail in E as [E _]. tne T.
        * intros p c0 s. rewrite mfind_mset. destruct (keqb_spec (p, c0) (state, c)) as [[= -> ->]|Hne].
          -- rewrite F. split; [intros [= <-]; right; auto|intros [H|[_ [_ [-> _]]]]; [discriminate|auto]].
          -- split; [auto|]. intros [H|[_ [_ [_ H]]]]; auto.
        * intros p c0 q. rewrite mfind_mset. destruct (keqb_spec (p, c0) (state, c)) as [[= -> ->]|Hne].
          -- split; [intros [_ [_ ->]]; auto|]. intros [[_ [_ ->]]|[_ ->]]; auto.
          -- split; [intros [-> [-> _]]; congruence|]. intros [[_ [H ->]]|[H ->]].
             ++ apply (t_sl _ _ _ _ _ T) in H. lia.
             ++ apply (t_lt _ _ _ _ _ T) in H. lia.
        * right. exists state, c. rewrite mfind_mset, keqb_refl. auto.
        * auto.
        * assert (E : wset wd (size g) (wd state ++ [c]) (size g) ++ cs = wd state ++ c :: cs)
            by (rewrite wset_same, <- app_assoc; reflexivity).
          rewrite <- E in *. apply IH with (1 := G1); auto. pose proof (t_size _ _ _ _ _ T). lia.
  Qed.

  Lemma as_one_ok : forall str g sl lt done wd,
    trie g sl lt done wd -> str <> [] -> Forall byte str ->
    let '(g', sl', lt') := as_one n (g, sl, lt) str in
    exists wd', trie g' sl' lt' (fun x => done x \/ x = str) wd'.
  Proof.
    intros str g sl lt done wd T Hne Hb. destruct str as [|c rest]; [congruence|].
    destruct rest as [|c2 rest].
    - cbn [as_one]. exists wd. eapply trie_enter with (1 := T); auto.
      + apply connect_final_adds.
        * rewrite (t_fin _ _ _ _ _ T). intros q Hq. apply (wf_fin _ W) in Hq. pose proof (t_size _ _ _ _ _ T). unfold n in *; lia.
        * apply T.
        * inversion Hb; apply byte_max; auto.
      + left. exists c. split; auto. intros. rewrite (t_fin _ _ _ _ _ T). reflexivity.
    - cbn [as_one]. set (r := c2 :: rest) in *.
      assert (Er : r = removelast r ++ [last r 0%N]) by (apply app_removelast_last; discriminate).
      assert (X : exists g1 sl1 fj wd1,
        match mfind c sl with
        | Some m => (g, sl, m)
        | None => (set_determined (connect_final (resize_fsm g (size g + 1)) (size g) c) false, mset c (size g) sl, size g)
        end = (g1, sl1, fj) /\ trie g1 sl1 lt done wd1 /\ n < fj < size g1 /\ wd1 fj = [c]).
      { destruct (mfind c sl) as [m|] eqn:F.
        - exists g, sl, m, wd. destruct (t_sl _ _ _ _ _ T _ _ F) as [H1 [H2 _]]. auto.
        - exists (set_determined (connect_final (resize_fsm g (size g + 1)) (size g) c) false), (mset c (size g) sl), (size g), (wset wd (size g) [c]).
          split; auto.
          assert (Hc : byte c) by (inversion Hb; auto).
          pose proof (trie_grow g sl lt done wd (connect_final (resize_fsm g (size g + 1)) (size g) c)
            (fun p c' q => In p (finals f) /\ c' = c /\ q = size g) (mset c (size g) sl) lt [c] T) as G.
          destruct G as [G1 G2].
          + rewrite <- (t_fin _ _ _ _ _ T). apply (connect_final_adds (resize_fsm g (size g + 1))).
            * change (finals (resize_fsm g (size g + 1))) with (finals g). rewrite (t_fin _ _ _ _ _ T), size_resize.
              intros q Hq. apply (wf_fin _ W) in Hq. pose proof (t_size _ _ _ _ _ T). unfold n in *; lia.
            * rewrite size_resize. lia.
            * apply byte_max; auto.
          + eapply trie_fresh_first; eauto.
          + discriminate.
          + intros c0 s. rewrite mfind_mset. destruct (keqb_spec c0 c) as [->|Hn].
            * rewrite F. split; [intros [= <-]; right; auto|intros [H|[_ [-> _]]]; [discriminate|auto]].
            * split; [auto|]. intros [H|[_ [_ H]]]; auto.
          + intros p c0 s. split; [auto|]. intros [H|[Hp [E _]]]; auto. exfalso. change [c] with ([] ++ [c]) in E.
            apply app_inj_tail in E as [E _]. symmetry in E. tne T.
          + intros p c0 q. rewrite mfind_mset. destruct (keqb_spec c0 c) as [->|Hn].
            * split; [intros [H [_ ->]]; auto|]. intros [[H [_ ->]]|[H ->]]; auto. apply (t_lt _ _ _ _ _ T) in H. lia.
            * split; [intros [_ [-> _]]; congruence|]. intros [[_ [H ->]]|[H ->]].
              -- apply (t_sl _ _ _ _ _ T) in H. lia.
              -- apply (t_lt _ _ _ _ _ T) in H. lia.
          + left. exists c. rewrite mfind_mset, keqb_refl. auto.
          + auto.
          + split; [exact G1|]. rewrite wset_same. split; auto. pose proof (t_size _ _ _ _ _ T). lia. }
      destruct X as [g1 [sl1 [fj [wd1 [-> [T1 [Hf E1]]]]]]].
      pose proof (as_inner_ok (removelast r) g1 sl1 lt done wd1 fj T1 Hf) as Y.
      destruct (as_inner g1 lt fj (removelast r)) as [[g2 lt2] st2] eqn:EI.
      assert (Hr : Forall byte (c :: removelast r) /\ byte (last r 0%N)).
      { rewrite Er in Hb. change (c :: removelast r ++ [last r 0%N]) with ((c :: removelast r) ++ [last r 0%N]) in Hb.
        apply Forall_app in Hb as [H1 H2]. inversion H2; auto. }
      destruct Hr as [Hr1 Hr2]. rewrite E1 in Y. destruct (Y Hr1) as [wd2 [T2 [H2 E2]]].
      exists wd2. eapply trie_enter with (1 := T2); auto.
      + apply connect_adds; [lia|apply T2|apply byte_max; auto].
      + right. exists st2, (last r 0%N). split; auto. split.
        * rewrite E2. rewrite Er at 1. reflexivity.
        * reflexivity.
  Qed.

  Lemma as_fold_ok : forall strs g sl lt done wd,
    trie g sl lt done wd -> (forall s, In s strs -> s <> [] /\ Forall byte s) ->
    let '(g', sl', lt') := fold_left (as_one n) strs (g, sl, lt) in
    exists wd' done', trie g' sl' lt' done' wd' /\ forall x, done' x <-> done x \/ In x strs.
  Proof.
    induction strs as [|s strs IH]; intros g sl lt done wd T H; cbn [fold_left].
    - exists wd, done. split; auto. cbn; tauto.
    - pose proof (as_one_ok s g sl lt done wd T) as X. destruct (H s (or_introl eq_refl)) as [H1 H2].
      specialize (X H1 H2). destruct (as_one n (g, sl, lt) s) as [[g1 sl1] lt1]. destruct X as [wd1 T1].
      specialize (IH g1 sl1 lt1 _ wd1 T1). 
      destruct (fold_left (as_one n) strs (g1, sl1, lt1)) as [[g2 sl2] lt2].
      destruct IH as [wd2 [done2 [T2 E]]]; [intros; apply H; right; auto|].
      exists wd2, done2. split; auto. intros x. rewrite E. cbn. intuition.
  Qed.

  Lemma trie_start : trie (resize_fsm f (n + 1)) [] [] (fun _ => False) (fun _ => []).
  Proof.
    constructor; try reflexivity; auto.
    - rewrite size_resize. lia.
    - apply rows_ok_resize; [unfold n; lia|apply W].
    - intros p c q. unfold n. rewrite raw_resize by lia. cbn. intuition discriminate.
    - cbn; discriminate.
    - cbn; discriminate.
    - rewrite size_resize. lia.
    - rewrite size_resize. lia.
    - rewrite size_resize. lia.
    - intros w [].
  Qed.

  Section Lang.
    Variables (g : fsm) (sl : smap N nat) (lt : smap (nat * N) nat) (done : list N -> Prop) (wd : nat -> list N).
    Hypothesis T : trie g sl lt done wd.
    Hypothesis U : uncompressed f.

    Lemma trie_edge : forall p c q, edge g p c q <-> raw g p c q.
    Proof. intros. apply raw_uncompressed. rewrite (t_let _ _ _ _ _ T). exact U. Qed.
    Lemma base_edge : forall p c q, edge f p c q <-> raw f p c q.
    Proof. intros. apply raw_uncompressed. exact U. Qed.

    Lemma trie_sound : forall w q, path (edge g) (initial f) w q ->
      (q < n /\ path (edge f) (initial f) w q) \/
      (n < q < size g /\ exists u, accepts f u /\ w = u ++ wd q) \/
      (q = n /\ exists u s, accepts f u /\ done s /\ w = u ++ s).
    Proof.
      intros w q H. change w with ([] ++ w).
      apply (path_ind_right (edge g) (fun w q => (q < n /\ path (edge f) (initial f) w q) \/
        (n < q < size g /\ exists u, accepts f u /\ w = u ++ wd q) \/
        (q = n /\ exists u s, accepts f u /\ done s /\ w = u ++ s))) with (p := initial f); auto.
      - clear w q H. intros w p q HP He. rewrite trie_edge in He; apply (t_raw _ _ _ _ _ T) in He as [He|[[H1 H2]|[H|[[-> [H1 H2]]|[-> [H1 H2]]]]]].
        + pose proof (raw_bound _ _ _ _ (wf_rows _ W) He) as [B1 [B2 _]]. destruct HP as [[_ HP]|[[HP _]|[HP _]]]; try (unfold n in *; lia).
          left. split; auto. rewrite <- (app_nil_r w). eapply path_app; [exact HP|]. apply path_eps1; rewrite base_edge; auto.
        + apply (t_sl _ _ _ _ _ T) in H2. exfalso. eapply byte_eps; [|reflexivity]. apply H2.
        + apply (t_lt _ _ _ _ _ T) in H. exfalso. eapply byte_eps; [|reflexivity]. apply H.
        + apply (t_done _ _ _ _ _ T) in H2 as [H2 _]. inversion H2; subst. exfalso. eapply byte_eps; eauto.
        + apply (t_done _ _ _ _ _ T) in H2 as [H2 _]. apply Forall_app in H2 as [_ H2]. inversion H2; subst. exfalso. eapply byte_eps; eauto.
      - clear w q H. intros w p c q HP Hc He. rewrite trie_edge in He; apply (t_raw _ _ _ _ _ T) in He as [He|[[H1 H2]|[H|[[-> [H1 H2]]|[-> [H1 H2]]]]]].
        + pose proof (raw_bound _ _ _ _ (wf_rows _ W) He) as [B1 [B2 _]]. destruct HP as [[_ HP]|[[HP _]|[HP _]]]; try (unfold n in *; lia).
          left. split; auto. eapply path_app; [exact HP|]. apply path_step1; [auto|rewrite base_edge; auto].
        + apply (t_sl _ _ _ _ _ T) in H2 as [H2 [H3 _]]. pose proof (wf_fin _ W _ H1) as B.
          destruct HP as [[_ HP]|[[HP _]|[HP _]]]; try (unfold n in *; lia).
          right; left. split; auto. exists w. rewrite H3. split; auto. exists p; auto.
        + apply (t_lt _ _ _ _ _ T) in H as [H1 [H2 [H3 _]]].
          destruct HP as [[HP _]|[[HP [u [Hu ->]]]|[HP _]]]; try lia.
          right; left. split; [lia|]. exists u. rewrite H3, app_assoc. auto.
        + pose proof (wf_fin _ W _ H1) as B. destruct HP as [[_ HP]|[[HP _]|[HP _]]]; try (unfold n in *; lia).
          right; right. split; auto. exists w, [c]. split; [exists p; auto|auto].
        + destruct HP as [[HP _]|[[HP [u [Hu ->]]]|[HP _]]]; try lia.
          right; right. split; auto. exists u, (wd p ++ [c]). rewrite app_assoc. auto.
      - left. split; [apply W|apply path_nil].
    Qed.

    Lemma base_path : forall w p q, path (edge f) p w q -> path (edge g) p w q.
    Proof.
      intros w p q H. eapply path_mono; [|exact H]. intros a c b He. rewrite trie_edge; apply (t_raw _ _ _ _ _ T).
      left. rewrite <- base_edge; auto.
    Qed.

    Lemma trie_node : forall s, n < s < size g -> forall u, accepts f u -> path (edge g) (initial f) (u ++ wd s) s.
    Proof.
      intros s; induction s as [s IH] using lt_wf_ind. intros Hs u Hu.
      destruct (t_reach _ _ _ _ _ T s Hs) as [[c H]|[p [c H]]].
      - destruct (t_sl _ _ _ _ _ T _ _ H) as [_ [-> Hc]]. destruct Hu as [m [P Q]].
        eapply path_app; [apply base_path; exact P|]. apply path_step1; [apply byte_eps; auto|].
        rewrite trie_edge; apply (t_raw _ _ _ _ _ T). auto.
      - destruct (t_lt _ _ _ _ _ T _ _ _ H) as [H1 [H2 [-> Hc]]]. rewrite app_assoc.
        eapply path_app; [apply IH; auto; lia|]. apply path_step1; [apply byte_eps; auto|].
        rewrite trie_edge; apply (t_raw _ _ _ _ _ T). auto.
    Qed.

    Lemma trie_complete : forall u s, accepts f u -> done s -> path (edge g) (initial f) (u ++ s) n.
    Proof.
      intros u s Hu Hs. destruct (t_done _ _ _ _ _ T _ Hs) as [Hb [[c ->]|[p [c [Hp ->]]]]].
      - destruct Hu as [m [P Q]]. eapply path_app; [apply base_path; exact P|].
        apply path_step1; [inversion Hb; apply byte_eps; auto|]. rewrite trie_edge; apply (t_raw _ _ _ _ _ T). auto 8.
      - rewrite app_assoc. eapply path_app; [apply trie_node; eauto|].
        apply path_step1; [apply Forall_app in Hb as [_ Hb]; inversion Hb; apply byte_eps; auto|].
        rewrite trie_edge; apply (t_raw _ _ _ _ _ T). auto 8.
    Qed.
  End Lang.

  Lemma append_strings_ok : forall strs, uncompressed f ->
    (forall s, In s strs -> s <> [] /\ Forall byte s) ->
    exists g, append_strings f strs = Ok g /\ wf g /\ uncompressed g /\
      lang_eq (accepts g) (L_cat (accepts f) (L_oneof strs)).
  Proof.
    intros strs U H. unfold append_strings.
    destruct (existsb _ strs) eqn:X.
    { apply existsb_exists in X as [s [Hs X]]. destruct s; [|discriminate]. apply H in Hs as [Hs _]. congruence. }
    pose proof trie_start as T0. fold n. rewrite size_resize. replace (n + 1 - 1) with n by lia.
    assert (Y : let '(g', sl', lt') := fold_left (as_one n) strs (resize_fsm f (n + 1), [], []) in
      exists wd' done', trie g' sl' lt' done' wd' /\ forall x, done' x <-> False \/ In x strs)
      by exact (as_fold_ok strs _ _ _ _ _ T0 H).
    destruct (fold_left (as_one n) strs (resize_fsm f (n + 1), [], [])) as [[g sl] lt].
    destruct Y as [wd [done [T E]]].
    set (h := set_final (clear_final g) n true). exists h. split; auto.
    assert (Sh : size h = size g) by reflexivity.
    assert (Rh : forall p c q, raw h p c q <-> raw g p c q) by reflexivity.
    assert (Fh : finals h = [n]) by reflexivity.
    assert (Uh : uncompressed h) by (unfold uncompressed; change (letters h) with (letters g); rewrite (t_let _ _ _ _ _ T); exact U).
    assert (Ih : initial h = initial f) by apply (t_init _ _ _ _ _ T).
    pose proof (wf_init _ W) as WI. pose proof (t_size _ _ _ _ _ T) as Sg.
    split; [constructor|split; [auto|]].
    - rewrite Sh, Ih. unfold n in *; lia.
    - rewrite Fh. intros q [<-|[]]. lia.
    - rewrite Fh. repeat constructor.
    - apply (t_rows _ _ _ _ _ T).
    - apply uncompressed_letters; auto.
    - apply uncompressed_coherent; auto.
    - apply uncompressed_bcoherent; auto.
    - intros Ha. apply (t_alt _ _ _ _ _ T) in Ha. destruct (wf_alt _ W Ha) as [A1 [A2 A3]].
      rewrite Ih. rewrite Fh. split; [|split].
      + intros p c Hr. apply Rh, (t_raw _ _ _ _ _ T) in Hr as [Hr|[[H1 H2]|[H1|[[H1 _]|[H1 _]]]]]; try (unfold n in *; lia).
        * eapply A1; eauto.
        * apply (t_sl _ _ _ _ _ T) in H2. unfold n in *; lia.
        * apply (t_lt _ _ _ _ _ T) in H1. unfold n in *; lia.
      + intros [Hq|[]]. unfold n in *; lia.
      + intros c q Hr. apply Rh, (t_raw _ _ _ _ _ T) in Hr as [Hr|[[H1 H2]|[H1|[[_ [H1 _]]|[_ [H1 _]]]]]]; try (unfold n in *; lia); try contradiction.
        * eapply A3; eauto.
        * apply (t_lt _ _ _ _ _ T) in H1. unfold n in *; lia.
    - intros w. unfold accepts at 1. rewrite Ih, Fh.
      assert (PE : forall q, path (edge h) (initial f) w q <-> path (edge g) (initial f) w q).
      { intros q; split; apply path_mono; intros a c b; rewrite !raw_uncompressed; auto;
          rewrite (t_let _ _ _ _ _ T); exact U. }
      setoid_rewrite PE. split.
      + intros [q [P [<-|[]]]]. apply (trie_sound _ _ _ _ _ T U) in P as [[P _]|[[P _]|[_ [u [s [Hu [Hs ->]]]]]]]; try lia.
        exists u, s. split; auto. split; auto. apply E in Hs as [[]|Hs]. exact Hs.
      + intros [u [s [-> [Hu Hs]]]]. exists n. split; [|left; auto]. apply (trie_complete _ _ _ _ _ T U); auto.
        apply E; auto.
  Qed.

  Lemma append_strings_empty : forall strs, In [] strs -> append_strings f strs = Throw EEmptyString.
  Proof.
    intros strs H. unfold append_strings.
    assert (X : existsb (fun s : list N => match s with [] => true | _ => false end) strs = true)
      by (apply existsb_exists; exists []; auto).
    rewrite X. reflexivity.
  Qed.
End Trie.
