(** DeadStates, RemoveDeadEnds, MakePrefix, MakeSuffix. *)
From Coq Require Import List Bool Arith NArith Lia.
From Verif Require Import Util Spec PartitionModel PartitionProofs FsmModel Nfa NfaOps FsmSem FsmBasics FsmOps FsmOps2.
Import ListNotations.

(** ** The digraph *)
Record gadd (g g' : list (list nat)) (S : nat -> nat -> Prop) : Prop := {
  ga_len : length g' = length g;
  ga_in : forall p q, In q (nth p g' []) <-> In q (nth p g []) \/ S p q
}.
Lemma gadd_refl : forall g, gadd g g (fun _ _ => False).
Proof. constructor; auto. tauto. Qed.
Lemma gadd_trans : forall g g1 g2 S T, gadd g g1 S -> gadd g1 g2 T -> gadd g g2 (fun p q => S p q \/ T p q).
Proof. intros g g1 g2 S T [] []. constructor; [congruence|]. intros p q. rewrite ga_in1, ga_in0. tauto. Qed.
Lemma gadd_ext : forall g g' S T, gadd g g' S -> (forall p q, S p q <-> T p q) -> gadd g g' T.
Proof. intros g g' S T [] E. constructor; auto. intros p q. rewrite ga_in0, E. tauto. Qed.
Lemma gadd_fold : forall X (step : list (list nat) -> X -> list (list nat)) (S : X -> nat -> nat -> Prop) l g,
  (forall g' x T, In x l -> gadd g g' T -> gadd g' (step g' x) (S x)) ->
  gadd g (fold_left step l g) (fun p q => exists x, In x l /\ S x p q).
Proof.
  intros X step S l g H.
  assert (G : forall l' g' T, (forall x, In x l' -> In x l) -> gadd g g' T ->
     gadd g (fold_left step l' g') (fun p q => T p q \/ exists x, In x l' /\ S x p q)).
  { induction l' as [|x l' IH]; intros g' T Hl A; cbn [fold_left].
    - eapply gadd_ext; [exact A|]. intros; split; auto. intros [|[x [[] _]]]; auto.
    - eapply gadd_ext.
      + apply IH with (T := fun p q => T p q \/ S x p q).
        * intros y Hy; apply Hl; right; auto.
        * eapply gadd_trans; [exact A|]. eapply H; [apply Hl; left; auto|exact A].
      + intros p q; cbn. split.
        * intros [[|]|[y [Hy HS]]]; eauto 6.
        * intros [|[y [[<-|Hy] HS]]]; eauto 6. }
  eapply gadd_ext; [apply (G l g (fun _ _ => False)); auto using gadd_refl|]. cbn; tauto.
Qed.
Lemma gadd_upd : forall g a b, a < length g -> gadd g (upd a (sadd b) g) (fun p q => p = a /\ q = b).
Proof.
  intros g a b Ha. constructor; [apply upd_length|]. intros p q. rewrite nth_upd.
  apply Nat.ltb_lt in Ha. rewrite Ha, andb_true_r. destruct (Nat.eqb_spec p a) as [->|].
  - rewrite sadd_in. tauto.
  - tauto.
Qed.

Lemma nth_repeat_nil : forall n p, nth p (repeat (@nil nat) n) [] = [].
Proof. induction n as [|n IH]; intros [|p]; cbn; auto. Qed.

Lemma digraph_in : forall f inv, rows_ok f -> length (digraph f inv) = size f /\
  forall p q, In q (nth p (digraph f inv) []) <-> exists c, if inv then raw f q c p else raw f p c q.
Proof.
  intros f inv W. unfold digraph.
  assert (A : gadd (repeat [] (size f)) (digraph f inv) (fun p q => exists from, In from (seq 0 (size f)) /\
     exists ct : N * list nat, In ct (row_at f from) /\ exists to, In to (snd ct) /\ if inv then p = to /\ q = from else p = from /\ q = to)).
  { unfold digraph. apply gadd_fold. intros g1 from T1 H1 A1.
    apply gadd_fold. intros g2 [c tos] T2 H2 A2. apply gadd_fold. intros g3 to T3 H3 A3.
    assert (Hb : from < length g3 /\ to < length g3).
    { rewrite (ga_len _ _ _ A3), (ga_len _ _ _ A2), (ga_len _ _ _ A1), repeat_length. apply in_seq in H1. split; [lia|].
      destruct (W from) as [Sr Br]. apply (msorted_find Sr) in H2. apply Br in H2. apply H2; auto. }
    destruct inv; apply gadd_upd; tauto. }
  destruct A as [A1 A2]. unfold digraph in *. split; [rewrite A1; apply repeat_length|].
  intros p q. rewrite A2, nth_repeat_nil. split.
  - intros [[]|[from [Hf [[c tos] [Hc [to [Ht H]]]]]]]. exists c. cbn [snd] in Ht. destruct inv; destruct H as [-> ->]; apply row_at_in; eauto.
  - intros [c H]. right. destruct inv; pose proof (raw_bound _ _ _ _ W H) as [B1 [B2 _]];
      apply row_at_in in H as [tos [H1 H2]]; auto.
    + exists q. split; [apply in_seq; lia|]. exists (c, tos). eauto 6.
    + exists p. split; [apply in_seq; lia|]. exists (c, tos). eauto 6.
Qed.

(** ** Breadth-first search *)
Fixpoint count_true (l : list bool) : nat := match l with [] => 0 | true :: l => S (count_true l) | false :: l => count_true l end.
Lemma count_upd : forall l i, nth i l false = true -> S (count_true (upd i (fun _ => false) l)) = count_true l.
Proof. induction l as [|b l IH]; intros [|i] H; cbn in *; try discriminate; [subst; auto|]. destruct b; rewrite <- (IH i H); auto. Qed.
Lemma count_le : forall l, count_true l <= length l.
Proof. induction l as [|[] l IH]; cbn; lia. Qed.

Lemma nth_upd_false : forall l i j, nth i (upd j (fun _ => false) l) false = true <-> nth i l false = true /\ i <> j.
Proof.
  intros l i j. rewrite nth_upd. destruct (Nat.eqb_spec i j) as [->|Hne]; cbn [andb].
  - destruct (Nat.ltb_spec j (length l)); [intuition discriminate|]. rewrite nth_overflow by auto. intuition discriminate.
  - tauto.
Qed.

Section Bfs.
  Variable g : list (list nat).
  Let n := length g.
  Hypothesis Hg : forall p q, In q (nth p g []) -> q < n.
  Variable start : nat -> Prop.
  Inductive greach : nat -> Prop :=
  | gr_start : forall p, start p -> greach p
  | gr_step : forall p q, greach p -> In q (nth p g []) -> greach q.

  Record binv (unchecked useless : list bool) (queue : list nat) : Prop := {
    b_len : length useless = n;
    b_q : forall i, In i queue -> i < n /\ nth i useless false = false;
    b_unch : forall i, nth i unchecked false = false -> nth i useless false = false;
    b_sound : forall i, i < n -> nth i useless false = false -> greach i;
    b_closed : forall i j, i < n -> nth i useless false = false -> ~ In i queue -> In j (nth i g []) -> nth j useless false = false;
    b_start : forall i, start i -> nth i useless false = false
  }.

  Definition bstep unchecked := fun '(us, qu) fr =>
    if nth fr unchecked false && nth fr us false then (upd fr (fun _ => false) us, qu ++ [fr]) else (us, qu).

  Lemma bfold : forall l unchecked us qu us' qu',
    fold_left (bstep unchecked) l (us, qu) = (us', qu') ->
    length us = n -> (forall i, In i l -> i < n) ->
    (forall i, nth i unchecked false = false -> nth i us false = false) ->
    length us' = n /\
    (forall i, nth i us' false = true <-> nth i us false = true /\ ~ In i l) /\
    (forall i, In i qu' <-> In i qu \/ (In i l /\ nth i us false = true)) /\
    count_true us' + length qu' = count_true us + length qu.
  Proof.
    induction l as [|x l IH]; intros unchecked us qu us' qu' E Hl Hb Hu; cbn [fold_left] in E.
    - injection E as <- <-. cbn. intuition.
    - cbn [bstep] in E. destruct (nth x unchecked false && nth x us false) eqn:X.
      + apply andb_true_iff in X as [X1 X2]. apply IH in E.
        * destruct E as [A [B [C D]]]. split; [auto|split; [|split]].
          -- intros i. rewrite B, nth_upd_false. cbn. intuition.
          -- intros i. rewrite C, in_app_iff, nth_upd_false. cbn. destruct (Nat.eq_dec i x) as [->|]; intuition.
          -- rewrite D, app_length, <- (count_upd us x X2). cbn. lia.
        * rewrite upd_length; auto.
        * intros; apply Hb; right; auto.
        * intros i Hi. apply Hu in Hi. destruct (nth i (upd x (fun _ => false) us) false) eqn:Y; auto.
          apply nth_upd_false in Y as [Y _]. congruence.
      + assert (X2 : nth x us false = false) by (apply andb_false_iff in X as [X|X]; auto).
        apply IH in E; auto; [|intros; apply Hb; right; auto].
        destruct E as [A [B [C D]]]. split; [auto|split; [|split; [|auto]]].
        * intros i. rewrite B. cbn. split; [|tauto]. intros [H1 H2]. split; auto. intros [->|H]; [congruence|auto].
        * intros i. rewrite C. cbn. split; [tauto|]. intros [H|[[->|H] H1]]; auto; congruence.
  Qed.

  Lemma bfs_ok : forall fuel unchecked useless queue, binv unchecked useless queue ->
    count_true useless + length queue < fuel ->
    exists us, bfs fuel g unchecked useless queue = Ok us /\ length us = n /\
      forall i, i < n -> (nth i us false = false <-> greach i).
  Proof.
    induction fuel as [|fuel IH]; intros unchecked useless queue I Hf; [lia|]. cbn [bfs].
    destruct queue as [|to queue].
    - exists useless. split; auto. split; [apply I|]. intros i Hi. split; [apply (b_sound _ _ _ I); auto|].
      intros H. clear Hi. induction H as [p Hp|p q Hp IHp Hq]; [apply (b_start _ _ _ I); auto|].
      destruct (lt_dec p n).
      + eapply (b_closed _ _ _ I p); eauto.
      + rewrite nth_overflow in Hq by (unfold n in *; lia). destruct Hq.
    - change (fun '(us, qu) fr => if nth fr unchecked false && nth fr us false then (upd fr (fun _ => false) us, qu ++ [fr]) else (us, qu))
        with (bstep unchecked).
      destruct (fold_left (bstep unchecked) (nth to g []) (useless, queue)) as [us2 qu2] eqn:E.
      apply bfold in E; [|apply I|apply Hg|apply (b_unch _ _ _ I)].
      destruct E as [A [B [C D]]]. destruct (b_q _ _ _ I to (or_introl eq_refl)) as [Ht1 Ht2].
      assert (M : forall i, nth i useless false = false -> nth i us2 false = false).
      { intros i H. destruct (nth i us2 false) eqn:X; auto. apply B in X. destruct X; congruence. }
      assert (M2 : forall i, nth i us2 false = false -> nth i useless false = true -> In i (nth to g [])).
      { intros i H1 H2. destruct (in_dec Nat.eq_dec i (nth to g [])); auto. exfalso.
        assert (nth i us2 false = true) by (apply B; auto). congruence. }
      apply IH; [|cbn in Hf; lia].
      constructor; auto.
      + intros i Hi. apply C in Hi as [Hi|[H1 H2]].
        * destruct (b_q _ _ _ I i (or_intror Hi)). auto.
        * split; [apply (Hg to); auto|]. destruct (nth i us2 false) eqn:X; auto. apply B in X. destruct X; contradiction.
      + intros i H. destruct (Nat.eq_dec i to) as [->|Hne]; [auto|].
        apply M, (b_unch _ _ _ I). destruct (nth i unchecked false) eqn:X; auto.
        assert (nth i (upd to (fun _ => false) unchecked) false = true) by (apply nth_upd_false; auto). congruence.
      + intros i Hi H. destruct (nth i useless false) eqn:X; [|apply (b_sound _ _ _ I); auto].
        eapply gr_step; [apply (b_sound _ _ _ I to); auto|]. apply M2; auto.
      + intros i j Hi H Hq Hj. destruct (nth i useless false) eqn:X.
        * exfalso. apply Hq, C. right. split; auto.
        * destruct (Nat.eq_dec i to) as [->|Hne].
          -- destruct (nth j us2 false) eqn:Y; auto. apply B in Y as [_ Y]. contradiction.
          -- apply M. eapply (b_closed _ _ _ I i); auto. cbn. intros [->|Hin]; [congruence|]. apply Hq, C; auto.
      + intros i Hi. apply M, (b_start _ _ _ I); auto.
  Qed.
End Bfs.

Lemma nth_repeat_true : forall n i, nth i (repeat true n) false = (i <? n).
Proof. induction n as [|n IH]; intros [|i]; cbn [repeat nth]; auto. rewrite IH. reflexivity. Qed.
Lemma count_repeat : forall n, count_true (repeat true n) = n.
Proof. induction n; cbn; auto. Qed.

Lemma mark_fold : forall l us, NoDup l -> (forall i, In i l -> nth i us false = true) ->
  let us' := fold_left (fun us i => upd i (fun _ => false) us) l us in
  length us' = length us /\ (forall i, nth i us' false = true <-> nth i us false = true /\ ~ In i l) /\
  count_true us' + length l = count_true us.
Proof.
  induction l as [|x l IH]; intros us ND H; cbn [fold_left].
  - cbn. intuition.
  - inversion ND as [|? ? N1 N2]; subst. destruct (IH (upd x (fun _ => false) us)) as [A [B C]]; auto.
    + intros i Hi. apply nth_upd_false. split; [apply H; right; auto|]. intros ->; auto.
    + rewrite upd_length in A. split; auto. split.
      * intros i. rewrite B, nth_upd_false. cbn. intuition.
      * rewrite <- (count_upd us x) by (apply H; left; auto). cbn. lia.
Qed.

(** ** Reachability of states *)
Definition conn (f : fsm) (p q : nat) : Prop := exists c, raw f p c q.
Definition reachable (f : fsm) (q : nat) : Prop := exists w, path (edge f) (initial f) w q.
Definition live (f : fsm) (q : nat) : Prop := exists w r, path (edge f) q w r /\ In r (finals f).

Lemma conn_edge : forall f p q, wf f -> (conn f p q <-> exists c, edge f p c q).
Proof.
  intros f p q W. split; intros [c H].
  - exists c. apply coherent_raw; auto. apply W.
  - exists (erep f c). apply edge_raw; auto.
Qed.

Lemma greach_reachable : forall f q, wf f ->
  (greach (digraph f false) (fun i => i = initial f) q <-> reachable f q).
Proof.
  intros f q W. destruct (digraph_in f false (wf_rows _ W)) as [_ D]. split.
  - intros H; induction H as [p Hp|p q Hp IH Hq].
    + subst p. exists []. apply path_nil.
    + destruct IH as [w IH]. apply D in Hq. apply (conn_edge f p q W) in Hq as [c Hq].
      destruct (N.eq_dec c Epsilon) as [->|Hc].
      * exists (w ++ []). eapply path_app; [exact IH|]. apply path_eps1; auto.
      * exists (w ++ [c]). eapply path_app; [exact IH|]. apply path_step1; auto.
  - intros [w H].
    assert (G : forall p w q, path (edge f) p w q -> greach (digraph f false) (fun i => i = initial f) p -> greach (digraph f false) (fun i => i = initial f) q).
    { clear w q H. intros p w q H; induction H as [p|p q w r He H IH|p c q w r Hc He H IH]; intros HP; auto; apply IH; eapply gr_step; eauto;
        apply D; apply (conn_edge f p q W); eauto. }
    eapply G; eauto. apply gr_start; auto.
Qed.

Lemma greach_live : forall f q, wf f ->
  (greach (digraph f true) (fun i => In i (finals f)) q <-> live f q).
Proof.
  intros f q W. destruct (digraph_in f true (wf_rows _ W)) as [_ D]. split.
  - intros H; induction H as [p Hp|p q Hp IH Hq].
    + exists [], p. split; auto. apply path_nil.
    + destruct IH as [w [r [IH Hr]]]. apply D in Hq. apply (conn_edge f q p W) in Hq as [c Hq].
      destruct (N.eq_dec c Epsilon) as [->|Hc].
      * exists w, r. split; auto. eapply path_eps; eauto.
      * exists (c :: w), r. split; auto. eapply path_step; eauto.
  - intros [w [r [H Hr]]]. induction H as [p|p q w r He H IH|p c q w r Hc He H IH].
    + apply gr_start; auto.
    + eapply gr_step; [apply IH; auto|]. apply D. apply (conn_edge f p q W); eauto.
    + eapply gr_step; [apply IH; auto|]. apply D. apply (conn_edge f p q W); eauto.
Qed.

Lemma NoDup_filter : forall A (h : A -> bool) l, NoDup l -> NoDup (filter h l).
Proof.
  induction l as [|x l IH]; intros H; cbn; auto. inversion H; subst. destruct (h x); auto.
  constructor; auto. intros Hin. apply filter_In in Hin as [Hin _]. auto.
Qed.

Lemma useless_ok : forall f inv, wf f -> exists us, useless_states f inv = Ok us /\ length us = size f /\
  forall i, i < size f -> (nth i us false = false <-> if inv then live f i else reachable f i).
Proof.
  intros f inv W. destruct (digraph_in f inv (wf_rows _ W)) as [D1 D2]. unfold useless_states.
  set (start := filter _ _). set (us0 := fold_left _ start _).
  set (st := if inv then fun i => In i (finals f) else fun i => i = initial f).
  assert (Hst : forall i, In i start <-> i < size f /\ st i).
  { intros i. unfold start. rewrite filter_In, in_seq. unfold st, is_final. destruct inv.
    - rewrite smem_in. intuition lia.
    - rewrite Nat.eqb_eq. intuition lia. }
  assert (Hst2 : forall i, st i -> i < size f).
  { intros i. unfold st. destruct inv; [apply W|]. intros ->. apply W. }
  destruct (mark_fold start (repeat true (size f))) as [M1 [M2 M3]].
  { apply NoDup_filter, seq_NoDup. }
  { intros i Hi. rewrite nth_repeat_true. apply Nat.ltb_lt. apply Hst in Hi; tauto. }
  fold us0 in M1, M2, M3. rewrite repeat_length in M1. rewrite count_repeat in M3.
  assert (M2' : forall i, i < size f -> (nth i us0 false = false <-> In i start)).
  { intros i Hi. specialize (M2 i). rewrite nth_repeat_true in M2. apply Nat.ltb_lt in Hi. rewrite Hi in M2.
    destruct (nth i us0 false); destruct (in_dec Nat.eq_dec i start); intuition congruence. }
  destruct (bfs_ok (digraph f inv)) with (start := st) (fuel := size f + 1) (unchecked := repeat true (size f)) (useless := us0) (queue := start)
    as [us [E [L R]]].
  - intros p q H. apply D2 in H as [c H]. rewrite D1. destruct inv; apply (raw_bound _ _ _ _ (wf_rows _ W)) in H; tauto.
  - constructor.
    + lia.
    + intros i Hi. rewrite D1. pose proof Hi as Hi'. apply Hst in Hi as [Hi _]. split; auto. apply M2'; auto.
    + intros i H. rewrite nth_repeat_true in H. apply Nat.ltb_ge in H. apply nth_overflow. lia.
    + rewrite D1. intros i Hi H. apply gr_start. apply M2' in H; auto. apply Hst in H; tauto.
    + rewrite D1. intros i j Hi H Hq. apply M2' in H; auto. contradiction.
    + intros i Hi. apply M2'; auto. apply Hst; auto.
  - lia.
  - exists us. split; auto. rewrite D1 in L, R. split; auto. intros i Hi. specialize (R i Hi).
    assert (X : greach (digraph f inv) st i <-> if inv then live f i else reachable f i).
    { unfold st. destruct inv; [apply greach_live; auto|apply greach_reachable; auto]. }
    rewrite <- X, <- R. tauto.
Qed.

Lemma live_dec : forall f q, wf f -> q < size f -> live f q \/ ~ live f q.
Proof.
  intros f q W H. destruct (useless_ok f true W) as [us [_ [_ R]]]. rewrite <- (R q H).
  destruct (nth q us false); [right; discriminate|auto].
Qed.
Lemma reachable_dec : forall f q, wf f -> q < size f -> reachable f q \/ ~ reachable f q.
Proof.
  intros f q W H. destruct (useless_ok f false W) as [us [_ [_ R]]]. rewrite <- (R q H).
  destruct (nth q us false); [right; discriminate|auto].
Qed.

Lemma ins_fold : forall (u : list bool) l s x,
  In x (fold_left (fun s i => if nth i u false then sadd i s else s) l s) <-> In x s \/ (In x l /\ nth x u false = true).
Proof.
  induction l as [|a l IH]; intros s x; cbn [fold_left].
  - cbn; tauto.
  - rewrite IH. destruct (nth a u false) eqn:X.
    + rewrite sadd_in. cbn. split; [intros [[->|]|]|intros [|[[->|] ?]]]; tauto.
    + cbn. split; [tauto|]. intros [|[[->|] ?]]; try tauto. congruence.
Qed.

Definition dead (f : fsm) (q : nat) : Prop := q < size f /\ (~ reachable f q \/ ~ live f q).

Lemma dead_states_ok : forall f, wf f -> exists d, dead_states f = Ok d /\ forall q, In q d <-> dead f q.
Proof.
  intros f W. unfold dead_states. destruct (useless_ok f false W) as [u0 [E0 [L0 R0]]], (useless_ok f true W) as [u1 [E1 [L1 R1]]].
  rewrite E0, E1. cbn [bind]. eexists. split; [reflexivity|]. intros q. rewrite !ins_fold, in_seq. unfold dead.
  cbn. split.
  - intros [[[]|[H1 H2]]|[H1 H2]]; (split; [lia|]); [left; rewrite <- R0|right; rewrite <- R1]; try lia; congruence.
  - intros [H [H1|H1]]; [left; right|right]; (split; [lia|]).
    + rewrite <- R0 in H1 by auto. destruct (nth q u0 false); congruence.
    + rewrite <- R1 in H1 by auto. destruct (nth q u1 false); congruence.
Qed.

(** ** RemoveDeadEnds *)
Lemma nth_map_row : forall (h : row -> row) l p, h [] = [] -> nth p (map h l) [] = h (nth p l []).
Proof. intros h l p H. rewrite <- H at 1. apply map_nth. Qed.

Record removed (f g : fsm) (D : nat -> Prop) : Prop := {
  rm_size : size g = size f;
  rm_init : initial g = initial f;
  rm_fin : finals g = finals f;
  rm_let : letters g = letters f;
  rm_det : determined g = determined f;
  rm_raw : forall p c q, raw g p c q <-> raw f p c q /\ ~ D p /\ ~ D q;
  rm_pres : forall p c, pres g p c <-> pres f p c /\ ~ D p;
  rm_rows : rows_ok g
}.

Lemma removed_fold : forall d f, rows_ok f ->
  removed f (fold_left (fun g i => set_trans g (map (mmap (sremove i)) (upd i (fun _ => []) (trans g)))) d f) (fun q => In q d).
Proof.
  intros d f W.
  assert (G : forall d g D, removed f g D ->
    removed f (fold_left (fun g i => set_trans g (map (mmap (sremove i)) (upd i (fun _ => []) (trans g)))) d g) (fun q => D q \/ In q d)).
  { clear d. induction d as [|x d' IH]; intros g D R; cbn [fold_left].
    - destruct R; constructor; auto.
      + intros p c q. rewrite rm_raw0. cbn. tauto.
      + intros p c. rewrite rm_pres0. cbn. tauto.
    - set (g' := set_trans g _).
      assert (Rw : forall p, row_at g' p = if Nat.eqb p x then [] else mmap (sremove x) (row_at g p)).
      { intros p. unfold row_at, g'; cbn [trans set_trans]. rewrite nth_map_row by reflexivity. rewrite nth_upd.
        destruct (Nat.eqb_spec p x) as [->|]; cbn [andb]; auto.
        match goal with |- context [?a <? ?b] => destruct (Nat.ltb_spec a b) end; auto. rewrite nth_overflow by auto. reflexivity. }
      assert (Sz : size g' = size g) by (unfold size, g'; cbn; rewrite map_length, upd_length; reflexivity).
      assert (R' : removed f g' (fun q => D q \/ q = x)).
      { destruct R. constructor; auto; try (unfold g'; cbn; assumption).
        - lia.
        - intros p c q. assert (X : raw g' p c q <-> raw g p c q /\ p <> x /\ q <> x).
          { unfold raw, row_get. rewrite Rw. destruct (Nat.eqb_spec p x) as [->|Hne]; [cbn; tauto|].
            rewrite mfind_mmap. destruct (mfind c (row_at g p)); cbn; [|tauto]. rewrite sremove_in. tauto. }
          rewrite X, rm_raw0. tauto.
        - intros p c. assert (X : pres g' p c <-> pres g p c /\ p <> x).
          { unfold pres. rewrite Rw. destruct (Nat.eqb_spec p x) as [->|Hne]; [cbn; tauto|].
            rewrite mfind_mmap. destruct (mfind c (row_at g p)); cbn; intuition congruence. }
          rewrite X, rm_pres0. tauto.
        - intros p. rewrite Rw, Sz. destruct (Nat.eqb_spec p x); [apply row_ok_nil|]. destruct (rm_rows0 p) as [S B].
          split; [apply mmap_sorted; auto|]. intros c s. rewrite mfind_mmap. destruct (mfind c (row_at g p)) eqn:F; [|discriminate].
          intros [= <-]. destruct (B _ _ F) as [X [Y Z]]. split; auto. split; [apply sremove_sorted; auto|].
          intros q Hq. apply sremove_in in Hq; apply Z; tauto. }
      specialize (IH _ _ R'). destruct IH; constructor; auto.
      + intros p c q. rewrite rm_raw0. cbn. intuition.
      + intros p c. rewrite rm_pres0. cbn. intuition. }
  specialize (G d f (fun _ => False)). cbn beta in G. destruct G; [|constructor; auto].
  - constructor; auto; tauto.
  - intros p c q. rewrite rm_raw0. tauto.
  - intros p c. rewrite rm_pres0. tauto.
Qed.

Lemma removed_edge : forall f g D, removed f g D -> forall p c q, edge g p c q <-> edge f p c q /\ ~ D p /\ ~ D q.
Proof. intros f g D R p c q. rewrite !edge_raw, (erep_let g f) by apply R. apply R. Qed.

Lemma removed_wf : forall f g D, wf f -> removed f g D -> isAlt g = false -> wf g.
Proof.
  intros f g D W R HA. constructor.
  - rewrite (rm_init _ _ _ R), (rm_size _ _ _ R). apply W.
  - rewrite (rm_fin _ _ _ R), (rm_size _ _ _ R). apply W.
  - rewrite (rm_fin _ _ _ R). apply W.
  - apply R.
  - rewrite (rm_let _ _ _ R). apply W.
  - intros p c r Hr Hp q. rewrite (rm_let _ _ _ R) in Hr. apply (rm_pres _ _ _ R) in Hp as [Hp _].
    rewrite !(rm_raw _ _ _ R), (wf_coh _ W p c r Hr Hp q). tauto.
  - intros q c r Hr [p0 Hp] p. rewrite (rm_let _ _ _ R) in Hr. apply (rm_raw _ _ _ R) in Hp as [Hp _].
    rewrite !(rm_raw _ _ _ R), (wf_bcoh _ W q c r Hr (ex_intro _ p0 Hp) p). tauto.
  - intros X; congruence.
Qed.

Lemma path_avoid : forall f g, removed f g (dead f) -> wf f -> forall p w q, path (edge f) p w q ->
  reachable f p -> live f q -> path (edge g) p w q.
Proof.
  intros f g R W p w q H; induction H as [p|p q w r He H IH|p c q w r Hc He H IH]; intros Hp Hq.
  - apply path_nil.
  - assert (Rq : reachable f q) by (destruct Hp as [u Hp]; exists (u ++ []); eapply path_app; [exact Hp|apply path_eps1; auto]).
    assert (Lq : live f q) by (destruct Hq as [v [x [Hv Hx]]]; exists (w ++ v), x; split; auto; eapply path_app; eauto).
    apply path_eps with q; [|apply IH; auto]. apply (removed_edge _ _ _ R). split; auto.
    assert (Lp : live f p) by (destruct Lq as [v [x [Hv Hx]]]; exists v, x; split; auto; eapply path_eps; eauto).
    split; intros [_ [X|X]]; auto.
  - assert (Rq : reachable f q) by (destruct Hp as [u Hp]; exists (u ++ [c]); eapply path_app; [exact Hp|apply path_step1; auto]).
    assert (Lq : live f q) by (destruct Hq as [v [x [Hv Hx]]]; exists (w ++ v), x; split; auto; eapply path_app; eauto).
    apply path_step with q; [auto| |apply IH; auto]. apply (removed_edge _ _ _ R). split; auto.
    assert (Lp : live f p) by (destruct Lq as [v [x [Hv Hx]]]; exists (c :: v), x; split; auto; eapply path_step; eauto).
    split; intros [_ [X|X]]; auto.
Qed.

Lemma removed_path : forall f g D, removed f g D -> forall p w q, path (edge g) p w q -> path (edge f) p w q.
Proof. intros f g D R p w q. apply path_mono. intros a c b H. apply (removed_edge _ _ _ R) in H; tauto. Qed.

Lemma reachable_init : forall f, reachable f (initial f).
Proof. intros f. exists []. apply path_nil. Qed.

Lemma remove_dead_ends_spec : forall f, wf f -> exists g, remove_dead_ends f = Ok g /\ removed f g (dead f) /\ isAlt g = false.
Proof.
  intros f W. unfold remove_dead_ends. destruct (dead_states_ok f W) as [d [E H]]. rewrite E. cbn [bind].
  eexists. split; [reflexivity|]. split; [|reflexivity].
  pose proof (removed_fold d f (wf_rows _ W)) as R. destruct R. constructor; auto.
  - intros p c q. rewrite <- !H. apply rm_raw0.
  - intros p c. rewrite <- !H. apply rm_pres0.
Qed.

Lemma remove_dead_ends_ok : forall f, wf f -> exists g, remove_dead_ends f = Ok g /\ wf g /\
  (uncompressed f -> uncompressed g) /\ lang_eq (accepts g) (accepts f).
Proof.
  intros f W. destruct (remove_dead_ends_spec f W) as [g [E [R HA]]]. exists g. split; auto.
  split; [eapply removed_wf; eauto|]. split; [unfold uncompressed; rewrite (rm_let _ _ _ R); auto|].
  intros w. unfold accepts. rewrite (rm_init _ _ _ R), (rm_fin _ _ _ R). split; intros [q [P Q]]; exists q; split; auto.
  - eapply removed_path; eauto.
  - eapply path_avoid; eauto using reachable_init. exists [], q. split; auto. apply path_nil.
Qed.

(** afterwards every transition lies on an accepting path *)
Lemma remove_dead_ends_trim : forall f g, wf f -> remove_dead_ends f = Ok g ->
  forall p c q, edge g p c q -> reachable g p /\ live g q.
Proof.
  intros f g W E p c q H. destruct (remove_dead_ends_spec f W) as [g' [E' [R HA]]]. rewrite E in E'. injection E' as <-.
  apply (removed_edge _ _ _ R) in H as [H [Hp Hq]]. pose proof (edge_bound _ _ _ _ W H) as [Bp Bq].
  assert (Lq : ~ ~ live f q) by (intros X; apply Hq; split; auto).
  assert (Rp : ~ ~ reachable f p) by (intros X; apply Hp; split; auto).
  assert (Rp' : reachable f p) by (destruct (reachable_dec f p W Bp); tauto).
  assert (Lq' : live f q) by (destruct (live_dec f q W Bq); tauto).
  split.
  - destruct Rp' as [u Hu]. exists u. rewrite (rm_init _ _ _ R). eapply path_avoid; eauto using reachable_init.
    destruct Lq' as [v [x [Hv Hx]]]. destruct (N.eq_dec c Epsilon) as [->|Hc].
    + exists v, x. split; auto. eapply path_eps; eauto.
    + exists (c :: v), x. split; auto. eapply path_step; eauto.
  - destruct Lq' as [v [x [Hv Hx]]]. exists v, x. rewrite (rm_fin _ _ _ R). split; auto. eapply path_avoid; eauto.
    + destruct Rp' as [u Hu]. destruct (N.eq_dec c Epsilon) as [->|Hc].
      * exists (u ++ []). eapply path_app; [exact Hu|]. apply path_eps1; auto.
      * exists (u ++ [c]). eapply path_app; [exact Hu|]. apply path_step1; auto.
    + exists [], x. split; auto. apply path_nil.
Qed.

(** ** MakePrefix *)
Lemma prefix_fold : forall l g,
  let g' := fold_left (fun g i => match row_at g i with [] => g | _ => set_finals g (sadd i (finals g)) end) l g in
  trans g' = trans g /\ initial g' = initial g /\ letters g' = letters g /\ determined g' = determined g /\
  (ssorted (finals g) -> ssorted (finals g')) /\
  forall q, In q (finals g') <-> In q (finals g) \/ (In q l /\ row_at g q <> []).
Proof.
  induction l as [|i l IH]; intros g; cbn [fold_left].
  - splits; auto. cbn; tauto.
  - destruct (row_at g i) as [|e r] eqn:E.
    + destruct (IH g) as [A [B [C [D [F G]]]]]. splits; auto. intros q. rewrite G. cbn. split; [tauto|].
      intros [|[[->|] ?]]; tauto.
    + destruct (IH (set_finals g (sadd i (finals g)))) as [A [B [C [D [F G]]]]]. splits; auto.
      * intros S. apply F. cbn. apply sadd_sorted; auto.
      * intros q. rewrite G. change (row_at (set_finals g (sadd i (finals g))) q) with (row_at g q).
        change (finals (set_finals g (sadd i (finals g)))) with (sadd i (finals g)). rewrite sadd_in. cbn. split.
        -- intros [[->|]|[? ?]]; try tauto. right; split; auto. congruence.
        -- intros [|[[->|] ?]]; tauto.
Qed.

Lemma path_first : forall f w p q, path (edge f) p w q -> p = q \/ exists c m, edge f p c m.
Proof. intros f w p q H; destruct H; eauto. Qed.

Lemma make_prefix_ok : forall f, wf f -> exists g, make_prefix f = Ok g /\ wf g /\
  (uncompressed f -> uncompressed g) /\ lang_eq (accepts g) (L_prefixes (accepts f)).
Proof.
  intros f W. unfold make_prefix. destruct (remove_dead_ends_spec f W) as [g [E [R HA]]]. rewrite E. cbn [bind].
  destruct (prefix_fold (seq 0 (size g)) g) as [A [B [C [D [F G]]]]].
  set (h0 := fold_left _ _ g) in *. clearbody h0. set (h := clear_hints h0). exists h. split; auto.
  pose proof (removed_wf _ _ _ W R HA) as WG.
  assert (Sh : size h = size g) by (unfold size; cbn; rewrite A; auto).
  assert (Rh : forall p, row_at h p = row_at g p) by (intros; unfold row_at; cbn; rewrite A; auto).
  assert (Lh : letters h = letters g) by exact C.
  assert (Rw : forall p c q, raw h p c q <-> raw g p c q) by (intros; unfold raw; rewrite Rh; tauto).
  assert (Pw : forall p c, pres h p c <-> pres g p c) by (intros; unfold pres; rewrite Rh; tauto).
  assert (Fh : forall q, In q (finals h) <-> In q (finals f) \/ row_at g q <> []).
  { intros q. change (finals h) with (finals h0). rewrite G, (rm_fin _ _ _ R), in_seq. split; [tauto|].
    intros [|H]; auto. right; split; auto. destruct (lt_dec q (size g)); [lia|]. exfalso; apply H, row_at_out; lia. }
  split; [constructor|split].
  - rewrite Sh. change (initial h) with (initial h0). rewrite B. apply WG.
  - rewrite Sh. intros q Hq. apply Fh in Hq as [Hq|Hq].
    + rewrite (rm_size _ _ _ R). apply W; auto.
    + destruct (lt_dec q (size g)); auto. exfalso; apply Hq, row_at_out; lia.
  - apply F. apply WG.
  - intros p. rewrite Rh, Sh. apply WG.
  - rewrite Lh. apply WG.
  - intros p c r Hr Hp q. rewrite Lh in Hr. apply Pw in Hp. rewrite !Rw. apply (wf_coh _ WG p c r Hr Hp).
  - intros q c r Hr [p0 Hp] p. rewrite Lh in Hr. apply Rw in Hp. rewrite !Rw. apply (wf_bcoh _ WG q c r Hr (ex_intro _ p0 Hp)).
  - intros X. discriminate X.
  - unfold uncompressed. rewrite Lh, (rm_let _ _ _ R). auto.
  - assert (EE : forall p c q, edge h p c q <-> edge g p c q) by (intros; rewrite !edge_raw, (erep_let h g) by apply Lh; apply Rw).
    assert (Ih : initial h = initial f) by (change (initial h) with (initial h0); rewrite B; apply R).
    intros w. unfold accepts at 1. rewrite Ih. split.
    + intros [q [P Q]]. assert (P' : path (edge f) (initial f) w q).
      { eapply path_mono; [|exact P]. intros a c b X. apply EE, (removed_edge _ _ _ R) in X. tauto. }
      assert (L : live f q).
      { apply Fh in Q as [Q|Q]; [exists [], q; split; auto; apply path_nil|].
        assert (Bq : q < size f) by (rewrite <- (rm_size _ _ _ R); destruct (lt_dec q (size g)); auto; exfalso; apply Q, row_at_out; lia).
        destruct (row_at g q) as [|[c s] r] eqn:Er; [congruence|].
        assert (Pq : pres g q c) by (unfold pres; rewrite Er; cbn [mfind]; rewrite keqb_refl; discriminate).
        apply (rm_pres _ _ _ R) in Pq as [_ Pq].
        destruct (live_dec f q W Bq); auto. exfalso. apply Pq; split; auto. }
      destruct L as [v [x [Hv Hx]]]. exists v, x. split; auto. eapply path_app; eauto.
    + intros [v [x [P Q]]]. apply path_split in P as [q [P1 P2]]. exists q.
      assert (L : live f q) by (exists v, x; auto). split.
      * eapply path_mono with (E := edge g); [intros; apply EE; auto|]. eapply path_avoid; eauto using reachable_init.
      * apply Fh. assert (P2' : path (edge g) q v x).
        { eapply path_avoid; eauto; [exists w; auto|]. exists [], x. split; auto. apply path_nil. }
        apply path_first in P2' as [->|[c [m X]]]; auto. right. intros Y. unfold edge, row_get in X. rewrite Y in X. destruct X.
Qed.

(** ** MakeSuffix *)
Lemma make_suffix_adds : forall f, wf f ->
  adds f (make_suffix f) (fun p c q => p = initial f /\ c = Epsilon /\ q <> initial f /\ q < size f) /\ isAlt (make_suffix f) = false.
Proof.
  intros f W. split; [|reflexivity]. unfold make_suffix. apply clear_hints_adds. eapply adds_ext.
  - apply adds_fold with (S := fun i p c q => p = initial f /\ c = Epsilon /\ q <> initial f /\ q = i).
    intros g i T Hi A. apply in_seq in Hi. rewrite (ad_init _ _ _ A).
    destruct (Nat.eqb_spec i (initial f)) as [->|Hne].
    + eapply adds_ext; [apply adds_refl|]. cbn. intros; split; [tauto|]. intros [_ [_ [H1 H2]]]; congruence.
    + eapply adds_ext; [apply connect_adds|].
      * rewrite (ad_size _ _ _ A). apply W.
      * rewrite (ad_size _ _ _ A). lia.
      * reflexivity.
      * cbn beta. intros p c q. split; [intros [-> [-> ->]]; auto|tauto].
  - cbn beta. intros p c q. split.
    + intros [i [Hi [H1 [H2 [H3 ->]]]]]. apply in_seq in Hi. splits; auto; lia.
    + intros [H1 [H2 [H3 H4]]]. exists q. splits; auto. apply in_seq; lia.
Qed.

Lemma make_suffix_wf : forall f, wf f -> wf (make_suffix f) /\ (uncompressed f -> uncompressed (make_suffix f)).
Proof.
  intros f W. destruct (make_suffix_adds f W) as [A HA]. split.
  - constructor.
    + rewrite (ad_init _ _ _ A), (ad_size _ _ _ A). apply W.
    + rewrite (ad_fin _ _ _ A), (ad_size _ _ _ A). apply W.
    + rewrite (ad_fin _ _ _ A). apply W.
    + apply (ad_rows _ _ _ A). apply W.
    + rewrite (ad_let _ _ _ A). apply W.
    + eapply adds_eps_coherent; eauto; try apply W. cbn beta; tauto.
    + eapply adds_eps_bcoherent; eauto; try apply W. cbn beta; tauto.
    + intros X. congruence.
  - unfold uncompressed. rewrite (ad_let _ _ _ A). auto.
Qed.

Lemma make_suffix_edge : forall f, wf f -> forall p c q, edge (make_suffix f) p c q <->
  edge f p c q \/ (p = initial f /\ c = Epsilon /\ q <> initial f /\ q < size f).
Proof.
  intros f W p c q. destruct (make_suffix_adds f W) as [A _]. rewrite (adds_edge _ _ _ A).
  assert (X : erep f c = Epsilon <-> c = Epsilon).
  { unfold erep. destruct (part_rep (letters f) c) eqn:E; [|tauto]. apply part_rep_not_eps in E; [tauto|apply W]. }
  rewrite X. tauto.
Qed.

(** every suffix is always accepted *)
Lemma make_suffix_complete : forall f w, wf f -> L_suffixes (accepts f) w -> accepts (make_suffix f) w.
Proof.
  intros f w W [u [q [P Q]]]. destruct (make_suffix_adds f W) as [A _].
  apply path_split in P as [m [P1 P2]]. exists q. rewrite (ad_fin _ _ _ A), (ad_init _ _ _ A). split; auto.
  assert (P2' : path (edge (make_suffix f)) m w q).
  { eapply path_mono; [|exact P2]. intros; apply make_suffix_edge; auto. }
  destruct (Nat.eq_dec m (initial f)) as [->|Hne]; auto.
  apply path_eps with m; auto. apply make_suffix_edge; auto. right. splits; auto.
  apply path_inv in P2 as [[_ ->]|[[x [H _]]|[c [x [v [_ [_ [H _]]]]]]]].
  - apply W; auto.
  - apply edge_bound in H; tauto.
  - apply edge_bound in H; tauto.
Qed.

(** and nothing else, if nothing leads back to the initial state and every state is reachable *)
Lemma make_suffix_lang : forall f, wf f -> (forall p c, ~ edge f p c (initial f)) ->
  (forall q, q < size f -> reachable f q) ->
  lang_eq (accepts (make_suffix f)) (L_suffixes (accepts f)).
Proof.
  intros f W Hno Hre w. split; [|apply make_suffix_complete; auto].
  intros [q [P Q]]. destruct (make_suffix_adds f W) as [A _]. rewrite (ad_init _ _ _ A) in P. rewrite (ad_fin _ _ _ A) in Q.
  assert (G : forall p w q, path (edge (make_suffix f)) p w q -> p <> initial f -> path (edge f) p w q).
  { clear - W Hno. intros p w q H; induction H as [p|p q w r He H IH|p c q w r Hc He H IH]; intros HP.
    - apply path_nil.
    - apply make_suffix_edge in He as [He|[He _]]; auto; [|congruence]. eapply path_eps; eauto. apply IH.
      intros ->. eapply Hno; eauto.
    - apply make_suffix_edge in He as [He|[He _]]; auto; [|congruence]. eapply path_step; eauto. apply IH.
      intros ->. eapply Hno; eauto. }
  assert (X : exists m, m < size f /\ path (edge f) m w q).
  { apply path_inv in P as [[-> ->]|[[x [He P]]|[c [x [v [-> [Hc [He P]]]]]]]].
    - exists (initial f). split; [apply W|apply path_nil].
    - apply make_suffix_edge in He as [He|[_ [_ [Hne Hb]]]]; auto.
      + exists (initial f). split; [apply W|]. apply path_eps with x; auto. apply G; auto. intros ->. eapply Hno; eauto.
      + exists x. split; auto.
    - apply make_suffix_edge in He as [He|[_ [He _]]]; auto; [|congruence].
      exists (initial f). split; [apply W|]. apply path_step with x; auto. apply G; auto. intros ->. eapply Hno; eauto. }
  destruct X as [m [Hm P']]. destruct (Hre m Hm) as [u Hu]. exists u, q. split; auto. eapply path_app; eauto.
Qed.
