(** The minimisation loop of minimize.h (Hopcroft's algorithm), for any task. *)
From Coq Require Import List Bool Arith NArith Lia.
From Verif Require Import Util Spec PartitionModel FsmModel DetermineModel MinimizeModel.
Import ListNotations.

Lemma fupd_at : forall A (g : nat -> A) i v j, fupd g i v j = if Nat.eqb j i then v else g j.
Proof. reflexivity. Qed.
Lemma fupd_same : forall A (g : nat -> A) i v, fupd g i v i = v.
Proof. intros. unfold fupd. rewrite Nat.eqb_refl. auto. Qed.
Lemma fupd_other : forall A (g : nat -> A) i v j, j <> i -> fupd g i v j = g j.
Proof. intros. unfold fupd. destruct (Nat.eqb_spec j i); congruence. Qed.

Lemma NoDup_app_intro : forall A (l l' : list A), NoDup l -> NoDup l' -> (forall x, In x l -> ~ In x l') -> NoDup (l ++ l').
Proof.
  induction l as [|x l IH]; intros l' H1 H2 H; cbn; auto. inversion H1; subst. constructor.
  - intros X. apply in_app_or in X as [X|X]; auto. apply (H x); auto. left; auto.
  - apply IH; auto. intros y Hy. apply H. right; auto.
Qed.

Lemma NoDup_flat_map : forall A B (g : A -> list B) l, NoDup l -> (forall x, In x l -> NoDup (g x)) ->
  (forall x y b, In x l -> In y l -> In b (g x) -> In b (g y) -> x = y) -> NoDup (flat_map g l).
Proof.
  induction l as [|x l IH]; intros ND H1 H2; cbn; [constructor|]. inversion ND; subst.
  apply NoDup_app_intro.
  - apply H1; left; auto.
  - apply IH; auto; intros; [apply H1; right; auto|]. eapply H2; eauto; right; auto.
  - intros b Hb Hb'. apply in_flat_map in Hb' as [y [Hy Hb']]. assert (x = y) by (eapply H2; eauto; [left|right]; auto).
    congruence.
Qed.

Section Hopcroft.
  Variables n nl : nat.
  Variable delta : nat -> nat -> nat.
  Variable prev : nat -> nat -> list nat.
  Variable cls0 : nat -> nat.
  Variable k0 : nat.
  (* a relation the initial classes and the transitions respect *)
  Variable R : nat -> nat -> Prop.
  Hypothesis Hn : 0 < n.
  Hypothesis delta_lt : forall s l, s < n -> l < nl -> delta s l < n.
  Hypothesis prev_in : forall s l p, s < n -> l < nl -> (In p (prev s l) <-> p < n /\ delta p l = s).
  Hypothesis prev_nodup : forall s l, s < n -> l < nl -> NoDup (prev s l).
  Hypothesis cls0_lt : forall s, s < n -> cls0 s < k0.
  Hypothesis cls0_ne : forall c, c < k0 -> exists s, s < n /\ cls0 s = c.
  Hypothesis R_lt : forall s t, R s t -> s < n /\ t < n.
  Hypothesis R_cls0 : forall s t, R s t -> cls0 s = cls0 t.
  Hypothesis R_delta : forall s t l, R s t -> l < nl -> R (delta s l) (delta t l).

  Record struct (m : mstate) : Prop := {
    st_cls : forall s, s < n -> m_class m s < m_count m;
    st_states : forall s c, In s (m_states m c) <-> s < n /\ m_class m s = c;
    st_nodup : forall c, NoDup (m_states m c);
    st_ne : forall c, c < m_count m -> exists s, s < n /\ m_class m s = c;
    st_qnd : NoDup (m_queue m);
    st_q : forall c l, In (c, l) (m_queue m) -> c < m_count m /\ l < nl /\ m_queued m c l = true;
    st_ref : forall s t, s < n -> t < n -> m_class m s = m_class m t -> cls0 s = cls0 t;
    st_bis : forall s t, R s t -> m_class m s = m_class m t
  }.

  Record minv (m : mstate) : Prop := {
    mv_struct : struct m;
    mv_ch : forall c, m_change m c < m_count m;
    mv_rem : forall c, m_removed m c = [];
    mv_hop : forall s t l, s < n -> t < n -> l < nl -> m_class m s = m_class m t ->
      m_class m (delta s l) <> m_class m (delta t l) ->
      In (m_class m (delta s l), l) (m_queue m) \/ In (m_class m (delta t l), l) (m_queue m)
  }.

    Lemma count_le : forall m, struct m -> m_count m <= n.
    Proof.
      intros m S. rewrite <- (seq_length n 0), <- (seq_length (m_count m) 0), <- (map_length (m_class m) (seq 0 n)).
      apply NoDup_incl_length; [apply seq_NoDup|]. intros c Hc. apply in_seq in Hc.
      destruct (st_ne _ S c ltac:(lia)) as [s [H1 H2]]. apply in_map_iff. exists s. split; auto. apply in_seq; lia.
    Qed.

    Definition measure (m : mstate) : nat := length (m_queue m) + nl * (n - m_count m).

  Section Round.
    Variable clsO : nat -> nat.
    Variables c0 l0 : nat.
    Hypothesis l0_lt : l0 < nl.
    Hypothesis clsO_bis : forall s t, R s t -> clsO s = clsO t.
    Definition P (s : nat) : Prop := s < n /\ clsO (delta s l0) = c0.
    Definition Pb (s : nat) : bool := (s <? n) && Nat.eqb (clsO (delta s l0)) c0.
    Lemma Pb_P : forall s, Pb s = true <-> P s.
    Proof. intros s. unfold Pb, P. rewrite andb_true_iff, Nat.ltb_lt, Nat.eqb_eq. tauto. Qed.

    Record mid (m : mstate) (sp : list nat) : Prop := {
      md_struct : struct m;
      md_ch : forall c, ~ In c sp -> m_change m c < m_count m;
      md_rem0 : forall c, ~ In c sp -> m_removed m c = [];
      md_rem : forall c s, In c sp -> (In s (m_removed m c) <-> P s /\ m_class m s = c);
      md_remnd : forall c, NoDup (m_removed m c);
      md_remne : forall c, In c sp -> exists s, P s /\ m_class m s = c;
      md_nd : NoDup sp;
      md_lt : forall c, In c sp -> c < m_count m;
      md_done : forall s t, s < n -> t < n -> m_class m s = m_class m t -> ~ In (m_class m s) sp -> (P s <-> P t);
      md_hop : forall s t l, s < n -> t < n -> l < nl -> m_class m s = m_class m t ->
        m_class m (delta s l) <> m_class m (delta t l) ->
        In (m_class m (delta s l), l) (m_queue m) \/ In (m_class m (delta t l), l) (m_queue m) \/
        (l = l0 /\ ~ (P s <-> P t))
    }.

    Record same (m m' : mstate) : Prop := {
      sm_class : m_class m' = m_class m; sm_count : m_count m' = m_count m; sm_states : m_states m' = m_states m;
      sm_change : m_change m' = m_change m; sm_removed : m_removed m' = m_removed m
    }.

    (** Marking *)
    Lemma mark_ok : forall l m sp done, NoDup sp ->
      (forall c, m_change m c = m_count m <-> In c sp) ->
      (forall c, In c sp <-> exists s, In s done /\ m_class m s = c) ->
      (forall c, m_removed m c = filter (fun s => Nat.eqb (m_class m s) c) done) ->
      let '(m', sp') := fold_left min_mark l (m, sp) in
      m_class m' = m_class m /\ m_count m' = m_count m /\ m_states m' = m_states m /\ m_queued m' = m_queued m /\ m_queue m' = m_queue m /\
      NoDup sp' /\ (forall c, ~ In c sp' -> m_change m' c = m_change m c) /\
      (forall c, In c sp' <-> exists s, In s (done ++ l) /\ m_class m s = c) /\
      (forall c, m_removed m' c = filter (fun s => Nat.eqb (m_class m s) c) (done ++ l)).
    Proof.
      induction l as [|s l IH]; intros m sp done ND HC HS HR; cbn [fold_left].
      - rewrite app_nil_r. splits; auto.
      - cbn [min_mark]. set (c := m_class m s).
        assert (HR' : forall c', fupd (m_removed m) c (m_removed m c ++ [s]) c' = filter (fun x => Nat.eqb (m_class m x) c') (done ++ [s])).
        { intros c'. rewrite fupd_at, filter_app, !HR. cbn [filter]. destruct (Nat.eqb_spec c' c) as [->|Hne].
          - fold c. rewrite Nat.eqb_refl. auto.
          - fold c. destruct (Nat.eqb_spec c c'); [congruence|]. rewrite app_nil_r. auto. }
        destruct (Nat.eqb_spec (m_change m c) (m_count m)) as [E|E].
        + assert (Hin : In c sp) by (apply HC; auto).
          set (m1 := mkM _ _ _ _ _ _ _).
          specialize (IH m1 sp (done ++ [s])). rewrite <- app_assoc in IH. cbn [app] in IH.
          destruct (fold_left min_mark l (m1, sp)) as [m' sp'].
          apply IH; auto.
          intros c'. cbn [m_class m1]. rewrite HS. split; intros [x [X Y]].
          * exists x; split; auto. apply in_or_app; auto.
          * apply in_app_or in X as [X|[<-|[]]]; eauto. fold c in Y. subst c'. apply HS; auto.
        + assert (Hin : ~ In c sp) by (rewrite <- HC; auto).
          set (m1 := mkM _ _ _ _ _ _ _).
          specialize (IH m1 (sp ++ [c]) (done ++ [s])). rewrite <- app_assoc in IH. cbn [app] in IH.
          assert (A0 : NoDup (sp ++ [c])) by (apply NoDup_app_intro; auto; [constructor; [auto|constructor]|intros x Hx [<-|[]]; auto]).
          assert (A1 : forall c', m_change m1 c' = m_count m1 <-> In c' (sp ++ [c])).
          { intros c'. cbn [m_change m_count m1]. rewrite fupd_at, in_app_iff. cbn [In]. destruct (Nat.eqb_spec c' c) as [->|Hne]; [intuition|].
            rewrite HC. intuition congruence. }
          assert (A2 : forall c', In c' (sp ++ [c]) <-> exists x, In x (done ++ [s]) /\ m_class m1 x = c').
          { intros c'. cbn [m_class m1]. rewrite in_app_iff, HS. cbn [In]. split.
            - intros [[x [X Y]]|[<-|[]]]; [exists x|exists s]; split; auto; apply in_or_app; auto. right; left; auto.
            - intros [x [X Y]]. apply in_app_or in X as [X|[<-|[]]]; [left; eauto|right; left; auto]. }
          specialize (IH A0 A1 A2 HR').
          destruct (fold_left min_mark l (m1, sp ++ [c])) as [m' sp']. destruct IH as (B1&B2&B3&B4&B5&B6&B7&B8&B9).
          splits; auto. intros c' Hc'. rewrite B7 by auto. cbn [m_change m1]. apply fupd_other. intros ->. apply Hc'. apply B8.
          exists s. split; auto. apply in_or_app; right; left; auto.
    Qed.

    (** Enqueueing one half per letter *)
    Definition bounds (m : mstate) := forall c l, In (c, l) (m_queue m) -> c < m_count m /\ l < nl /\ m_queued m c l = true.
    Lemma push_ok : forall c newc ls m, NoDup ls -> c < m_count m -> newc < m_count m -> c <> newc ->
      (forall l, In l ls -> l < nl) -> (forall l, In l ls -> ~ In (newc, l) (m_queue m)) ->
      NoDup (m_queue m) -> bounds m ->
      let m' := fold_left (min_push c newc) ls m in
      same m m' /\ NoDup (m_queue m') /\ bounds m' /\ length (m_queue m') = length (m_queue m) + length ls /\
      (forall x, In x (m_queue m) -> In x (m_queue m')) /\
      (forall l, In l ls -> In (c, l) (m_queue m') \/ In (newc, l) (m_queue m')) /\
      (forall l, In l ls -> In (c, l) (m_queue m) -> In (newc, l) (m_queue m')).
    Proof.
      intros c newc ls; induction ls as [|l ls IH]; intros m ND Hc Hnc Hne Hls Hnew HQ HB; cbn [fold_left].
      - splits; auto; try (intros l []); try (constructor; reflexivity); cbn [length]; lia.
      - inversion ND as [|? ? N1 N2]; subst.
        set (m1 := min_push c newc m l).
        set (t := if m_queued m c l || (length (m_states m newc) <? length (m_states m c)) then newc else c).
        assert (Q1 : m_queue m1 = m_queue m ++ [(t, l)]) by reflexivity.
        assert (Ht : t = c \/ t = newc) by (unfold t; destruct (_ || _); auto).
        assert (Hl : l < nl) by (apply Hls; left; auto).
        assert (Hfresh : ~ In (t, l) (m_queue m)).
        { unfold t. destruct (m_queued m c l) eqn:E; cbn [orb]; [apply Hnew; left; auto|].
          destruct (_ <? _); [apply Hnew; left; auto|]. intros X. apply HB in X. destruct X as [_ [_ X]]. congruence. }
        destruct (IH m1) as (A&B&C&D&E&F&G); clear IH; auto.
        + intros x Hx. apply Hls; right; auto.
        + intros x Hx. rewrite Q1. intros Y. apply in_app_or in Y as [Y|[[= Y1 Y2]|[]]]; [eapply Hnew; eauto; right; auto|congruence].
        + rewrite Q1. apply NoDup_app_intro; auto; [constructor; [auto|constructor]|]. intros x Hx [<-|[]]; auto.
        + intros c' l' H. rewrite Q1 in H. cbn [m1 min_push m_count m_queued]. fold t.
          apply in_app_or in H as [H|[[= <- <-]|[]]].
          * apply HB in H as (X&Y&Z). splits; auto. rewrite Z. destruct (Nat.eqb c' t && Nat.eqb l' l); auto.
          * splits; auto; [destruct Ht as [-> | ->]; auto|]. rewrite !Nat.eqb_refl. auto.
        + destruct A as [a1 a2 a3 a4 a5]. splits; auto.
          * constructor; assumption.
          * rewrite D, Q1, app_length. cbn [length]. lia.
          * intros x Hx. apply E. rewrite Q1. apply in_or_app; auto.
          * intros x [<-|Hx]; [|auto]. assert (X : In (t, l) (m_queue (fold_left (min_push c newc) ls m1))).
            { apply E. rewrite Q1. apply in_or_app; right; left; auto. }
            destruct Ht as [-> | ->]; auto.
          * intros x [<-|Hx] Y.
            -- apply E. rewrite Q1. apply in_or_app; right; left. f_equal. unfold t. apply HB in Y as (_&_&Y). rewrite Y. auto.
            -- apply G; auto. rewrite Q1. apply in_or_app; auto.
    Qed.

    Lemma cls_upd : forall (rem : list nat) (newc : nat) (g : nat -> nat) (s : nat),
      fold_left (fun g s => fupd g s newc) rem g s = if existsb (Nat.eqb s) rem then newc else g s.
    Proof.
      induction rem as [|x rem IH]; intros newc g s; cbn [fold_left existsb]; auto.
      rewrite IH, fupd_at. destruct (existsb (Nat.eqb s) rem); [rewrite orb_true_r; auto|]. rewrite orb_false_r. auto.
    Qed.

    Lemma split_ok : forall m c sp, mid m (c :: sp) ->
      mid (min_split nl m c) sp /\ measure (min_split nl m c) = measure m.
    Proof.
      intros m c sp M. pose proof (md_struct _ _ M) as S. pose proof (md_nd _ _ M) as NDs.
      inversion NDs as [|? ? Hcsp NDsp]; subst.
      assert (Hc : c < m_count m) by (apply (md_lt _ _ M); left; auto).
      assert (Hrem : forall s, In s (m_removed m c) <-> P s /\ m_class m s = c) by (intros; apply (md_rem _ _ M); left; auto).
      unfold min_split. destruct (Nat.eqb_spec (length (m_removed m c)) (length (m_states m c))) as [E|E].
      - split; [|reflexivity].
        assert (All : forall s, s < n -> m_class m s = c -> P s).
        { intros s H1 H2. apply (Hrem s). assert (X : incl (m_states m c) (m_removed m c)).
          { apply NoDup_length_incl; [apply M|lia|]. intros x Hx. apply Hrem in Hx as [X Y]. apply (st_states _ S). split; auto. apply X. }
          apply X. apply (st_states _ S). auto. }
        constructor; cbn [m_class m_count m_states m_queued m_queue m_change m_removed]; auto.
        + destruct S; constructor; auto.
        + intros x Hx. rewrite fupd_at. destruct (Nat.eqb_spec x c); [lia|]. apply (md_ch _ _ M). intros [->|]; auto.
        + intros x Hx. rewrite fupd_at. destruct (Nat.eqb_spec x c); auto. apply (md_rem0 _ _ M). intros [->|]; auto.
        + intros x s Hx. rewrite fupd_at. destruct (Nat.eqb_spec x c) as [->|]; [tauto|]. apply (md_rem _ _ M). right; auto.
        + intros x. rewrite fupd_at. destruct (Nat.eqb_spec x c); [constructor|apply M].
        + intros x Hx. apply (md_remne _ _ M). right; auto.
        + intros x Hx. apply (md_lt _ _ M). right; auto.
        + intros s t H1 H2 H3 H4. destruct (Nat.eq_dec (m_class m s) c) as [Ec|Ec].
          * split; intros _; apply All; auto. congruence.
          * apply (md_done _ _ M); auto. intros [X|X]; auto.
        + apply M.
      - set (newc := m_count m). set (rem := m_removed m c).
        set (cls' := fold_left (fun g s => fupd g s newc) rem (m_class m)).
        assert (C' : forall s, cls' s = if existsb (Nat.eqb s) rem then newc else m_class m s) by (intros; apply cls_upd).
        assert (Crem : forall s, In s rem -> cls' s = newc).
        { intros s H. rewrite C'. assert (X : existsb (Nat.eqb s) rem = true) by (apply existsb_exists; exists s; split; auto; apply Nat.eqb_refl). rewrite X. auto. }
        assert (Cnot : forall s, ~ In s rem -> cls' s = m_class m s).
        { intros s H. rewrite C'. destruct (existsb (Nat.eqb s) rem) eqn:X; auto. apply existsb_exists in X as [y [Y1 Y2]]. apply Nat.eqb_eq in Y2. congruence. }
        assert (Cdec : forall s, {In s rem} + {~ In s rem}) by (intros; apply in_dec, Nat.eq_dec).
        assert (Hnew : forall s, s < n -> (cls' s = newc <-> In s rem)).
        { intros s Hs. split; auto. intros X. destruct (Cdec s) as [Y|Y]; auto. rewrite Cnot in X by auto.
          pose proof (st_cls _ S s Hs). unfold newc in X. lia. }
        assert (Hold : forall s x, s < n -> x <> newc -> (cls' s = x <-> m_class m s = x /\ ~ In s rem)).
        { intros s x Hs Hx. destruct (Cdec s) as [Y|Y].
          - rewrite Crem by auto. split; [congruence|tauto].
          - rewrite Cnot by auto. tauto. }
        assert (Fine : forall s t, s < n -> t < n -> cls' s = cls' t -> m_class m s = m_class m t).
        { intros s t Hs Ht X. destruct (Cdec s) as [Y|Y].
          - pose proof (Crem _ Y) as Z. rewrite X in Z. apply Hnew in Z; auto. unfold rem in Y, Z. apply Hrem in Y, Z. destruct Y, Z. congruence.
          - rewrite (Cnot s) in X by auto. destruct (Cdec t) as [Z|Z]; [|rewrite (Cnot t) in X by auto; auto].
            rewrite (Crem t) in X by auto. pose proof (st_cls _ S s Hs). unfold newc in X. lia. }
        assert (Snew : m_states m newc = []).
        { destruct (m_states m newc) as [|x ?] eqn:X; auto. exfalso. assert (Y : In x (m_states m newc)) by (rewrite X; left; auto).
          apply (st_states _ S) in Y as [Y1 Y2]. apply (st_cls _ S) in Y1. unfold newc in Y2. lia. }
        assert (Lt : length rem < length (m_states m c)).
        { assert (X : length rem <= length (m_states m c)); [|unfold rem in *; lia].
          apply NoDup_incl_length; [apply M|]. intros x Hx. apply Hrem in Hx as [X Y]. apply (st_states _ S). split; auto. apply X. }
        destruct (md_remne _ _ M c (or_introl eq_refl)) as [s1 [Ps1 Cs1]].
        assert (Hs1 : In s1 rem) by (apply Hrem; auto).
        assert (Out : exists s, s < n /\ m_class m s = c /\ ~ In s rem).
        { destruct (Forall_Exists_dec (fun x => In x rem) (fun x => in_dec Nat.eq_dec x rem) (m_states m c)) as [X|X].
          - exfalso. rewrite Forall_forall in X. assert (length (m_states m c) <= length rem); [|lia].
            apply NoDup_incl_length; [apply S|]. exact X.
          - apply Exists_exists in X as [x [X1 X2]]. apply (st_states _ S) in X1. exists x. tauto. }
        set (st1 := fupd (m_states m) newc rem).
        set (st2 := fupd st1 c (filter (fun s => Nat.eqb (cls' s) c) (st1 c))).
        set (m1 := mkM cls' (Datatypes.S (m_count m)) st2 (m_queued m) (m_queue m) (fupd (m_change m) c newc) (fupd (m_removed m) c (m_states m newc))).
        assert (Hcn : c <> newc) by (unfold newc; lia).
        assert (St2 : forall s x, In s (st2 x) <-> s < n /\ cls' s = x).
        { intros s x. unfold st2, st1. rewrite !fupd_at. rewrite (proj2 (Nat.eqb_neq c newc) Hcn). destruct (Nat.eqb_spec x c) as [->|Hxc].
          - rewrite filter_In, Nat.eqb_eq, (st_states _ S). split; [tauto|]. intros [X Y]. splits; auto.
            apply Hold in Y; tauto.
          - destruct (Nat.eqb_spec x newc) as [->|Hxn].
            + split.
              * intros X. split; auto. apply Hrem in X. apply X.
              * intros [X Y]. apply Hnew; auto.
            + rewrite (st_states _ S). split; intros [X Y]; split; auto.
              * apply Hold; auto. split; auto. intros Z. apply Hrem in Z. destruct Z. congruence.
              * apply Hold in Y; tauto. }
        assert (St2nd : forall x, NoDup (st2 x)).
        { intros x. unfold st2, st1. rewrite !fupd_at. rewrite (proj2 (Nat.eqb_neq c newc) Hcn). destruct (Nat.eqb x c); [apply NoDup_filter, S|].
          destruct (Nat.eqb x newc); [apply M|apply S]. }
        destruct (push_ok c newc (seq 0 nl) m1) as ([a1 a2 a3 a4 a5]&B&C&D&Ee&F&G).
        + apply seq_NoDup.
        + cbn [m_count m1]. lia.
        + cbn [m_count m1]. unfold newc. lia.
        + auto.
        + intros l Hl. apply in_seq in Hl. lia.
        + intros l Hl X. cbn [m_queue m1] in X. apply (st_q _ S) in X. unfold newc in X. lia.
        + apply (st_qnd _ S).
        + intros x l X. cbn [m_queue m1 m_count m_queued] in *. apply (st_q _ S) in X. intuition.
        + match goal with |- mid ?x _ /\ _ => change x with (fold_left (min_push c newc) (seq 0 nl) m1) end.
          set (m2 := fold_left (min_push c newc) (seq 0 nl) m1) in *.
          cbn [m_class m_count m_states m_queue m_change m_removed m1] in a1, a2, a3, a4, a5, D, Ee, G.
          assert (S2 : struct m2).
          {    constructor; rewrite ?a1, ?a2, ?a3; auto.
               ++ intros s Hs. destruct (Cdec s) as [Y|Y]; [rewrite Crem by auto; unfold newc; lia|].
                  rewrite Cnot by auto. pose proof (st_cls _ S s Hs). lia.
               ++ intros x Hx. destruct (Nat.eq_dec x newc) as [->|Hxn].
                  { exists s1. split; [apply Ps1|auto]. }
                  destruct (Nat.eq_dec x c) as [->|Hxc].
                  { destruct Out as [s [O1 [O2 O3]]]. exists s. split; auto. apply Hold; auto. }
                  destruct (st_ne _ S x) as [s [O1 O2]]; [unfold newc in Hxn; lia|]. exists s. split; auto. apply Hold; auto. split; auto.
                  intros Z. apply Hrem in Z. destruct Z. congruence.
               ++ intros x l X. apply C in X. rewrite a2 in X. auto.
               ++ intros s t Hs Ht X. apply (st_ref _ S); auto.
               ++ intros s t X. pose proof (R_lt _ _ X) as [Hs Ht]. pose proof (st_bis _ S _ _ X) as Y.
                  assert (Z : P s <-> P t). { unfold P. rewrite (clsO_bis _ _ (R_delta _ _ _ X l0_lt)). tauto. }
                  assert (Z' : In s rem <-> In t rem). { unfold rem. rewrite !Hrem, Z, Y. tauto. }
                  destruct (Cdec s) as [V|V].
                  ** rewrite Crem by auto. rewrite Crem by tauto. auto.
                  ** rewrite Cnot by auto. rewrite Cnot by tauto. auto. }
          split.
          * constructor; [exact S2| | | | | | | | |].
            -- intros x Hx. rewrite a4, a2, fupd_at. destruct (Nat.eqb_spec x c); [unfold newc; lia|].
               assert (X : ~ In x (c :: sp)) by (intros [|]; auto). apply (md_ch _ _ M) in X. lia.
            -- intros x Hx. rewrite a5, fupd_at. destruct (Nat.eqb_spec x c); auto. apply (md_rem0 _ _ M). intros [|]; auto.
            -- intros x s Hx. rewrite a5, a1, fupd_at.
               assert (Hxc : x <> c) by congruence. rewrite (proj2 (Nat.eqb_neq x c) Hxc).
               assert (Hxn : x <> newc). { pose proof (md_lt _ _ M x (or_intror Hx)). unfold newc; lia. }
               rewrite (md_rem _ _ M x s (or_intror Hx)). split; intros [X Y]; split; auto.
               ++ apply Hold; auto; [apply X|]. split; auto. intros Z. apply Hrem in Z. destruct Z. congruence.
               ++ apply Hold in Y; auto; [tauto|apply X].
            -- intros x. rewrite a5, fupd_at. destruct (Nat.eqb x c); [rewrite Snew; constructor|apply M].
            -- intros x Hx. destruct (md_remne _ _ M x (or_intror Hx)) as [s [X Y]]. exists s. split; auto. rewrite a1.
               assert (Hxn : x <> newc). { pose proof (md_lt _ _ M x (or_intror Hx)). unfold newc; lia. }
               apply Hold; auto; [apply X|]. split; auto. intros Z. apply Hrem in Z. destruct Z. congruence.
            -- auto.
            -- intros x Hx. rewrite a2. pose proof (md_lt _ _ M x (or_intror Hx)). lia.
            -- intros s t Hs Ht X Y. rewrite a1 in *. pose proof (Fine s t Hs Ht X) as Z.
               destruct (Nat.eq_dec (m_class m s) c) as [Ec|Ec].
               ++ assert (V : In s rem <-> In t rem) by (rewrite <- !Hnew by auto; rewrite X; tauto).
                  unfold rem in V. rewrite !Hrem in V. assert (m_class m t = c) by congruence. tauto.
               ++ apply (md_done _ _ M); auto. intros [U|U]; auto. apply Y.
                  replace (cls' s) with (m_class m s); auto. symmetry. apply Cnot. intros V. apply Hrem in V. tauto.
            -- intros s t l Hs Ht Hl X Y. rewrite a1 in *.
               pose proof (Fine s t Hs Ht X) as Z.
               assert (Hds := delta_lt s l Hs Hl). assert (Hdt := delta_lt t l Ht Hl).
               assert (Lin : In l (seq 0 nl)) by (apply in_seq; lia).
               assert (Keep : forall d, d < n -> In (m_class m d, l) (m_queue m) -> In (cls' d, l) (m_queue m2)).
               { intros d Hd Q. destruct (Cdec d) as [V|V].
                 - rewrite Crem by auto. apply G; auto. apply Hrem in V as [_ V]. rewrite V in Q. auto.
                 - rewrite Cnot by auto. apply Ee. auto. }
               destruct (Nat.eq_dec (m_class m (delta s l)) (m_class m (delta t l))) as [Eq|Ne].
               ++ (* the common destination class was split *)
                  assert (V : (cls' (delta s l) = c /\ cls' (delta t l) = newc) \/ (cls' (delta s l) = newc /\ cls' (delta t l) = c)).
                  { destruct (Cdec (delta s l)) as [U|U], (Cdec (delta t l)) as [U'|U'].
                    - rewrite !Crem in Y by auto. congruence.
                    - right. split; [auto|]. rewrite Cnot by auto. rewrite <- Eq. apply Hrem in U. tauto.
                    - left. split; [|auto]. rewrite Cnot by auto. rewrite Eq. apply Hrem in U'. tauto.
                    - rewrite !Cnot in Y by auto. congruence. }
                  destruct V as [[V1 V2]|[V1 V2]]; rewrite V1, V2; destruct (F l Lin); auto.
               ++ destruct (md_hop _ _ M s t l Hs Ht Hl Z Ne) as [Q|[Q|Q]]; auto.
          * unfold measure. rewrite D, a2, seq_length.
            pose proof (count_le _ S2) as CL. rewrite a2 in CL.
            replace (n - m_count m) with (Datatypes.S (n - Datatypes.S (m_count m))) by lia. lia.
    Qed.

    Lemma splits_ok : forall sp m, mid m sp ->
      mid (fold_left (min_split nl) sp m) [] /\ measure (fold_left (min_split nl) sp m) = measure m.
    Proof.
      induction sp as [|c sp IH]; intros m M; cbn [fold_left]; auto.
      destruct (split_ok _ _ _ M) as [M' E]. destruct (IH _ M') as [A B]. split; auto. congruence.
    Qed.
  End Round.

  Lemma step_ok : forall m c l rest, minv m -> m_queue m = (c, l) :: rest ->
    minv (min_step nl prev m c l rest) /\ Datatypes.S (measure (min_step nl prev m c l rest)) = measure m.
  Proof.
    intros m c l rest M Q. pose proof (mv_struct _ M) as S.
    destruct (st_q _ S c l) as (Hc & Hl & Hq); [rewrite Q; left; auto|].
    pose proof (st_qnd _ S) as QN. rewrite Q in QN. inversion QN as [|? ? Q1 Q2]; subst.
    unfold min_step. set (m0 := mkM _ _ _ _ _ _ _).
    set (preds := flat_map (fun s => prev s l) (m_states m0 c)).
    assert (Pin : forall s, In s preds <-> P (m_class m) c l s).
    { intros s. unfold preds. rewrite in_flat_map. cbn [m_states m0]. unfold P. split.
      - intros [x [X Y]]. apply (st_states _ S) in X as [X1 X2]. apply prev_in in Y as [Y1 Y2]; auto. subst x. auto.
      - intros [X Y]. exists (delta s l). assert (delta s l < n) by auto. split; [apply (st_states _ S); auto|]. apply prev_in; auto. }
    assert (Pnd : NoDup preds).
    { unfold preds. apply NoDup_flat_map; [apply S| |].
      - intros x Hx. apply (st_states _ S) in Hx. apply prev_nodup; tauto.
      - intros x y b Hx Hy Hb Hb'. apply (st_states _ S) in Hx as [Hx _]. apply (st_states _ S) in Hy as [Hy _].
        apply prev_in in Hb; auto. apply prev_in in Hb'; auto. destruct Hb, Hb'. congruence. }
    pose proof (mark_ok preds m0 [] []) as MK. cbn [app] in MK.
    assert (K1 : forall x, m_change m0 x = m_count m0 <-> In x []).
    { intros x. cbn [m_change m_count m0 In]. pose proof (mv_ch _ M x). split; [lia|tauto]. }
    assert (K2 : forall x, In x [] <-> exists s, In s [] /\ m_class m0 s = x) by (intros x; split; [intros []|intros [s [[] _]]]).
    specialize (MK (NoDup_nil _) K1 K2 (mv_rem _ M)).
    destruct (fold_left min_mark preds (m0, [])) as [m1 sp]. destruct MK as (B1&B2&B3&B4&B5&B6&B7&B8&B9).
    cbn [m_class m_count m_states m_queued m_queue m_change m0] in B1, B2, B3, B4, B5, B7, B8, B9.
    assert (Mid : mid (m_class m) c l m1 sp).
    { constructor.
      - destruct S. constructor; rewrite ?B1, ?B2, ?B3, ?B5; auto.
        intros c' l' H. rewrite B4. assert (H' : In (c', l') (m_queue m)) by (rewrite Q; right; auto).
        destruct (st_q0 _ _ H') as (X&Y&Z). splits; auto.
        destruct (Nat.eqb_spec c' c) as [->|], (Nat.eqb_spec l' l) as [->|]; cbn [andb]; auto; tauto.
      - intros x Hx. rewrite B7 by auto. rewrite B2. apply M.
      - intros x Hx. rewrite B9. destruct (filter _ preds) as [|s ?] eqn:F; auto. exfalso. apply Hx. apply B8.
        assert (X : In s (filter (fun s => Nat.eqb (m_class m s) x) preds)) by (rewrite F; left; auto).
        apply filter_In in X as [X Y]. apply Nat.eqb_eq in Y. eauto.
      - intros x s Hx. rewrite B9, filter_In, Nat.eqb_eq, Pin, B1. tauto.
      - intros x. rewrite B9. apply NoDup_filter; auto.
      - intros x Hx. apply B8 in Hx as [s [X Y]]. apply Pin in X. rewrite B1. eauto.
      - auto.
      - intros x Hx. apply B8 in Hx as [s [X Y]]. apply Pin in X. subst x. rewrite B2. apply (st_cls _ S). apply X.
      - intros s t Hs Ht E Hx. rewrite B1 in *. split; intros X; exfalso; apply Hx; apply B8; [exists s|exists t]; split; auto; apply Pin; auto.
      - intros s t k Hs Ht Hk E NE. rewrite B1, B5 in *. destruct (mv_hop _ M s t k Hs Ht Hk E NE) as [X|X]; rewrite Q in X; destruct X as [[= X1 X2]|X]; auto.
        + right; right. split; auto. subst k. unfold P. intros Y. apply NE. rewrite <- X1. symmetry. apply Y. auto.
        + right; right. split; auto. subst k. unfold P. intros Y. apply NE. rewrite <- X1. apply Y. auto. }
    destruct (splits_ok (m_class m) c l Hl (st_bis _ S) sp m1 Mid) as [F1 F2].
    set (m2 := fold_left (min_split nl) sp m1) in *. clearbody m2. split.
    - constructor.
      + apply F1.
      + intros x. apply (md_ch _ _ _ _ _ F1). auto.
      + intros x. apply (md_rem0 _ _ _ _ _ F1). auto.
      + intros s t k Hs Ht Hk E NE. destruct (md_hop _ _ _ _ _ F1 s t k Hs Ht Hk E NE) as [X|[X|[_ X]]]; auto.
        exfalso. apply X. apply (md_done _ _ _ _ _ F1); auto.
    - rewrite F2. unfold measure. rewrite B2, B5, Q. cbn [length]. lia.
  Qed.

  Lemma loop_ok : forall fuel m, minv m -> measure m < fuel ->
    exists m', min_loop nl prev fuel m = Ok m' /\ minv m' /\ m_queue m' = [].
  Proof.
    induction fuel as [|fuel IH]; intros m M Hf; [lia|]. cbn [min_loop].
    destruct (m_queue m) as [|[c l] rest] eqn:Q; [eauto|].
    destruct (step_ok m c l rest M Q) as [A B]. apply IH; auto. lia.
  Qed.

  Lemma init_states : forall k s c, In s (fold_left (fun g s => fupd g (cls0 s) (g (cls0 s) ++ [s])) (seq 0 k) (fun _ => []) c) <-> s < k /\ cls0 s = c.
  Proof.
    induction k as [|k IH]; intros s c.
    - cbn. split; [intros []|lia].
    - rewrite seq_S, fold_left_app. cbn [fold_left plus]. rewrite fupd_at. destruct (Nat.eqb_spec c (cls0 k)) as [->|].
      + rewrite in_app_iff, IH. cbn [In]. split.
        * intros [[X Y]|[<-|[]]]; split; auto; lia.
        * intros [X Y]. destruct (Nat.eq_dec s k) as [->|]; [right; left; auto|]. left. split; auto. lia.
      + rewrite IH. split; intros [X Y]; split; auto; try lia. destruct (Nat.eq_dec s k) as [->|]; [congruence|lia].
  Qed.
  Lemma init_states_nd : forall k c, NoDup (fold_left (fun g s => fupd g (cls0 s) (g (cls0 s) ++ [s])) (seq 0 k) (fun _ => []) c).
  Proof.
    induction k as [|k IH]; intros c; [constructor|].
    rewrite seq_S, fold_left_app. cbn [fold_left plus]. rewrite fupd_at. destruct (Nat.eqb_spec c (cls0 k)) as [->|]; auto.
    apply NoDup_app_intro; auto; [constructor; [auto|constructor]|]. intros x Hx [<-|[]]. apply init_states in Hx. lia.
  Qed.

  Lemma min_init_ok : minv (min_init n nl cls0 k0) /\ measure (min_init n nl cls0 k0) = n * nl.
  Proof.
    assert (K : 0 < k0) by (specialize (cls0_lt 0 Hn); lia).
    assert (Qin : forall c l, In (c, l) (flat_map (fun c => map (fun l => (c, l)) (seq 0 nl)) (seq 0 k0)) <-> c < k0 /\ l < nl).
    { intros c l. rewrite in_flat_map. split.
      - intros [x [X Y]]. apply in_map_iff in Y as [y [[= <- <-] Y]]. apply in_seq in X, Y. lia.
      - intros [X Y]. exists c. split; [apply in_seq; lia|]. apply in_map_iff. exists l. split; auto. apply in_seq; lia. }
    assert (S : struct (min_init n nl cls0 k0)).
    { constructor; cbn [min_init m_class m_count m_states m_queued m_queue]; auto.
      - intros s c. apply init_states.
      - intros c. apply init_states_nd.
      - apply NoDup_flat_map; [apply seq_NoDup| |].
        + intros x _. apply FinFun.Injective_map_NoDup; [intros a b [=]; auto|apply seq_NoDup].
        + intros x y b _ _ H1 H2. apply in_map_iff in H1 as [? [<- _]]. apply in_map_iff in H2 as [? [[=] _]]. auto.
      - intros c l H. apply Qin in H as [H1 H2]. splits; auto. apply andb_true_iff. split; apply Nat.ltb_lt; auto. }
    split.
    - constructor; auto.
      intros s t l Hs Ht Hl _ _. left. cbn [min_init m_queue m_class]. apply Qin. auto.
    - pose proof (count_le _ S) as CL. unfold measure. cbn [min_init m_queue m_count] in *.
      assert (L : forall k a, length (flat_map (fun c : nat => map (fun l => (c, l)) (seq 0 nl)) (seq a k)) = k * nl).
      { induction k as [|k IH]; intros a; cbn [seq flat_map]; auto. rewrite app_length, map_length, seq_length, IH. lia. }
      rewrite L. nia.
  Qed.

  (** The result is the coarsest stable refinement of the initial classes. *)
  Lemma min_run_ok : exists m, min_run n nl prev cls0 k0 = Ok m /\ 
    (forall s, s < n -> m_class m s < m_count m) /\ (forall c, c < m_count m -> exists s, s < n /\ m_class m s = c) /\
    (forall s t, s < n -> t < n -> m_class m s = m_class m t -> cls0 s = cls0 t) /\
    (forall s t l, s < n -> t < n -> l < nl -> m_class m s = m_class m t -> m_class m (delta s l) = m_class m (delta t l)) /\
    (forall s t, R s t -> m_class m s = m_class m t).
  Proof.
    destruct min_init_ok as [I M]. destruct (loop_ok (min_fuel n nl) _ I) as [m [E [V Q]]]; [unfold min_fuel; lia|].
    exists m. split; auto. destruct V as [S _ _ H]. destruct S. splits; auto.
    intros s t l Hs Ht Hl X. destruct (Nat.eq_dec (m_class m (delta s l)) (m_class m (delta t l))) as [|NE]; auto.
    rewrite Q in H. destruct (H s t l Hs Ht Hl X NE) as [[]|[]].
  Qed.
End Hopcroft.
