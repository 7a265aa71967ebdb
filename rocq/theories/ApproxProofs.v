(** What CreateApproxFsm builds. *)
From Coq Require Import List Bool Arith NArith Lia.
From Verif Require Import Util Spec PartitionModel PartitionProofs FsmModel Nfa FsmSem FsmBasics FsmOps FsmOps2 ApproxModel ApproxSpec.
Import ListNotations.
Local Opaque all_letters.

(** ** Adding edges, and possibly final states *)
Record grow (f g : fsm) (S : nat -> N -> nat -> Prop) : Prop := {
  gr_size : size g = size f;
  gr_init : initial g = initial f;
  gr_let : letters g = letters f;
  gr_sp : sparsed g = sparsed f;
  gr_det : determined g = determined f;
  gr_alt : isAlt g = true -> isAlt f = true /\ forall p c q, ~ S p c q;
  gr_raw : forall p c q, raw g p c q <-> raw f p c q \/ S p c q;
  gr_rows : rows_ok f -> rows_ok g
}.

Lemma grow_refl : forall f, grow f f (fun _ _ _ => False).
Proof. intros f. constructor; auto. intros; tauto. Qed.
Lemma grow_trans : forall f g h S T, grow f g S -> grow g h T -> grow f h (fun p c q => S p c q \/ T p c q).
Proof.
  intros f g h S T A B. destruct A, B. constructor; try congruence; auto.
  - intros H. destruct (gr_alt1 H) as [H1 H2]. destruct (gr_alt0 H1) as [H3 H4]. split; auto. intros p c q [X|X]; [eapply H4|eapply H2]; eauto.
  - intros p c q. rewrite gr_raw1, gr_raw0. tauto.
Qed.
Lemma grow_ext : forall f g S T, grow f g S -> (forall p c q, S p c q <-> T p c q) -> grow f g T.
Proof.
  intros f g S T A E. destruct A. constructor; auto.
  - intros H. destruct (gr_alt0 H) as [X Y]. split; auto. intros p c q Z. apply (Y p c q). apply E; auto.
  - intros p c q. rewrite gr_raw0, E. tauto.
Qed.
Lemma grow_connect : forall f a b c, a < size f -> b < size f -> (c < MaxChar)%N ->
  grow f (connect f a b c) (fun p c' q => p = a /\ c' = c /\ q = b).
Proof.
  intros f a b c Ha Hb Hc. destruct (connect_adds f a b c Ha Hb Hc). constructor; auto. cbn. discriminate.
Qed.
Lemma grow_set_final : forall f q b, grow f (set_final f q b) (fun _ _ _ => False).
Proof. intros f q b. constructor; auto. intros; cbn. unfold raw. cbn. tauto. Qed.

Lemma grow_fold : forall X (step : fsm -> X -> fsm) (S : X -> nat -> N -> nat -> Prop) (I : fsm -> Prop) l f,
  I f -> (forall g x, In x l -> I g -> grow g (step g x) (S x) /\ I (step g x)) ->
  grow f (fold_left step l f) (fun p c q => exists x, In x l /\ S x p c q) /\ I (fold_left step l f).
Proof.
  intros X step S I. induction l as [|x l IH]; intros f Hf H; cbn [fold_left].
  - split; auto. eapply grow_ext; [apply grow_refl|]. intros; split; [tauto|intros (x & [] & _)].
  - destruct (H f x (or_introl eq_refl) Hf) as [G1 I1]. destruct (IH (step f x) I1) as [G2 I2]; [intros; apply H; [right|]; auto|].
    split; auto. eapply grow_ext; [eapply grow_trans; [exact G1|exact G2]|]. intros p c q; cbn beta. split.
    + intros [H1|(y & Hy & H1)]; [exists x|exists y]; split; auto; [left; auto|right; auto].
    + intros (y & [<-|Hy] & H1); [auto|]. right. eauto.
Qed.

Lemma connected_raw : forall g p q c, sparsed g = false -> connected g p q c = true <-> raw g p c q.
Proof. intros g p q c H. unfold connected, destinations, translate. rewrite H. cbn [negb orb]. rewrite smem_in. reflexivity. Qed.

(** ** One level *)
Section Level.
  Variable f : fsm.
  Hypothesis Wf : rows_ok f.
  Hypothesis Sf : sparsed f = false.
  Variable shift : nat.
  Let n := size f.

  (** The edges of the copy at [shift] are those of the automaton. *)
  Definition copied (g : fsm) : Prop := shift + n + n <= size g /\ sparsed g = false /\
    forall x y c, x < n -> y < n -> (raw g (x + shift) c (y + shift) <-> raw f x c y).

  Lemma copied_grow : forall g h S, copied g -> grow g h S -> (forall p c q, S p c q -> shift + n <= q) -> copied h.
  Proof.
    intros g h S (A & B & C) G H. split; [rewrite (gr_size _ _ _ G); auto|]. split; [rewrite (gr_sp _ _ _ G); auto|].
    intros x y c Hx Hy. rewrite (gr_raw _ _ _ G), (C x y c Hx Hy). split; [|auto]. intros [?|X]; auto. apply H in X. lia.
  Qed.

  Definition replaced (x y : nat) (p : nat) (c : N) (q : nat) : Prop :=
    p = x + shift /\ q = y + shift + n /\ (c < MaxChar)%N /\ (c = Epsilon \/ ~ raw f x c y).
  Definition inserted (x : nat) (p : nat) (c : N) (q : nat) : Prop :=
    p = x + shift /\ q = x + shift + n /\ (c < MaxChar)%N.

  Lemma approx_dest_ok : forall x y g, x < n -> y < n -> copied g ->
    grow g (approx_dest n shift x g y) (replaced x y) /\ copied (approx_dest n shift x g y).
  Proof.
    intros x y g Hx Hy C.
    assert (L : grow g (fold_left (fun g ch => if connected g (x + shift) (y + shift) ch then g else connect g (x + shift) (y + shift + n) ch) all_letters g)
                 (fun p c q => exists ch, In ch all_letters /\ (p = x + shift /\ c = ch /\ q = y + shift + n /\ ~ raw f x ch y)) /\
               copied (fold_left (fun g ch => if connected g (x + shift) (y + shift) ch then g else connect g (x + shift) (y + shift + n) ch) all_letters g)).
    { apply (grow_fold N (fun g ch => if connected g (x + shift) (y + shift) ch then g else connect g (x + shift) (y + shift + n) ch)
               (fun ch p c q => p = x + shift /\ c = ch /\ q = y + shift + n /\ ~ raw f x ch y) copied); auto.
      intros h ch Hc Hh. apply all_letters_in in Hc.
      assert (G : grow h (if connected h (x + shift) (y + shift) ch then h else connect h (x + shift) (y + shift + n) ch)
                   (fun p c q => p = x + shift /\ c = ch /\ q = y + shift + n /\ ~ raw f x ch y)).
      { pose proof (connected_raw h (x + shift) (y + shift) ch (proj1 (proj2 Hh))) as R.
        rewrite (proj2 (proj2 Hh) x y ch Hx Hy) in R. destruct (connected h (x + shift) (y + shift) ch).
        - eapply grow_ext; [apply grow_refl|]. intros p c q. split; [tauto|]. intros (_ & _ & _ & X). apply X, R. reflexivity.
        - eapply grow_ext; [apply grow_connect; auto; destruct Hh as [A _]; lia|]. intros p c q; cbn beta. split; [|tauto].
          intros (-> & -> & ->). repeat split; auto. intros X. apply R in X. discriminate X. }
      split; auto. eapply copied_grow; [exact Hh|exact G|]. intros p c q (_ & _ & -> & _). lia. }
    destruct L as [G1 C1]. unfold approx_dest. set (g1 := fold_left _ all_letters g) in *. clearbody g1.
    assert (G2 : grow g1 (connect g1 (x + shift) (y + shift + n) Epsilon) (fun p c q => p = x + shift /\ c = Epsilon /\ q = y + shift + n)).
    { apply grow_connect; [destruct C1 as [A _]; lia|destruct C1 as [A _]; lia|reflexivity]. }
    split.
    - eapply grow_ext; [eapply grow_trans; [exact G1|exact G2]|]. intros p c q; cbn beta. unfold replaced. split.
      + intros [(ch & Hc & -> & -> & -> & H)|(-> & -> & ->)]; repeat split; auto. apply all_letters_in; auto.
      + intros (-> & -> & Hc & [->|H]); auto. left. exists c. rewrite all_letters_in. auto.
    - eapply copied_grow; [exact C1|exact G2|]. intros p c q (_ & _ & ->). lia.
  Qed.

  Lemma dests_raw : forall x c y, In y (destinations f x c) <-> raw f x c y.
  Proof. intros. unfold destinations, translate. rewrite Sf. reflexivity. Qed.

  Lemma approx_letter_ok : forall x c g, x < n -> copied g ->
    grow g (approx_letter f shift x g c) (fun p d q => (exists y, raw f x c y /\ replaced x y p d q) \/ inserted x p d q) /\
    copied (approx_letter f shift x g c).
  Proof.
    intros x c g Hx C.
    destruct (grow_fold nat (approx_dest n shift x) (replaced x) copied (destinations f x c) g C) as [G1 C1].
    { intros h y Hy Hh. apply approx_dest_ok; auto. apply dests_raw in Hy. apply raw_bound in Hy; auto. unfold n. tauto. }
    unfold approx_letter. fold n. set (g1 := fold_left _ (destinations f x c) g) in *. clearbody g1.
    destruct (grow_fold N (fun g ch => connect g (x + shift) (x + shift + n) ch) (fun ch p c' q => p = x + shift /\ c' = ch /\ q = x + shift + n) copied all_letters g1 C1) as [G2 C2].
    { intros h ch Hc Hh. apply all_letters_in in Hc.
      assert (G : grow h (connect h (x + shift) (x + shift + n) ch) (fun p c' q => p = x + shift /\ c' = ch /\ q = x + shift + n)) by (destruct Hh as [A _]; apply grow_connect; auto; lia).
      split; auto. eapply copied_grow; [exact Hh|exact G|]. intros p c' q (_ & _ & ->). lia. }
    split; auto. eapply grow_ext; [eapply grow_trans; [exact G1|exact G2]|]. intros p d q; cbn beta. unfold inserted. split.
    - intros [(y & Hy & H)|(ch & Hc & -> & -> & ->)]; [left; exists y; split; auto; apply dests_raw; auto|]. right. repeat split; auto. apply all_letters_in; auto.
    - intros [(y & Hy & H)|(-> & -> & Hd)]; [left; exists y; split; auto; apply dests_raw; auto|]. right. exists d. rewrite all_letters_in. auto.
  Qed.

  (** The edges that leave the copy for the next *)
  Definition raised (x : nat) (p : nat) (c : N) (q : nat) : Prop :=
    (exists y d, raw f x d y /\ replaced x y p c q) \/ (outgoing_letters f x <> [] /\ inserted x p c q).

  Lemma approx_state_ok : forall x g, x < n -> copied g ->
    grow g (approx_state f shift g x) (raised x) /\ copied (approx_state f shift g x).
  Proof.
    intros x g Hx C.
    destruct (grow_fold N (approx_letter f shift x) (fun c p d q => (exists y, raw f x c y /\ replaced x y p d q) \/ inserted x p d q) copied (outgoing_letters f x) g C) as [G1 C1].
    { intros h c _ Hh. apply approx_letter_ok; auto. }
    unfold approx_state. set (g1 := fold_left _ (outgoing_letters f x) g) in *. clearbody g1.
    assert (G2 : grow g1 (if is_final f x then set_final g1 (x + shift + size f) true else g1) (fun _ _ _ => False)).
    { destruct (is_final f x); [apply grow_set_final|apply grow_refl]. }
    split; [|eapply copied_grow; [exact C1|exact G2|]; intros p c q []].
    eapply grow_ext; [eapply grow_trans; [exact G1|exact G2]|]. intros p d q; cbn beta. unfold raised. split.
    - intros [(c & Hc & [(y & Hy & H)|H])|[]]; [left; exists y, c; auto|]. right. split; auto. intros X. rewrite X in Hc. destruct Hc.
    - intros [(y & c & Hy & H)|[Hn H]]; left.
      + exists c. split; [|left; eauto]. unfold outgoing_letters. apply mkeys_in. apply raw_pres in Hy. exact Hy.
      + destruct (outgoing_letters f x) as [|c l]; [congruence|]. exists c. split; [left; auto|auto].
  Qed.

  Lemma approx_states_ok : forall g, copied g ->
    grow g (fold_left (approx_state f shift) (seq 0 n) g) (fun p c q => exists x, x < n /\ raised x p c q).
  Proof.
    intros g C. destruct (grow_fold nat (approx_state f shift) raised copied (seq 0 n) g C) as [G _].
    { intros h x Hx Hh. apply in_seq in Hx. apply approx_state_ok; [lia|auto]. }
    eapply grow_ext; [exact G|]. intros p c q; cbn beta. split; intros (x & Hx & H); exists x; split; auto; [apply in_seq in Hx|apply in_seq]; lia.
  Qed.

  Lemma finals_fold : forall X (step : fsm -> X -> fsm), (forall g x, finals (step g x) = finals g) ->
    forall l g, finals (fold_left step l g) = finals g.
  Proof. intros X step H. induction l as [|x l IH]; intros g; cbn [fold_left]; auto. rewrite IH. auto. Qed.

  Lemma finals_connect : forall g a b c, finals (connect g a b c) = finals g.
  Proof. reflexivity. Qed.
  Lemma approx_state_finals : forall g x, finals (approx_state f shift g x) = if is_final f x then sadd (x + shift + n) (finals g) else finals g.
  Proof.
    intros g x. unfold approx_state. set (g1 := fold_left _ _ g). assert (E : finals g1 = finals g).
    { apply finals_fold. intros h c. unfold approx_letter. rewrite finals_fold by reflexivity. apply finals_fold. intros h0 y.
      unfold approx_dest. rewrite finals_connect. apply finals_fold. intros h1 ch. destruct (connected h1 _ _ ch); reflexivity. }
    destruct (is_final f x); cbn [set_final set_finals finals]; rewrite E; reflexivity.
  Qed.
  Lemma approx_states_finals : forall l g,
    (forall q, In q (finals (fold_left (approx_state f shift) l g)) <-> In q (finals g) \/ exists x, In x l /\ In x (finals f) /\ q = x + shift + n) /\
    (ssorted (finals g) -> ssorted (finals (fold_left (approx_state f shift) l g))).
  Proof.
    induction l as [|x l IH]; intros g; cbn [fold_left].
    - split; auto. intros q. split; auto. intros [H|(x & [] & _)]; auto.
    - destruct (IH (approx_state f shift g x)) as [A B]. rewrite approx_state_finals in A, B. split.
      + intros q. rewrite A. unfold is_final. destruct (smem x (finals f)) eqn:E.
        * apply smem_in in E. rewrite sadd_in. split.
          -- intros [[->|H]|(y & H1 & H2)]; auto; right; [exists x|exists y]; split; auto; [left; auto|right; auto].
          -- intros [H|(y & [<-|H1] & H2 & ->)]; auto. right. exists y. auto.
        * apply smem_false in E. split.
          -- intros [H|(y & H1 & H2)]; auto. right; exists y. split; auto. right; auto.
          -- intros [H|(y & [<-|H1] & H2 & ->)]; auto; [contradiction|]. right. exists y. auto.
      + intros H. apply B. destruct (is_final f x); auto. apply sadd_sorted; auto.
  Qed.
End Level.

(** ** All levels *)
Lemma level_unique : forall n x y i j, x < n -> y < n -> x + i * n = y + j * n -> i = j /\ x = y.
Proof.
  intros n x y i j Hx Hy E. assert (i = j).
  { enough (x / n + i = y / n + j) by (rewrite !Nat.div_small in H by auto; lia). rewrite <- !Nat.div_add by lia. rewrite E. reflexivity. }
  subst. split; auto. lia.
Qed.
Section Levels.
  Variable f : fsm.
  Hypothesis Rf : rows_ok f.
  Hypothesis Pf : plain f.
  Hypothesis Ff : ssorted (finals f).
  Hypothesis WF : forall q, In q (finals f) -> q < size f.
  Let n := size f.

  Definition same_level (k : nat) (p : nat) (c : N) (q : nat) : Prop :=
    exists i x y, i <= k /\ p = x + i * n /\ q = y + i * n /\ raw f x c y.
  Definition next_level (k : nat) (p : nat) (c : N) (q : nat) : Prop :=
    exists i x, i < k /\ x < n /\ raised f (i * n) x p c q.

  Record levels_ok (k : nat) (g : fsm) : Prop := {
    lv_size : size g = S k * n;
    lv_init : initial g = initial f;
    lv_plain : plain g;
    lv_det : determined g = determined f;
    lv_rows : rows_ok g;
    lv_sorted : ssorted (finals g);
    lv_fin : forall q, In q (finals g) <-> exists i x, i <= k /\ In x (finals f) /\ q = x + i * n;
    lv_raw : forall p c q, raw g p c q <-> same_level k p c q \/ next_level k p c q;
    lv_alt : isAlt g = true -> isAlt f = true /\ forall p c q, ~ next_level k p c q
  }.

  Lemma import_plain : forall g, rows_ok g -> plain g ->
    size (import_fsm g f) = size g + n /\ plain (import_fsm g f) /\ rows_ok (import_fsm g f) /\
    forall p c q, raw (import_fsm g f) p c q <-> raw g p c q \/ exists x y, p = x + size g /\ q = y + size g /\ raw f x c y.
  Proof.
    intros g Rg [U Sg]. destruct Pf as [Uf Sf]. unfold uncompressed in *.
    assert (Es : size (import_fsm g f) = size g + n) by (unfold size; cbn [import_fsm trans]; rewrite app_length, !map_length; reflexivity).
    split; auto. split; [split; [reflexivity|exact Sg]|]. split.
    - intros p. rewrite Es. destruct (lt_dec p (size g)) as [Hp|Hp].
      + rewrite row_at_import_own, U by auto. apply row_ok_mono with (size g); [lia|apply Rg].
      + rewrite row_at_import_foreign, Uf by lia. apply shift_row_ok, Rf.
    - intros p c q. unfold raw. destruct (lt_dec p (size g)) as [Hp|Hp].
      + rewrite row_at_import_own, U by auto. change (expand_row part_empty ?r) with r. split; auto. intros [H|(x & y & -> & _)]; [auto|lia].
      + rewrite row_at_import_foreign, Uf by lia. change (expand_row part_empty ?r) with r. rewrite row_get_shift, in_map_iff. split.
        * intros (y & <- & H). right. exists (p - size g), y. repeat split; auto; lia.
        * intros [H|(x & y & -> & -> & H)]; [apply (raw_bound g p c q Rg) in H; lia|].
          replace (x + size g - size g) with x by lia. eauto.
  Qed.

  Lemma level_ok : forall k g, levels_ok k g -> levels_ok (S k) (approx_level f g k).
  Proof.
    intros k g L. destruct L. destruct (import_plain g lv_rows0 lv_plain0) as (E1 & P1 & R1 & W1).
    unfold approx_level. fold n. set (g1 := import_fsm g f) in *.
    assert (I1 : initial g1 = initial g) by reflexivity. assert (D1 : determined g1 = determined g) by reflexivity.
    assert (A1 : isAlt g1 = isAlt g) by reflexivity. assert (F1 : finals g1 = finals g) by reflexivity. clearbody g1.
    assert (Cg : copied f (k * n) g1).
    { split; [fold n; rewrite E1, lv_size0; cbn [Nat.mul]; lia|]. split; [apply P1|]. intros x y c Hx Hy. rewrite W1, lv_raw0. split.
      - intros [[(i & x' & y' & Hi & Ex & Ey & H)|(i & x' & Hi & Hx' & H)]|(x' & y' & Ex & Ey & H)].
        + pose proof (raw_bound f x' c y' Rf H) as (B1 & B2 & _). fold n in B1, B2.
          destruct (level_unique n x x' k i Hx B1 Ex) as [<- <-]. replace y with y' by lia. auto.
        + unfold raised, replaced, inserted in H. exfalso.
          destruct H as [(y0 & d & H0 & Ep & Eq & _)|(_ & Ep & Eq & _)]; destruct (level_unique n x x' k i Hx Hx' Ep) as [<- <-]; lia.
        + exfalso. fold n in Hx. rewrite lv_size0 in Ex. cbn [Nat.mul] in Ex. lia.
      - intros H. left. left. exists k, x, y. auto. }
    pose proof (approx_states_ok f Rf (proj2 Pf) (k * n) g1 Cg) as G. fold n in G.
    destruct (approx_states_finals f (k * n) (seq 0 n) g1) as [FA FB].
    set (h := fold_left _ _ g1) in *. clearbody h. constructor.
    - rewrite (gr_size _ _ _ G), E1, lv_size0. cbn [Nat.mul]. lia.
    - rewrite (gr_init _ _ _ G), I1. auto.
    - split; [red; rewrite (gr_let _ _ _ G); apply P1|rewrite (gr_sp _ _ _ G); apply P1].
    - rewrite (gr_det _ _ _ G), D1. auto.
    - apply (gr_rows _ _ _ G). auto.
    - apply FB. rewrite F1. auto.
    - intros q. rewrite FA, F1, lv_fin0. split.
      + intros [(i & x & Hi & Hx & ->)|(x & _ & Hx & ->)]; [exists i, x; auto|]. exists (S k), x. repeat split; auto. fold n. cbn [Nat.mul]. lia.
      + intros (i & x & Hi & Hx & ->). destruct (Nat.eq_dec i (S k)) as [->|Hne]; [|left; exists i, x; repeat split; auto; lia].
        destruct (lt_dec x n) as [Hl|Hl].
        * right. exists x. split; [apply in_seq; lia|]. split; auto. fold n. cbn [Nat.mul]. lia.
        * exfalso. apply Hl. apply WF. auto.
    - intros p c q. rewrite (gr_raw _ _ _ G), W1, lv_raw0. unfold same_level, next_level. split.
      + intros [[[(i & x & y & Hi & H)|(i & x & Hi & H)]|(x & y & -> & -> & H)]|(x & Hx & H)].
        * left. exists i, x, y. intuition lia.
        * right. exists i, x. intuition lia.
        * left. exists (S k), x, y. rewrite lv_size0. auto.
        * right. exists k, x. auto.
      + intros [(i & x & y & Hi & -> & -> & H)|(i & x & Hi & Hx & H)].
        * destruct (Nat.eq_dec i (S k)) as [->|Hne]; [left; right; exists x, y; rewrite lv_size0; auto|].
          left. left. left. exists i, x, y. repeat split; auto. lia.
        * destruct (Nat.eq_dec i k) as [->|Hne]; [right; exists x; auto|]. left. left. right. exists i, x. repeat split; auto; lia.
    - intros H. destruct (gr_alt _ _ _ G H) as [H1 H2]. rewrite A1 in H1. destruct (lv_alt0 H1) as [H3 H4]. split; auto.
      intros p c q (i & x & Hi & Hx & H5). destruct (Nat.eq_dec i k) as [->|Hne]; [apply (H2 p c q); eauto|].
      apply (H4 p c q). exists i, x. repeat split; auto. lia.
  Qed.

  Lemma levels_start : levels_ok 0 f.
  Proof.
    constructor; auto.
    - fold n. lia.
    - intros q. split; [intros H; exists 0, q; repeat split; auto; lia|]. intros (i & x & Hi & H & ->). replace (x + i * n) with x by nia. auto.
    - intros p c q. split.
      + intros H. left. exists 0, p, q. repeat split; auto; lia.
      + intros [(i & x & y & Hi & -> & -> & H)|(i & x & Hi & _)]; [|lia]. replace i with 0 by lia. cbn [Nat.mul]. rewrite !Nat.add_0_r. auto.
    - intros H. split; auto. intros p c q (i & x & Hi & _). lia.
  Qed.
  Lemma levels_all : forall d, levels_ok d (approx_levels f d).
  Proof.
    intros d. unfold approx_levels. enough (H : forall m k g, levels_ok k g -> levels_ok (k + m) (fold_left (approx_level f) (seq k m) g)).
    { apply (H d 0 f). apply levels_start. }
    induction m as [|m IH]; intros k g L; cbn [seq fold_left]; [rewrite Nat.add_0_r; auto|].
    replace (k + S m) with (S k + m) by lia. apply IH. apply level_ok; auto.
  Qed.

  (** ** Exchanged letters *)
  Lemma approx_pairs_in : forall x a b r, In (a, b, r) (approx_pairs f x) <->
    exists q, raw f x a q /\ raw f q b r /\ ~ (r = x /\ q = x).
  Proof.
    intros x a b r. unfold approx_pairs. rewrite in_flat_map. split.
    - intros (a' & _ & H). apply in_flat_map in H as (q & Hq & H). apply in_flat_map in H as (b' & _ & H). apply in_flat_map in H as (r' & Hr & H).
      apply (proj1 (dests_raw f (proj2 Pf) _ _ _)) in Hq. apply (proj1 (dests_raw f (proj2 Pf) _ _ _)) in Hr.
      destruct (negb (Nat.eqb r' x) || negb (Nat.eqb q x)) eqn:B; [|destruct H]. destruct H as [E|[]].
      assert (a' = a) by congruence. assert (b' = b) by congruence. assert (r' = r) by congruence. subst a' b' r'. exists q. repeat split; auto.
      intros [-> ->]. rewrite !Nat.eqb_refl in B. discriminate B.
    - intros (q & Hq & Hr & Hn). exists a. split; [apply mkeys_in; apply raw_pres in Hq; exact Hq|]. apply in_flat_map. exists q. split; [apply (dests_raw f (proj2 Pf)); auto|].
      apply in_flat_map. exists b. split; [apply mkeys_in; apply raw_pres in Hr; exact Hr|]. apply in_flat_map. exists r. split; [apply (dests_raw f (proj2 Pf)); auto|].
      destruct (Nat.eqb_spec r x) as [->|N1]; destruct (Nat.eqb_spec q x) as [->|N2]; cbn [negb orb]; [tauto| | |]; left; reflexivity.
  Qed.

  (** The states beyond [N0] are the middles of the pairs in [l]. *)
  Definition middle_in (N0 : nat) (l : list (nat * (N * N * nat))) (p : nat) (c : N) (q : nat) : Prop :=
    exists j a r, nth_error l j = Some (p, (a, c, r)) /\ q = N0 + j.
  Definition middle_out (N0 : nat) (l : list (nat * (N * N * nat))) (p : nat) (c : N) (q : nat) : Prop :=
    exists j st b r, nth_error l j = Some (st, (c, b, r)) /\ p = N0 + j /\ q = r + (st / n + 1) * n.
  Record swapped (g : fsm) (l : list (nat * (N * N * nat))) (h : fsm) : Prop := {
    sp_size : size h = size g + length l;
    sp_init : initial h = initial g;
    sp_fin : finals h = finals g;
    sp_plain : plain h;
    sp_det : determined h = determined g;
    sp_rows : rows_ok h;
    sp_raw : forall p c q, raw h p c q <-> raw g p c q \/ middle_in (size g) l p c q \/ middle_out (size g) l p c q;
    sp_alt : isAlt h = true -> isAlt g = true /\ l = []
  }.
  Lemma nth_error_snoc : forall A (l : list A) x j y, nth_error (l ++ [x]) j = Some y <-> nth_error l j = Some y \/ (j = length l /\ x = y).
  Proof.
    intros A l x j y. destruct (lt_dec j (length l)) as [H|H].
    - rewrite nth_error_app1 by auto. split; [auto|]. intros [?|[-> _]]; [auto|lia].
    - rewrite nth_error_app2 by lia. split.
      + intros E. right. destruct (j - length l) as [|m] eqn:Em; [|destruct m; discriminate E]. split; [lia|]. cbn in E. congruence.
      + intros [E|[-> ->]]; [assert (j < length l) by (apply nth_error_Some; congruence); lia|]. rewrite Nat.sub_diag. reflexivity.
  Qed.
  Lemma swap_ok : forall g l h st a b r, swapped g l h -> st < size g -> (a < MaxChar)%N -> (b < MaxChar)%N -> r + (st / n + 1) * n < size g ->
    swapped g (l ++ [(st, (a, b, r))]) (approx_swap n h (st, (a, b, r))).
  Proof.
    intros g l h st a b r S Hs Ha Hb Hr. destruct S. unfold approx_swap.
    set (h1 := resize_fsm h (size h + 1)). assert (E1 : size h1 = size h + 1) by apply size_resize.
    assert (R1 : forall p c q, raw h1 p c q <-> raw h p c q) by (intros; apply raw_resize; lia).
    assert (O1 : rows_ok h1) by (apply rows_ok_resize; [lia|auto]).
    assert (X1 : initial h1 = initial h /\ finals h1 = finals h /\ letters h1 = letters h /\ sparsed h1 = sparsed h /\ determined h1 = determined h) by (repeat split; reflexivity).
    clearbody h1. replace (size h1 - 1) with (size h) by lia.
    assert (A1 : adds h1 (connect h1 st (size h) b) (fun p c' q => p = st /\ c' = b /\ q = size h)) by (apply connect_adds; auto; lia).
    set (h2 := connect h1 st (size h) b) in *. clearbody h2.
    assert (A2 : adds h2 (connect h2 (size h) (r + (st / n + 1) * n) a) (fun p c' q => p = size h /\ c' = a /\ q = r + (st / n + 1) * n)).
    { apply connect_adds; auto; rewrite (ad_size _ _ _ A1); lia. }
    assert (Alt : isAlt (connect h2 (size h) (r + (st / n + 1) * n) a) = false) by reflexivity.
    set (h3 := connect h2 (size h) (r + (st / n + 1) * n) a) in *. clearbody h3.
    destruct X1 as (X1 & X2 & X3 & X4 & X5). constructor.
    - rewrite (ad_size _ _ _ A2), (ad_size _ _ _ A1), E1, sp_size0, app_length. cbn [length]. lia.
    - rewrite (ad_init _ _ _ A2), (ad_init _ _ _ A1), X1. auto.
    - rewrite (ad_fin _ _ _ A2), (ad_fin _ _ _ A1), X2. auto.
    - destruct sp_plain0 as [P1 P2]. unfold uncompressed in P1. split; [red|]; [rewrite (ad_let _ _ _ A2), (ad_let _ _ _ A1), X3|rewrite (ad_sp _ _ _ A2), (ad_sp _ _ _ A1), X4]; auto.
    - rewrite (ad_det _ _ _ A2), (ad_det _ _ _ A1), X5. auto.
    - apply (ad_rows _ _ _ A2). apply (ad_rows _ _ _ A1). auto.
    - intros p c q. rewrite (ad_raw _ _ _ A2), (ad_raw _ _ _ A1), R1, sp_raw0. unfold middle_in, middle_out. split.
      + intros [[[H|[(j & a' & r' & H & ->)|(j & s & b' & r' & H & -> & ->)]]|(-> & -> & ->)]|(-> & -> & ->)]; auto; right.
        * left. exists j, a', r'. rewrite nth_error_snoc. auto.
        * right. exists j, s, b', r'. rewrite nth_error_snoc. auto.
        * left. exists (length l), a, r. rewrite nth_error_snoc. split; auto.
        * right. exists (length l), st, b, r. rewrite nth_error_snoc. split; auto.
      + intros [H|[(j & a' & r' & H & ->)|(j & s & b' & r' & H & -> & ->)]]; auto; apply nth_error_snoc in H as [H|[-> H]].
        * left. left. right. left. eauto.
        * injection H as <- <- <- <-. left. right. auto.
        * left. left. right. right. exists j, s, b', r'. auto.
        * injection H as <- <- <- <-. right. auto.
    - rewrite Alt. discriminate.
  Qed.
  Lemma swaps_ok : forall g l l0 h, swapped g l0 h ->
    (forall st a b r, In (st, (a, b, r)) l -> st < size g /\ (a < MaxChar)%N /\ (b < MaxChar)%N /\ r + (st / n + 1) * n < size g) ->
    swapped g (l0 ++ l) (fold_left (approx_swap n) l h).
  Proof.
    intros g l. induction l as [|[st [[a b] r]] l IH]; intros l0 h S H; cbn [fold_left]; [rewrite app_nil_r; auto|].
    replace (l0 ++ (st, (a, b, r)) :: l) with ((l0 ++ [(st, (a, b, r))]) ++ l) by (rewrite <- app_assoc; reflexivity).
    apply IH; [|intros; apply H; right; auto]. destruct (H st a b r) as (H1 & H2 & H3 & H4); [left; auto|]. apply swap_ok; auto.
  Qed.

  Definition approx_list (d : nat) : list (nat * (N * N * nat)) :=
    flat_map (fun state => map (pair state) (approx_pairs f (state mod n))) (seq 0 (d * n)).
  Lemma approx_list_in : forall d st a b r, 0 < n -> In (st, (a, b, r)) (approx_list d) <->
    exists i x q, i < d /\ x < n /\ st = x + i * n /\ raw f x a q /\ raw f q b r /\ ~ (r = x /\ q = x).
  Proof.
    intros d st a b r Hn. unfold approx_list. rewrite in_flat_map. split.
    - intros (s & Hs & H). apply in_map_iff in H as (y & E & H). apply in_seq in Hs. injection E as -> ->. apply approx_pairs_in in H as (q & H1 & H2 & H3).
      exists (st / n), (st mod n), q. pose proof (Nat.div_mod st n). split; [apply Nat.div_lt_upper_bound; lia|]. split; [apply Nat.mod_upper_bound; lia|]. split; [lia|auto].
    - intros (i & x & q & Hi & Hx & -> & H). exists (x + i * n). split; [apply in_seq; nia|]. apply in_map. apply approx_pairs_in. exists q.
      replace ((x + i * n) mod n) with x; auto. rewrite Nat.mod_add by lia. rewrite Nat.mod_small; auto.
  Qed.

  Theorem approx_shape : forall d, 0 < n -> exists g, levels_ok d g /\ swapped g (approx_list d) (create_approx f d).
  Proof.
    intros d Hn. pose proof (levels_all d) as L. exists (approx_levels f d). split; auto. unfold create_approx.
    set (g := approx_levels f d) in *. clearbody g. fold n.
    replace (flat_map _ (seq 0 (if d =? 0 then 0 else size g - n))) with (approx_list d).
    2:{ unfold approx_list. f_equal. f_equal. rewrite (lv_size _ _ L). fold n. destruct (Nat.eqb_spec d 0) as [->|]; lia. }
    change (approx_list d) with ([] ++ approx_list d). apply swaps_ok.
    - destruct L. constructor; auto; cbn [length]. intros p c q. split; [auto|]. intros [H|[(j & a & r & H & _)|(j & s & b & r & H & _)]]; auto; destruct j; discriminate H.
    - intros st a b r H. apply approx_list_in in H as (i & x & q & Hi & Hx & -> & H1 & H2 & _); auto.
      rewrite Nat.div_add, Nat.div_small by lia. rewrite (lv_size _ _ L). fold n.
      apply raw_bound in H1 as (_ & _ & Ha); auto. apply raw_bound in H2 as (_ & Hr & Hb); auto. fold n in Hr. repeat split; auto; nia.
  Qed.
End Levels.
