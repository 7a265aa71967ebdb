(** A surrounded automaton: the first state of the list where a text may end belongs to a
    match that begins as early as any. *)
From Coq Require Import List Bool Arith NArith Lia Sorting.Sorted.
From Verif Require Import Util Spec PartitionModel FsmModel Nfa NfaOps ScannerModel SimpleModel SimpleProofs CapModel CapSpec CapTable CapRun.
Import ListNotations.
Local Open Scope N_scope.

Lemma push_prefix : forall s l nl nl', push_states s l nl = Ok nl' -> exists l1 l2, l = l1 ++ l2 /\ cs_states nl' = cs_states nl ++ l1 /\ cs_pos nl' = cs_pos nl /\
  (l2 = [] \/ exists st, In st l1 /\ cap_matched s st = Ok true).
Proof.
  intros s l. induction l as [|st l IH]; intros nl nl' R; cbn [push_states] in R.
  - injection R as <-. exists [], []. splits; auto. rewrite app_nil_r. reflexivity.
  - destruct (cap_matched s st) as [b| | |] eqn:E; cbn [bind] in R; try discriminate R. destruct b.
    + injection R as <-. exists [st], l. splits; auto. right. exists st. split; [left|]; auto.
    + apply IH in R. destruct R as (l1 & l2 & -> & S & P & D). exists (st :: l1), l2. cbn [cs_states cs_pos] in *. rewrite S, <- app_assoc. splits; auto.
      destruct D as [|(t & I & M)]; [auto|right; exists t; split; [right|]; auto].
Qed.
Lemma sorted_app : forall X (R : X -> X -> Prop) l1 l2, StronglySorted R l1 -> StronglySorted R l2 -> (forall x y, In x l1 -> In y l2 -> R x y) -> StronglySorted R (l1 ++ l2).
Proof.
  intros X R l1 l2 S1 S2 H. induction S1 as [|x l1 S1 IH F]; cbn [app]; auto. constructor.
  - apply IH. intros. apply H; auto. right; auto.
  - apply Forall_app. split; auto. apply Forall_forall. intros y Hy. apply H; auto. left; auto.
Qed.
Lemma sorted_prefix : forall X (R : X -> X -> Prop) l1 l2, StronglySorted R (l1 ++ l2) -> StronglySorted R l1.
Proof. intros X R l1 l2 S. induction l1 as [|x l1 IH]; [constructor|]. cbn [app] in S. inversion S as [|? ? S' F]; subst. apply Forall_app in F. constructor; [auto|tauto]. Qed.
Lemma map_split : forall X Y (f : X -> Y) l a b, map f l = a ++ b -> exists l1 l2, l = l1 ++ l2 /\ map f l1 = a /\ map f l2 = b.
Proof.
  intros X Y f l a. revert l. induction a as [|y a IH]; intros l b H; [exists [], l; auto|]. destruct l as [|x l]; [discriminate H|]. cbn [map app] in H. injection H as E H.
  destruct (IH l b H) as (l1 & l2 & -> & E1 & E2). exists (x :: l1), l2. cbn [map]. rewrite E, E1. auto.
Qed.

Section Left.
  Variables (s : cap) (n : nat) (E : nat -> N -> nat -> Prop) (A0 : nat -> nat -> N) (i : nat) (F : nat -> bool).
  Hypothesis H : cap_shows s n E A0 i F.
  Let A p q := A0 p q mod two32.
  Hypothesis Into : forall p c, E p c i -> p = i.
  Hypothesis Loop : forall c r, c < MaxChar -> c <> Epsilon -> (E i c r <-> r = i).
  Hypothesis Aii : A i i = 0.
  Hypothesis Ends : forall q c, c < MaxChar -> ends E F q -> E q c q.
  Hypothesis NotI : ~ ends E F i.
  Hypothesis Zero : forall r, E 0%nat BeginMark r -> i = 0%nat.
  (** no greedy repetition ends before a letter was read *)
  Hypothesis Calm : forall q r, path E i [] q -> E q Epsilon r -> N.testbit (A q r) 2 = false.

  (** runs that left the initial state after k letters *)
  Inductive sreach : list N -> nat -> N -> N -> nat -> Prop :=
  | sr_leave : forall w b e q, reach E A i w i b e -> E i Epsilon q -> q <> i -> sreach w q (note_begin (A i q) (N.of_nat (length w)) b) (note_end (A i q) (N.of_nat (length w)) e) (length w)
  | sr_eps : forall w p b e q k, sreach w p b e k -> E p Epsilon q -> sreach w q (note_begin (A p q) (N.of_nat (length w)) b) (note_end (A p q) (N.of_nat (length w)) e) k
  | sr_step : forall w p b e c q k, sreach w p b e k -> E p c q -> sreach (w ++ [c]) q (note_begin (A p q) (N.of_nat (length w) + 1) b) (note_end (A p q) (N.of_nat (length w) + 1) e) k.
  Lemma sreach_not : forall w q b e k, sreach w q b e k -> q <> i.
  Proof. intros w q b e k S. induction S; auto; intros ->; apply IHS; eapply Into; eauto. Qed.
  Lemma sreach_le : forall w q b e k, sreach w q b e k -> (k <= length w)%nat.
  Proof. intros w q b e k S. induction S; auto. rewrite app_length. lia. Qed.

  Definition num (x : single * nat) (q : nat) : Prop := g_num (fst x) = N.of_nat q.
  Lemma num_inj : forall x p q, num x p -> num x q -> p = q.
  Proof. unfold num. intros. lia. Qed.
  Definition tok (w : list N) (x : single * nat) : Prop := exists q, num x q /\ (q < n)%nat /\
    ((q = i /\ reach E A i w i (g_begin (fst x)) (g_end (fst x)) /\ snd x = S (length w)) \/ sreach w q (g_begin (fst x)) (g_end (fst x)) (snd x)).
  Lemma tok_le : forall w x, tok w x -> (snd x <= S (length w))%nat.
  Proof. intros w x (q & _ & _ & [(_ & _ & ->)|S]); auto. apply sreach_le in S. lia. Qed.
  Lemma tok_range : forall w x, tok w x -> in_range n (fst x).
  Proof. intros w x (q & Hq & L & _). exists q. auto. Qed.
  Definition before (x y : single * nat) : Prop := (snd x <= snd y)%nat.

  Record proc (w : list N) (nl : cstate) (used : list bool) (V PG : list (single * nat)) (B : nat) : Prop := {
    pc_len : length used = n;
    pc_pos : cs_pos nl = N.of_nat (length w);
    pc_tok : forall x, In x V -> tok w x;
    pc_le : forall x, In x V -> (snd x <= B)%nat;
    pc_used : forall q, nth_error used q = Some true -> exists x, In x V /\ num x q;
    pc_closed : forall x q r, In x V -> num x q -> E q Epsilon r -> exists y, In y V /\ num y r /\ (snd y <= snd x)%nat;
    pc_pushed : map fst PG = cs_states nl;
    pc_incl : incl PG V;
    pc_sorted : StronglySorted before PG;
    pc_cover : forall x, In x V -> exists y, In y PG /\ (snd y <= snd x)%nat /\ (g_num (fst y) = g_num (fst x) \/ stops E F (fst y))
  }.
  Lemma proc_group : forall w nl used V PG B used' G B' nl', proc w nl used V PG B ->
    length used' = n -> (forall x, In x G -> tok w x) -> (forall x, In x G -> (B <= snd x <= B')%nat) -> (B <= B')%nat ->
    (forall q, nth_error used' q = Some true -> nth_error used q = Some true \/ exists x, In x G /\ num x q) ->
    (forall x q r, In x G -> num x q -> E q Epsilon r -> nth_error used' r = Some true) ->
    (forall x y q r, In x G -> In y G -> num x q -> num y r -> E q Epsilon r -> (snd y <= snd x)%nat) ->
    StronglySorted before G -> push_states s (map fst G) nl = Ok nl' ->
    exists PG', proc w nl' used' (V ++ G) PG' B'.
  Proof.
    intros w nl used V PG B used' G B' nl' P Lu Tk Le LB Us Cl Or So R. destruct (push_prefix s _ nl nl' R) as (l1 & l2 & El & Es & Ep & D).
    destruct (map_split _ _ _ _ _ _ El) as (G1 & G2 & -> & <- & <-). exists (PG ++ G1). split.
    - exact Lu.
    - rewrite Ep. apply P.
    - intros x Hx. apply in_app_iff in Hx. destruct Hx as [Hx|Hx]; [apply (pc_tok _ _ _ _ _ _ P); auto|auto].
    - intros x Hx. apply in_app_iff in Hx. destruct Hx as [Hx|Hx]; [apply (pc_le _ _ _ _ _ _ P) in Hx; lia|apply Le; auto].
    - intros q Hq. setoid_rewrite in_app_iff. destruct (Us q Hq) as [X|(x & I & N)]; [apply (pc_used _ _ _ _ _ _ P) in X; destruct X as (x & I & N)|]; eauto.
    - intros x q r Hx Nx Er. setoid_rewrite in_app_iff. apply in_app_iff in Hx. destruct Hx as [Hx|Hx].
      + destruct (pc_closed _ _ _ _ _ _ P x q r Hx Nx Er) as (y & Y). exists y. tauto.
      + destruct (Us r (Cl x q r Hx Nx Er)) as [X|(y & I & N)].
        * apply (pc_used _ _ _ _ _ _ P) in X. destruct X as (y & I & N). exists y. splits; auto. apply (pc_le _ _ _ _ _ _ P) in I. specialize (Le x Hx). lia.
        * exists y. splits; auto. eapply Or; eauto.
    - rewrite map_app, (pc_pushed _ _ _ _ _ _ P), Es. reflexivity.
    - intros x Hx. apply in_app_iff in Hx. rewrite !in_app_iff. destruct Hx as [Hx|Hx]; [left; apply (pc_incl _ _ _ _ _ _ P); auto|auto].
    - apply sorted_app; [apply P|eapply sorted_prefix; eauto|]. intros x y Hx Hy. unfold before. apply (pc_incl _ _ _ _ _ _ P), (pc_le _ _ _ _ _ _ P) in Hx. specialize (Le y ltac:(apply in_app_iff; auto)). lia.
    - intros x Hx. setoid_rewrite in_app_iff. rewrite !in_app_iff in Hx. destruct Hx as [Hx|[Hx|Hx]].
      + destruct (pc_cover _ _ _ _ _ _ P x Hx) as (y & Y). exists y. tauto.
      + exists x. splits; auto.
      + destruct D as [D|(st & I & M)]; [apply map_eq_nil in D; subst G2; contradiction|]. apply in_map_iff in I. destruct I as (y & <- & I). exists y. splits; auto.
        * assert (Z : forall l1 l2 : list (single * nat), StronglySorted before (l1 ++ l2) -> In y l1 -> In x l2 -> before y x).
          { clear. induction l1 as [|a l1 IH]; intros l2 S I1 I2; [contradiction|]. cbn [app] in S. inversion S as [|? ? S' Fa]; subst. destruct I1 as [->|I1]; [|eapply IH; eauto].
            rewrite Forall_forall in Fa. apply Fa, in_app_iff. auto. }
          exact (Z G1 G2 So I Hx).
        * right. destruct (matched_ok s n E A0 i F H (fst y)) as (m & M' & X); [eapply tok_range; apply Tk; apply in_app_iff; auto|]. rewrite M in M'. injection M' as <-. apply X. reflexivity.
  Qed.

  (** ** The group of one state *)
  Lemma group_later : forall w x c l used, tok w x -> ~ num x i -> c < MaxChar -> cap_translate s c = Ok l -> length used = n ->
    let w' := w ++ [c] in
    exists p1 used', to_groups (groups_fuel s) s (fst x) l (N.of_nat (length w) + 1) used prio_new = Ok (p1, used') /\
      let G := map (fun t => (t, snd x)) (all_of p1) in length used' = n /\ (forall y, In y G -> tok w' y) /\ (snd x <= length w)%nat /\
      (forall q, nth_error used q = Some true -> nth_error used' q = Some true) /\
      (forall q, nth_error used' q = Some true -> nth_error used q = Some true \/ exists y, In y G /\ num y q) /\
      (forall y q r, In y G -> num y q -> E q Epsilon r -> nth_error used' r = Some true) /\
      (forall q r, num x q -> E q c r -> nth_error used' r = Some true).
  Proof.
    intros w x c l used (q & Nq & Lq & T) Ni Hc Tl Lu. cbv zeta. destruct T as [(-> & _)|T]; [contradiction|].
    set (P := fun t : single => exists r, g_num t = N.of_nat r /\ sreach (w ++ [c]) r (g_begin t) (g_end t) (snd x)).
    assert (Lp : N.of_nat (length w) + 1 = N.of_nat (length (w ++ [c]))) by (rewrite app_length; cbn [length]; lia).
    destruct (groups_ok s n E A0 i F H P (N.of_nat (length w) + 1)) with (fuel := groups_fuel s) (cur := fst x) (q := q) (c := c) (l := l) (used := used) (acc := prio_new) as (p1 & u1 & new & R & G & I & U); auto.
    { intros st p r (p' & Np & Sp) Nst Er. assert (p' = p) by lia. subst p'. rewrite cap_move_eq. exists r. split; auto. cbn [g_begin g_end]. rewrite Lp. apply sr_eps; auto. }
    { eapply fuel_ok; eauto. }
    { intros r Er. rewrite cap_move_eq. exists r. split; auto. cbn [g_begin g_end]. apply sr_step; auto. }
    exists p1, u1. split; [exact R|].
    assert (I' : forall t, In t (all_of p1) <-> In t new) by (intros t; rewrite I; cbn [prio_new all_of pr_non pr_none pr_greedy app In]; tauto).
    splits.
    - rewrite (gw_len _ _ _ _ _ _ G). exact Lu.
    - intros y Hy. apply in_map_iff in Hy. destruct Hy as (t & <- & Ht). apply I' in Ht. destruct (gw_new _ _ _ _ _ _ G t Ht) as ((r & Nr & Sr) & r' & Nr' & Lr). assert (r' = r) by lia. subst r'.
      exists r. unfold num. cbn [fst snd]. splits; auto.
    - eapply sreach_le; eauto.
    - apply G.
    - intros r Hr. apply (gw_old _ _ _ _ _ _ G) in Hr. destruct Hr as [Hr|(t & It & Nt)]; auto. right. exists (t, snd x). split; [|exact Nt]. apply in_map_iff. exists t. split; auto. apply I'; auto.
    - intros y p r Hy Np Er. apply in_map_iff in Hy. destruct Hy as (t & <- & Ht). apply I' in Ht. eapply (gw_closed _ _ _ _ _ _ G); eauto.
    - intros p r Np Er. assert (p = q) by (eapply num_inj; eauto). subst p. auto.
  Qed.

  Lemma testbit2 : forall a, N.testbit a 2 = false -> (N.land a EndRepetition =? 0) = true.
  Proof.
    intros a Ha. apply N.eqb_eq. apply N.bits_inj. intros k. rewrite N.land_spec, N.bits_0. destruct (N.eq_dec k 2) as [->|Hk]; [rewrite Ha; reflexivity|].
    change EndRepetition with (2 ^ 2). rewrite N.pow2_bits_false by auto. apply andb_false_r.
  Qed.
  Lemma groups_calm : forall fuel cur q pos used acc acc' used' le, cap_translate s Epsilon = Ok le -> to_groups fuel s cur le pos used acc = Ok (acc', used') -> g_num cur = N.of_nat q -> (q < n)%nat -> path E i [] q ->
    length used' = length used /\ pr_greedy acc' = pr_greedy acc /\ (forall x, nth_error used x = Some true -> nth_error used' x = Some true) /\
    forall t, In t (all_of acc') -> In t (all_of acc) \/ nth_error used (N.to_nat (g_num t)) = Some false.
  Proof.
    induction fuel as [|fuel IH]; intros cur q pos used acc acc' used' le Tle R Nq Lq Pq; [discriminate R|]. cbn [to_groups] in R. rewrite Nq in R.
    destruct (ks_next _ _ _ _ _ _ H Epsilon ltac:(reflexivity)) as (l' & Tl' & X). rewrite Tle in Tl'. injection Tl' as <-. destruct (X q Lq) as (ts & Ets & Its). clear X. rewrite Ets in R. cbn [bind] in R. rewrite Tle in R.
    assert (Hts : forall x a, In (x, a) ts -> exists r, x = N.of_nat r /\ E q Epsilon r /\ a = A q r /\ (r < n)%nat).
    { intros x a Hx. apply Its in Hx. destruct Hx as (r & R1 & R2 & R3). exists r. splits; auto. eapply (ks_bound _ _ _ _ _ _ H); eauto. }
    clear Its Ets. revert acc used R. induction ts as [|[x a] ts IHt]; intros acc used R.
    - cbn [foldm] in R. injection R as <- <-. splits; auto.
    - cbn [foldm] in R. destruct (Hts x a (or_introl eq_refl)) as (r & -> & Er & -> & Lr). rewrite Nnat.Nat2N.id in R. specialize (IHt ltac:(intros; apply Hts; right; auto)).
      destruct (nth_error used r) as [b|] eqn:Eu; [|discriminate R]. destruct b; [cbn [bind] in R; apply IHt; exact R|].
      cbn [bind] in R. set (st := cap_move cur (N.of_nat r) (A q r) pos) in *. set (used1 := upd r (fun _ => true) used) in *.
      destruct (to_groups fuel s st le pos used1 prio_new) as [[ins used2]| | |] eqn:Ei; cbn [bind] in R; try discriminate R.
      assert (Nst : g_num st = N.of_nat r) by (unfold st; rewrite cap_move_eq; reflexivity).
      destruct (IH st r pos used1 prio_new ins used2 le Tle Ei Nst Lr) as (Li & Gi & Mi & Fi). { change (@nil N) with (@nil N ++ []). eapply path_app; [exact Pq|]. apply path_eps1, Er. }
      cbn [prio_new pr_greedy] in Gi. destruct (IHt _ _ R) as (Lo & Go & Mo & Fo).
      assert (Cb : N.testbit (A q r) 2 = false) by (apply Calm; auto). apply testbit2 in Cb.
      assert (M1 : forall x, nth_error used x = Some true -> nth_error used1 x = Some true).
      { intros x Hx. unfold used1. rewrite nth_error_upd, Hx. destruct (Nat.eqb x r); reflexivity. }
      assert (F1 : forall x b, nth_error used2 x = Some false -> nth_error used1 x = Some b -> b = false).
      { intros x b Y Z. destruct b; auto. apply Mi in Z. congruence. }
      assert (L1 : length used1 = length used) by apply upd_length.
      splits.
      + congruence.
      + rewrite Go. unfold cap_insert. rewrite Cb. destruct (negb (N.land (A q r) EndNonGreedyRepetition =? 0)); cbn [pr_greedy]; auto. rewrite Gi. apply app_nil_r.
      + intros x Hx. apply Mo, Mi, M1, Hx.
      + intros t Ht. destruct (Fo t Ht) as [Y|Y].
        * apply insert_in in Y. destruct Y as [Y|Y]; auto. right.
          assert (Z : In t (all_of ins) \/ t = st). { unfold all_of in *. cbn [pr_non pr_none pr_greedy] in Y. rewrite !in_app_iff in *. cbn [In] in Y. clear - Y. firstorder. }
          destruct Z as [Z|Z]; [|rewrite Z, Nst, Nnat.Nat2N.id; exact Eu]. destruct (Fi t Z) as [[]|Z']. unfold used1 in Z'. rewrite nth_error_upd in Z'. destruct (Nat.eqb (N.to_nat (g_num t)) r); auto.
          destruct (nth_error used (N.to_nat (g_num t))); discriminate Z'.
        * right. destruct (nth_error used (N.to_nat (g_num t))) as [b|] eqn:Eb.
          -- destruct b; auto. apply M1, Mi in Eb. congruence.
          -- exfalso. apply nth_error_None in Eb. assert (Z : (N.to_nat (g_num t) < length used2)%nat) by (apply nth_error_Some; congruence). lia.
  Qed.

  Lemma path_i : path E i [] i.
  Proof. apply path_nil. Qed.
  Lemma skip_first : forall cur c l used pos, g_num cur = N.of_nat i -> c < MaxChar -> c <> Epsilon -> cap_translate s c = Ok l -> nth_error used i = Some true ->
    to_groups (groups_fuel s) s cur l pos used prio_new = Ok (prio_new, used).
  Proof.
    intros cur c l used pos Nc Hc Nce Tl Hu. destruct (ks_init _ _ _ _ _ _ H) as [_ Li]. unfold groups_fuel. cbn [to_groups]. rewrite Nc.
    destruct (ks_next _ _ _ _ _ _ H c Hc) as (l' & Tl' & X). rewrite Tl in Tl'. injection Tl' as <-. destruct (X i Li) as (ts & Ets & Its). rewrite Ets. cbn [bind].
    assert (Hts : forall x a, In (x, a) ts -> x = N.of_nat i). { intros x a Hx. apply Its in Hx. destruct Hx as (r & -> & Er & ->). apply Loop in Er; auto. }
    clear Its Ets X. induction ts as [|[x a] ts IH]; cbn [foldm]; auto. rewrite (Hts x a (or_introl eq_refl)), Nnat.Nat2N.id, Hu. cbn [bind]. apply IH. intros; eapply Hts; right; eauto.
  Qed.
  (** the group of the initial state: the initial state itself comes last *)
  Lemma group_first : forall w0 w cur c l used pos, g_num cur = N.of_nat i -> c < MaxChar -> c <> Epsilon -> cap_translate s c = Ok l -> length used = n -> pos = N.of_nat (length w) ->
    reach E A i w i (g_begin cur) (g_end cur) -> (w0 <= length w)%nat ->
    exists p1 used' G, to_groups (groups_fuel s) s cur l pos used prio_new = Ok (p1, used') /\ map fst G = all_of p1 /\
      length used' = n /\ (forall y, In y G -> tok w y) /\ (forall y, In y G -> (w0 <= snd y)%nat) /\ StronglySorted before G /\
      (forall q, nth_error used q = Some true -> nth_error used' q = Some true) /\
      (forall q, nth_error used' q = Some true -> nth_error used q = Some true \/ exists y, In y G /\ num y q) /\
      (forall y q r, In y G -> num y q -> E q Epsilon r -> nth_error used' r = Some true) /\
      (forall x y q r, In x G -> In y G -> num x q -> num y r -> E q Epsilon r -> (snd y <= snd x)%nat) /\
      nth_error used' i = Some true.
  Proof.
    intros w0 w cur c l used pos Nc Hc Nce Tl Lu -> Rc Lw.
    destruct (ks_init _ _ _ _ _ _ H) as [_ Li].
    set (P := fun t : single => exists r, g_num t = N.of_nat r /\ ((r = i /\ reach E A i w i (g_begin t) (g_end t)) \/ sreach w r (g_begin t) (g_end t) (length w))).
    assert (Mi : cap_move cur (N.of_nat i) (A i i) (N.of_nat (length w)) = mkSingle (N.of_nat i) (g_begin cur) (g_end cur)).
    { rewrite cap_move_eq, Aii. unfold note_begin, note_end. reflexivity. }
    assert (Pe : forall st p r, P st -> g_num st = N.of_nat p -> E p Epsilon r -> P (cap_move st (N.of_nat r) (A p r) (N.of_nat (length w)))).
    { intros st p r (p' & Np & D) Nst Er. assert (p' = p) by lia. subst p'. rewrite cap_move_eq. exists r. split; auto. cbn [g_begin g_end]. destruct D as [(-> & Rp)|Sp].
      - destruct (Nat.eq_dec r i) as [->|Nr]; [left; split; auto; apply reach_eps; auto|right; apply sr_leave; auto].
      - right. apply sr_eps; auto. }
    destruct (groups_ok s n E A0 i F H P (N.of_nat (length w)) Pe (groups_fuel s) cur i c l used prio_new) as (p1 & u1 & new & R & G & I & U); auto.
    { eapply fuel_ok; eauto. }
    { intros r Er. apply Loop in Er; auto. subst r. change (A0 i i mod two32) with (A i i). rewrite Mi. exists i. split; auto. }
    assert (I' : forall t, In t (all_of p1) <-> In t new) by (intros t; rewrite I; cbn [prio_new all_of pr_non pr_none pr_greedy app In]; tauto).
    set (gh := fun t : single => (t, if N.eqb (g_num t) (N.of_nat i) then S (length w) else length w)).
    assert (Tk : forall t, In t (all_of p1) -> tok w (gh t)).
    { intros t Ht. apply I' in Ht. destruct (gw_new _ _ _ _ _ _ G t Ht) as ((r & Nr & D) & r' & Nr' & Lr). assert (r' = r) by lia. subst r'. exists r. unfold num, gh. cbn [fst snd]. splits; auto.
      destruct D as [(-> & Rr)|Sr].
      - left. splits; auto. rewrite Nr, N.eqb_refl. reflexivity.
      - right. pose proof (sreach_not _ _ _ _ _ Sr). destruct (N.eqb_spec (g_num t) (N.of_nat i)) as [Y|_]; auto. exfalso. assert (r = i) by lia. auto. }
    exists p1, u1, (map gh (all_of p1)). split; [exact R|].
    assert (Sh : exists l0 l1, all_of p1 = l0 ++ l1 /\ (forall t, In t l0 -> g_num t <> N.of_nat i) /\ (forall t, In t l1 -> g_num t = N.of_nat i)).
    { clear - R Loop Nc Hc Nce Tl H Lu Li Calm Aii. unfold groups_fuel in R. cbn [to_groups] in R. rewrite Nc in R. destruct (ks_next _ _ _ _ _ _ H c Hc) as (l' & Tl' & X). rewrite Tl in Tl'. injection Tl' as <-.
      destruct (X i Li) as (ts & Ets & Its). rewrite Ets in R. cbn [bind] in R. destruct (ks_next _ _ _ _ _ _ H Epsilon ltac:(reflexivity)) as (le & Tle & _). rewrite Tle in R. cbn [bind] in R.
      assert (Hts : forall x a, In (x, a) ts -> x = N.of_nat i /\ a = A i i). { intros x a Hx. apply Its in Hx. destruct Hx as (r & -> & Er & ->). apply Loop in Er; auto. subst r. auto. }
      clear Its Ets X. set (fu := N.to_nat (k_states s)) in *. clearbody fu.
      match type of R with foldm ?f _ _ = _ => set (stepf := f) in * end.
      assert (Skip : forall ts acc u, (forall x a, In (x, a) ts -> x = N.of_nat i /\ a = A i i) -> nth_error u i = Some true -> foldm stepf ts (acc, u) = Ok (acc, u)).
      { clear R Hts ts. intros ts acc u. induction ts as [|[x a] ts IH]; intros Hts Hu; cbn [foldm]; auto. destruct (Hts x a (or_introl eq_refl)) as [-> ->].
        unfold stepf at 1. rewrite Nnat.Nat2N.id, Hu. cbn [bind]. apply IH; auto. intros; apply Hts; right; auto. }
      destruct (nth_error used i) as [b|] eqn:Eu; [|apply nth_error_None in Eu; lia]. destruct b; [rewrite (Skip ts prio_new used Hts Eu) in R; injection R as <- <-; exists [], []; splits; auto; intros ? []|].
      destruct ts as [|[x a] ts]; [cbn [foldm] in R; injection R as <- <-; exists [], []; splits; auto; intros ? []|]. cbn [foldm] in R. destruct (Hts x a (or_introl eq_refl)) as [-> ->].
      unfold stepf at 1 in R. rewrite Nnat.Nat2N.id, Eu in R. set (st := cap_move cur (N.of_nat i) (A i i) (N.of_nat (length w))) in *. set (used1 := upd i (fun _ => true) used) in *.
      destruct (to_groups fu s st le (N.of_nat (length w)) used1 prio_new) as [[ins used2]| | |] eqn:Ei; cbn [bind] in R; try discriminate R.
      assert (Nst : g_num st = N.of_nat i) by (unfold st; rewrite cap_move_eq; reflexivity).
      destruct (groups_calm fu st i (N.of_nat (length w)) used1 prio_new ins used2 le Tle Ei Nst Li path_i) as (_ & Gi & M & Fi). cbn [prio_new pr_greedy] in Gi.
      assert (U1 : nth_error used1 i = Some true) by (unfold used1; rewrite nth_error_upd, Nat.eqb_refl, Eu; reflexivity).
      rewrite (Skip ts _ used2 ltac:(intros; apply Hts; right; auto) (M i U1)) in R. injection R as <- <-.
      exists (pr_non ins ++ pr_none ins), [st]. rewrite Aii. unfold cap_insert, all_of. cbn [N.land N.eqb negb pr_non pr_none pr_greedy prio_new app]. rewrite Gi, !app_nil_r. splits.
      - rewrite app_assoc. reflexivity.
      - intros t Ht. assert (X : In t (all_of ins)) by (unfold all_of; rewrite !in_app_iff in *; tauto). destruct (Fi t X) as [[]|Y]. intros Z. rewrite Z, Nnat.Nat2N.id in Y. congruence.
      - intros t [<- | []]. exact Nst. }
    destruct Sh as (l0 & l1 & Es & S0 & S1).
    assert (Ge : forall y, In y (map gh (all_of p1)) -> exists t, y = gh t /\ In t (all_of p1)) by (intros y Hy; apply in_map_iff in Hy; destruct Hy as (t & <- & Ht); eauto).
    splits.
    - rewrite map_map. unfold gh. cbn [fst]. apply map_id.
    - rewrite (gw_len _ _ _ _ _ _ G). exact Lu.
    - intros y Hy. destruct (Ge y Hy) as (t & -> & Ht). auto.
    - intros y Hy. destruct (Ge y Hy) as (t & -> & Ht). unfold gh. cbn [snd]. destruct (N.eqb (g_num t) (N.of_nat i)); lia.
    - rewrite Es, map_app.
      assert (K : forall l k, (forall t, In t l -> snd (gh t) = k) -> StronglySorted before (map gh l)).
      { intros l' k. induction l' as [|t l' IH]; intros Hl; cbn [map]; constructor; [apply IH; intros; apply Hl; right; auto|]. apply Forall_forall. intros y Hy. apply in_map_iff in Hy. destruct Hy as (t' & <- & Ht').
        unfold before. rewrite (Hl t (or_introl eq_refl)), (Hl t' (or_intror Ht')). auto. }
      assert (K0 : forall t, In t l0 -> snd (gh t) = length w). { intros t Ht. unfold gh. cbn [snd]. destruct (N.eqb_spec (g_num t) (N.of_nat i)); auto. exfalso. eapply S0; eauto. }
      assert (K1 : forall t, In t l1 -> snd (gh t) = S (length w)). { intros t Ht. unfold gh. cbn [snd]. rewrite (S1 t Ht), N.eqb_refl. reflexivity. }
      apply sorted_app; [apply (K l0 (length w)); auto|apply (K l1 (S (length w))); auto|]. intros x y Hx Hy. apply in_map_iff in Hx. apply in_map_iff in Hy. destruct Hx as (t & <- & Ht). destruct Hy as (t' & <- & Ht').
      unfold before. rewrite K0, K1; auto.
    - apply G.
    - intros r Hr. apply (gw_old _ _ _ _ _ _ G) in Hr. destruct Hr as [Hr|(t & It & Nt)]; auto. right. exists (gh t). split; [|exact Nt]. apply in_map. apply I'; auto.
    - intros y p r Hy Np Er. destruct (Ge y Hy) as (t & -> & Ht). apply I' in Ht. eapply (gw_closed _ _ _ _ _ _ G); eauto.
    - intros x y p r Hx Hy Np Nr Er. destruct (Ge x Hx) as (t & -> & Ht). destruct (Ge y Hy) as (t' & -> & Ht'). unfold num, gh in *. cbn [fst snd] in *. rewrite Np, Nr.
      destruct (N.eqb_spec (N.of_nat r) (N.of_nat i)) as [Y|Y]; destruct (N.eqb_spec (N.of_nat p) (N.of_nat i)) as [Z|Z]; try lia. exfalso. apply Z. assert (r = i) by lia. subst r. apply Into in Er. congruence.
    - apply U. apply Loop; auto.
  Qed.

  (** ** All states of the list *)
  Record linv (w : list N) (cl : cstate) (L : list (single * nat)) : Prop := {
    li_states : map fst L = cs_states cl;
    li_pos : cs_pos cl = N.of_nat (length w);
    li_tok : forall x, In x L -> tok w x;
    li_sorted : StronglySorted before L;
    li_cover : forall q b e k, sreach w q b e k -> exists x, In x L /\ (snd x <= k)%nat /\ (num x q \/ stops E F (fst x));
    li_init : exists x, In x L /\ (num x i \/ stops E F (fst x))
  }.
  Lemma stops_num : forall x y : single * nat, g_num (fst x) = g_num (fst y) -> stops E F (fst y) -> stops E F (fst x).
  Proof. intros x y Hn (q & Hq & X). exists q. split; auto. congruence. Qed.
  Lemma proc_linv : forall w nl used V PG B, proc w nl used V PG B -> 
    (forall q b e k, sreach w q b e k -> exists x, In x V /\ (snd x <= k)%nat /\ (num x q \/ stops E F (fst x))) ->
    (exists x, In x V /\ (num x i \/ stops E F (fst x))) -> linv w nl PG.
  Proof.
    intros w nl used V PG B P C I. split; try apply P.
    - intros x Hx. apply (pc_incl _ _ _ _ _ _ P), (pc_tok _ _ _ _ _ _ P) in Hx. exact Hx.
    - intros q b e k S. destruct (C q b e k S) as (x & Ix & Lx & Dx). destruct (pc_cover _ _ _ _ _ _ P x Ix) as (y & Iy & Ly & Dy). exists y. splits; auto; [lia|].
      destruct Dy as [Dy|]; auto. destruct Dx as [Dx|Dx]; [left; unfold num in *; congruence|right; eapply stops_num; eauto].
    - destruct I as (x & Ix & Dx). destruct (pc_cover _ _ _ _ _ _ P x Ix) as (y & Iy & Ly & Dy). exists y. split; auto.
      destruct Dy as [Dy|]; auto. destruct Dx as [Dx|Dx]; [left; unfold num in *; congruence|right; eapply stops_num; eauto].
  Qed.
  Lemma proc_nil : forall w used m, used = used0 s -> proc w (mkState [] (N.of_nat (length w)) m) used [] [] 0.
  Proof.
    intros w used m ->. split; auto.
    - eapply used0_len; eauto.
    - intros x [].
    - intros x [].
    - intros q Hq. exfalso. eapply unused. exact Hq.
    - intros x q r [].
    - intros x [].
    - constructor.
    - intros x [].
  Qed.

  Lemma init_left : exists cl L, cap_initialize s = Ok cl /\ linv [] cl L.
  Proof.
    unfold cap_initialize. fold (used0 s). destruct (ks_next _ _ _ _ _ _ H BeginMark ltac:(reflexivity)) as (lb & Tb & _). rewrite Tb. cbn [bind].
    destruct (ks_init _ _ _ _ _ _ H) as [Si Li]. rewrite Si.
    assert (Ri : reach E A i [] i nowhere nowhere).
    { assert (Ei : E i BeginMark i) by (apply Loop; auto; [reflexivity|discriminate]). pose proof (reach_start E A i i Ei) as Y. rewrite Aii in Y. exact Y. }
    destruct (group_first 0 [] (single_new (N.of_nat i)) BeginMark lb (used0 s) 0) as (p1 & u1 & G & R1 & EG & L1 & T1 & B1 & S1 & M1 & O1 & C1 & Q1 & U1); auto.
    { reflexivity. } { discriminate. } { eapply used0_len; eauto. }
    rewrite R1. cbn [bind].
    assert (R2 : to_groups (groups_fuel s) s (single_new 0) lb 0 u1 p1 = Ok (p1, u1)).
    { unfold groups_fuel. cbn [to_groups single_new g_num]. destruct (ks_next _ _ _ _ _ _ H BeginMark ltac:(reflexivity)) as (lb' & Tb' & X). rewrite Tb in Tb'. injection Tb' as <-.
      destruct (X 0%nat ltac:(lia)) as (ts & Ets & Its). change (N.of_nat 0) with 0 in Ets. rewrite Ets. cbn [bind].
      assert (Hts : forall x a, In (x, a) ts -> x = N.of_nat i /\ i = 0%nat). { intros x a Hx. apply Its in Hx. destruct Hx as (r & -> & Er & _). pose proof (Zero r Er) as Z. rewrite <- Z in Er. apply Loop in Er; [subst r; auto|reflexivity|discriminate]. }
      clear Its Ets X R1. induction ts as [|[x a] ts IH]; cbn [foldm]; auto. destruct (Hts x a (or_introl eq_refl)) as [-> _]. rewrite Nnat.Nat2N.id, U1. cbn [bind]. apply IH. intros; eapply Hts; right; eauto. }
    rewrite R2. cbn [bind]. unfold update_nlist. fold (all_of p1). rewrite <- EG.
    destruct (push_ok s n E A0 i F H (map fst G) cstate_new) as (nl & l1 & R & _).
    { apply Forall_forall. intros t Ht. apply in_map_iff in Ht. destruct Ht as (y & <- & Hy). eapply tok_range; eauto. }
    rewrite R. destruct (proc_group [] cstate_new (used0 s) [] [] 0 u1 G 1 nl) as (PG & P); auto.
    { apply proc_nil. reflexivity. }
    { intros x Hx. split; [apply B1; auto|]. apply T1, tok_le in Hx. cbn [length] in Hx. exact Hx. }
    exists nl, PG. split; auto. eapply proc_linv; [exact P| |].
    - intros q b e k S. cbn [app] in P |- *.
      assert (Z : forall w q b e k, sreach w q b e k -> w = [] -> exists x, In x G /\ (snd x <= k)%nat /\ num x q).
      { clear S q b e k. intros w q b e k S. induction S as [w b e q Rw Eq Nq|w p b e q k S IH Eq|w p b e c q k S IH Eq]; intros Ew.
        - destruct (O1 i U1) as [X|(x & Ix & Nx)]; [exfalso; eapply unused; eauto|]. destruct (pc_closed _ _ _ _ _ _ P x i q Ix Nx Eq) as (y & Iy & Ny & Ly). exists y. splits; auto.
          destruct (T1 y Iy) as (q' & Nq' & _ & D). assert (q' = q) by (eapply num_inj; eauto). subst q'. destruct D as [(E1 & _)|D]; [contradiction|]. apply sreach_le in D. rewrite Ew. exact D.
        - destruct (IH Ew) as (x & Ix & Lx & Nx). destruct (pc_closed _ _ _ _ _ _ P x p q Ix Nx Eq) as (y & Iy & Ny & Ly). exists y. splits; auto. lia.
        - destruct w; discriminate. }
      destruct (Z [] q b e k S eq_refl) as (x & Ix & Lx & Nx). exists x. auto.
    - destruct (O1 i U1) as [X|(x & Ix & Nx)]; [exfalso; eapply unused; eauto|]. exists x. auto.
  Qed.

  Lemma next_left : forall w cl L c, linv w cl L -> c < MaxChar -> c <> Epsilon -> N.of_nat (length w) + 1 < two64 -> exists cl' L', cap_next s cl c = Ok cl' /\ linv (w ++ [c]) cl' L'.
  Proof.
    intros w cl L c I Hc Nc Lw. unfold cap_next. destruct (ks_next _ _ _ _ _ _ H c Hc) as (l & Tl & _). rewrite Tl. cbn [bind].
    unfold cap_next_translated. cbv zeta. rewrite (li_pos _ _ _ I), N.mod_small by auto. fold (used0 s). rewrite <- (li_states _ _ _ I).
    assert (Lp : N.of_nat (length w) + 1 = N.of_nat (length (w ++ [c]))) by (rewrite app_length; cbn [length]; lia).
    assert (Ln : length (w ++ [c]) = S (length w)) by (rewrite app_length; cbn [length]; lia).
    set (w' := w ++ [c]) in *.
    match goal with |- context [foldm ?g _ _] => set (stepf := g) end.
    assert (Lo : forall K nl used V PG B, (forall x, In x K -> tok w x /\ (B <= snd x)%nat) -> StronglySorted before K -> (B <= S (S (length w)))%nat -> proc w' nl used V PG B ->
      exists nl' used' V' PG' B', foldm stepf (map fst K) (nl, used) = Ok (nl', used') /\ proc w' nl' used' V' PG' B' /\ incl V V' /\
        (forall x q r, In x K -> num x q -> E q c r -> exists y, In y V' /\ num y r /\ (q <> i -> (snd y <= snd x)%nat))).
    { induction K as [|x K IH]; intros nl used V PG B HK SK LB P; cbn [map foldm].
      - exists nl, used, V, PG, B. splits; auto; [apply incl_refl|]. intros ? ? ? [].
      - inversion SK as [|? ? SK' FK]; subst. rewrite Forall_forall in FK. destruct (HK x (or_introl eq_refl)) as (Tx & Bx). destruct Tx as (q & Nq & Lq & D).
        assert (Step : exists nl1 used1 V1 PG1 B1, stepf (nl, used) (fst x) = Ok (nl1, used1) /\ proc w' nl1 used1 (V ++ V1) PG1 B1 /\ (B1 <= S (S (length w)))%nat /\ (forall y, In y K -> (B1 <= snd y)%nat \/ num x i) /\ (q <> i -> (B1 <= snd x)%nat) /\
          (forall r, E q c r -> nth_error used1 r = Some true)).
        { destruct (Nat.eq_dec q i) as [->|Nqi].
          - destruct D as [(_ & Rx & Kx)|D]; [|exfalso; eapply sreach_not; eauto].
            destruct (group_first B w' (fst x) c l used (N.of_nat (length w) + 1)) as (p1 & u1 & G & R1 & EG & L1 & T1 & B1 & S1 & M1 & O1 & C1 & Q1 & U1); auto.
            { apply P. }
            { unfold w'. pose proof (reach_step E A i w i _ _ c i Rx ltac:(apply Loop; auto)) as Y. rewrite Aii in Y. exact Y. }
            { rewrite Ln. rewrite Kx in Bx. exact Bx. }
            destruct (push_ok s n E A0 i F H (map fst G) nl) as (nl1 & l1 & R & _).
            { apply Forall_forall. intros t Ht. apply in_map_iff in Ht. destruct Ht as (y & <- & Hy). eapply tok_range; eauto. }
            destruct (proc_group w' nl used V PG B u1 G (S (S (length w))) nl1 P L1 T1) as (PG1 & P1); auto.
            { intros y Hy. split; [auto|]. apply T1, tok_le in Hy. rewrite Ln in Hy. exact Hy. }
            exists nl1, u1, G, PG1, (S (S (length w))). splits; auto.
            + unfold stepf. rewrite R1. cbn [bind]. unfold update_nlist. fold (all_of p1). rewrite <- EG, R. reflexivity.
            + intros Y. contradiction.
            + intros r Er. apply Loop in Er; auto. subst r. exact U1.
          - destruct (group_later w x c l used) as (p1 & u1 & R1 & L1 & T1 & K1 & M1 & O1 & C1 & U1); auto.
            { exists q. splits; auto. } { intros Y. apply Nqi. eapply num_inj; eauto. } { apply P. }
            fold w' in T1. set (G := map (fun t => (t, snd x)) (all_of p1)) in *.
            assert (EG : map fst G = all_of p1) by (unfold G; rewrite map_map; apply map_id).
            assert (KG : forall y, In y G -> snd y = snd x) by (intros y Hy; unfold G in Hy; apply in_map_iff in Hy; destruct Hy as (t & <- & _); reflexivity).
            destruct (push_ok s n E A0 i F H (map fst G) nl) as (nl1 & l1 & R & _).
            { apply Forall_forall. intros t Ht. apply in_map_iff in Ht. destruct Ht as (y & <- & Hy). eapply tok_range; eauto. }
            destruct (proc_group w' nl used V PG B u1 G (snd x) nl1 P L1 T1) as (PG1 & P1); auto.
            { intros y Hy. rewrite (KG y Hy). lia. }
            { intros y z p r Hy Hz _ _ _. rewrite (KG y Hy), (KG z Hz). auto. }
            { clear - KG. induction G as [|y G IHG]; constructor; [apply IHG; intros; apply KG; right; auto|]. apply Forall_forall. intros z Hz. unfold before. rewrite (KG y (or_introl eq_refl)), (KG z (or_intror Hz)). auto. }
            exists nl1, u1, G, PG1, (snd x). splits; auto.
            + unfold stepf. rewrite R1. cbn [bind]. unfold update_nlist. fold (all_of p1). rewrite <- EG, R. reflexivity.
            + intros y Hy. left. apply FK in Hy. exact Hy.
            + intros r Er. eapply U1; eauto. }
        destruct Step as (nl1 & used1 & V1 & PG1 & B1 & Es & P1 & LB1 & BK & Bq & U1). rewrite Es. cbn [bind].
        destruct (Nat.eq_dec q i) as [->|Nqi].
        + assert (Ki : forall y, In y K -> num y i).
          { intros y Hy. destruct (HK y (or_intror Hy)) as ((q & Ny & _ & Dy) & _). destruct Dy as [(<- & _)|Dy]; auto. apply sreach_le in Dy. specialize (FK y Hy). unfold before in FK.
            destruct D as [(_ & _ & Kx)|D]; [lia|exfalso; eapply sreach_not; eauto]. }
          assert (Ui : nth_error used1 i = Some true) by (apply U1, Loop; auto).
          assert (Sk : foldm stepf (map fst K) (nl1, used1) = Ok (nl1, used1)).
          { clear - Ki Ui H Loop Hc Nc Tl. induction K as [|y K IHK]; cbn [map foldm]; auto. unfold stepf at 1. rewrite (skip_first (fst y) c l used1 _ (Ki y (or_introl eq_refl)) Hc Nc Tl Ui). cbn [bind].
            unfold update_nlist. cbn [prio_new pr_non pr_none pr_greedy app push_states bind]. apply IHK. intros; apply Ki; right; auto. }
          rewrite Sk. exists nl1, used1, (V ++ V1), PG1, B1. splits; auto.
          * intros y Hy. apply in_app_iff. auto.
          * intros y p r Hy Np Er. assert (p = i) by (destruct Hy as [<-|Hy]; [|apply Ki in Hy]; eapply num_inj; eauto). subst p. apply Loop in Er; auto. subst r.
            apply (pc_used _ _ _ _ _ _ P1) in Ui. destruct Ui as (z & Iz & Nz). exists z. splits; auto. intros Y. contradiction.
        + destruct (IH nl1 used1 (V ++ V1) PG1 B1) as (nl' & used' & V' & PG' & B' & R' & P' & I' & U'); auto.
          { intros y Hy. split; [apply HK; right; auto|]. destruct (BK y Hy) as [|Y]; auto. exfalso. apply Nqi. eapply num_inj; eauto. }
          exists nl', used', V', PG', B'. splits; auto.
          * intros y Hy. apply I', in_app_iff. auto.
          * intros y p r [<-|Hy] Np Er; [|eauto]. assert (p = q) by (eapply num_inj; eauto). subst p. pose proof (U1 r Er) as X. apply (pc_used _ _ _ _ _ _ P1) in X. destruct X as (z & Iz & Nz). exists z. splits; auto.
            intros _. apply (pc_le _ _ _ _ _ _ P1) in Iz. specialize (Bq Nqi). lia. }
    destruct (Lo L (mkState [] (N.of_nat (length w) + 1) (cs_match cl)) (used0 s) [] [] 0%nat) as (nl & used & V & PG & B & R & P & _ & U).
    { intros x Hx. split; [apply (li_tok _ _ _ I); auto|lia]. } { apply I. } { lia. } { rewrite Lp. apply proc_nil. reflexivity. }
    rewrite R. cbn [bind]. exists nl, PG. split; auto.
    assert (St : forall x, In x L -> stops E F (fst x) -> exists y, In y V /\ (snd y <= snd x)%nat /\ stops E F (fst y)).
    { intros x Hx (q & Nq & X). destruct (U x q q Hx Nq) as (y & Iy & Ny & Ly); [apply Ends; auto|]. exists y. splits; auto; [apply Ly; intros ->; contradiction|]. exists q. auto. }
    eapply proc_linv; [exact P| |].
    - intros q b e k S.
      assert (Z : forall v q b e k, sreach v q b e k -> v = w' -> exists x, In x V /\ (snd x <= k)%nat /\ (num x q \/ stops E F (fst x))).
      { clear S q b e k. intros v q b e k S. induction S as [v b e q Rv Eq Nq|v p b e q k S IH Eq|v p b e c' q k S IH Eq]; intros Ew.
        - destruct (li_init _ _ _ I) as (x & Ix & [Nx|Sx]).
          + destruct (U x i i Ix Nx) as (y & Iy & Ny & _); [apply Loop; auto|]. destruct (pc_closed _ _ _ _ _ _ P y i q Iy Ny Eq) as (z & Iz & Nz & _). exists z. splits; auto.
            destruct (pc_tok _ _ _ _ _ _ P z Iz) as (q' & Nq' & _ & D). assert (q' = q) by (eapply num_inj; eauto). subst q'. destruct D as [(E1 & _)|D]; [contradiction|]. apply sreach_le in D. rewrite Ew. exact D.
          + destruct (St x Ix Sx) as (y & Iy & Ly & Sy). exists y. splits; auto. pose proof (tok_le _ _ (li_tok _ _ _ I x Ix)). rewrite Ew, Ln. lia.
        - destruct (IH Ew) as (x & Ix & Lx & [Nx|Sx]); [|exists x; auto]. destruct (pc_closed _ _ _ _ _ _ P x p q Ix Nx Eq) as (y & Iy & Ny & Ly). exists y. splits; auto. lia.
        - apply app_inj_tail in Ew. destruct Ew as [-> ->]. destruct (li_cover _ _ _ I p b e k S) as (x & Ix & Lx & [Nx|Sx]).
          + destruct (U x p q Ix Nx Eq) as (y & Iy & Ny & Ly). exists y. splits; auto. pose proof (sreach_not _ _ _ _ _ S). specialize (Ly ltac:(auto)). lia.
          + destruct (St x Ix Sx) as (y & Iy & Ly & Sy). exists y. splits; auto. lia. }
      exact (Z w' q b e k S eq_refl).
    - destruct (li_init _ _ _ I) as (x & Ix & [Nx|Sx]).
      + destruct (U x i i Ix Nx) as (y & Iy & Ny & _); [apply Loop; auto|]. exists y. auto.
      + destruct (St x Ix Sx) as (y & Iy & Ly & Sy). exists y. auto.
  Qed.

  Lemma run_left : forall w, Forall (fun c => c < MaxChar /\ c <> Epsilon) w -> N.of_nat (length w) < two64 -> exists cl L, cap_run s w = Ok cl /\ linv w cl L.
  Proof.
    intros w Hw Lw. unfold cap_run. destruct init_left as (cl & L & R & I). rewrite R. cbn [bind]. clear R.
    assert (Z : forall v u cl L, linv u cl L -> Forall (fun c => c < MaxChar /\ c <> Epsilon) v -> N.of_nat (length (u ++ v)) < two64 -> exists cl' L', foldm (cap_next s) v cl = Ok cl' /\ linv (u ++ v) cl' L').
    { clear Hw Lw I cl L w. intros v. induction v as [|c v IH]; intros u cl L I Hv Lv; cbn [foldm].
      - exists cl, L. rewrite app_nil_r. auto.
      - inversion Hv as [|? ? [Hc Nc] Hv']; subst. rewrite app_length in Lv. cbn [length] in Lv. destruct (next_left u cl L c I Hc Nc) as (cl1 & L1 & R1 & I1); [lia|]. rewrite R1. cbn [bind].
        destruct (IH (u ++ [c]) cl1 L1 I1 Hv') as (cl' & L' & R' & I'); [rewrite !app_length; cbn [length]; lia|]. exists cl', L'. rewrite <- app_assoc in I'. auto. }
    exact (Z w [] cl L I Hw Lw).
  Qed.

  Lemma first_first : forall l ans st, first_matched s l = Ok (Some (ans, st)) -> exists l1 l2, l = l1 ++ st :: l2 /\ cap_matched s st = Ok true /\ forall t, In t l1 -> cap_matched s t = Ok false.
  Proof.
    induction l as [|t l IH]; intros ans st R; cbn [first_matched] in R; [discriminate R|]. destruct (captured s t) as [[a m]| | |] eqn:Ec; cbn [bind] in R; try discriminate R.
    assert (Em : cap_matched s t = Ok m) by (unfold cap_matched; rewrite Ec; reflexivity). destruct m.
    - injection R as <- <-. exists [], l. splits; auto. intros ? [].
    - destruct (IH ans st R) as (l1 & l2 & -> & M & N). exists (t :: l1), l2. splits; auto. intros u [<-|Hu]; auto.
  Qed.
  (** the first state of the list where a text may end *)
  Lemma leftmost : forall w cl L ans st, linv w cl L -> first_matched s (cs_states cl) = Ok (Some (ans, st)) ->
    exists q k, g_num st = N.of_nat q /\ ends E F q /\ sreach w q (g_begin st) (g_end st) k /\ forall q' b e k', sreach w q' b e k' -> ends E F q' -> (k <= k')%nat.
  Proof.
    intros w cl L ans st I R. destruct (first_first _ _ _ R) as (l1 & l2 & El & Ms & M1). rewrite <- (li_states _ _ _ I) in El.
    destruct (map_split _ _ _ _ _ _ El) as (L1 & L2' & -> & E1 & E2). destruct L2' as [|x L2]; [discriminate E2|]. cbn [map] in E2. injection E2 as Ex E2.
    assert (Mo : forall y, In y (L1 ++ x :: L2) -> exists m, cap_matched s (fst y) = Ok m /\ (m = true <-> stops E F (fst y))) by (intros y Hy; eapply matched_ok; eauto; eapply tok_range, (li_tok _ _ _ I); auto).
    assert (Ix : In x (L1 ++ x :: L2)) by (apply in_app_iff; right; left; auto). destruct (Mo x Ix) as (m & Em & Sm). rewrite Ex, Ms in Em. injection Em as <-. destruct (proj1 Sm eq_refl) as (q & Nq & Xq).
    destruct (li_tok _ _ _ I x Ix) as (q' & Nq' & _ & D). unfold num in Nq'. assert (q' = q) by (rewrite Nq in Nq'; lia). subst q'. destruct D as [(-> & _)|D]; [contradiction|]. rewrite Ex in D, Nq.
    exists q, (snd x). splits; auto. intros q' b e k' S X'. destruct (li_cover _ _ _ I q' b e k' S) as (y & Iy & Ly & Dy).
    assert (Sy : stops E F (fst y)) by (destruct Dy as [Dy|Dy]; [exists q'; auto|auto]). destruct (Mo y Iy) as (m & Em & Sm'). apply Sm' in Sy. subst m.
    enough (snd x <= snd y)%nat by lia. apply in_app_iff in Iy. destruct Iy as [Iy|[<-|Iy]]; auto.
    - exfalso. assert (Z : In (fst y) l1) by (rewrite <- E1; apply in_map; auto). apply M1 in Z. congruence.
    - pose proof (li_sorted _ _ _ I) as So. clear - So Iy. induction L1 as [|a L1 IH]; cbn [app] in So; inversion So as [|? ? So' Fa]; subst; auto. rewrite Forall_forall in Fa. apply Fa, Iy.
  Qed.
End Left.
