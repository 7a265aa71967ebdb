(** The lookup table of glue.h works as a map while it has room; Determine with it. *)
From Coq Require Import List Bool Arith NArith Lia.
From Verif Require Import Util Spec PartitionModel FsmModel DetermineModel FsmBasics PartitionProofs DetGeneric MinimizeModel RunModel ScannerModel GlueModel.
Import ListNotations.
Local Open Scope N_scope.

Lemma pair_eqb_ok : forall a b, pair_eqb a b = true <-> a = b.
Proof.
  intros [a1 a2] [b1 b2]. unfold pair_eqb. cbn [fst snd]. rewrite andb_true_iff, !N.eqb_eq. split; [intros []; congruence|].
  intros E. injection E. auto.
Qed.

Lemma map_nodup_in : forall A B (f : A -> B) l, (forall x y, In x l -> In y l -> f x = f y -> x = y) -> NoDup l -> NoDup (map f l).
Proof.
  intros A B f l. induction l as [|a l IH]; intros H ND; cbn; constructor; inversion ND; subst.
  - intros X. apply in_map_iff in X as (y & E & Y). assert (y = a) by (apply H; [right|left|]; auto). congruence.
  - apply IH; auto. intros x y Hx Hy. apply H; right; auto.
Qed.

Section Table.
  Variable cap : N.
  Hypothesis Hcap : 2 < cap.
  Let home (st : N * N) : N := glue_hash st mod cap.
  Let slot (st : N * N) (j : N) : N := (home st + j) mod cap.

  Lemma home_lt : forall st, home st < cap. Proof. intros. apply N.mod_lt. lia. Qed.
  Lemma slot_inj : forall st j j', j < cap -> j' < cap -> slot st j = slot st j' -> j = j'.
  Proof.
    intros st j j' Hj Hj' E. unfold slot in E. pose proof (N.div_mod (home st + j) cap ltac:(lia)) as A.
    pose proof (N.div_mod (home st + j') cap ltac:(lia)) as B. rewrite E in A.
    set (q := (home st + j) / cap) in *. set (q' := (home st + j') / cap) in *. clearbody q q'.
    destruct (N.lt_trichotomy q q') as [X|[X|X]]; nia.
  Qed.
  Lemma slot_0 : forall st, slot st 0 = home st.
  Proof. intros. unfold slot. rewrite N.add_0_r. apply N.mod_small, home_lt. Qed.
  Lemma slot_S : forall st j, (slot st j + 1) mod cap = slot st (j + 1).
  Proof. intros. unfold slot. rewrite N.add_mod_idemp_l by lia. f_equal. lia. Qed.
  Lemma stop_slot : forall st, (home st + cap - 1) mod cap = slot st (cap - 1).
  Proof. intros. unfold slot. f_equal. lia. Qed.

  (** the probe stops at the first slot that is free or holds the key *)
  Definition other (t : slots) (st : N * N) (j : N) : Prop := exists key v, mfind (slot st j) t = Some (key, v) /\ key <> st.
  Definition hit (t : slots) (st : N * N) (j : N) : Prop :=
    match mfind (slot st j) t with None => True | Some (key, _) => key = st end.

  Lemma search_loop_hit : forall t st n j fuel, j + N.of_nat n < cap - 1 -> (n < fuel)%nat ->
    (forall i, (i < n)%nat -> other t st (j + N.of_nat i)) -> hit t st (j + N.of_nat n) ->
    search_loop cap fuel t (slot st j) (slot st (cap - 1)) st = Ok (Some (slot st (j + N.of_nat n))).
  Proof.
    intros t st. induction n as [|n IH]; intros j fuel Hj Hf Ho Hh; (destruct fuel as [|fuel]; [lia|]); cbn [search_loop].
    - destruct (N.eqb_spec (slot st j) (slot st (cap - 1))) as [E|_]; [apply slot_inj in E; lia|].
      change (N.of_nat 0) with 0 in *. rewrite N.add_0_r in *. unfold hit in Hh.
      destruct (mfind (slot st j) t) as [[key v]|]; auto. subst key. rewrite (proj2 (pair_eqb_ok st st)); auto.
    - destruct (N.eqb_spec (slot st j) (slot st (cap - 1))) as [E|_]; [apply slot_inj in E; lia|].
      destruct (Ho 0%nat) as (key & v & E1 & E2); [lia|]. change (N.of_nat 0) with 0 in *. rewrite N.add_0_r in *. rewrite E1.
      destruct (pair_eqb key st) eqn:P; [apply pair_eqb_ok in P; congruence|]. rewrite slot_S.
      replace (j + N.of_nat (S n)) with (j + 1 + N.of_nat n) by lia. apply IH; try lia.
      + intros i Hi. replace (j + 1 + N.of_nat i) with (j + N.of_nat (S i)) by lia. apply Ho. lia.
      + replace (j + 1 + N.of_nat n) with (j + N.of_nat (S n)) by lia. auto.
  Qed.
  Lemma search_hit : forall t st j, j < cap - 1 -> (forall i, i < j -> other t st i) -> hit t st j ->
    search cap t st = Ok (Some (slot st j)).
  Proof.
    intros t st j Hj Ho Hh. unfold search. fold (home st). rewrite stop_slot. rewrite <- (slot_0 st) at 1.
    pose proof (search_loop_hit t st (N.to_nat j) 0 (N.to_nat cap)) as X. rewrite N2Nat.id, !N.add_0_l in X. apply X; auto.
    - lia.
    - intros i Hi. rewrite N.add_0_l. apply Ho. lia.
  Qed.

  Lemma search_loop_full : forall t st n j fuel, j + N.of_nat n = cap - 1 -> (n < fuel)%nat ->
    (forall i, (i < n)%nat -> other t st (j + N.of_nat i)) ->
    search_loop cap fuel t (slot st j) (slot st (cap - 1)) st = Ok None.
  Proof.
    intros t st. induction n as [|n IH]; intros j fuel Hj Hf Ho; (destruct fuel as [|fuel]; [lia|]); cbn [search_loop].
    - replace j with (cap - 1) by lia. rewrite N.eqb_refl. auto.
    - destruct (N.eqb_spec (slot st j) (slot st (cap - 1))) as [E|_]; [reflexivity|].
      destruct (Ho 0%nat) as (key & v & E1 & E2); [lia|]. change (N.of_nat 0) with 0 in *. rewrite N.add_0_r in *. rewrite E1.
      destruct (pair_eqb key st) eqn:P; [apply pair_eqb_ok in P; congruence|]. rewrite slot_S.
      apply IH; try lia. intros i Hi. replace (j + 1 + N.of_nat i) with (j + N.of_nat (S i)) by lia. apply Ho. lia.
  Qed.
  Lemma search_full : forall t st, (forall i, i < cap - 1 -> other t st i) -> search cap t st = Ok None.
  Proof.
    intros t st Ho. unfold search. fold (home st). rewrite stop_slot. rewrite <- (slot_0 st) at 1.
    apply search_loop_full with (n := N.to_nat (cap - 1)); try lia. intros i Hi. apply Ho. lia.
  Qed.

  (** What the table holds when the states are [states]. *)
  Record tab_ok (t : slots) (states : list (N * N)) : Prop := {
    to_sorted : msorted t;
    to_len : length t = length states;
    to_keys : forall ind key v, mfind ind t = Some (key, v) -> ind < cap /\ nth_error states v = Some key;
    to_all : forall v key, nth_error states v = Some key ->
      exists j, j < cap - 1 /\ mfind (slot key j) t = Some (key, v) /\ forall i, i < j -> other t key i
  }.

  Lemma first_hit : forall t st n, (forall i, i < N.of_nat n -> other t st i) \/
    exists j, j < N.of_nat n /\ hit t st j /\ forall i, i < j -> other t st i.
  Proof.
    intros t st. induction n as [|n [IH|(j & A & B & C)]].
    - left. intros. lia.
    - destruct (mfind (slot st (N.of_nat n)) t) as [[key v]|] eqn:E.
      + destruct (pair_eqb key st) eqn:P.
        * apply pair_eqb_ok in P. right. exists (N.of_nat n). splits; auto; [lia|]. unfold hit. rewrite E. auto.
        * left. intros i Hi. destruct (N.eq_dec i (N.of_nat n)) as [->|D]; [|apply IH; lia].
          exists key, v. split; auto. intros X. apply pair_eqb_ok in X. congruence.
      + right. exists (N.of_nat n). splits; auto; [lia|]. unfold hit. rewrite E. auto.
    - right. exists j. splits; auto. lia.
  Qed.
  Lemma slots_nodup : forall st n, N.of_nat n <= cap -> NoDup (map (fun j => slot st (N.of_nat j)) (seq 0 n)).
  Proof.
    intros st n Hn. apply map_nodup_in; [|apply seq_NoDup].
    intros x y Hx Hy E. apply in_seq in Hx, Hy. apply slot_inj in E; lia.
  Qed.
  Lemma probe_hit : forall t st, N.of_nat (length t) < cap - 1 -> exists j, j < cap - 1 /\ hit t st j /\ forall i, i < j -> other t st i.
  Proof.
    intros t st L. destruct (first_hit t st (N.to_nat (cap - 1))) as [H|(j & A & B & C)].
    2:{ exists j. splits; auto. lia. }
    exfalso. pose proof (slots_nodup st (N.to_nat (cap - 1)) ltac:(lia)) as ND.
    apply NoDup_incl_length with (l' := map fst t) in ND.
    - rewrite !map_length, seq_length in ND. lia.
    - intros x Hx. apply in_map_iff in Hx as (j & <- & Hj). apply in_seq in Hj. destruct (H (N.of_nat j)) as (key & v & E & _); [lia|].
      apply mfind_in in E. apply in_map_iff. exists (slot st (N.of_nat j), (key, v)). auto.
  Qed.

  Lemma find_ok : forall t states st, tab_ok t states -> NoDup states -> N.of_nat (length states) < cap - 1 ->
    tab_find cap t st = Ok (index_of pair_eqb st states).
  Proof.
    intros t states st T ND L. unfold tab_find. destruct (index_of pair_eqb st states) as [v|] eqn:I.
    - apply (index_of_some _ _ pair_eqb_ok) in I. destruct (to_all _ _ T v st I) as (j & A & B & C).
      rewrite (search_hit t st j) by (auto; unfold hit; rewrite B; auto). cbn [bind]. rewrite B. auto.
    - apply (index_of_none _ _ pair_eqb_ok) in I. rewrite <- (to_len _ _ T) in L. destruct (probe_hit t st L) as (j & A & B & C).
      rewrite (search_hit t st j) by auto. cbn [bind]. unfold hit in B. destruct (mfind (slot st j) t) as [[key v]|] eqn:E; auto.
      exfalso. subst key. apply (to_keys _ _ T) in E as [_ E]. apply nth_error_In in E. auto.
  Qed.
  Lemma insert_at : forall t states st j, tab_ok t states -> ~ In st states -> j < cap - 1 -> (forall i, i < j -> other t st i) ->
    mfind (slot st j) t = None -> tab_ok (mset (slot st j) (st, length states) t) (states ++ [st]).
  Proof.
    intros t states st j T NI A C E.
    assert (Ot : forall key i, other t key i -> other (mset (slot st j) (st, length states) t) key i).
    { intros key i (k' & v' & X & Y). exists k', v'. split; auto. rewrite mfind_mset. destruct (keqb_spec (slot key i) (slot st j)) as [Z|]; auto. congruence. }
    split.
    - apply mset_sorted, T.
    - rewrite msorted_length_mset_new by auto. rewrite app_length, (to_len _ _ T). cbn. lia.
    - intros ind key v. rewrite mfind_mset. destruct (keqb_spec ind (slot st j)) as [->|].
      + intros X. injection X as <- <-. split; [apply N.mod_lt; lia|]. rewrite nth_error_app2, Nat.sub_diag by lia. reflexivity.
      + intros X. apply (to_keys _ _ T) in X as [X Y]. split; auto. apply nth_error_app_l. auto.
    - intros v key Hv. destruct (Nat.lt_ge_cases v (length states)) as [Lv|Lv].
      + rewrite nth_error_app1 in Hv by auto. destruct (to_all _ _ T v key Hv) as (i & X & Y & Z). exists i. splits; auto.
        rewrite mfind_mset. destruct (keqb_spec (slot key i) (slot st j)) as [W|]; auto. congruence.
      + rewrite nth_error_app2 in Hv by auto. destruct (v - length states)%nat as [|d] eqn:D; cbn in Hv; [|destruct d; discriminate].
        injection Hv as <-. assert (v = length states) by lia. subst v. exists j. splits; auto.
        rewrite mfind_mset. destruct (keqb_spec (slot st j) (slot st j)); congruence.
  Qed.
  Lemma insert_ok : forall t states st, tab_ok t states -> ~ In st states -> N.of_nat (length states) < cap - 1 ->
    exists t', tab_insert cap t st (length states) = Ok t' /\ tab_ok t' (states ++ [st]).
  Proof.
    intros t states st T NI L. unfold tab_insert. rewrite <- (to_len _ _ T) in L. destruct (probe_hit t st L) as (j & A & B & C).
    rewrite (search_hit t st j) by auto. cbn [bind]. unfold hit in B. destruct (mfind (slot st j) t) as [[key v]|] eqn:E.
    { exfalso. subst key. apply (to_keys _ _ T) in E as [_ E]. apply nth_error_In in E. auto. }
    eexists. split; [reflexivity|]. apply insert_at; auto.
  Qed.
  Lemma tab_empty : tab_ok [] [].
  Proof. split; try reflexivity; [constructor|discriminate|]. intros [|v] key; discriminate. Qed.

  (** A table with every slot filled: looking up anything new is undefined. *)
  Lemma full_ub : forall t states st, tab_ok t states -> ~ In st states -> N.of_nat (length states) = cap -> tab_find cap t st = UB.
  Proof.
    intros t states st T NI L. unfold tab_find. rewrite search_full; auto. intros i Hi.
    destruct (mfind (slot st i) t) as [[key v]|] eqn:E.
    - exists key, v. split; auto. intros ->. apply (to_keys _ _ T) in E as [_ E]. apply nth_error_In in E. auto.
    - exfalso. assert (ND : NoDup (map fst t)).
      { pose proof (to_sorted _ _ T) as Hs. clear - Hs. induction Hs as [|[a b] l H IH Hf]; cbn; constructor; auto.
        intros X. apply in_map_iff in X as ([c d] & X1 & X2). cbn in X1. subst c. rewrite Forall_forall in Hf. specialize (Hf _ X2). cbn in Hf. rewrite N.ltb_irrefl in Hf. discriminate. }
      assert (In (slot st i) (map fst t)).
      { assert (I : incl (map fst t) (map N.of_nat (seq 0 (N.to_nat cap)))).
        { intros x Hx. apply in_map_iff in Hx as ([a [key v]] & <- & X). apply (msorted_find (to_sorted _ _ T)) in X.
          apply (to_keys _ _ T) in X as [X _]. apply in_map_iff. exists (N.to_nat a). cbn [fst]. split; [lia|]. apply in_seq. lia. }
        apply (NoDup_length_incl ND) in I; [|rewrite !map_length, seq_length, (to_len _ _ T); lia].
        apply I. apply in_map_iff. exists (N.to_nat (slot st i)). split; [lia|]. apply in_seq.
        assert (slot st i < cap) by (apply N.mod_lt; lia). lia. }
      apply in_map_iff in H as ([a [key v]] & X & Y). cbn in X. subst a. apply (msorted_find (to_sorted _ _ T)) in Y. congruence.
  Qed.

  Lemma tab_le : forall t states, tab_ok t states -> N.of_nat (length states) <= cap.
  Proof.
    intros t states T. assert (ND : NoDup (map fst t)).
    { pose proof (to_sorted _ _ T) as Hs. clear - Hs. induction Hs as [|[a b] l H IH Hf]; cbn; constructor; auto.
      intros X. apply in_map_iff in X as ([c d] & X1 & X2). cbn in X1. subst c. rewrite Forall_forall in Hf. specialize (Hf _ X2). cbn in Hf. rewrite N.ltb_irrefl in Hf. discriminate. }
    apply NoDup_incl_length with (l' := map N.of_nat (seq 0 (N.to_nat cap))) in ND.
    - rewrite !map_length, seq_length, (to_len _ _ T) in ND. lia.
    - intros x Hx. apply in_map_iff in Hx as ([a [key v]] & <- & X). apply (msorted_find (to_sorted _ _ T)) in X.
      apply (to_keys _ _ T) in X as [X _]. apply in_map_iff. exists (N.to_nat a). cbn [fst]. split; [lia|]. apply in_seq. lia.
  Qed.
  Lemma search_any : forall t st, search cap t st = Ok None \/
    exists j, j < cap - 1 /\ hit t st j /\ (forall i, i < j -> other t st i) /\ search cap t st = Ok (Some (slot st j)).
  Proof.
    intros t st. destruct (first_hit t st (N.to_nat (cap - 1))) as [H|(j & A & B & C)].
    - left. apply search_full. intros i Hi. apply H. lia.
    - right. assert (j < cap - 1) by lia. exists j. splits; auto. apply search_hit; auto.
  Qed.
  Lemma find_any : forall t states st, tab_ok t states -> NoDup states ->
    tab_find cap t st = UB \/ tab_find cap t st = Ok (index_of pair_eqb st states).
  Proof.
    intros t states st T ND. unfold tab_find. destruct (search_any t st) as [->|(j & A & B & C & ->)]; [left; auto|].
    right. cbn [bind]. f_equal. unfold hit in B. destruct (index_of pair_eqb st states) as [v|] eqn:I.
    - apply (index_of_some _ _ pair_eqb_ok) in I. destruct (to_all _ _ T v st I) as (j' & A' & B' & C').
      assert (E : search cap t st = Ok (Some (slot st j))) by (apply search_hit; auto).
      rewrite (search_hit t st j') in E by (auto; unfold hit; rewrite B'; auto). injection E as E. rewrite <- E, B'. auto.
    - apply (index_of_none _ _ pair_eqb_ok) in I. destruct (mfind (slot st j) t) as [[key v]|] eqn:E; auto.
      exfalso. subst key. apply (to_keys _ _ T) in E as [_ E]. apply nth_error_In in E. auto.
  Qed.
  Lemma insert_any : forall t states st, tab_ok t states -> ~ In st states ->
    tab_insert cap t st (length states) = UB \/ exists t', tab_insert cap t st (length states) = Ok t' /\ tab_ok t' (states ++ [st]).
  Proof.
    intros t states st T NI. unfold tab_insert. destruct (search_any t st) as [->|(j & A & B & C & ->)]; [left; auto|].
    right. cbn [bind]. unfold hit in B. destruct (mfind (slot st j) t) as [[key v]|] eqn:E.
    { exfalso. subst key. apply (to_keys _ _ T) in E as [_ E]. apply nth_error_In in E. auto. }
    eexists. split; [reflexivity|]. apply insert_at; auto.
  Qed.

  (** ** The determination loop *)
  Section Loop.
    Variable next : N * N -> N -> res (N * N).
    Variable nx : N * N -> N -> N * N.
    Variable V : N * N -> Prop.
    Variable ls : list (N * nat).
    Hypothesis Hnext : forall s c i, V s -> In (c, i) ls -> next s c = Ok (nx s c) /\ V (nx s c).

    Lemma glue_row_ok : forall s l states t budget rw, V s -> incl l ls -> Forall V states -> NoDup states -> tab_ok t states ->
      N.of_nat (length states) + budget < cap - 1 ->
      exists t', glue_row cap next s l states t budget rw =
        Ok (match det_row pair_eqb nx s l states budget rw with Some (st', b', rw') => Some (st', t', b', rw') | None => None end) /\
      match det_row pair_eqb nx s l states budget rw with
      | Some (st', b', rw') => Forall V st' /\ NoDup st' /\ tab_ok t' st' /\ N.of_nat (length st') + b' = N.of_nat (length states) + budget
      | None => True
      end.
    Proof.
      intros s. induction l as [|[c idx] l IH]; intros states t budget rw Vs Hl Vst ND T L; cbn [glue_row det_row].
      - exists t. splits; auto.
      - destruct (Hnext s c idx Vs (Hl _ (or_introl eq_refl))) as [En Vn]. rewrite En. cbn [bind].
        assert (Hl' : incl l ls) by (intros x Hx; apply Hl; right; auto).
        rewrite (find_ok t states _ T ND) by lia. cbn [bind]. destruct (index_of pair_eqb (nx s c) states) as [i|] eqn:I.
        + apply IH; auto.
        + apply (index_of_none _ _ pair_eqb_ok) in I. destruct (N.eqb_spec budget 0) as [->|Hb]; [exists t; auto|].
          destruct (insert_ok t states (nx s c) T I) as (t1 & E1 & T1); [lia|]. rewrite E1. cbn [bind].
          destruct (IH (states ++ [nx s c]) t1 (N.pred budget) (upd idx (fun _ => length states) rw)) as (t' & E & R); auto.
          * apply Forall_app. auto.
          * apply NoDup_snoc; auto.
          * rewrite app_length. cbn [length]. lia.
          * exists t'. split; auto. destruct (det_row _ _ _ _ _ _ _) as [[[st' b'] rw']|]; auto.
            destruct R as (R1 & R2 & R3 & R4). splits; auto. rewrite R4, app_length. cbn [length]. lia.
    Qed.
    Lemma glue_loop_ok : forall fuel idx states t budget tr, Forall V states -> NoDup states -> tab_ok t states ->
      N.of_nat (length states) + budget < cap - 1 ->
      glue_loop cap next ls fuel idx states t budget tr =
      match det_loop pair_eqb nx (fun _ => true) ls fuel idx states budget tr with DetFuel => OutOfFuel | d => Ok d end.
    Proof.
      induction fuel as [|fuel IH]; intros idx states t budget tr Vst ND T L; cbn [glue_loop det_loop]; auto.
      destruct (nth_error states idx) as [s|] eqn:E; auto.
      assert (Vs : V s) by (rewrite Forall_forall in Vst; apply Vst; eapply nth_error_In; eauto).
      destruct (glue_row_ok s ls states t budget (repeat 0%nat (length ls)) Vs (incl_refl _) Vst ND T L) as (t' & -> & R).
      cbn [bind]. destruct (det_row _ _ _ _ _ _ _) as [[[st' b'] rw']|]; auto. destruct R as (R1 & R2 & R3 & R4). apply IH; auto. lia.
    Qed.
    Lemma glue_run_ok : forall init max, V init -> max + 1 < cap - 1 ->
      glue_run cap next ls init max = match det_run pair_eqb init nx (fun _ => true) ls max with DetFuel => OutOfFuel | d => Ok d end.
    Proof.
      intros init max Vi L. unfold glue_run, det_run.
      destruct (insert_ok [] [] init tab_empty) as (t & E & T); [auto|cbn [length]; lia|]. cbn [length] in E. rewrite E. cbn [bind].
      apply glue_loop_ok; auto; [constructor; [auto|constructor]|cbn [length]; lia].
    Qed.

    (** Whatever the number of states, the loop does what it should or is undefined. *)
    Lemma glue_row_any : forall s l states t budget rw, V s -> incl l ls -> Forall V states -> NoDup states -> tab_ok t states ->
      glue_row cap next s l states t budget rw = UB \/
      exists t', glue_row cap next s l states t budget rw =
        Ok (match det_row pair_eqb nx s l states budget rw with Some (st', b', rw') => Some (st', t', b', rw') | None => None end) /\
      match det_row pair_eqb nx s l states budget rw with
      | Some (st', b', rw') => Forall V st' /\ NoDup st' /\ tab_ok t' st' /\ N.of_nat (length st') + b' = N.of_nat (length states) + budget
      | None => N.of_nat (length states) + budget <= cap
      end.
    Proof.
      intros s. induction l as [|[c idx] l IH]; intros states t budget rw Vs Hl Vst ND T; cbn [glue_row det_row].
      - right. exists t. splits; auto.
      - destruct (Hnext s c idx Vs (Hl _ (or_introl eq_refl))) as [En Vn]. rewrite En. cbn [bind].
        assert (Hl' : incl l ls) by (intros x Hx; apply Hl; right; auto).
        destruct (find_any t states (nx s c) T ND) as [-> | ->]; [left; auto|]. cbn [bind]. destruct (index_of pair_eqb (nx s c) states) as [i|] eqn:I.
        + apply IH; auto.
        + apply (index_of_none _ _ pair_eqb_ok) in I. destruct (N.eqb_spec budget 0) as [->|Hb].
          { right. exists t. split; auto. pose proof (tab_le t states T). lia. }
          destruct (insert_any t states (nx s c) T I) as [->|(t1 & E1 & T1)]; [left; auto|]. rewrite E1. cbn [bind].
          destruct (IH (states ++ [nx s c]) t1 (N.pred budget) (upd idx (fun _ => length states) rw)) as [->|(t' & E & R)]; auto.
          * apply Forall_app. auto.
          * apply NoDup_snoc; auto.
          * right. exists t'. split; auto. rewrite app_length in R. cbn [length] in R. destruct (det_row _ _ _ _ _ _ _) as [[[st' b'] rw']|].
            -- destruct R as (R1 & R2 & R3 & R4). splits; auto. rewrite R4. lia.
            -- lia.
    Qed.
    Lemma glue_loop_any : forall fuel idx states t budget tr, Forall V states -> NoDup states -> tab_ok t states ->
      glue_loop cap next ls fuel idx states t budget tr = UB \/
      (glue_loop cap next ls fuel idx states t budget tr =
       match det_loop pair_eqb nx (fun _ => true) ls fuel idx states budget tr with DetFuel => OutOfFuel | d => Ok d end /\
       match det_loop pair_eqb nx (fun _ => true) ls fuel idx states budget tr with
       | DetOk st' _ => N.of_nat (length st') <= cap
       | DetFail => N.of_nat (length states) + budget <= cap
       | DetFuel => True end).
    Proof.
      induction fuel as [|fuel IH]; intros idx states t budget tr Vst ND T; cbn [glue_loop det_loop]; auto.
      destruct (nth_error states idx) as [s|] eqn:E.
      - assert (Vs : V s) by (rewrite Forall_forall in Vst; apply Vst; eapply nth_error_In; eauto).
        destruct (glue_row_any s ls states t budget (repeat 0%nat (length ls)) Vs (incl_refl _) Vst ND T) as [->|(t' & -> & R)]; [left; auto|].
        cbn [bind]. destruct (det_row _ _ _ _ _ _ _) as [[[st' b'] rw']|]; auto. destruct R as (R1 & R2 & R3 & R4). rewrite <- R4. apply IH; auto.
      - right. split; auto. eapply tab_le; eauto.
    Qed.
    (** More states than slots, and a limit that allows them. *)
    Lemma glue_run_overflow : forall init max, V init -> cap <= max ->
      (forall c i, In (c, i) ls -> (i < length ls)%nat) -> NoDup (map snd ls) ->
      (exists l, NoDup l /\ (N.of_nat (length l) = cap + 1)%N /\ forall s, In s l -> dreach _ init nx (fun _ => true) ls s) ->
      glue_run cap next ls init max = UB.
    Proof.
      intros init max Vi L Li Ln (l & D1 & D2 & D3). unfold glue_run.
      destruct (insert_ok [] [] init tab_empty) as (t & E & T); [auto|cbn [length]; lia|]. cbn [length app] in E, T. rewrite E. cbn [bind].
      destruct (glue_loop_any (S (S (N.to_nat max))) 0 [init] t max []) as [->|[E1 E2]]; auto; [constructor; [auto|constructor]|].
      exfalso. pose proof (det_run_ok _ pair_eqb init nx (fun _ => true) ls pair_eqb_ok Ln Li max) as G. unfold det_run in G.
      destruct (det_loop _ _ _ _ _ _ _ _ _) as [st' tr'| |].
      - destruct G as [G _]. assert (length l <= length st')%nat; [|lia]. apply NoDup_incl_length; auto. intros s Hs. eapply det_good_all; eauto.
      - cbn [length] in E2. lia.
      - destruct G.
    Qed.
  End Loop.
End Table.
