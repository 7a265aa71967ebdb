(** The determination loop of determine.h, for any task. *)
From Coq Require Import List Bool Arith NArith Lia.
From Verif Require Import Util Spec PartitionModel FsmModel DetermineModel FsmBasics.
Import ListNotations.

  Lemma invletters_gen : forall l (v : list N), NoDup (map snd l) -> (forall c i, In (c, i) l -> i < length v) ->
    let v' := fold_left (fun v '(c, idx) => upd idx (fun _ => c) v) l v in
    length v' = length v /\ (forall c i, In (c, i) l -> nth i v' 0%N = c) /\
    (forall i, ~ In i (map snd l) -> nth i v' 0%N = nth i v 0%N).
  Proof.
    induction l as [|[c idx] l IH]; intros v ND HI; cbn [fold_left].
    - repeat split; auto. intros c i [].
    - cbn [map snd] in ND. inversion ND as [|? ? N1 N2]; subst.
      destruct (IH (upd idx (fun _ => c) v)) as [A [B C]]; auto.
      { intros c' i' H. rewrite upd_length. eapply HI; right; eauto. }
      rewrite upd_length in A. split; auto. split.
      + intros c' i' [[= -> ->]|H]; [|auto]. rewrite C by auto. rewrite nth_upd, Nat.eqb_refl.
        assert (X : (i' <? length v) = true) by (apply Nat.ltb_lt; eapply HI; left; eauto). rewrite X. auto.
      + intros i Hi. cbn [map snd In] in Hi. rewrite C by tauto. rewrite nth_upd.
        destruct (Nat.eqb_spec i idx); [exfalso; apply Hi; auto|reflexivity].
  Qed.

Section Generic.
  Variable State : Type.
  Variable dec : State -> State -> bool.
  Variable init : State.
  Variable next : State -> N -> State.
  Variable req : State -> bool.
  Variable ls : list (N * nat).
  Hypothesis dec_ok : forall a b, dec a b = true <-> a = b.
  Hypothesis ls_nodup : NoDup (map snd ls).
  Hypothesis ls_idx : forall c i, In (c, i) ls -> i < length ls.

  (** States the determination has to create. *)
  Inductive dreach : State -> Prop :=
  | dreach_init : dreach init
  | dreach_next : forall s c i, dreach s -> req s = true -> In (c, i) ls -> dreach (next s c).

  Lemma index_of_some : forall l s i, index_of dec s l = Some i -> nth_error l i = Some s.
  Proof.
    induction l as [|x l IH]; intros s i H; cbn in H; [discriminate|].
    destruct (dec s x) eqn:E.
    - apply dec_ok in E. injection H as <-. cbn. congruence.
    - destruct (index_of dec s l) eqn:E2; [|discriminate]. injection H as <-. cbn. auto.
  Qed.
  Lemma index_of_none : forall l s, index_of dec s l = None -> ~ In s l.
  Proof.
    induction l as [|x l IH]; intros s H; cbn in H; [auto|].
    destruct (dec s x) eqn:E; [discriminate|]. destruct (index_of dec s l) eqn:E2; [discriminate|].
    intros [->|Hin]; [|eapply IH; eauto]. assert (dec s s = true) by (apply dec_ok; auto). congruence.
  Qed.

  Lemma nth_error_app_l : forall (A : Type) (l l' : list A) i x, nth_error l i = Some x -> nth_error (l ++ l') i = Some x.
  Proof. intros. rewrite nth_error_app1; auto. apply nth_error_Some. congruence. Qed.

  Lemma NoDup_snoc : forall (A : Type) (l : list A) x, NoDup l -> ~ In x l -> NoDup (l ++ [x]).
  Proof.
    intros A l x H Hx. apply NoDup_Add with (a := x) (l := l); [|auto].
    rewrite <- (app_nil_r l) at 1. apply Add_app.
  Qed.

  Lemma det_row_ok : forall s l states budget rw,
    NoDup states -> NoDup (map snd l) -> (forall c i, In (c, i) l -> i < length rw) ->
    match det_row dec next s l states budget rw with
    | Some (states', budget', rw') => exists ext, states' = states ++ ext /\ NoDup states' /\
        (N.of_nat (length states') + budget' = N.of_nat (length states) + budget)%N /\
        (forall x, In x ext -> exists c i, In (c, i) l /\ x = next s c) /\
        length rw' = length rw /\
        (forall i, ~ In i (map snd l) -> nth i rw' 0 = nth i rw 0) /\
        (forall c i, In (c, i) l -> nth_error states' (nth i rw' 0) = Some (next s c))
    | None => exists ext, NoDup (states ++ ext) /\ 
        (N.of_nat (length (states ++ ext)) = N.of_nat (length states) + budget + 1)%N /\
        (forall x, In x ext -> exists c i, In (c, i) l /\ x = next s c)
    end.
  Proof.
    intros s l; induction l as [|[c idx] l IH]; intros states budget rw ND NL HI; cbn [det_row].
    - exists []. rewrite app_nil_r. repeat split; auto; intros; cbn in *; tauto.
    - cbn [map snd] in NL. inversion NL as [|? ? N1 N2]; subst.
      assert (Hidx : idx < length rw) by (eapply HI; left; eauto).
      destruct (index_of dec (next s c) states) as [i|] eqn:E.
      + apply index_of_some in E.
        specialize (IH states budget (upd idx (fun _ => i) rw) ND N2).
        rewrite upd_length in IH. specialize (IH (fun c i H => HI c i (or_intror H))).
        destruct (det_row dec next s l states budget (upd idx (fun _ => i) rw)) as [[[st' b'] rw']|].
        * destruct IH as [ext [-> [H1 [H2 [H3 [H4 [H5 H6]]]]]]]. exists ext. repeat split; auto.
          -- intros x Hx. destruct (H3 x Hx) as [c' [i' [X Y]]]. exists c', i'. split; auto. right; auto.
          -- intros j Hj. cbn [map snd In] in Hj. rewrite H5 by tauto. rewrite nth_upd.
             destruct (Nat.eqb_spec j idx); [exfalso; apply Hj; auto|reflexivity].
          -- intros c' i' [[= -> ->]|Hin]; [|auto]. rewrite H5 by auto. rewrite nth_upd, Nat.eqb_refl.
             assert (X : (i' <? length rw) = true) by (apply Nat.ltb_lt; auto). rewrite X. cbn [andb].
             apply nth_error_app_l; auto.
        * destruct IH as [ext [H1 [H2 H3]]]. exists ext. repeat split; auto.
          intros x Hx. destruct (H3 x Hx) as [c' [i' [X Y]]]. exists c', i'. split; auto. right; auto.
      + apply index_of_none in E. destruct (N.eqb_spec budget 0) as [->|Hb].
        * exists [next s c]. split; [apply NoDup_snoc; auto|]. split; [rewrite app_length; cbn; lia|].
          intros x [<-|[]]. exists c, idx. split; auto. left; auto.
        * specialize (IH (states ++ [next s c]) (N.pred budget) (upd idx (fun _ => length states) rw) (NoDup_snoc _ _ _ ND E) N2).
          rewrite upd_length in IH. specialize (IH (fun c i H => HI c i (or_intror H))).
          destruct (det_row dec next s l _ _ _) as [[[st' b'] rw']|].
          -- destruct IH as [ext [-> [H1 [H2 [H3 [H4 [H5 H6]]]]]]]. exists (next s c :: ext).
             rewrite <- app_assoc in *. cbn [app] in *. repeat split; auto.
             ++ rewrite app_length in H2. rewrite app_length in *. cbn [length] in *. lia.
             ++ intros x [<-|Hx]; [exists c, idx; split; auto; left; auto|].
                destruct (H3 x Hx) as [c' [i' [X Y]]]. exists c', i'. split; auto. right; auto.
             ++ intros j Hj. cbn [map snd In] in Hj. rewrite H5 by tauto. rewrite nth_upd.
                destruct (Nat.eqb_spec j idx); [exfalso; apply Hj; auto|reflexivity].
             ++ intros c' i' [[= -> ->]|Hin]; [|auto]. rewrite H5 by auto. rewrite nth_upd, Nat.eqb_refl.
                assert (X : (i' <? length rw) = true) by (apply Nat.ltb_lt; auto). rewrite X. cbn [andb].
                rewrite nth_error_app2 by lia. rewrite Nat.sub_diag. reflexivity.
          -- destruct IH as [ext [H1 [H2 H3]]]. exists (next s c :: ext).
             rewrite <- app_assoc in *. cbn [app] in *. repeat split; auto.
             ++ rewrite H2, app_length. cbn [length]. lia.
             ++ intros x [<-|Hx]; [exists c, idx; split; auto; left; auto|].
                destruct (H3 x Hx) as [c' [i' [X Y]]]. exists c', i'. split; auto. right; auto.
  Qed.

  Definition row_good (states : list State) (i : nat) (rw : list nat) : Prop :=
    exists s, nth_error states i = Some s /\ req s = true /\ length rw = length ls /\
      forall c li, In (c, li) ls -> nth_error states (nth li rw 0) = Some (next s c).

  Lemma row_good_app : forall states ext i rw, row_good states i rw -> row_good (states ++ ext) i rw.
  Proof.
    intros states ext i rw [s [A [B [C D]]]]. exists s. split; [apply nth_error_app_l; auto|]. split; auto. split; auto.
    intros c li H. apply nth_error_app_l; auto.
  Qed.

  Record det_good (max : N) (states : list State) (tr : list (nat * list nat)) (k : nat) : Prop := {
    dg_nodup : NoDup states;
    dg_init : nth_error states 0 = Some init;
    dg_reach : forall s, In s states -> dreach s;
    dg_rows : forall i rw, In (i, rw) tr -> i < k /\ row_good states i rw;
    dg_done : forall i s, i < k -> nth_error states i = Some s -> req s = true -> exists rw, In (i, rw) tr
  }.

  Lemma det_loop_ok : forall max fuel idx states budget tr,
    det_good max states tr idx -> idx <= length states ->
    (N.of_nat (length states) + budget = max + 1)%N ->
    (N.of_nat fuel + N.of_nat idx >= max + 2)%N ->
    match det_loop dec next req ls fuel idx states budget tr with
    | DetOk states' tr' => det_good max states' tr' (length states') /\ (N.of_nat (length states') <= max + 1)%N
    | DetFail => exists l, NoDup l /\ (N.of_nat (length l) = max + 2)%N /\ forall s, In s l -> dreach s
    | DetFuel => False
    end.
  Proof.
    intros max fuel; induction fuel as [|fuel IH]; intros idx states budget tr G Hi Hb Hf; cbn [det_loop]; [lia|].
    destruct (nth_error states idx) as [s|] eqn:E.
    - assert (Hlt : idx < length states) by (apply nth_error_Some; congruence).
      assert (Hs : In s states) by (eapply nth_error_In; eauto).
      destruct (req s) eqn:R.
      + pose proof (det_row_ok s ls states budget (repeat 0 (length ls)) (dg_nodup _ _ _ _ G) ls_nodup) as D.
        rewrite repeat_length in D. specialize (D ls_idx).
        destruct (det_row dec next s ls states budget (repeat 0 (length ls))) as [[[st' b'] rw']|].
        * destruct D as [ext [-> [H1 [H2 [H3 [H4 [H5 H6]]]]]]].
          apply IH; try lia; [|rewrite app_length; lia].
          constructor; auto.
          -- apply nth_error_app_l. apply G.
          -- intros x Hx. apply in_app_or in Hx as [Hx|Hx]; [apply G; auto|].
             destruct (H3 x Hx) as [c [i [X ->]]]. eapply dreach_next; eauto. apply G; auto.
          -- intros i rw Hin. apply in_app_or in Hin as [Hin|[[= <- <-]|[]]].
             ++ apply G in Hin as [X Y]. split; [lia|]. apply row_good_app; auto.
             ++ split; [lia|]. exists s. split; [apply nth_error_app_l; auto|]. split; [auto|]. split; auto.
          -- intros i s' Hi' Hn Hr. destruct (Nat.eq_dec i idx) as [->|Hne].
             ++ exists rw'. apply in_or_app; right; left; auto.
             ++ rewrite nth_error_app1 in Hn by lia. destruct (dg_done _ _ _ _ G i s' ltac:(lia) Hn Hr) as [rw Hin].
                exists rw. apply in_or_app; auto.
        * destruct D as [ext [H1 [H2 H3]]]. exists (states ++ ext). split; auto. split; [lia|].
          intros x Hx. apply in_app_or in Hx as [Hx|Hx]; [apply G; auto|].
          destruct (H3 x Hx) as [c [i [X ->]]]. eapply dreach_next; eauto. apply G; auto.
      + apply IH; try lia. destruct G. constructor; auto.
        * intros i rw Hin. apply dg_rows0 in Hin as [X Y]. split; [lia|auto].
        * intros i s' Hi' Hn Hr. destruct (Nat.eq_dec i idx) as [->|Hne]; [congruence|]. eapply dg_done0; eauto; lia.
    - apply nth_error_None in E. assert (idx = length states) by lia. subst idx. split; auto. lia.
  Qed.

  Lemma det_run_ok : forall max,
    match det_run dec init next req ls max with
    | DetOk states tr => det_good max states tr (length states) /\ (N.of_nat (length states) <= max + 1)%N
    | DetFail => exists l, NoDup l /\ (N.of_nat (length l) = max + 2)%N /\ forall s, In s l -> dreach s
    | DetFuel => False
    end.
  Proof.
    intros max. apply det_loop_ok; cbn [length]; try lia.
    constructor.
    - constructor; [auto|constructor].
    - reflexivity.
    - intros s [<-|[]]. constructor.
    - intros i rw [].
    - intros i s H; lia.
  Qed.

  (** On success every state the determination has to create was created. *)
  Lemma det_good_all : forall max states tr, det_good max states tr (length states) -> forall s, dreach s -> In s states.
  Proof.
    intros max states tr G s H. induction H as [|s c i H IH R Hin].
    - eapply nth_error_In. apply (dg_init _ _ _ _ G).
    - apply In_nth_error in IH as [k Hk]. assert (k < length states) by (apply nth_error_Some; congruence).
      destruct (dg_done _ _ _ _ G k s H0 Hk R) as [rw Hrw]. apply (dg_rows _ _ _ _ G) in Hrw as [_ [s' [A [_ [_ B]]]]].
      rewrite Hk in A. injection A as <-. eapply nth_error_In. eauto.
  Qed.

  (** The loop succeeds exactly when at most max + 1 states have to be created. *)
  Lemma det_run_fail_iff : forall max,
    det_run dec init next req ls max = DetFail <->
    exists l, NoDup l /\ (N.of_nat (length l) = max + 2)%N /\ forall s, In s l -> dreach s.
  Proof.
    intros max. pose proof (det_run_ok max) as D. destruct (det_run dec init next req ls max) as [states tr| |].
    - split; [discriminate|]. intros [l [H1 [H2 H3]]]. exfalso. destruct D as [G L].
      assert (length l <= length states); [|lia]. apply NoDup_incl_length; auto. intros s Hs. eapply det_good_all; eauto.
    - tauto.
    - destruct D.
  Qed.

  Lemma invletters_ok : length (invletters ls) = length ls /\ forall c i, In (c, i) ls -> nth i (invletters ls) 0%N = c.
  Proof.
    destruct (invletters_gen ls (repeat 0%N (length ls)) ls_nodup) as [A [B C]].
    { intros; rewrite repeat_length; eapply ls_idx; exact H. }
    rewrite repeat_length in A. split; assumption.
  Qed.

  (** every index below the number of letters is used *)
  Lemma ls_surj : forall i, i < length ls -> exists c, In (c, i) ls.
  Proof.
    intros i Hi. assert (X : In i (map snd ls)).
    { assert (Hl : length (seq 0 (length ls)) <= length (map snd ls)) by (rewrite seq_length, map_length; auto).
      assert (Hinc : incl (map snd ls) (seq 0 (length ls))).
      { intros j Hj. apply in_map_iff in Hj as [[c k] [<- H]]. apply in_seq. apply ls_idx in H. cbn. lia. }
      apply (NoDup_length_incl ls_nodup Hl Hinc). apply in_seq. lia. }
    apply in_map_iff in X as [[c k] [<- H]]. eauto.
  Qed.

  Lemma nth_error_combine : forall (A B : Type) (a : list A) (b : list B) i, 
    nth_error (combine a b) i = match nth_error a i, nth_error b i with Some x, Some y => Some (x, y) | _, _ => None end.
  Proof.
    induction a as [|x a IH]; intros [|y b] [|i]; cbn; auto.
    destruct (nth_error a i); auto.
  Qed.

  (** The transitions handed to Connect are those of the subset automaton. *)
  Lemma det_connects_in : forall max states tr, det_good max states tr (length states) ->
    forall from to c, In (from, to, c) (det_connects ls tr) <->
      exists s i, nth_error states from = Some s /\ req s = true /\ In (c, i) ls /\ nth_error states to = Some (next s c).
  Proof.
    intros max states tr G from to c. unfold det_connects. rewrite in_flat_map.
    destruct invletters_ok as [IL IN].
    split.
    - intros [[f rw] [H1 H2]]. apply in_map_iff in H2 as [[t l] [[= <- <- <-] H2]].
      apply (dg_rows _ _ _ _ G) in H1 as [H0 [s [A [B [C D]]]]].
      apply In_nth_error in H2 as [i Hi]. rewrite nth_error_combine in Hi.
      destruct (nth_error rw i) as [x|] eqn:E1; [|discriminate]. destruct (nth_error (invletters ls) i) as [y|] eqn:E2; [|discriminate].
      injection Hi as -> ->. assert (Hi : i < length ls) by (rewrite <- C; apply nth_error_Some; congruence).
      destruct (ls_surj i Hi) as [c Hc]. pose proof (IN c i Hc) as X. rewrite (nth_error_nth _ _ _ E2) in X. subst c.
      exists s, i. splits; auto. pose proof (D _ _ Hc) as Y. rewrite (nth_error_nth _ _ _ E1) in Y. auto.
    - intros [s [i [A [B [C D]]]]]. assert (Hf : from < length states) by (apply nth_error_Some; congruence).
      destruct (dg_done _ _ _ _ G from s Hf A B) as [rw Hrw]. exists (from, rw). split; auto.
      apply (dg_rows _ _ _ _ G) in Hrw as [_ [s' [A' [_ [L M]]]]]. rewrite A in A'. injection A' as <-.
      apply in_map_iff. exists (to, c). split; auto.
      apply nth_error_In with i. rewrite nth_error_combine.
      assert (Hi : i < length ls) by eauto.
      rewrite (nth_error_nth' rw 0) by lia. rewrite (nth_error_nth' (invletters ls) 0%N) by lia.
      rewrite (IN _ _ C). f_equal. f_equal. pose proof (M _ _ C) as X.
      assert (nth i rw 0 < length states) by (apply nth_error_Some; congruence).
      pose proof (dg_nodup _ _ _ _ G) as ND. rewrite NoDup_nth_error in ND. apply ND; auto. congruence.
  Qed.
End Generic.
