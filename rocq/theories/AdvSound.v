(** What the determined states of CountingFsm know about the text: the counter never gets ahead
    of the chains there are. *)
From Coq Require Import List Bool Arith NArith Lia.
From Verif Require Import Util Spec PartitionModel PartitionProofs FsmModel DetermineModel MinimizeModel FsmSem FsmBasics FsmOps FsmOps2 Nfa ScannerModel CountModel AdvModel AdvSpec AdvNfa.
Import ListNotations.
Local Opaque all_letters all_bytes.

Lemma into_in : forall k items g x, In x (into k items g) <-> In x g \/ In (k, x) items.
Proof.
  intros k items. unfold into. induction items as [|[k0 y] items IH]; intros g x; cbn [fold_left fst snd]; [cbn [In]; tauto|].
  rewrite IH. cbn [In]. destruct (kind_eqb k k0) eqn:E.
  - assert (k = k0) as -> by (destruct k, k0; try reflexivity; discriminate E). rewrite sadd_in. split.
    + intros [[->|H]|H]; auto.
    + intros [H|[H|H]]; auto. injection H as ->. auto.
  - split; [tauto|]. intros [H|[H|H]]; auto. injection H as -> _. destruct k; discriminate E.
Qed.
Lemma into_all_in : forall items g x, In x (into_all items g) <-> In x g \/ exists k, In (k, x) items.
Proof.
  intros items. unfold into_all. induction items as [|[k0 y] items IH]; intros g x; cbn [fold_left fst snd].
  - split; auto. intros [H|[k []]]. exact H.
  - rewrite IH, sadd_in. cbn [In]. split.
    + intros [[->|H]|[k H]]; eauto.
    + intros [H|[k [H|H]]]; eauto. injection H as -> ->. auto.
Qed.
Lemma sunion_In : forall (s t : group) x, In x (sunion s t) <-> In x s \/ In x t.
Proof.
  intros s t x. unfold sunion. revert s. induction t as [|y t IH]; intros s; cbn [fold_left In]; [tauto|]. rewrite IH, sadd_in. split; intros H; repeat destruct H as [H|H]; auto.
Qed.
Lemma is_nil_true : forall A (l : list A), is_nil l = true <-> l = [].
Proof. intros A [|x l]; cbn [is_nil]; split; intros H; try reflexivity; discriminate H. Qed.
Lemma is_nil_false : forall A (l : list A), is_nil l = false <-> l <> [].
Proof. intros A [|x l]; cbn [is_nil]; split; intros H; try discriminate; try reflexivity; congruence. Qed.
Lemma has_tag_iff : forall p g, has_tag p g = true <-> exists x, In x g /\ p (snd x) = true.
Proof. intros p g. unfold has_tag. apply existsb_exists. Qed.

Section Sound.
  Variables A B f : fsm.
  Variable dead : list nat.
  Hypothesis WA : wf A.
  Hypothesis WB : wf B.
  Let n := size A.
  Let m := size B.
  Let NI := n + m.
  Let R := initial A.
  Hypothesis Edge : forall p c q, edge f p c q <-> c <> Epsilon /\ (cat_e A B p c q \/ (p = NI /\ ((q = NI /\ (c < MaxChar)%N) \/ cat_e A B R c q))).
  Hypothesis Fin : forall q, In q (finals f) <-> (exists b, q = b + n /\ In b (finals B)) \/ (In (initial B) (finals B) /\ (In q (finals A) \/ (q = NI /\ In R (finals A)))).
  Hypothesis Tag : forall q, fsm_tag f q = if smem q (finals A) then Matched else if Nat.eqb q NI && smem R (finals A) then Matched else if (n <=? q) && (q <? n + m) then Separated else 0%N.
  Hypothesis InitF : initial f = NI.

  Let re : lang := accepts A.
  Let sep : lang := accepts B.
  Definition ends_with (w : list N) (k : nat) : Prop := exists u0 u, w = u0 ++ u /\ alternates re sep k u.
  Lemma ends_more : forall u0 s r k, ends_with u0 k -> sep s -> re r -> ends_with (u0 ++ s ++ r) (S k).
  Proof. intros u0 s r k (x & u & -> & H) Hs Hr. exists x, (u ++ s ++ r). split; [rewrite <- app_assoc; reflexivity|]. apply alt_more; auto. Qed.
  Lemma ends_one : forall u0 r, re r -> ends_with (u0 ++ r) 1.
  Proof. intros u0 r H. exists u0, r. split; auto. apply alt_one. exact H. Qed.

  (** What a state tagged as matched knows *)
  Definition matched_at (w : list N) (q : nat) (k : nat) : Prop :=
    (q = NI /\ k = 1 /\ re []) \/
    (exists u1 r v, w = u1 ++ r ++ v /\ path (edge A) R (r ++ v) q /\ re r /\
       (k = 1 \/ exists k0 u0 s, k = S k0 /\ u1 = u0 ++ s /\ sep s /\ ends_with u0 k0)).
  (** What a state tagged as separated knows *)
  Definition separated_at (w : list N) (q : nat) (k : nat) : Prop :=
    (exists u0 s v, w = u0 ++ s ++ v /\ sep s /\ ends_with u0 k /\ path (edge A) R v q) \/
    (exists b u0 s, q = b + n /\ w = u0 ++ s /\ path (edge B) (initial B) s b /\ ends_with u0 k).
  Definition knows (w : list N) (k : nat) (x : tstate) : Prop :=
    let '(q, t) := x in
    if (t =? NotMatched)%N then k = 0 /\ (q = NI \/ exists u v, w = u ++ v /\ path (edge A) R v q)
    else if (t =? Matched)%N then exists k', k <= k' /\ 1 <= k' /\ matched_at w q k'
    else if (t =? Separated)%N then exists k', k <= k' /\ 1 <= k' /\ separated_at w q k'
    else False.
  Lemma knows_not : forall w k q, knows w k (q, NotMatched) <-> k = 0 /\ (q = NI \/ exists u v, w = u ++ v /\ path (edge A) R v q).
  Proof. intros. unfold knows. cbn [N.eqb Pos.eqb NotMatched]. tauto. Qed.
  Lemma knows_matched : forall w k q, knows w k (q, Matched) <-> exists k', k <= k' /\ 1 <= k' /\ matched_at w q k'.
  Proof. intros. unfold knows. cbn [N.eqb Pos.eqb NotMatched Matched]. tauto. Qed.
  Lemma knows_separated : forall w k q, knows w k (q, Separated) <-> exists k', k <= k' /\ 1 <= k' /\ separated_at w q k'.
  Proof. intros. unfold knows. cbn [N.eqb Pos.eqb NotMatched Matched Separated]. tauto. Qed.
  Lemma knows_tag : forall w k q t, knows w k (q, t) -> t = NotMatched \/ t = Matched \/ t = Separated.
  Proof.
    intros w k q t. unfold knows. destruct (N.eqb_spec t NotMatched); auto. destruct (N.eqb_spec t Matched); auto. destruct (N.eqb_spec t Separated); auto. intros [].
  Qed.
  Lemma knows_less : forall w k k' x, snd x <> NotMatched -> k' <= k -> knows w k x -> knows w k' x.
  Proof.
    intros w k k' [q t] Ht Hk H. cbn [snd] in Ht. destruct (knows_tag _ _ _ _ H) as [->|[->| ->]]; [congruence| |].
    - apply knows_matched in H as (j & H1 & H2 & H3). apply knows_matched. exists j. splits; auto. lia.
    - apply knows_separated in H as (j & H1 & H2 & H3). apply knows_separated. exists j. splits; auto. lia.
  Qed.
  Lemma knows_zero : forall w k x, knows w k x -> knows w 0 x.
  Proof.
    intros w k [q t] H. destruct (N.eq_dec t NotMatched) as [->|Ht].
    - apply knows_not in H as [_ H]. apply knows_not. auto.
    - apply (knows_less w k 0 (q, t) Ht); [lia|exact H].
  Qed.
  Lemma knows_one : forall w x, snd x <> NotMatched -> knows w 0 x -> knows w 1 x.
  Proof.
    intros w [q t] Ht H. cbn [snd] in Ht. destruct (knows_tag _ _ _ _ H) as [->|[->| ->]]; [congruence| |].
    - apply knows_matched in H as (j & H1 & H2 & H3). apply knows_matched. exists j. auto.
    - apply knows_separated in H as (j & H1 & H2 & H3). apply knows_separated. exists j. auto.
  Qed.
  Lemma path_A : forall w q, path (edge A) R w q -> q < n.
  Proof. intros w q P. assert (H := path_closed (edge A) (fun q => q < n) (fun p c q _ E => proj2 (edge_bound _ _ _ _ WA E)) _ _ _ P). apply H. apply (wf_init _ WA). Qed.
  Lemma path_B : forall w q, path (edge B) (initial B) w q -> q < m.
  Proof. intros w q P. assert (H := path_closed (edge B) (fun q => q < m) (fun p c q _ E => proj2 (edge_bound _ _ _ _ WB E)) _ _ _ P). apply H. apply (wf_init _ WB). Qed.
  Lemma path_more : forall E p w q c r, c <> Epsilon -> path E p w q -> E q c r -> path E p (w ++ [c]) r.
  Proof. intros E p w q c r Hc P H. eapply path_app; eauto. eapply path_step; eauto. apply path_nil. Qed.
  Lemma acc_A : forall w q, path (edge A) R w q -> In q (finals A) -> re w.
  Proof. intros w q P H. exists q. split; auto. Qed.
  Lemma acc_B : forall w q, path (edge B) (initial B) w q -> In q (finals B) -> sep w.
  Proof. intros w q P H. exists q. split; auto. Qed.
  Lemma acc_nil : In R (finals A) -> re [].
  Proof. intros H. apply (acc_A [] R); auto. apply path_nil. Qed.
  Lemma fin_lt : forall q, In q (finals A) -> q < n.
  Proof. intros q H. apply (wf_fin _ WA). exact H. Qed.
  Lemma tag_matched : forall q, fsm_tag f q = Matched <-> In q (finals A) \/ (q = NI /\ In R (finals A)).
  Proof.
    intros q. rewrite Tag. destruct (smem q (finals A)) eqn:S; [apply smem_in in S; tauto|]. apply smem_false in S.
    destruct (Nat.eqb_spec q NI); cbn [andb].
    - destruct (smem R (finals A)) eqn:S1; [apply smem_in in S1; tauto|]. apply smem_false in S1. split; [|tauto]. destruct ((n <=? q) && (q <? n + m)); intros X; discriminate X.
    - split; [|tauto]. destruct ((n <=? q) && (q <? n + m)); intros X; discriminate X.
  Qed.
  Lemma tag_sep : forall q, fsm_tag f q = Separated <-> n <= q < NI.
  Proof.
    intros q. rewrite Tag. destruct (smem q (finals A)) eqn:S.
    - apply smem_in, fin_lt in S. split; [intros X; discriminate X|]. intros; exfalso; lia.
    - destruct (Nat.eqb_spec q NI); cbn [andb].
      + destruct (smem R (finals A)); [split; [intros X; discriminate X|intros; exfalso; lia]|]. destruct (Nat.ltb_spec q (n + m)); [unfold NI in *; lia|]. rewrite andb_false_r.
        split; [intros X; discriminate X|intros; exfalso; unfold NI in *; lia].
      + destruct (Nat.leb_spec n q), (Nat.ltb_spec q (n + m)); cbn [andb]; unfold NI in *; split; intros X; try discriminate X; try reflexivity; try lia.
  Qed.
  (** A state the first component is matched in *)
  Lemma knows_end : forall w k q t, knows w k (q, t) -> In q (finals A) \/ (q = NI /\ In R (finals A)) -> exists k', k <= k' /\ 1 <= k' /\ ends_with w k'.
  Proof.
    intros w k q t H F. assert (NF : ~ In NI (finals A)) by (intros X; apply fin_lt in X; unfold NI in X; lia).
    assert (NP : forall v, ~ path (edge A) R v NI) by (intros v X; apply path_A in X; unfold NI in X; lia).
    assert (E1 : re [] -> ends_with w 1) by (intros X; pose proof (ends_one w [] X) as Y; rewrite app_nil_r in Y; exact Y).
    destruct (knows_tag _ _ _ _ H) as [->|[->| ->]].
    - apply knows_not in H as [-> H]. exists 1. splits; try lia. destruct F as [F|[-> F]]; [|apply E1, acc_nil; auto].
      destruct H as [->|(u & v & -> & P)]; [destruct (NF F)|]. apply ends_one. eapply acc_A; eauto.
    - apply knows_matched in H as (k' & H1 & H2 & H). exists k'. splits; auto. destruct H as [(-> & -> & H)|(u1 & r & v & -> & P & Hr & H)]; [auto|].
      destruct F as [F|[-> F]]; [|destruct (NP _ P)]. pose proof (acc_A _ _ P F) as X. destruct H as [->|(k0 & u0 & s & -> & -> & Hs & He)]; [apply ends_one; auto|].
      rewrite <- app_assoc. apply ends_more; auto.
    - apply knows_separated in H as (k' & H1 & H2 & [(u0 & s & v & -> & Hs & He & P)|(b & u0 & s & -> & -> & P & He)]).
      + destruct F as [F|[-> F]]; [|destruct (NP _ P)]. exists (S k'). splits; try lia. apply ends_more; auto. eapply acc_A; eauto.
      + apply path_B in P. destruct F as [F|[E F]]; [apply fin_lt in F; lia|unfold NI in E; lia].
  Qed.
  Lemma knows_final : forall w k q t, knows w k (q, t) -> is_final f q = true -> exists k' u0 s, k <= k' /\ 1 <= k' /\ w = u0 ++ s /\ sep s /\ ends_with u0 k'.
  Proof.
    intros w k q t H F. apply smem_in, Fin in F as [(b & -> & F)|(F0 & F)].
    - assert (X : ~ (b + n < n)) by lia. assert (X1 : b < m) by (apply (wf_fin _ WB); exact F).
      destruct (knows_tag _ _ _ _ H) as [->|[->| ->]].
      + apply knows_not in H as [_ [H|(u & v & _ & P)]]; [unfold NI in H; lia|apply path_A in P; lia].
      + apply knows_matched in H as (k' & H1 & H2 & [(H & _)|(u1 & r & v & _ & P & _)]); [unfold NI in H; lia|apply path_A in P; lia].
      + apply knows_separated in H as (k' & H1 & H2 & [(u0 & s & v & _ & _ & _ & P)|(b' & u0 & s & E & -> & P & He)]); [apply path_A in P; lia|].
        replace b' with b in P by lia. exists k', u0, s. splits; auto. eapply acc_B; eauto.
    - destruct (knows_end _ _ _ _ H F) as (k' & H1 & H2 & H3). exists k', w, []. splits; auto; [rewrite app_nil_r; auto|]. eapply acc_B; eauto. apply path_nil.
  Qed.

  (** ** One destination *)
  Definition agrees (x : tstate) : Prop := fsm_tag f (fst x) = Matched -> snd x = Matched.
  (** What holds of a state and the group it is put in, coming from a state tagged t *)
  Definition fresh (w : list N) (k : nat) (t : N) (i : kind * tstate) : Prop :=
    let '(kd, y) := i in
    knows w k y /\ agrees y /\ (kd = KM -> snd y = Matched /\ knows w (S k) y) /\ (kd = KS -> snd y <> NotMatched /\ (snd y = Matched -> knows w (S k) y)) /\ (kd = KU -> snd y = t).
  Lemma fresh_M : forall w k t q, knows w (S k) (q, Matched) -> fresh w k t (KM, (q, Matched)).
  Proof.
    intros w k t q H. unfold fresh, agrees. split; [|split; [|split; [|split]]]; try (intros X; discriminate X); auto.
    eapply knows_less; [| |exact H]; [discriminate|lia].
  Qed.
  Lemma fresh_S : forall w k t q, knows w k (q, Separated) -> fsm_tag f q <> Matched -> fresh w k t (KS, (q, Separated)).
  Proof.
    intros w k t q H T. unfold fresh, agrees. cbn [fst snd]. split; [|split; [|split; [|split]]]; try (intros X; discriminate X); auto.
    - intros X. congruence.
    - intros _. split; intros X; discriminate X.
  Qed.
  Lemma fresh_U : forall w k t q, knows w k (q, t) -> (fsm_tag f q = Matched -> t = Matched) -> fresh w k t (KU, (q, t)).
  Proof.
    intros w k t q H T. unfold fresh, agrees. cbn [fst snd]. split; [|split; [|split; [|split]]]; try (intros X; discriminate X); auto.
  Qed.
  Lemma step_one : forall w k q t c q', knows w k (q, t) -> edge f q c q' -> fresh (w ++ [c]) k t (tagged f t q').
  Proof.
    intros w k q t c q' H E. apply Edge in E as [Hc E].
    assert (NP : forall v, ~ path (edge A) R v NI) by (intros v X; apply path_A in X; unfold NI in X; lia).
    assert (RB : R < n) by apply (wf_init _ WA).
    (* where the edge leads *)
    assert (CE : forall p, cat_e A B p c q' -> (p < n /\ q' < n /\ edge A p c q') \/ (exists b b', p = b + n /\ q' = b' + n /\ edge B b c b') \/ (In p (finals A) /\ exists b', q' = b' + n /\ b' < m /\ edge B (initial B) c b')).
    { intros p [X|[(p' & q0 & -> & -> & X)|(X0 & q0 & -> & X)]].
      - left. destruct (edge_bound _ _ _ _ WA X). auto.
      - right. left. exists p', q0. auto.
      - right. right. split; auto. exists q0. destruct (edge_bound _ _ _ _ WB X). auto. }
    (* into the separator *)
    assert (SEP : forall b', q' = b' + n -> b' < m -> edge B (initial B) c b' -> In q (finals A) \/ (q = NI /\ In R (finals A)) -> fresh (w ++ [c]) k t (tagged f t q')).
    { intros b' -> Hb X F. destruct (knows_end _ _ _ _ H F) as (k' & H1 & H2 & H3). unfold tagged.
      assert (T : fsm_tag f (b' + n) = Separated) by (apply tag_sep; unfold NI; lia). rewrite T. replace (Separated =? Matched)%N with false by reflexivity. rewrite andb_false_r, orb_true_r.
      apply fresh_S; [|rewrite T; discriminate].
      apply knows_separated. exists k'. splits; auto. right. exists b', w, [c]. splits; auto. change [c] with ([] ++ [c]). eapply path_more; eauto. apply path_nil. }
    (* inside the first component *)
    assert (INA : forall p, cat_e A B p c q' -> p < n -> In p (finals A) \/ ~ In p (finals A) -> (edge A p c q' /\ q' < n) \/ (In p (finals A) /\ exists b', q' = b' + n /\ b' < m /\ edge B (initial B) c b')).
    { intros p X Hp _. apply CE in X as [(X1 & X2 & X)|[(b & b' & E1 & _)|X]]; auto. lia. }
    assert (TL : q' < n -> fsm_tag f q' <> Separated) by (intros X Y; apply tag_sep in Y; lia).
    destruct (knows_tag _ _ _ _ H) as [->|[->| ->]].
    - (* not matched *)
      assert (K := H). apply knows_not in K as [-> K].
      assert (G : forall u v, w ++ [c] = u ++ v -> path (edge A) R v q' -> fresh (w ++ [c]) 0 NotMatched (tagged f NotMatched q')).
      { intros u v Ew P. pose proof (path_A _ _ P) as L. unfold tagged. replace (NotMatched =? Matched)%N with false by reflexivity. replace (NotMatched =? Separated)%N with false by reflexivity.
        cbn [negb andb orb]. destruct (N.eqb_spec (fsm_tag f q') Matched) as [T|T].
        - rewrite T. assert (F : In q' (finals A)) by (apply tag_matched in T as [T|[-> _]]; auto; destruct (NP _ P)).
          assert (KK : forall k, k <= 1 -> knows (w ++ [c]) k (q', Matched)).
          { intros j Hj. apply knows_matched. exists 1. splits; auto. right. exists u, v, []. rewrite !app_nil_r. splits; auto. eapply acc_A; eauto. }
          apply fresh_M, KK. lia.
        - destruct (N.eqb_spec (fsm_tag f q') Separated) as [T1|T1]; [destruct (TL L T1)|]. apply fresh_U; [|intros X; congruence].
          apply knows_not. split; auto. right. eauto. }
      destruct E as [E|(-> & [(-> & Hm)|E])].
      + destruct K as [->|(u & v & -> & P)].
        * apply CE in E as [(X & _)|[(b & b' & X & _ & Y)|(X & _)]]; [unfold NI in X; lia| |apply fin_lt in X; unfold NI in X; lia].
          apply (edge_bound _ _ _ _ WB) in Y. fold m in Y. unfold NI in X. lia.
        * apply INA in E as [(E & L)|(F & b' & E1 & L & E)]; [| |apply (path_A _ _ P)|destruct (in_dec Nat.eq_dec q (finals A)); auto].
          -- apply (G u (v ++ [c])); [rewrite app_assoc; auto|]. eapply path_more; eauto.
          -- eapply SEP; eauto.
      + unfold tagged. replace (NotMatched =? Matched)%N with false by reflexivity. replace (NotMatched =? Separated)%N with false by reflexivity. cbn [negb andb orb].
        destruct (N.eqb_spec (fsm_tag f NI) Matched) as [T|T].
        * rewrite T. apply tag_matched in T as [T|[_ T]]; [apply fin_lt in T; unfold NI in T; lia|].
          assert (KK : forall k, k <= 1 -> knows (w ++ [c]) k (NI, Matched)) by (intros j Hj; apply knows_matched; exists 1; splits; auto; left; splits; auto; apply acc_nil; auto).
          apply fresh_M, KK. lia.
        * destruct (N.eqb_spec (fsm_tag f NI) Separated) as [T1|T1]; [apply tag_sep in T1; lia|]. apply fresh_U; [|intros X; congruence].
          apply knows_not. auto.
      + apply INA in E as [(E & L)|(F & b' & E1 & L & E)]; [| |exact RB|destruct (in_dec Nat.eq_dec R (finals A)); auto].
        * apply (G w [c]); auto. change [c] with ([] ++ [c]). eapply path_more; eauto. apply path_nil.
        * eapply SEP; eauto.
    - (* matched *)
      assert (K := H). apply knows_matched in K as (k' & H1 & H2 & K).
      assert (G : matched_at (w ++ [c]) q' k' -> fsm_tag f q' <> Separated -> fresh (w ++ [c]) k Matched (tagged f Matched q')).
      { intros M T. unfold tagged. replace (Matched =? Matched)%N with true by reflexivity. replace (Matched =? Separated)%N with false by reflexivity. cbn [negb andb orb].
        destruct (N.eqb_spec (fsm_tag f q') Separated) as [T1|T1]; [congruence|]. apply fresh_U; auto.
        apply knows_matched. eauto. }
      destruct E as [E|(-> & [(-> & Hm)|E])].
      + destruct K as [(-> & _)|(u1 & r & v & -> & P & Hr & K)].
        * apply CE in E as [(X & _)|[(b & b' & X & _ & Y)|(X & _)]]; [unfold NI in X; lia| |apply fin_lt in X; unfold NI in X; lia].
          apply (edge_bound _ _ _ _ WB) in Y. fold m in Y. unfold NI in X. lia.
        * apply INA in E as [(E & L)|(F & b' & E1 & L & E)]; [| |apply (path_A _ _ P)|destruct (in_dec Nat.eq_dec q (finals A)); auto].
          -- apply G; auto. right. exists u1, r, (v ++ [c]). rewrite <- !app_assoc. splits; auto. rewrite app_assoc. eapply path_more; eauto.
          -- eapply SEP; eauto.
      + apply G; [|intros X; apply tag_sep in X; lia]. destruct K as [(_ & -> & K)|(u1 & r & v & -> & P & Hr & K)]; [left; auto|destruct (NP _ P)].
      + destruct K as [(_ & -> & K)|(u1 & r & v & -> & P & Hr & K)]; [|destruct (NP _ P)].
        apply INA in E as [(E & L)|(F & b' & E1 & L & E)]; [| |exact RB|destruct (in_dec Nat.eq_dec R (finals A)); auto].
        * apply G; auto. right. exists w, [], [c]. splits; auto. change [c] with ([] ++ [c]). eapply path_more; eauto. apply path_nil.
        * eapply SEP; eauto.
    - (* separated *)
      assert (K := H). apply knows_separated in K as (k' & H1 & H2 & K).
      destruct E as [E|(-> & [(-> & Hm)|E])].
      + destruct K as [(u0 & s & v & -> & Hs & He & P)|(b & u0 & s & -> & -> & P & He)].
        * apply INA in E as [(E & L)|(F & b' & E1 & L & E)]; [| |apply (path_A _ _ P)|destruct (in_dec Nat.eq_dec q (finals A)); auto]; [|eapply SEP; eauto].
          assert (P1 : path (edge A) R (v ++ [c]) q') by (eapply path_more; eauto).
          unfold tagged. replace (Separated =? Matched)%N with false by reflexivity. replace (Separated =? Separated)%N with true by reflexivity. cbn [negb andb orb].
          destruct (N.eqb_spec (fsm_tag f q') Matched) as [T|T].
          -- rewrite T. assert (F : In q' (finals A)) by (apply tag_matched in T as [T|[-> _]]; auto; destruct (NP _ P1)).
             assert (KK : forall j, j <= S k -> knows ((u0 ++ s ++ v) ++ [c]) j (q', Matched)).
             { intros j Hj. apply knows_matched. exists (S k'). splits; try lia. right. exists (u0 ++ s), (v ++ [c]), []. rewrite !app_nil_r, <- !app_assoc. splits; auto; [eapply acc_A; eauto|].
               right. exists k', u0, s. auto. }
             apply fresh_M, KK. lia.
          -- apply fresh_S; auto. apply knows_separated. exists k'. splits; auto. left. exists u0, s, (v ++ [c]). rewrite <- !app_assoc. auto.
        * pose proof (path_B _ _ P) as L. apply CE in E as [(X & _)|[(b0 & b' & X & -> & Y)|(X & _)]]; [lia| |apply fin_lt in X; lia]. replace b0 with b in Y by lia.
          destruct (edge_bound _ _ _ _ WB Y) as [_ L']. fold m in L'.
          unfold tagged. assert (T : fsm_tag f (b' + n) = Separated) by (apply tag_sep; unfold NI; lia). rewrite T. replace (Separated =? Matched)%N with false by reflexivity. rewrite andb_false_r, orb_true_r.
          apply fresh_S; [|rewrite T; discriminate].
          apply knows_separated. exists k'. splits; auto. right. exists b', u0, (s ++ [c]). rewrite <- app_assoc. splits; auto. eapply path_more; eauto.
      + destruct K as [(u0 & s & v & -> & Hs & He & P)|(b & u0 & s & E1 & -> & P & He)]; [destruct (NP _ P)|apply path_B in P; unfold NI in E1; lia].
      + destruct K as [(u0 & s & v & -> & Hs & He & P)|(b & u0 & s & E1 & -> & P & He)]; [destruct (NP _ P)|apply path_B in P; unfold NI in E1; lia].
  Qed.
  (** A new word of the first component, after a separator *)
  Lemma step_again : forall w k q t c q', knows w k (q, t) -> is_final f q = true -> edge f R c q' -> fresh (w ++ [c]) k t (KS, snd (tagged f Separated q')).
  Proof.
    intros w k q t c q' H F E. destruct (knows_final _ _ _ _ H F) as (k' & u0 & s & H1 & H2 & -> & Hs & He).
    assert (K : knows (u0 ++ s) k' (R, Separated)).
    { apply knows_separated. exists k'. splits; auto. left. exists u0, s, []. rewrite app_nil_r. splits; auto. apply path_nil. }
    pose proof (step_one _ _ _ _ _ _ K E) as S1. destruct (tagged f Separated q') as [kd y] eqn:T. cbn [snd]. destruct S1 as (G1 & G2 & G3 & G4 & G5).
    assert (Ny : snd y <> NotMatched).
    { destruct kd; [rewrite (proj1 (G3 eq_refl)); discriminate|rewrite (G5 eq_refl); discriminate|apply (G4 eq_refl)]. }
    assert (My : snd y = Matched -> knows ((u0 ++ s) ++ [c]) (S k) y).
    { intros My. destruct kd; [| |].
      - apply (knows_less _ (S k')); auto; try lia. apply (G3 eq_refl).
      - rewrite (G5 eq_refl) in My. discriminate My.
      - apply (knows_less _ (S k')); auto; try lia. apply (G4 eq_refl). exact My. }
    unfold fresh. split; [apply (knows_less _ k'); auto|]. split; [exact G2|]. split; [intros X; discriminate X|]. split; [auto|intros X; discriminate X].
  Qed.
  (** All destinations of a group *)
  Lemma split_fresh : forall w src c x i, (forall p q, In q (destinations f p c) -> edge f p x q) -> In i (split_destinations f R dead src c) ->
    exists y, In y src /\ forall k, knows w k y -> fresh (w ++ [x]) k (snd y) i.
  Proof.
    intros w src c x i D Hi. unfold split_destinations in Hi. apply in_flat_map in Hi as ([q t] & Hs & Hi). exists (q, t). split; [exact Hs|]. intros k H. cbn [fst snd] in Hi |- *.
    apply in_app_iff in Hi as [Hi|Hi].
    - unfold make_tagged in Hi. apply in_map_iff in Hi as (q' & <- & Hi). apply filter_In in Hi as [Hi _]. eapply step_one; eauto.
    - destruct (is_final f q) eqn:F; [|destruct Hi]. apply in_map_iff in Hi as (j & <- & Hi). unfold make_tagged in Hi. apply in_map_iff in Hi as (q' & <- & Hi). apply filter_In in Hi as [Hi _].
      eapply step_again; eauto.
  Qed.

  (** ** The groups *)
  Definition gU (w : list N) (k : nat) (g : group) : Prop := forall x, In x g -> knows w k x /\ agrees x.
  Definition gM (w : list N) (k : nat) (g : group) : Prop := forall x, In x g -> knows w (S k) x /\ snd x = Matched.
  Definition gS (w : list N) (k : nat) (g : group) : Prop := forall x, In x g -> knows w k x /\ agrees x /\ (snd x = Matched -> knows w (S k) x).
  Definition gL (w : list N) (g : group) : Prop := forall x, In x g -> knows w 0 x /\ agrees x.

  Section Step.
    Variable w : list N.
    Variables c x : N.
    Hypothesis D : forall p q, In q (destinations f p c) -> edge f p x q.
    Let w' := w ++ [x].
    Lemma items_M : forall k src, (forall y, In y src -> knows w k y) -> gM w' k (into KM (split_destinations f R dead src c) []).
    Proof.
      intros k src H y Hy. apply into_in in Hy as [[]|Hy]. destruct (split_fresh w _ _ _ _ D Hy) as (z & Hz & F). specialize (F k (H _ Hz)). destruct F as (_ & _ & F & _). destruct (F eq_refl). auto.
    Qed.
    Lemma items_U : forall k src, (forall y, In y src -> knows w k y) -> gU w' k (into KU (split_destinations f R dead src c) []).
    Proof.
      intros k src H y Hy. apply into_in in Hy as [[]|Hy]. destruct (split_fresh w _ _ _ _ D Hy) as (z & Hz & F). specialize (F k (H _ Hz)). destruct F as (F1 & F2 & _). auto.
    Qed.
    Lemma items_S : forall k src, (forall y, In y src -> knows w k y) -> gS w' k (into KS (split_destinations f R dead src c) []) /\
      forall y, In y (into KS (split_destinations f R dead src c) []) -> snd y <> NotMatched.
    Proof.
      intros k src H. assert (G : forall y, In y (into KS (split_destinations f R dead src c) []) -> exists t, fresh w' k t (KS, y)).
      { intros y Hy. apply into_in in Hy as [[]|Hy]. destruct (split_fresh w _ _ _ _ D Hy) as (z & Hz & F). exists (snd z). exact (F k (H _ Hz)). }
      split; intros y Hy; destruct (G y Hy) as (t & F1 & F2 & _ & F4 & _); destruct (F4 eq_refl); auto.
    Qed.
    (** coming from the separated group *)
    Lemma items_all : forall k src kd y, (forall y, In y src -> knows w k y /\ (snd y = Matched -> knows w (S k) y)) -> In (kd, y) (split_destinations f R dead src c) ->
      knows w' k y /\ agrees y /\ (snd y = Matched -> knows w' (S k) y).
    Proof.
      intros k src kd y H Hy. destruct (split_fresh w _ _ _ _ D Hy) as (z & Hz & F). destruct (H _ Hz) as [H1 H2]. pose proof (F k H1) as (F1 & F2 & F3 & F4 & F5). splits; auto.
      intros M. destruct kd.
      - apply (F3 eq_refl).
      - rewrite (F5 eq_refl) in M. destruct (F (S k) (H2 M)) as (X & _). exact X.
      - apply (F4 eq_refl). exact M.
    Qed.
  End Step.

  (** ** The states *)
  (** What an action does to the current counter *)
  Definition act (a : N) (k : nat) : nat := (if (N.land a ResetAction =? 0)%N then k else 0) + (if (N.land a IncrementAction =? 0)%N then 0 else 1).
  Definition inv (w : list N) (k : nat) (st : dstate) : Prop :=
    (forall x, In x (g_unmatched st) -> knows w k x) /\ gS w k (g_separated st) /\ gL w (g_lagging st) /\ (g_unmatched st = [] -> k = 0).
  (** before normalisation *)
  Definition pre (w : list N) (k : nat) (d : dstate) : Prop := gM w k (g_matched d) /\ gU w k (g_unmatched d) /\ gS w k (g_separated d) /\ gL w (g_lagging d).

  Lemma tags_bit : forall g j, N.testbit (tags_of_group g) j = true <-> exists x, In x g /\ N.testbit (snd x) j = true.
  Proof.
    intros g j. unfold tags_of_group. assert (G : forall g a, N.testbit (fold_left (fun r (x : tstate) => N.lor r (snd x)) g a) j = true <-> N.testbit a j = true \/ exists x, In x g /\ N.testbit (snd x) j = true).
    { clear g. induction g as [|y g IH]; intros a; cbn [fold_left].
      - split; auto. intros [H|(x & [] & _)]. exact H.
      - rewrite IH, N.lor_spec, orb_true_iff. split.
        + intros [[H|H]|(x & H & H')]; auto; right; [exists y|exists x]; cbn [In]; auto.
        + intros [H|(x & [->|H] & H')]; eauto. }
    rewrite G, N.bits_0. split; [intros [H|H]; [discriminate H|auto]|auto].
  Qed.
  Lemma land_bit1 : forall t, N.land t Matched = 0%N <-> N.testbit t 1 = false.
  Proof.
    intros t. split; intros H.
    - apply (f_equal (fun z => N.testbit z 1)) in H. rewrite N.land_spec in H. change (N.testbit Matched 1) with true in H. rewrite andb_true_r, N.bits_0 in H. exact H.
    - apply N.bits_inj. intros i. rewrite N.land_spec, N.bits_0. destruct (N.eqb_spec i 1) as [->|Ni]; [rewrite H; reflexivity|].
      replace (N.testbit Matched i) with false; [apply andb_false_r|]. symmetry. change Matched with (2 ^ 1)%N. apply N.pow2_bits_false. auto.
  Qed.
  Lemma raw_none : forall g1 g2 e, g1 = [] -> g2 = [] -> raw_states [g1; g2] e = [].
  Proof. intros g1 g2 e -> ->. reflexivity. Qed.
  Lemma filter_all : forall X (p : X -> bool) l, (forall x, In x l -> p x = true) -> filter p l = l.
  Proof. intros X p l H. induction l as [|x l IH]; cbn [filter]; auto. rewrite (H x) by (left; auto). f_equal. apply IH. intros y Hy. apply H. right. exact Hy. Qed.
  Lemma filter_none : forall X (p : X -> bool) l, filter p l = [] -> forall x, In x l -> p x = false.
  Proof. intros X p l H x Hx. destruct (p x) eqn:P; auto. assert (Y : In x (filter p l)) by (apply filter_In; auto). rewrite H in Y. destruct Y. Qed.
  Lemma gL_of : forall w k g, gU w k g -> gL w g.
  Proof. intros w k g H x Hx. destruct (H x Hx). split; auto. eapply knows_zero; eauto. Qed.
  Lemma gL_ofS : forall w k g, gS w k g -> gL w g.
  Proof. intros w k g H x Hx. destruct (H x Hx) as (X & Y & _). split; auto. eapply knows_zero; eauto. Qed.
  Lemma gU_of : forall w k g, gS w k g -> gU w k g.
  Proof. intros w k g H x Hx. destruct (H x Hx) as (X & Y & _). split; auto. Qed.
  Lemma gL_sub : forall w g g', gL w g -> (forall x, In x g' -> In x g) -> gL w g'.
  Proof. intros w g g' H S x Hx. apply H, S, Hx. Qed.
  Lemma gS_sub : forall w k g g', gS w k g -> (forall x, In x g' -> In x g) -> gS w k g'.
  Proof. intros w k g g' H S x Hx. apply H, S, Hx. Qed.

  Definition post (move : bool) (d : dstate) : dstate := remove_dup_separated (remove_dup_lagging (update_lagging move d)).
  Lemma tag_cases : forall w k x, knows w k x -> N.testbit (snd x) 1 = true <-> snd x = Matched.
  Proof. intros w k [q t] H. cbn [snd]. destruct (knows_tag _ _ _ _ H) as [->|[->| ->]]; split; intros X; try reflexivity; discriminate X. Qed.
  Lemma by_tag_in : forall k u g x, In (k, x) (map (by_tag f u) g) <-> In x g /\ fst (by_tag f u x) = k.
  Proof.
    intros k u g x. rewrite in_map_iff. split.
    - intros (y & E & H). assert (y = x) as -> by (unfold by_tag in E; injection E as _ E; exact E). rewrite E. auto.
    - intros [H E]. exists x. split; auto. unfold by_tag in *. cbn [fst] in E. rewrite E. reflexivity.
  Qed.
  Lemma post_ok : forall move w k d, pre w k d -> inv w (act (transition_tag d) k) (normalize f (post move d)).
  Proof.
    intros move w k [M U S L] (HM & HU & HS & HL). cbn [g_matched g_unmatched g_separated g_lagging] in *. unfold post.
    destruct M as [|x0 M].
    2:{ (* a match *)
      assert (A1 : act (transition_tag (mkD (x0 :: M) U S L)) k = Datatypes.S k) by (unfold act, transition_tag; cbn [g_matched is_nil negb]; change (N.land IncrementAction ResetAction =? 0)%N with true; change (N.land IncrementAction IncrementAction =? 0)%N with false; cbv iota; lia).
      rewrite A1. clear A1. unfold update_lagging. cbn [g_matched g_unmatched g_separated g_lagging is_nil negb andb].
      unfold remove_dup_lagging. cbn [g_matched g_unmatched g_separated g_lagging]. unfold remove_dup_separated. cbn [g_matched g_unmatched g_separated g_lagging filter].
      match goal with |- context [filter ?P0 ?L0] => assert (HL0 : gL w (filter P0 L0)); [|generalize dependent (filter P0 L0); intros L1 HL1] end.
      { match goal with |- gL w (filter _ ?L0) => apply (gL_sub w L0); [|intros x Hx; apply filter_In in Hx; tauto] end.
        destruct move; auto. intros x Hx. apply sunion_In in Hx as [Hx|Hx]; [apply sunion_In in Hx as [Hx|Hx]|].
        - exact (HL x Hx).
        - exact (gL_of w k U HU x Hx).
        - exact (gL_ofS w k S HS x Hx). }
      unfold normalize. cbn [g_matched g_unmatched g_separated g_lagging is_nil negb andb].
      unfold inv. cbn [g_matched g_unmatched g_separated g_lagging]. splits; auto.
      - intros x Hx. apply HM. exact Hx.
      - intros x [].
      - intros X. discriminate X. }
    destruct U as [|u0 U].
    2:{ (* nothing *)
      assert (A1 : act (transition_tag (mkD [] (u0 :: U) S L)) k = k) by (unfold act, transition_tag; cbn [g_matched g_unmatched is_nil negb]; change (N.land 0 ResetAction =? 0)%N with true; change (N.land 0 IncrementAction =? 0)%N with true; cbv iota; lia).
      rewrite A1. clear A1. unfold update_lagging. cbn [g_matched g_unmatched g_separated g_lagging is_nil negb andb].
      unfold remove_dup_lagging. cbn [g_matched g_unmatched g_separated g_lagging]. unfold remove_dup_separated. cbn [g_matched g_unmatched g_separated g_lagging].
      match goal with |- context [filter ?P0 S] => set (P := P0) end. match goal with |- context [filter ?P0 L] => set (Q := P0) end.
      assert (HL0 : gL w (filter Q L)) by (apply (gL_sub w L); [auto|intros x Hx; apply filter_In in Hx; tauto]).
      assert (HS0 : gS w k (filter P S)) by (apply (gS_sub w k S); [auto|intros x Hx; apply filter_In in Hx; tauto]).
      generalize dependent (filter Q L). intros L1 HL1. generalize dependent (filter P S). intros S1 HS1.
      unfold normalize. cbn [g_matched g_unmatched g_separated g_lagging is_nil negb andb].
      unfold inv. cbn [g_matched g_unmatched g_separated g_lagging]. splits; auto.
      - intros x Hx. apply HU. exact Hx.
      - intros X. discriminate X. }
    destruct S as [|s0 S'].
    2:{ (* only separated states *)
      set (S := s0 :: S') in *.
      assert (NS : is_nil S = false) by reflexivity. assert (NE : S <> []) by (unfold S; discriminate). clearbody S.
      assert (TM : has_tag (fun t => (t =? Matched)%N) S = negb (N.land (tags_of_group S) Matched =? 0)%N).
      { apply eq_true_iff_eq. rewrite has_tag_iff, negb_true_iff, N.eqb_neq, land_bit1, not_false_iff_true, tags_bit. split; intros (x & Hx & X); exists x; split; auto.
        - apply N.eqb_eq in X. rewrite X. reflexivity.
        - apply N.eqb_eq. destruct (HS x Hx) as (K & _). exact (proj1 (tag_cases w k x K) X). }
      unfold transition_tag. cbn [g_matched g_unmatched g_separated g_lagging is_nil negb]. rewrite NS. cbn [negb]. rewrite TM.
      unfold update_lagging. cbn [g_matched g_unmatched g_separated g_lagging is_nil negb andb]. rewrite NS. cbn [negb].
      set (b := negb (N.land (tags_of_group S) Matched =? 0)%N) in *.
      (* what stays *)
      assert (R0 : forall S1 L1, S1 <> [] -> (forall x, In x S1 -> knows w (act (if b then IncrementAction else 0%N) k) x) -> gL w L1 ->
        inv w (act (if b then IncrementAction else 0%N) k) (normalize f (remove_dup_separated (remove_dup_lagging (mkD [] [] S1 L1))))).
      { intros S1 L1 N1 K1 G1. unfold remove_dup_lagging. cbn [g_matched g_unmatched g_separated g_lagging]. unfold remove_dup_separated. cbn [g_matched g_unmatched g_separated g_lagging].
        rewrite (filter_all _ (fun x : tstate => negb (smem (fst x) (raw_states [[]; []] 0))) S1) by (intros; reflexivity).
        match goal with |- context [filter ?P0 L1] => set (Q := P0) end. assert (HL0 : gL w (filter Q L1)) by (apply (gL_sub w L1); [auto|intros x Hx; apply filter_In in Hx; tauto]).
        generalize dependent (filter Q L1). intros L2 HL2.
        unfold normalize. cbn [g_matched g_unmatched g_separated g_lagging is_nil negb andb]. destruct S1 as [|s1 S1]; [congruence|]. cbn [g_matched g_unmatched g_separated g_lagging is_nil negb andb].
        unfold inv. cbn [g_matched g_unmatched g_separated g_lagging]. splits; auto.
        - intros x [].
        - intros X. discriminate X. }
      assert (AI : act IncrementAction k = Datatypes.S k) by (unfold act; change (N.land IncrementAction ResetAction =? 0)%N with true; change (N.land IncrementAction IncrementAction =? 0)%N with false; cbv iota; lia).
      assert (A0 : act 0 k = k) by (unfold act; change (N.land 0 ResetAction =? 0)%N with true; change (N.land 0 IncrementAction =? 0)%N with true; cbv iota; lia).
      destruct b eqn:Eb; cbn [andb].
      - destruct (N.eqb_spec (tags_of_group S) Matched) as [T|T]; cbn [negb].
        + apply R0; auto. rewrite AI. intros x Hx. apply HS; auto. destruct (HS x Hx) as (K & _). destruct x as [q t]. cbn [snd]. destruct (knows_tag _ _ _ _ K) as [->|[->| ->]]; auto; exfalso.
          * assert (X : N.testbit (tags_of_group S) 0 = true) by (apply tags_bit; eexists; split; [exact Hx|reflexivity]). rewrite T in X. discriminate X.
          * assert (X : N.testbit (tags_of_group S) 2 = true) by (apply tags_bit; eexists; split; [exact Hx|reflexivity]). rewrite T in X. discriminate X.
        + apply R0.
          * intros X. apply has_tag_iff in TM as (x & Hx & Y). rewrite (filter_none _ _ _ X x Hx) in Y. discriminate Y.
          * rewrite AI. intros x Hx. apply filter_In in Hx as [Hx Y]. apply N.eqb_eq in Y. apply HS; auto.
          * destruct move; auto. intros x Hx. apply sunion_In in Hx as [Hx|Hx]; [exact (HL x Hx)|]. apply filter_In in Hx as [Hx _]. exact (gL_ofS w k S HS x Hx).
      - apply R0; auto. rewrite A0. intros x Hx. apply HS. exact Hx. }
    (* nothing but lagging states *)
    unfold transition_tag. cbn [g_matched g_unmatched g_separated g_lagging is_nil negb]. set (b := has_tag _ L).
    assert (AB : act (N.lor ResetAction (if b then IncrementAction else 0%N)) k = if b then 1 else 0).
    { unfold act. destruct b; [change (N.land (N.lor ResetAction IncrementAction) ResetAction =? 0)%N with false; change (N.land (N.lor ResetAction IncrementAction) IncrementAction =? 0)%N with false|
        change (N.land (N.lor ResetAction 0) ResetAction =? 0)%N with false; change (N.land (N.lor ResetAction 0) IncrementAction =? 0)%N with true]; reflexivity. }
    rewrite AB. unfold update_lagging. cbn [g_matched g_unmatched g_separated g_lagging is_nil negb andb].
    unfold remove_dup_lagging. cbn [g_matched g_unmatched g_separated g_lagging]. unfold remove_dup_separated. cbn [g_matched g_unmatched g_separated g_lagging filter].
    match goal with |- context [filter ?P0 L] => set (Q := P0) end.
    assert (KL : b = true -> exists x, In x (filter Q L) /\ snd x <> NotMatched).
    { intros Hb. apply has_tag_iff in Hb as (x & Hx & X). exists x. apply negb_true_iff, N.eqb_neq in X. split; auto. apply filter_In. split; auto. unfold Q.
      assert (Y : (snd x =? NotMatched)%N = false) by (apply N.eqb_neq; auto). rewrite Y. reflexivity. }
    assert (KN : b = false -> forall x, In x (filter Q L) -> snd x = NotMatched).
    { intros Hb x Hx. apply filter_In in Hx as [Hx _]. destruct (N.eq_dec (snd x) NotMatched); auto. assert (Y : b = true); [|congruence]. apply has_tag_iff. exists x. split; auto.
      apply negb_true_iff, N.eqb_neq. auto. }
    assert (HL0 : gL w (filter Q L)) by (apply (gL_sub w L); [auto|intros x Hx; apply filter_In in Hx; tauto]).
    generalize dependent (filter Q L). intros L1 KL KN HL1. clear Q AB HM HU HS. clearbody b.
    unfold normalize. cbn [g_matched g_unmatched g_separated g_lagging is_nil negb andb].
    destruct L1 as [|l0 L1'].
    { cbn [is_nil negb]. unfold inv. cbn [g_matched g_unmatched g_separated g_lagging]. destruct b.
      - destruct (KL eq_refl) as (x & [] & _).
      - splits; auto; intros x []. }
    cbn [is_nil negb]. set (L1 := l0 :: L1') in *. clearbody L1.
    set (m1 := into KM _ []). set (u1 := into KU _ []). set (s1 := into KS _ []).
    assert (IM : forall x, In x m1 <-> In x L1 /\ snd x = Matched).
    { intros x. unfold m1. rewrite into_in, by_tag_in. unfold by_tag. cbn [fst snd]. split.
      - intros [[]|[H E]]. split; auto. destruct (N.eqb_spec (snd x) Matched); auto. destruct (N.eqb_spec (snd x) Separated); discriminate E.
      - intros [H E]. right. rewrite E. auto. }
    assert (IS : forall x, In x s1 <-> In x L1 /\ snd x = Separated).
    { intros x. unfold s1. rewrite into_in, by_tag_in. unfold by_tag. cbn [fst snd]. split.
      - intros [[]|[H E]]. split; auto. destruct (N.eqb_spec (snd x) Matched); [discriminate E|]. destruct (N.eqb_spec (snd x) Separated); auto; discriminate E.
      - intros [H E]. right. rewrite E. auto. }
    assert (IU : forall x, In x u1 <-> In x L1 /\ snd x = NotMatched).
    { intros x. unfold u1. rewrite into_in, by_tag_in. unfold by_tag. cbn [fst snd]. split.
      - intros [[]|[H E]]. split; auto. destruct (HL1 x H) as [K _]. destruct x as [q t]. cbn [snd] in *. destruct (knows_tag _ _ _ _ K) as [->|[->| ->]]; auto; discriminate E.
      - intros [H E]. right. rewrite E. auto. }
    assert (LU : gL w u1) by (apply (gL_sub w L1); auto; intros x Hx; apply IU in Hx; tauto).
    assert (B1 : forall x, In x L1 -> snd x <> NotMatched -> knows w (if b then 1 else 0) x) by (intros x Hx N1; destruct (HL1 x Hx); destruct b; auto; apply knows_one; auto).
    destruct (is_nil m1) eqn:Em; cbn [negb].
    2:{ apply is_nil_false in Em. unfold inv. cbn [g_matched g_unmatched g_separated g_lagging]. splits; auto.
      - intros x Hx. apply IM in Hx as [Hx E]. apply B1; auto. rewrite E. discriminate.
      - intros x Hx. apply IS in Hx as [Hx E]. splits; [apply B1; auto; rewrite E; discriminate|apply HL1; auto|rewrite E; intros X; discriminate X].
      - intros X. destruct (Em X). }
    apply is_nil_true in Em. destruct (is_nil s1) eqn:Es; cbn [negb].
    2:{ apply is_nil_false in Es. unfold inv. cbn [g_matched g_unmatched g_separated g_lagging]. splits; auto.
      - intros x Hx. apply IS in Hx as [Hx E]. apply B1; auto. rewrite E. discriminate.
      - intros x [].
      - intros X. destruct (Es X). }
    apply is_nil_true in Es.
    assert (b = false) as ->.
    { destruct b; auto. destruct (KL eq_refl) as (x & Hx & X). destruct (HL1 x Hx) as [K _]. destruct x as [q t]. cbn [snd] in X. destruct (knows_tag _ _ _ _ K) as [->|[->| ->]]; [congruence| |].
      - assert (Y : In (q, Matched) m1) by (apply IM; auto). rewrite Em in Y. destruct Y.
      - assert (Y : In (q, Separated) s1) by (apply IS; auto). rewrite Es in Y. destruct Y. }
    unfold inv. cbn [g_matched g_unmatched g_separated g_lagging]. splits; auto.
    - intros x Hx. apply LU. exact Hx.
    - intros x [].
    - rewrite Em. intros x [].
  Qed.

  (** ** One step *)
  Section Next.
    Variable w : list N.
    Variables c x : N.
    Hypothesis D : forall p q, In q (destinations f p c) -> edge f p x q.
    Let w' := w ++ [x].
    Lemma full_prepare_ok : forall k st, inv w k st -> pre w' k (full_prepare f R dead st c).
    Proof.
      intros k st (HU & HS & HL & _). unfold full_prepare, pre. cbn [g_matched g_unmatched g_separated g_lagging]. destruct (items_S w c x D k (g_unmatched st) HU) as [IS _]. splits.
      - apply items_M; auto.
      - apply items_U; auto.
      - intros y Hy. apply into_all_in in Hy as [Hy|[kd Hy]]; [apply IS; auto|]. eapply (items_all w c x D k); [|exact Hy]. intros z Hz. destruct (HS z Hz) as (X & _ & Y). auto.
      - intros y Hy. apply into_all_in in Hy as [[]|[kd Hy]]. destruct (split_fresh w _ _ _ _ D Hy) as (z & Hz & F). destruct (F 0 (proj1 (HL z Hz))) as (X & Y & _). auto.
    Qed.
    Definition same_tags (g : group) : Prop := (forall y, In y g -> snd y <> NotMatched) \/ (forall y, In y g -> snd y = NotMatched).
    Lemma start_knows : forall v, knows v 0 (start_state R).
    Proof. intros v. unfold start_state. apply knows_not. split; auto. right. exists v, []. rewrite app_nil_r. split; auto. apply path_nil. Qed.
    Lemma split_separated_ok : forall k d, pre w' k d -> pre w' k (split_separated f d).
    Proof.
      intros k d (HM & HU & HS & HL). unfold split_separated, pre. cbn [g_matched g_unmatched g_separated g_lagging]. splits; auto.
      - intros y Hy. apply into_in in Hy as [Hy|Hy]; auto. apply by_tag_in in Hy as [Hy E]. unfold by_tag in E. cbn [fst] in E. destruct (HS y Hy) as (K & G & X).
        destruct (N.eqb_spec (fsm_tag f (fst y)) Matched) as [T|T]; [|destruct (fsm_tag f (fst y) =? Separated)%N; discriminate E]. specialize (G T). auto.
      - intros y Hy. apply into_in in Hy as [Hy|Hy]; auto. apply by_tag_in in Hy as [Hy _]. destruct (HS y Hy) as (K & G & X). auto.
      - intros y Hy. apply into_in in Hy as [[]|Hy]; auto. apply by_tag_in in Hy as [Hy _]. auto.
    Qed.
    Lemma remove_sep_ok : forall k d, pre w' k d -> pre w' k (remove_dup_separated d).
    Proof.
      intros k d (HM & HU & HS & HL). unfold remove_dup_separated, pre. cbn [g_matched g_unmatched g_separated g_lagging]. splits; auto. intros y Hy. apply filter_In in Hy as [Hy _]. auto.
    Qed.
    Lemma choose_separated_ok : forall k d, pre w' k d -> pre w' k (choose_separated f d) /\ g_matched (choose_separated f d) = g_matched d /\
      g_unmatched (choose_separated f d) = g_unmatched d /\ g_lagging (choose_separated f d) = g_lagging d.
    Proof.
      intros k d H. unfold choose_separated. destruct (length (g_separated d) <=? 1); auto. pose proof (remove_sep_ok k d H) as (HM & HU & HS & HL).
      cbv zeta. destruct (negb _); [|destruct (negb _)]; (split; [|auto]); unfold pre; cbn [g_matched g_unmatched g_separated g_lagging]; splits; auto;
        intros y Hy; apply into_in in Hy as [[]|Hy]; apply by_tag_in in Hy as [Hy _]; apply HS; auto.
    Qed.
    Lemma choose_dest_in : forall dest src y, In y (choose_dest f R dead dest src c) -> In y dest \/ exists kd, In (kd, y) (split_destinations f R dead src c).
    Proof.
      intros dest src y. unfold choose_dest. cbv zeta. repeat (match goal with |- context [if ?b then _ else _] => destruct b end); intros H; auto; apply into_in in H as [[]|H]; eauto.
    Qed.
    Lemma simple_prepare_ok : forall k st, inv w k st -> let d := simple_prepare f R dead st c in
      pre w' k d /\ (g_lagging d = [] \/ (g_matched d = [] /\ g_unmatched d = [] /\ g_separated d = [] /\ same_tags (g_lagging d))).
    Proof.
      intros k st (HU & HS & HL & H0). unfold simple_prepare. cbv zeta.
      set (emp := empty_state st). set (fu := if emp then sadd (start_state R) (g_unmatched st) else g_unmatched st).
      assert (FU : forall y, In y fu -> knows w k y).
      { unfold fu. destruct emp eqn:E; auto. intros y Hy. apply sadd_in in Hy as [->|Hy]; auto. unfold emp, empty_state in E. apply andb_true_iff in E as [E _]. apply andb_true_iff in E as [E _].
        apply andb_true_iff in E as [_ E]. apply is_nil_true in E. rewrite (H0 E). apply start_knows. }
      clearbody fu. set (items := split_destinations f R dead fu c).
      set (n0 := mkD (into KM items []) (into KU items []) (into KS items []) []).
      assert (P0 : pre w' k n0 /\ g_lagging n0 = []).
      { split; auto. unfold n0, pre, items. cbn [g_matched g_unmatched g_separated g_lagging]. splits; [apply items_M|apply items_U|apply items_S|intros y []]; auto. }
      clearbody n0. clear items.
      match goal with |- context [is_nil (g_matched ?X) && is_nil (g_separated ?X)] => set (n1 := X) end.
      assert (P1 : pre w' k n1 /\ g_lagging n1 = []).
      { unfold n1. destruct P0 as [P0 L0]. destruct (is_nil (g_matched n0) && negb (is_nil (g_separated n0))); auto. destruct (is_nil (g_unmatched n0)).
        - set (b := if (1 <? length (g_separated (split_separated f n0))) then _ else _).
          assert (PB : pre w' k b /\ g_lagging b = []) by (unfold b; pose proof (split_separated_ok k n0 P0) as X; destruct (1 <? length (g_separated (split_separated f n0))); split; auto; apply remove_sep_ok; auto).
          clearbody b. destruct PB as [(BM & BU & BS & BL) LB]. destruct (is_nil (g_unmatched b)) eqn:E; [|unfold pre; auto]. apply is_nil_true in E. split; auto.
          unfold pre. cbn [g_matched g_unmatched g_separated g_lagging]. splits; auto; [eapply gU_of; eauto|]. rewrite E. intros y [].
        - destruct (choose_separated_ok k n0 P0) as (X & _ & _ & Y). split; auto. congruence. }
      clearbody n1. clear P0 n0.
      match goal with |- context [negb emp && empty_state ?X] => set (n2 := X) end.
      assert (P2 : pre w' k n2 /\ g_lagging n2 = []).
      { unfold n2. destruct P1 as [P1 L1]. destruct (is_nil (g_matched n1) && is_nil (g_separated n1) && negb (is_nil (g_separated st))); auto.
        assert (SS : forall y, In y (g_separated st) -> knows w k y /\ (snd y = Matched -> knows w (Datatypes.S k) y)) by (intros y Hy; destruct (HS y Hy) as (X & _ & Y); auto).
        match goal with |- context [choose_separated f ?X] => assert (PX : pre w' k X /\ g_lagging X = []) end.
        { destruct P1 as (BM & BU & BS & BL). destruct (negb (is_nil (g_unmatched n1))).
          - split; auto. unfold pre. cbn [g_matched g_unmatched g_separated g_lagging]. splits; auto.
            intros y Hy. apply choose_dest_in in Hy as [Hy|[kd Hy]]; auto. eapply (items_all w c x D); eauto.
          - set (a := mkD _ _ _ _). assert (PA : pre w' k a /\ g_lagging a = []).
            { split; auto. unfold a, pre. cbn [g_matched g_unmatched g_separated g_lagging]. splits; auto; intros y Hy; apply into_in in Hy as [Hy|Hy]; auto.
              - destruct (split_fresh w _ _ _ _ D Hy) as (z & Hz & F). destruct (F k (proj1 (SS z Hz))) as (_ & _ & X & _). destruct (X eq_refl). auto.
              - destruct (split_fresh w _ _ _ _ D Hy) as (z & Hz & F). destruct (F k (proj1 (SS z Hz))) as (X & Y & _). auto.
              - eapply (items_all w c x D); eauto. }
            clearbody a. destruct PA as [PA LA]. destruct (is_nil (g_matched a) && negb (is_nil (g_separated a))); auto. split; auto. apply split_separated_ok. exact PA. }
        destruct PX as [PX LX]. destruct (choose_separated_ok k _ PX) as (X & _ & _ & Y). split; auto. rewrite Y. exact LX. }
      clearbody n2. clear P1 n1. destruct P2 as [P2 L2]. destruct (negb emp && empty_state n2) eqn:E; auto.
      apply andb_true_iff in E as [_ E]. unfold empty_state in E. apply andb_true_iff in E as [E _]. apply andb_true_iff in E as [E E3]. apply andb_true_iff in E as [E1 E2].
      apply is_nil_true in E1. apply is_nil_true in E2. apply is_nil_true in E3. cbn [g_matched g_unmatched g_separated g_lagging]. destruct P2 as (BM & BU & BS & BL).
      assert (ST : forall y, In y [start_state R] -> knows w 0 y) by (intros y [<-|[]]; apply start_knows).
      split.
      - unfold pre. cbn [g_matched g_unmatched g_separated g_lagging]. splits; auto. intros y Hy. apply choose_dest_in in Hy as [Hy|[kd Hy]]; auto.
        destruct (split_fresh w _ _ _ _ D Hy) as (z & Hz & F). destruct (F 0 (ST z Hz)) as (X & Y & _). auto.
      - right. splits; auto. unfold choose_dest. cbv zeta. rewrite L2.
        pose proof (items_M w c x D 0 _ ST) as IM. pose proof (proj2 (items_S w c x D 0 _ ST)) as IS. destruct (negb _); [|destruct (negb _); [|destruct (negb _)]].
        + left. intros y Hy. rewrite (proj2 (IM y Hy)). discriminate.
        + left. exact IS.
        + right. intros y Hy. apply into_in in Hy as [[]|Hy]. destruct (split_fresh w _ _ _ _ D Hy) as (z & Hz & F). destruct (F 0 (ST z Hz)) as (_ & _ & _ & _ & X). rewrite (X eq_refl). destruct Hz as [<-|[]]. reflexivity.
        + left. intros y [].
    Qed.
    Lemma masked_zero : forall k st, inv w k st -> (N.land (N.lor (tags_of_group (g_unmatched st)) (tags_of_group (g_separated st))) (N.lor Separated Matched) =? 0)%N = true -> k = 0.
    Proof.
      intros k st (HU & _ & _ & H0) E. apply N.eqb_eq in E. destruct (g_unmatched st) as [|[q t] g] eqn:Eg; auto. clear H0.
      assert (BB : forall j, N.testbit (N.lor Separated Matched) j = true -> N.testbit t j = false).
      { intros j Hj. apply (f_equal (fun z => N.testbit z j)) in E. rewrite N.land_spec, N.lor_spec, Hj, N.bits_0, andb_true_r in E. apply orb_false_iff in E as [E _].
        destruct (N.testbit t j) eqn:T; auto. assert (X : N.testbit (tags_of_group ((q, t) :: g)) j = true) by (apply tags_bit; exists (q, t); split; [left; auto|exact T]). exact (eq_trans (eq_sym X) E). }
      assert (K : knows w k (q, t)) by (apply HU; left; auto). destruct (knows_tag _ _ _ _ K) as [->|[->| ->]].
      - apply knows_not in K as [K _]. exact K.
      - specialize (BB 1%N eq_refl). discriminate BB.
      - specialize (BB 2%N eq_refl). discriminate BB.
    Qed.
    Lemma step_inv : forall simple k st, inv w k st -> invalid_range (class_of f c) = false ->
      let '(st', a) := d_step f R dead simple st c in inv w' (act a k) st'.
    Proof.
      intros simple k st H HV. unfold d_step. rewrite HV. cbv zeta. destruct simple.
      - pose proof (simple_prepare_ok k st H) as P. cbv zeta in P. set (d := simple_prepare f R dead st c) in *. clearbody d. destruct P as [P L].
        (* the tag *)
        assert (T : act (simple_tag st d) k = act (transition_tag d) k).
        { unfold simple_tag. destruct (_ =? 0)%N eqn:E; [|reflexivity]. apply (masked_zero k st H) in E. subst k. unfold act. rewrite <- (N.land_assoc _ IncrementAction IncrementAction), N.land_diag.
          destruct (N.land _ ResetAction =? 0)%N, (N.land (transition_tag d) ResetAction =? 0)%N; reflexivity. }
        rewrite T. clear T. destruct L as [L|(EM & EU & ES & ST)].
        + unfold simple_post. rewrite L. cbn [is_nil]. replace (remove_dup_separated (update_lagging false d)) with (post false d); [apply post_ok; exact P|].
          unfold post. f_equal. assert (LL : g_lagging (update_lagging false d) = []) by (unfold update_lagging; cbv zeta; repeat (match goal with |- context [if ?b then _ else _] => destruct b end); exact L).
          unfold remove_dup_lagging. rewrite LL. cbn [filter]. destruct (update_lagging false d) as [z1 z2 z3 z4]. cbn [g_matched g_unmatched g_separated g_lagging] in *. subst. reflexivity.
        + destruct d as [dm du ds dl]. cbn [g_matched g_unmatched g_separated g_lagging] in *. subst dm du ds. destruct P as (_ & _ & _ & HL).
          unfold simple_post. cbn [g_matched g_unmatched g_separated g_lagging]. destruct dl as [|l0 dl].
          * cbn [is_nil]. replace (remove_dup_separated (update_lagging false (mkD [] [] [] []))) with (post false (mkD [] [] [] [])) by reflexivity. apply post_ok. unfold pre. cbn [g_matched g_unmatched g_separated g_lagging]. splits; intros y [].
          * cbn [is_nil]. unfold update_lagging. cbn [g_matched g_unmatched g_separated g_lagging is_nil negb andb]. unfold remove_dup_separated. cbn [g_matched g_unmatched g_separated g_lagging filter].
            unfold normalize. cbn [g_matched g_unmatched g_separated g_lagging is_nil negb andb].
            unfold transition_tag. cbn [g_matched g_unmatched g_separated g_lagging is_nil negb]. set (b := has_tag _ _).
            assert (AB : act (N.lor ResetAction (if b then IncrementAction else 0%N)) k = if b then 1 else 0).
            { unfold act. destruct b; [change (N.land (N.lor ResetAction IncrementAction) ResetAction =? 0)%N with false; change (N.land (N.lor ResetAction IncrementAction) IncrementAction =? 0)%N with false|
                change (N.land (N.lor ResetAction 0) ResetAction =? 0)%N with false; change (N.land (N.lor ResetAction 0) IncrementAction =? 0)%N with true]; reflexivity. }
            rewrite AB. unfold inv. cbn [g_matched g_unmatched g_separated g_lagging]. split; [|split; [intros y []|split; [intros y []|intros X; discriminate X]]].
            intros y Hy. destruct (HL y Hy) as [K _]. destruct b eqn:Eb; auto. apply knows_one; auto. destruct ST as [ST|ST]; [apply ST; auto|].
            exfalso. apply has_tag_iff in Eb as (z & Hz & Z). rewrite (ST z Hz) in Z. discriminate Z.
      - apply (post_ok true). apply full_prepare_ok. exact H.
    Qed.
  End Next.

  (** ** What the counter promises *)
  Lemma alternates_less : forall n1 u, alternates re sep n1 u -> forall j, 1 <= j <= n1 -> exists u1 u2, u = u1 ++ u2 /\ alternates re sep j u1.
  Proof.
    intros n1 u H. induction H as [r Hr|n1 u s r H IH Hs Hr]; intros j Hj.
    - assert (j = 1) as -> by lia. exists r, []. rewrite app_nil_r. split; auto. apply alt_one. exact Hr.
    - destruct (Nat.eq_dec j (Datatypes.S n1)) as [->|Nj].
      + exists (u ++ s ++ r), []. rewrite app_nil_r. split; auto. apply alt_more; auto.
      + destruct (IH j ltac:(lia)) as (u1 & u2 & -> & X). exists u1, (u2 ++ s ++ r). rewrite <- app_assoc. auto.
  Qed.
  Lemma ends_repeats : forall u0 v k j, ends_with u0 k -> j <= k -> repeats re sep (u0 ++ v) j.
  Proof.
    intros u0 v k j (x & u & -> & H) Hj. destruct j as [|j]; [left; auto|]. right. destruct (alternates_less _ _ H (Datatypes.S j) ltac:(lia)) as (u1 & u2 & -> & X).
    exists x, u1, (u2 ++ v). rewrite <- !app_assoc. auto.
  Qed.
  Lemma knows_repeats : forall w k x, knows w k x -> repeats re sep w k.
  Proof.
    intros w k [q t] H. destruct (knows_tag _ _ _ _ H) as [->|[->| ->]].
    - apply knows_not in H as [-> _]. left. auto.
    - apply knows_matched in H as (k' & H1 & H2 & [(_ & -> & X)|(u1 & r & v & -> & P & Hr & K)]).
      + pose proof (ends_one w [] X) as E. rewrite app_nil_r in E. pose proof (ends_repeats w [] 1 k E H1) as Y. rewrite app_nil_r in Y. exact Y.
      + rewrite app_assoc. apply (ends_repeats _ _ k'); auto. destruct K as [->|(k0 & u0 & s & -> & -> & Hs & He)]; [apply ends_one; auto|].
        rewrite <- app_assoc. apply ends_more; auto.
    - apply knows_separated in H as (k' & H1 & H2 & [(u0 & s & v & -> & Hs & He & P)|(b & u0 & s & -> & -> & P & He)]); apply (ends_repeats _ _ k'); auto.
  Qed.
  Lemma inv_repeats : forall w k st, inv w k st -> repeats re sep w k.
  Proof.
    intros w k st (HU & _ & _ & H0). destruct (g_unmatched st) as [|x g]; [left; apply H0; auto|]. eapply knows_repeats. apply HU. left. reflexivity.
  Qed.
  Lemma inv_start : forall simple, inv [] 0 (d_init f simple).
  Proof.
    intros simple. unfold d_init, inv. cbn [g_matched g_unmatched g_separated g_lagging]. splits; auto; try (intros y []).
    destruct simple; [intros y []|]. intros y [<-|[]]. apply knows_not. rewrite InitF. auto.
  Qed.
End Sound.
