(** A certified membership test, used only by the examples and counterexamples. *)
From Coq Require Import List Bool Arith NArith Lia.
From Verif Require Import Util Spec PartitionModel PartitionProofs FsmModel Nfa FsmSem FsmBasics.
Import ListNotations.

Definition succs (f : fsm) (w : word) (x : nat * nat) : list (nat * nat) :=
  let (i, p) := x in
  map (pair i) (row_get (row_at f p) (erep f Epsilon)) ++
  match nth_error w i with
  | Some c => if N.eqb c Epsilon then [] else map (pair (S i)) (row_get (row_at f p) (erep f c))
  | None => []
  end.

Fixpoint explore (f : fsm) (w : word) (fuel : nat) (todo seen : list (nat * nat)) : list (nat * nat) :=
  match fuel, todo with
  | S k, x :: t => if smem x seen then explore f w k t seen
                   else explore f w k (succs f w x ++ t) (sadd x seen)
  | _, _ => seen
  end.

(** Some b when the exploration is complete, None when the fuel was too small. *)
Definition accepts_b (fuel : nat) (f : fsm) (w : word) : option bool :=
  let s := explore f w fuel [(0, initial f)] [] in
  if smem (0, initial f) s && forallb (fun x => forallb (fun y => smem y s) (succs f w x)) s
  then Some (existsb (fun x => Nat.eqb (fst x) (length w) && smem (snd x) (finals f)) s) else None.

Section Check.
  Variable f : fsm.
  Variable w : word.
  Definition at_pos (x : nat * nat) : Prop := path (edge f) (initial f) (firstn (fst x) w) (snd x) /\ fst x <= length w.

  Lemma succs_at : forall x y, at_pos x -> In y (succs f w x) -> at_pos y.
  Proof.
    intros [i p] y [P L] H. cbn [fst snd] in *. unfold succs in H. apply in_app_iff in H as [H|H].
    - apply in_map_iff in H as [q [<- H]]. split; cbn [fst snd]; auto.
      rewrite <- (app_nil_r (firstn i w)). eapply path_app; [exact P|]. eapply path_eps; [exact H|constructor].
    - destruct (nth_error w i) as [c|] eqn:E; [|destruct H]. destruct (N.eqb_spec c Epsilon); [destruct H|].
      apply in_map_iff in H as [q [<- H]]. assert (i < length w) by (apply nth_error_Some; congruence).
      split; cbn [fst snd]; [|lia].
      assert (X : firstn (S i) w = firstn i w ++ [c]).
      { clear -E. revert w E. induction i as [|i IH]; intros [|d w] E; try discriminate.
        - injection E as ->. reflexivity.
        - cbn [firstn app]. rewrite <- IH; auto. }
      rewrite X. eapply path_app; [exact P|]. eapply path_step; [exact n|exact H|constructor].
  Qed.

  Lemma explore_at : forall fuel todo seen, (forall x, In x todo -> at_pos x) -> (forall x, In x seen -> at_pos x) ->
    forall x, In x (explore f w fuel todo seen) -> at_pos x.
  Proof.
    induction fuel as [|k IH]; intros [|y t] seen H1 H2 x Hx; cbn [explore] in Hx; auto.
    assert (Hy : at_pos y) by (apply H1; left; auto).
    destruct (smem y seen).
    - eapply IH; [| |exact Hx]; auto. intros; apply H1; right; auto.
    - eapply IH; [| |exact Hx].
      + intros z Hz. apply in_app_iff in Hz as [Hz|Hz]; [eapply succs_at; eauto|apply H1; right; auto].
      + intros z Hz. apply sadd_in in Hz as [->|Hz]; auto.
  Qed.

  Lemma accepts_b_true : forall fuel, accepts_b fuel f w = Some true -> accepts f w.
  Proof.
    intros fuel H. unfold accepts_b in H. destruct (_ && _); [|discriminate]. injection H as H.
    apply existsb_exists in H as [[i p] [H1 H2]]. cbn [fst snd] in H2. apply andb_true_iff in H2 as [H2 H3].
    apply Nat.eqb_eq in H2. subst i. apply smem_in in H3.
    apply explore_at in H1; [|intros x [<-|[]]; split; cbn; [constructor|lia]|intros x []].
    destruct H1 as [P _]. cbn [fst snd] in P. rewrite firstn_all in P. exists p. auto.
  Qed.

  Lemma accepts_b_false : forall fuel, accepts_b fuel f w = Some false -> ~ accepts f w.
  Proof.
    intros fuel H [q [P F]]. unfold accepts_b in H. set (s := explore f w fuel _ _) in *. clearbody s.
    destruct (_ && _) eqn:C; [|discriminate]. injection H as H. apply andb_true_iff in C as [C1 C2].
    apply smem_in in C1. rewrite forallb_forall in C2.
    assert (G : forall p v r, path (edge f) p v r -> forall i, i + length v = length w -> skipn i w = v -> In (i, p) s -> In (length w, r) s).
    { intros p v r Q. induction Q as [p|p m v r E Q IH|p c m v r Hc E Q IH]; intros i L K Hin.
      - cbn in L. rewrite Nat.add_0_r in L. subst i. auto.
      - apply (IH i); auto. specialize (C2 _ Hin). rewrite forallb_forall in C2. apply smem_in, C2.
        unfold succs. apply in_app_iff. left. apply in_map. exact E.
      - cbn [length] in L. assert (N : nth_error w i = Some c).
        { clear -K. revert w K. induction i as [|i IHi]; intros [|d u] K; cbn in K; try discriminate; [injection K as -> _; auto|exact (IHi _ K)]. }
        assert (K' : skipn (S i) w = v).
        { clear -K. revert w K. induction i as [|i IHi]; intros [|d u] K; cbn in K; try discriminate; [injection K as _ <-; auto|exact (IHi _ K)]. }
        apply (IH (S i)); auto; [lia|]. specialize (C2 _ Hin). rewrite forallb_forall in C2. apply smem_in, C2.
        unfold succs. apply in_app_iff. right. rewrite N. destruct (N.eqb_spec c Epsilon); [congruence|]. apply in_map. exact E. }
    specialize (G _ _ _ P 0 eq_refl eq_refl C1).
    assert (X : existsb (fun x => Nat.eqb (fst x) (length w) && smem (snd x) (finals f)) s = true); [|congruence].
    apply existsb_exists. exists (length w, q). split; auto. cbn. rewrite Nat.eqb_refl. apply smem_in; auto.
  Qed.

  Definition reach_b (fuel q : nat) : bool := smem (length w, q) (explore f w fuel [(0, initial f)] []).
  Lemma reach_b_true : forall fuel q, reach_b fuel q = true -> path (edge f) (initial f) w q.
  Proof.
    intros fuel q H. apply smem_in in H.
    apply explore_at in H; [|intros x [<-|[]]; split; cbn; [constructor|lia]|intros x []].
    destruct H as [P _]. cbn [fst snd] in P. rewrite firstn_all in P. exact P.
  Qed.
End Check.

(** Unwrap a result (examples only). *)
Definition got {A} (d : A) (r : res A) : A := match r with Ok x => x | _ => d end.
