(** Sorted sets and sorted association maps: the model of std::set and std::map
    (stub/stl.h lines 83-111 of /repo/pire map TSet/TMap to them), with lemmas. *)
From Coq Require Import List Bool Arith NArith Lia Sorting.
Import ListNotations.
Set Implicit Arguments.

(** split a syntactic conjunction completely, without unfolding anything *)
Ltac splits := repeat match goal with |- _ /\ _ => split end.

(** Totally ordered key types. *)
Class Key (K : Type) := {
  keqb : K -> K -> bool;
  kltb : K -> K -> bool;
  keqb_spec : forall a b, reflect (a = b) (keqb a b);
  kltb_irr : forall a, kltb a a = false;
  kltb_trans : forall a b c, kltb a b = true -> kltb b c = true -> kltb a c = true;
  kltb_total : forall a b, kltb a b = false -> keqb a b = false -> kltb b a = true
}.

#[export] Instance Key_nat : Key nat.
Proof.
  refine {| keqb := Nat.eqb; kltb := Nat.ltb |}.
  - intros a b. apply Nat.eqb_spec.
  - intros a. apply Nat.ltb_irrefl.
  - intros a b c. rewrite !Nat.ltb_lt. lia.
  - intros a b. rewrite Nat.ltb_ge, Nat.eqb_neq, Nat.ltb_lt. lia.
Defined.

#[export] Instance Key_N : Key N.
Proof.
  refine {| keqb := N.eqb; kltb := N.ltb |}.
  - intros a b. apply N.eqb_spec.
  - intros a. apply N.ltb_irrefl.
  - intros a b c. rewrite !N.ltb_lt. lia.
  - intros a b. rewrite N.ltb_ge, N.eqb_neq, N.ltb_lt. lia.
Defined.

Definition pair_eqb {A B} `{Key A} `{Key B} (x y : A * B) : bool :=
  keqb (fst x) (fst y) && keqb (snd x) (snd y).
Definition pair_ltb {A B} `{Key A} `{Key B} (x y : A * B) : bool :=
  kltb (fst x) (fst y) || (keqb (fst x) (fst y) && kltb (snd x) (snd y)).

Section KeyFacts.
  Context {K : Type} {KK : Key K}.
  Lemma keqb_refl : forall a : K, keqb a a = true.
  Proof. intros a. destruct (keqb_spec a a); congruence. Qed.
  Lemma keqb_eq : forall a b : K, keqb a b = true <-> a = b.
  Proof. intros a b. destruct (keqb_spec a b); split; congruence. Qed.
  Lemma keqb_neq : forall a b : K, keqb a b = false <-> a <> b.
  Proof. intros a b. destruct (keqb_spec a b); split; congruence. Qed.
  Lemma keqb_sym : forall a b : K, keqb a b = keqb b a.
  Proof. intros a b. destruct (keqb_spec a b), (keqb_spec b a); congruence. Qed.
End KeyFacts.

#[export] Instance Key_pair {A B} {KA : Key A} {KB : Key B} : Key (A * B).
Proof.
  refine {| keqb := pair_eqb; kltb := pair_ltb |}; unfold pair_eqb, pair_ltb.
  - intros [a b] [c d]; cbn [fst snd].
    destruct (keqb_spec a c), (keqb_spec b d); cbn; constructor; subst; congruence.
  - intros [a b]; cbn [fst snd]. rewrite !kltb_irr, andb_false_r. reflexivity.
  - intros [a b] [c d] [e f]; cbn [fst snd].
    rewrite !orb_true_iff, !andb_true_iff, !keqb_eq.
    intros [H1|[H1 H1']] [H2|[H2 H2']]; subst; auto.
    + left. eapply kltb_trans; eauto.
    + right. split; [reflexivity|]. eapply kltb_trans; eauto.
  - intros [a b] [c d]; cbn [fst snd].
    rewrite !orb_false_iff, !orb_true_iff, !andb_true_iff, !andb_false_iff, !keqb_neq, !keqb_eq.
    intros [H1 H2] H3. destruct (keqb_spec a c) as [E|E].
    + right. subst. split; [reflexivity|]. destruct H2 as [H2|H2]; [congruence|].
      destruct H3 as [H3|H3]; [congruence|]. apply kltb_total; auto. apply keqb_neq; auto.
    + left. apply kltb_total; auto. apply keqb_neq; auto.
Defined.

(** ** Sets *)
Section SSet.
  Context {K : Type} {KK : Key K}.

  (** std::set::insert *)
  Fixpoint sadd (x : K) (s : list K) : list K :=
    match s with
    | [] => [x]
    | y :: s' => if keqb x y then s else if kltb x y then x :: s else y :: sadd x s'
    end.

  (** std::set::find(x) != end() *)
  Fixpoint smem (x : K) (s : list K) : bool :=
    match s with [] => false | y :: s' => keqb x y || smem x s' end.

  (** std::set::erase(x) *)
  Definition sremove (x : K) (s : list K) : list K := filter (fun y => negb (keqb x y)) s.

  (** inserting a range *)
  Definition sunion (s t : list K) : list K := fold_left (fun acc x => sadd x acc) t s.

  (** comparison of std::set / std::vector contents *)
  Fixpoint seqb (s t : list K) : bool :=
    match s, t with
    | [], [] => true
    | x :: s', y :: t' => keqb x y && seqb s' t'
    | _, _ => false
    end.

  Definition ssorted (s : list K) : Prop := StronglySorted (fun a b => kltb a b = true) s.

  Lemma sadd_in : forall x s y, In y (sadd x s) <-> y = x \/ In y s.
  Proof.
    intros x s; induction s as [|z s IH]; intros y; cbn [sadd].
    - cbn. intuition.
    - destruct (keqb_spec x z) as [->|Hne].
      + cbn. intuition. 
      + destruct (kltb x z).
        * cbn. intuition.
        * cbn. rewrite IH. intuition.
  Qed.

  Lemma smem_in : forall x s, smem x s = true <-> In x s.
  Proof.
    intros x s; induction s as [|z s IH]; cbn [smem In].
    - split; [discriminate|tauto].
    - rewrite orb_true_iff, IH, keqb_eq. intuition.
  Qed.

  Lemma smem_false : forall x s, smem x s = false <-> ~ In x s.
  Proof.
    intros x s. rewrite <- smem_in. destruct (smem x s); intuition congruence.
  Qed.

  Lemma sremove_in : forall x s y, In y (sremove x s) <-> y <> x /\ In y s.
  Proof.
    intros x s y. unfold sremove. rewrite filter_In, negb_true_iff, keqb_neq.
    intuition.
  Qed.

  Lemma sunion_in : forall t s y, In y (sunion s t) <-> In y s \/ In y t.
  Proof.
    unfold sunion. intros t; induction t as [|x t IH]; intros s y; cbn [fold_left].
    - cbn. tauto.
    - rewrite IH, sadd_in. cbn. intuition.
  Qed.

  Lemma seqb_eq : forall s t, seqb s t = true <-> s = t.
  Proof.
    intros s; induction s as [|x s IH]; intros [|y t]; cbn; try (split; congruence).
    rewrite andb_true_iff, keqb_eq, IH. split; [intros [-> ->]; auto|].
    intros E; injection E; auto.
  Qed.

  Lemma seqb_spec : forall s t, reflect (s = t) (seqb s t).
  Proof.
    intros s t. destruct (seqb s t) eqn:E; constructor.
    - apply seqb_eq; auto.
    - intros H. apply seqb_eq in H. congruence.
  Qed.

  Lemma ssorted_nil : ssorted [].
  Proof. constructor. Qed.

  Lemma sadd_sorted : forall x s, ssorted s -> ssorted (sadd x s).
  Proof.
    intros x s Hs; induction Hs as [|z s Hs IH Hf]; cbn [sadd].
    - repeat constructor.
    - destruct (keqb_spec x z) as [->|Hne].
      + constructor; auto.
      + destruct (kltb x z) eqn:L.
        * constructor; [constructor; auto|]. constructor; [auto|].
          eapply Forall_impl; [|exact Hf]. cbn. intros a Ha. eapply kltb_trans; eauto.
        * constructor; [exact IH|]. apply Forall_forall. intros a Ha.
          apply sadd_in in Ha as [->|Ha].
          -- apply kltb_total; auto. apply keqb_neq; auto.
          -- rewrite Forall_forall in Hf; auto.
  Qed.

  Lemma sremove_sorted : forall x s, ssorted s -> ssorted (sremove x s).
  Proof.
    intros x s Hs; induction Hs as [|z s Hs IH Hf]; cbn.
    - constructor.
    - destruct (keqb_spec x z); cbn; [exact IH|].
      constructor; [exact IH|]. apply Forall_forall. intros a Ha.
      apply filter_In in Ha as [Ha _]. rewrite Forall_forall in Hf; auto.
  Qed.

  Lemma sunion_sorted : forall t s, ssorted s -> ssorted (sunion s t).
  Proof.
    unfold sunion. intros t; induction t as [|x t IH]; intros s Hs; cbn; auto.
    apply IH, sadd_sorted, Hs.
  Qed.

  Lemma ssorted_NoDup : forall s, ssorted s -> NoDup s.
  Proof.
    intros s Hs; induction Hs as [|z s Hs IH Hf]; constructor; auto.
    intros Hin. rewrite Forall_forall in Hf. specialize (Hf _ Hin).
    rewrite kltb_irr in Hf. discriminate.
  Qed.

  (** Sorted sets with the same elements are equal. *)
  Lemma ssorted_ext : forall s t, ssorted s -> ssorted t ->
    (forall x, In x s <-> In x t) -> s = t.
  Proof.
    intros s t Hs; revert t; induction Hs as [|x s Hs IH Hf]; intros t Ht Hext.
    - destruct t as [|y t]; [reflexivity|]. exfalso. apply (Hext y). now left.
    - destruct Ht as [|y t Ht Hg]; [exfalso; apply (Hext x); now left|].
      rewrite Forall_forall in Hf, Hg.
      assert (Exy : x = y).
      { destruct (proj1 (Hext x) (or_introl eq_refl)) as [|Hxt]; [congruence|].
        destruct (proj2 (Hext y) (or_introl eq_refl)) as [|Hys]; [congruence|].
        pose proof (Hf _ Hys) as L1. pose proof (Hg _ Hxt) as L2.
        pose proof (kltb_trans _ _ _ L1 L2) as L3. rewrite kltb_irr in L3. discriminate. }
      subst y. f_equal. apply IH; auto.
      intros z; split; intros Hz.
      + destruct (proj1 (Hext z) (or_intror Hz)) as [<-|]; auto.
        specialize (Hf _ Hz). rewrite kltb_irr in Hf. discriminate.
      + destruct (proj2 (Hext z) (or_intror Hz)) as [<-|]; auto.
        specialize (Hg _ Hz). rewrite kltb_irr in Hg. discriminate.
  Qed.
End SSet.

(** ** Maps *)
Section SMap.
  Context {K : Type} {KK : Key K} {V : Type}.
  Definition smap := list (K * V).

  (** std::map::find *)
  Fixpoint mfind (k : K) (m : smap) : option V :=
    match m with
    | [] => None
    | (k', v) :: m' => if keqb k k' then Some v else mfind k m'
    end.

  (** m[k] = v *)
  Fixpoint mset (k : K) (v : V) (m : smap) : smap :=
    match m with
    | [] => [(k, v)]
    | (k', v') :: m' =>
        if keqb k k' then (k, v) :: m'
        else if kltb k k' then (k, v) :: m
        else (k', v') :: mset k v m'
    end.

  (** std::map::insert: does nothing when the key is present *)
  Definition minsert (k : K) (v : V) (m : smap) : smap :=
    match mfind k m with Some _ => m | None => mset k v m end.

  (** std::map::erase *)
  Definition merase (k : K) (m : smap) : smap := filter (fun kv => negb (keqb k (fst kv))) m.

  Definition mkeys (m : smap) : list K := map fst m.

  Definition msorted (m : smap) : Prop :=
    StronglySorted (fun a b : K * V => kltb (fst a) (fst b) = true) m.

  Lemma mfind_mset : forall k v m k',
    mfind k' (mset k v m) = if keqb k' k then Some v else mfind k' m.
  Proof.
    intros k v m k'; induction m as [|[k0 v0] m IH]; cbn [mset mfind].
    - reflexivity.
    - destruct (keqb_spec k k0) as [->|Hne].
      + cbn [mfind]. destruct (keqb_spec k' k0); reflexivity.
      + destruct (kltb k k0); cbn [mfind].
        * reflexivity.
        * rewrite IH. destruct (keqb_spec k' k0) as [->|].
          -- destruct (keqb_spec k0 k); congruence.
          -- reflexivity.
  Qed.

  Lemma mfind_minsert : forall k v m k',
    mfind k' (minsert k v m) =
    if keqb k' k then (match mfind k m with Some x => Some x | None => Some v end) else mfind k' m.
  Proof.
    intros k v m k'. unfold minsert. destruct (mfind k m) eqn:E.
    - destruct (keqb_spec k' k); congruence.
    - rewrite mfind_mset. reflexivity.
  Qed.

  Lemma mfind_merase : forall k m k',
    mfind k' (merase k m) = if keqb k' k then None else mfind k' m.
  Proof.
    unfold merase. intros k m k'; induction m as [|[k0 v0] m IH]; cbn [filter mfind fst].
    - destruct (keqb k' k); reflexivity.
    - destruct (keqb_spec k k0) as [->|Hne]; cbn [negb mfind].
      + rewrite IH. destruct (keqb_spec k' k0); reflexivity.
      + rewrite IH. destruct (keqb_spec k' k0) as [->|].
        * destruct (keqb_spec k0 k); congruence.
        * reflexivity.
  Qed.

  Lemma mfind_in : forall k v m, mfind k m = Some v -> In (k, v) m.
  Proof.
    intros k v m; induction m as [|[k0 v0] m IH]; cbn; [discriminate|].
    destruct (keqb_spec k k0) as [->|]; [intros [= ->]; auto|auto].
  Qed.

  Lemma msorted_find : forall m, msorted m -> forall k v, In (k, v) m <-> mfind k m = Some v.
  Proof.
    intros m Hm; induction Hm as [|[k0 v0] m Hm IH Hf]; intros k v; cbn [mfind In].
    - split; [tauto|discriminate].
    - rewrite Forall_forall in Hf. destruct (keqb_spec k k0) as [->|Hne].
      + split.
        * intros [[= ->]|Hin]; [reflexivity|]. apply Hf in Hin. cbn in Hin.
          rewrite kltb_irr in Hin. discriminate.
        * intros [= ->]. auto.
      + rewrite <- IH. split; [intros [[= -> ->]|]; [congruence|auto]|auto].
  Qed.

  Lemma mset_in_key : forall k v m kv, In kv (mset k v m) -> kv = (k, v) \/ In kv m.
  Proof.
    intros k v m; induction m as [|[k0 v0] m IH]; intros kv; cbn [mset].
    - cbn. intuition.
    - destruct (keqb_spec k k0); [|destruct (kltb k k0)]; cbn [In]; intros H.
      + destruct H; auto.
      + destruct H as [H|[H|H]]; auto.
      + destruct H as [H|H]; auto. apply IH in H as [H|H]; auto.
  Qed.

  Lemma mset_sorted : forall k v m, msorted m -> msorted (mset k v m).
  Proof.
    intros k v m Hm; induction Hm as [|[k0 v0] m Hm IH Hf]; cbn [mset].
    - repeat constructor.
    - destruct (keqb_spec k k0) as [->|Hne].
      + constructor; auto.
      + destruct (kltb k k0) eqn:L.
        * constructor; [constructor; auto|]. constructor; [auto|].
          eapply Forall_impl; [|exact Hf]. cbn. intros a Ha. eapply kltb_trans; eauto.
        * constructor; [exact IH|]. apply Forall_forall. intros a Ha.
          apply mset_in_key in Ha as [->|Ha].
          -- cbn. apply kltb_total; auto. apply keqb_neq; auto.
          -- rewrite Forall_forall in Hf; auto.
  Qed.

  Lemma minsert_sorted : forall k v m, msorted m -> msorted (minsert k v m).
  Proof.
    intros k v m Hm. unfold minsert. destruct (mfind k m); auto using mset_sorted.
  Qed.

  Lemma filter_sorted : forall (f : K * V -> bool) m, msorted m -> msorted (filter f m).
  Proof.
    intros f m Hm; induction Hm as [|z s Hs IH Hf]; cbn.
    - constructor.
    - destruct (f z); [|exact IH].
      constructor; [exact IH|]. apply Forall_forall. intros a Ha.
      apply filter_In in Ha as [Ha _]. rewrite Forall_forall in Hf; auto.
  Qed.

  Lemma merase_sorted : forall k m, msorted m -> msorted (merase k m).
  Proof. intros. apply filter_sorted; auto. Qed.

  Lemma mkeys_in : forall k m, In k (mkeys m) <-> mfind k m <> None.
  Proof.
    intros k m; induction m as [|[k0 v0] m IH]; cbn.
    - split; [tauto|congruence].
    - destruct (keqb_spec k k0) as [->|Hne].
      + split; [congruence|auto].
      + rewrite <- IH. intuition congruence.
  Qed.
End SMap.
Arguments smap : clear implicits.

Section SMapMap.
  Context {K : Type} {KK : Key K} {V W : Type}.
  (** transform every value in place *)
  Definition mmap (f : V -> W) (m : smap K V) : smap K W := map (fun kv => (fst kv, f (snd kv))) m.
  Lemma mfind_mmap : forall f m k, mfind k (mmap f m) = option_map f (mfind k m).
  Proof.
    intros f m k; induction m as [|[k0 v0] m IH]; cbn; [reflexivity|].
    destruct (keqb k k0); auto.
  Qed.
  Lemma mmap_sorted : forall f m, msorted m -> msorted (mmap f m).
  Proof.
    intros f m Hm; induction Hm as [|z s Hs IH Hf]; cbn; constructor; auto.
    apply Forall_forall. intros a Ha. apply in_map_iff in Ha as [b [<- Hb]].
    rewrite Forall_forall in Hf. apply Hf; auto.
  Qed.
End SMapMap.

(** ** Vectors: update and access by index *)
Section Vec.
  Context {A : Type}.
  (** v[i] = f(v[i]); no effect when out of range (callers establish the range). *)
  Fixpoint upd (i : nat) (f : A -> A) (l : list A) : list A :=
    match l, i with
    | [], _ => []
    | x :: l', O => f x :: l'
    | x :: l', S i' => x :: upd i' f l'
    end.

  Lemma upd_length : forall l i f, length (upd i f l) = length l.
  Proof. induction l as [|x l IH]; intros [|i] f; cbn; auto. Qed.

  Lemma nth_error_upd : forall l i f j,
    nth_error (upd i f l) j = if Nat.eqb j i then option_map f (nth_error l j) else nth_error l j.
  Proof.
    induction l as [|x l IH]; intros [|i] f [|j]; cbn; auto.
    destruct (Nat.eqb j i); reflexivity.
  Qed.

  Definition resize (n : nat) (d : A) (l : list A) : list A :=
    firstn n l ++ repeat d (n - length l).

  Lemma resize_length : forall n d l, length (resize n d l) = n.
  Proof.
    intros. unfold resize. rewrite app_length, firstn_length, repeat_length. lia.
  Qed.

  Lemma resize_grow : forall n d l, length l <= n -> resize n d l = l ++ repeat d (n - length l).
  Proof. intros. unfold resize. rewrite firstn_all2; auto. Qed.
End Vec.

Lemma nth_error_repeat : forall A (x : A) n i, i < n -> nth_error (repeat x n) i = Some x.
Proof. induction n as [|n IH]; intros [|i] H; cbn; auto; try lia. apply IH; lia. Qed.

Lemma nth_error_app_case : forall A (l l' : list A) i,
  nth_error (l ++ l') i = if i <? length l then nth_error l i else nth_error l' (i - length l).
Proof.
  intros. destruct (Nat.ltb_spec i (length l)).
  - apply nth_error_app1; auto.
  - apply nth_error_app2; auto.
Qed.

(** ** Outcomes *)
Inductive err : Set :=
| EEmptyString        (* fsm.cpp:315 *)
| ETooComplicated     (* fsm.cpp:563, 1165 *)
| ENoSuchLetter       (* partition.h:99 *)
| EEncoding           (* encoding.cpp:44, 46, 84 *)
| ESyntax             (* re_lexer.cpp:55, 159, 261-306, 384, read_unicode.cpp *)
| EImage              (* Load and Mmap: a malformed, truncated or foreign image *)
| EStream.            (* LoadPodType and LoadPodArray: the stream ended *)

Inductive res (A : Type) : Type :=
| Ok (a : A)
| Throw (e : err)
| UB              (* undefined behaviour in the C++ code *)
| OutOfFuel.      (* the model's loop bound was too small; proved unreachable *)
Arguments Ok {A} a.
Arguments Throw {A} e.
Arguments UB {A}.
Arguments OutOfFuel {A}.

Definition bind {A B} (x : res A) (f : A -> res B) : res B :=
  match x with Ok a => f a | Throw e => Throw e | UB => UB | OutOfFuel => OutOfFuel end.
Notation "'let*' x ':=' e 'in' k" := (bind e (fun x => k))
  (at level 200, x pattern, e at level 100, k at level 200, right associativity).

Lemma bind_ok : forall A B (x : res A) (f : A -> res B) b,
  bind x f = Ok b -> exists a, x = Ok a /\ f a = Ok b.
Proof. intros A B [a|e| |] f b H; cbn in H; try discriminate; eauto. Qed.
