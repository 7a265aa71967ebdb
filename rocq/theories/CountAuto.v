(** The automaton the constructor of CountingScanner makes its pairs of: what a state says about
    the word that leads to it. *)
From Coq Require Import List Bool Arith NArith Lia.
From Verif Require Import Util Spec PartitionModel PartitionProofs FsmModel DetermineModel FsmSem FsmBasics FsmOps FsmOps2 EpsProofs DetGeneric DetProofs Nfa
  DeadProofs ScannerModel CountModel CountSpec CountBuild DetSets.
Import ListNotations.

(** ** Any letter *)
Lemma mfind_const : forall (l : list N) (v : list nat) c, mfind c (map (fun x => (x, v)) l) = if smem c l then Some v else None.
Proof. induction l as [|x l IH]; intros v c; cbn [map mfind smem]; auto. rewrite IH. destruct (keqb c x); reflexivity. Qed.
Definition any_rows : list row := [map (fun x => (x, [1])) all_bytes; []; [(BeginMark, [3])]; []; [(Epsilon, [0; 2; 5])]; [(EndMark, [6])]; []].
Lemma any_char_eq : trans any_char = any_rows /\ initial any_char = 4 /\ finals any_char = [1; 3; 6] /\ isAlt any_char = true /\ tags any_char = [] /\
  outputs any_char = [] /\ letters any_char = part_empty /\ size any_char = 7.
Proof. vm_compute. repeat split. Qed.
Lemma byte_in : forall c, In c all_bytes <-> (c < 256)%N.
Proof.
  intros c. unfold all_bytes. rewrite in_map_iff. split.
  - intros (x & <- & H). apply in_seq in H. lia.
  - intros H. exists (N.to_nat c). split; [apply N2Nat.id|]. apply in_seq. lia.
Qed.
Local Opaque all_letters all_bytes.
Lemma any_edge : forall p c q, edge any_char p c q <->
  (p = 4 /\ c = Epsilon /\ (q = 0 \/ q = 2 \/ q = 5)) \/ (p = 0 /\ (c < 256)%N /\ q = 1) \/ (p = 2 /\ c = BeginMark /\ q = 3) \/ (p = 5 /\ c = EndMark /\ q = 6).
Proof.
  intros p c q. destruct any_char_eq as (T & _ & _ & _ & _ & _ & L & _). rewrite raw_uncompressed by exact L. unfold raw, row_get, row_at. rewrite T.
  unfold any_rows. destruct p as [|[|[|[|[|[|[|p]]]]]]]; cbn [nth].
  - rewrite mfind_const. destruct (smem c all_bytes) eqn:S.
    + apply smem_in in S. apply byte_in in S. cbn [In]. split; [intros [<-|[]]; right; left; auto|].
      intros [(X & _)|[(_ & _ & ->)|[(X & _)|(X & _)]]]; try discriminate X. auto.
    + apply smem_false in S. rewrite byte_in in S. cbn [In]. split; [tauto|]. intros [(X & _)|[(_ & X & _)|[(X & _)|(X & _)]]]; try discriminate X. auto.
  - cbn [mfind In]. split; [tauto|]. intros [(X & _)|[(X & _)|[(X & _)|(X & _)]]]; discriminate X.
  - cbn [mfind]. destruct (keqb_spec c BeginMark) as [->|N]; cbn [In].
    + split; [intros [<-|[]]; auto 9|]. intros [(X & _)|[(X & _)|[(_ & _ & ->)|(X & _)]]]; try discriminate X. auto.
    + split; [tauto|]. intros [(X & _)|[(X & _)|[(_ & X & _)|(X & _)]]]; try discriminate X. auto.
  - cbn [mfind In]. split; [tauto|]. intros [(X & _)|[(X & _)|[(X & _)|(X & _)]]]; discriminate X.
  - cbn [mfind]. destruct (keqb_spec c Epsilon) as [->|N]; cbn [In].
    + split; [intros [<-|[<-|[<-|[]]]]; auto 9|]. intros [(_ & _ & [X|[X|X]])|[(X & _)|[(X & _)|(X & _)]]]; try discriminate X; subst; auto.
    + split; [tauto|]. intros [(_ & X & _)|[(X & _)|[(X & _)|(X & _)]]]; try discriminate X. auto.
  - cbn [mfind]. destruct (keqb_spec c EndMark) as [->|N]; cbn [In].
    + split; [intros [<-|[]]; auto 9|]. intros [(X & _)|[(X & _)|[(X & _)|(_ & _ & ->)]]]; try discriminate X. auto.
    + split; [tauto|]. intros [(X & _)|[(X & _)|[(X & _)|(_ & X & _)]]]; try discriminate X. auto.
  - cbn [mfind In]. split; [tauto|]. intros [(X & _)|[(X & _)|[(X & _)|(X & _)]]]; discriminate X.
  - destruct p; cbn [mfind In]; (split; [tauto|]; intros [(X & _)|[(X & _)|[(X & _)|(X & _)]]]; discriminate X).
Qed.

Definition any1 (u : word) : Prop := exists c, u = [c] /\ any_letter c.

Lemma path_nil_inv : forall E p t, path E p [] t -> p = t \/ exists m, E p Epsilon m /\ path E m [] t.
Proof.
  intros E p t P. destruct (path_inv _ _ _ _ P) as [[_ ->]|[(m & H1 & P1)|(c & m & w1 & X & _)]]; auto; [|discriminate X]. right. eauto.
Qed.
Lemma land2 : forall t, N.land t CMatched = if N.testbit t 1 then 2%N else 0%N.
Proof.
  intros t. apply N.bits_inj. intros k. rewrite N.land_spec. change CMatched with (2 ^ 1)%N. rewrite N.pow2_bits_eqb.
  destruct (N.eqb_spec 1 k) as [<-|N0].
  - rewrite andb_true_r. destruct (N.testbit t 1); reflexivity.
  - rewrite andb_false_r. destruct (N.testbit t 1); [|rewrite N.bits_0; reflexivity]. change 2%N with (2 ^ 1)%N. rewrite N.pow2_bits_false; auto.
Qed.

Section Auto.
  Variable A : fsm.
  Hypothesis W : wf A.
  Hypothesis HT : tags A = [].
  Hypothesis Heps : forall p q, ~ edge A p Epsilon q.
  Hypothesis Hfun : forall p c, p < size A -> letter c -> exists q, forall x, edge A p c x <-> x = q.
  Hypothesis Hne : ~ In (initial A) (finals A).
  Let n := size A.
  Let B := fsm_or (with_dup A) any_char.

  Lemma A_bound : forall p c q, edge A p c q -> p < n /\ q < n.
  Proof. intros p c q H. eapply edge_bound; eauto. Qed.
  Lemma A_alt : isAlt A = false.
  Proof.
    destruct (isAlt A) eqn:E; auto. destruct (Hfun (initial A) 0%N (wf_init _ W)) as [q Hq]; [split; [reflexivity|discriminate]|].
    assert (X : edge A (initial A) 0%N q) by (apply Hq; auto). apply (alt_edge_out _ W E) in X. discriminate X.
  Qed.
  Lemma W_tags : forall q k, N.testbit (fsm_tag (with_dup A) q) k = true <-> (n <= q < n + n /\ k = 1%N).
  Proof.
    set (T := fold_left (fun g i => set_tags g (mset i CMatched (tags g))) (seq 0 n) A).
    assert (T1 : forall l g i, mfind i (tags (fold_left (fun g i => set_tags g (mset i CMatched (tags g))) l g)) = if smem i l then Some CMatched else mfind i (tags g)).
    { induction l as [|x l IH]; intros g i; cbn [fold_left smem]; auto. rewrite IH. cbn [set_tags tags]. rewrite mfind_mset. destruct (keqb i x), (smem i l); reflexivity. }
    assert (S1 : forall l g, msorted (tags g) -> msorted (tags (fold_left (fun g i => set_tags g (mset i CMatched (tags g))) l g))).
    { induction l as [|x l IH]; intros g H; cbn [fold_left]; auto. apply IH. cbn [set_tags tags]. apply mset_sorted. exact H. }
    assert (E : tags (with_dup A) = import_tags n (tags T) (tags A)).
    { unfold with_dup. fold n. fold T. cbv zeta. generalize (finals (import_fsm A T)). intros l.
      assert (X : forall l g, tags (fold_left (fun g i => if (i <? n)%nat then connect g i (n + i)%nat Epsilon else g) l g) = tags g).
      { induction l0 as [|x l0 IH]; intros g; cbn [fold_left]; auto. rewrite IH. destruct (x <? n)%nat; reflexivity. }
      rewrite X. reflexivity. }
    assert (ST : msorted (tags T)) by (apply S1; rewrite HT; constructor).
    assert (F : forall q, mfind q (tags (with_dup A)) = if (n <=? q)%nat && (q <? n + n)%nat then Some CMatched else None).
    { intros q. rewrite E, HT. unfold import_tags.
      assert (X : forall (src : smap nat N) dst, (forall k v, In (k, v) src -> v = CMatched) ->
        mfind q (fold_left (fun d '(q, t) => minsert (q + n) t d) src dst) = match mfind q dst with Some z => Some z | None => if existsb (fun '(x, _) => Nat.eqb (x + n) q) src then Some CMatched else None end).
      { induction src as [|[x v] src IH]; intros dst H; cbn [fold_left existsb]; [destruct (mfind q dst); auto|].
        rewrite IH by (intros k0 v0 H0; apply (H k0 v0); right; auto). rewrite mfind_minsert. assert (Ev : v = CMatched) by (apply (H x v); left; auto). subst v.
        destruct (keqb_spec q (x + n)) as [->|N0].
        - rewrite Nat.eqb_refl. cbn [orb]. destruct (mfind (x + n) dst); auto.
        - destruct (Nat.eqb_spec (x + n) q); [congruence|]. reflexivity. }
      rewrite X.
      - cbn [mfind]. assert (Y : existsb (fun '(x, _) => Nat.eqb (x + n) q) (tags T) = (n <=? q)%nat && (q <? n + n)%nat); [|rewrite Y; reflexivity].
        apply eq_true_iff_eq. rewrite existsb_exists, andb_true_iff, Nat.leb_le, Nat.ltb_lt. split.
        + intros ([x v] & H1 & H2). apply Nat.eqb_eq in H2. apply (msorted_find ST) in H1. unfold T in H1. rewrite T1, HT in H1. cbn [mfind] in H1.
          destruct (smem x (seq 0 n)) eqn:S; [|discriminate H1]. apply smem_in, in_seq in S. lia.
        + intros [H1 H2]. exists (q - n, CMatched). split; [|apply Nat.eqb_eq; lia]. apply (msorted_find ST). unfold T. rewrite T1.
          assert (S : smem (q - n) (seq 0 n) = true) by (apply smem_in, in_seq; lia). rewrite S. reflexivity.
      - intros x v H. apply (msorted_find ST) in H. unfold T in H. rewrite T1, HT in H. cbn [mfind] in H. destruct (smem x (seq 0 n)); congruence. }
    intros q k. unfold fsm_tag. rewrite F. destruct (Nat.leb_spec n q), (Nat.ltb_spec q (n + n)); cbn [andb]; rewrite ?N.bits_0; try (split; [discriminate|lia]).
    change CMatched with (2 ^ 1)%N. rewrite N.pow2_bits_eqb, N.eqb_eq. split; [intros <-; auto|intros [_ ->]; auto].
  Qed.
  Lemma B_shape : wf B /\ initial B = 4 + (n + n) /\
    (forall q, In q (finals B) <-> In q (finals A) \/ q = 1 + (n + n) \/ q = 3 + (n + n) \/ q = 6 + (n + n)) /\
    (forall q k, N.testbit (fsm_tag B q) k = true <-> (n <= q < n + n /\ k = 1%N)) /\
    (forall p c q, edge B p c q <-> edge A p c q \/ (exists p' q', p = p' + n /\ q = q' + n /\ edge A p' c q') \/ (In p (finals A) /\ c = Epsilon /\ q = n + p) \/
      (exists p' q', p = p' + (n + n) /\ q = q' + (n + n) /\ edge any_char p' c q') \/ (p = 4 + (n + n) /\ c = Epsilon /\ q = initial A)).
  Proof.
    destruct (with_dup_wf A W) as (W1 & U1 & S1). pose proof (CountBuild.any_char_built) as AB. apply ApiProofs.built_wf in AB.
    split; [exact (proj1 (fsm_or_ok _ _ W1 AB))|].
    destruct (with_dup_adds A W) as (t & I & Ad). cbn zeta in I, Ad.
    assert (A1 : isAlt (with_dup A) = false).
    { destruct (isAlt (with_dup A)) eqn:E; auto. apply (ad_alt _ _ _ Ad) in E. rewrite (im_alt _ _ _ I), A_alt in E. discriminate E. }
    destruct any_char_eq as (_ & XI & XF & XA & XT & XO & XL & XS). pose proof (import_ok (with_dup A) any_char W1 AB) as I2. pose proof W_tags as WT.
    assert (Wedge : forall p c q, edge (with_dup A) p c q <-> edge A p c q \/ (exists p' q', p = p' + n /\ q = q' + n /\ edge A p' c q') \/ (In p (finals A) /\ c = Epsilon /\ q = n + p)).
    { intros p c q. rewrite raw_uncompressed by exact U1. rewrite (ad_raw _ _ _ Ad), (im_raw _ _ _ I). unfold shifted. fold n. change (edge (set_tags A t)) with (edge A). tauto. }
    assert (WI : initial (with_dup A) = initial A) by (rewrite (ad_init _ _ _ Ad); apply (im_init _ _ _ I)).
    assert (WF : finals (with_dup A) = finals A) by (rewrite (ad_fin _ _ _ Ad); apply (im_fin _ _ _ I)).
    assert (TI : tags (import_fsm (with_dup A) any_char) = tags (with_dup A)) by (cbn [import_fsm tags]; rewrite XT; reflexivity).
    fold n in S1. unfold B, fsm_or. rewrite A1, XA. cbn [negb andb]. rewrite S1, XI.
    set (D := with_dup A) in *. clearbody D. set (X := any_char) in *. clearbody X.
    set (f2 := set_finals (import_fsm D X) (fold_left (fun s q => sadd (q + (n + n)) s) (finals X) (finals (import_fsm D X)))).
    assert (S2 : size f2 = (n + n) + 7) by (change (size f2) with (size (import_fsm D X)); rewrite (im_size _ _ _ I2), S1, XS; reflexivity).
    assert (I2' : initial f2 = initial A) by (change (initial f2) with (initial (import_fsm D X)); rewrite (im_init _ _ _ I2); auto).
    assert (Hi : initial A < n) by apply W.
    assert (C : adds f2 (connect f2 (n + n + 4) (initial f2) Epsilon) (fun p c q => p = n + n + 4 /\ c = Epsilon /\ q = initial f2)).
    { apply connect_adds; [lia|rewrite I2'; lia|reflexivity]. }
    set (h := connect f2 (n + n + 4) (initial f2) Epsilon) in *. splits.
    - reflexivity.
    - intros q. change (finals (set_isAlt (set_determined (set_initial h (4 + (n + n))) false) true)) with (finals h). rewrite (ad_fin _ _ _ C).
      unfold f2. cbn [set_finals finals]. rewrite sadd_shift_fold, (im_fin _ _ _ I2), WF, XF. split.
      + intros [H|(x & [<-|[<-|[<-|[]]]] & ->)]; auto.
      + intros [H|[H|[H|H]]]; auto; right; [exists 1|exists 3|exists 6]; (split; [cbn; auto|exact H]).
    - intros q k. change (fsm_tag (set_isAlt (set_determined (set_initial h (4 + (n + n))) false) true) q) with (fsm_tag h q).
      rewrite <- WT. unfold fsm_tag. rewrite (ad_tags _ _ _ C). change (tags f2) with (tags (import_fsm D X)). rewrite TI. reflexivity.
    - intros p c q. change (edge (set_isAlt (set_determined (set_initial h (4 + (n + n))) false) true) p c q) with (edge h p c q).
      rewrite raw_uncompressed by (rewrite (ad_let _ _ _ C); apply (im_let _ _ _ I2)). rewrite (ad_raw _ _ _ C), I2'.
      change (raw f2 p c q) with (raw (import_fsm D X) p c q). rewrite (im_raw _ _ _ I2), Wedge. unfold shifted. rewrite S1.
      replace (n + n + 4) with (4 + (n + n)) by lia. tauto.
  Qed.

End Auto.

(** ** The words the automaton is in which states after

    The edges of B, and those of B without epsilons, as relations. *)
Section Words.
  Variable A : fsm.
  Hypothesis W : wf A.
  Hypothesis Heps : forall p q, ~ edge A p Epsilon q.
  Hypothesis Hfun : forall p c, p < size A -> letter c -> exists q, forall x, edge A p c x <-> x = q.
  Hypothesis Hne : ~ In (initial A) (finals A).
  Let n := size A.
  Definition any_rel (p : nat) (c : N) (q : nat) : Prop :=
    (p = 4 /\ c = Epsilon /\ (q = 0 \/ q = 2 \/ q = 5)) \/ (p = 0 /\ (c < 256)%N /\ q = 1) \/ (p = 2 /\ c = BeginMark /\ q = 3) \/ (p = 5 /\ c = EndMark /\ q = 6).
  Variable EB : nat -> N -> nat -> Prop.
  Hypothesis BE : forall p c q, EB p c q <-> edge A p c q \/ (exists p' q', p = p' + n /\ q = q' + n /\ edge A p' c q') \/
    (In p (finals A) /\ c = Epsilon /\ q = n + p) \/ (exists p' q', p = p' + (n + n) /\ q = q' + (n + n) /\ any_rel p' c q') \/
    (p = 4 + (n + n) /\ c = Epsilon /\ q = initial A).
  Variable E1 : nat -> N -> nat -> Prop.
  Hypothesis E1_def : forall p c q, E1 p c q <-> c <> Epsilon /\ exists t, path EB p [] t /\ EB t c q.
  Lemma A_bnd : forall p c q, edge A p c q -> p < n /\ q < n.
  Proof. intros p c q H. exact (A_bound A W p c q H). Qed.
  (** closures *)
  Lemma B_eps_low : forall p t, p < n -> (path (EB) p [] t <-> t = p \/ (In p (finals A) /\ t = n + p)).
  Proof.
    intros p t Hp.
    assert (Z1 : forall m, EB p Epsilon m -> In p (finals A) /\ m = n + p).
    { intros m H. apply BE in H as [H|[(p' & q' & X & _)|[(H1 & _ & H2)|[(p' & q' & X & _)|(X & _)]]]]; try lia; auto. destruct (Heps _ _ H). }
    assert (Z2 : forall m, ~ EB (n + p) Epsilon m).
    { intros m H. apply BE in H as [H|[(p' & q' & X & _ & H)|[(H1 & _)|[(p' & q' & X & _)|(X & _)]]]]; try lia.
      - destruct (Heps _ _ H). - destruct (Heps _ _ H). - apply (wf_fin _ W) in H1. fold n in H1. lia. }
    split.
    - intros P. apply path_nil_inv in P as [->|(m & H & P)]; auto. apply Z1 in H as [H ->]. right. split; auto.
      apply path_nil_inv in P as [<-|(m & H' & _)]; auto. destruct (Z2 _ H').
    - intros [->|[H ->]]; [constructor|]. eapply path_eps; [|constructor]. apply BE. right. right. left. auto.
  Qed.
  Lemma B_eps_dup : forall p t, p < n -> (path (EB) (p + n) [] t <-> t = p + n).
  Proof.
    intros p t Hp. split; [|intros ->; constructor].
    intros P. apply path_nil_inv in P as [<-|(m & H & _)]; auto.
    apply BE in H as [H|[(p' & q' & X & _ & H)|[(H1 & _)|[(p' & q' & X & _)|(X & _)]]]]; try lia.
    - destruct (Heps _ _ H). - destruct (Heps _ _ H). - apply (wf_fin _ W) in H1. fold n in H1. lia.
  Qed.
  Lemma B_high : forall p c q, EB (p + (n + n)) c q <-> (exists q', q = q' + (n + n) /\ any_rel p c q') \/ (p = 4 /\ c = Epsilon /\ q = initial A).
  Proof.
    intros p c q. rewrite BE. split.
    - intros [H|[(p' & q' & X & _ & H)|[(H1 & _)|[(p' & q' & X & Y & H)|(X & Y)]]]].
      + apply A_bnd in H. lia.
      + apply A_bnd in H. lia.
      + apply (wf_fin _ W) in H1. fold n in H1. lia.
      + left. exists q'. split; auto. replace p with p' by lia. exact H.
      + right. split; auto. lia.
    - intros [(q' & -> & H)|(-> & -> & ->)]; right; right; right; [left; eauto|right; auto].
  Qed.
  Lemma B_eps_any : forall p t, p = 1 \/ p = 3 \/ p = 6 \/ p = 0 \/ p = 2 \/ p = 5 -> (path (EB) (p + (n + n)) [] t <-> t = p + (n + n)).
  Proof.
    intros p t Hp. split; [|intros ->; constructor]. intros P. apply path_nil_inv in P as [<-|(m & H & _)]; auto.
    apply B_high in H as [(q' & -> & H)|(-> & _)]; [|lia]. unfold any_rel in H; destruct H as [(-> & _)|[(_ & X & _)|[(_ & X & _)|(_ & X & _)]]]; [lia| | |]; discriminate X.
  Qed.
  Lemma B_eps_init : forall t, path (EB) (4 + (n + n)) [] t <-> t = 4 + (n + n) \/ t = 0 + (n + n) \/ t = 2 + (n + n) \/ t = 5 + (n + n) \/ t = initial A.
  Proof.
    intros t. split.
    - intros P. apply path_nil_inv in P as [<-|(m & H & P)]; auto. apply B_high in H as [(q' & -> & H)|(_ & _ & ->)].
      + unfold any_rel in H; destruct H as [(_ & _ & H)|[(X & _)|[(X & _)|(X & _)]]]; [|lia|lia|lia].
        apply B_eps_any in P; [|lia]. destruct H as [H|[H|H]]; subst q'; auto 6.
      + apply B_eps_low in P as [->|[H _]]; auto 6; [|apply W]. destruct (Hne H).
    - intros [H|[H|[H|[H|H]]]]; subst t; [constructor| | | |]; (eapply path_eps; [|constructor]); apply B_high.
      + left. exists 0. split; auto. unfold any_rel. auto 6.
      + left. exists 2. split; auto. unfold any_rel. auto 6.
      + left. exists 5. split; auto. unfold any_rel. auto 6.
      + right. auto.
  Qed.

  (** ** Without epsilons *)
  Lemma w_low : forall p c q, p < n -> c <> Epsilon -> (E1 p c q <-> edge A p c q \/ (In p (finals A) /\ exists q', q = q' + n /\ edge A p c q')).
  Proof.
    intros p c q Hp Hc. rewrite E1_def. split.
    - intros [_ (t & P & H)]. apply B_eps_low in P as [->|[Hf ->]]; auto; apply BE in H as [H|[(p' & q' & X & Y & H)|[(_ & X & _)|[(p' & q' & X & _)|(X & _)]]]]; try lia; auto; try congruence.
      + apply A_bnd in H. lia.
      + right. split; auto. exists q'. split; auto. replace p with p' by lia. exact H.
    - intros [H|[Hf (q' & -> & H)]]; split; auto.
      + exists p. split; [constructor|]. apply BE. auto.
      + exists (n + p). split; [apply B_eps_low; auto|]. apply BE. right. left. exists p, q'. splits; auto. lia.
  Qed.
  Lemma w_dup : forall p c q, p < n -> c <> Epsilon -> (E1 (p + n) c q <-> exists q', q = q' + n /\ edge A p c q').
  Proof.
    intros p c q Hp Hc. rewrite E1_def. split.
    - intros [_ (t & P & H)]. apply B_eps_dup in P as ->; auto. apply BE in H as [H|[(p' & q' & X & Y & H)|[(_ & X & _)|[(p' & q' & X & _)|(X & _)]]]]; try lia; try congruence.
      + apply A_bnd in H. lia.
      + exists q'. split; auto. replace p with p' by lia. exact H.
    - intros (q' & -> & H). split; auto. exists (p + n). split; [constructor|]. apply BE. right. left. eauto.
  Qed.
  (** the state after one letter, whatever it is *)
  Definition any_state (c : N) (q : nat) : Prop := (q = 1 + (n + n) /\ (c < 256)%N) \/ (q = 3 + (n + n) /\ c = BeginMark) \/ (q = 6 + (n + n) /\ c = EndMark).
  Lemma any_state_ex : forall c, any_letter c <-> exists q, any_state c q.
  Proof.
    intros c. unfold any_letter, any_state. split.
    - intros [H|[H|H]]; [exists (1 + (n + n))|exists (3 + (n + n))|exists (6 + (n + n))]; auto.
    - intros (q & [[_ H]|[[_ H]|[_ H]]]); auto.
  Qed.
  Lemma w_init : forall c q, c <> Epsilon -> (E1 (4 + (n + n)) c q <-> edge A (initial A) c q \/ any_state c q).
  Proof.
    intros c q Hc. rewrite E1_def.
    assert (HI : initial A < n) by apply W. unfold any_state. split.
    - intros [_ (t & P & H)]. apply B_eps_init in P as [P|[P|[P|[P|P]]]]; subst t.
      1-4: apply B_high in H as [(q' & -> & H)|(_ & X & _)]; [|congruence]; unfold any_rel in H; destruct H as [(_ & X & _)|[(X & Y & ->)|[(X & Y & ->)|(X & Y & ->)]]]; try congruence; try lia; auto.
      apply BE in H as [H|[(p' & q' & X & Y & H)|[(_ & X & _)|[(p' & q' & X & _)|(X & _)]]]]; try lia; auto; congruence.
    - intros [H|[[-> H]|[[-> H]|[-> H]]]]; split; auto.
      + exists (initial A). split; [apply B_eps_init; auto 6|]. apply BE. auto.
      + exists (0 + (n + n)). split; [apply B_eps_init; auto 6|]. apply B_high. left. exists 1. split; auto. unfold any_rel. auto 6.
      + exists (2 + (n + n)). split; [apply B_eps_init; auto 6|]. apply B_high. left. exists 3. split; auto. unfold any_rel. auto 6.
      + exists (5 + (n + n)). split; [apply B_eps_init; auto 6|]. apply B_high. left. exists 6. split; auto. unfold any_rel. auto 6.
  Qed.
  Lemma w_any : forall p c q d, any_state d p -> c <> Epsilon -> ~ E1 p c q.
  Proof.
    intros p c q d Hp Hc H. apply E1_def in H as [_ (t & P & H)].
    assert (X : exists k, (k = 1 \/ k = 3 \/ k = 6) /\ p = k + (n + n)) by (destruct Hp as [[-> _]|[[-> _]|[-> _]]]; eauto).
    destruct X as (k & Hk & ->). apply B_eps_any in P; [|lia]. subst t.
    apply B_high in H as [(q' & -> & H)|(_ & X & _)]; [|congruence]. unfold any_rel in H; destruct H as [(_ & X & _)|[(X & Y & Z)|[(X & Y & Z)|(X & Y & Z)]]]; try congruence; lia.
  Qed.

  (** ** What a word reaches *)
  Definition M (u : word) : Prop := exists x, walk (edge A) (initial A) u x /\ In x (finals A).
  Definition past (u : word) : Prop := exists m z, u = m ++ z /\ z <> [] /\ M m.
  Lemma walk_bound : forall u p q, p < n -> walk (edge A) p u q -> q < n.
  Proof. induction u as [|c u IH]; intros p q Hp H; cbn [walk] in H; [subst; auto|]. destruct H as (m & H1 & H2). apply (IH m); auto. apply A_bnd in H1. tauto. Qed.
  Lemma w_reach : forall u, is_word u -> u <> [] -> forall q, walk (E1) (4 + (n + n)) u q <->
    walk (edge A) (initial A) u q \/
    (exists q' m z x, q = q' + n /\ u = m ++ z /\ z <> [] /\ walk (edge A) (initial A) m x /\ In x (finals A) /\ walk (edge A) x z q') \/
    (exists c, u = [c] /\ any_state c q).
  Proof.
    assert (HI : initial A < n) by apply W.
    induction u as [|c u IH] using rev_ind; intros Hu Hn q; [congruence|]. apply Forall_app in Hu as [Hu Hc0]. inversion Hc0 as [|? ? Hc _]; subst.
    assert (Hce : c <> Epsilon) by apply Hc. rewrite walk_snoc. destruct u as [|d u].
    - cbn [app walk]. split.
      + intros (m & <- & H). apply w_init in H as [H|H]; auto.
        * left. exists q. auto.
        * right. right. eauto.
      + intros [(x & H & ->)|[(q' & m & z & x & -> & E & Hz & P1 & F & P2)|(d & [= <-] & H)]].
        * exists (4 + (n + n)). split; auto. apply w_init; auto.
        * exfalso. destruct m as [|y m].
          -- cbn [walk] in P1. subst x. destruct (Hne F).
          -- destruct m; [|discriminate E]. destruct z; [congruence|discriminate E].
        * exists (4 + (n + n)). split; auto. apply w_init; auto.
    - set (u' := d :: u) in *. assert (Hu' : u' <> []) by discriminate. clearbody u'. split.
      + intros (p & P & H). apply (IH Hu Hu') in P as [P|[(p' & m & z & x & -> & -> & Hz & P1 & F & P2)|(d' & _ & X)]].
        * pose proof (walk_bound _ _ _ HI P) as Bp. apply w_low in H as [H|[Hf (q' & -> & H)]]; auto.
          -- left. apply walk_snoc. eauto.
          -- right. left. exists q', u', [c], p. splits; auto; [discriminate|]. cbn [walk]. eauto.
        * assert (Bp : p' < n) by (apply (walk_bound z x); auto; apply (wf_fin _ W); auto).
          apply w_dup in H as (q' & -> & H); auto. right. left. exists q', m, (z ++ [c]), x. rewrite app_assoc. splits; auto.
          -- intros X. apply app_eq_nil in X as [_ X]. discriminate X.
          -- apply walk_snoc. eauto.
        * destruct (w_any _ _ _ _ X Hce H).
      + intros [H|[(q' & m & z & x & -> & E & Hz & P1 & F & P2)|(d' & E & _)]].
        * apply walk_snoc in H as (p & P & H). exists p. split; [apply IH; auto|]. apply w_low; auto. apply (walk_bound _ _ _ HI P).
        * destruct (exists_last Hz) as (z' & e & ->). rewrite app_assoc in E. apply app_inj_tail in E as [E <-].
          apply walk_snoc in P2 as (p & P2 & H). destruct z' as [|y z'].
          -- cbn [walk] in P2. subst p. rewrite app_nil_r in E. subst m. exists x. split; [apply IH; auto|]. apply w_low; auto; [apply (wf_fin _ W); auto|]. right. eauto.
          -- exists (p + n). split.
             ++ apply (IH Hu Hu'). right. left. exists p, m, (y :: z'), x. splits; auto. discriminate.
             ++ apply w_dup; [|auto|eauto]. apply (walk_bound (y :: z') x); auto. apply (wf_fin _ W); auto.
        * exfalso. apply (f_equal (@length _)) in E. rewrite app_length in E. destruct u'; [congruence|cbn in E; lia].
  Qed.

  (** ** Sets of states *)
  Variables (F1 : nat -> Prop) (T1 : nat -> Prop).
  Hypothesis F1_def : forall q, F1 q <-> exists t, path EB q [] t /\ (In t (finals A) \/ t = 1 + (n + n) \/ t = 3 + (n + n) \/ t = 6 + (n + n)).
  Hypothesis T1_def : forall q, T1 q <-> exists t, path EB q [] t /\ n <= t < n + n.

  Lemma F1_low : forall q, q < n -> (F1 q <-> In q (finals A)).
  Proof.
    intros q Hq. rewrite F1_def. split.
    - intros (t & P & H). apply B_eps_low in P as [->|[Hf ->]]; auto. destruct H as [H|[H|[H|H]]]; auto; lia.
    - intros H. exists q. split; auto. constructor.
  Qed.
  Lemma F1_dup : forall q, q < n -> ~ F1 (q + n).
  Proof.
    intros q Hq H. apply F1_def in H as (t & P & H). apply B_eps_dup in P as ->; auto. destruct H as [H|[H|[H|H]]]; try lia. apply (wf_fin _ W) in H. fold n in H. lia.
  Qed.
  Lemma F1_any : forall c q, any_state c q -> F1 q.
  Proof. intros c q H. apply F1_def. exists q. split; [constructor|]. destruct H as [[-> _]|[[-> _]|[-> _]]]; auto. Qed.
  Lemma F1_init : ~ F1 (4 + (n + n)).
  Proof.
    intros H. apply F1_def in H as (t & P & H). assert (HI : initial A < n) by apply W. apply B_eps_init in P as [P|[P|[P|[P|P]]]]; subst t.
    5: destruct H as [H|[H|[H|H]]]; [destruct (Hne H)|lia|lia|lia].
    all: destruct H as [H|[H|[H|H]]]; try lia; apply (wf_fin _ W) in H; fold n in H; lia.
  Qed.
  Lemma T1_low : forall q, q < n -> (T1 q <-> In q (finals A)).
  Proof.
    intros q Hq. rewrite T1_def. split.
    - intros (t & P & H). apply B_eps_low in P as [->|[Hf ->]]; auto. lia.
    - intros H. exists (n + q). split; [apply B_eps_low; auto|lia].
  Qed.
  Lemma T1_dup : forall q, q < n -> T1 (q + n).
  Proof. intros q Hq. apply T1_def. exists (q + n). split; [constructor|lia]. Qed.
  Lemma T1_any : forall c q, any_state c q -> ~ T1 q.
  Proof.
    intros c q Hp H. apply T1_def in H as (t & P & H).
    assert (X : exists k, (k = 1 \/ k = 3 \/ k = 6) /\ q = k + (n + n)) by (destruct Hp as [[-> _]|[[-> _]|[-> _]]]; eauto).
    destruct X as (k & Hk & ->). apply B_eps_any in P; lia.
  Qed.
  Lemma T1_init : ~ T1 (4 + (n + n)).
  Proof. intros H. apply T1_def in H as (t & P & H). assert (HI : initial A < n) by apply W. apply B_eps_init in P as [P|[P|[P|[P|P]]]]; subst t; lia. Qed.

  Lemma walk_tot : forall u p, p < n -> is_word u -> exists q, q < n /\ forall x, walk (edge A) p u x <-> x = q.
  Proof.
    induction u as [|c u IH]; intros p Hp Hu.
    - exists p. split; auto. intros x. cbn [walk]. intuition.
    - inversion Hu as [|? ? Hc Hu']; subst. destruct (Hfun p c Hp Hc) as (m & Hm).
      assert (Bm : m < n) by (apply (A_bnd p c m); apply Hm; auto).
      destruct (IH m Bm Hu') as (q & Bq & Hq). exists q. split; auto. intros x. cbn [walk]. split.
      + intros (m' & H1 & H2). apply Hm in H1. subst m'. apply Hq; auto.
      + intros ->. exists m. split; [apply Hm|apply Hq]; auto.
  Qed.
  Lemma M_ne : forall u, M u -> u <> [].
  Proof. intros u (x & P & F) ->. cbn [walk] in P. subst x. destruct (Hne F). Qed.
  (** a word after which some word is always in M *)
  Definition forever (m : word) : Prop := forall y, is_word y -> M (m ++ y).

  Lemma terminal_A : forall m t, is_word m -> walk E1 (4 + (n + n)) m t -> F1 t -> (forall c, letter c -> E1 t c t) ->
    walk (edge A) (initial A) m t /\ In t (finals A) /\ (forall c, letter c -> edge A t c t).
  Proof.
    intros m t Hm P F T. assert (HI : initial A < n) by apply W. assert (L0 : letter 0%N) by (split; [reflexivity|discriminate]).
    destruct m as [|d m]; [cbn [walk] in P; subst t; destruct (F1_init F)|].
    apply w_reach in P as [P|[(q' & m1 & z & x & -> & _ & _ & _ & Fx & P)|(c & _ & H)]]; auto; [| | |discriminate].
    - pose proof (walk_bound _ _ _ HI P) as Bt. split; auto. split; [apply F1_low; auto|]. intros c Hc. specialize (T c Hc). apply w_low in T; auto; [|apply Hc].
      destruct T as [T|[_ (q' & -> & T)]]; auto. lia.
    - destruct (F1_dup q'); auto. apply (walk_bound z x); auto. apply (wf_fin _ W); auto.
    - destruct (w_any t 0%N t c H); [discriminate|auto].
  Qed.
  Lemma terminal_forever : forall m t, walk (edge A) (initial A) m t -> In t (finals A) -> (forall c, letter c -> edge A t c t) -> forever m.
  Proof.
    intros m t P F T y Hy. exists t. split; auto. apply walk_app. exists t. split; auto. clear P. induction y as [|c y IH]; cbn [walk]; auto.
    inversion Hy; subst. eauto.
  Qed.
  Definition begun (u : word) : Prop := exists m z, u = m ++ z /\ M m.

  (** The set of states a word leads to. *)
  Definition gathers (u : word) (s : list nat) : Prop :=
    (forall q, In q s <-> walk E1 (4 + (n + n)) u q) \/
    (exists m z t, u = m ++ z /\ z <> [] /\ walk E1 (4 + (n + n)) m t /\ (F1 t /\ forall c, letter c -> E1 t c t) /\ forall q, In q s <-> walk E1 (4 + (n + n)) m q).
  Lemma gathers_fin : forall u s, is_word u -> gathers u s -> ((exists j, In j s /\ F1 j) <-> M u \/ any1 u).
  Proof.
    intros u s Hu [G|(m & z & t & -> & Hz & P & (F & T) & G)].
    - assert (HI : initial A < n) by apply W. destruct u as [|d u].
      + split.
        * intros (j & Hj & F). apply G in Hj. cbn [walk] in Hj. subst j. destruct (F1_init F).
        * intros [H|(c & X & _)]; [destruct (M_ne _ H); auto|discriminate X].
      + set (u' := d :: u) in *. assert (Hn : u' <> []) by discriminate. clearbody u'. split.
        * intros (j & Hj & F). apply G in Hj. apply w_reach in Hj as [P|[(q' & m1 & z & x & -> & _ & _ & _ & Fx & P)|(c & -> & H)]]; auto.
          -- left. exists j. split; auto. apply F1_low; auto. apply (walk_bound _ _ _ HI P).
          -- destruct (F1_dup q'); auto. apply (walk_bound z x); auto. apply (wf_fin _ W); auto.
          -- right. exists c. split; auto. apply any_state_ex. eauto.
        * intros [(x & P & F)|(c & -> & H)].
          -- exists x. split; [apply G, w_reach; auto|]. apply F1_low; auto. apply (walk_bound _ _ _ HI P).
          -- apply any_state_ex in H as (q & H). exists q. split; [apply G, w_reach; eauto|]. apply (F1_any c); auto.
    - apply Forall_app in Hu as [Hm Hz']. destruct (terminal_A m t Hm P F T) as (P' & F' & T'). split.
      + intros _. left. apply (terminal_forever m t); auto.
      + intros _. exists t. split; auto. apply G. exact P.
  Qed.
  Lemma gathers_tag : forall u s, is_word u -> gathers u s -> ((exists j, In j s /\ T1 j) <-> begun u).
  Proof.
    assert (HI : initial A < n) by apply W.
    assert (Main : forall u s, is_word u -> (forall q, In q s <-> walk E1 (4 + (n + n)) u q) -> ((exists j, In j s /\ T1 j) <-> begun u)).
    { intros u s Hu G. destruct u as [|d u].
      - split.
        + intros (j & Hj & F). apply G in Hj. cbn [walk] in Hj. subst j. destruct (T1_init F).
        + intros (m & z & E & H). apply M_ne in H. destruct m; [congruence|discriminate E].
      - set (u' := d :: u) in *. assert (Hn : u' <> []) by discriminate. clearbody u'. split.
        + intros (j & Hj & F). apply G in Hj. apply w_reach in Hj as [P|[(q' & m1 & z & x & -> & -> & _ & P1 & Fx & P)|(c & -> & H)]]; auto.
          * exists u', []. split; [rewrite app_nil_r; auto|]. exists j. split; auto. apply T1_low; auto. apply (walk_bound _ _ _ HI P).
          * exists m1, z. split; auto. exists x. auto.
          * destruct (T1_any c j H F).
        + intros (m & z & -> & (x & P & F)). assert (Bx : x < n) by (apply (wf_fin _ W); auto). destruct z as [|y z].
          * rewrite app_nil_r in *. exists x. split; [apply G, w_reach; auto|]. apply T1_low; auto.
          * apply Forall_app in Hu as H. destruct H as [_ Hz]. destruct (walk_tot (y :: z) x Bx Hz) as (q & Bq & Hq). exists (q + n). split; [|apply T1_dup; auto].
            apply G, w_reach; auto. right. left. exists q, m, (y :: z), x. splits; auto; [discriminate|]. apply Hq. auto. }
    intros u s Hu [G|(m & z & t & -> & Hz & P & (F & T) & G)]; [auto|].
    apply Forall_app in Hu as [Hm Hz']. destruct (terminal_A m t Hm P F T) as (P' & F' & T'). split.
    - intros _. exists m, z. split; auto. exists t. auto.
    - intros _. apply (Main m s Hm G). exists m, []. split; [rewrite app_nil_r; auto|]. exists t. auto.
  Qed.
  Lemma gathers_dup : forall u s, is_word u -> gathers u s -> (forall m z, u = m ++ z -> z <> [] -> ~ forever m) ->
    ((exists q, q < n /\ In (q + n) s) <-> past u) /\ ((exists q c, any_state c q /\ In q s) <-> any1 u).
  Proof.
    intros u s Hu [G|(m & z & t & -> & Hz & P & (F & T) & G)] Hno.
    2: { apply Forall_app in Hu as [Hm Hz']. destruct (terminal_A m t Hm P F T) as (P' & F' & T'). destruct (Hno m z eq_refl Hz). apply (terminal_forever m t); auto. }
    assert (HI : initial A < n) by apply W. destruct u as [|d u].
    - split; split.
      + intros (q & Hq & H). apply G in H. cbn [walk] in H. lia.
      + intros (m & z & E & Hz & _). destruct m; [|discriminate E]. destruct z; [congruence|discriminate E].
      + intros (q & c & H & Hq). apply G in Hq. cbn [walk] in Hq. destruct H as [[X _]|[[X _]|[X _]]]; lia.
      + intros (c & X & _). discriminate X.
    - set (u' := d :: u) in *. assert (Hn : u' <> []) by discriminate. clearbody u'. split; split.
      + intros (q & Hq & H). apply G in H. apply w_reach in H as [P|[(q' & m & z & x & E & -> & Hz & P1 & Fx & P)|(c & _ & H)]]; auto.
        * apply walk_bound in P; auto. lia.
        * exists m, z. splits; auto. exists x. auto.
        * destruct H as [[X _]|[[X _]|[X _]]]; lia.
      + intros (m & z & -> & Hz & (x & P & F)). assert (Bx : x < n) by (apply (wf_fin _ W); auto). apply Forall_app in Hu as H. destruct H as [_ Hz'].
        destruct (walk_tot z x Bx Hz') as (q & Bq & Hq). exists q. split; auto. apply G, w_reach; auto. right. left. exists q, m, z, x. splits; auto. apply Hq. auto.
      + intros (q & c & H & Hq). apply G in Hq. apply w_reach in Hq as [P|[(q' & m & z & x & E & -> & Hz & P1 & Fx & P)|(c' & -> & H')]]; auto.
        * apply walk_bound in P; auto. destruct H as [[X _]|[[X _]|[X _]]]; lia.
        * assert (q' < n) by (apply (walk_bound z x); auto; apply (wf_fin _ W); auto). destruct H as [[X _]|[[X _]|[X _]]]; lia.
        * exists c'. split; auto. apply any_state_ex. eauto.
      + intros (c & -> & H). apply any_state_ex in H as (q & H). exists q, c. split; auto. apply G, w_reach; eauto.
  Qed.
End Words.

(** ** What the states of the automaton say *)
Record tracks (f : fsm) (L : lang) : Prop := {
  tk_det : forall u, is_word u -> exists i, forall x, walk (edge f) (initial f) u x <-> x = i;
  tk_ne : ~ L [];
  tk_fin : forall u i, is_word u -> walk (edge f) (initial f) u i -> (In i (finals f) <-> L u \/ any1 u);
  tk_tag : forall u i, is_word u -> walk (edge f) (initial f) u i -> (N.testbit (fsm_tag f i) 1 = true <-> exists m z, u = m ++ z /\ L m);
  tk_split : exists dupm anym : nat -> Prop, forall u i, is_word u -> walk (edge f) (initial f) u i ->
    (forall m z, u = m ++ z -> z <> [] -> ~ (forall y, is_word y -> L (m ++ y))) ->
    (dupm i <-> exists m z, u = m ++ z /\ z <> [] /\ L m) /\ (anym i <-> any1 u);
  tk_eps : forall p q, ~ edge f p Epsilon q
}.
Lemma any_rel_iff : forall p c q, edge any_char p c q <-> any_rel p c q.
Proof. exact any_edge. Qed.
Local Opaque fsm_or with_dup any_char remove_epsilons.
Lemma auto_tracks : forall A g, wf A -> tags A = [] -> (forall p q, ~ edge A p Epsilon q) ->
  (forall p c, p < size A -> letter c -> exists q, forall x, edge A p c x <-> x = q) -> ~ In (initial A) (finals A) ->
  determine (fsm_or (with_dup A) any_char) 0 = Ok (true, g) -> tracks g (M A).
Proof.
  intros A g W HT He Hf Hn E. destruct (B_shape A W HT Hf) as (BW & BI & BF & BT & BE).
  pose proof (CompProofs.fsm_or_undet (with_dup A) any_char) as BD. set (B := fsm_or (with_dup A) any_char) in *. clearbody B.
  destruct (determine_sets B 0%N g BW BD E) as (states & SO). destruct (remove_epsilons_edges B BW) as (RE & RF & RT).
  destruct (remove_epsilons_ok B BW) as (W1 & _ & _ & I1 & _).
  assert (I2 : initial (remove_epsilons B) = 4 + (size A + size A)) by (rewrite I1; exact BI). clear I1.
  set (f1 := remove_epsilons B) in *. clearbody f1.
  assert (BE' : forall p c q, edge B p c q <-> edge A p c q \/ (exists p' q', p = p' + size A /\ q = q' + size A /\ edge A p' c q') \/
    (In p (finals A) /\ c = Epsilon /\ q = size A + p) \/ (exists p' q', p = p' + (size A + size A) /\ q = q' + (size A + size A) /\ any_rel p' c q') \/
    (p = 4 + (size A + size A) /\ c = Epsilon /\ q = initial A)).
  { intros p c q. etransitivity; [exact (BE p c q)|]. apply or_iff_compat_l, or_iff_compat_l, or_iff_compat_l, or_iff_compat_r.
    split; intros (p' & q' & H1 & H2 & H3); exists p', q'; (split; [exact H1|split; [exact H2|]]); [exact (proj1 (any_rel_iff p' c q') H3)|exact (proj2 (any_rel_iff p' c q') H3)]. }
  assert (F1 : forall q, In q (finals f1) <-> exists t, path (edge B) q [] t /\ (In t (finals A) \/ t = 1 + (size A + size A) \/ t = 3 + (size A + size A) \/ t = 6 + (size A + size A))).
  { intros q. rewrite (RF q). split; intros (t & P & H); exists t; split; auto; apply BF; exact H. }
  assert (T1 : forall q, N.testbit (fsm_tag f1 q) 1 = true <-> exists t, path (edge B) q [] t /\ size A <= t < size A + size A).
  { intros q. rewrite (RT q). split; intros (t & P & H); exists t; split; auto; apply BT in H || apply BT; tauto. }
  assert (ST : forall u i, is_word u -> walk (edge g) (initial g) u i -> exists s, nth_error states i = Some s /\ gathers A (edge f1) (fun q => In q (finals f1)) u s).
  { intros u i Hu P. destruct (subset_word f1 g states SO u Hu) as (i' & s & I & S1 & S2). apply I in P. subst i'. exists s. split; auto.
    unfold gathers. rewrite I2 in S2. destruct S2 as [S2|(m & z & t & H1 & H2 & H3 & H4 & H5)]; [left; auto|right]. exists m, z, t. splits; auto; apply H4. }
  assert (DK : det_ok g /\ wf g).
  { destruct (determine_ok B 0%N BW BD) as (b' & g' & E' & Wg & _ & _ & B1 & _). rewrite E in E'. apply ok_pair in E' as [<- <-]. split; auto. apply B1. auto. }
  split.
  - intros u Hu. destruct (subset_word f1 g states SO u Hu) as (i & s & I & _). exists i. exact I.
  - intros (x & P & H). cbn [walk] in P. subst x. destruct (Hn H).
  - intros u i Hu P. destruct (ST u i Hu P) as (s & S1 & S2). rewrite (so_fin _ _ _ SO i).
    rewrite <- (gathers_fin A W He Hn (edge B) BE' (edge f1) RE _ F1 u s Hu S2). split.
    + intros (s' & j & H1 & H2 & H3). replace s with s' by congruence. eauto.
    + intros (j & H1 & H2). exists s, j. auto.
  - intros u i Hu P. destruct (ST u i Hu P) as (s & S1 & S2). rewrite (so_tag _ _ _ SO i 1%N).
    etransitivity; [|apply (gathers_tag A W He Hf Hn (edge B) BE' (edge f1) RE _ _ F1 T1 u s Hu S2)]. split.
    + intros (s' & j & H1 & H2 & H3). replace s with s' by congruence. eauto.
    + intros (j & H1 & H2). exists s, j. auto.
  - exists (fun i => exists s q, nth_error states i = Some s /\ q < size A /\ In (q + size A) s), (fun i => exists s q c, nth_error states i = Some s /\ any_state A c q /\ In q s).
    intros u i Hu P Hno. destruct (ST u i Hu P) as (s & S1 & S2).
    destruct (gathers_dup A W He Hf Hn (edge B) BE' (edge f1) RE _ F1 u s Hu S2 Hno) as [D1 D2]. unfold past in D1. rewrite <- D1, <- D2. split; split.
    + intros (s' & q & H1 & H2 & H3). replace s with s' by congruence. eauto.
    + intros (q & H1 & H2). exists s, q. auto.
    + intros (s' & q & c & H1 & H2 & H3). replace s with s' by congruence. eauto.
    + intros (q & c & H1 & H2). exists s, q, c. auto.
  - apply BuildFacts.det_ok_deterministic; tauto.
Qed.
