(** Counting scanners as a user makes them. *)
From Coq Require Import List Bool Arith NArith Lia.
From Verif Require Import Util Spec PartitionModel PartitionProofs FsmModel DetermineModel DetGeneric DetProofs Api RunModel RunSpec ScannerModel
  ScannerProofs ScannerCompile GlueModel GlueTable GlueProofs CountModel CountSpec CountApi RunProofs CountProofs SimpleProofs LoadedProofs LoadedGlue CountBuild AdvModel AdvMain IoModel CountIoModel CountIo CountIoOk.
Import ListNotations.
Local Open Scope N_scope.

Lemma dglue_limit : forall b1 b2 null l r m, dglue b1 b2 null l r m = dglue b1 b2 null l r (dlimit m).
Proof.
  intros. unfold dglue, dlimit. destruct (N.eqb_spec m 0) as [->|H]; [reflexivity|]. destruct (N.eqb_spec m 0); [contradiction|reflexivity].
Qed.
Lemma dlimit_pos : forall m, dlimit m <> 0.
Proof. intros m. unfold dlimit. destruct (N.eqb_spec m 0); [discriminate|auto]. Qed.

Lemma dglue_full : forall b1 b2 null l r m, 16 < d_count l + d_count r -> dglue b1 b2 null l r m = Ok null.
Proof. intros b1 b2 null l r m H. unfold dglue, MAX_RE_COUNT. apply N.ltb_lt in H. rewrite H. reflexivity. Qed.
Lemma glue_what : forall b0 b1 b2 null l r m s, loaded_ok l -> loaded_ok r -> dplaced l -> dplaced r -> default_loaded b0 = Ok null -> dlimit m + 1 < two32 ->
  d_count l + d_count r <= 16 -> dglue b1 b2 null l r m = Ok s ->
  (exists states, glued_as l r s states /\ d_null s = false /\ N.of_nat (length states) <= dlimit m + 1 /\ ~ many l r (dlimit m + 2)) \/
  s = null /\ d_null s = true /\ many l r (dlimit m + 2).
Proof.
  intros b0 b1 b2 null l r m s Ll Lr Pl Pr D M C E. rewrite dglue_limit in E.
  destruct (dglue_cases l r Ll Lr Pl Pr C (dlimit m) b1 b2 null (dlimit_pos m) M) as (s' & E' & [(states & G & H1 & H2)|[-> H]]); rewrite E' in E; apply ok_inj in E; subst s.
  - left. exists states. splits; auto. apply G.
  - right. splits; auto. apply (default_loaded_ok b0 null D).
Qed.
Lemma counting_ok : forall s, counting s -> loaded_ok s.
Proof.
  intros s C. induction C as [buf re sep s B1 B2 E|buf re sep s simple B1 B2 E|buf s E|buf s C IH|b0 b1 b2 null l r m s Cl IHl Cr IHr Pl Pr D M E
    |buf pad s x null t rest s' st C IH P F NU PL R E E'|m pad s x ptr size s' p C IH P F NU PL E H M Z E'].
  - apply (counting_scanner_ok buf re sep s); auto.
  - apply (advanced_ok buf re sep s simple); auto.
  - apply (default_loaded_ok buf s); auto.
  - apply (copy_loaded_ok s buf IH).
  - destruct (N.lt_ge_cases 16 (d_count l + d_count r)) as [Hm|Hm].
    + rewrite dglue_full in E by auto. apply ok_inj in E. subst s. apply (default_loaded_ok b0 null D).
    + destruct (glue_what b0 b1 b2 null l r m s IHl IHr Pl Pr D M Hm E) as [(states & G & _)|(-> & _)]; [apply G|apply (default_loaded_ok b0 null D)].
  - rewrite (d_load_ok buf pad s x null t rest IH P F NU PL R E) in E'. apply ok_inj in E'. injection E' as <- _. apply moved_ok; auto.
  - rewrite (d_mmap_ok m pad s x ptr size IH P F NU PL E H (d_mmap_aligned _ _ _ _ E') M Z) in E'. apply ok_inj in E'. injection E' as <- _. apply moved_ok; auto.
Qed.

Lemma counting_runs : forall adv s w, counting s -> dplaced s -> is_word w -> exists st, steps (count_ops adv s) (c_init s) w = Ok st.
Proof. intros adv s w C P Hw. apply count_runs; auto. apply counting_ok; auto. Qed.
Lemma counting_result : forall adv s w i, counting s -> dplaced s -> is_word w -> N.of_nat (length w) < two32 -> (i < 16)%nat ->
  exists acts n, actions s (d_initial s) w = Ok acts /\ longest_run (flat_map (events_of adv i) acts) n /\ counts adv s w i (N.of_nat n).
Proof.
  intros adv s w i C P Hw Lw Hi. destruct (counting_runs adv s w C P Hw) as [st E].
  destruct (count_longest adv s w st i Hi Lw E) as (acts & n & H1 & H2 & H3). exists acts, n. splits; auto. exists st. auto.
Qed.
Lemma counting_glued : forall b0 b1 b2 null l r m s, counting l -> counting r -> dplaced l -> dplaced r -> default_loaded b0 = Ok null -> dlimit m + 1 < two32 ->
  d_count l + d_count r <= 16 -> dglue b1 b2 null l r m = Ok s -> d_null s = false -> dplaced s -> d_nletters s <= 256 ->
  d_count s = d_count l + d_count r /\ forall adv w, is_word w ->
    (forall i n, (N.of_nat i < d_count l) -> (counts adv s w i n <-> counts adv l w i n)) /\
    (forall i n, (N.of_nat i < d_count r) -> (counts adv s w (N.to_nat (d_count l) + i) n <-> counts adv r w i n)).
Proof.
  intros b0 b1 b2 null l r m s Cl Cr Pl Pr D M C E Nu P Few.
  destruct (glue_what b0 b1 b2 null l r m s (counting_ok _ Cl) (counting_ok _ Cr) Pl Pr D M C E) as [(states & G & _)|(_ & X & _)]; [|congruence].
  split; [apply G|]. intros adv w Hw. exact (glued_counts l r s states (counting_ok _ Cl) (counting_ok _ Cr) Pl Pr C G P Few adv w Hw).
Qed.
Lemma counting_glue_total : forall b0 b1 b2 null l r m, counting l -> counting r -> dplaced l -> dplaced r -> default_loaded b0 = Ok null -> dlimit m + 1 < two32 ->
  d_count l + d_count r <= 16 -> exists s, dglue b1 b2 null l r m = Ok s /\ (d_null s = true <-> many l r (dlimit m + 2)).
Proof.
  intros b0 b1 b2 null l r m Cl Cr Pl Pr D M C.
  destruct (dglue_cases l r (counting_ok _ Cl) (counting_ok _ Cr) Pl Pr C (dlimit m) b1 b2 null (dlimit_pos m) M) as (s & E & _).
  rewrite <- dglue_limit in E. exists s. split; auto.
  destruct (glue_what b0 b1 b2 null l r m s (counting_ok _ Cl) (counting_ok _ Cr) Pl Pr D M C E) as [(states & _ & X & _ & Y)|(_ & X & Y)]; rewrite X; split; intros; try congruence; auto.
Qed.

(** Letters of one column are one letter to the scanner. *)
Lemma same_column : forall adv s c c', letter c -> letter c' -> length (d_letters s) = 264%nat -> nth (N.to_nat c) (d_letters s) 0 = nth (N.to_nat c') (d_letters s) 0 ->
  forall x y i n, counts adv s (x ++ c :: y) i n <-> counts adv s (x ++ c' :: y) i n.
Proof.
  intros adv s c c' [Hc _] [Hc' _] L E x y i n. unfold MaxChar in *.
  assert (ND : forall a, d_next s a c = d_next s a c').
  { intros a. unfold d_next. rewrite (nth_error_nth' (d_letters s) 0) by lia. rewrite (nth_error_nth' (d_letters s) 0 (n := N.to_nat c')) by lia. rewrite E. reflexivity. }
  assert (NX : forall st, c_next s st c = c_next s st c') by (intros st; unfold c_next; rewrite ND; reflexivity).
  assert (R : forall x st, steps (count_ops adv s) st (x ++ c :: y) = steps (count_ops adv s) st (x ++ c' :: y)).
  { induction x0 as [|a x0 IH]; intros st; cbn [app]; cbn [steps]; unfold o_step; cbn [count_ops o_next].
    - rewrite NX. reflexivity.
    - destruct (c_next s st a) as [[st1 z]| | |]; cbn [bind]; auto. }
  unfold counts. rewrite R. reflexivity.
Qed.
Lemma counting_glued_classes : forall b0 b1 b2 null l r m s, counting l -> counting r -> dplaced l -> dplaced r -> default_loaded b0 = Ok null -> dlimit m + 1 < two32 ->
  d_count l + d_count r <= 16 -> dglue b1 b2 null l r m = Ok s -> d_null s = false -> 256 < d_nletters s ->
  exists c c', letter c /\ letter c' /\ letters_eq (d_letters l) (d_letters r) c c' = false /\
    forall adv x y i n, counts adv s (x ++ c :: y) i n <-> counts adv s (x ++ c' :: y) i n.
Proof.
  intros b0 b1 b2 null l r m s Cl Cr Pl Pr D M C E Nu Big.
  destruct (glue_what b0 b1 b2 null l r m s (counting_ok _ Cl) (counting_ok _ Cr) Pl Pr D M C E) as [(states & G & _)|(_ & X & _)]; [|congruence].
  destruct G as (Ls & _ & _ & _ & NL & _ & _ & _ & _ & LT & _). rewrite NL in Big.
  destruct (classes_clash l r) as (c & c' & H1 & H2 & H3 & H4); [lia|]. exists c, c'. splits; auto. intros adv. apply same_column; auto.
  - apply (lo_llen _ Ls).
  - rewrite LT. exact H4.
Qed.
