(** Determining, minimising and writing out the automaton of CountingFsm keep its actions. *)
From Coq Require Import List Bool Arith NArith Lia.
From Verif Require Import Util Spec PartitionModel PartitionProofs FsmModel DetermineModel MinimizeModel FsmSem FsmBasics DetGeneric DetProofs MinGeneric EpsProofs
  RunModel RunSpec ScannerModel ScannerProofs ScannerCompile GlueModel GlueTable GlueProofs CountModel CountSpec RunProofs CountProofs SimpleProofs LoadedProofs LoadedGlue CountAuto AdvModel.
Import ListNotations.
Local Opaque all_letters all_bytes.

(** ** Determine *)
Lemma det_row_grows : forall State dec (nx : State -> N -> State) s l states budget rw st b r, det_row dec nx s l states budget rw = Some (st, b, r) -> exists ext, st = states ++ ext.
Proof.
  intros State dec nx s. induction l as [|[c i] l IH]; intros states budget rw st b r E; cbn [det_row] in E.
  - injection E as <- _ _. exists []. rewrite app_nil_r. reflexivity.
  - destruct (index_of dec (nx s c) states); [eapply IH; eauto|]. destruct (budget =? 0)%N; [discriminate E|]. apply IH in E as [ext ->]. exists ([nx s c] ++ ext). rewrite app_assoc. reflexivity.
Qed.
Lemma det_loop_order : forall State dec (nx : State -> N -> State) ls fuel idx states budget tr st tr', det_loop dec nx (fun _ => true) ls fuel idx states budget tr = DetOk st tr' ->
  map fst tr = seq 0 idx -> idx <= length states -> map fst tr' = seq 0 (length st).
Proof.
  intros State dec nx ls. induction fuel as [|fuel IH]; intros idx states budget tr st tr' E T L; cbn [det_loop] in E; [discriminate E|].
  destruct (nth_error states idx) as [s|] eqn:Es.
  - destruct (det_row dec nx s ls states budget (repeat 0 (length ls))) as [[[st1 b1] r1]|] eqn:R; [|discriminate E]. apply det_row_grows in R as [ext ->].
    apply IH in E; auto.
    + rewrite map_app, T, seq_S. reflexivity.
    + assert (idx < length states) by (apply nth_error_Some; congruence). rewrite app_length. lia.
  - injection E as <- <-. apply nth_error_None in Es. replace (length states) with idx by lia. exact T.
Qed.

Lemma group_eqb_ok : forall x y, group_eqb x y = true <-> x = y.
Proof. intros x y. unfold group_eqb. apply seqb_eq. Qed.
Lemma dstate_eqb_ok : forall x y, dstate_eqb x y = true <-> x = y.
Proof.
  intros [a b c d] [a' b' c' d']. unfold dstate_eqb. cbn [g_matched g_unmatched g_separated g_lagging]. rewrite !andb_true_iff, !group_eqb_ok. split.
  - intros [[[-> ->] ->] ->]. reflexivity.
  - intros E. injection E as -> -> -> ->. auto.
Qed.

(** A table in which state i stands for the i-th of some determined states *)
Definition stands (p : partition) (step : dstate -> N -> dstate * N) (init : dstate) (t : cfsm) (lab : nat -> dstate) : Prop :=
  cf_init t < cf_size t /\ lab (cf_init t) = init /\
  forall i c l, i < cf_size t -> In (c, l) (part_list p) -> cf_next t i l < cf_size t /\ lab (cf_next t i l) = fst (step (lab i) c) /\ cf_act t i l = snd (step (lab i) c).
Definition shaped (nl : nat) (t : cfsm) : Prop := length (cf_acts t) = cf_size t /\ (forall r, In r (cf_acts t) -> length r = nl).

Lemma cf_determine_ok : forall f r0 dead simple max t, wf f -> cf_determine f r0 dead simple max = Ok (Some t) ->
  shaped (part_size (letters f)) t /\ (N.of_nat (cf_size t) <= max + 1)%N /\ exists lab, stands (letters f) (d_step f r0 dead simple) (d_init f simple) t lab.
Proof.
  intros f r0 dead simple max t W E. unfold cf_determine in E. cbv zeta in E. set (ls := part_list (letters f)) in *. set (nx := fun st c => fst (d_step f r0 dead simple st c)) in *.
  pose proof (wf_letters _ W) as Wp. assert (LI := part_list_idx _ Wp). assert (LN := part_list_nodup _ Wp). fold ls in LI, LN.
  pose proof (det_run_ok _ dstate_eqb (d_init f simple) nx (fun _ => true) ls dstate_eqb_ok LN LI max) as D.
  destruct (det_run dstate_eqb (d_init f simple) nx (fun _ => true) ls max) as [states tr| |] eqn:ED; [|discriminate E|discriminate E].
  apply ok_inj in E. injection E as <-. destruct D as [G SZ].
  assert (TR : map fst tr = seq 0 (length states)) by (unfold det_run in ED; eapply det_loop_order; eauto; cbn [length]; lia).
  assert (LT : length tr = length states) by (rewrite <- (map_length fst tr), TR, seq_length; reflexivity).
  destruct (invletters_ok _ LN LI) as [IL IN]. unfold cf_size. cbn [cf_rows cf_acts cf_init]. rewrite map_length. split; [|split].
  - split; [unfold cf_size; cbn [cf_rows cf_acts]; rewrite !map_length; auto|]. cbn [cf_acts]. intros r Hr. apply in_map_iff in Hr as (st & <- & _). rewrite map_length, IL. unfold ls. apply part_list_length.
  - rewrite LT. exact SZ.
  - exists (fun i => nth i states (d_init f simple)).
    assert (LS : 0 < length states) by (pose proof (dg_init _ _ _ _ _ _ _ _ _ G) as X; assert (Y : nth_error states 0 <> None) by congruence; apply nth_error_Some in Y; exact Y).
    unfold stands, cf_size. cbn [cf_rows cf_init]. rewrite map_length. splits; [lia| |].
    + apply nth_error_nth. apply (dg_init _ _ _ _ _ _ _ _ _ G).
    + intros i c l Hi Hl. assert (Hi' : i < length states) by lia. fold ls in Hl.
      destruct (nth_error tr i) as [[i' rw]|] eqn:Et; [|apply nth_error_None in Et; lia].
      assert (i' = i) as ->.
      { assert (X : nth_error (map fst tr) i = Some i') by (rewrite nth_error_map, Et; reflexivity). rewrite TR in X. apply nth_error_nth with (d := 0) in X. rewrite seq_nth in X by auto. cbn in X. auto. }
      destruct (dg_rows _ _ _ _ _ _ _ _ _ G i rw (nth_error_In _ _ Et)) as [_ (s & S1 & _ & S3 & S4)]. specialize (S4 c l Hl).
      assert (N1 : cf_next (mkCF (map snd tr) (map (fun st => map (fun c => snd (d_step f r0 dead simple st c)) (invletters ls)) states) 0) i l = nth l rw 0).
      { unfold cf_next. cbn [cf_rows]. f_equal. apply nth_error_nth. rewrite nth_error_map, Et. reflexivity. }
      rewrite N1. rewrite (nth_error_nth _ _ _ S1), (nth_error_nth _ _ _ S4). splits.
      * rewrite LT. apply nth_error_Some. congruence.
      * reflexivity.
      * unfold cf_act. cbn [cf_acts]. rewrite (nth_indep _ [] (map (fun c => snd (d_step f r0 dead simple (d_init f simple) c)) (invletters ls))) by (rewrite map_length; auto).
        rewrite (map_nth (fun st => map (fun c => snd (d_step f r0 dead simple st c)) (invletters ls))), (nth_error_nth _ _ _ S1).
        specialize (LI c l Hl). rewrite (nth_indep _ 0%N (snd (d_step f r0 dead simple s 0%N))) by (rewrite map_length; lia).
        rewrite (map_nth (fun c => snd (d_step f r0 dead simple s c))), (IN _ _ Hl). reflexivity.
Qed.
Lemma cf_determine_total : forall f r0 dead simple max, wf f -> exists r, cf_determine f r0 dead simple max = Ok r.
Proof.
  intros f r0 dead simple max W. unfold cf_determine. cbv zeta. set (ls := part_list (letters f)). set (nx := fun st c => fst (d_step f r0 dead simple st c)).
  pose proof (wf_letters _ W) as Wp. assert (LI := part_list_idx _ Wp). assert (LN := part_list_nodup _ Wp). fold ls in LI, LN.
  pose proof (det_run_ok _ dstate_eqb (d_init f simple) nx (fun _ => true) ls dstate_eqb_ok LN LI max) as D.
  destruct (det_run dstate_eqb (d_init f simple) nx (fun _ => true) ls max) as [states tr| |]; [eauto|eauto|destruct D].
Qed.

(** ** Minimize *)
Lemma acts_eqb_ok : forall x y, acts_eqb x y = true <-> x = y.
Proof. intros x y. unfold acts_eqb. apply seqb_eq. Qed.
Lemma act_rows_gen : forall l acc, NoDup acc -> let r := fold_left (fun l r => match index_of acts_eqb r l with Some _ => l | None => l ++ [r] end) l acc in
  NoDup r /\ forall x, In x r <-> In x acc \/ In x l.
Proof.
  induction l as [|a l IH]; intros acc ND; cbn [fold_left].
  - split; auto. intros x. cbn [In]. tauto.
  - destruct (index_of acts_eqb a acc) as [i|] eqn:E.
    + destruct (IH acc ND) as [H1 H2]. split; auto. intros x. rewrite H2. apply (index_of_some _ _ acts_eqb_ok) in E. apply nth_error_In in E. cbn [In]. split; [intros [H|H]; auto|intros [H|[<-|H]]; auto].
    + apply (index_of_none _ _ acts_eqb_ok) in E. destruct (IH (acc ++ [a]) (NoDup_snoc _ _ _ ND E)) as [H1 H2]. split; auto. intros x. rewrite H2, in_app_iff. cbn [In]. tauto.
Qed.
Lemma nodup_nth_eq : forall A (l : list A) i j d, NoDup l -> i < length l -> j < length l -> nth i l d = nth j l d -> i = j.
Proof. intros A l i j d ND Hi Hj E. eapply NoDup_nth; eauto. Qed.
Lemma act_class_ok : forall nl t, shaped nl t -> (forall q, q < cf_size t -> act_class t q < length (act_rows t)) /\
  (forall k, k < length (act_rows t) -> exists q, q < cf_size t /\ act_class t q = k) /\
  (forall q q', q < cf_size t -> q' < cf_size t -> act_class t q = act_class t q' -> nth q (cf_acts t) [] = nth q' (cf_acts t) []).
Proof.
  intros nl t [S1 _]. destruct (act_rows_gen (cf_acts t) [] (NoDup_nil _)) as [ND IN]. fold (act_rows t) in ND, IN.
  assert (X : forall q, q < cf_size t -> act_class t q < length (act_rows t) /\ nth (act_class t q) (act_rows t) [] = nth q (cf_acts t) []).
  { intros q Hq. unfold act_class. destruct (index_of acts_eqb (nth q (cf_acts t) []) (act_rows t)) as [i|] eqn:E.
    - apply (index_of_some _ _ acts_eqb_ok) in E. split; [apply nth_error_Some; congruence|apply nth_error_nth; auto].
    - apply (index_of_none _ _ acts_eqb_ok) in E. exfalso. apply E. apply IN. right. apply nth_In. lia. }
  splits.
  - intros q Hq. apply X. exact Hq.
  - intros k Hk. assert (Y : In (nth k (act_rows t) []) (act_rows t)) by (apply nth_In; auto). apply IN in Y as [[]|Y]. apply In_nth with (d := []) in Y as (q & Hq & Y). exists q.
    assert (Hq' : q < cf_size t) by lia. split; auto. destruct (X q Hq') as [X1 X2]. apply (nodup_nth_eq _ _ _ _ [] ND); auto. congruence.
  - intros q q' Hq Hq' E. destruct (X q Hq) as [_ <-]. destruct (X q' Hq') as [_ <-]. rewrite E. reflexivity.
Qed.
Lemma all_ok_map : forall A B (g : A -> res B) (h : A -> B) l, (forall x, In x l -> g x = Ok (h x)) -> all_ok (map g l) = Ok (map h l).
Proof.
  intros A B g h l. unfold all_ok. induction l as [|x l IH]; intros H; cbn [map fold_right]; auto. rewrite (H x (or_introl eq_refl)). cbn [bind]. rewrite IH by (intros y Hy; apply H; right; auto). reflexivity.
Qed.
Lemma dests_in : forall t cls k l x, In x (cf_dests t cls k l) <-> exists q, q < cf_size t /\ cls q = k /\ x = cls (cf_next t q l).
Proof.
  intros t cls k l x. unfold cf_dests.
  assert (G : forall L acc, In x (fold_left (fun s q => if Nat.eqb (cls q) k then sadd (cls (cf_next t q l)) s else s) L acc) <-> In x acc \/ exists q, In q L /\ cls q = k /\ x = cls (cf_next t q l)).
  { induction L as [|q L IH]; intros acc; cbn [fold_left].
    - split; auto. intros [H|(q & [] & _)]. exact H.
    - rewrite IH. destruct (Nat.eqb_spec (cls q) k) as [E|E].
      + rewrite sadd_in. cbn [In]. split.
        * intros [[->|H]|(y & H & H')]; auto; right; [exists q|exists y]; auto.
        * intros [H|(y & [<-|H] & H1 & H2)]; eauto.
      + cbn [In]. split.
        * intros [H|(y & H & H')]; auto. right. exists y. auto.
        * intros [H|(y & [<-|H] & H1 & H2)]; eauto. congruence. }
  rewrite G. cbn [In]. split.
  - intros [[]|(q & H & H')]. apply in_seq in H. exists q. split; [lia|auto].
  - intros (q & H & H'). right. exists q. split; auto. apply in_seq. lia.
Qed.
Lemma merged_eq : forall t cls k l a, (forall q, q < cf_size t -> cls q = k -> cf_act t q l = a) -> (exists q, q < cf_size t /\ cls q = k) -> cf_merged t cls k l = a.
Proof.
  intros t cls k l a H (q & Hq & Ek). unfold cf_merged.
  assert (G : forall L acc, (forall x, In x L -> x < cf_size t) -> (acc = a \/ (acc = 0%N /\ (In q L \/ a = 0%N))) -> fold_left (fun a q => if Nat.eqb (cls q) k && negb (cf_act t q l =? 0)%N then cf_act t q l else a) L acc = a).
  { induction L as [|x L IH]; intros acc HL HA; cbn [fold_left].
    - destruct HA as [->|[-> [[]| ->]]]; reflexivity.
    - apply IH; [intros y Hy; apply HL; right; auto|]. destruct (Nat.eqb_spec (cls x) k) as [Ex|Ex]; cbn [andb].
      + rewrite (H x (HL x (or_introl eq_refl)) Ex). destruct (N.eqb_spec a 0) as [->|Na]; cbn [negb]; [|auto]. destruct HA as [->|[-> _]]; auto.
      + destruct HA as [->|[-> [[->|HA]|HA]]]; auto. congruence. }
  apply G; [intros x Hx; apply in_seq in Hx; lia|]. right. split; auto. left. apply in_seq. lia.
Qed.
Lemma cf_minimize_ok : forall p step init t lab, wf_part p -> shaped (part_size p) t -> stands p step init t lab ->
  exists t1, cf_minimize t (part_size p) = Ok t1 /\ 0 < cf_size t1 /\ exists h, h (cf_init t) = cf_init t1 /\ (forall q, q < cf_size t -> h q < cf_size t1) /\
    (forall k, k < cf_size t1 -> exists q, q < cf_size t /\ h q = k) /\
    forall q c l, q < cf_size t -> In (c, l) (part_list p) -> cf_next t1 (h q) l = h (cf_next t q l) /\ cf_act t1 (h q) l = cf_act t q l.
Proof.
  intros p step init t lab Wp SH (I0 & _ & ST). set (nl := part_size p) in *. destruct (act_class_ok nl t SH) as (C1 & C2 & C3).
  assert (SU : forall l, l < nl -> exists c, In (c, l) (part_list p)) by (intros l Hl; apply part_list_surj; auto).
  destruct (min_run_ok (cf_size t) nl (cf_next t) (cf_prev t) (act_class t) (length (act_rows t)) (fun a b => a < cf_size t /\ b < cf_size t /\ a = b)) as (m & E & M1 & M2 & M3 & M4 & _); auto.
  - lia.
  - intros s l Hs Hl. destruct (SU l Hl) as [c Hc]. apply (ST s c l Hs Hc).
  - intros s l q Hs Hl. unfold cf_prev. rewrite filter_In, in_seq, Nat.eqb_eq. split; intros [H1 H2]; split; auto; lia.
  - intros s l _ _. unfold cf_prev. apply NoDup_filter, seq_NoDup.
  - intros s s' (H1 & H2 & _). auto.
  - intros s s' (_ & _ & ->). reflexivity.
  - intros s s' l (H1 & H2 & ->) Hl. destruct (SU l Hl) as [c Hc]. destruct (ST s' c l H2 Hc) as (X & _). auto.
  - unfold cf_minimize. rewrite E. cbn [bind]. unfold cf_accept. set (cls := m_class m) in *. set (k := m_count m) in *. clear E. clearbody cls k.
    assert (DE : forall q l, q < cf_size t -> l < nl -> cf_dests t cls (cls q) l <> [] /\ forall d ds, cf_dests t cls (cls q) l = d :: ds -> d = cls (cf_next t q l)).
    { intros q l Hq Hl. assert (X : forall x, In x (cf_dests t cls (cls q) l) <-> x = cls (cf_next t q l)).
      { intros x. rewrite dests_in. split.
        - intros (q' & H1 & H2 & ->). apply M4; auto.
        - intros ->. exists q. auto. }
      split.
      - intros Y. assert (Z : In (cls (cf_next t q l)) []) by (rewrite <- Y; apply X; auto). destruct Z.
      - intros d ds Y. apply X. rewrite Y. left. reflexivity. }
    set (hd0 := fun k0 l => match cf_dests t cls k0 l with [] => 0 | d :: _ => d end).
    assert (R1 : all_ok (map (fun k0 => all_ok (map (fun l => match cf_dests t cls k0 l with [] => UB | d :: _ => Ok d end) (seq 0 nl))) (seq 0 k)) = Ok (map (fun k0 => map (hd0 k0) (seq 0 nl)) (seq 0 k))).
    { apply all_ok_map. intros k0 Hk. apply in_seq in Hk. destruct (M2 k0 ltac:(lia)) as (q & Hq & <-). apply all_ok_map. intros l Hl. apply in_seq in Hl.
      destruct (DE q l Hq ltac:(lia)) as [D1 _]. unfold hd0. destruct (cf_dests t cls (cls q) l); [congruence|reflexivity]. }
    rewrite R1. cbn [bind]. eexists. split; [reflexivity|]. unfold cf_size at 1. cbn [cf_rows]. rewrite map_length, seq_length. split; [specialize (M1 (cf_init t) I0); lia|].
    exists cls. cbn [cf_init]. split; [reflexivity|]. split; [intros q Hq; unfold cf_size; cbn [cf_rows]; rewrite map_length, seq_length; auto|].
    split; [intros k1 Hk1; unfold cf_size in Hk1; cbn [cf_rows] in Hk1; rewrite map_length, seq_length in Hk1; auto|].
    intros q c l Hq Hc. assert (Hl : l < nl) by (unfold nl; rewrite <- part_list_length; eapply part_list_idx; eauto). specialize (M1 q Hq).
    assert (NM : forall X (d : X) (g : nat -> X) i n0, i < n0 -> nth i (map g (seq 0 n0)) d = g i).
    { intros X d g i n0 Hi. rewrite (nth_indep _ d (g 0)) by (rewrite map_length, seq_length; auto). rewrite map_nth, seq_nth; auto. }
    split.
    + unfold cf_next. cbn [cf_rows]. rewrite NM by auto. rewrite NM by auto. unfold hd0. destruct (DE q l Hq Hl) as [D1 D2]. destruct (cf_dests t cls (cls q) l) as [|d ds]; [congruence|]. apply (D2 d ds eq_refl).
    + unfold cf_act at 1. cbn [cf_acts]. rewrite NM by auto. rewrite NM by auto. apply merged_eq; [|exists q; auto].
      intros q' Hq' Ec. apply M3 in Ec; auto. apply C3 in Ec; auto. unfold cf_act. rewrite Ec. reflexivity.
Qed.

(** ** The table *)
Definition erase (s : loaded) : loaded := set_jumps s (map (fun j => (fst j, 0%N)) (d_jumps s)).
Definition adv_writes (remap : N -> N) (p : partition) (t : cfsm) : list (nat * nat * N * N) :=
  flat_map (fun from => map (fun ci => (from, cf_next t from (snd ci), fst ci, remap (cf_act t from (snd ci)))) (part_list p)) (seq 0 (cf_size t)).
Lemma adv_fill_eq : forall remap p t s, adv_fill remap p t s = foldm wr (adv_writes remap p t) s.
Proof.
  intros remap p t s. unfold adv_fill, adv_writes. rewrite foldm_flat. apply foldm_ext. intros s' from _. rewrite foldm_map. apply foldm_ext. intros s'' [c l] _. reflexivity.
Qed.
Lemma adv_writes_in : forall remap p t from to c a, In (from, to, c, a) (adv_writes remap p t) <-> from < cf_size t /\ exists l, In (c, l) (part_list p) /\ to = cf_next t from l /\ a = remap (cf_act t from l).
Proof.
  intros remap p t from to c a. unfold adv_writes. rewrite in_flat_map. split.
  - intros (x & H1 & H2). apply in_seq in H1. apply in_map_iff in H2 as ([c' l] & E & H2). cbn [fst snd] in E. injection E as -> <- -> <-. split; [lia|]. exists l. auto.
  - intros (H1 & l & H2 & -> & ->). exists from. split; [apply in_seq; lia|]. apply in_map_iff. exists (c, l). auto.
Qed.
Lemma wf_cls : forall p c c' l, wf_part p -> part_rep p c = Some c' -> In (c', l) (part_list p) -> cls_of p c = l.
Proof.
  intros p c c' l W R H. apply (part_list_in _ _ _ W) in H as [ms H]. unfold cls_of, part_index. unfold part_rep in R. rewrite R, H. reflexivity.
Qed.
(** Wherever each state and class leads *)
Lemma adv_table : forall remap buf p t s0 s, wf_part p -> (forall c, letter c -> exists r, part_rep p c = Some r) -> cf_init t < cf_size t ->
  (forall i c l, i < cf_size t -> In (c, l) (part_list p) -> cf_next t i l < cf_size t) ->
  init_loaded buf (cf_size t) p (cf_init t) 1 = Ok s0 -> adv_fill remap p t s0 = Ok s ->
  loaded_ok (erase s) /\ d_nletters s = N.of_nat (part_size p) /\ d_states s = N.of_nat (cf_size t) /\ d_regexps s = 1%N /\ d_null s = false /\ d_initial s = d_state s (N.of_nat (cf_init t)) /\
  ((forall i l, acts_ok 1 (remap (cf_act t i l))) -> loaded_ok s) /\
  (part_size p <= 256 -> dplaced s -> forall i c, i < cf_size t -> letter c -> d_next s (d_state s (N.of_nat i)) c = Ok (d_state s (N.of_nat (cf_next t i (cls_of p c))), remap (cf_act t i (cls_of p c)))).
Proof.
  intros remap buf p t s0 s W A HI HN E0 E.
  assert (L0c : letter 0%N) by (split; [reflexivity|discriminate]).
  assert (PP : 0 < part_size p) by (destruct (A 0%N L0c) as [r R]; apply (part_rep_rep _ _ _ W) in R; apply (part_list_rep p r W) in R as [l R]; apply (part_list_idx _ W) in R; rewrite part_list_length in R; lia).
  destruct (init_loaded_ok buf (cf_size t) p (cf_init t) 1%N s0 W PP HI ltac:(lia) E0) as (L0 & S0 & NL0 & R0 & B0 & I0 & LT0 & O0 & N0). clear E0.
  rewrite adv_fill_eq in E.
  assert (HW : forall f t0 c a, In (f, t0, c, a) (adv_writes remap p t) -> f < N.to_nat (d_states s0) /\ t0 < N.to_nat (d_states s0)).
  { intros f t0 c a H. apply adv_writes_in in H as (H1 & l & H2 & -> & _). rewrite S0, Nat2N.id. split; auto. eapply HN; eauto. }
  destruct (writes_ok (adv_writes remap p t) s0 (lo_jlen _ L0) (lo_lt _ L0) (nl_pos _ L0)) as (J & EJ & LJ & KJ); [intros f t0 c a H; apply (HW f t0 c a H)|].
  rewrite EJ in E. apply ok_inj in E. subst s.
  assert (LE : loaded_ok (erase (set_jumps s0 J))).
  { pose proof (nl_pos _ L0) as NP. destruct L0 as [A0 A1 A2 A3 A4 A5 A6 A7 A8]. split; cbn; auto.
    - rewrite map_length. congruence.
    - intros q l H1 H2. rewrite nth_error_map. destruct (KJ (q * N.to_nat (d_nletters s0) + l)) as [[Z1 Z2]|(f & t0 & c & a & Z1 & Z2 & Z3)].
      + rewrite LJ, A4. nia.
      + destruct (A5 q l H1 H2) as (q' & a & X1 & X2 & X3). exists q', 0%N. rewrite Z1, X1. splits; auto. apply acts_zero.
      + destruct (HW f t0 c a Z1) as (P1 & P2). exists t0, 0%N. rewrite Z3. splits; auto; [|apply acts_zero].
        assert (f = q). { destruct (slot_lt s0 f c A3 NP P1) as [_ X]. unfold slot in Z2. nia. }
        subst f. reflexivity. }
  assert (C0 : d_count s0 = 1%N) by (unfold d_count; rewrite N0; auto).
  splits; auto.
  - intros HA. apply (writes_loaded (adv_writes remap p t) s0); auto. intros f t0 c a H. destruct (HW _ _ _ _ H). rewrite C0. apply adv_writes_in in H as (_ & l & _ & _ & ->). auto.
  - intros PS P i c Hi Hc. destruct (A c Hc) as [c' R]. pose proof (part_rep_rep _ _ _ W R) as R'.
    assert (CLS : forall a a', part_rep p a = Some a' -> nth (N.to_nat a) (d_letters s0) 0%N = N.of_nat (cls_of p a)).
    { intros a a' Ra. destruct (fill_bytes_ok p a a' W Ra) as [X Y]. rewrite LT0. apply nth_error_nth with (d := 0%N) in X. rewrite X. apply N.mod_small. lia. }
    assert (CE : cls_of p c = cls_of p c') by (unfold cls_of, part_index; unfold part_rep in R, R'; rewrite R, R'; reflexivity).
    assert (SC : slot s0 i c = slot s0 i c') by (unfold slot; rewrite (CLS c c' R), (CLS c' c' R'), CE; reflexivity).
    pose proof (proj2 (part_list_rep p c' W) R') as [l Hl]. assert (CL : cls_of p c = l) by (apply (wf_cls p c c' l W R Hl)). rewrite CL.
    assert (Hi' : i < N.to_nat (d_states s0)) by lia.
    destruct (slot_lt s0 i c' (lo_lt _ L0) (nl_pos s0 L0) Hi') as [SLT _].
    assert (K : nth_error J (slot s0 i c) = Some (shift_of s0 i (cf_next t i l), remap (cf_act t i l))).
    { rewrite SC. destruct (KJ (slot s0 i c')) as [[_ NW]|(f & t0 & a & v & X & Y & Z)].
      - rewrite LJ, (lo_jlen _ L0). exact SLT.
      - exfalso. apply (NW i (cf_next t i l) c' (remap (cf_act t i l))); auto. apply adv_writes_in. split; auto. exists l. auto.
      - destruct (slot_inj s0 _ _ _ _ (lo_lt _ L0) (nl_pos s0 L0) Y) as [-> Y2]. apply adv_writes_in in X as (_ & l' & K1 & -> & ->).
        assert (Ra : part_rep p a = Some a) by (apply (part_list_rep _ a W); eauto).
        rewrite (CLS a a Ra), (CLS c' c' R') in Y2. apply Nat2N.inj in Y2. rewrite <- CE, CL in Y2. rewrite (wf_cls p a a l' W Ra K1) in Y2. subst l'. exact Z. }
    assert (HL : nth_error (d_letters s0) (N.to_nat c) = Some (nth (N.to_nat c) (d_letters s0) 0%N)).
    { apply nth_error_nth'. rewrite (lo_llen _ L0). destruct Hc as [Hc _]. unfold MaxChar in Hc. lia. }
    specialize (HN i c' l Hi Hl).
    unfold d_next. change (d_letters (set_jumps s0 J)) with (d_letters s0). rewrite HL.
    rewrite (trans_at (set_jumps s0 J)) by exact Hi'.
    change (d_jumps (set_jumps s0 J)) with J. change (d_nletters (set_jumps s0 J)) with (d_nletters s0).
    change (i * N.to_nat (d_nletters s0) + N.to_nat (nth (N.to_nat c) (d_letters s0) 0%N)) with (slot s0 i c). rewrite K. cbn [bind].
    change (shift_of s0 i (cf_next t i l)) with (shift_of (erase (set_jumps s0 J)) i (cf_next t i l)).
    pose proof (shift_ok (erase (set_jumps s0 J)) LE P i (cf_next t i l)) as SO. cbn [erase set_jumps d_states] in SO. rewrite S0, Nat2N.id in SO.
    specialize (SO ltac:(lia) ltac:(lia)). f_equal. f_equal. exact SO.
Qed.
