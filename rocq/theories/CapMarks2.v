(** Marked words of repetitions, iterations, alternatives and surrounded automata; what the
    marked automata accept. *)
From Coq Require Import List Bool Arith NArith Lia.
From Verif Require Import Util Spec PartitionModel FsmModel Nfa NfaOps PartitionProofs FsmSem FsmBasics FsmOps FsmOps2 TagFacts AdvNfa CapModel CapSpec CapMarks.
Import ListNotations.
Local Opaque all_letters all_bytes.

(** A new transition whose output is known *)
Lemma medge_of : forall f g p x q p' q', (forall c, edge g p c q -> edge f p' c q') -> output g p q = output f p' q' -> medge g p x q -> medge f p' x q'.
Proof. intros f g p x q p' q' HE HO [(L & X & Y)|(a & A & -> & X & Y)]; [left|right; exists a]; splits; auto; congruence. Qed.
Lemma medge_eps : forall g p x q, (forall c, edge g p c q -> c = Epsilon) -> output g p q = 0%N -> medge g p x q -> x = Epsilon.
Proof. intros g p x q HE HO [(L & X & Y)|(a & A & -> & X & Y)]; [auto|congruence]. Qed.
Lemma medge_mark : forall g p x q v, v <> 0%N -> output g p q = v -> medge g p x q -> x = mark v.
Proof. intros g p x q v V O [(L & X & Y)|(a & A & -> & X & Y)]; congruence. Qed.

(** ** What marked automata accept *)
Lemma capture_accepts : forall f, wf f -> lang_eq (accepts (capture_mark f)) (accepts f).
Proof.
  intros f W. destruct (capture_structure f W) as (Wg & Sg & Ig & Fg & Lg & Ag & Tg & Og & Eg). set (g := capture_mark f) in *. pose proof (wf_init _ W) as WI.
  assert (Bd : forall p c q, edge f p c q -> p < size f /\ q < size f) by (intros; eapply edge_bound; eauto).
  pose (E1 := fun p c q => edge f p c q \/ (p = size f /\ c = Epsilon /\ q = initial f) \/ (p = size f /\ q = size f /\ False)).
  intros w. rewrite !accepts_nfa, Ig, Fg.
  assert (X : nfa_lang (edge g) (size f) (fun q => q = S (size f)) w <-> nfa_lang (edge f) (initial f) (fun q => In q (finals f)) w).
  { rewrite (nfa_extend E1 (edge g) (S (size f)) (size f) (fun q => In q (finals f)) (fun c => c = Epsilon) (fun _ => False)).
    - assert (P : forall u, nfa_lang E1 (size f) (fun q => In q (finals f)) u <-> nfa_lang (edge f) (initial f) (fun q => In q (finals f)) u).
      { intros u. rewrite (nfa_prepend (edge f) E1 (size f) (initial f) (fun q => In q (finals f)) (fun _ => False)); auto; try apply W.
        - split; [intros (a & b & -> & A & B)|intros B; exists [], u; splits; auto]. destruct A as [|? ? [[] _]]; auto.
        - intros; reflexivity. }
      split.
      + intros (u & x & v & -> & A & [[_ ->]|(c & Hc & Hc' & _)] & B); [|congruence]. destruct B as [|? ? [[] _]]. cbn [app]. rewrite app_nil_r. apply P; auto.
      + intros A. exists w, [], []. cbn [app]. rewrite app_nil_r. splits; auto. apply P; auto.
    - intros p c q [H|[(-> & _ & ->)|(-> & _ & [])]]; [apply Bd in H; lia|lia].
    - intros p H. apply (wf_fin _ W) in H. lia.
    - lia.
    - intros p c q. rewrite Eg. unfold E1. replace (size f + 1) with (S (size f)) by lia. intuition. }
  replace (size f + 1) with (S (size f)) by lia. rewrite <- X. split; intros (q & P & Q); exists q; split; auto; [destruct Q as [<- | []]; auto|left; auto].
Qed.
Lemma repetition_accepts : forall f gr, wf f -> lang_eq (accepts (repetition_mark f gr)) (accepts f).
Proof.
  intros f gr W. destruct (repetition_structure f gr W) as (Wg & Sg & Ig & Fg & Lg & Ag & Tg & Og & Eg). set (g := repetition_mark f gr) in *. pose proof (wf_init _ W) as WI.
  assert (Bd : forall p c q, edge f p c q -> p < size f /\ q < size f) by (intros; eapply edge_bound; eauto).
  intros w. rewrite !accepts_nfa, Ig, Fg.
  assert (X : nfa_lang (edge g) (initial f) (fun q => q = size f) w <-> nfa_lang (edge f) (initial f) (fun q => In q (finals f)) w).
  { rewrite (nfa_extend (edge f) (edge g) (size f) (initial f) (fun q => In q (finals f)) (fun c => c = Epsilon) (fun _ => False)); auto; try apply W.
    - split.
      + intros (u & x & v & -> & A & [[_ ->]|(c & Hc & Hc' & _)] & B); [|congruence]. destruct B as [|? ? [[] _]]. cbn [app]. rewrite app_nil_r. auto.
      + intros A. exists w, [], []. cbn [app]. rewrite app_nil_r. splits; auto.
    - intros p c q. rewrite Eg. intuition. }
  rewrite <- X. split; intros (q & P & Q); exists q; split; auto; [destruct Q as [<- | []]; auto|left; auto].
Qed.

(** ** SetRepetitionMark *)
Definition rep_mark (gr : bool) : N := if gr then 4%N else 8%N.
Lemma repetition_outs : forall f gr, wf f -> outs f -> outs (repetition_mark f gr) /\
  forall m, marked (repetition_mark f gr) m -> exists x, m = x ++ [mark (rep_mark gr)] /\ marked f x.
Proof.
  intros f gr W O. destruct (repetition_structure f gr W) as (Wg & Sg & Ig & Fg & Lg & Ag & Tg & Og & Eg). set (g := repetition_mark f gr) in *. pose proof (wf_init _ W) as WI.
  change (if gr then EndRepetition else EndNonGreedyRepetition) with (rep_mark gr) in Og.
  assert (V : rep_mark gr <> 0%N /\ (rep_mark gr < 16)%N) by (destruct gr; split; vm_compute; congruence).
  assert (Out : forall p q, output g p q = if smem p (finals f) && Nat.eqb q (size f) then rep_mark gr else output f p q) by (intros p q; rewrite !output_get, Og, oget_osets; reflexivity).
  assert (Bd : forall p c q, edge f p c q -> p < size f /\ q < size f) by (intros; eapply edge_bound; eauto).
  assert (Old : forall p q, q < size f -> output g p q = output f p q).
  { intros p q L. rewrite Out. destruct (Nat.eqb_spec q (size f)); [lia|]. rewrite andb_false_r. reflexivity. }
  split.
  - split.
    + rewrite Og. apply osets_sorted, O.
    + rewrite Sg, Og. apply okeys_osets; [eapply okeys_mono; [|apply O]; lia| |lia]. intros q Hq. apply (wf_fin _ W) in Hq. lia.
    + intros p q c Hp He. apply Eg in He. destruct He as [He|[? _]]; auto. rewrite Old in Hp by (eapply Bd; eauto). eapply o_eps; eauto.
    + intros p q. rewrite Out. pose proof (o_small _ O p q). destruct (_ && _); [apply V|auto].
    + intros p q Hp. rewrite Fg in Hp. destruct Hp as [<- | []]. rewrite Out.
      destruct (smem (size f) (finals f)) eqn:X; [apply smem_in, (wf_fin _ W) in X; lia|]. cbn [andb]. rewrite output_get. apply (okeys_out (size f)); [apply O|lia].
    + rewrite Ag. discriminate.
  - intros m (q & P & Fq). rewrite Ig in P. rewrite Fg in Fq. destruct Fq as [<- | []].
    destruct (proj1 (nfa_extend (medge f) (fun p c q => medge f p c q \/ (In p (finals f) /\ c = mark (rep_mark gr) /\ q = size f) \/ (p = size f /\ q = size f /\ False))
      (size f) (initial f) (fun q => In q (finals f)) (fun c => c = mark (rep_mark gr)) (fun _ => False) ltac:(intros; eapply medge_bound; eauto) (wf_fin _ W) WI ltac:(intros; reflexivity) m)) as (u & x & v & -> & A & B & C).
    + exists (size f). split; auto. eapply path_mono; [|exact P]. intros a x b X.
      assert (Y : exists c, edge g a c b) by (destruct X as [(_ & X & _)|(? & _ & _ & X & _)]; eauto). destruct Y as [c Y]. apply Eg in Y. destruct Y as [Y|(_ & Fa & ->)].
      * left. eapply (medge_of f g a x b a b); auto; [|apply Old; eapply Bd; eauto]. intros c' Hc'. apply Eg in Hc'. destruct Hc' as [|(_ & _ & ->)]; auto. apply Bd in Y. lia.
      * right; left. splits; auto. eapply (medge_mark g a x (size f)); [apply V| |exact X]. rewrite Out. apply smem_in in Fa. rewrite Fa, Nat.eqb_refl. reflexivity.
    + destruct C as [|? ? [[] _]]. destruct B as [[X _]|(c & _ & -> & ->)]; [exfalso; apply (mark_not_eps (rep_mark gr)); auto|]. exists u. auto.
Qed.

(** ** Iterate *)
Lemma iterate_structure : forall f, wf f -> let g := iterate f in let n := size f in
  size g = n + 2 /\ initial g = n /\ finals g = [n + 1] /\ isAlt g = false /\ tags g = tags f /\ outputs g = outputs f /\
  forall p c q, edge g p c q <-> edge f p c q \/ (c = Epsilon /\ ((p = n /\ (q = n + 1 \/ q = initial f)) \/ (In p (finals f) /\ (q = initial f \/ q = n + 1)))).
Proof.
  intros f W. cbv zeta. unfold iterate. pose proof (wf_init _ W) as WI.
  set (f1 := resize_fsm f (size f + 2)). assert (E1 : size f1 = size f + 2) by apply size_resize. rewrite E1.
  replace (size f + 2 - 2) with (size f) by lia. replace (size f + 2 - 1) with (size f + 1) by lia.
  assert (A1 : adds f1 (connect f1 (size f) (size f + 1) Epsilon) (fun p c q => p = size f /\ c = Epsilon /\ q = size f + 1)) by (apply connect_adds; try lia; reflexivity).
  set (f2 := connect f1 _ _ _) in *. assert (I2 : initial f2 = initial f) by reflexivity. rewrite I2.
  assert (E2 : size f2 = size f + 2) by (rewrite (ad_size _ _ _ A1); auto).
  assert (A2 : adds f2 (connect f2 (size f) (initial f) Epsilon) (fun p c q => p = size f /\ c = Epsilon /\ q = initial f)) by (apply connect_adds; try lia; reflexivity).
  set (f3 := connect f2 _ _ _) in *. assert (I3 : initial f3 = initial f) by reflexivity. rewrite I3.
  assert (E3 : size f3 = size f + 2) by (rewrite (ad_size _ _ _ A2); auto).
  assert (F3 : finals f3 = finals f) by reflexivity.
  assert (A3 : adds f3 (connect_final f3 (initial f) Epsilon) (fun p c q => In p (finals f) /\ c = Epsilon /\ q = initial f)).
  { rewrite <- F3. apply connect_final_adds; try lia; try reflexivity. rewrite F3, E3. intros q Hq; apply (wf_fin _ W) in Hq; lia. }
  set (f4 := connect_final f3 _ _) in *. assert (E4 : size f4 = size f + 2) by (rewrite (ad_size _ _ _ A3); auto).
  assert (F4 : finals f4 = finals f) by (rewrite (ad_fin _ _ _ A3); auto).
  assert (A4 : adds f4 (connect_final f4 (size f + 1) Epsilon) (fun p c q => In p (finals f) /\ c = Epsilon /\ q = size f + 1)).
  { rewrite <- F4. apply connect_final_adds; try lia; try reflexivity. rewrite F4, E4. intros q Hq; apply (wf_fin _ W) in Hq; lia. }
  pose proof (adds_trans _ _ _ _ _ (adds_trans _ _ _ _ _ (adds_trans _ _ _ _ _ A1 A2) A3) A4) as A. cbn beta in A. clearbody f4. clear A1 A2 A3 A4.
  set (f5 := connect_final f4 _ _) in *. set (h := set_determined _ false).
  assert (Lh : letters h = letters f) by (change (letters f5 = letters f); rewrite (ad_let _ _ _ A); reflexivity).
  assert (Sh : size h = size f + 2) by (change (size f5 = size f + 2); rewrite (ad_size _ _ _ A); auto).
  destruct (eps_added f 2 f5 _ W A) as (R & C & Bc & Raw); [intuition|].
  splits; auto.
  - change (tags f5 = tags f). rewrite (ad_tags _ _ _ A). reflexivity.
  - change (outputs f5 = outputs f). rewrite (ad_out _ _ _ A). reflexivity.
  - apply (eps_edge f h Lh W). intros p c q. etransitivity; [apply (Raw p c q)|]. intuition.
Qed.
Lemma output_same : forall f g p q, outputs g = outputs f -> output g p q = output f p q.
Proof. intros f g p q E. rewrite !output_get, E. reflexivity. Qed.
Lemma iterate_outs : forall f, wf f -> outs f -> outs (iterate f) /\ forall m, marked (iterate f) m -> L_star (marked f) m.
Proof.
  intros f W O. destruct (iterate_structure f W) as (Sg & Ig & Fg & Ag & Tg & Og & Eg). set (g := iterate f) in *. pose proof (wf_init _ W) as WI.
  assert (Bd : forall p c q, edge f p c q -> p < size f /\ q < size f) by (intros; eapply edge_bound; eauto).
  pose proof (fun p q => output_same f g p q Og) as Out.
  split.
  - split.
    + rewrite Og. apply O.
    + rewrite Sg, Og. eapply okeys_mono; [|apply O]. lia.
    + intros p q c Hp He. rewrite Out in Hp. apply Eg in He. destruct He as [He|[? _]]; auto. eapply o_eps; eauto.
    + intros p q. rewrite Out. apply O.
    + intros p q Hp. rewrite Fg in Hp. destruct Hp as [<- | []]. rewrite Out, output_get. apply (okeys_out (size f)); [apply O|lia].
    + rewrite Ag. discriminate.
  - intros m (q & P & Fq). rewrite Ig in P. rewrite Fg in Fq. destruct Fq as [<- | []].
    apply (nfa_star (medge f) (fun p c q => medge f p c q \/ (c = Epsilon /\ ((p = size f /\ (q = size f + 1 \/ q = initial f)) \/ (In p (finals f) /\ (q = initial f \/ q = size f + 1)))))
      (size f) (size f) (size f + 1) (initial f) (fun q => In q (finals f))); try lia; auto; try apply W.
    + intros; eapply medge_bound; eauto.
    + intros; reflexivity.
    + exists (size f + 1). split; auto. eapply path_mono; [|exact P]. intros a x b X.
      assert (G : forall c, edge g a c b -> edge f a c b \/ (c = Epsilon /\ output g a b = 0%N /\ ((a = size f /\ (b = size f + 1 \/ b = initial f)) \/ (In a (finals f) /\ (b = initial f \/ b = size f + 1))))).
      { intros c Hc. apply Eg in Hc. destruct Hc as [|(-> & Y)]; auto. right. splits; auto. rewrite Out. destruct Y as [[-> _]|[Fa _]]; [rewrite output_get; apply (okeys_out (size f)); [apply O|lia]|apply O; auto]. }
      destruct X as [(L & X & Y)|(v & V & -> & X & Y)]; apply G in X; destruct X as [X|(Z1 & Z2 & Z3)]; auto.
      * left; left. splits; auto. rewrite <- Out; auto.
      * left; right. exists v. splits; auto. rewrite <- Out; auto.
      * congruence.
Qed.

(** ** Surround *)
Lemma surround_structure : forall f, wf f -> uncompressed f -> let g := surround f in let n := size f in
  wf g /\ uncompressed g /\ size g = n + 2 /\ initial g = n /\ finals g = [n + 1] /\ tags g = tags f /\ outputs g = outputs f /\
  forall p c q, edge g p c q <-> edge f p c q \/ (p = n /\ q = n /\ (c < MaxChar)%N) \/ (p = n /\ c = Epsilon /\ q = initial f) \/
    (In p (finals f) /\ c = Epsilon /\ q = n + 1) \/ (p = n + 1 /\ q = n + 1 /\ (c < MaxChar)%N).
Proof.
  intros f W U. cbv zeta. destruct (prepend_edge f W U) as (W1 & U1 & S1 & I1 & F1 & T1 & E1).
  assert (O1 : outputs (prepend_anything f) = outputs f).
  { unfold prepend_anything. cbn [set_determined set_initial connect clear_hints set_isAlt set_trans outputs].
    assert (X : forall l g s, outputs (fold_left (fun g c => connect g s s c) l g) = outputs g) by (induction l as [|x l IH]; intros g s; cbn [fold_left]; auto; rewrite IH; reflexivity).
    rewrite X. reflexivity. }
  pose proof (append_anything_appended _ W1) as A. pose proof (appended_edge _ _ _ _ A) as EA. destruct (surround_ok f W) as (Wg & Ug & _). specialize (Ug U). unfold surround in *.
  set (h := prepend_anything f) in *.
  assert (TA : tags (append_anything h) = tags h /\ outputs (append_anything h) = outputs h).
  { unfold append_anything.
    assert (X : forall l g s c, tags (fold_left (fun g q => connect g q s c) l g) = tags g /\ outputs (fold_left (fun g q => connect g q s c) l g) = outputs g).
    { induction l as [|x l IH]; intros g s c; cbn [fold_left]; auto. destruct (IH (connect g x s c) s c) as [-> ->]. auto. }
    assert (Y : forall l g s, tags (fold_left (fun g c => connect g s s c) l g) = tags g /\ outputs (fold_left (fun g c => connect g s s c) l g) = outputs g).
    { induction l as [|x l IH]; intros g s; cbn [fold_left]; auto. destruct (IH (connect g s s x) s) as [-> ->]. auto. }
    destruct (Y all_letters (resize_fsm h (size h + 1)) (size h)) as [Y1 Y2]. set (a := fold_left _ all_letters _) in *. clearbody a.
    destruct (X (finals a) a (size h) Epsilon) as [X1 X2]. fold (connect_final a (size h) Epsilon) in X1, X2.
    split; [change (tags (connect_final a (size h) Epsilon) = tags h); transitivity (tags a); [exact X1|exact Y1]|change (outputs (connect_final a (size h) Epsilon) = outputs h); transitivity (outputs a); [exact X2|exact Y2]]. }
  splits; auto.
  - rewrite (ap_size _ _ _ _ A), S1. lia.
  - rewrite (ap_init _ _ _ _ A). exact I1.
  - rewrite (ap_fin _ _ _ _ A), S1. f_equal. lia.
  - destruct TA as [-> _]. exact T1.
  - destruct TA as [_ ->]. exact O1.
  - intros p c q. rewrite EA, E1, F1, S1. rewrite erep_empty by exact U1. replace (S (size f)) with (size f + 1) by lia. tauto.
Qed.

(** ** Alternatives *)
Definition or_case (f rhs g : fsm) : Prop := let n := size f in
  (isAlt f = false /\ isAlt rhs = false /\ size g = n + size rhs + 1 /\ initial g = n + size rhs /\
    forall p c q, edge g p c q <-> edge f p c q \/ shifted f rhs p c q \/ (p = n + size rhs /\ c = Epsilon /\ (q = initial f \/ q = initial rhs + n))) \/
  (isAlt f = true /\ size g = n + size rhs /\ initial g = initial f /\
    forall p c q, edge g p c q <-> edge f p c q \/ shifted f rhs p c q \/ (p = initial f /\ c = Epsilon /\ q = initial rhs + n)) \/
  (isAlt rhs = true /\ size g = n + size rhs /\ initial g = initial rhs + n /\
    forall p c q, edge g p c q <-> edge f p c q \/ shifted f rhs p c q \/ (p = initial rhs + n /\ c = Epsilon /\ q = initial f)) \/
  (isAlt f = true /\ isAlt rhs = true /\ size g = n + size rhs /\ initial g = initial f /\
    forall p c q, edge g p c q <-> edge f p c q \/ (shifted f rhs p c q /\ p <> initial rhs + n) \/ (p = initial f /\ c = Epsilon /\ exists t, edge rhs (initial rhs) Epsilon t /\ q = t + n)).
Lemma or_structure : forall f rhs, wf f -> wf rhs -> let g := fsm_or f rhs in let n := size f in
  isAlt g = true /\ tags g = import_tags n (tags rhs) (tags f) /\ outputs g = import_outputs n (outputs rhs) (outputs f) /\
  (forall x, In x (finals g) <-> In x (finals f) \/ exists q', x = q' + n /\ In q' (finals rhs)) /\ or_case f rhs g.
Proof.
  intros f rhs W1 W2. cbv zeta. pose proof (import_ok f rhs W1 W2) as I. destruct (fsm_or_ok f rhs W1 W2) as (_ & Ug & _).
  assert (RE : forall p c q, edge (fsm_or f rhs) p c q <-> raw (fsm_or f rhs) p c q) by (intros; apply raw_uncompressed, Ug). clear Ug.
  unfold or_case. cbv zeta. setoid_rewrite RE. clear RE. unfold fsm_or.
  pose proof (wf_init _ W1) as I1. pose proof (wf_init _ W2) as I2.
  set (n := size f) in *. set (f1 := import_fsm f rhs) in *.
  set (f2 := set_finals f1 (fold_left (fun s q => sadd (q + n) s) (finals rhs) (finals f1))).
  assert (R2 : forall p c q, raw f2 p c q <-> edge f p c q \/ shifted f rhs p c q) by apply (im_raw _ _ _ I).
  assert (S2 : size f2 = n + size rhs) by apply (im_size _ _ _ I).
  assert (N2 : initial f2 = initial f) by apply (im_init _ _ _ I).
  assert (O2 : rows_ok f2) by apply (im_rows _ _ _ I).
  assert (F2 : forall x, In x (finals f2) <-> In x (finals f) \/ exists q', x = q' + n /\ In q' (finals rhs)).
  { intros x. change (finals f2) with (fold_left (fun s q => sadd (q + n) s) (finals rhs) (finals f1)).
    rewrite sadd_shift_fold, (im_fin _ _ _ I). split; (intros [H|[q [H1 H2]]]; [auto|right; eauto]). }
  assert (T2 : tags f2 = import_tags n (tags rhs) (tags f)) by reflexivity.
  assert (P2 : outputs f2 = import_outputs n (outputs rhs) (outputs f)) by reflexivity.
  clearbody f2. clear I f1.
  assert (HB1 : forall p c q, edge f p c q -> p < n /\ q < n) by (intros; eapply edge_bound; eauto).
  assert (HB2 : forall p c q, edge rhs p c q -> p < size rhs /\ q < size rhs) by (intros; eapply edge_bound; eauto).
  assert (K : forall g (P : Prop), finals g = finals f2 -> tags g = tags f2 -> outputs g = outputs f2 -> P ->
    isAlt (set_isAlt (set_determined g false) true) = true /\ tags (set_isAlt (set_determined g false) true) = import_tags n (tags rhs) (tags f) /\
    outputs (set_isAlt (set_determined g false) true) = import_outputs n (outputs rhs) (outputs f) /\
    (forall x, In x (finals (set_isAlt (set_determined g false) true)) <-> In x (finals f) \/ exists q', x = q' + n /\ In q' (finals rhs)) /\ P).
  { intros g P G1 G2 G3 HP. splits; auto; [change (tags g = import_tags n (tags rhs) (tags f)); congruence|change (outputs g = import_outputs n (outputs rhs) (outputs f)); congruence|].
    intros x. change (finals (set_isAlt (set_determined g false) true)) with (finals g). rewrite G1. apply F2. }
  destruct (isAlt f) eqn:AF, (isAlt rhs) eqn:AR; cbn [negb andb].
  - destruct (wf_alt _ W1 AF) as [a1 [a2 a3]]. destruct (wf_alt _ W2 AR) as [b1 [b2 b3]].
    assert (HD : forall t, In t (destinations rhs (initial rhs) Epsilon) <-> edge rhs (initial rhs) Epsilon t).
    { intros t. rewrite edge_Epsilon by apply W2. unfold destinations, translate. rewrite N.eqb_refl, orb_true_r. reflexivity. }
    destruct (move_fan n (initial f) (initial rhs) (destinations rhs (initial rhs) Epsilon) f2) as [C1 [C2 [C3 [C4 [C5 C6]]]]]; auto.
    { rewrite S2; lia. }
    { intros t Ht. apply HD, HB2 in Ht. rewrite S2; lia. }
    { unfold n; lia. }
    assert (TO : forall tos g, tags (fold_left (fun g to => disconnect (connect g (initial g) (to + n) Epsilon) (initial rhs + n) (to + n) Epsilon) tos g) = tags g /\
      outputs (fold_left (fun g to => disconnect (connect g (initial g) (to + n) Epsilon) (initial rhs + n) (to + n) Epsilon) tos g) = outputs g).
    { induction tos as [|t tos IH]; intros g; cbn [fold_left]; auto. destruct (IH (disconnect (connect g (initial g) (t + n) Epsilon) (initial rhs + n) (t + n) Epsilon)) as [-> ->]. auto. }
    destruct (TO (destinations rhs (initial rhs) Epsilon) f2) as [T3 P3]. clear TO.
    set (g := fold_left _ _ f2) in *. clearbody g. apply K; auto.
    right; right; right. splits; auto; [change (size g = n + size rhs); lia|change (initial g = initial f); congruence|].
    intros p c q. change (raw (set_isAlt (set_determined g false) true) p c q) with (raw g p c q). rewrite C6, R2. setoid_rewrite HD. split.
    + intros [[[H|H] H1]|H]; auto. right; left. split; auto.
      intros ->. destruct H as [p' [q' [E [-> H]]]]. fold n in E. assert (p' = initial rhs) by lia. subst p'.
      assert (c = Epsilon) by exact (alt_edge_out rhs W2 AR _ _ H). subst c. apply H1. splits; auto. exists q'. split; auto.
    + intros [H|[[H H1]|H]]; auto.
      * left. split; auto. intros [-> _]. apply HB1 in H. lia.
      * left. split; [right; exact H|]. intros [E _]; auto.
  - assert (A : adds f2 (connect f2 (initial f) (n + initial rhs) Epsilon) (fun p c q => p = initial f /\ c = Epsilon /\ q = n + initial rhs)) by (apply connect_adds; [lia|lia|reflexivity]).
    rewrite N2. set (g := connect f2 _ _ _) in *. clearbody g. apply K; [apply (ad_fin _ _ _ A)|apply (ad_tags _ _ _ A)|apply (ad_out _ _ _ A)|].
    right; left. splits; auto; [change (size g = n + size rhs); rewrite (ad_size _ _ _ A); auto|change (initial g = initial f); rewrite (ad_init _ _ _ A); auto|].
    intros p c q. change (raw (set_isAlt (set_determined g false) true) p c q) with (raw g p c q). rewrite (ad_raw _ _ _ A), R2, (Nat.add_comm (initial rhs)). tauto.
  - assert (A : adds f2 (connect f2 (n + initial rhs) (initial f) Epsilon) (fun p c q => p = n + initial rhs /\ c = Epsilon /\ q = initial f)) by (apply connect_adds; [lia|lia|reflexivity]).
    rewrite N2. set (g := connect f2 _ _ _) in *. clearbody g. apply K; [apply (ad_fin _ _ _ A)|apply (ad_tags _ _ _ A)|apply (ad_out _ _ _ A)|].
    right; right; left. splits; auto; [change (size g = n + size rhs); rewrite (ad_size _ _ _ A); auto|].
    intros p c q. change (raw (set_isAlt (set_determined (set_initial g (initial rhs + n)) false) true) p c q) with (raw g p c q). rewrite (ad_raw _ _ _ A), R2, (Nat.add_comm (initial rhs)). tauto.
  - set (g1 := resize_fsm f2 (size f2 + 1)).
    assert (S1 : size g1 = size f2 + 1) by apply size_resize.
    rewrite S1. replace (size f2 + 1 - 1) with (size f2) by lia.
    change (initial g1) with (initial f2). rewrite N2.
    assert (A1 : adds g1 (connect g1 (size f2) (initial f) Epsilon) (fun p c q => p = size f2 /\ c = Epsilon /\ q = initial f)) by (apply connect_adds; [lia|lia|reflexivity]).
    assert (A2 : adds (connect g1 (size f2) (initial f) Epsilon)
       (connect (connect g1 (size f2) (initial f) Epsilon) (size f2) (n + initial rhs) Epsilon)
       (fun p c q => p = size f2 /\ c = Epsilon /\ q = n + initial rhs)).
    { apply connect_adds; [| |reflexivity]; rewrite (ad_size _ _ _ A1); lia. }
    pose proof (adds_trans _ _ _ _ _ A1 A2) as A. cbn beta in A. clear A1 A2.
    set (g := connect (connect _ _ _ _) _ _ _) in *. clearbody g. apply K; [apply (ad_fin _ _ _ A)|apply (ad_tags _ _ _ A)|apply (ad_out _ _ _ A)|].
    left. splits; auto; [change (size g = n + size rhs + 1); rewrite (ad_size _ _ _ A); lia|].
    intros p c q. change (raw (set_isAlt (set_determined (set_initial g (size f2)) false) true) p c q) with (raw g p c q). rewrite (ad_raw _ _ _ A).
    unfold g1. rewrite raw_resize by lia. rewrite R2, S2, (Nat.add_comm (initial rhs)). tauto.
Qed.

Lemma import_output : forall f rhs p y, outs f -> outs rhs ->
  oget (import_outputs (size f) (outputs rhs) (outputs f)) p y = if (size f <=? p) && (size f <=? y) then output rhs (p - size f) (y - size f) else output f p y.
Proof.
  intros f rhs p y O1 O2. rewrite !output_get. unfold oget. rewrite orow_import by apply O2. destruct (mfind y (orow (outputs f) p)) eqn:E.
  - apply (o_keys _ O1) in E. destruct (Nat.leb_spec (size f) p); [lia|]. reflexivity.
  - destruct (_ && _); reflexivity.
Qed.
Lemma fsm_or_outs : forall f rhs, wf f -> wf rhs -> outs f -> outs rhs -> outs (fsm_or f rhs) /\ forall m, marked (fsm_or f rhs) m -> marked f m \/ marked rhs m.
Proof.
  intros f rhs W1 W2 O1 O2. destruct (or_structure f rhs W1 W2) as (Ag & Tg & Og & Fg & Cg). set (g := fsm_or f rhs) in *.
  assert (B1 : forall p c q, edge f p c q -> p < size f /\ q < size f) by (intros; eapply edge_bound; eauto).
  assert (B2 : forall p c q, edge rhs p c q -> p < size rhs /\ q < size rhs) by (intros; eapply edge_bound; eauto).
  pose proof (wf_init _ W1) as I1. pose proof (wf_init _ W2) as I2.
  assert (Out : forall p y, output g p y = if (size f <=? p) && (size f <=? y) then output rhs (p - size f) (y - size f) else output f p y) by (intros; rewrite output_get, Og; apply import_output; auto).
  assert (Own : forall p y, y < size f -> output g p y = output f p y).
  { intros p y L. rewrite Out. destruct (Nat.leb_spec (size f) y); [lia|]. rewrite andb_false_r. reflexivity. }
  assert (Cross : forall p y, p < size f -> size f <= y -> output g p y = 0%N).
  { intros p y L L'. rewrite Out. destruct (Nat.leb_spec (size f) p); [lia|]. cbn [andb]. rewrite output_get. apply (okeys_out (size f)); [apply O1|lia]. }
  assert (Cross' : forall p y, size f <= p -> y < size f -> output g p y = 0%N).
  { intros p y L L'. rewrite Own by auto. rewrite output_get. apply (okeys_out (size f)); [apply O1|lia]. }
  assert (Sh : forall p y, output g (p + size f) (y + size f) = output rhs p y).
  { intros p y. rewrite Out. destruct (Nat.leb_spec (size f) (p + size f)); [|lia]. destruct (Nat.leb_spec (size f) (y + size f)); [|lia]. cbn [andb]. f_equal; lia. }
  assert (Far : forall y, output g (size f + size rhs) y = 0%N).
  { intros y. rewrite Out. destruct (Nat.leb_spec (size f) y).
    - destruct (Nat.leb_spec (size f) (size f + size rhs)); [|lia]. cbn [andb]. rewrite output_get. apply (okeys_out (size rhs)); [apply O2|lia].
    - rewrite andb_false_r. rewrite output_get. apply (okeys_out (size f)); [apply O1|lia]. }
  (* the kinds of transitions *)
  assert (M1 : forall p c q, edge f p c q -> output g p q = output f p q) by (intros p c q H; apply Own; eapply B1; eauto).
  assert (MM : forall p x q, medge g p x q -> forall X : Prop, (forall c, edge g p c q -> edge f p c q \/ shifted f rhs p c q \/ (c = Epsilon /\ output g p q = 0%N /\ X)) ->
     medge f p x q \/ (exists p' q', p = p' + size f /\ q = q' + size f /\ medge rhs p' x q') \/ (x = Epsilon /\ X)).
  { intros p x q [(L & He & Ho)|(a & Ha & -> & He & Ho)] X HX; apply HX in He; destruct He as [He|[(p' & q' & Ep & Eq & He)|(Ec & Z & HX')]]; auto.
    - left; left. splits; auto. rewrite <- (M1 _ _ _ He). auto.
    - subst p q. right; left. exists p', q'. rewrite Sh in Ho. splits; auto. left; auto.
    - left; right. exists a. splits; auto. rewrite <- (M1 _ _ _ He). auto.
    - subst p q. right; left. exists p', q'. rewrite Sh in Ho. splits; auto. right; eauto.
    - congruence. }
  assert (Bm1 : forall p c q, medge f p c q -> p < size f /\ q < size f) by (intros; eapply medge_bound; eauto).
  assert (Bm2 : forall p c q, medge rhs p c q -> p < size rhs /\ q < size rhs) by (intros; eapply medge_bound; eauto).
  assert (In1 : forall r, wf r -> isAlt r = true -> forall p c, ~ medge r p c (initial r)).
  { intros r Wr Ar p c [(_ & X & _)|(? & _ & _ & X & _)]; eapply (alt_edge_in r); eauto. }
  assert (Oe : forall p q c, output g p q <> 0%N -> edge f p c q \/ shifted f rhs p c q -> c = Epsilon).
  { intros p q c Hp [He|(p' & q' & -> & -> & He)]; [rewrite (M1 _ _ _ He) in Hp; eapply (o_eps f O1); eauto|rewrite Sh in Hp; eapply (o_eps rhs O2); eauto]. }
  assert (Of : forall p q, In p (finals g) -> output g p q = 0%N).
  { intros p q Hp. apply Fg in Hp as [Hp|(p' & -> & Hp)].
    - rewrite Out. pose proof (wf_fin _ W1 _ Hp). destruct (Nat.leb_spec (size f) p); [lia|]. apply O1; auto.
    - destruct (Nat.leb_spec (size f) q); [|apply Cross'; lia]. replace q with (q - size f + size f) by lia. rewrite Sh. apply O2; auto. }
  assert (Osm : forall p q, (output g p q < 16)%N) by (intros p q; rewrite Out; destruct (_ && _); [apply O2|apply O1]).
  assert (Oso : msorted (outputs g)) by (rewrite Og; apply import_sorted, O1).
  assert (Ok : forall k, size f + size rhs <= k -> okeys k (outputs g)).
  { intros k L p q x. rewrite Og, orow_import by apply O2. destruct (mfind q (orow (outputs f) p)) eqn:E; [intros _; apply (o_keys _ O1) in E; lia|].
    destruct (Nat.leb_spec (size f) p); [|discriminate]. destruct (Nat.leb_spec (size f) q); [|discriminate]. cbn [andb]. intros X. apply (o_keys _ O2) in X. lia. }
  assert (Lang : forall (E : nat -> N -> nat -> Prop) s m, initial g = s -> (forall p x q, medge g p x q -> E p x q) ->
     lang_eq (nfa_lang E s (fun q => In q (finals f) \/ exists q', q = q' + size f /\ In q' (finals rhs))) (L_or (marked f) (marked rhs)) -> marked g m -> marked f m \/ marked rhs m).
  { intros E s m Hs HE HL (q & P & Q). apply HL. exists q. split; [|apply Fg; auto]. rewrite <- Hs. eapply path_mono; [|exact P]. exact HE. }
  assert (Oalt : forall r, In r [initial f] -> isAlt f = true -> forall q, output g r q = 0%N).
  { intros r [<- | []] AF q. destruct (Nat.leb_spec (size f) q); [apply Cross; lia|]. rewrite Own by lia. apply (o_alt _ O1); auto. }
  destruct Cg as [(AF & AR & Sg & Ig & Eg)|[(AF & Sg & Ig & Eg)|[(AR & Sg & Ig & Eg)|(AF & AR & Sg & Ig & Eg)]]].
  - split; [split; auto|].
    + apply Ok. lia.
    + intros p q c Hp He. apply Eg in He. destruct He as [He|[He|(_ & -> & _)]]; auto; eapply Oe; eauto.
    + intros _ q. rewrite Ig. apply Far.
    + intros m Hm. refine (Lang _ _ m Ig _ _ Hm); [|apply (nfa_union_fresh (medge f) (medge rhs) (fun p c q => medge f p c q \/ (exists p' q', p = p' + size f /\ q = q' + size f /\ medge rhs p' c q') \/ (p = size f + size rhs /\ c = Epsilon /\ (q = initial f \/ q = initial rhs + size f))) (size f) (initial f) (initial rhs) (fun q => In q (finals f)) (fun q => In q (finals rhs)))]; auto; try lia.
      * intros p x q H. destruct (MM p x q H (p = size f + size rhs /\ (q = initial f \/ q = initial rhs + size f))) as [Y|[Y|[Y1 [Y2 Y3]]]]; auto.
        intros c He. apply Eg in He. destruct He as [He|[He|(-> & -> & Y)]]; auto 6.
      * apply W1.
      * intros p c q. split; intros H; apply Bm2 in H; lia.
      * intros H. apply (wf_fin _ W2) in H. lia.
      * intros; reflexivity.
  - split; [split; auto|].
    + apply Ok. lia.
    + intros p q c Hp He. apply Eg in He. destruct He as [He|[He|(_ & -> & _)]]; auto; eapply Oe; eauto.
    + intros _. rewrite Ig. apply Oalt; auto. left; auto.
    + intros m Hm. refine (Lang _ _ m Ig _ _ Hm); [|apply (nfa_union_left (medge f) (medge rhs) (fun p c q => medge f p c q \/ (exists p' q', p = p' + size f /\ q = q' + size f /\ medge rhs p' c q') \/ (p = initial f /\ c = Epsilon /\ q = initial rhs + size f)) (size f) (initial f) (initial rhs) (fun q => In q (finals f)) (fun q => In q (finals rhs)))]; auto; try lia.
      * intros p x q H. destruct (MM p x q H (p = initial f /\ q = initial rhs + size f)) as [Y|[Y|[Y1 [Y2 Y3]]]]; auto.
        intros c He. apply Eg in He. destruct He as [He|[He|(-> & -> & ->)]]; auto. right; right. splits; auto. apply Cross; lia.
      * apply W1.
      * intros; reflexivity.
  - split; [split; auto|].
    + apply Ok. lia.
    + intros p q c Hp He. apply Eg in He. destruct He as [He|[He|(_ & -> & _)]]; auto; eapply Oe; eauto.
    + intros _ q. rewrite Ig. destruct (Nat.leb_spec (size f) q); [|apply Cross'; lia]. replace q with (q - size f + size f) by lia. rewrite Sh. apply (o_alt _ O2); auto.
    + intros m Hm. refine (Lang _ _ m Ig _ _ Hm); [|apply (nfa_union_right (medge f) (medge rhs) (fun p c q => medge f p c q \/ (exists p' q', p = p' + size f /\ q = q' + size f /\ medge rhs p' c q') \/ (p = initial rhs + size f /\ c = Epsilon /\ q = initial f)) (size f) (initial f) (initial rhs) (fun q => In q (finals f)) (fun q => In q (finals rhs)))]; auto; try lia.
      * intros p x q H. destruct (MM p x q H (p = initial rhs + size f /\ q = initial f)) as [Y|[Y|[Y1 [Y2 Y3]]]]; auto.
        intros c He. apply Eg in He. destruct He as [He|[He|(-> & -> & ->)]]; auto. right; right. splits; auto. apply Cross'; lia.
      * apply W1.
      * intros; reflexivity.
  - destruct (wf_alt _ W2 AR) as [b1 [b2 b3]]. split; [split; auto|].
    + apply Ok. lia.
    + intros p q c Hp He. apply Eg in He. destruct He as [He|[[He _]|(_ & -> & _)]]; auto; eapply Oe; eauto.
    + intros _. rewrite Ig. apply Oalt; auto. left; auto.
    + intros m Hm. refine (Lang _ _ m Ig _ _ Hm); [|apply (nfa_union_both (medge f) (medge rhs) (fun p c q => medge f p c q \/ ((exists p' q', p = p' + size f /\ q = q' + size f /\ medge rhs p' c q') /\ p <> initial rhs + size f) \/ (p = initial f /\ c = Epsilon /\ exists t, medge rhs (initial rhs) Epsilon t /\ q = t + size f)) (size f) (initial f) (initial rhs) (fun q => In q (finals f)) (fun q => In q (finals rhs)))]; auto; try lia.
      * intros p x q H.
        assert (NR : forall p' q', p = p' + size f -> q = q' + size f -> medge rhs p' x q' -> p <> initial rhs + size f).
        { intros p' q' -> -> Hm' E. assert (p' = initial rhs) by lia. subst p'.
          assert (Y : exists c, edge g (initial rhs + size f) c (q' + size f)) by (destruct H as [(_ & X & _)|(? & _ & _ & X & _)]; eauto). destruct Y as [c Y]. apply Eg in Y.
          destruct Y as [Y|[[_ Y]|(Y & _)]]; [apply B1 in Y; lia|congruence|lia]. }
        destruct (MM p x q H (p = initial f /\ exists t, edge rhs (initial rhs) Epsilon t /\ q = t + size f)) as [Y|[(p' & q' & -> & -> & Y)|[Y1 [Y2 (t & Y3 & Y4)]]]]; auto.
        -- intros c He. apply Eg in He. destruct He as [He|[[He _]|(-> & -> & t & Y & ->)]]; auto. right; right. splits; auto; [|eauto]. apply Cross; lia.
        -- right; left. split; [eauto|]. eapply NR; eauto.
        -- right; right. splits; auto. exists t. split; auto. left. splits; auto; [reflexivity|]. apply (o_alt _ O2); auto.
      * apply W1.
      * intros c q [(_ & X & Y)|(a & Ha & _ & X & Y)]; [exact (alt_edge_out rhs W2 AR _ _ X)|]. rewrite (o_alt _ O2 AR) in Y. congruence.
      * intros; reflexivity.
Qed.
