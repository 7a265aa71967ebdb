(** The marked words of the automata that the capture feature builds. *)
From Coq Require Import List Bool Arith NArith Lia.
From Verif Require Import Util Spec PartitionModel FsmModel Nfa NfaOps PartitionProofs FsmSem FsmBasics FsmOps FsmOps2 TagFacts AdvNfa CapModel CapSpec.
Import ListNotations.
Local Opaque all_letters all_bytes.

Lemma eps_added : forall f k g S, wf f -> adds (resize_fsm f (size f + k)) g S -> (forall p c q, S p c q -> c = Epsilon) ->
  rows_ok g /\ coherent g /\ bcoherent g /\ forall p c q, raw g p c q <-> raw f p c q \/ S p c q.
Proof.
  intros f k g S W A HS. set (f1 := resize_fsm f (size f + k)) in *.
  assert (Ef1 : forall p c q, raw f1 p c q <-> raw f p c q) by (intros; apply raw_resize; lia).
  assert (Cf1 : coherent f1).
  { intros p c r Hr Hp q. rewrite !Ef1. unfold f1 in Hp. rewrite pres_resize in Hp by lia. apply (wf_coh _ W p c r Hr Hp). }
  assert (Bf1 : bcoherent f1).
  { intros q c r Hr [p0 Hp] p. rewrite !Ef1. rewrite Ef1 in Hp. apply (wf_bcoh _ W q c r Hr). eauto. }
  splits.
  - apply (ad_rows _ _ _ A). apply rows_ok_resize; [lia|apply W].
  - eapply adds_eps_coherent; [exact A|apply W|exact Cf1|exact HS].
  - eapply adds_eps_bcoherent; [exact A|apply W|exact Bf1|exact HS].
  - intros p c q. etransitivity; [apply (ad_raw _ _ _ A)|]. rewrite Ef1. reflexivity.
Qed.

(** ** Outputs *)
Definition orow (o : smap nat (smap nat N)) (p : nat) : smap nat N := match mfind p o with Some m => m | None => [] end.
Definition oget (o : smap nat (smap nat N)) (p q : nat) : N := match mfind q (orow o p) with Some x => x | None => 0%N end.
Lemma output_get : forall f p q, output f p q = oget (outputs f) p q.
Proof. intros. unfold output, oget, orow. destruct (mfind p (outputs f)); reflexivity. Qed.
Definition oset (p q : nat) (v : N) (o : smap nat (smap nat N)) := mset p (mset q v (orow o p)) o.
Lemma set_output_set : forall f p q v, set_output f p q v = set_outputs f (oset p q v (outputs f)).
Proof. reflexivity. Qed.
Lemma orow_oset : forall p q v o a, orow (oset p q v o) a = if Nat.eqb a p then mset q v (orow o p) else orow o a.
Proof. intros. unfold orow at 1, oset. rewrite mfind_mset. change (@keqb nat _ a p) with (Nat.eqb a p). destruct (Nat.eqb a p); reflexivity. Qed.
Lemma oget_oset : forall p q v o a b, oget (oset p q v o) a b = if Nat.eqb a p && Nat.eqb b q then v else oget o a b.
Proof.
  intros. unfold oget at 1. rewrite orow_oset. destruct (Nat.eqb_spec a p) as [->|]; [|reflexivity]. rewrite mfind_mset. change (@keqb nat _ b q) with (Nat.eqb b q).
  cbn [andb]. destruct (Nat.eqb b q); reflexivity.
Qed.
(** the states of all entries are below [k] *)
Definition okeys (k : nat) (o : smap nat (smap nat N)) : Prop := forall p q x, mfind q (orow o p) = Some x -> p < k /\ q < k.
Lemma okeys_row : forall k o p q x, okeys k o -> mfind q (orow o p) = Some x -> p < k /\ q < k.
Proof. intros k o p q x K. apply K. Qed.
Lemma okeys_out : forall k o p q, okeys k o -> k <= p \/ k <= q -> oget o p q = 0%N.
Proof. intros k o p q K L. unfold oget. destruct (mfind q (orow o p)) as [x|] eqn:E; auto. apply (okeys_row k) in E; auto. lia. Qed.
Lemma okeys_mono : forall k k' o, k <= k' -> okeys k o -> okeys k' o.
Proof. intros k k' o L K p q x Hx. apply K in Hx. lia. Qed.
Lemma okeys_oset : forall k p q v o, okeys k o -> p < k -> q < k -> okeys k (oset p q v o).
Proof.
  intros k p q v o K Hp Hq a b x. rewrite orow_oset. destruct (Nat.eqb_spec a p) as [->|]; [|apply K].
  rewrite mfind_mset. change (@keqb nat _ b q) with (Nat.eqb b q). destruct (Nat.eqb_spec b q) as [->|]; auto. apply K.
Qed.
Lemma oset_sorted : forall p q v o, msorted o -> msorted (oset p q v o).
Proof. intros. apply mset_sorted; auto. Qed.

Definition osets (t : nat) (v : N) (l : list nat) (o : smap nat (smap nat N)) := fold_left (fun o q => oset q t v o) l o.
Lemma set_output_fold : forall t v l f, fold_left (fun g q => set_output g q t v) l f = set_outputs f (osets t v l (outputs f)).
Proof.
  induction l as [|q l IH]; intros f; cbn [fold_left osets]; [destruct f; reflexivity|]. rewrite IH. reflexivity.
Qed.
Lemma oget_osets : forall t v l o a b, oget (osets t v l o) a b = if smem a l && Nat.eqb b t then v else oget o a b.
Proof.
  induction l as [|q l IH]; intros o a b; cbn [osets fold_left]; [reflexivity|]. fold (osets t v l (oset q t v o)). rewrite IH, oget_oset.
  assert (X : smem a (q :: l) = Nat.eqb a q || smem a l). { apply eq_true_iff_eq. rewrite orb_true_iff, Nat.eqb_eq, !smem_in. cbn [In]. intuition. }
  rewrite X. destruct (smem a l), (Nat.eqb a q), (Nat.eqb b t); reflexivity.
Qed.
Lemma okeys_osets : forall k t v l o, okeys k o -> (forall q, In q l -> q < k) -> t < k -> okeys k (osets t v l o).
Proof. intros k t v. induction l as [|q l IH]; intros o K Hl Ht; auto. apply IH; auto; [apply okeys_oset; auto; apply Hl; left; auto|intros; apply Hl; right; auto]. Qed.
Lemma osets_sorted : forall t v l o, msorted o -> msorted (osets t v l o).
Proof. induction l as [|q l IH]; intros o S; auto. apply IH, oset_sorted; auto. Qed.

(** What holds of the outputs of the automata that capture expressions are built from. *)
Record outs (f : fsm) : Prop := {
  o_sorted : msorted (outputs f);
  o_keys : okeys (size f) (outputs f);
  o_eps : forall p q c, output f p q <> 0%N -> edge f p c q -> c = Epsilon;
  o_small : forall p q, (output f p q < 16)%N;
  o_final : forall p q, In p (finals f) -> output f p q = 0%N;
  o_alt : isAlt f = true -> forall q, output f (initial f) q = 0%N
}.
Lemma bare_outs : forall f, outputs f = [] -> outs f.
Proof.
  intros f B. assert (Z : forall p q, output f p q = 0%N) by (intros; unfold output; rewrite B; reflexivity).
  split; auto; try (intros; rewrite Z in *; try reflexivity; congruence).
  - rewrite B. constructor.
  - rewrite B. intros p q x X. discriminate X.
Qed.

(** ** Marked words *)
Definition medge (f : fsm) (p : nat) (x : N) (q : nat) : Prop :=
  ((x < MaxChar)%N /\ edge f p x q /\ output f p q = 0%N) \/ (exists a, a <> 0%N /\ x = mark a /\ edge f p Epsilon q /\ output f p q = a).
Definition marked (f : fsm) (m : list N) : Prop := nfa_lang (medge f) (initial f) (fun q => In q (finals f)) m.
Lemma medge_bound : forall f p x q, wf f -> medge f p x q -> p < size f /\ q < size f.
Proof. intros f p x q W [(_ & X & _)|(a & _ & _ & X & _)]; eapply edge_bound; eauto. Qed.
Lemma mark_not_eps : forall a, mark a <> Epsilon.
Proof. intros a. unfold mark, MaxChar, Epsilon. lia. Qed.

Lemma bare_marked : forall f m, wf f -> outputs f = [] -> (marked f m <-> accepts f m).
Proof.
  intros f m W B. rewrite accepts_nfa. assert (Z : forall p q, output f p q = 0%N) by (intros; unfold output; rewrite B; reflexivity).
  unfold marked, nfa_lang. assert (X : forall p c q, medge f p c q <-> edge f p c q).
  { intros p c q. unfold medge. split.
    - intros [(_ & X & _)|(a & Ha & _ & _ & X)]; auto. rewrite Z in X. congruence.
    - intros X. left. splits; auto. eapply edge_letter; eauto. }
  split; intros (q & P & Fq); exists q; split; auto; eapply path_ext; try exact P; intros; [symmetry|]; apply X.
Qed.

Lemma eps_edge : forall f g, letters g = letters f -> wf f -> forall (S : nat -> nat -> Prop),
  (forall p c q, raw g p c q <-> raw f p c q \/ (c = Epsilon /\ S p q)) -> forall p c q, edge g p c q <-> edge f p c q \/ (c = Epsilon /\ S p q).
Proof.
  intros f g L W S R p c q. rewrite !edge_raw, (erep_let g f) by apply L. rewrite R.
  assert (X : erep f c = Epsilon <-> c = Epsilon).
  { unfold erep. destruct (part_rep (letters f) c) eqn:E; [|tauto]. apply part_rep_not_eps in E; [tauto|apply W]. }
  rewrite X. reflexivity.
Qed.

(** ** SetCaptureMark *)
Lemma capture_structure : forall f, wf f -> let g := capture_mark f in let n := size f in
  wf g /\ size g = n + 2 /\ initial g = n /\ finals g = [n + 1] /\ letters g = letters f /\ isAlt g = false /\ tags g = tags f /\
  outputs g = osets (n + 1) EndCapture (finals f) (oset n (initial f) BeginCapture (outputs f)) /\
  forall p c q, edge g p c q <-> edge f p c q \/ (c = Epsilon /\ ((p = n /\ q = initial f) \/ (In p (finals f) /\ q = n + 1))).
Proof.
  intros f W. cbv zeta. unfold capture_mark. pose proof (wf_init _ W) as WI.
  set (f1 := resize_fsm f (size f + 2)). assert (E1 : size f1 = size f + 2) by apply size_resize. rewrite E1.
  replace (size f + 2 - 2) with (size f) by lia. replace (size f + 2 - 1) with (size f + 1) by lia.
  change (initial f1) with (initial f).
  assert (A1 : adds f1 (connect f1 (size f) (initial f) Epsilon) (fun p c q => p = size f /\ c = Epsilon /\ q = initial f))
    by (apply connect_adds; try lia; reflexivity).
  set (f2 := connect f1 _ _ _) in *. assert (F2 : finals f2 = finals f) by reflexivity.
  assert (E2 : size f2 = size f + 2) by (rewrite (ad_size _ _ _ A1); auto).
  assert (A2 : adds f2 (connect_final f2 (size f + 1) Epsilon) (fun p c q => In p (finals f) /\ c = Epsilon /\ q = size f + 1)).
  { rewrite <- F2. apply connect_final_adds; try lia; try reflexivity. rewrite F2, E2. intros q Hq; apply (wf_fin _ W) in Hq; lia. }
  pose proof (adds_trans _ _ _ _ _ A1 A2) as A. cbn beta in A. clear A1 A2.
  set (f3 := connect_final f2 _ _) in *. assert (I3 : initial f3 = initial f) by (rewrite (ad_init _ _ _ A); reflexivity).
  assert (F3 : finals f3 = finals f) by (rewrite (ad_fin _ _ _ A); reflexivity).
  rewrite set_output_fold, I3. change (finals (set_output f3 (size f) (initial f) BeginCapture)) with (finals f3). rewrite F3.
  set (h := set_determined _ false).
  assert (Lh : letters h = letters f) by (change (letters f3 = letters f); rewrite (ad_let _ _ _ A); reflexivity).
  assert (Sh : size h = size f + 2) by (change (size f3 = size f + 2); rewrite (ad_size _ _ _ A); auto).
  assert (Th : tags h = tags f) by (change (tags f3 = tags f); rewrite (ad_tags _ _ _ A); reflexivity).
  assert (Ah : isAlt h = false) by reflexivity.
  assert (Oh : outputs h = osets (size f + 1) EndCapture (finals f) (oset (size f) (initial f) BeginCapture (outputs f))).
  { change (outputs h) with (osets (size f + 1) EndCapture (finals f) (oset (size f) (initial f) BeginCapture (outputs f3))). rewrite (ad_out _ _ _ A). reflexivity. }
  destruct (eps_added f 2 f3 _ W A) as (R & C & Bc & Raw); [intuition|].
  change (finals h) with [size f + 1]. change (initial h) with (size f). splits; auto.
  - constructor; auto.
    + change (initial h) with (size f). lia.
    + change (finals h) with [size f + 1]. intros q [<- | []]. lia.
    + change (finals h) with [size f + 1]. repeat constructor.
    + rewrite Lh. apply W.
    + intros X. congruence.
  - apply (eps_edge f h Lh W). intros p c q. etransitivity; [apply (Raw p c q)|]. intuition.
Qed.

Lemma capture_mark_outs : forall f, wf f -> outs f -> outs (capture_mark f) /\
  forall m, marked (capture_mark f) m -> exists x, m = [mark 1] ++ x ++ [mark 2] /\ marked f x.
Proof.
  intros f W O. destruct (capture_structure f W) as (Wg & Sg & Ig & Fg & Lg & Ag & Tg & Og & Eg). set (g := capture_mark f) in *. pose proof (wf_init _ W) as WI.
  assert (Out : forall p q, output g p q = if Nat.eqb p (size f) && Nat.eqb q (initial f) then 1%N else if smem p (finals f) && Nat.eqb q (size f + 1) then 2%N else output f p q).
  { intros p q. rewrite !output_get, Og, oget_osets, oget_oset. unfold BeginCapture, EndCapture.
    destruct (Nat.eqb_spec p (size f)) as [->|]; destruct (Nat.eqb_spec q (initial f)) as [->|]; cbn [andb]; auto.
    destruct (Nat.eqb_spec (initial f) (size f + 1)); [lia|]. rewrite andb_false_r. reflexivity. }
  assert (Bd : forall p c q, edge f p c q -> p < size f /\ q < size f) by (intros; eapply edge_bound; eauto).
  split.
  - split.
    + rewrite Og. apply osets_sorted, oset_sorted, O.
    + rewrite Sg, Og. apply okeys_osets; [apply okeys_oset; [|lia|lia]| |lia]; [eapply okeys_mono; [|apply O]; lia|]. intros q Hq. apply (wf_fin _ W) in Hq. lia.
    + intros p q c Hp He. apply Eg in He. destruct He as [He|[? _]]; auto. rewrite Out in Hp. pose proof (Bd _ _ _ He) as [B1 B2].
      destruct (Nat.eqb_spec p (size f)); [lia|]. destruct (Nat.eqb_spec q (size f + 1)); [lia|]. rewrite andb_false_r in Hp. cbn [andb] in Hp. eapply o_eps; eauto.
    + intros p q. rewrite Out. pose proof (o_small _ O p q). destruct (_ && _); [lia|]. destruct (_ && _); [lia|auto].
    + intros p q Hp. rewrite Fg in Hp. destruct Hp as [<- | []]. rewrite Out. destruct (Nat.eqb_spec (size f + 1) (size f)); [lia|]. cbn [andb].
      destruct (smem (size f + 1) (finals f)) eqn:X; [apply smem_in, (wf_fin _ W) in X; lia|]. cbn [andb]. rewrite output_get. apply (okeys_out (size f)); [apply O|lia].
    + rewrite Ag. discriminate.
  - assert (Me : forall p x q, medge g p x q -> (medge f p x q /\ p < size f /\ q < size f) \/ (p = size f /\ x = mark 1 /\ q = initial f) \/ (In p (finals f) /\ x = mark 2 /\ q = size f + 1)).
    { intros p x q [(Lx & He & Ho)|(a & Ha & -> & He & Ho)]; rewrite Out in Ho; apply Eg in He; destruct He as [He|(Hc & [[-> ->]|[Hp ->]])].
      - pose proof (Bd _ _ _ He) as [B1 B2]. left. split; [left|auto]. splits; auto. destruct (Nat.eqb_spec p (size f)); [lia|]. destruct (Nat.eqb_spec q (size f + 1)); [lia|].
        rewrite andb_false_r in Ho. exact Ho.
      - rewrite !Nat.eqb_refl in Ho. discriminate.
      - pose proof (wf_fin _ W _ Hp). destruct (Nat.eqb_spec p (size f)); [lia|]. apply smem_in in Hp. rewrite Hp, Nat.eqb_refl in Ho. discriminate.
      - pose proof (Bd _ _ _ He) as [B1 B2]. left. split; [right|auto]. exists a. splits; auto. destruct (Nat.eqb_spec p (size f)); [lia|]. destruct (Nat.eqb_spec q (size f + 1)); [lia|].
        rewrite andb_false_r in Ho. exact Ho.
      - rewrite !Nat.eqb_refl in Ho. cbn [andb] in Ho. subst a. auto.
      - pose proof (wf_fin _ W _ Hp). destruct (Nat.eqb_spec p (size f)); [lia|]. pose proof Hp as Hp'. apply smem_in in Hp. rewrite Hp, Nat.eqb_refl in Ho. cbn [andb] in Ho. subst a. auto. }
    intros m (q & P & Fq). rewrite Ig in P. rewrite Fg in Fq. destruct Fq as [<- | []].
    apply path_inv in P. destruct P as [[_ X]|[(r & X & _)|(c & r & m' & -> & _ & X & P)]]; [lia| |].
    + apply Me in X. destruct X as [(_ & X & _)|[(_ & X & _)|(_ & X & _)]]; [lia|exfalso; apply (mark_not_eps 1); auto|exfalso; apply (mark_not_eps 2); auto].
    + apply Me in X. destruct X as [(_ & X & _)|[(_ & -> & ->)|(X & _)]]; [lia| |apply (wf_fin _ W) in X; lia].
      pose (E' := fun p x q => medge f p x q \/ (In p (finals f) /\ x = mark 2 /\ q = size f + 1)).
      assert (P' : path E' (initial f) m' (size f + 1) ).
      { eapply (path_restrict E' (medge g) (fun x => x < size f \/ x = size f + 1)) in P; [apply P| |left; exact WI].
        intros p x q Hp X. apply Me in X. destruct X as [(X & _ & L)|[(-> & _)|(X & -> & ->)]]; [|lia|]; split; auto; [left; auto|right; auto]. }
      (* the run inside f, and the last mark *)
      assert (Sp : forall p w q, path E' p w q -> q = size f + 1 -> p < size f -> exists u t, w = u ++ [mark 2] /\ path (medge f) p u t /\ In t (finals f)).
      { clear P P' m'. intros p w q P. induction P as [p|p q w r He P IH|p c q w r Hc He P IH]; intros Hr Hp; [lia| |].
        - destruct He as [He|(_ & X & _)]; [|exfalso; apply (mark_not_eps 2); auto]. destruct (IH Hr ltac:(eapply medge_bound; eauto)) as (u & t & -> & Pt & Ft). exists u, t. splits; auto. eapply path_eps; eauto.
        - destruct He as [He|(Fp & -> & ->)].
          + destruct (IH Hr ltac:(eapply medge_bound; eauto)) as (u & t & -> & Pt & Ft). exists (c :: u), t. splits; auto. eapply path_step; eauto.
          + apply path_inv in P. destruct P as [[-> _]|[(z & X & _)|(c & z & w' & _ & _ & X & _)]].
            * exists [], p. splits; auto. apply path_nil.
            * destruct X as [X|(X & _)]; [apply medge_bound in X; auto; lia|apply (wf_fin _ W) in X; lia].
            * destruct X as [X|(X & _)]; [apply medge_bound in X; auto; lia|apply (wf_fin _ W) in X; lia]. }
      destruct (Sp _ _ _ P' eq_refl WI) as (u & t & -> & Pt & Ft). exists u. split; auto. exists t. auto.
Qed.

(** ** SetRepetitionMark *)
Lemma repetition_structure : forall f gr, wf f -> let g := repetition_mark f gr in let n := size f in
  wf g /\ size g = n + 1 /\ initial g = initial f /\ finals g = [n] /\ letters g = letters f /\ isAlt g = false /\ tags g = tags f /\
  outputs g = osets n (if gr then EndRepetition else EndNonGreedyRepetition) (finals f) (outputs f) /\
  forall p c q, edge g p c q <-> edge f p c q \/ (c = Epsilon /\ In p (finals f) /\ q = n).
Proof.
  intros f gr W. cbv zeta. unfold repetition_mark. pose proof (wf_init _ W) as WI.
  set (f1 := resize_fsm f (size f + 1)). assert (E1 : size f1 = size f + 1) by apply size_resize. rewrite E1.
  replace (size f + 1 - 1) with (size f) by lia. assert (F1 : finals f1 = finals f) by reflexivity.
  assert (A : adds f1 (connect_final f1 (size f) Epsilon) (fun p c q => In p (finals f) /\ c = Epsilon /\ q = size f)).
  { rewrite <- F1. apply connect_final_adds; try lia; try reflexivity. rewrite F1, E1. intros q Hq; apply (wf_fin _ W) in Hq; lia. }
  set (f3 := connect_final f1 _ _) in *. assert (I3 : initial f3 = initial f) by (rewrite (ad_init _ _ _ A); reflexivity).
  assert (F3 : finals f3 = finals f) by (rewrite (ad_fin _ _ _ A); reflexivity).
  rewrite set_output_fold, F3. set (h := set_determined _ false).
  assert (Ih : initial h = initial f) by exact I3.
  assert (Lh : letters h = letters f) by (change (letters f3 = letters f); rewrite (ad_let _ _ _ A); reflexivity).
  assert (Sh : size h = size f + 1) by (change (size f3 = size f + 1); rewrite (ad_size _ _ _ A); auto).
  assert (Th : tags h = tags f) by (change (tags f3 = tags f); rewrite (ad_tags _ _ _ A); reflexivity).
  assert (Ah : isAlt h = false) by reflexivity.
  assert (Oh : outputs h = osets (size f) (if gr then EndRepetition else EndNonGreedyRepetition) (finals f) (outputs f)).
  { change (outputs h) with (osets (size f) (if gr then EndRepetition else EndNonGreedyRepetition) (finals f) (outputs f3)). rewrite (ad_out _ _ _ A). reflexivity. }
  destruct (eps_added f 1 f3 _ W A) as (R & C & Bc & Raw); [intuition|].
  change (finals h) with [size f]. splits; auto.
  - constructor; auto.
    + lia.
    + change (finals h) with [size f]. intros q [<- | []]. lia.
    + change (finals h) with [size f]. repeat constructor.
    + rewrite Lh. apply W.
    + intros X. congruence.
  - apply (eps_edge f h Lh W). intros p c q. etransitivity; [apply (Raw p c q)|]. intuition.
Qed.

(** ** Import and concatenation *)
Lemma orow_import : forall k src dst p y, msorted src ->
  mfind y (orow (import_outputs k src dst) p) =
  match mfind y (orow dst p) with Some z => Some z | None => if (k <=? p) && (k <=? y) then mfind (y - k) (orow src (p - k)) else None end.
Proof.
  intros k src. unfold import_outputs. induction src as [|[from m] src IH]; intros dst p y S; cbn [fold_left].
  - cbn [orow mfind]. destruct (mfind y (orow dst p)); auto. destruct (_ && _); reflexivity.
  - inversion S as [|? ? S' FA]; subst. rewrite IH by auto. clear IH.
    change (fold_left (fun x '(to, o) => minsert (to + k) o x) m) with (import_tags k m).
    assert (X : orow ((mset (from + k) (import_tags k m (orow dst (from + k))) dst)) p = if Nat.eqb p (from + k) then import_tags k m (orow dst (from + k)) else orow dst p).
    { unfold orow at 1. rewrite mfind_mset. change (@keqb nat _ p (from + k)) with (Nat.eqb p (from + k)). destruct (Nat.eqb p (from + k)); reflexivity. }
    match goal with |- context [orow (mset ?a ?b ?c) p] => change (orow (mset a b c) p) with (orow (mset (from + k) (import_tags k m (orow dst (from + k))) dst) p) end. rewrite X. clear X.
    destruct (Nat.eqb_spec p (from + k)) as [->|NE].
    + rewrite import_tags_find. destruct (mfind y (orow dst (from + k))); auto. destruct (Nat.leb_spec k (from + k)); [|lia]. cbn [andb].
      replace (from + k - k) with from by lia. unfold orow. cbn [mfind]. rewrite keqb_refl.
      destruct (Nat.leb_spec k y); auto. destruct (mfind (y - k) m); auto. destruct (mfind from src) as [m'|] eqn:E; auto.
      apply mfind_in in E. rewrite Forall_forall in FA. apply FA in E. cbn in E. apply Nat.ltb_lt in E. lia.
    + destruct (mfind y (orow dst p)); auto. destruct (Nat.leb_spec k p); auto. cbn [andb]. unfold orow. cbn [mfind].
      change (@keqb nat _ (p - k) from) with (Nat.eqb (p - k) from). destruct (Nat.eqb_spec (p - k) from); [lia|reflexivity].
Qed.
Lemma import_sorted : forall k src dst, msorted dst -> msorted (import_outputs k src dst).
Proof. intros k src. unfold import_outputs. induction src as [|[from m] src IH]; intros dst S; cbn [fold_left]; auto. apply IH, mset_sorted, S. Qed.

Definition oins (p q : nat) (v : N) (o : smap nat (smap nat N)) := mset p (minsert q v (orow o p)) o.
Lemma orow_oins : forall p q v o a y, mfind y (orow (oins p q v o) a) = match mfind y (orow o a) with Some z => Some z | None => if Nat.eqb a p && Nat.eqb y q then Some v else None end.
Proof.
  intros. unfold orow at 1, oins. rewrite mfind_mset. change (@keqb nat _ a p) with (Nat.eqb a p). destruct (Nat.eqb_spec a p) as [->|]; cbn [andb].
  - rewrite mfind_minsert. change (@keqb nat _ y q) with (Nat.eqb y q). destruct (Nat.eqb_spec y q) as [->|]; destruct (mfind _ (orow o p)); auto.
  - fold (orow o a). destruct (mfind y (orow o a)); auto.
Qed.
Lemma orow_oins_fold : forall q v l o a y, mfind y (orow (fold_left (fun d p => oins p q v d) l o) a) =
  match mfind y (orow o a) with Some z => Some z | None => if smem a l && Nat.eqb y q then Some v else None end.
Proof.
  induction l as [|p l IH]; intros o a y; cbn [fold_left].
  - cbn. destruct (mfind y (orow o a)); auto.
  - rewrite IH, orow_oins.
    assert (X : smem a (p :: l) = Nat.eqb a p || smem a l). { apply eq_true_iff_eq. rewrite orb_true_iff, Nat.eqb_eq, !smem_in. cbn [In]. intuition. }
    rewrite X. destruct (mfind y (orow o a)); auto. destruct (Nat.eqb a p), (smem a l), (Nat.eqb y q); auto.
Qed.
Lemma cat_fold_sorted : forall n fin m d, msorted d -> msorted (fold_left (fun d '(to, o) => fold_left (fun d p => oins p (to + n) o d) fin d) m d).
Proof.
  intros n fin. induction m as [|[to o] m IH]; intros d S; cbn [fold_left]; auto. apply IH. clear IH.
  revert d S. induction fin as [|p fin IH]; intros d S; cbn [fold_left]; auto. apply IH, mset_sorted, S.
Qed.
Lemma orow_cat_fold : forall n fin m d a y, mfind y (orow (fold_left (fun d '(to, o) => fold_left (fun d p => oins p (to + n) o d) fin d) m d) a) =
  match mfind y (orow d a) with Some z => Some z | None => if smem a fin && (n <=? y) then mfind (y - n) m else None end.
Proof.
  intros n fin. induction m as [|[to o] m IH]; intros d a y; cbn [fold_left].
  - cbn [mfind]. destruct (mfind y (orow d a)); auto. destruct (_ && _); auto.
  - rewrite IH, orow_oins_fold. destruct (mfind y (orow d a)); auto. destruct (smem a fin); cbn [andb]; auto. cbn [mfind].
    change (@keqb nat _ (y - n) to) with (Nat.eqb (y - n) to). destruct (Nat.leb_spec n y); destruct (Nat.eqb_spec y (to + n)); destruct (Nat.eqb_spec (y - n) to); auto; lia.
Qed.
Lemma cat_outputs_eq : forall n rhs fin d, cat_outputs n rhs fin d = fold_left (fun d '(to, o) => fold_left (fun d p => oins p (to + n) o d) fin d) (orow (outputs rhs) (initial rhs)) d.
Proof. intros. unfold cat_outputs, orow at 1. destruct (mfind (initial rhs) (outputs rhs)); reflexivity. Qed.

Lemma cat_out : forall f rhs, wf f -> wf rhs -> outputs (fsm_cat f rhs) = cat_outputs (size f) rhs (finals f) (import_outputs (size f) (outputs rhs) (outputs f)).
Proof.
  intros f rhs W1 W2. unfold fsm_cat. cbv zeta. cbn [clear_hints set_isAlt set_determined outputs].
  assert (X : forall l g n, outputs (fold_left (fun g q => set_final g (q + n) true) l g) = outputs g) by (induction l as [|x l IH]; intros g n; cbn [fold_left]; auto; rewrite IH; reflexivity).
  rewrite X. cbn [clear_final set_finals outputs set_outputs].
  assert (C : forall l g to c, outputs (fold_left (fun g q => connect g q to c) l g) = outputs g /\ finals (fold_left (fun g q => connect g q to c) l g) = finals g).
  { induction l as [|x l IH]; intros g to c; cbn [fold_left]; auto. destruct (IH (connect g x to c) to c) as [-> ->]. auto. }
  assert (CF : forall g to c, outputs (connect_final g to c) = outputs g /\ finals (connect_final g to c) = finals g) by (intros; unfold connect_final; cbn [clear_hints set_isAlt outputs finals]; apply C).
  assert (CC : forall l g c, outputs (fold_left (fun g to => connect_final g to c) l g) = outputs g /\ finals (fold_left (fun g to => connect_final g to c) l g) = finals g).
  { induction l as [|x l IH]; intros g c; cbn [fold_left]; auto. destruct (IH (connect_final g x c) c) as [-> ->]. apply CF. }
  assert (CR : forall (l : row) g, outputs (fold_left (fun g '(c, tos) => fold_left (fun g to => connect_final g to c) tos g) l g) = outputs g /\
    finals (fold_left (fun g '(c, tos) => fold_left (fun g to => connect_final g to c) tos g) l g) = finals g).
  { induction l as [|[c tos] l IH]; intros g; cbn [fold_left]; auto. destruct (IH (fold_left (fun g to => connect_final g to c) tos g)) as [-> ->]. apply CC. }
  destruct (CR (row_at (import_fsm f rhs) (size f + initial rhs)) (import_fsm f rhs)) as [-> ->]. reflexivity.
Qed.

Lemma cat_row : forall f rhs, wf f -> wf rhs -> outs f -> outs rhs -> forall p y,
  mfind y (orow (outputs (fsm_cat f rhs)) p) =
  match mfind y (orow (outputs f) p) with Some z => Some z | None =>
    if (size f <=? y) then
      if size f <=? p then mfind (y - size f) (orow (outputs rhs) (p - size f))
      else if smem p (finals f) then mfind (y - size f) (orow (outputs rhs) (initial rhs)) else None
    else None end.
Proof.
  intros f rhs W1 W2 O1 O2 p y. rewrite cat_out, cat_outputs_eq, orow_cat_fold, orow_import by (auto; apply O2).
  destruct (mfind y (orow (outputs f) p)); auto. destruct (Nat.leb_spec (size f) y).
  - destruct (Nat.leb_spec (size f) p); cbn [andb].
    + destruct (mfind _ (orow (outputs rhs) (p - size f))); auto. destruct (smem p (finals f)) eqn:X; auto. apply smem_in, (wf_fin _ W1) in X. lia.
    + rewrite andb_true_r. reflexivity.
  - rewrite !andb_false_r. reflexivity.
Qed.
Lemma cat_output : forall f rhs, wf f -> wf rhs -> outs f -> outs rhs -> forall p y,
  output (fsm_cat f rhs) p y = if size f <=? y then if size f <=? p then output rhs (p - size f) (y - size f) else if smem p (finals f) then output rhs (initial rhs) (y - size f) else 0%N else output f p y.
Proof.
  intros f rhs W1 W2 O1 O2 p y. rewrite !output_get. unfold oget. rewrite cat_row by auto.
  destruct (Nat.leb_spec (size f) y).
  - destruct (mfind y (orow (outputs f) p)) eqn:E; [apply (o_keys _ O1) in E; lia|]. destruct (size f <=? p); auto. destruct (smem p (finals f)); auto.
  - destruct (mfind y (orow (outputs f) p)); auto.
Qed.

Lemma fsm_cat_outs : forall f rhs, wf f -> wf rhs -> outs f -> outs rhs -> outs (fsm_cat f rhs) /\
  forall m, marked (fsm_cat f rhs) m -> exists x y, m = x ++ y /\ marked f x /\ marked rhs y.
Proof.
  intros f rhs W1 W2 O1 O2. destruct (cat_structure f rhs W1 W2) as (Sg & Ig & Lg & Ag & _ & _ & _ & Fg & _). pose proof (cat_edge f rhs W1 W2) as Eg.
  pose proof (cat_output f rhs W1 W2 O1 O2) as Out. pose proof (cat_row f rhs W1 W2 O1 O2) as Row.
  assert (B1 : forall p c q, edge f p c q -> p < size f /\ q < size f) by (intros; eapply edge_bound; eauto).
  set (g := fsm_cat f rhs) in *. split.
  - split.
    + unfold g. rewrite cat_out, cat_outputs_eq by auto. apply cat_fold_sorted, import_sorted, O1.
    + rewrite Sg. intros p q x. rewrite Row. destruct (mfind q (orow (outputs f) p)) eqn:E; [intros _; apply (o_keys _ O1) in E; lia|].
      destruct (Nat.leb_spec (size f) q); [|discriminate]. destruct (Nat.leb_spec (size f) p).
      * intros X. apply (o_keys _ O2) in X. lia.
      * destruct (smem p (finals f)) eqn:Y; [|discriminate]. intros X. apply (o_keys _ O2) in X. lia.
    + intros p q c Hp He. rewrite Out in Hp. apply Eg in He. destruct He as [He|[(p' & q' & -> & -> & He)|(Fp & q' & -> & He)]].
      * apply B1 in He as He'. destruct (Nat.leb_spec (size f) q); [lia|]. eapply (o_eps f O1); eauto.
      * destruct (Nat.leb_spec (size f) (q' + size f)); [|lia]. destruct (Nat.leb_spec (size f) (p' + size f)); [|lia].
        replace (p' + size f - size f) with p' in Hp by lia. replace (q' + size f - size f) with q' in Hp by lia. eapply (o_eps rhs O2); eauto.
      * pose proof (wf_fin _ W1 _ Fp). destruct (Nat.leb_spec (size f) (q' + size f)); [|lia]. destruct (Nat.leb_spec (size f) p); [lia|].
        replace (q' + size f - size f) with q' in Hp by lia. destruct (smem p (finals f)); [|congruence]. eapply (o_eps rhs O2); eauto.
    + intros p q. rewrite Out. pose proof (o_small _ O1 p q). pose proof (o_small _ O2 (p - size f) (q - size f)). pose proof (o_small _ O2 (initial rhs) (q - size f)).
      destruct (size f <=? q); auto. destruct (size f <=? p); auto. destruct (smem p (finals f)); auto. lia.
    + intros p q Hp. apply Fg in Hp as (p' & Hp & ->). rewrite Out. destruct (Nat.leb_spec (size f) q).
      * destruct (Nat.leb_spec (size f) (p' + size f)); [|lia]. replace (p' + size f - size f) with p' by lia. apply O2; auto.
      * rewrite output_get. apply (okeys_out (size f)); [apply O1|lia].
    + rewrite Ag. discriminate.
  - assert (Me : forall p x q, medge g p x q -> medge f p x q \/ (exists p' q', p = p' + size f /\ q = q' + size f /\ medge rhs p' x q') \/ (In p (finals f) /\ exists q', q = q' + size f /\ medge rhs (initial rhs) x q')).
    { assert (G : forall p c q, edge g p c q -> (edge f p c q /\ output g p q = output f p q) \/
        (exists p' q', p = p' + size f /\ q = q' + size f /\ edge rhs p' c q' /\ output g p q = output rhs p' q') \/
        (In p (finals f) /\ exists q', q = q' + size f /\ edge rhs (initial rhs) c q' /\ output g p q = output rhs (initial rhs) q')).
      { intros p c q He. rewrite Out. apply Eg in He. destruct He as [He|[(p' & q' & -> & -> & He)|(Fp & q' & -> & He)]].
        - left. split; auto. apply B1 in He. destruct (Nat.leb_spec (size f) q); [lia|auto].
        - right; left. exists p', q'. splits; auto. destruct (Nat.leb_spec (size f) (q' + size f)); [|lia]. destruct (Nat.leb_spec (size f) (p' + size f)); [|lia].
          replace (p' + size f - size f) with p' by lia. replace (q' + size f - size f) with q' by lia. auto.
        - right; right. split; auto. exists q'. splits; auto. pose proof (wf_fin _ W1 _ Fp). destruct (Nat.leb_spec (size f) (q' + size f)); [|lia]. destruct (Nat.leb_spec (size f) p); [lia|].
          replace (q' + size f - size f) with q' by lia. apply smem_in in Fp. rewrite Fp. auto. }
      intros p x q [(Lx & He & Ho)|(a & Ha & -> & He & Ho)]; apply G in He; destruct He as [(He & E)|[(p' & q' & -> & -> & He & E)|(Fp & q' & -> & He & E)]]; rewrite E in Ho.
      - left; left; auto.
      - right; left. exists p', q'. splits; auto. left; auto.
      - right; right. split; auto. exists q'. split; auto. left; auto.
      - left; right; eauto.
      - right; left. exists p', q'. splits; auto. right; eauto.
      - right; right. split; auto. exists q'. split; auto. right; eauto. }
    intros m (q & P & Fq). rewrite Ig in P. apply Fg in Fq as (q0 & Fq & ->).
    destruct (nfa_cat_sound (medge f) (medge rhs) (fun p c q => medge f p c q \/ (exists p' q', p = p' + size f /\ q = q' + size f /\ medge rhs p' c q') \/ (In p (finals f) /\ exists q', q = q' + size f /\ medge rhs (initial rhs) c q'))
      (size f) (initial f) (initial rhs) (fun q => In q (finals f)) (fun q => In q (finals rhs))) with (w := m) as (x & y & Exy & Hx & Hy).
    + intros. eapply medge_bound; eauto.
    + apply W1.
    + apply W1.
    + intros; reflexivity.
    + exists (q0 + size f). split; [|exists q0; auto]. eapply path_mono; [|exact P]. exact Me.
    + exists x, y. auto.
Qed.
