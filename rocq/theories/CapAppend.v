(** Marked words of automata to which strings or a dot have been appended. *)
From Coq Require Import List Bool Arith NArith Lia.
From Verif Require Import Util Spec PartitionModel PartitionProofs FsmModel Nfa NfaOps FsmSem FsmBasics FsmOps FsmOps2 FsmStrings CapModel CapSpec CapApi CapMarks CapMarks2.
Import ListNotations.
Local Opaque all_letters all_bytes.

(** What appending leaves alone, and where the new transitions are. *)
Record grown (f g : fsm) (n : nat) : Prop := {
  gr_init : initial g = initial f;
  gr_out : outputs g = outputs f;
  gr_tags : tags g = tags f;
  gr_size : n <= size g;
  gr_fin : forall q, In q (finals g) -> n <= q;
  gr_alt : isAlt g = true -> isAlt f = true;
  gr_edge : forall p c q, edge g p c q -> edge f p c q \/ (byte c /\ n <= q /\ (In p (finals f) \/ n <= p))
}.
(** the new transitions *)
Definition freshly (g : fsm) (n : nat) (p : nat) (c : N) (q : nat) : Prop := edge g p c q /\ byte c /\ n <= q.

Lemma byte_letter : forall c, byte c -> c <> Epsilon /\ c <> BeginMark /\ c <> EndMark.
Proof. unfold byte, Epsilon, BeginMark, EndMark. intros c H. repeat split; intros ->; lia. Qed.
Section Grown.
  Variables f g : fsm.
  Let n := size f.
  Hypothesis W : wf f.
  Hypothesis O : outs f.
  Hypothesis G : grown f g n.
  Lemma grown_output : forall p q, output g p q = output f p q.
  Proof. intros p q. apply output_same, G. Qed.
  Lemma output_new : forall p q, n <= p \/ n <= q -> output f p q = 0%N.
  Proof. intros p q H. rewrite output_get. eapply okeys_out; [apply O|exact H]. Qed.
  Lemma grown_outs : outs g.
  Proof.
    split.
    - rewrite (gr_out _ _ _ G). apply O.
    - rewrite (gr_out _ _ _ G). eapply okeys_mono; [apply G|apply O].
    - intros p q c H E. rewrite grown_output in H. apply (gr_edge _ _ _ G) in E as [E|(_ & Hq & _)]; [eapply o_eps; eauto|]. exfalso. apply H, output_new. auto.
    - intros p q. rewrite grown_output. apply O.
    - intros p q H. rewrite grown_output. apply output_new. left. apply (gr_fin _ _ _ G), H.
    - intros A q. rewrite grown_output, (gr_init _ _ _ G). apply (o_alt _ O), (gr_alt _ _ _ G), A.
  Qed.
  Lemma grown_nomarks : no_marks f -> no_marks g.
  Proof.
    intros NM p q. split; intros E; apply (gr_edge _ _ _ G) in E as [E|(B & _)]; try (destruct (NM p q); contradiction); apply byte_letter in B; destruct B as (_ & X & Y); congruence.
  Qed.
  Lemma grown_marked : forall m, marked g m -> exists u p s q, m = u ++ s /\ path (medge f) (initial f) u p /\ In p (finals f) /\ path (freshly g n) p s q /\ In q (finals g).
  Proof.
    intros m (q & P & Fq). rewrite (gr_init _ _ _ G) in P.
    set (Inv := fun m q => (q < n /\ path (medge f) (initial f) m q) \/ (n <= q /\ exists u p s, m = u ++ s /\ path (medge f) (initial f) u p /\ In p (finals f) /\ path (freshly g n) p s q)).
    assert (X : Inv ([] ++ m) q).
    { apply (path_ind_right (medge g) Inv) with (p := initial f); auto; clear m q P Fq; unfold Inv.
      - intros w p r H E. destruct E as [(_ & E & Z)|(a & _ & Y & _)]; [|symmetry in Y; apply mark_not_eps in Y; contradiction]. apply (gr_edge _ _ _ G) in E as [E|(B & _)]; [|apply byte_letter in B; tauto].
        destruct (edge_bound _ _ _ _ W E) as [B1 B2]. destruct H as [[_ H]|[H _]]; [|unfold n in H; lia]. left. split; auto. rewrite <- (app_nil_r w). eapply path_app; [exact H|]. apply path_eps1. left. splits; auto; [reflexivity|]. rewrite <- grown_output. auto.
      - intros w p c r H Nc E. destruct E as [(Lc & E & Z)|(a & Na & Y & E & Z)].
        + pose proof E as E'. apply (gr_edge _ _ _ G) in E as [E|(B & Hr & Hp)].
          * destruct (edge_bound _ _ _ _ W E) as [B1 B2]. destruct H as [[_ H]|[H _]]; [|unfold n in H; lia]. left. split; auto. eapply path_app; [exact H|]. apply path_step1; auto. left. splits; auto. rewrite <- grown_output. auto.
          * right. split; auto. destruct H as [[Lp H]|(Lp & u & p0 & s & -> & H1 & H2 & H3)].
            -- destruct Hp as [Hp|Hp]; [|lia]. exists w, p, [c]. splits; auto. apply path_step1; auto. split; auto.
            -- exists u, p0, (s ++ [c]). rewrite app_assoc. splits; auto. eapply path_app; [exact H3|]. apply path_step1; auto. split; auto.
        + apply (gr_edge _ _ _ G) in E as [E|(B & _)]; [|apply byte_letter in B; tauto]. destruct (edge_bound _ _ _ _ W E) as [B1 B2]. destruct H as [[_ H]|[H _]]; [|unfold n in H; lia].
          left. split; auto. eapply path_app; [exact H|]. apply path_step1; auto. right. exists a. splits; auto. rewrite <- grown_output. auto.
      - left. split; [apply W|apply path_nil]. }
    cbn [app] in X. destruct X as [[L _]|(_ & u & p & s & X1 & X2 & X3 & X4)]; [apply (gr_fin _ _ _ G) in Fq; lia|]. exists u, p, s, q. auto.
  Qed.
End Grown.

(** ** Strings *)
Lemma as_inner_same : forall cs f lt st g lt' st', as_inner f lt st cs = (g, lt', st') -> outputs g = outputs f /\ tags g = tags f.
Proof.
  induction cs as [|c cs IH]; intros f lt st g lt' st' E; cbn [as_inner] in E; [injection E as <- _ _; auto|]. destruct (mfind (st, c) lt); [eapply IH; eauto|]. apply IH in E. exact E.
Qed.
Lemma connect_final_same : forall f q c, outputs (connect_final f q c) = outputs f /\ tags (connect_final f q c) = tags f.
Proof.
  intros f q c. unfold connect_final. generalize (finals f). intros l. revert f. induction l as [|p l IH]; intros f; cbn [fold_left]; auto. destruct (IH (connect f p q c)) as [-> ->]. auto.
Qed.
Lemma as_one_same : forall e acc str, outputs (fst (fst (as_one e acc str))) = outputs (fst (fst acc)) /\ tags (fst (fst (as_one e acc str))) = tags (fst (fst acc)).
Proof.
  intros e [[f sl] lt] str. destruct str as [|c [|d rest]]; cbn [as_one]; auto; [cbn [fst]; apply (connect_final_same f e c)|].
  destruct (mfind c sl) as [k|].
  - destruct (as_inner f lt k (removelast (d :: rest))) as [[f2 lt2] st] eqn:E. apply as_inner_same in E. exact E.
  - destruct (as_inner _ lt (size f) (removelast (d :: rest))) as [[f2 lt2] st] eqn:E. apply as_inner_same in E. cbn [fst]. destruct (connect_final_same (resize_fsm f (size f + 1)) (size f) c) as [X Y]. destruct E as [E1 E2]. split.
    + etransitivity; [exact E1|]. exact X.
    + etransitivity; [exact E2|]. exact Y.
Qed.
Lemma as_fold_same : forall e strs acc, outputs (fst (fst (fold_left (as_one e) strs acc))) = outputs (fst (fst acc)) /\ tags (fst (fst (fold_left (as_one e) strs acc))) = tags (fst (fst acc)).
Proof.
  induction strs as [|s strs IH]; intros acc; cbn [fold_left]; auto. destruct (IH (as_one e acc s)) as [-> ->]. apply as_one_same.
Qed.
Lemma strings_marked : forall f strs g, wf f -> uncompressed f -> outs f -> no_marks f -> (forall s, In s strs -> s <> [] /\ Forall byte s) -> append_strings f strs = Ok g ->
  wf g /\ uncompressed g /\ outs g /\ no_marks g /\ tags g = tags f /\ forall m, marked g m -> L_cat (marked f) (L_oneof strs) m.
Proof.
  intros f strs g W U O NM H E. destruct (append_strings_ok f W strs U H) as (g0 & E0 & Wg & Ug & _). rewrite E in E0. injection E0 as <-.
  unfold append_strings in E. destruct (existsb _ strs); [discriminate E|].
  pose proof (trie_start f W) as T0. rewrite size_resize in E. replace (size f + 1 - 1) with (size f) in E by lia.
  assert (Y : let '(g', sl', lt') := fold_left (as_one (size f)) strs (resize_fsm f (size f + 1), [], []) in
    exists wd' done', trie f g' sl' lt' done' wd' /\ forall x, done' x <-> False \/ In x strs) by exact (as_fold_ok f W strs _ _ _ _ _ T0 H).
  pose proof (as_fold_same (size f) strs (resize_fsm f (size f + 1), [], [])) as Sm.
  destruct (fold_left (as_one (size f)) strs (resize_fsm f (size f + 1), [], [])) as [[h sl] lt]. cbn [fst] in Sm. destruct Y as (wd & done & T & Ed). injection E as <-. destruct Sm as [So St].
  assert (Raw : forall p c q, edge (set_final (clear_final h) (size f) true) p c q -> edge f p c q \/ (In p (finals f) /\ mfind c sl = Some q) \/ mfind (p, c) lt = Some q \/
      (q = size f /\ In p (finals f) /\ done [c]) \/ (q = size f /\ size f < p < size h /\ done (wd p ++ [c]))).
  { intros p c q X. apply (fun Y => proj1 (raw_uncompressed _ p c q Ug) Y) in X. change (raw h p c q) in X. apply (t_raw _ _ _ _ _ _ T) in X. rewrite (raw_uncompressed f p c q U). exact X. }
  assert (G : grown f (set_final (clear_final h) (size f) true) (size f)).
  { split; auto.
    - apply (t_init _ _ _ _ _ _ T).
    - pose proof (t_size _ _ _ _ _ _ T). change (size f <= size h). lia.
    - intros q [<-|[]]. lia.
    - apply (t_alt _ _ _ _ _ _ T).
    - intros p c q X. apply Raw in X as [X|[[X1 X2]|[X|[(-> & X1 & X2)|(-> & X1 & X2)]]]]; auto; right.
      + apply (t_sl _ _ _ _ _ _ T) in X2. splits; [apply X2|lia|auto].
      + apply (t_lt _ _ _ _ _ _ T) in X. splits; [apply X|lia|right; lia].
      + apply (t_done _ _ _ _ _ _ T) in X2 as [X2 _]. inversion X2; subst. splits; auto.
      + apply (t_done _ _ _ _ _ _ T) in X2 as [X2 _]. apply Forall_app in X2 as [_ X2]. inversion X2; subst. splits; auto. right; lia. }
  splits; auto; [eapply grown_outs; eauto|eapply grown_nomarks; eauto|].
  intros m Hm. destruct (grown_marked _ _ W G m Hm) as (u & p & s & q & -> & P1 & Fp & P2 & Fq). exists u, s. splits; auto; [exists p; auto|].
  destruct Fq as [<-|[]].
  set (Inv := fun s q => (s = [] /\ q = p) \/ (size f < q < size h /\ s = wd q) \/ (q = size f /\ done s)).
  assert (X : Inv ([] ++ s) (size f)).
  { apply (path_ind_right (freshly (set_final (clear_final h) (size f) true) (size f)) Inv) with (p := p); auto; unfold Inv; [| |auto].
    - intros w a b _ (_ & B & _). apply byte_letter in B. tauto.
    - intros w a c b Ha Nc (E & B & Hb). pose proof (wf_fin _ W _ Fp) as Lp. apply Raw in E as [E|[[X1 X2]|[X|[(-> & X1 & X2)|(-> & X1 & X2)]]]].
      + destruct (edge_bound _ _ _ _ W E). lia.
      + pose proof (wf_fin _ W _ X1) as La. apply (t_sl _ _ _ _ _ _ T) in X2 as (X2 & X3 & _). right; left. split; auto. destruct Ha as [[-> _]|[[Ha _]|[Ha _]]]; try lia. auto.
      + apply (t_lt _ _ _ _ _ _ T) in X as (Y1 & Y2 & Y3 & _). right; left. split; [lia|]. destruct Ha as [[_ Ha]|[[_ ->]|[Ha _]]]; try lia. auto.
      + pose proof (wf_fin _ W _ X1) as La. right; right. split; auto. destruct Ha as [[-> _]|[[Ha _]|[Ha _]]]; try lia. auto.
      + right; right. split; auto. destruct Ha as [[_ Ha]|[[_ ->]|[Ha _]]]; try lia. auto. }
  cbn [app] in X. pose proof (wf_fin _ W _ Fp) as Lp. destruct X as [[_ X]|[[X _]|[_ X]]]; try lia. apply Ed in X as [[]|X]. exact X.
Qed.

(** ** The dot of Latin-1 *)
Lemma dot_fold_same : forall l h, outputs (fold_left (fun g c => connect_final g (size g - 1) c) l h) = outputs h /\ tags (fold_left (fun g c => connect_final g (size g - 1) c) l h) = tags h.
Proof. induction l as [|c l IH]; intros h; cbn [fold_left]; auto. destruct (IH (connect_final h (size h - 1) c)) as [-> ->]. apply connect_final_same. Qed.
Lemma dot_close_same : forall h x o t, outputs h = o /\ tags h = t -> outputs (set_determined (set_final (clear_final h) x true) false) = o /\ tags (set_determined (set_final (clear_final h) x true) false) = t.
Proof. intros h x o t [X Y]. split; [exact X|exact Y]. Qed.
Lemma dot_same : forall f, outputs (append_dot f) = outputs f /\ tags (append_dot f) = tags f.
Proof. intros f. unfold append_dot. cbv zeta. apply dot_close_same. apply (dot_fold_same all_bytes (resize_fsm f (size f + 1))). Qed.
Lemma dot_marked_ : forall f g, wf f -> uncompressed f -> outs f -> no_marks f -> appended f g (fun c => byte c) (fun _ => False) -> outputs g = outputs f /\ tags g = tags f ->
  wf g /\ uncompressed g /\ outs g /\ no_marks g /\ tags g = tags f /\ forall m, marked g m -> L_cat (marked f) L_anybyte m.
Proof.
  intros f g W U O NM A Sm.
  assert (Wg : wf g) by (eapply appended_wf; eauto). assert (Ug : uncompressed g) by (unfold uncompressed; rewrite (ap_let _ _ _ _ A); exact U).
  assert (Ed : forall p c q, edge g p c q -> edge f p c q \/ (In p (finals f) /\ byte c /\ q = size f)).
  { intros p c q X. apply (fun Y => proj1 (raw_uncompressed _ p c q Ug) Y) in X. apply (ap_raw _ _ _ _ A) in X. rewrite (raw_uncompressed f p c q U). destruct X as [X|[X|(_ & _ & [])]]; auto. }
  assert (G : grown f g (size f)).
  { split; try apply Sm.
    - apply A.
    - rewrite (ap_size _ _ _ _ A). lia.
    - rewrite (ap_fin _ _ _ _ A). intros q [<-|[]]. lia.
    - rewrite (ap_alt _ _ _ _ A). discriminate.
    - intros p c q X. apply Ed in X as [X|(X1 & X2 & ->)]; auto. }
  splits; auto; [eapply grown_outs; eauto|eapply grown_nomarks; eauto|apply Sm|].
  intros m Hm. destruct (grown_marked _ _ W G m Hm) as (u & p & s & q & -> & P1 & Fp & P2 & Fq). exists u, s. splits; auto; [exists p; auto|].
  pose proof (wf_fin _ W _ Fp) as Lp. rewrite (ap_fin _ _ _ _ A) in Fq. destruct Fq as [<-|[]].
  assert (No : forall c q, ~ freshly g (size f) (size f) c q).
  { intros c q (X & _ & Hq). apply Ed in X as [X|(X & _)]; [destruct (edge_bound _ _ _ _ W X); lia|apply (wf_fin _ W) in X; lia]. }
  inversion P2 as [|a b w r (X & B & _)|a c b w r Nc (X & B & Hb) P3]; subst; [lia|apply byte_letter in B; tauto|].
  apply Ed in X as [X|(_ & _ & ->)]; [destruct (edge_bound _ _ _ _ W X); lia|]. exists c. split; auto. inversion P3 as [|? ? ? ? X1|? ? ? ? ? ? X1]; subst; auto; exfalso; eapply No; eauto.
Qed.

Lemma dot_marked : forall f, wf f -> uncompressed f -> outs f -> no_marks f ->
  wf (append_dot f) /\ uncompressed (append_dot f) /\ outs (append_dot f) /\ no_marks (append_dot f) /\ tags (append_dot f) = tags f /\ forall m, marked (append_dot f) m -> L_cat (marked f) L_anybyte m.
Proof. intros f W U O NM. apply dot_marked_; auto; [apply append_dot_appended; auto|apply dot_same]. Qed.
