(** Minimize and Canonize. *)
From Coq Require Import List Bool Arith NArith Lia.
From Verif Require Import Util Spec PartitionModel PartitionProofs FsmModel DetermineModel MinimizeModel Nfa NfaOps FsmSem FsmBasics FsmOps FsmOps2 DeadProofs EpsProofs DetGeneric DetProofs MinGeneric.
Import ListNotations.
Local Opaque all_letters.

(** The words accepted from state s. *)
Definition acc_from (f : fsm) (s : nat) : lang := fun w => exists q, path (edge f) s w q /\ In q (finals f).

(** ** Reversed transitions *)
Section Rev.
  Variable p : partition.
  Hypothesis Wp : wf_part p.
  Definition idx (c : N) : nat := match part_index p c with Ok i => i | _ => 0 end.
  Definition is_rep (c : N) : Prop := part_rep p c = Some c.
  Definition row_det (r : row) : Prop := forall c tos, In (c, tos) r -> is_rep c /\ exists q, tos = [q].

  Lemma idx_ok : forall c, is_rep c -> part_index p c = Ok (idx c) /\ In (c, idx c) (part_list p).
  Proof.
    intros c H. destruct (part_index_ok p c c Wp H) as [i [A _]]. unfold idx. rewrite A. split; auto.
    unfold part_index in A. unfold is_rep, part_rep in H. rewrite H in A.
    destruct (mfind c (pset p)) as [[j ms]|] eqn:F; [|discriminate]. injection A as ->. apply part_list_in; eauto.
  Qed.
  Lemma idx_inj : forall c d, is_rep c -> is_rep d -> idx c = idx d -> c = d.
  Proof.
    intros c d H1 H2 E. destruct (idx_ok c H1) as [_ A]. destruct (idx_ok d H2) as [_ B]. rewrite E in A.
    apply part_list_in in A as [m1 A]; auto. apply part_list_in in B as [m2 B]; auto. eapply wp_inj; eauto.
  Qed.

  Definition entry (state : nat) (e : N * list nat) : nat * nat * nat := (hd 0 (snd e), idx (fst e), state).

  Lemma rev_row_ok : forall state r used, row_det r -> NoDup (map fst r) ->
    (forall c tos d, In (c, tos) r -> ~ In (idx c, d) used) ->
    rev_row p state r used = Ok (map (entry state) r).
  Proof.
    induction r as [|[c tos] r IH]; intros used D ND U; cbn [rev_row map]; auto.
    destruct (D c tos (or_introl eq_refl)) as [Rc [q ->]]. cbn [map fst] in ND. inversion ND as [|? ? N1 N2]; subst.
    destruct (idx_ok c Rc) as [Ic _]. rewrite Ic. cbn [bind].
    assert (F : smem (idx c, q) used = false) by (apply smem_false; eapply U; left; eauto). rewrite F.
    rewrite IH; auto.
    - intros c' t' H. apply D. right; auto.
    - intros c' t' d H X. apply sadd_in in X as [[= X1 X2]|X]; [|eapply U; eauto; right; eauto].
      destruct (D c' t' (or_intror H)) as [Rc' _]. apply idx_inj in X1; auto. subst c'. apply N1. apply in_map_iff. exists (c, t'); auto.
  Qed.

  Lemma rev_rows_ok : forall rs state, (forall r, In r rs -> row_det r /\ NoDup (map fst r)) ->
    exists t, rev_rows p state rs = Ok t /\
      (forall d l s, In (d, l, s) t <-> state <= s < state + length rs /\ exists c tos, In (c, tos) (nth (s - state) rs []) /\ d = hd 0 tos /\ l = idx c) /\
      NoDup (map (fun x => (snd (fst x), snd x)) t).
  Proof.
    induction rs as [|r rs IH]; intros state H; cbn [rev_rows].
    - exists []. splits; auto; [|constructor]. intros d l s. cbn. split; [intros []|lia].
    - destruct (H r (or_introl eq_refl)) as [D ND]. rewrite rev_row_ok by auto. cbn [bind].
      destruct (IH (S state)) as [t [E [I N]]]; [intros; apply H; right; auto|]. rewrite E. cbn [bind].
      exists (map (entry state) r ++ t). splits; auto.
      + intros d l s. rewrite in_app_iff, I. cbn [length]. split.
        * intros [X|[X [c [tos [Y1 Y2]]]]].
          -- apply in_map_iff in X as [[c tos] [[= <- <- <-] X]]. split; [lia|]. exists c, tos. rewrite Nat.sub_diag. auto.
          -- split; [lia|]. exists c, tos. split; auto. replace (s - state) with (S (s - S state)) by lia. auto.
        * intros [X [c [tos [Y1 [-> ->]]]]]. destruct (Nat.eq_dec s state) as [->|Hne].
          -- left. rewrite Nat.sub_diag in Y1. apply in_map_iff. exists (c, tos). auto.
          -- right. split; [lia|]. exists c, tos. replace (s - state) with (S (s - S state)) in Y1 by lia. auto.
      + rewrite map_app. apply NoDup_app_intro; auto.
        * rewrite map_map. cbn [entry fst snd]. clear -D ND Wp. induction r as [|[c tos] r IHr]; cbn [map]; constructor.
          -- intros X. apply in_map_iff in X as [[c' t'] [[= X] Y]]. cbn [fst snd] in *. inversion ND; subst.
             apply idx_inj in X; [|eapply D; right; eauto|eapply D; left; eauto]. subst c'. apply H1. apply in_map_iff. exists (c, t'); auto.
          -- inversion ND; subst. apply IHr; auto. intros c' t' Y. apply D. right; auto.
        * intros x X Y. apply in_map_iff in X as [[[d l] s] [<- X]]. apply in_map_iff in Y as [[[d' l'] s'] [Y1 Y]].
          apply in_map_iff in X as [[c tos] [[= <- <- <-] X]]. cbn in Y1. injection Y1 as Y1 Y2. apply I in Y as [Y _]. lia.
  Qed.
End Rev.

Lemma rev_prev_in : forall t s l p, In p (rev_prev t s l) <-> In (s, l, p) t.
Proof.
  intros t s l p. unfold rev_prev. rewrite in_map_iff. split.
  - intros [[[d l'] p'] [<- H]]. apply filter_In in H as [H1 H2]. cbn in *. apply andb_true_iff in H2 as [A B].
    apply Nat.eqb_eq in A, B. subst. auto.
  - intros H. exists (s, l, p). split; auto. apply filter_In. split; auto. cbn. rewrite !Nat.eqb_refl. auto.
Qed.
Lemma rev_prev_nodup : forall t s l, NoDup (map (fun x => (snd (fst x), snd x)) t) -> NoDup (rev_prev t s l).
Proof.
  intros t s l H. unfold rev_prev. induction t as [|[[d l'] p] t IH]; cbn [filter]; [constructor|].
  cbn [map fst snd] in H. inversion H as [|? ? H1 H2]; subst. cbn [fst snd].
  destruct (Nat.eqb d s && Nat.eqb l' l) eqn:E; auto. cbn [map snd]. constructor; auto.
  intros X. apply in_map_iff in X as [[[d' l''] p'] [<- X]]. apply filter_In in X as [X Y]. cbn in *.
  apply andb_true_iff in E as [_ E]. apply andb_true_iff in Y as [_ Y]. apply Nat.eqb_eq in E, Y. subst.
  apply H1. apply in_map_iff. exists (d', l, p'). auto.
Qed.

Section Det.
  Variable f : fsm.
  Hypothesis W : wf f.
  Hypothesis D : det_ok f.

  Lemma dedge : forall p c q, edge f p c q <-> exists r, part_rep (letters f) c = Some r /\ mfind r (row_at f p) = Some [q].
  Proof.
    intros p c q. unfold edge, erep. destruct (part_rep (letters f) c) as [r|] eqn:R.
    - split.
      + intros H. exists r. split; auto. change (raw f p r q) in H. pose proof (raw_bound _ _ _ _ (wf_rows _ W) H) as [B _].
        destruct (do_fun _ D p r B) as [q' [_ M]]; [eapply part_rep_rep; eauto; apply W|].
        unfold raw, row_get in H. rewrite M in *. destruct H as [->|[]]. auto.
      + intros [r' [[= <-] M]]. unfold row_get. rewrite M. left; auto.
    - split; [|intros [r [[=] _]]]. intros H. exfalso. change (raw f p c q) in H. apply raw_pres in H. apply (do_keys _ D) in H. congruence.
  Qed.

  Lemma dedge_no_eps : forall p q, ~ edge f p Epsilon q.
  Proof. intros p q H. apply dedge in H as [r [H _]]. apply part_rep_not_eps in H; [tauto|apply W]. Qed.

  Lemma dedge_total : forall p c, p < size f -> (c < MaxChar)%N -> c <> Epsilon -> exists q, q < size f /\ edge f p c q.
  Proof.
    intros p c Hp H1 H2. destruct (do_all _ D c H1 H2) as [r R].
    destruct (do_fun _ D p r Hp) as [q [Hq M]]; [eapply part_rep_rep; eauto; apply W|].
    exists q. split; auto. apply dedge. eauto.
  Qed.
  Lemma dedge_fun : forall p c q q', edge f p c q -> edge f p c q' -> q = q'.
  Proof. intros p c q q' H1 H2. apply dedge in H1 as [r [A B]]. apply dedge in H2 as [r' [A' B']]. congruence. Qed.

  Lemma acc_nil : forall s, acc_from f s [] <-> In s (finals f).
  Proof.
    intros s. split.
    - intros [q [P F]]. destruct (path_inv _ _ _ _ P) as [[_ ->]|[(m & H1 & P1)|(c & m & w1 & E & _)]]; auto; [|discriminate].
      destruct (dedge_no_eps _ _ H1).
    - intros H. exists s. split; auto. constructor.
  Qed.
  Lemma acc_cons : forall s c w, acc_from f s (c :: w) <-> exists q, edge f s c q /\ acc_from f q w.
  Proof.
    intros s c w. split.
    - intros [q [P F]]. destruct (path_inv _ _ _ _ P) as [[E _]|[(m & H1 & P1)|(c' & m & w1 & E & Hc & H1 & P1)]]; [discriminate| |].
      + destruct (dedge_no_eps _ _ H1).
      + injection E as <- <-. exists m. split; auto. exists q. auto.
    - intros [q [H [x [P F]]]]. exists x. split; auto. eapply path_step; eauto. intros ->. eapply dedge_no_eps; eauto.
  Qed.
  (* one step *)
  Lemma acc_step : forall s c q w, edge f s c q -> (acc_from f s (c :: w) <-> acc_from f q w).
  Proof.
    intros s c q w H. rewrite acc_cons. split; [|eauto]. intros [q' [H1 H2]].
    rewrite (dedge_fun _ _ _ _ H H1). auto.
  Qed.
End Det.

Section Minimize.
  Variable f : fsm.
  Hypothesis W : wf f.
  Hypothesis D : det_ok f.
  Let n := size f.
  Let p := letters f.
  Let nl := part_size p.

  Definition lrep (l : nat) : N := nth l (invletters (part_list (letters f))) 0%N.
  Definition mdelta (s l : nat) : nat := hd 0 (row_get (row_at f s) (lrep l)).

  Lemma lrep_ok : forall l, l < nl -> is_rep p (lrep l) /\ idx p (lrep l) = l.
  Proof.
    intros l Hl. pose proof (wf_letters _ W) as Wp. fold p in Wp.
    destruct (ls_surj _ (part_list_nodup _ Wp) (part_list_idx _ Wp) l) as [c Hc].
    { rewrite part_list_len. unfold nl, part_size in Hl. auto. }
    destruct (invletters_ok _ (part_list_nodup _ Wp) (part_list_idx _ Wp)) as [_ X].
    unfold lrep. fold p. rewrite (X _ _ Hc).
    assert (Rc : is_rep p c) by (apply part_list_rep; eauto). split; auto.
    destruct (idx_ok p Wp c Rc) as [_ Y]. apply part_list_in in Hc as [m1 Hc]; auto. apply part_list_in in Y as [m2 Y]; auto. congruence.
  Qed.
  Lemma lrep_idx : forall c, is_rep p c -> idx p c < nl /\ lrep (idx p c) = c.
  Proof.
    intros c Rc. pose proof (wf_letters _ W) as Wp. fold p in Wp. destruct (idx_ok p Wp c Rc) as [_ Y].
    split.
    - apply part_list_idx in Y; auto. rewrite part_list_len in Y. exact Y.
    - destruct (invletters_ok _ (part_list_nodup _ Wp) (part_list_idx _ Wp)) as [_ X]. apply (X _ _ Y).
  Qed.
  Lemma mdelta_row : forall s c, s < n -> is_rep p c -> mfind c (row_at f s) = Some [mdelta s (idx p c)].
  Proof.
    intros s c Hs Rc. destruct (do_fun _ D s c Hs Rc) as [q [_ M]]. unfold mdelta. rewrite (proj2 (lrep_idx c Rc)).
    unfold row_get. rewrite M. auto.
  Qed.
  Lemma mdelta_lt : forall s l, s < n -> l < nl -> mdelta s l < n.
  Proof.
    intros s l Hs Hl. destruct (lrep_ok l Hl) as [A B]. destruct (do_fun _ D s (lrep l) Hs A) as [q [Hq M]].
    unfold mdelta, row_get. rewrite M. auto.
  Qed.
  Lemma mdelta_edge : forall s c q, s < n -> edge f s c q <-> exists r, part_rep p c = Some r /\ q = mdelta s (idx p r).
  Proof.
    intros s c q Hs. rewrite (dedge f W D). split; intros [r [A B]]; exists r; split; auto.
    - assert (Rr : is_rep p r) by (eapply part_rep_rep; eauto; apply W). rewrite (mdelta_row s r Hs Rr) in B. congruence.
    - assert (Rr : is_rep p r) by (eapply part_rep_rep; eauto; apply W). rewrite (mdelta_row s r Hs Rr). congruence.
  Qed.

  Lemma rows_det : forall r, In r (trans f) -> row_det p r /\ NoDup (map fst r).
  Proof.
    intros r Hr. apply In_nth with (d := []) in Hr as [s [Hs <-]]. change (nth s (trans f) []) with (row_at f s).
    destruct (wf_rows _ W s) as [Sr _]. split.
    - intros c tos H. apply (msorted_find Sr) in H. assert (Rc : is_rep p c) by (apply (do_keys _ D s); unfold pres; congruence).
      split; auto. rewrite (mdelta_row s c Hs Rc) in H. eexists. injection H as <-. reflexivity.
    - clear -Sr. induction Sr as [|[c t] l Sl IH F]; cbn; constructor; auto. rewrite Forall_forall in F.
      intros X. apply in_map_iff in X as [b [Eb Hb]]. apply F in Hb. cbn in Hb. rewrite Eb in Hb. apply N.ltb_lt in Hb. lia.
  Qed.

  (** ** Building the quotient *)
  Variable cls : nat -> nat.
  Variable k : nat.
  Hypothesis cls_lt : forall s, s < n -> cls s < k.
  Hypothesis cls_ne : forall c, c < k -> exists s, s < n /\ cls s = c.
  Hypothesis cls_fin : forall s t, s < n -> t < n -> cls s = cls t -> min_init_class f s = min_init_class f t.
  Hypothesis cls_stable : forall s t l, s < n -> t < n -> l < nl -> cls s = cls t -> cls (mdelta s l) = cls (mdelta t l).

  Record macc (g : fsm) (m : nat) : Prop := {
    ma_size : size g = k;
    ma_let : letters g = p;
    ma_sp : sparsed g = sparsed f;
    ma_det : determined g = determined f;
    ma_alt : isAlt g = false;
    ma_raw : forall x c q, raw g x c q <-> exists s, s < m /\ s < n /\ x = cls s /\ is_rep p c /\ q = cls (mdelta s (idx p c));
    ma_pres : forall x c, pres g x c -> exists q, raw g x c q;
    ma_rows : rows_ok g;
    ma_fs : ssorted (finals g);
    ma_fin : forall q, In q (finals g) <-> exists s, s < m /\ In s (finals f) /\ q = cls s
  }.

  Lemma macc_row_ok : forall s g, s < n -> size g = k ->
    adds g (min_accept_row cls (cls s) (row_at f s) g) (fun x c q => x = cls s /\ is_rep p c /\ q = cls (mdelta s (idx p c))).
  Proof.
    intros s g Hs Sg. unfold min_accept_row.
    destruct (rows_det (row_at f s)) as [RD _]; [apply nth_In; auto|].
    destruct (wf_rows _ W s) as [Sr _].
    assert (RV : forall c tos, In (c, tos) (row_at f s) -> is_rep p c /\ hd 0 tos = mdelta s (idx p c)).
    { intros c tos H. destruct (RD c tos H) as [Rc _]. split; auto. apply (msorted_find Sr) in H.
      rewrite (mdelta_row s c Hs Rc) in H. injection H as <-. reflexivity. }
    eapply adds_ext.
    - apply (adds_fold _ _ (fun '(c0, tos) x c q => x = cls s /\ c = c0 /\ q = cls (hd 0 tos))).
      intros h [c tos] T Hin A. destruct (RV _ _ Hin) as [Rc Hd].
      apply connect_adds; rewrite ?(ad_size _ _ _ A), ?Sg; auto.
      + rewrite Hd. apply cls_lt, mdelta_lt; auto. apply lrep_idx; auto.
      + apply (wp_range _ (wf_letters _ W)) in Rc. tauto.
    - cbn beta. intros x c q. split.
      + intros [[c0 tos] [Hin [-> [-> ->]]]]. destruct (RV _ _ Hin) as [Rc ->]. auto.
      + intros [-> [Rc ->]]. pose proof (mdelta_row s c Hs Rc) as M. apply mfind_in in M. exists (c, [mdelta s (idx p c)]). auto.
  Qed.

  Lemma macc_fold : forall m, m <= n -> forall g0, macc g0 0 -> macc (fold_left (min_accept_state f cls) (seq 0 m) g0) m.
  Proof.
    induction m as [|m IH]; intros Hm g0 G0; [exact G0|].
    rewrite seq_S, fold_left_app. cbn [fold_left plus]. specialize (IH ltac:(lia) g0 G0).
    set (g := fold_left (min_accept_state f cls) (seq 0 m) g0) in *. clearbody g. unfold min_accept_state.
    destruct IH. pose proof (macc_row_ok m g ltac:(lia) ma_size0) as A.
    set (g1 := min_accept_row cls (cls m) (row_at f m) g) in *. clearbody g1.
    set (g2 := if is_final f m then set_final g1 (cls m) true else g1).
    assert (F2 : forall q, In q (finals g2) <-> In q (finals g1) \/ (q = cls m /\ In m (finals f))).
    { intros q. unfold g2, is_final. destruct (smem m (finals f)) eqn:E.
      - apply smem_in in E. cbn. rewrite sadd_in. tauto.
      - apply smem_false in E. tauto. }
    assert (S2 : ssorted (finals g1) -> ssorted (finals g2)).
    { unfold g2. destruct (is_final f m); auto. cbn. intros. apply sadd_sorted; auto. }
    assert (T2 : trans g2 = trans g1 /\ letters g2 = letters g1 /\ sparsed g2 = sparsed g1 /\ determined g2 = determined g1 /\ isAlt g2 = isAlt g1)
      by (unfold g2; destruct (is_final f m); auto).
    clearbody g2. destruct T2 as (T2&L2&Sp2&D2&A2).
    assert (X : macc g2 (S m)).
    { assert (Rw : forall x, row_at g2 x = row_at g1 x) by (intros; unfold row_at; rewrite T2; auto).
      assert (Sz : size g2 = size g1) by (unfold size; rewrite T2; auto).
      assert (R : forall x c q, raw g2 x c q <-> raw g1 x c q) by (intros; unfold raw; rewrite Rw; tauto).
      constructor.
      - rewrite Sz, (ad_size _ _ _ A); auto.
      - rewrite L2, (ad_let _ _ _ A); auto.
      - rewrite Sp2, (ad_sp _ _ _ A); auto.
      - rewrite D2, (ad_det _ _ _ A); auto.
      - rewrite A2. destruct (isAlt g1) eqn:E; auto. apply (ad_alt _ _ _ A) in E. congruence.
      - intros x c q. rewrite R, (ad_raw _ _ _ A), ma_raw0. split.
        + intros [[s [H1 H2]]|H]; [exists s|exists m]; split; auto; lia.
        + intros [s [H1 [H2 [-> H]]]]. destruct (Nat.eq_dec s m) as [->|]; [tauto|]. left. exists s. splits; auto; try tauto. lia.
      - intros x c H. unfold pres in H. rewrite Rw in H. apply (ad_pres _ _ _ A) in H as [H|[q H]].
        + apply ma_pres0 in H as [q H]. exists q. apply R, (ad_raw _ _ _ A); auto.
        + exists q. apply R, (ad_raw _ _ _ A); auto.
      - intros x. rewrite Rw, Sz. apply (ad_rows _ _ _ A); auto.
      - apply S2. rewrite (ad_fin _ _ _ A). auto.
      - intros q. rewrite F2, (ad_fin _ _ _ A), ma_fin0. split.
        + intros [[s [H1 H2]]|[-> H]]; [exists s|exists m]; split; auto; lia.
        + intros [s [H1 [H2 ->]]]. destruct (Nat.eq_dec s m) as [->|]; [tauto|]. left. exists s. splits; auto. lia. }
    clear -X. destruct (mfind m (tags f)); [|exact X]. destruct X. constructor; auto.
  Qed.

  Let g := min_accept f cls k.
  Lemma npos : 0 < n.
  Proof. pose proof (wf_init _ W). unfold n. lia. Qed.

  Lemma macc_ok : macc (set_initial g 0) n /\ initial g = cls (initial f).
  Proof.
    assert (kpos : 0 < k) by (pose proof (cls_lt 0 npos); lia).
    unfold g, min_accept. set (g1 := set_final _ 0 false).
    assert (G1 : macc g1 0).
    { assert (Rw : forall x, row_at g1 x = []).
      { intros x. change (row_at g1 x) with (row_at (resize_fsm fsm_new k) x). rewrite row_at_resize; [|cbn; lia]. destruct x as [|[|]]; reflexivity. }
      constructor; try reflexivity.
      - change (size (resize_fsm fsm_new k) = k). apply size_resize.
      - intros x c q. unfold raw. rewrite Rw. split; [intros []|intros [s [H _]]; lia].
      - intros x c H. unfold pres in H. rewrite Rw in H. destruct (H eq_refl).
      - intros x. rewrite Rw. apply row_ok_nil.
      - cbn. constructor.
      - intros q. cbn. split; [intros []|intros [s [H _]]; lia]. }
    pose proof (macc_fold n (le_n _) g1 G1) as M. fold n. set (g2 := fold_left (min_accept_state f cls) (seq 0 n) g1) in *. clearbody g2.
    split; [|reflexivity]. destruct M. constructor; auto.
  Qed.

  Lemma q_raw : forall x c q, raw g x c q <-> exists s, s < n /\ x = cls s /\ is_rep p c /\ q = cls (mdelta s (idx p c)).
  Proof.
    intros x c q. destruct macc_ok as [M _]. pose proof (ma_raw _ _ M x c q) as H. change (raw (set_initial g 0) x c q) with (raw g x c q) in H.
    rewrite H. split; intros [s X]; exists s; tauto.
  Qed.
  Lemma q_fin : forall q, In q (finals g) <-> exists s, In s (finals f) /\ q = cls s.
  Proof.
    intros q. destruct macc_ok as [M _]. pose proof (ma_fin _ _ M q) as H. change (finals (set_initial g 0)) with (finals g) in H.
    rewrite H. split; intros [s X]; exists s; [tauto|]. destruct X as [X Y]. splits; auto. apply (wf_fin _ W); auto.
  Qed.
  Lemma q_size : size g = k.
  Proof. destruct macc_ok as [M _]. exact (ma_size _ _ M). Qed.
  Lemma q_let : letters g = p.
  Proof. destruct macc_ok as [M _]. exact (ma_let _ _ M). Qed.

  Lemma q_wf : wf g.
  Proof.
    destruct macc_ok as [M I]. constructor.
    - rewrite I, q_size. apply cls_lt, W.
    - intros q H. apply q_fin in H as [s [H ->]]. rewrite q_size. apply cls_lt, (wf_fin _ W); auto.
    - exact (ma_fs _ _ M).
    - exact (ma_rows _ _ M).
    - rewrite q_let. apply W.
    - intros x c r H P q. rewrite q_let in H. apply (ma_pres _ _ M) in P as [y P]. change (raw (set_initial g 0) x c y) with (raw g x c y) in P.
      apply q_raw in P as [s [_ [_ [P _]]]]. unfold is_rep in P. assert (r = c) by congruence. subst. tauto.
    - intros q c r H [x P]. rewrite q_let in H. apply q_raw in P as [s [_ [_ [P _]]]]. unfold is_rep in P. assert (r = c) by congruence. subst. tauto.
    - intros H. pose proof (ma_alt _ _ M) as A. change (isAlt (set_initial g 0)) with (isAlt g) in A. congruence.
  Qed.

  Lemma q_det : det_ok g.
  Proof.
    destruct macc_ok as [M I]. constructor.
    - intros c H1 H2. rewrite q_let. apply (do_all _ D); auto.
    - intros x c H. apply (ma_pres _ _ M) in H as [y H]. change (raw (set_initial g 0) x c y) with (raw g x c y) in H.
      apply q_raw in H as [s [_ [_ [H _]]]]. rewrite q_let. auto.
    - intros x c Hx Rc. rewrite q_let in Rc. rewrite q_size in *. destruct (cls_ne x Hx) as [s [Hs Es]].
      destruct (lrep_idx c Rc) as [Hl _].
      exists (cls (mdelta s (idx p c))). split; [apply cls_lt, mdelta_lt; auto|].
      assert (U : forall q, raw g x c q <-> q = cls (mdelta s (idx p c))).
      { intros q. rewrite q_raw. split.
        - intros [s' [H1 [H2 [H3 ->]]]]. apply cls_stable; auto. congruence.
        - intros ->. exists s. auto. }
      unfold raw, row_get in U. destruct (mfind c (row_at g x)) as [t|] eqn:Mf; [|exfalso; apply (proj2 (U _) eq_refl)].
      f_equal. destruct (wf_rows _ q_wf x) as [_ R]. destruct (R _ _ Mf) as [_ [St _]].
      apply ssorted_ext; auto; [constructor; constructor|]. intros y. rewrite U. cbn. intuition.
  Qed.

  Lemma q_edge : forall s c q, s < n -> edge f s c q -> edge g (cls s) c (cls q).
  Proof.
    intros s c q Hs H. apply mdelta_edge in H as [r [H ->]]; auto. unfold edge, erep. rewrite q_let, H.
    apply q_raw. exists s. splits; auto. eapply part_rep_rep; eauto. apply W.
  Qed.

  Lemma q_path : forall s w q, path (edge f) s w q -> s < n -> path (edge g) (cls s) w (cls q).
  Proof.
    intros s w q P. induction P as [s|s m w q H P IH|s c m w q Hc H P IH]; intros Hs.
    - constructor.
    - destruct (dedge_no_eps f W D _ _ H).
    - eapply path_step; [auto|apply q_edge; eauto|]. apply IH. apply edge_bound in H; auto. apply H.
  Qed.

  Lemma fin_class : forall s t, s < n -> t < n -> cls s = cls t -> In s (finals f) -> In t (finals f).
  Proof.
    intros s t Hs Ht E Fs. apply cls_fin in E; auto. unfold min_init_class, is_final in E.
    apply smem_in in Fs. rewrite Fs in E. apply smem_in. destruct (smem t (finals f)), (smem 0 (finals f)); auto; discriminate.
  Qed.

  Lemma q_acc : forall w s, s < n -> (acc_from g (cls s) w <-> acc_from f s w).
  Proof.
    induction w as [|c w IH]; intros s Hs.
    - rewrite (acc_nil g q_wf q_det), (acc_nil f W D), q_fin. split.
      + intros [t [H E]]. eapply fin_class; [| |symmetry; exact E|exact H]; auto. apply (wf_fin _ W); auto.
      + intros H. eauto.
    - rewrite (acc_cons g q_wf q_det), (acc_cons f W D). split.
      + intros [q [H1 H2]].
        assert (X : exists r, part_rep p c = Some r).
        { apply (dedge g q_wf q_det) in H1 as [r [X _]]. rewrite q_let in X. eauto. }
        destruct X as [r X]. exists (mdelta s (idx p r)).
        assert (Er : edge f s c (mdelta s (idx p r))) by (apply mdelta_edge; eauto). split; auto.
        apply IH; [apply edge_bound in Er; auto; apply Er|].
        rewrite (dedge_fun g q_wf q_det _ _ _ _ (q_edge _ _ _ Hs Er) H1). auto.
      + intros [q [H1 H2]]. exists (cls q). split; [apply q_edge; auto|]. apply IH; auto. apply edge_bound in H1; auto. apply H1.
  Qed.
End Minimize.

Lemma minimize_ok : forall f, wf f -> det_ok f -> determined f = true ->
  exists g cls, minimize f = Ok g /\ wf g /\ det_ok g /\ determined g = true /\ sparsed g = sparsed f /\
    (forall s, s < size f -> cls s < size g) /\ (forall x, x < size g -> exists s, s < size f /\ cls s = x) /\
    initial g = cls (initial f) /\
    (forall s w q, s < size f -> path (edge f) s w q -> path (edge g) (cls s) w (cls q)) /\
    (forall s w, s < size f -> (acc_from g (cls s) w <-> acc_from f s w)) /\
    (forall x y, x < size g -> y < size g -> (forall w, is_word w -> (acc_from g x w <-> acc_from g y w)) -> x = y).
Proof.
  intros f W D Hd. unfold minimize.
  pose proof (wf_letters _ W) as Wp.
  destruct (rev_rows_ok (letters f) Wp (trans f) 0 (rows_det f W D)) as [t [E [I N]]]. rewrite E. cbn [bind]. rewrite Hd. cbn [negb].
  set (R := fun s t => s < size f /\ t < size f /\ forall w, is_word w -> (acc_from f s w <-> acc_from f t w)).
  assert (npos : 0 < size f) by (pose proof (wf_init _ W); lia).
  destruct (min_run_ok (size f) (part_size (letters f)) (mdelta f) (rev_prev t) (min_init_class f) (min_init_count f) R) as [m (E2 & C1 & C2 & C3 & C4 & C5)]; auto.
  - intros s l Hs Hl. eapply mdelta_lt; eauto.
  - intros s l q Hs Hl. rewrite rev_prev_in, I, Nat.sub_0_r. cbn [plus]. change (length (trans f)) with (size f). change (nth q (trans f) []) with (row_at f q).
    destruct (lrep_ok f W l Hl) as [L1 L2]. split.
    + intros [Hq [c [tos [Hin [-> ->]]]]]. split; [lia|].
      destruct (wf_rows _ W q) as [Sr _]. apply (msorted_find Sr) in Hin.
      assert (Rc : is_rep (letters f) c) by (apply (do_keys _ D q); unfold pres; congruence).
      rewrite (mdelta_row f W D q c ltac:(lia) Rc) in Hin. injection Hin as <-. reflexivity.
    + intros [Hq <-]. split; [lia|]. exists (lrep f l), [mdelta f q l]. splits; auto.
      apply mfind_in. rewrite (mdelta_row f W D q _ Hq L1). rewrite L2. auto.
  - intros s l Hs Hl. apply rev_prev_nodup; auto.
  - intros s Hs. unfold min_init_class, min_init_count. destruct (size f) eqn:Sz; [lia|]. rewrite <- Sz in *.
    destruct (existsb _ _) eqn:Ex; [destruct (Bool.eqb _ _); lia|].
    destruct (Bool.eqb (is_final f s) (is_final f 0)) eqn:Eb; [lia|]. exfalso.
    assert (X : existsb (fun q => negb (Bool.eqb (is_final f q) (is_final f 0))) (seq 0 (size f)) = true); [|congruence].
    apply existsb_exists. exists s. split; [apply in_seq; lia|]. rewrite Eb. auto.
  - intros c Hc. unfold min_init_class, min_init_count in *. destruct (size f) eqn:Sz; [lia|]. rewrite <- Sz in *.
    destruct c as [|c].
    + exists 0. split; auto. rewrite eqb_reflx. auto.
    + destruct (existsb _ _) eqn:Ex; [|lia]. apply existsb_exists in Ex as [s [H1 H2]]. apply in_seq in H1.
      exists s. split; [lia|]. apply negb_true_iff in H2. rewrite H2. lia.
  - intros s q [A [B _]]. auto.
  - intros s q [A [B C]]. unfold min_init_class. specialize (C [] ltac:(constructor)). rewrite !(acc_nil f W D) in C.
    unfold is_final. destruct (smem s (finals f)) eqn:X, (smem q (finals f)) eqn:Y; auto.
    + apply smem_in in X. apply smem_false in Y. tauto.
    + apply smem_in in Y. apply smem_false in X. tauto.
  - intros s q l [A [B C]] Hl. destruct (lrep_ok f W l Hl) as [L1 L2].
    pose proof (wp_range _ Wp _ _ L1) as [V1 V2].
    assert (Es : edge f s (lrep f l) (mdelta f s l)) by (apply mdelta_edge; auto; exists (lrep f l); rewrite L2; auto).
    assert (Eq : edge f q (lrep f l) (mdelta f q l)) by (apply mdelta_edge; auto; exists (lrep f l); rewrite L2; auto).
    unfold R; splits; try (eapply mdelta_lt; eauto).
    intros w Hw. rewrite <- (acc_step f W D _ _ _ w Es), <- (acc_step f W D _ _ _ w Eq). apply C. constructor; auto. split; auto.
  - rewrite E2. cbn [bind]. exists (min_accept f (m_class m) (m_count m)), (m_class m).
    assert (Sz : size (min_accept f (m_class m) (m_count m)) = m_count m) by (eapply q_size; eauto).
    pose proof (macc_ok f W D (m_class m) (m_count m) C1) as [M I0].
    splits; auto.
    + eapply q_wf; eauto.
    + eapply q_det; eauto.
    + pose proof (ma_det _ _ _ _ _ M) as X. cbn in X. cbn. congruence.
    + exact (ma_sp _ _ _ _ _ M).
    + rewrite Sz. auto.
    + rewrite Sz. auto.
    + intros s w q Hs P. eapply q_path; eauto.
    + intros s w Hs. eapply q_acc; eauto.
    + rewrite Sz. intros x y Hx Hy H. destruct (C2 x Hx) as [s [Hs <-]]. destruct (C2 y Hy) as [s' [Hs' <-]].
      apply C5. unfold R; splits; auto. intros w Hw. specialize (H w Hw).
      rewrite !(q_acc f W D (m_class m) (m_count m) C1 C2 C3 C4) in H; auto.
Qed.
