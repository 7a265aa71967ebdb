(** SimpleScanner: what its table shows. *)
From Coq Require Import List Bool Arith NArith Lia.
From Verif Require Import Util Spec PartitionModel FsmModel DetermineModel MinimizeModel PartitionProofs FsmSem FsmBasics DetProofs MinProofs CompProofs Api ApiProofs
  TagFacts RunModel RunSpec ScannerModel ScannerSpec ScannerProofs ScannerBuild ScannerCompile SimpleModel.
Import ListNotations.
Local Open Scope N_scope.
Local Opaque all_letters all_bytes.

(** ** Folds in the result monad *)
Lemma foldm_ext : forall S A (f g : S -> A -> res S) l s, (forall s x, In x l -> f s x = g s x) -> foldm f l s = foldm g l s.
Proof.
  intros S A f g. induction l as [|x l IH]; intros s H; cbn [foldm]; auto.
  rewrite H by (left; auto). destruct (g s x); cbn [bind]; auto. apply IH. intros; apply H; right; auto.
Qed.
Lemma foldm_map : forall S A B (f : S -> B -> res S) (h : A -> B) l s, foldm f (map h l) s = foldm (fun s x => f s (h x)) l s.
Proof. intros S A B f h. induction l as [|x l IH]; intros s; cbn [foldm map]; auto. destruct (f s (h x)); cbn [bind]; auto. Qed.
Lemma foldm_app : forall S A (f : S -> A -> res S) l l' s, foldm f (l ++ l') s = bind (foldm f l s) (foldm f l').
Proof. intros S A f. induction l as [|x l IH]; intros l' s; cbn [foldm app]; auto. destruct (f s x); cbn [bind]; auto. Qed.
Lemma foldm_flat : forall S A B (f : S -> B -> res S) (h : A -> list B) l s, foldm f (flat_map h l) s = foldm (fun s x => foldm f (h x) s) l s.
Proof.
  intros S A B f h. induction l as [|x l IH]; intros s; cbn [foldm flat_map]; auto.
  rewrite foldm_app. destruct (foldm f (h x) s); cbn [bind]; auto.
Qed.

(** ** A list of stores *)
Definition store (ws : list N) (iv : N * N) : res (list N) := simple_write ws (fst iv) (snd iv).
Lemma stores_ok : forall l ws, (forall iv, In iv l -> fst iv < N.of_nat (length ws)) ->
  exists ws', foldm store l ws = Ok ws' /\ length ws' = length ws /\
    forall i x, (forall v, In (N.of_nat i, v) l -> v = x) -> (exists v, In (N.of_nat i, v) l) \/ nth_error ws i = Some x ->
      (i < length ws)%nat -> nth_error ws' i = Some x.
Proof.
  induction l as [|[j v] l IH]; intros ws H.
  - exists ws. splits; auto. intros i x _ [[v []]|E] _; auto.
  - pose proof (H _ (or_introl eq_refl)) as Hj. cbn [fst] in Hj.
    destruct (IH (upd (N.to_nat j) (fun _ => v) ws)) as (ws' & E & L & X).
    { intros iv Hiv. rewrite upd_length. apply H; right; auto. }
    exists ws'. cbn [foldm]. unfold store at 1. cbn [fst snd]. unfold simple_write. rewrite (proj2 (N.ltb_lt _ _) Hj). cbn [bind].
    rewrite upd_length in *. splits; auto. intros i x A B C. apply X; [intros; apply A; right; auto| |auto].
    destruct B as [[v' B]|B].
    + assert (v' = x) by (apply A; auto). subst v'. destruct B as [B|B]; [|left; eauto].
      injection B as -> ->. right. rewrite nth_error_upd. rewrite Nnat.Nat2N.id, Nat.eqb_refl.
      destruct (nth_error ws i) eqn:Y; [reflexivity|]. apply nth_error_None in Y. lia.
    + right. rewrite nth_error_upd. destruct (Nat.eqb_spec i (N.to_nat j)); auto. rewrite B. cbn [option_map]. f_equal. apply A. left. f_equal; lia.
Qed.

(** ** What a table shows *)
Definition simple_table (t : machine) (buf : N) (ws : list N) : Prop :=
  length ws = (m_states t * 265)%nat /\
  (forall q, (q < m_states t)%nat -> exists x, nth_error ws (q * 265) = Some x /\ (x = 0 <-> m_final t q = false)) /\
  (forall q c, (q < m_states t)%nat -> letter c ->
     nth_error ws (q * 265 + 1 + N.to_nat c) = Some (((N.of_nat (m_next t q c) + two64 - N.of_nat q) mod two64 * 265 * 8) mod two64)).
Definition simple_addr (s : simple) (q : nat) : N := p_buf s + (N.of_nat q * 265 + 1) * 8.
Record simple_shows (s : simple) (t : machine) : Prop := {
  ss_ok : machine_ok t;
  ss_table : simple_table t (p_buf s) (p_words s);
  ss_states : p_states s = N.of_nat (m_states t);
  ss_init : p_initial s = simple_addr s (m_start t);
  ss_space : p_buf s + N.of_nat (m_states t) * 265 * 8 <= two64
}.

Section Shows.
  Variables (s : simple) (t : machine).
  Hypothesis H : simple_shows s t.
  Let n := m_states t.

  Lemma simple_read_at : forall i x, nth_error (p_words s) i = Some x -> simple_read s (p_buf s + 8 * N.of_nat i) = Ok x.
  Proof.
    intros i x E. unfold simple_read. destruct (N.ltb_spec (p_buf s + 8 * N.of_nat i) (p_buf s)); [lia|].
    replace (p_buf s + 8 * N.of_nat i - p_buf s) with (N.of_nat i * 8) by lia.
    rewrite N.mod_mul, N.div_mul by discriminate. cbn [N.eqb negb orb]. rewrite Nnat.Nat2N.id, E. reflexivity.
  Qed.
  Lemma simple_final_at : forall q, (q < n)%nat -> simple_final s (simple_addr s q) = Ok (m_final t q).
  Proof.
    intros q Hq. destruct (ss_table _ _ H) as (_ & T & _). destruct (T q Hq) as (x & E & F).
    unfold simple_final. replace (simple_addr s q - 8) with (p_buf s + 8 * N.of_nat (q * 265)) by (unfold simple_addr; lia).
    rewrite (simple_read_at _ _ E). cbn [bind]. f_equal. destruct (N.eqb_spec x 0); destruct (m_final t q); cbn [negb]; auto; intuition congruence.
  Qed.
  Lemma simple_step_at : forall q c, (q < n)%nat -> letter c ->
    (m_next t q c < n)%nat /\ simple_next s (simple_addr s q) c = Ok (simple_addr s (m_next t q c)).
  Proof.
    intros q c Hq Hc. pose proof (mo_next _ (ss_ok _ _ H) q c Hq Hc) as Hr. fold n in Hr. split; auto.
    destruct (ss_table _ _ H) as (_ & _ & T). specialize (T q c Hq Hc).
    pose proof (ss_space _ _ H) as Sp. fold n in Sp.
    unfold simple_next. replace (simple_addr s q + 8 * c) with (p_buf s + 8 * N.of_nat (q * 265 + 1 + N.to_nat c)) by (unfold simple_addr; lia).
    rewrite (simple_read_at _ _ T). cbn [bind]. f_equal. set (r := m_next t q c) in *. unfold two64 in *.
    rewrite <- N.mul_assoc. change (265 * 8) with 2120 in *. change (265 * 8)%nat with 2120%nat in *.
    rewrite N.add_mod_idemp_r by discriminate. unfold simple_addr in *.
    assert (R : (N.of_nat r + 18446744073709551616 - N.of_nat q) mod 18446744073709551616 * 2120 mod 18446744073709551616
      = (N.of_nat r * 2120 + 18446744073709551616 * 2120 - N.of_nat q * 2120) mod 18446744073709551616).
    { rewrite N.mul_mod_idemp_l by discriminate. f_equal. lia. }
    rewrite <- N.add_mod_idemp_r, R, N.add_mod_idemp_r by discriminate.
    replace (p_buf s + (N.of_nat q * 265 + 1) * 8 + (N.of_nat r * 2120 + 18446744073709551616 * 2120 - N.of_nat q * 2120))
      with (p_buf s + (N.of_nat r * 265 + 1) * 8 + 2120 * 18446744073709551616) by lia.
    rewrite N.mod_add by discriminate. apply N.mod_small. lia.
  Qed.
  Lemma simple_index_at : forall q, simple_index s (simple_addr s q) = N.of_nat q.
  Proof.
    intros q. unfold simple_index, simple_addr. change (simple_row * 8) with 2120.
    replace (p_buf s + (N.of_nat q * 265 + 1) * 8 - p_buf s) with (8 + N.of_nat q * 2120) by lia.
    rewrite N.div_add by discriminate. reflexivity.
  Qed.

  Lemma simple_steps : forall w q, (q < n)%nat -> is_word w ->
    steps (simple_ops s) (simple_addr s q) w = Ok (simple_addr s (m_run t q w)) /\ (m_run t q w < n)%nat.
  Proof.
    induction w as [|c w IH]; intros q Hq Hw; [cbn; auto|].
    inversion Hw as [|? ? Hc Hw']; subst. destruct (simple_step_at q c Hq Hc) as [Hr E].
    cbn [steps]. unfold simple_ops at 1. cbn [o_step]. rewrite E. cbn [bind]. unfold m_run. cbn [fold_left]. apply IH; auto.
  Qed.
  Lemma simple_works : works (simple_ops s) (fun a => exists q, (q < n)%nat /\ a = simple_addr s q).
  Proof.
    split; unfold simple_ops; cbn [o_init o_step o_next o_final o_dead].
    - exists (m_start t). split; [apply (mo_start _ (ss_ok _ _ H))|apply (ss_init _ _ H)].
    - intros a c (q & Hq & ->) Hc. destruct (simple_step_at q c Hq Hc). eauto.
    - auto.
    - intros a (q & Hq & ->). rewrite simple_final_at; eauto.
    - eauto.
    - discriminate.
  Qed.
  Lemma simple_accepted_at : forall q, (q < n)%nat -> simple_accepted s (simple_addr s q) = Ok (if m_final t q then [0] else []).
  Proof. intros q Hq. unfold simple_accepted. rewrite simple_final_at; auto. Qed.
End Shows.

(** ** Compilation *)
Lemma in_prod_lists : forall (n : nat) (k : N) q c q' c', c < k -> c' < k -> q * k + c = q' * k + c' -> q = q' /\ c = c'.
Proof.
  intros _ k q c q' c' A B E.
  assert (q = q'). { assert (q = (q * k + c) / k) by (rewrite N.div_add_l, (N.div_small c) by lia; lia).
    assert (q' = (q' * k + c') / k) by (rewrite N.div_add_l, (N.div_small c') by lia; lia). congruence. }
  subst; split; auto; lia.
Qed.

Section Compile.
  Variable g : fsm.
  Hypothesis W : wf g.
  Hypothesis D : det_ok g.
  Hypothesis NT : tags g = [].
  Let n := size g.
  Let p := letters g.
  Let Wp : wf_part p := wf_letters _ W.

  Definition tag_stores : list (N * N) := map (fun q => (N.of_nat q * simple_row, N.lor (fsm_tag g q) (if is_final g q then 1 else 0))) (seq 0 n).
  Definition jump_stores : list (N * N) :=
    flat_map (fun from => flat_map (fun e : N * (nat * list N) => flat_map (fun l => map (fun to =>
      (N.of_nat from * simple_row + 1 + l, ((N.of_nat to + two64 - N.of_nat from) mod two64 * simple_row * 8) mod two64))
      (destinations g from (fst e))) (snd (snd e))) (pset p)) (seq 0 n).

  Lemma tag_foldm : forall ws, foldm (fun ws q => simple_set_tag ws q (N.lor (fsm_tag g q) (if is_final g q then 1 else 0))) (seq 0 n) ws = foldm store tag_stores ws.
  Proof. intros. unfold tag_stores. rewrite foldm_map. reflexivity. Qed.
  Lemma jump_foldm : forall ws, foldm (fun ws from =>
      foldm (fun ws '(c, (_, ms)) =>
        foldm (fun ws l => foldm (fun ws to => simple_set_jump ws from l to) (destinations g from c) ws) ms ws)
      (pset p) ws) (seq 0 n) ws = foldm store jump_stores ws.
  Proof.
    intros. unfold jump_stores. rewrite foldm_flat. apply foldm_ext. intros ws1 from _.
    rewrite foldm_flat. apply foldm_ext. intros ws2 [c [i ms]] _. cbn [fst snd].
    rewrite foldm_flat. apply foldm_ext. intros ws3 l _. rewrite foldm_map. reflexivity.
  Qed.

  Lemma dest_class : forall q c r i ms, (q < n)%nat -> mfind r (pset p) = Some (i, ms) -> In c ms ->
    letter c /\ (nxt g q c < n)%nat /\ destinations g q r = [nxt g q c].
  Proof.
    intros q c r i ms Hq Hr Hc.
    assert (I : mfind c (pinv p) = Some r) by (apply (wp_inv _ Wp); eauto).
    destruct (wp_range _ Wp _ _ I) as [L1 L2]. split; [split; auto|].
    assert (R : part_rep p c = Some r) by (exact I).
    destruct (nxt_ok g W D q c r Hq R) as [X1 X2]. split; auto.
    assert (Rr : part_rep p r = Some r) by (eapply part_rep_rep; eauto).
    rewrite (dest_ok g W D q r Hq Rr). f_equal. unfold nxt, erep. fold p. rewrite R, Rr. reflexivity.
  Qed.

  Lemma jump_in : forall i v, In (i, v) jump_stores <->
    exists q c, (q < n)%nat /\ letter c /\ i = N.of_nat q * 265 + 1 + c /\ v = ((N.of_nat (nxt g q c) + two64 - N.of_nat q) mod two64 * 265 * 8) mod two64.
  Proof.
    intros i v. unfold jump_stores. rewrite in_flat_map. split.
    - intros (q & Hq & X). apply in_seq in Hq. apply in_flat_map in X. destruct X as ([r [j ms]] & Hr & X).
      cbn [fst snd] in X. apply in_flat_map in X. destruct X as (c & Hc & X).
      apply msorted_find in Hr; [|apply (wp_ssorted _ Wp)]. destruct (dest_class q c r j ms) as (L & _ & E); auto; [lia|].
      rewrite E in X. destruct X as [X|[]]. injection X as <- <-. exists q, c. splits; auto. lia.
    - intros (q & c & Hq & Hc & -> & ->). exists q. split; [apply in_seq; lia|].
      destruct (do_all _ D c) as [r Hr]; [apply Hc|apply Hc|].
      assert (X : exists i ms, mfind r (pset p) = Some (i, ms) /\ In c ms) by (apply (wp_inv _ Wp); exact Hr).
      destruct X as (j & ms & Hm & Hc'). apply in_flat_map. exists (r, (j, ms)). split; [apply mfind_in; auto|].
      cbn [fst snd]. apply in_flat_map. exists c. split; auto. destruct (dest_class q c r j ms) as (_ & _ & E); auto. rewrite E. left. reflexivity.
  Qed.

  Lemma tables_ok : exists w1 w2, foldm store tag_stores (repeat 0 (n * N.to_nat simple_row)) = Ok w1 /\ foldm store jump_stores w1 = Ok w2 /\
    forall buf, simple_table (machine_of g []) buf w2.
  Proof.
    change (N.to_nat simple_row) with 265%nat.
    destruct (stores_ok tag_stores (repeat 0 (n * 265))) as (w1 & E1 & L1 & X1).
    { intros iv Hi. unfold tag_stores in Hi. apply in_map_iff in Hi. destruct Hi as (q & <- & Hq). apply in_seq in Hq. cbn [fst].
      change simple_row with 265. rewrite repeat_length. lia. }
    rewrite repeat_length in *. exists w1.
    destruct (stores_ok jump_stores w1) as (w2 & E2 & L2 & X2).
    { intros [i v] Hi. apply jump_in in Hi. destruct Hi as (q & c & Hq & [Hc _] & -> & _). cbn [fst]. rewrite L1. unfold MaxChar in Hc. lia. }
    exists w2. splits; auto. intros buf. unfold simple_table. cbn [machine_of m_states m_final m_next]. fold n. splits; [congruence| |].
    - intros q Hq. exists (N.lor (fsm_tag g q) (if is_final g q then 1 else 0)). split.
      + apply X2; [|right|lia].
        * intros v Hv. apply jump_in in Hv. destruct Hv as (q' & c & _ & [Hc _] & E & _). exfalso. unfold MaxChar in Hc.
          assert (A : N.of_nat q * 265 + 0 = N.of_nat q' * 265 + (1 + c)) by lia.
          apply (in_prod_lists 0) in A; lia.
        * apply X1; [|left|lia].
          -- intros v Hv. unfold tag_stores in Hv. apply in_map_iff in Hv. destruct Hv as (q' & E & _). injection E as E <-.
             change simple_row with 265 in E. assert (Q : q' = q) by lia. rewrite Q. reflexivity.
          -- exists (N.lor (fsm_tag g q) (if is_final g q then 1 else 0)). unfold tag_stores. apply in_map_iff. exists q. split; [f_equal; change simple_row with 265; lia|apply in_seq; lia].
      + unfold fsm_tag. rewrite NT. cbn [mfind]. destruct (is_final g q); cbn; intuition discriminate.
    - intros q c Hq Hc. apply X2.
      + intros v Hv. apply jump_in in Hv. destruct Hv as (q' & c' & _ & [Hc' _] & E & ->). destruct Hc as [Hc _]. unfold MaxChar in *.
        assert (A : N.of_nat q * 265 + (1 + c) = N.of_nat q' * 265 + (1 + c')) by lia.
        apply (in_prod_lists 0) in A; [|lia|lia]. destruct A as [A1 A2]. assert (q = q') by lia. assert (c = c') by lia. subst. reflexivity.
      + left. eexists. apply jump_in. exists q, c. splits; auto. destruct Hc; lia.
      + destruct Hc as [Hc _]. unfold MaxChar in Hc. lia.
  Qed.
End Compile.

Lemma simple_compile_inv : forall buf f s, built f -> simple_compile buf f = Ok s ->
  exists g, canonize f 0 = Ok g /\ wf g /\ det_ok g /\ lang_eq (accepts g) (accepts f) /\ machine_ok (machine_of g []) /\
    p_buf s = buf /\ p_states s = N.of_nat (size g) /\ p_owned s = true /\ p_null s = false /\
    p_initial s = simple_addr s (initial g) /\ simple_table (machine_of g []) buf (p_words s).
Proof.
  intros buf f s B E. unfold simple_compile in E. destruct (canonize f 0) as [g| | |] eqn:C; cbn [bind] in E; try discriminate.
  assert (Bg : built g) by (eapply built_canonize; eauto).
  destruct (canonize_ok f 0 (built_good _ B)) as [(g' & C' & W & D & Dt & L & _)|[C' _]]; [|congruence].
  rewrite C in C'. injection C' as <-.
  destruct (tables_ok g W D (proj1 (built_bare _ Bg))) as (w1 & w2 & E1 & E2 & T).
  rewrite tag_foldm, E1 in E. cbn [bind] in E. rewrite jump_foldm, E2 in E. cbn [bind] in E. apply ok_inj in E. subst s.
  exists g. cbn [p_buf p_states p_owned p_null p_initial p_words]. splits; auto.
  split; cbn [machine_of m_start m_states m_next m_dead]; [apply (wf_init _ W)| |].
  - intros q c Hq [H1 H2]. destruct (do_all _ D c H1 H2) as [r Hr]. eapply nxt_ok; eauto.
  - cbn. discriminate.
Qed.
Lemma simple_compile_total : forall buf f, built f -> determined f = false ->
  (exists s, simple_compile buf f = Ok s /\ p_states s <= 200001) \/ simple_compile buf f = Throw ETooComplicated.
Proof.
  intros buf f B Dt. destruct (canonize_ok f 0 (built_good _ B)) as [(g & C & W & D & Dt' & L & _)|[C _]].
  - left. pose proof (canonize_size f 0 g (built_good _ B) Dt C) as Sz. change (det_limit 0 + 1) with 200001 in Sz.
    assert (Bg : built g) by (eapply built_canonize; eauto).
    unfold simple_compile. rewrite C. cbn [bind]. destruct (tables_ok g W D (proj1 (built_bare _ Bg))) as (w1 & w2 & E1 & E2 & _).
    rewrite tag_foldm, E1. cbn [bind]. rewrite jump_foldm, E2. cbn [bind]. eexists. split; [reflexivity|]. exact Sz.
  - right. unfold simple_compile. rewrite C. reflexivity.
Qed.
