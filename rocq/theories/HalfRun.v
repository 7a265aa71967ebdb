(** Half-final scanners count, for each regexp, the prefixes of the text in its language. *)
From Coq Require Import List Bool Arith NArith Lia Sorted.
From Verif Require Import Util Spec FsmModel RunModel RunSpec ScannerModel ScannerSpec ScannerProofs GlueProofs ScannerApi ScannerClosure HalfModel HalfSpec.
Import ListNotations.
Local Opaque two64.

Definition memN (i : N) (l : list N) : bool := existsb (N.eqb i) l.
Lemma memN_in : forall i l, memN i l = true <-> In i l.
Proof.
  intros i l. unfold memN. rewrite existsb_exists. split.
  - intros (x & H & E). apply N.eqb_eq in E. subst. auto.
  - intros H. exists i. split; auto. apply N.eqb_refl.
Qed.

Lemma bump_all : forall ids ms, NoDup ids -> Forall (fun i => (i < N.of_nat (length ms))%N) ids ->
  exists ms', foldm bump ids ms = Ok ms' /\ length ms' = length ms /\
    forall j x, nth_error ms j = Some x -> nth_error ms' j = Some (if memN (N.of_nat j) ids then (x + 1) mod two64 else x)%N.
Proof.
  induction ids as [|i ids IH]; intros ms ND B; [exists ms; cbn; auto|].
  apply NoDup_cons_iff in ND as [NI ND]. apply Forall_cons_iff in B as [B1 B2]. cbn [foldm].
  unfold bump at 1. destruct (N.ltb_spec i (N.of_nat (length ms))) as [_|X]; [|lia]. cbn [bind].
  destruct (IH (upd (N.to_nat i) (fun x => (x + 1) mod two64)%N ms) ND) as (ms' & E & Ln & N'); [rewrite upd_length; exact B2|].
  rewrite upd_length in Ln. exists ms'. split; [exact E|]. split; [exact Ln|]. intros j x Hx.
  assert (Hu := nth_error_upd ms (N.to_nat i) (fun x => (x + 1) mod two64)%N j). rewrite Hx in Hu. cbn [option_map] in Hu.
  destruct (Nat.eqb_spec j (N.to_nat i)) as [->|Ne].
  - rewrite (N' _ _ Hu). rewrite N2Nat.id. unfold memN at 2. cbn [existsb]. rewrite N.eqb_refl. cbn [orb].
    destruct (memN i ids) eqn:Mi; auto. apply memN_in in Mi. destruct (NI Mi).
  - rewrite (N' _ _ Hu). unfold memN at 2. cbn [existsb]. destruct (N.eqb_spec (N.of_nat j) i) as [<-|_]; [rewrite Nat2N.id in Ne; lia|]. reflexivity.
Qed.

Section Run.
  Variables (k : kind) (s : scanner) (Ls : list lang).
  Hypothesis F : faithful k s Ls.
  Variables (cls : N -> nat) (t : machine).
  Hypothesis M : machine_ok t.
  Hypothesis Sh : shows k s cls t.
  Hypothesis T : tells t (s_regexps s) Ls.

  Definition hit (i : N) (w : word) : bool := memN i (m_accepted t (m_run t (m_start t) w)).
  Definition hits (i : N) (w : word) : list nat := filter (fun j => hit i (firstn j w)) (seq 0 (S (length w))).

  Lemma hits_nil : forall i, length (hits i []) = if hit i [] then 1 else 0.
  Proof. intros i. unfold hits. cbn [length seq filter firstn]. destruct (hit i []); reflexivity. Qed.
  Lemma hits_snoc : forall i w c, length (hits i (w ++ [c])) = length (hits i w) + if hit i (w ++ [c]) then 1 else 0.
  Proof.
    intros i w c. unfold hits. rewrite app_length. cbn [length]. rewrite Nat.add_1_r, (seq_S (S (length w))), filter_app, app_length. f_equal.
    - f_equal. apply filter_ext_in. intros j Hj. apply in_seq in Hj. rewrite firstn_app. replace (j - length w) with 0 by lia. rewrite app_nil_r. reflexivity.
    - cbn [filter plus]. rewrite firstn_all2 by (rewrite app_length; cbn [length]; lia). destruct (hit i (w ++ [c])); reflexivity.
  Qed.
  Lemma filter_le : forall A (f : A -> bool) l, length (filter f l) <= length l.
  Proof. induction l as [|x l IH]; cbn [filter length]; auto. destruct (f x); cbn [length]; lia. Qed.
  Lemma hits_le : forall i w, length (hits i w) <= S (length w).
  Proof. intros i w. unfold hits. rewrite <- (seq_length (S (length w)) 0) at 2. apply filter_le. Qed.
  Lemma hit_lang : forall i w, is_word w -> (hit i w = true <-> exists L, nth_error Ls (N.to_nat i) = Some L /\ L w).
  Proof. intros i w Hw. unfold hit. rewrite memN_in. apply (te_acc _ _ _ T); auto. Qed.

  Definition state_ok (w : word) (st : hstate) : Prop := h_state st = addr k s (m_run t (m_start t) w) /\ length (h_matched st) = N.to_nat (s_regexps s) /\
    forall j, j < N.to_nat (s_regexps s) -> nth_error (h_matched st) j = Some (N.of_nat (length (hits (N.of_nat j) w))).

  Lemma take_ok : forall w ms (old : N -> nat), is_word w -> length ms = N.to_nat (s_regexps s) ->
    (forall j, j < N.to_nat (s_regexps s) -> nth_error ms j = Some (N.of_nat (old (N.of_nat j)))) -> (forall i, (N.of_nat (old i) + 1 < two64)%N) ->
    exists st, h_take k s (mkH (addr k s (m_run t (m_start t) w)) ms) = Ok st /\ h_state st = addr k s (m_run t (m_start t) w) /\ length (h_matched st) = N.to_nat (s_regexps s) /\
      forall j, j < N.to_nat (s_regexps s) -> nth_error (h_matched st) j = Some (N.of_nat (old (N.of_nat j) + if hit (N.of_nat j) w then 1 else 0)).
  Proof.
    intros w ms old Hw Ln Hm Hb. pose proof (run_lt t M w (m_start t) (mo_start _ M) Hw) as Hq.
    unfold h_take. cbn [h_state h_matched]. rewrite (final_addr k s cls t Sh _ Hq). cbn [bind].
    destruct (m_final t (m_run t (m_start t) w)) eqn:Fin.
    - rewrite (accepted_addr k s cls t Sh _ Hq). cbn [bind]. destruct (te_ids _ _ _ T _ Hq) as [So Bo].
      destruct (bump_all (m_accepted t (m_run t (m_start t) w)) ms) as (ms' & E & L' & N').
      + clear - So. induction So as [|x l H IH Hf]; constructor; auto. intros X. rewrite Forall_forall in Hf. specialize (Hf x X). lia.
      + rewrite Ln, N2Nat.id. exact Bo.
      + rewrite E. cbn [bind]. eexists. split; [reflexivity|]. cbn [h_state h_matched]. split; [reflexivity|]. split; [lia|].
        intros j Hj. rewrite (N' j _ (Hm j Hj)). f_equal. unfold hit. destruct (memN _ _).
        * rewrite N.mod_small by auto. lia.
        * lia.
    - eexists. split; [reflexivity|]. cbn [h_state h_matched]. split; [reflexivity|]. split; [exact Ln|]. intros j Hj. rewrite (Hm j Hj). do 2 f_equal.
      destruct (hit (N.of_nat j) w) eqn:H; [|lia]. apply (hit_lang _ _ Hw) in H as (L & N1 & X).
      assert (Y : m_final t (m_run t (m_start t) w) = true) by (apply (te_final _ _ _ T); auto; exists L; split; auto; eapply nth_error_In; eauto).
      congruence.
  Qed.

  Lemma init_ok : exists st0, h_init k s = Ok st0 /\ state_ok [] st0.
  Proof.
    unfold h_init. rewrite (sh_init _ _ _ _ Sh).
    destruct (take_ok [] (repeat 0%N (N.to_nat (s_regexps s))) (fun _ => 0)) as (st & E & E1 & E2 & E3).
    - constructor.
    - apply repeat_length.
    - intros j Hj. rewrite (nth_error_nth' _ 0%N) by (rewrite repeat_length; exact Hj). rewrite nth_repeat. reflexivity.
    - intros i. reflexivity.
    - exists st. split; [exact E|]. split; [exact E1|]. split; [exact E2|]. intros j Hj. rewrite (E3 j Hj), hits_nil. reflexivity.
  Qed.
  Lemma step_ok : forall w c st, is_word (w ++ [c]) -> (N.of_nat (length w) + 2 < two64)%N -> state_ok w st ->
    exists st', h_step k s st c = Ok st' /\ state_ok (w ++ [c]) st'.
  Proof.
    intros w c st Hw Hl (E1 & E2 & E3). unfold is_word in Hw. rewrite Forall_app, Forall_cons_iff in Hw. destruct Hw as (Hw & Hc & _).
    unfold h_step, h_next. rewrite E1. rewrite (next_addr k s cls t Sh M) by (auto using run_lt, (mo_start _ M)). cbn [bind].
    assert (R : m_next t (m_run t (m_start t) w) c = m_run t (m_start t) (w ++ [c])) by (unfold m_run; rewrite fold_left_app; reflexivity).
    rewrite R. destruct (take_ok (w ++ [c]) (h_matched st) (fun i => length (hits i w))) as (st' & E & X1 & X2 & X3).
    - apply Forall_app. split; auto.
    - exact E2.
    - exact E3.
    - intros i. pose proof (hits_le i w). lia.
    - exists st'. split; [exact E|]. split; [exact X1|]. split; [exact X2|]. intros j Hj. rewrite (X3 j Hj), hits_snoc. reflexivity.
  Qed.
  Lemma steps_state : forall v u st0 st, is_word (u ++ v) -> (N.of_nat (length (u ++ v)) + 1 < two64)%N -> state_ok u st ->
    exists st', steps (half_ops k s st0) st v = Ok st' /\ state_ok (u ++ v) st'.
  Proof.
    induction v as [|c v IH]; intros u st0 st Hw Hl H; [exists st; rewrite app_nil_r; cbn; auto|].
    replace (u ++ c :: v) with ((u ++ [c]) ++ v) in * by (rewrite <- app_assoc; reflexivity).
    destruct (step_ok u c st) as (st1 & E & H1); auto.
    - unfold is_word in *. apply Forall_app in Hw as [Hw _]. exact Hw.
    - rewrite !app_length in Hl. cbn [length] in Hl. lia.
    - cbn [steps half_ops o_step]. rewrite E. cbn [bind]. apply (IH (u ++ [c])); auto.
  Qed.

  Lemma hits_prefixes : forall i L w, is_word w -> nth_error Ls (N.to_nat i) = Some L -> prefixes_in L w (length (hits i w)).
  Proof.
    intros i L w Hw E. exists (hits i w). split; [apply NoDup_filter, seq_NoDup|]. split; [|reflexivity].
    intros j. unfold hits. rewrite filter_In, in_seq. rewrite hit_lang by (unfold is_word in *; rewrite Forall_forall in *; intros x Hx; apply Hw; revert Hx; rewrite <- (firstn_skipn j w) at 2; intros; apply in_or_app; auto).
    rewrite E. split.
    - intros (A & L' & X & Y). injection X as <-. split; [lia|auto].
    - intros (A & B). split; [lia|]. eauto.
  Qed.
  Lemma count_regexps : N.of_nat (length Ls) = s_regexps s \/ Ls = [].
  Proof. pose proof (fa_count _ _ _ F) as C. unfold s_count in C. destruct (s_null s) eqn:Nu; [right; apply (fa_null _ _ _ F); auto|left; lia]. Qed.
  Lemma id_small : forall i L, nth_error Ls (N.to_nat i) = Some L -> N.to_nat i < N.to_nat (s_regexps s).
  Proof.
    intros i L E. assert (N.to_nat i < length Ls) by (apply nth_error_Some; congruence). destruct count_regexps as [C|C]; [lia|]. subst Ls. cbn [length] in *. lia.
  Qed.

  Lemma filter_sorted : forall (f : N -> bool) l, StronglySorted N.lt l -> StronglySorted N.lt (filter f l).
  Proof.
    induction 1 as [|x l H IH Hf]; cbn [filter]; [constructor|]. destruct (f x); auto. constructor; auto.
    rewrite Forall_forall in *. intros y Hy. apply filter_In in Hy as [Hy _]. auto.
  Qed.
  Lemma seq_sorted : forall n m, StronglySorted N.lt (map N.of_nat (seq m n)).
  Proof.
    induction n as [|n IH]; intros m; cbn [seq map]; constructor; auto. rewrite Forall_forall. intros x Hx. apply in_map_iff in Hx as (y & <- & Hy). apply in_seq in Hy. lia.
  Qed.

  Lemma accepted_ok : forall w st, is_word w -> state_ok w st -> StronglySorted N.lt (h_accepted st) /\
    forall i, In i (h_accepted st) <-> exists L u v, nth_error Ls (N.to_nat i) = Some L /\ w = u ++ v /\ L u.
  Proof.
    intros w st Hw (E1 & E2 & E3). unfold h_accepted. split; [apply filter_sorted, seq_sorted|]. intros i.
    rewrite filter_In, in_map_iff. split.
    - intros ((j & <- & Hj) & X). apply in_seq in Hj. rewrite Nat2N.id in *. rewrite (nth_error_nth _ _ 0%N (E3 j ltac:(lia))) in X.
      destruct (hits (N.of_nat j) w) as [|p l] eqn:Hp; [discriminate X|].
      assert (In p (hits (N.of_nat j) w)) as Y by (rewrite Hp; left; reflexivity). unfold hits in Y. apply filter_In in Y as [_ Y].
      assert (P : is_word (firstn p w)) by (unfold is_word in *; rewrite Forall_forall in *; intros x Hx; apply Hw; revert Hx; rewrite <- (firstn_skipn p w) at 2; intros; apply in_or_app; auto).
      apply (hit_lang _ _ P) in Y as (L & N1 & Y). rewrite Nat2N.id in N1. exists L, (firstn p w), (skipn p w). split; auto. split; auto. symmetry. apply firstn_skipn.
    - intros (L & u & v & N1 & -> & X). pose proof (id_small i L N1) as Hi. split; [exists (N.to_nat i); split; [apply N2Nat.id|apply in_seq; lia]|].
      rewrite (nth_error_nth _ _ 0%N (E3 (N.to_nat i) Hi)), N2Nat.id. destruct (hits_prefixes i L _ Hw N1) as (js & ND & I & Lj). rewrite <- Lj.
      destruct js as [|p l]; [|reflexivity]. exfalso. apply (I (length u)). rewrite app_length. split; [lia|]. rewrite firstn_app, Nat.sub_diag, firstn_all. cbn [firstn]. rewrite app_nil_r. exact X.
  Qed.
End Run.

(** Initialize, then [w] letter by letter, leads to the state [st]. *)
Definition half_reads (k : kind) (s : scanner) (w : word) (st : hstate) : Prop :=
  exists st0, h_init k s = Ok st0 /\ steps (half_ops k s st0) st0 w = Ok st.

(** What a HalfFinalScanner::State shows after Initialize and reading [w]. *)
Definition counts (k : kind) (s : scanner) (Ls : list lang) : Prop := forall w, is_word w -> (N.of_nat (length w) + 1 < two64)%N ->
  exists st0 st, h_init k s = Ok st0 /\ steps (half_ops k s st0) st0 w = Ok st /\
    (forall i L, nth_error Ls (N.to_nat i) = Some L -> exists n, h_result st i = Ok (N.of_nat n) /\ prefixes_in L w n) /\
    StronglySorted N.lt (h_accepted st) /\
    (forall i, In i (h_accepted st) <-> exists L u v, nth_error Ls (N.to_nat i) = Some L /\ w = u ++ v /\ L u) /\
    (exists fin, o_final (half_ops k s st0) st = Ok fin /\ (fin = true <-> any_of Ls w)) /\
    (exists dead, o_dead (half_ops k s st0) st = Ok dead /\ (dead = true <-> forall L v, In L Ls -> is_word v -> ~ L (w ++ v))).

Lemma obtained_counts : forall k s Ls, obtained k s Ls -> counts k s Ls.
Proof.
  intros k s Ls O w Hw Hl. apply obtained_faithful in O. pose proof O as [_ _ _ _ (cls & t & M & Sh & T)].
  destruct (init_ok k s Ls cls t M Sh T) as (st0 & E0 & S0). exists st0.
  destruct (steps_state k s Ls cls t M Sh T w [] st0 st0 Hw Hl S0) as (st & E & S1). cbn [app] in S1. exists st.
  split; [exact E0|]. split; [exact E|].
  destruct (accepted_ok k s Ls O t T w st Hw S1) as [A1 A2].
  pose proof (run_lt t M w (m_start t) (mo_start _ M) Hw) as Hq. destruct S1 as (X1 & X2 & X3).
  split; [|split; [exact A1|split; [exact A2|]]].
  - intros i L N1. exists (length (hits t i w)). split; [|eapply hits_prefixes; eauto]. unfold h_result.
    rewrite X3 by (eapply id_small; eauto). rewrite N2Nat.id. reflexivity.
  - cbn [half_ops o_final o_dead]. rewrite X1, (final_addr k s cls t Sh _ Hq), (dead_addr k s cls t Sh _ Hq). split.
    + eexists. split; [reflexivity|]. apply (te_final _ _ _ T); auto.
    + eexists. split; [reflexivity|]. apply (te_dead _ _ _ T); auto.
Qed.
