(** Table scanners in memory simulate the machine they were built for. *)
From Coq Require Import List Bool Arith NArith Lia.
From Verif Require Import Util Spec PartitionModel FsmModel DetermineModel MinimizeModel RunModel RunSpec RunProofs PrefixProofs
  ScannerModel ScannerSpec.
Import ListNotations.
Local Open Scope N_scope.

(** ** Arithmetic *)
Lemma align_down_pow : forall t p, align_down t (2 ^ p) = t / 2 ^ p * 2 ^ p.
Proof.
  intros t p. unfold align_down. replace (2 ^ p - 1) with (N.ones p) by (rewrite N.ones_equiv; lia).
  rewrite N.ldiff_ones_r, N.shiftl_mul_pow2, N.shiftr_div_pow2. reflexivity.
Qed.
Lemma align_up_pow : forall t p, align_up t (2 ^ p) = (t + (2 ^ p - 1)) / 2 ^ p * 2 ^ p.
Proof. intros t p. apply (align_down_pow (t + (2 ^ p - 1)) p). Qed.
Lemma align_up_facts : forall t p, t <= align_up t (2 ^ p) < t + 2 ^ p /\ align_up t (2 ^ p) mod 2 ^ p = 0.
Proof.
  intros t p. rewrite align_up_pow. assert (P : 2 ^ p <> 0) by (apply N.pow_nonzero; lia).
  split; [|apply N.mod_mul; auto].
  pose proof (N.div_mod (t + (2 ^ p - 1)) (2 ^ p) P). pose proof (N.mod_lt (t + (2 ^ p - 1)) (2 ^ p) P).
  set (q := (t + (2 ^ p - 1)) / 2 ^ p) in *. set (r := (t + (2 ^ p - 1)) mod 2 ^ p) in *. rewrite (N.mul_comm q).
  set (z := 2 ^ p * q) in *. lia.
Qed.

Lemma tsz_pos : forall k, 0 < tsz k. Proof. intros [[] n]; reflexivity. Qed.
Lemma row_size_facts : forall k l, l + header_size k <= row_size k l /\ row_bytes k l mod 16 = 0 /\ 0 < row_bytes k l.
Proof.
  intros k l. unfold row_bytes, row_size.
  assert (H0 : 0 < header_size k).
  { unfold header_size, tsz. destruct (k_reloc k).
    - replace ((4 * N.of_nat (k_nmask k) + 1) * 8) with ((8 * N.of_nat (k_nmask k) + 2) * 4) by lia. rewrite N.div_mul by lia. lia.
    - rewrite N.div_mul by lia. lia. }
  set (t := l + header_size k) in *. assert (0 < t) by (unfold t; lia). clearbody t. unfold tsz. destruct (k_reloc k).
  - change (16 / 4) with (2 ^ 2). destruct (align_up_facts t 2) as [A B]. split; [lia|]. split; [|lia].
    apply N.mod_divide in B; [|discriminate]. destruct B as [z B]. rewrite B. change (2 ^ 2) with 4.
    replace (z * 4 * 4) with (z * 16) by lia. apply N.mod_mul. discriminate.
  - change (16 / 8) with (2 ^ 1). destruct (align_up_facts t 1) as [A B]. split; [lia|]. split; [|lia].
    apply N.mod_divide in B; [|discriminate]. destruct B as [z B]. rewrite B. change (2 ^ 1) with 2.
    replace (z * 2 * 8) with (z * 16) by lia. apply N.mod_mul. discriminate.
Qed.

(** Going along the difference of two addresses at most 2^31 apart. *)
Lemma go_diff : forall k a b, a < two64 -> b < two64 ->
  (k_reloc k = true -> b < a + two31 /\ a <= b + two31) -> go k a (diff k a b) = b.
Proof.
  intros k a b Ha Hb H. unfold go, diff. destruct (k_reloc k); auto. destruct (H eq_refl) as [H1 H2]. clear H.
  unfold sign_extend. destruct (N.le_gt_cases a b) as [L|L].
  - replace (b + two64 - a) with (b - a + 1 * two64) by lia. rewrite N.mod_add by discriminate.
    rewrite (N.mod_small (b - a)) by lia. rewrite (N.mod_small (b - a) two32) by (unfold two31, two32 in *; lia).
    destruct (N.ltb_spec (b - a) two31); [|lia]. replace (a + (b - a)) with b by lia. apply N.mod_small. auto.
  - rewrite (N.mod_small (b + two64 - a)) by lia.
    assert (E : (b + two64 - a) mod two32 = b + two32 - a).
    { replace (b + two64 - a) with ((b + two32 - a) + 4294967295 * two32) by (unfold two64, two32, two31 in *; lia).
      rewrite N.mod_add by discriminate. apply N.mod_small. unfold two31, two32 in *; lia. }
    rewrite E. destruct (N.ltb_spec (b + two32 - a) two31); [unfold two31, two32 in *; lia|].
    replace (a + (b + two32 - a + (two64 - two32))) with (b + 1 * two64) by (unfold two31, two32, two64 in *; lia).
    rewrite N.mod_add by discriminate. apply N.mod_small. auto.
Qed.

(** The masks of a row, given which bytes loop. *)
Inductive masks_ok (n : nat) (loops : N -> Prop) : list N -> Prop :=
| masks_none : n = 0%nat -> masks_ok n loops []
| masks_no_shortcut : forall ms, (0 < n)%nat -> length ms = (4 * n)%nat -> get_mask 0 ms = NO_SHORTCUT -> masks_ok n loops ms
| masks_no_exit : forall ms, (0 < n)%nat -> length ms = (4 * n)%nat -> get_mask 0 ms = NO_EXIT ->
    (forall c, byte c -> loops c) -> masks_ok n loops ms
| masks_exits : forall b bs, (S (length bs) <= n)%nat -> Forall byte (b :: bs) -> NoDup (b :: bs) ->
    (forall c, byte c -> ~ In c (b :: bs) -> loops c) ->
    masks_ok n loops (flat_map (fun c => repeat (fill_size_t c) 4) ((b :: bs) ++ repeat (last (b :: bs) 0) (n - S (length bs)))).

Record shows (k : kind) (s : scanner) (cls : N -> nat) (t : machine) : Prop := {
  sh_placed : placed k s;
  sh_states : s_states s = N.of_nat (m_states t);
  sh_rows : length (s_rows s) = m_states t;
  sh_init : s_initial s = index_to_state k s (N.of_nat (m_start t));
  sh_lettab : length (s_letters s) = 264%nat;
  sh_letters : forall c, letter c -> nth_error (s_letters s) (N.to_nat c) = Some (N.of_nat (cls c) + header_size k) /\ N.of_nat (cls c) < s_nletters s;
  sh_row : forall i r, nth_error (s_rows s) i = Some r ->
    length (r_jumps r) = N.to_nat (s_nletters s) /\
    (forall l, (l < N.to_nat (s_nletters s))%nat -> exists c, letter c /\ cls c = l) /\
    (forall c, letter c -> nth_error (r_jumps r) (cls c) =
       Some (diff k (index_to_state k s (N.of_nat i)) (index_to_state k s (N.of_nat (m_next t i c))))) /\
    negb (N.land (r_flags r) FinalFlag =? 0) = m_final t i /\
    negb (N.land (r_flags r) DeadFlag =? 0) = m_dead t i /\
    masks_ok (k_nmask k) (fun c => m_next t i c = i) (r_masks r);
  sh_acc : forall i, (i < m_states t)%nat -> exists b, nth_error (s_index s) i = Some b /\
    until_end (skipn (N.to_nat b) (s_final s)) = Ok (m_accepted t i)
}.

Section Shows.
  Variables (k : kind) (s : scanner) (cls : N -> nat) (t : machine).
  Hypothesis S : shows k s cls t.
  Hypothesis M : machine_ok t.
  Let nl := s_nletters s.
  Definition addr (i : nat) : N := index_to_state k s (N.of_nat i).

  Lemma addr_lt : forall i, (i < m_states t)%nat -> addr i < two64.
  Proof.
    intros i H. destruct (sh_placed _ _ _ _ S) as [_ Sp _]. rewrite (sh_states _ _ _ _ S) in Sp.
    destruct (row_size_facts k nl) as (_ & _ & P). unfold addr, index_to_state, nl in *. nia.
  Qed.
  Lemma state_index_addr : forall i, state_index k s (addr i) = N.of_nat i.
  Proof.
    intros i. unfold state_index, addr, index_to_state. destruct (row_size_facts k nl) as (_ & _ & P). unfold nl in *.
    replace (s_base s + N.of_nat i * row_bytes k (s_nletters s) - s_base s) with (N.of_nat i * row_bytes k (s_nletters s)) by lia.
    apply N.div_mul. lia.
  Qed.
  Lemma addr_inj : forall i j, addr i = addr j -> i = j.
  Proof. intros i j E. pose proof (state_index_addr i). rewrite E, state_index_addr in H. lia. Qed.
  Lemma header_at_addr : forall i, header_at k s (addr i) = match nth_error (s_rows s) i with Some r => Ok r | None => UB end.
  Proof.
    intros i. unfold header_at. rewrite state_index_addr, Nat2N.id.
    destruct (row_size_facts k nl) as (_ & _ & P). unfold addr, index_to_state, nl in *.
    destruct (N.leb_spec (s_base s) (s_base s + N.of_nat i * row_bytes k (s_nletters s))); [|nia].
    replace (s_base s + N.of_nat i * row_bytes k (s_nletters s) - s_base s) with (N.of_nat i * row_bytes k (s_nletters s)) by lia.
    rewrite N.mod_mul by lia. reflexivity.
  Qed.
  Lemma row_exists : forall i, (i < m_states t)%nat -> exists r, nth_error (s_rows s) i = Some r /\ header_at k s (addr i) = Ok r.
  Proof.
    intros i H. rewrite <- (sh_rows _ _ _ _ S) in H. apply nth_error_Some in H. rewrite header_at_addr.
    destruct (nth_error (s_rows s) i) as [r|]; [exists r; auto|congruence].
  Qed.
  Lemma go_addr : forall i j, (i < m_states t)%nat -> (j < m_states t)%nat -> go k (addr i) (diff k (addr i) (addr j)) = addr j.
  Proof.
    intros i j Hi Hj. apply go_diff; auto using addr_lt. intros R. pose proof (pl_reloc _ _ (sh_placed _ _ _ _ S) R) as X.
    rewrite (sh_states _ _ _ _ S) in X. destruct (row_size_facts k nl) as (_ & _ & P).
    unfold addr, index_to_state, nl in *. split; nia.
  Qed.

  Lemma next_addr : forall i c, (i < m_states t)%nat -> letter c -> s_next k s (addr i) c = Ok (addr (m_next t i c)).
  Proof.
    intros i c Hi Hc. unfold s_next. destruct (sh_letters _ _ _ _ S c Hc) as [-> Hl].
    destruct (row_exists i Hi) as [r [Er ->]]. cbn [bind].
    destruct (N.ltb_spec (N.of_nat (cls c) + header_size k) (header_size k)); [lia|].
    replace (N.of_nat (cls c) + header_size k - header_size k) with (N.of_nat (cls c)) by lia. rewrite Nat2N.id.
    destruct (sh_row _ _ _ _ S i r Er) as (_ & _ & J & _). rewrite (J c Hc).
    f_equal. apply (go_addr i (m_next t i c) Hi). apply (mo_next _ M); auto.
  Qed.
  Lemma steps_addr : forall w i, (i < m_states t)%nat -> is_word w ->
    steps (scanner_ops k s) (addr i) w = Ok (addr (m_run t i w)) /\ (m_run t i w < m_states t)%nat.
  Proof.
    induction w as [|c w IH]; intros i Hi Hw; [cbn; auto|]. inversion Hw; subst. cbn [steps scanner_ops o_step].
    rewrite next_addr by auto. cbn [bind]. unfold m_run. cbn [fold_left]. apply IH; auto. apply (mo_next _ M); auto.
  Qed.
  Lemma final_addr : forall i, (i < m_states t)%nat -> s_isfinal k s (addr i) = Ok (m_final t i).
  Proof.
    intros i Hi. unfold s_isfinal. destruct (row_exists i Hi) as [r [Er ->]]. cbn [bind].
    destruct (sh_row _ _ _ _ S i r Er) as (_ & _ & _ & -> & _). reflexivity.
  Qed.
  Lemma dead_addr : forall i, (i < m_states t)%nat -> s_isdead k s (addr i) = Ok (m_dead t i).
  Proof.
    intros i Hi. unfold s_isdead. destruct (row_exists i Hi) as [r [Er ->]]. cbn [bind].
    destruct (sh_row _ _ _ _ S i r Er) as (_ & _ & _ & _ & -> & _). reflexivity.
  Qed.
  Lemma accepted_addr : forall i, (i < m_states t)%nat -> s_accepted k s (addr i) = Ok (m_accepted t i).
  Proof.
    intros i Hi. unfold s_accepted. rewrite state_index_addr, Nat2N.id. destruct (sh_acc _ _ _ _ S i Hi) as [b [-> E]]. exact E.
  Qed.

  Definition live (a : N) : Prop := exists i, (i < m_states t)%nat /\ a = addr i.
  (** The addresses of the states a text leads to. *)
  Definition visited (a : N) : Prop := exists u, is_word u /\ a = addr (m_run t (m_start t) u).
  Lemma run_bound : forall u, is_word u -> (m_run t (m_start t) u < m_states t)%nat.
  Proof. intros u Hu. apply (steps_addr u (m_start t)); auto. apply M. Qed.
  Lemma visited_live : forall a, visited a -> live a.
  Proof. intros a [u [Hu ->]]. exists (m_run t (m_start t) u). split; auto. apply run_bound; auto. Qed.
  Lemma run_app : forall u w, m_run t (m_start t) (u ++ w) = m_run t (m_run t (m_start t) u) w.
  Proof. intros u w. unfold m_run. apply fold_left_app. Qed.
  Lemma scanner_works : works (scanner_ops k s) visited.
  Proof.
    split; cbn [scanner_ops o_init o_step o_next o_final o_dead].
    - exists []. split; [constructor|apply S].
    - intros a c [u [Hu ->]] Hc. rewrite next_addr by (auto using run_bound). eexists. split; [reflexivity|]. exists (u ++ [c]). split.
      + apply Forall_app. split; auto.
      + rewrite run_app. reflexivity.
    - reflexivity.
    - intros a [u [Hu ->]]. rewrite final_addr by (auto using run_bound). eauto.
    - intros a [u [Hu ->]]. rewrite dead_addr by (auto using run_bound). eauto.
    - intros a [u [Hu ->]]. rewrite dead_addr by (auto using run_bound). intros D w a' Hw E. injection D as D.
      destruct (steps_addr w _ (run_bound u Hu) Hw) as [E' L]. change (s_next k s) with (o_step (scanner_ops k s)) in E.
      rewrite E' in E. injection E as <-. rewrite final_addr by auto. f_equal. rewrite <- run_app. apply (mo_dead _ M); auto.
  Qed.
End Shows.
