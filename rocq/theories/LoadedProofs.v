From Coq Require Import List Bool Arith NArith Lia.
From Verif Require Import Util Spec PartitionModel PartitionProofs FsmModel DetermineModel DetGeneric DetProofs RunModel RunSpec ScannerModel
  ScannerProofs ScannerCompile GlueModel GlueTable GlueProofs CountModel CountSpec RunProofs CountProofs SimpleProofs.
Import ListNotations.
Local Open Scope N_scope.

(** ** The letters table *)
Lemma fill_bytes_map : forall p, fill_bytes p = map (fun x => x mod 256) (fill_letters 0 p).
Proof.
  intros p. unfold fill_bytes, fill_letters.
  assert (U : forall (v : N) acc i, map (fun x => x mod 256) (upd i (fun _ => v mod 65536) acc) = upd i (fun _ => v mod 256) (map (fun x => x mod 256) acc)).
  { intros v acc. induction acc as [|x acc IH]; intros [|i]; cbn [upd map]; auto.
    - f_equal. change 65536 with (256 * 256). rewrite N.mod_mul_r by discriminate.
      rewrite N.add_mod, (N.mul_comm 256), N.mod_mul, N.add_0_r, !N.mod_mod by discriminate. reflexivity.
    - f_equal. apply IH. }
  assert (I : forall ms (v : N) acc, map (fun x => x mod 256) (fold_left (fun a c => upd (N.to_nat c) (fun _ => v mod 65536) a) ms acc) =
    fold_left (fun a c => upd (N.to_nat c) (fun _ => v mod 256) a) ms (map (fun x => x mod 256) acc)).
  { induction ms as [|c ms IH]; intros v acc; cbn [fold_left]; auto. rewrite IH, U. reflexivity. }
  assert (O : forall (L : list (N * (nat * list N))) acc, fold_left (fun acc '(_, (idx, ms)) =>
      fold_left (fun a c => upd (N.to_nat c) (fun _ => N.of_nat idx mod 256) a) ms acc) L (map (fun x => x mod 256) acc) =
    map (fun x => x mod 256) (fold_left (fun acc '(_, (idx, ms)) =>
      fold_left (fun a c => upd (N.to_nat c) (fun _ => (N.of_nat idx + 0) mod 65536) a) ms acc) L acc)).
  { induction L as [|[r [idx ms]] L IH]; intros acc; cbn [fold_left]; auto. rewrite N.add_0_r, <- I. apply IH. }
  rewrite <- O. reflexivity.
Qed.
Lemma fill_bytes_length : forall p, length (fill_bytes p) = 264%nat.
Proof. intros p. rewrite fill_bytes_map, map_length. apply fill_letters_length. Qed.
Lemma fill_bytes_ok : forall p c r, wf_part p -> part_rep p c = Some r ->
  nth_error (fill_bytes p) (N.to_nat c) = Some (N.of_nat (cls_of p c) mod 256) /\ (cls_of p c < part_size p)%nat.
Proof.
  intros p c r W R. destruct (fill_letters_ok 0 p W c r R ltac:(lia)) as [A B]. split; auto.
  rewrite fill_bytes_map, nth_error_map, A. cbn [option_map]. rewrite N.add_0_r. reflexivity.
Qed.
Lemma fill_bytes_lt : forall p x, wf_part p -> (0 < part_size p)%nat -> In x (fill_bytes p) -> x < N.of_nat (part_size p).
Proof.
  intros p x W P. unfold fill_bytes.
  assert (I : forall (v : N) ms acc, v mod 256 < N.of_nat (part_size p) -> (forall y, In y acc -> y < N.of_nat (part_size p)) ->
    forall y, In y (fold_left (fun a c => upd (N.to_nat c) (fun _ => v mod 256) a) ms acc) -> y < N.of_nat (part_size p)).
  { intros v. induction ms as [|c ms IH]; intros acc Hv H y; cbn [fold_left]; auto. apply IH; auto.
    intros z Hz. apply In_nth_error in Hz as [j Hz]. rewrite nth_error_upd in Hz. destruct (Nat.eqb_spec j (N.to_nat c)).
    - destruct (nth_error acc j); cbn [option_map] in Hz; [injection Hz as <-; auto|discriminate].
    - apply nth_error_In in Hz. auto. }
  assert (O : forall (L : list (N * (nat * list N))) acc, (forall r i ms, In (r, (i, ms)) L -> (i < part_size p)%nat) -> (forall y, In y acc -> y < N.of_nat (part_size p)) ->
    forall y, In y (fold_left (fun acc '(_, (idx, ms)) =>
      fold_left (fun a c => upd (N.to_nat c) (fun _ => N.of_nat idx mod 256) a) ms acc) L acc) -> y < N.of_nat (part_size p)).
  { induction L as [|[r [idx ms]] L IH]; intros acc HL H y; cbn [fold_left]; auto. apply IH.
    - intros r' i' ms' X. apply (HL r' i' ms'). right. auto.
    - apply I; auto. specialize (HL r idx ms (or_introl eq_refl)). pose proof (N.mod_le (N.of_nat idx) 256 ltac:(discriminate)). lia. }
  apply O.
  - intros r i ms H. apply (wp_idx _ W r i ms). apply msorted_find; auto. apply W.
  - intros y Hy. apply repeat_spec in Hy. subst. lia.
Qed.

(** ** Scanners whose table is sound *)
(** The shift from one state to another, as SetJump computes it *)
Definition shift_of (s : loaded) (q q' : nat) : N :=
  ((N.of_nat q' + two64 - N.of_nat q) mod two64 * state_size s) mod two64 mod two32.
Definition acts_ok (n a : N) : Prop := a < two32 /\ forall j, N.testbit a j = true -> j < n \/ 16 <= j < 16 + n.
Record loaded_ok (s : loaded) : Prop := {
  lo_states : d_states s < two32;
  lo_count : d_count s <= 16;
  lo_llen : length (d_letters s) = 264%nat;
  lo_lt : forall x, In x (d_letters s) -> x < d_nletters s;
  lo_jlen : length (d_jumps s) = (N.to_nat (d_states s) * N.to_nat (d_nletters s))%nat;
  lo_entry : forall q l, (q < N.to_nat (d_states s))%nat -> (l < N.to_nat (d_nletters s))%nat -> exists q' a,
    nth_error (d_jumps s) (q * N.to_nat (d_nletters s) + l) = Some (shift_of s q q', a) /\ (q' < N.to_nat (d_states s))%nat /\ acts_ok (d_count s) a;
  lo_init : exists q, (q < N.to_nat (d_states s))%nat /\ d_initial s = d_state s (N.of_nat q);
  lo_tlen : length (d_tags s) = N.to_nat (d_states s);
  lo_own : d_owned s = true -> d_null s = false
}.
Definition dlive (s : loaded) (a : N) : Prop := exists q, (q < N.to_nat (d_states s))%nat /\ a = d_state s (N.of_nat q).

Lemma acts_zero : forall n, acts_ok n 0.
Proof. intros n. split; [reflexivity|]. intros j H. rewrite N.bits_0 in H. discriminate. Qed.

Section Loaded.
  Variable s : loaded.
  Hypothesis L : loaded_ok s.
  Hypothesis P : dplaced s.
  Let n := N.to_nat (d_states s).
  Let nl := N.to_nat (d_nletters s).

  Lemma nl_pos : 0 < d_nletters s.
  Proof.
    pose proof (lo_llen _ L) as E. destruct (d_letters s) as [|x l] eqn:D; [discriminate|].
    pose proof (lo_lt _ L x). rewrite D in H. specialize (H (or_introl eq_refl)). lia.
  Qed.
  Lemma state_lt : forall q, (q < n)%nat -> d_state s (N.of_nat q) < two64 /\ (N.of_nat q + 1) * state_size s <= d_states s * state_size s.
  Proof.
    intros q H. pose proof nl_pos as NP. destruct P as [P1 _]. unfold d_state. unfold n in H.
    assert (X : (N.of_nat q + 1) * state_size s <= d_states s * state_size s) by (apply N.mul_le_mono_r; lia). split; auto.
    assert (0 < state_size s) by (unfold state_size; lia). lia.
  Qed.
  Lemma shift_ok : forall q q', (q < n)%nat -> (q' < n)%nat ->
    (d_state s (N.of_nat q) + sign_extend (shift_of s q q')) mod two64 = d_state s (N.of_nat q').
  Proof.
    intros q q' H H'. destruct (state_lt q H) as [A B]. destruct (state_lt q' H') as [A' B']. destruct P as [P1 P2].
    assert (E : shift_of s q q' = diff (mkKind true 0) (d_state s (N.of_nat q)) (d_state s (N.of_nat q'))).
    { unfold shift_of, diff. cbn [k_reloc]. f_equal. unfold d_state. pose proof (lo_states _ L) as LS.
      set (S := state_size s) in *. clearbody S. set (x := N.of_nat q) in *. set (y := N.of_nat q') in *. set (b := d_base s) in *. clearbody b.
      assert (HX : x < two32 /\ y < two32) by (unfold n in *; lia). clearbody x y.
      destruct (N.le_gt_cases x y) as [C|C].
      - replace (y + two64 - x) with (y - x + 1 * two64) by lia. rewrite N.mod_add by discriminate. rewrite (N.mod_small (y - x)) by (unfold two32, two64 in *; lia).
        assert (Y : x * S <= y * S) by (apply N.mul_le_mono_r; lia).
        replace (b + y * S + two64 - (b + x * S)) with ((y - x) * S + 1 * two64) by (rewrite N.mul_sub_distr_r; lia). rewrite N.mod_add by discriminate. reflexivity.
      - rewrite (N.mod_small (y + two64 - x)) by (unfold two32, two64 in *; lia).
        assert (Y : y * S <= x * S) by (apply N.mul_le_mono_r; lia).
        assert (Z : x * S <= two31) by lia.
        assert (Q : (y + two64 - x) * S = b + y * S + two64 - (b + x * S) + (S - 1) * two64 \/ S = 0).
        { destruct (N.eq_dec S 0); [right; auto|left]. replace (y + two64 - x) with (two64 - (x - y)) by (unfold two64 in *; lia).
          rewrite N.mul_sub_distr_r, N.mul_sub_distr_r, N.mul_sub_distr_r. unfold two31, two64 in *. lia. }
        destruct Q as [Q|Q]; [rewrite Q, N.mod_add by discriminate; reflexivity|].
        subst S. rewrite !N.mul_0_r. replace (b + 0 + two64 - (b + 0)) with two64 by lia. rewrite N.mod_same by discriminate. reflexivity. }
    rewrite E. change (go (mkKind true 0) (d_state s (N.of_nat q)) (diff (mkKind true 0) (d_state s (N.of_nat q)) (d_state s (N.of_nat q'))) = d_state s (N.of_nat q')).
    apply go_diff; auto. intros _. unfold d_state in *. split; [|nia].
    assert (0 < state_size s) by (pose proof nl_pos; unfold state_size; lia). nia.
  Qed.
  Lemma trans_at : forall q l, (q < n)%nat -> transition_at s (d_state s (N.of_nat q)) l =
    match nth_error (d_jumps s) (q * nl + N.to_nat l) with Some t => Ok t | None => UB end.
  Proof.
    intros q l H. unfold transition_at, d_state. replace (d_base s + N.of_nat q * state_size s - d_base s) with (N.of_nat q * d_nletters s * 8) by (unfold state_size; lia).
    rewrite N.mod_mul, N.div_mul by discriminate. destruct (N.leb_spec (d_base s) (d_base s + N.of_nat q * state_size s)); [|lia]. cbn [andb].
    replace (N.to_nat (N.of_nat q * d_nletters s + l)) with (q * nl + N.to_nat l)%nat by (unfold nl; lia). reflexivity.
  Qed.
  Lemma d_next_ok : forall q c, (q < n)%nat -> letter c -> exists l q' a, nth_error (d_letters s) (N.to_nat c) = Some l /\ l < d_nletters s /\
    nth_error (d_jumps s) (q * nl + N.to_nat l) = Some (shift_of s q q', a) /\ (q' < n)%nat /\ acts_ok (d_count s) a /\
    d_next s (d_state s (N.of_nat q)) c = Ok (d_state s (N.of_nat q'), a).
  Proof.
    intros q c H [Hc _]. unfold MaxChar in Hc. unfold d_next.
    destruct (nth_error (d_letters s) (N.to_nat c)) as [l|] eqn:E.
    2:{ apply nth_error_None in E. rewrite (lo_llen _ L) in E. lia. }
    pose proof (lo_lt _ L l (nth_error_In _ _ E)) as Hl.
    destruct (lo_entry _ L q (N.to_nat l) H ltac:(lia)) as (q' & a & J & Hq & Ha). exists l, q', a. splits; auto.
    rewrite trans_at by auto. fold nl in J. rewrite J. cbn [bind]. rewrite shift_ok by auto. reflexivity.
  Qed.
  Lemma live_next : forall x c, dlive s x -> letter c -> exists y a, d_next s x c = Ok (y, a) /\ dlive s y /\ acts_ok (d_count s) a.
  Proof.
    intros x c (q & H & ->) Hc. destruct (d_next_ok q c H Hc) as (l & q' & a & _ & _ & _ & H1 & H2 & H3). exists (d_state s (N.of_nat q')), a.
    splits; auto. exists q'. auto.
  Qed.
  Lemma live_init : dlive s (d_initial s).
  Proof. destruct (lo_init _ L) as (q & H & E). exists q. auto. Qed.
  Lemma state_idx_ok : forall q, state_idx s (d_state s (N.of_nat q)) = N.of_nat q.
  Proof.
    intros q. unfold state_idx, d_state. replace (d_base s + N.of_nat q * state_size s - d_base s) with (N.of_nat q * d_nletters s * 8) by (unfold state_size; lia).
    rewrite N.div_mul by discriminate. apply N.div_mul. pose proof nl_pos. lia.
  Qed.
  Lemma action_of_ok : forall x c y a, dlive s x -> letter c -> d_next s x c = Ok (y, a) -> action_of s x c = Ok a.
  Proof.
    intros x c y a (q & H & ->) Hc E. destruct (d_next_ok q c H Hc) as (l & q' & a' & A & B & C & _ & _ & D). rewrite E in D. injection D as -> <-.
    unfold action_of, transition_index. rewrite state_idx_ok. apply nth_error_nth with (d := 0) in A. rewrite A.
    replace (N.to_nat (N.of_nat q * d_nletters s + l)) with (q * nl + N.to_nat l)%nat by (unfold nl; lia). rewrite C. reflexivity.
  Qed.
  Lemma actions_ok : forall w x, dlive s x -> is_word w -> exists acts, actions s x w = Ok acts.
  Proof.
    induction w as [|c w IH]; intros x Hx Hw; cbn [actions]; [eauto|]. inversion Hw; subst.
    destruct (live_next x c Hx H1) as (y & a & E & Hy & _). rewrite E. cbn [bind]. destruct (IH y Hy H2) as [acts ->]. cbn [bind]. eauto.
  Qed.
  Lemma count_runs : forall adv w, is_word w -> exists st, steps (count_ops adv s) (c_init s) w = Ok st.
  Proof.
    intros adv w Hw. destruct (actions_ok w _ live_init Hw) as [acts E]. apply (steps_count_ok adv s w (c_init s) acts (init_ok s) E).
  Qed.
End Loaded.


Lemma copy_loaded_ok : forall s b, loaded_ok s -> loaded_ok (copy_loaded b s) /\ d_count (copy_loaded b s) = d_count s.
Proof.
  intros s b L. unfold copy_loaded. destruct (d_owned s) eqn:O; auto.
  pose proof (lo_own _ L O) as NU. assert (DC : d_count s = d_regexps s) by (unfold d_count; rewrite NU; auto).
  destruct L as [L0 L1 L2 L3 L4 L5 L6 L7 L8]. split; [|rewrite DC; reflexivity]. split; cbn; auto.
  - unfold d_count. cbn. rewrite <- DC. auto.
  - intros q l H1 H2. destruct (L5 q l H1 H2) as (q' & a & A1 & A2 & A3). exists q', a. splits; auto. unfold d_count. cbn. rewrite <- DC. auto.
  - destruct L6 as (q & A1 & A2). exists q. split; auto. rewrite A2. unfold d_state, d_base, state_size. cbn. lia.
Qed.

(** ** Writing the table *)
Definition slot (s : loaded) (from : nat) (c : N) : nat := (from * N.to_nat (d_nletters s) + N.to_nat (nth (N.to_nat c) (d_letters s) 0%N))%nat.
Definition wr (s : loaded) (w : nat * nat * N * N) : res loaded := let '(from, to, c, a) := w in set_djump s from c to a.

Lemma slot_lt : forall s from c, (forall x, In x (d_letters s) -> x < d_nletters s) -> 0 < d_nletters s -> (from < N.to_nat (d_states s))%nat ->
  (slot s from c < N.to_nat (d_states s) * N.to_nat (d_nletters s))%nat /\ nth (N.to_nat c) (d_letters s) 0 < d_nletters s.
Proof.
  intros s from c H H0 F. assert (X : nth (N.to_nat c) (d_letters s) 0 < d_nletters s).
  { destruct (nth_in_or_default (N.to_nat c) (d_letters s) 0) as [I|E0]; [auto|rewrite E0; auto]. }
  split; auto. unfold slot. nia.
Qed.
Lemma slot_inj : forall s f1 c1 f2 c2, (forall x, In x (d_letters s) -> x < d_nletters s) -> 0 < d_nletters s ->
  slot s f1 c1 = slot s f2 c2 -> f1 = f2 /\ nth (N.to_nat c1) (d_letters s) 0 = nth (N.to_nat c2) (d_letters s) 0.
Proof.
  intros s f1 c1 f2 c2 H H0 E.
  assert (X : forall c, nth (N.to_nat c) (d_letters s) 0 < d_nletters s).
  { intros c. destruct (nth_in_or_default (N.to_nat c) (d_letters s) 0) as [I|E0]; [auto|rewrite E0; auto]. }
  pose proof (X c1) as X1. pose proof (X c2) as X2. unfold slot in E. set (a := nth (N.to_nat c1) (d_letters s) 0) in *. set (b := nth (N.to_nat c2) (d_letters s) 0) in *.
  clearbody a b. assert (f1 = f2) by nia. subst. split; auto. lia.
Qed.
Lemma set_djump_ok : forall s from c to a, length (d_jumps s) = (N.to_nat (d_states s) * N.to_nat (d_nletters s))%nat ->
  (forall x, In x (d_letters s) -> x < d_nletters s) -> 0 < d_nletters s -> (from < N.to_nat (d_states s))%nat ->
  set_djump s from c to a = Ok (set_jumps s (upd (slot s from c) (fun _ => (shift_of s from to, a)) (d_jumps s))).
Proof.
  intros s from c to a J H H0 F. destruct (slot_lt s from c H H0 F) as [A B]. unfold set_djump, transition_index.
  replace (N.to_nat (N.of_nat from * d_nletters s + nth (N.to_nat c) (d_letters s) 0)) with (slot s from c) by (unfold slot; lia).
  destruct (N.ltb_spec (N.of_nat from * d_nletters s + nth (N.to_nat c) (d_letters s) 0) (N.of_nat (length (d_jumps s)))) as [_|C]; [reflexivity|].
  unfold slot in A. rewrite J in C. nia.
Qed.
Lemma writes_ok : forall ws s, length (d_jumps s) = (N.to_nat (d_states s) * N.to_nat (d_nletters s))%nat ->
  (forall x, In x (d_letters s) -> x < d_nletters s) -> 0 < d_nletters s -> (forall f t c a, In (f, t, c, a) ws -> (f < N.to_nat (d_states s))%nat) ->
  exists J, foldm wr ws s = Ok (set_jumps s J) /\ length J = length (d_jumps s) /\
    forall k, (k < length J)%nat -> (nth_error J k = nth_error (d_jumps s) k /\ forall f t c a, In (f, t, c, a) ws -> slot s f c <> k) \/
      exists f t c a, In (f, t, c, a) ws /\ slot s f c = k /\ nth_error J k = Some (shift_of s f t, a).
Proof.
  induction ws as [|[[[f t] c] a] ws IH]; intros s H1 H2 H3 H4; cbn [foldm].
  - exists (d_jumps s). splits; auto. destruct s; reflexivity.
  - unfold wr at 1. rewrite set_djump_ok; auto; [|apply (H4 f t c a); left; auto]. cbn [bind].
    set (s1 := set_jumps s (upd (slot s f c) (fun _ => (shift_of s f t, a)) (d_jumps s))).
    destruct (IH s1) as (J & E & LJ & K); auto.
    { cbn [s1 d_jumps set_jumps d_states d_nletters]. rewrite upd_length. auto. }
    { intros f' t' c' a' X. apply (H4 f' t' c' a'). right. auto. }
    exists J. cbn [s1 d_jumps set_jumps] in LJ. rewrite upd_length in LJ. splits; auto.
    intros k Hk. destruct (K k Hk) as [[A B]|(f' & t' & c' & a' & A & B & C)].
    + cbn [s1 d_jumps set_jumps] in A. rewrite nth_error_upd in A. destruct (Nat.eqb_spec k (slot s f c)) as [->|Ne].
      * right. exists f, t, c, a. splits; auto; [left; auto|]. rewrite A. destruct (nth_error (d_jumps s) (slot s f c)) eqn:X; [reflexivity|].
        apply nth_error_None in X. lia.
      * left. split; auto. intros f' t' c' a' [X|X]; [injection X as <- <- <- <-; auto|]. apply (B f' t' c' a' X).
    + right. exists f', t', c', a'. splits; auto. right. auto.
Qed.
(** Any writes between states keep the table sound. *)
Lemma writes_loaded : forall ws s s', loaded_ok s ->
  (forall f t c a, In (f, t, c, a) ws -> (f < N.to_nat (d_states s))%nat /\ (t < N.to_nat (d_states s))%nat /\ acts_ok (d_count s) a) ->
  foldm wr ws s = Ok s' -> loaded_ok s'.
Proof.
  intros ws s s' L H E. pose proof (nl_pos s L) as NP. destruct (writes_ok ws s (lo_jlen _ L) (lo_lt _ L) NP) as (J & E' & LJ & K).
  { intros f t c a X. apply (H f t c a X). }
  rewrite E' in E. injection E as <-. destruct L as [L0 L1 L2 L3 L4 L5 L6 L7 L8]. split; cbn; auto; [congruence|].
  intros q l H1 H2. destruct (K (q * N.to_nat (d_nletters s) + l)%nat) as [[A B]|(f & t & c & a & A & B & C)].
  - rewrite LJ, L4. nia.
  - destruct (L5 q l H1 H2) as (q' & a & A1 & A2 & A3). exists q', a. rewrite A. auto.
  - destruct (H f t c a A) as (P1 & P2 & P3). exists t, a. splits; auto.
    assert (f = q). { destruct (slot_lt s f c L3 NP P1) as [_ X]. unfold slot in B. nia. }
    subst f. exact C.
Qed.

Lemma set_dtag_ok : forall s q v, (q < length (d_tags s))%nat -> set_dtag s q v = Ok (set_dtags s (upd q (fun _ => v mod 256) (d_tags s))).
Proof. intros s q v H. unfold set_dtag. destruct (Nat.ltb_spec q (length (d_tags s))); [reflexivity|lia]. Qed.
Lemma tags_ok : forall X (L : list X) (q : X -> nat) (v : X -> res N) s, (forall x, In x L -> (q x < length (d_tags s))%nat /\ exists y, v x = Ok y) ->
  exists T, foldm (fun s x => let* y := v x in set_dtag s (q x) y) L s = Ok (set_dtags s T) /\ length T = length (d_tags s).
Proof.
  intros X L q v. induction L as [|x L IH]; intros s H; cbn [foldm].
  - exists (d_tags s). split; auto. destruct s; reflexivity.
  - destruct (H x (or_introl eq_refl)) as [H1 [y Hy]]. rewrite Hy. cbn [bind]. rewrite set_dtag_ok by auto. cbn [bind].
    destruct (IH (set_dtags s (upd (q x) (fun _ => y mod 256) (d_tags s)))) as (T & E & LT).
    + intros z Hz. cbn [d_tags set_dtags]. rewrite upd_length. apply H. right. auto.
    + cbn [d_tags set_dtags] in LT. rewrite upd_length in LT. exists T. split; auto.
Qed.
Lemma set_dtags_ok : forall s T, loaded_ok s -> length T = length (d_tags s) -> loaded_ok (set_dtags s T).
Proof. intros s T [L0 L1 L2 L3 L4 L5 L6 L7 L8] H. split; cbn; auto. congruence. Qed.

(** ** The empty table *)
Lemma init_loaded_ok : forall buf states p start n s, wf_part p -> (0 < part_size p)%nat -> (start < states)%nat -> n <= 16 ->
  init_loaded buf states p start n = Ok s ->
  loaded_ok s /\ d_states s = N.of_nat states /\ d_nletters s = N.of_nat (part_size p) /\ d_regexps s = n /\ d_buf s = buf /\ d_initial s = d_state s (N.of_nat start) /\
  d_letters s = fill_bytes p /\ d_owned s = true /\ d_null s = false.
Proof.
  intros buf states p start n s W P H Hn E. unfold init_loaded in E. destruct (N.leb_spec two32 (N.of_nat states)) as [|LS]; [discriminate E|].
  injection E as <-. cbn [d_states d_nletters d_regexps d_buf d_letters d_owned d_null d_initial d_jumps d_tags].
  rewrite (N.mod_small n) by (unfold two32; lia). splits; auto. split; cbn; auto.
  - apply fill_bytes_length.
  - intros x Hx. apply fill_bytes_lt; auto.
  - rewrite repeat_length, !Nat2N.id. reflexivity.
  - rewrite !Nat2N.id. intros q l H1 H2. exists q, 0. splits; auto; [|apply acts_zero].
    rewrite nth_error_repeat by nia. f_equal. f_equal. unfold shift_of. replace (N.of_nat q + two64 - N.of_nat q) with two64 by lia.
    rewrite N.mod_same by discriminate. reflexivity.
  - exists start. rewrite Nat2N.id. auto.
  - rewrite repeat_length, Nat2N.id. reflexivity.
Qed.

(** ** BuildScanner as writes *)
Definition build_writes (remap : N -> N) (f : fsm) : list (nat * nat * N * N) :=
  flat_map (fun from => flat_map (fun ci => map (fun to => (from, to, fst ci, remap (output f from to))) (destinations f from (fst ci))) (part_list (letters f))) (seq 0 (size f)).
Lemma build_writes_in : forall remap f from to c a, In (from, to, c, a) (build_writes remap f) <->
  (from < size f)%nat /\ (exists i, In (c, i) (part_list (letters f))) /\ In to (destinations f from c) /\ a = remap (output f from to).
Proof.
  intros remap f from to c a. unfold build_writes. rewrite in_flat_map. split.
  - intros (x & H1 & H2). apply in_seq in H1. apply in_flat_map in H2 as ([c' i] & H2 & H3). cbn [fst] in H3. apply in_map_iff in H3 as (y & E & H3).
    injection E as -> -> -> <-. splits; eauto. lia.
  - intros (H1 & (i & H2) & H3 & ->). exists from. split; [apply in_seq; lia|]. apply in_flat_map. exists (c, i). split; auto. cbn [fst]. apply in_map_iff.
    exists to. auto.
Qed.
Lemma build_loaded_eq : forall df remap f s, build_loaded df remap f s =
  (let* dead := (if df =? 0 then Ok [] else dead_states f) in
   let* s1 := foldm (fun s q => set_dtag s q (N.lor (fsm_tag f q) (if smem q dead then df else 0))) (seq 0 (size f)) s in
   foldm wr (build_writes remap f) s1).
Proof.
  intros df remap f s. unfold build_loaded. destruct (if df =? 0 then Ok [] else dead_states f) as [dead| | |]; cbn [bind]; auto.
  destruct (foldm (fun s q => set_dtag s q (N.lor (fsm_tag f q) (if smem q dead then df else 0))) (seq 0 (size f)) s) as [s1| | |]; cbn [bind]; auto.
  unfold build_writes. rewrite foldm_flat. apply foldm_ext. intros s' from _. rewrite foldm_flat. apply foldm_ext. intros s'' [c i] _. cbn [fst].
  rewrite foldm_map. apply foldm_ext. reflexivity.
Qed.
