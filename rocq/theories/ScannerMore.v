(** Facts used by Prop_Scanner: words as bytes, the reach of a relative jump. *)
From Coq Require Import List Bool Arith NArith Lia.
From Verif Require Import Util Spec RunModel RunSpec RunProofs ScannerModel CheckBytes.
Import ListNotations.
Local Open Scope N_scope.

(** The bytes of a word *)
Fixpoint digits (n : nat) (w : N) : list N := match n with O => [] | S j => w mod 256 :: digits j (w / 256) end.
Lemma digits_length : forall n w, length (digits n w) = n.
Proof. induction n; intros w; cbn [digits length]; auto. Qed.
Lemma digits_byte : forall n w, Forall byte (digits n w).
Proof. induction n; intros w; cbn [digits]; constructor; auto. apply N.mod_lt. discriminate. Qed.
Lemma digits_le : forall n w, w < 256 ^ N.of_nat n -> le (digits n w) = w.
Proof.
  induction n as [|n IH]; intros w H; cbn [digits le].
  - change (256 ^ N.of_nat 0) with 1 in H. lia.
  - rewrite IH.
    + pose proof (N.div_mod' w 256). lia.
    + rewrite Nnat.Nat2N.inj_succ, N.pow_succ_r' in H. apply N.div_lt_upper_bound; [discriminate|]. auto.
Qed.
Lemma digits_in : forall n w c, In c (digits n w) <-> exists j, (j < n)%nat /\ (w / 256 ^ N.of_nat j) mod 256 = c.
Proof.
  induction n as [|n IH]; intros w c; cbn [digits In].
  - split; [intros []|]. intros (j & H & _). lia.
  - rewrite IH. assert (X : forall j, (w / 256 / 256 ^ N.of_nat j) = w / 256 ^ N.of_nat (S j)).
    { intros j. rewrite Nnat.Nat2N.inj_succ, N.pow_succ_r'. apply N.div_div; [discriminate|]. apply N.pow_nonzero. discriminate. }
    split.
    + intros [<-|(j & H & <-)].
      * exists 0%nat. split; [lia|]. change (256 ^ N.of_nat 0) with 1. rewrite N.div_1_r. auto.
      * exists (S j). split; [lia|]. rewrite X. auto.
    + intros ([|j] & H & <-).
      * left. change (256 ^ N.of_nat 0) with 1. rewrite N.div_1_r. auto.
      * right. exists j. split; [lia|]. rewrite X. auto.
Qed.
Lemma word_as_bytes : forall n w, w < 256 ^ N.of_nat n -> exists xs, length xs = n /\ Forall byte xs /\ le xs = w /\
  forall c, In c xs <-> exists j, (j < n)%nat /\ (w / 256 ^ N.of_nat j) mod 256 = c.
Proof.
  intros n w H. exists (digits n w). split; [apply digits_length|]. split; [apply digits_byte|]. split; [apply digits_le; auto|]. intros. apply digits_in.
Qed.

Lemma check_basic_word : forall c w, byte c -> w < two64 ->
  (check_bytes_basic (fill_size_t c) w <> 0 <-> exists j, (j < 8)%nat /\ (w / 256 ^ N.of_nat j) mod 256 = c).
Proof.
  intros c w Hc Hw. destruct (word_as_bytes 8 w) as (xs & L & B & <- & I); [rewrite pow_8; auto|].
  rewrite <- I, (basic_ok xs c L B Hc). split.
  - intros H. destruct (in_dec N.eq_dec c xs); auto. destruct (H n).
  - intros H X. apply X. auto.
Qed.
(** All the instruction sets, one or several masks *)
Lemma check_word : forall i c cs w, Forall byte (c :: cs) -> w < 256 ^ word_size i ->
  (is_any_set i (fold_left (fun a d => N.lor a (check_bytes i (mask_of i d) w)) cs (check_bytes i (mask_of i c) w)) = true <->
   exists d j, In d (c :: cs) /\ (j < N.to_nat (word_size i))%nat /\ (w / 256 ^ N.of_nat j) mod 256 = d).
Proof.
  intros i c cs w Hc Hw. destruct (word_as_bytes (N.to_nat (word_size i)) w) as (xs & L & B & <- & I); [rewrite Nnat.N2Nat.id; auto|].
  pose proof (any_set_ok i xs c cs L B Hc) as A. unfold lor_all, zmask in A.
  set (r := is_any_set i _) in *. clearbody r. split.
  - intros ->. destruct (existsb (fun d => existsb (N.eqb d) xs) (c :: cs)) eqn:X.
    + apply existsb_exists in X as (d & D & X). apply existsb_exists in X as (e & Y & X). apply N.eqb_eq in X. subst e.
      apply I in Y as (j & J & E). exists d, j. auto.
    + assert (true = false); [|discriminate]. apply A. intros d D Y. apply not_true_iff_false in X. apply X. apply existsb_exists. exists d. split; auto.
      apply existsb_exists. exists d. split; auto. apply N.eqb_refl.
  - intros (d & j & D & J & E). destruct r; auto. destruct (proj1 A eq_refl d D). apply I. eauto.
Qed.

(** A relative jump arrives iff the distance fits in 31 bits and a sign. *)
Lemma jump_reach : forall k from to, k_reloc k = true -> from <= 9223372036854775808 -> to <= 9223372036854775808 ->
  (go k from (diff k from to) = to <-> to < from + two31 /\ from <= to + two31).
Proof.
  intros k from to R Hf Ht. unfold go, diff. rewrite R.
  set (x := (to + two64 - from) mod two64). assert (Hx : x = if from <=? to then to - from else to + two64 - from).
  { unfold x. destruct (N.leb_spec from to).
    - replace (to + two64 - from) with (to - from + 1 * two64) by (unfold two64; lia). rewrite N.mod_add by discriminate. apply N.mod_small. unfold two64. lia.
    - apply N.mod_small. unfold two64. lia. }
  clearbody x. pose proof (N.div_mod' x two32) as D. pose proof (N.mod_lt x two32 ltac:(discriminate)) as M. set (d := x mod two32) in *. set (q := x / two32) in *. clearbody d q.
  unfold sign_extend. set (y := if d <? two31 then d else d + (two64 - two32)).
  pose proof (N.div_mod' (from + y) two64) as D2. pose proof (N.mod_lt (from + y) two64 ltac:(discriminate)) as M2.
  set (z := (from + y) mod two64) in *. set (p := (from + y) / two64) in *. clearbody z p. unfold two64, two32, two31 in *.
  destruct (N.leb_spec from to); destruct (N.ltb_spec d 2147483648); subst y; split; intros H'; try (split; lia); try lia.
Qed.
