(** What the lexer relies on in the tables of UniData.v, checked over all 65536 characters they
    cover. *)
From Coq Require Import List Bool Arith NArith ZArith Lia.
From Verif Require Import Util UniData UniModel LexModel LexSpec.
Local Open Scope N_scope.

(** [p] holds for the 2^k numbers that begin with the bits of [b] *)
Fixpoint all_bits (k : nat) (b : N) (p : N -> bool) : bool :=
  match k with O => p b | S k => (all_bits k (2 * b) p && all_bits k (2 * b + 1) p)%bool end.
Lemma all_bits_ok : forall k b p, all_bits k b p = true -> forall c, b * 2 ^ N.of_nat k <= c < (b + 1) * 2 ^ N.of_nat k -> p c = true.
Proof.
  induction k as [|k IH]; intros b p H c Hc; cbn [all_bits] in H.
  - change (2 ^ N.of_nat 0) with 1 in Hc. replace c with b by lia. exact H.
  - apply andb_prop in H as [H1 H2]. replace (N.of_nat (S k)) with (N.succ (N.of_nat k)) in Hc by lia. rewrite N.pow_succ_r' in Hc.
    destruct (N.lt_ge_cases c ((2 * b + 1) * 2 ^ N.of_nat k)).
    + apply (IH _ _ H1). nia.
    + apply (IH _ _ H2). nia.
Qed.
Definition uni_check (c : N) : bool :=
  (if is_control c then (to_lower c =? c) && (to_upper c =? c) && negb (is_digit c)
   else negb (is_control (to_lower c)) && negb (is_control (to_upper c)))
  && (if c <? 128 then Bool.eqb (is_digit c) ((48 <=? c) && (c <=? 57)) && Bool.eqb (is_upper c) ((65 <=? c) && (c <=? 90))
                       && (to_lower c =? ascii_lower c) && (to_upper c =? ascii_upper c)
      else if c <? 256 then 128 <=? to_lower c else true).
Lemma uni_check_low : forall c, c < 65536 -> uni_check c = true.
Proof. intros c H. apply (all_bits_ok 16 0 uni_check); [vm_compute; reflexivity|]. change (2 ^ N.of_nat 16) with 65536. lia. Qed.
Lemma info_high : forall c, 65536 <= c -> wc_info c = 69632.
Proof.
  intros c H. unfold wc_info, runeinfo. replace (65535 <? c) with true by (symmetry; apply N.ltb_lt; lia). vm_compute. reflexivity.
Qed.
Lemma lower_high : forall c, 65536 <= c < 4294967296 -> to_lower c = c.
Proof. intros c H. unfold to_lower. rewrite info_high by lia. cbn [N.testbit]. unfold wchar. change (N.testbit 69632 6) with false. cbv iota. rewrite Z.add_0_r, Z.mod_small by lia. lia. Qed.
Lemma upper_high : forall c, 65536 <= c < 4294967296 -> to_upper c = c.
Proof. intros c H. unfold to_upper. rewrite info_high by lia. unfold wchar. change (N.testbit 69632 7) with false. cbv iota. rewrite Z.sub_0_r, Z.mod_small by lia. lia. Qed.
Lemma digit_high : forall c, 65536 <= c -> is_digit c = false.
Proof. intros c H. unfold is_digit, wc_type. rewrite info_high by lia. reflexivity. Qed.

Lemma case_control : forall c, c < 4294967296 -> is_control (to_lower c) = is_control c /\ is_control (to_upper c) = is_control c.
Proof.
  intros c H. destruct (N.lt_ge_cases c 65536) as [L|L].
  - pose proof (uni_check_low c L) as X. unfold uni_check in X. apply andb_prop in X as [X _]. destruct (is_control c) eqn:E.
    + apply andb_prop in X as [X _]. apply andb_prop in X as [X1 X2]. apply N.eqb_eq in X1, X2. rewrite X1, X2. auto.
    + apply andb_prop in X as [X1 X2]. apply negb_true_iff in X1, X2. auto.
  - rewrite lower_high, upper_high by lia. auto.
Qed.
Lemma case_fixed : forall c, c < 4294967296 -> is_control c = true -> to_lower c = c /\ to_upper c = c.
Proof.
  intros c H E. destruct (N.lt_ge_cases c 65536) as [L|L]; [|split; [apply lower_high|apply upper_high]; lia].
  pose proof (uni_check_low c L) as X. unfold uni_check in X. rewrite E in X. apply andb_prop in X as [X _]. apply andb_prop in X as [X _].
  apply andb_prop in X as [X1 X2]. apply N.eqb_eq in X1, X2. auto.
Qed.
Lemma digit_control : forall c, is_control c = true -> is_digit c = false.
Proof.
  intros c E. destruct (N.lt_ge_cases c 65536) as [L|L]; [|apply digit_high; lia].
  pose proof (uni_check_low c L) as X. unfold uni_check in X. rewrite E in X. apply andb_prop in X as [X _]. apply andb_prop in X as [_ X].
  apply negb_true_iff in X. exact X.
Qed.
Lemma ascii_facts : forall c, c < 128 ->
  is_digit c = ((48 <=? c) && (c <=? 57))%bool /\ is_upper c = ((65 <=? c) && (c <=? 90))%bool /\ to_lower c = ascii_lower c /\ to_upper c = ascii_upper c.
Proof.
  intros c H. pose proof (uni_check_low c ltac:(lia)) as X. unfold uni_check in X. apply andb_prop in X as [_ X].
  replace (c <? 128) with true in X by (symmetry; apply N.ltb_lt; lia).
  apply andb_prop in X as [X X4]. apply andb_prop in X as [X X3]. apply andb_prop in X as [X1 X2].
  apply eqb_prop in X1, X2. apply N.eqb_eq in X3, X4. auto.
Qed.
Lemma lower_latin : forall c, 128 <= c < 256 -> 128 <= to_lower c.
Proof.
  intros c H. pose proof (uni_check_low c ltac:(lia)) as X. unfold uni_check in X. apply andb_prop in X as [_ X].
  replace (c <? 128) with false in X by (symmetry; apply N.ltb_ge; lia). replace (c <? 256) with true in X by (symmetry; apply N.ltb_lt; lia).
  apply N.leb_le in X. exact X.
Qed.
