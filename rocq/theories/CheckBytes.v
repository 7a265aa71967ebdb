(** platform.h: searching a word for a byte. *)
From Coq Require Import List Bool Arith NArith Lia.
From Verif Require Import Util Spec RunModel RunSpec RunProofs ScannerModel.
Import ListNotations.
Local Open Scope N_scope.

(** ** Words as lists of bytes *)
Lemma le_lt : forall bs, Forall byte bs -> le bs < 256 ^ N.of_nat (length bs).
Proof.
  induction 1 as [|b bs Hb H IH]; [reflexivity|]. cbn [le length]. rewrite Nat2N.inj_succ, N.pow_succ_r'. unfold byte in Hb.
  set (X := 256 ^ N.of_nat (length bs)) in *. lia.
Qed.
Lemma fill_le : forall c, byte c -> fill_size_t c = le (repeat c 8).
Proof.
  assert (A : forallb (fun n => fill_size_t (N.of_nat n) =? le (repeat (N.of_nat n) 8)) (seq 0 256) = true) by (vm_compute; reflexivity).
  rewrite forallb_forall in A. intros c Hc. unfold byte in Hc. specialize (A (N.to_nat c)). rewrite N2Nat.id in A.
  apply N.eqb_eq. apply A. apply in_seq. lia.
Qed.
Lemma fill_lt : forall c, byte c -> fill_size_t c < two64.
Proof.
  intros c Hc. rewrite fill_le by auto. apply (le_lt (repeat c 8)). apply Forall_forall. intros x Hx. apply repeat_spec in Hx. subst; auto.
Qed.
Lemma fill_inj : forall c d, byte c -> byte d -> fill_size_t c = fill_size_t d -> c = d.
Proof.
  intros c d Hc Hd E. rewrite !fill_le in E by auto. cbn [repeat le] in E.
  apply (f_equal (fun x => N.land x 255)) in E. rewrite !land_255 in E by auto. auto.
Qed.
Lemma le_app : forall xs ys, le (xs ++ ys) = le xs + 256 ^ N.of_nat (length xs) * le ys.
Proof.
  induction xs as [|x xs IH]; intros ys; cbn [app le length]; [rewrite N.mul_1_l; reflexivity|].
  rewrite IH, Nat2N.inj_succ, N.pow_succ_r'. lia.
Qed.

(** bitwise operations digit by digit *)
Lemma split_bits : forall op : N -> N -> N, forall opb : bool -> bool -> bool,
  (forall x y i, N.testbit (op x y) i = opb (N.testbit x i) (N.testbit y i)) -> opb false false = false ->
  forall a b A B, a < 256 -> b < 256 -> op (a + 256 * A) (b + 256 * B) = op a b + 256 * op A B.
Proof.
  intros op opb Hop Hff a b A B Ha Hb.
  assert (T : forall x X i, x < 256 -> N.testbit (x + 256 * X) i = if i <? 8 then N.testbit x i else N.testbit X (i - 8)).
  { intros x X i Hx. destruct (N.ltb_spec i 8).
    - rewrite <- (N.mod_pow2_bits_low _ 8) by auto. change (2 ^ 8) with 256. rewrite N.mul_comm, N.mod_add by lia. rewrite N.mod_small; auto.
    - replace i with ((i - 8) + 8) at 1 by lia. rewrite <- N.div_pow2_bits. change (2 ^ 8) with 256. rewrite N.mul_comm, N.div_add by lia.
      rewrite N.div_small by auto. reflexivity. }
  assert (Hs : forall x i, x < 256 -> 8 <= i -> N.testbit x i = false).
  { intros x i Hx Hi. destruct (N.eq_dec x 0) as [->|]; [apply N.bits_0|]. apply N.bits_above_log2. assert (N.log2 x < 8); [|lia]. apply N.log2_lt_pow2; [lia|]. exact Hx. }
  assert (L : op a b < 256).
  { destruct (N.lt_ge_cases (op a b) 256) as [L|L]; auto. exfalso.
    assert (X : N.testbit (op a b) (N.log2 (op a b)) = true) by (apply N.bit_log2; lia).
    rewrite Hop in X. assert (8 <= N.log2 (op a b)). { change 8 with (N.log2 256). apply N.log2_le_mono; auto. }
    rewrite !Hs in X by auto. congruence. }
  apply N.bits_inj. intros i. rewrite Hop, !T by auto. destruct (i <? 8); rewrite Hop; reflexivity.
Qed.
Lemma land_digits : forall a b A B, a < 256 -> b < 256 -> N.land (a + 256 * A) (b + 256 * B) = N.land a b + 256 * N.land A B.
Proof. apply split_bits with (opb := andb); auto. intros. apply N.land_spec. Qed.
Lemma lor_digits : forall a b A B, a < 256 -> b < 256 -> N.lor (a + 256 * A) (b + 256 * B) = N.lor a b + 256 * N.lor A B.
Proof. apply split_bits with (opb := orb); auto. intros. apply N.lor_spec. Qed.
Lemma lxor_digits : forall a b A B, a < 256 -> b < 256 -> N.lxor (a + 256 * A) (b + 256 * B) = N.lxor a b + 256 * N.lxor A B.
Proof. apply split_bits with (opb := xorb); auto. intros. apply N.lxor_spec. Qed.

Lemma lxor_byte : forall a b, byte a -> byte b -> byte (N.lxor a b).
Proof.
  unfold byte. intros a b Ha Hb. destruct (N.eq_dec (N.lxor a b) 0) as [->|D]; [lia|]. apply N.log2_lt_cancel.
  pose proof (N.log2_lxor a b) as X. assert (forall x, x < 256 -> N.log2 x < 8).
  { intros x Hx. destruct (N.eq_dec x 0) as [->|]; [reflexivity|]. apply N.log2_lt_pow2; [lia|exact Hx]. }
  change (N.log2 256) with 8. pose proof (H a Ha). pose proof (H b Hb). lia.
Qed.
Lemma lxor_le : forall xs c, Forall byte xs -> byte c -> N.lxor (le xs) (le (repeat c (length xs))) = le (map (fun x => N.lxor x c) xs).
Proof.
  intros xs c H Hc. induction H as [|x xs Hx H IH]; [reflexivity|]. cbn [length repeat le map].
  rewrite lxor_digits by auto. rewrite IH. reflexivity.
Qed.

(** ** The test for a zero byte *)
Definition ones_n (n : nat) := le (repeat 1 n).
Definition highs_n (n : nat) := le (repeat 128 n).
Definition full_n (n : nat) := le (repeat 255 n).
Definition zero_test (n : nat) (a : N) : N :=
  N.land (N.land ((a + 256 ^ N.of_nat n - ones_n n) mod 256 ^ N.of_nat n) (N.lxor a (full_n n))) (highs_n n).

Lemma full_lt : forall n c, byte c -> le (repeat c n) < 256 ^ N.of_nat n.
Proof.
  intros n c Hc. pose proof (le_lt (repeat c n)) as X. rewrite repeat_length in X. apply X. apply Forall_forall.
  intros x Hx. apply repeat_spec in Hx. subst; auto.
Qed.
Lemma byte_check : forall x, byte x -> x <> 0 -> N.land (N.land (x - 1) (N.lxor x 255)) 128 = 0.
Proof.
  assert (A : forallb (fun n => N.land (N.land (N.of_nat n - 1) (N.lxor (N.of_nat n) 255)) 128 =? 0) (seq 1 255) = true) by (vm_compute; reflexivity).
  rewrite forallb_forall in A. intros x Hx Hz. unfold byte in Hx. specialize (A (N.to_nat x)). rewrite N2Nat.id in A.
  apply N.eqb_eq. apply A. apply in_seq. lia.
Qed.
Lemma zero_test_ok : forall xs, Forall byte xs -> (zero_test (length xs) (le xs) = 0 <-> ~ In 0 xs).
Proof.
  induction 1 as [|x xs Hx H IH]; [cbn; tauto|].
  pose proof (le_lt xs H) as La. pose proof (full_lt (length xs) 1 eq_refl) as Lo. fold (ones_n (length xs)) in Lo.
  unfold zero_test in *. cbn [length]. unfold ones_n, full_n, highs_n. cbn [repeat le].
  fold (ones_n (length xs)). fold (full_n (length xs)). fold (highs_n (length xs)).
  rewrite Nat2N.inj_succ, N.pow_succ_r'. set (K := 256 ^ N.of_nat (length xs)) in *. set (O := ones_n (length xs)) in *.
  set (A := le xs) in *. unfold byte in Hx.
  assert (K0 : 0 < K) by lia. rewrite lxor_digits by lia.
  destruct (N.eq_dec x 0) as [->|Hz].
  - split; [|intros X; exfalso; apply X; left; auto]. intros X. exfalso. revert X.
    assert (E : (0 + 256 * A + 256 * K - (1 + 256 * O)) mod (256 * K) = 255 + 256 * ((A + K - O - 1) mod K)).
    { replace (0 + 256 * A + 256 * K - (1 + 256 * O)) with (255 + 256 * (A + K - O - 1)) by lia.
      rewrite (N.div_mod (A + K - O - 1) K) at 1 by lia. set (q := (A + K - O - 1) / K). set (r := (A + K - O - 1) mod K).
      assert (r < K) by (apply N.mod_lt; lia).
      replace (255 + 256 * (K * q + r)) with (255 + 256 * r + q * (256 * K)) by lia. rewrite N.mod_add by lia. apply N.mod_small. lia. }
    rewrite E, land_digits by (reflexivity). rewrite land_digits by reflexivity.
    change (N.land (N.land 255 (N.lxor 0 255)) 128) with 128. lia.
  - assert (E : (x + 256 * A + 256 * K - (1 + 256 * O)) mod (256 * K) = (x - 1) + 256 * ((A + K - O) mod K)).
    { replace (x + 256 * A + 256 * K - (1 + 256 * O)) with ((x - 1) + 256 * (A + K - O)) by lia.
      rewrite (N.div_mod (A + K - O) K) at 1 by lia. set (q := (A + K - O) / K). set (r := (A + K - O) mod K).
      assert (r < K) by (apply N.mod_lt; lia).
      replace (x - 1 + 256 * (K * q + r)) with ((x - 1) + 256 * r + q * (256 * K)) by lia. rewrite N.mod_add by lia. apply N.mod_small. lia. }
    rewrite E. assert (Hlx : N.lxor x 255 < 256) by (apply lxor_byte; [exact Hx|reflexivity]).
    rewrite land_digits by lia.
    rewrite land_digits.
    + rewrite byte_check by auto. rewrite N.add_0_l. split.
      * intros X. assert (Y : N.land (N.land ((A + K - O) mod K) (N.lxor A (full_n (length xs)))) (highs_n (length xs)) = 0) by lia.
        apply IH in Y. intros [Q|Q]; [congruence|auto].
      * intros X. assert (Y : ~ In 0 xs) by (intros Q; apply X; right; auto). apply IH in Y. rewrite Y. reflexivity.
    + pose proof (N.land_ones (N.land (x - 1) (N.lxor x 255)) 8) as Y.
      assert (Z : N.land (x - 1) (N.lxor x 255) <= N.lxor x 255); [|lia].
      apply N.ldiff_le. apply N.bits_inj. intros i. rewrite N.ldiff_spec, N.land_spec, N.bits_0.
      destruct (N.testbit (x - 1) i), (N.testbit (N.lxor x 255) i); reflexivity.
    + reflexivity.
Qed.

(** ** The three instruction sets *)
(** the mask operand of CheckBytes *)
Definition mask_of (i : isa) (c : N) : N := match i with SSE2 => fill_size_t c + two64 * fill_size_t c | _ => fill_size_t c end.
Lemma mask_of_le : forall i c, byte c -> mask_of i c = le (repeat c (N.to_nat (word_size i))).
Proof.
  intros i c Hc. destruct i; cbn [mask_of word_size]; try (apply fill_le; auto).
  change (N.to_nat 16) with (8 + 8)%nat. rewrite repeat_app, le_app, fill_le by auto. reflexivity.
Qed.

Lemma pow_8 : 256 ^ N.of_nat 8 = two64. Proof. vm_compute. reflexivity. Qed.
Lemma ones_8 : ones_n 8 = mask01. Proof. vm_compute. reflexivity. Qed.
Lemma full_8 : full_n 8 = two64 - 1. Proof. vm_compute. reflexivity. Qed.
Lemma highs_8 : highs_n 8 = mask80. Proof. vm_compute. reflexivity. Qed.
Lemma basic_ok : forall xs c, length xs = 8%nat -> Forall byte xs -> byte c ->
  (check_bytes_basic (fill_size_t c) (le xs) = 0 <-> ~ In c xs).
Proof.
  intros xs c L H Hc. unfold check_bytes_basic. rewrite fill_le by auto. rewrite <- L at 1 2. rewrite lxor_le by auto.
  set (ys := map (fun x => N.lxor x c) xs).
  assert (Ly : length ys = 8%nat) by (unfold ys; rewrite map_length; auto).
  assert (Hy : Forall byte ys).
  { unfold ys. apply Forall_forall. intros y Y. apply in_map_iff in Y as [x [<- X]]. rewrite Forall_forall in H. apply lxor_byte; auto. }
  pose proof (zero_test_ok ys Hy) as Z. rewrite Ly in Z. unfold zero_test in Z.
  rewrite pow_8, ones_8, full_8, highs_8 in Z.
  rewrite Z. unfold ys. rewrite in_map_iff. split.
  - intros X Y. apply X. exists c. split; auto. apply N.lxor_nilpotent.
  - intros X [x [Y Q]]. apply N.lxor_eq in Y. subst. auto.
Qed.

Lemma cmpeq_digits : forall n xs c, length xs = n -> Forall byte xs -> byte c ->
  cmpeq n (le (repeat c n)) (le xs) = le (map (fun x => if c =? x then 255 else 0) xs).
Proof.
  induction n as [|n IH]; intros [|x xs] c L H Hc; try discriminate; [reflexivity|]. inversion H; subst.
  cbn [cmpeq repeat le map]. rewrite !land_255, !shiftr_8 by auto. rewrite IH by (auto; cbn in L; lia). reflexivity.
Qed.
Lemma le_zero : forall xs, le xs = 0 <-> Forall (fun x => x = 0) xs.
Proof.
  induction xs as [|x xs IH]; cbn [le]; [split; auto|]. split.
  - intros H. constructor; [lia|]. apply IH. lia.
  - intros H. inversion H; subst. apply IH in H3. lia.
Qed.
Lemma eq_bytes_zero : forall xs c, Forall (fun x => x = 0) (map (fun x => if c =? x then 255 else 0) xs) <-> ~ In c xs.
Proof.
  intros xs c. rewrite Forall_map, Forall_forall. split.
  - intros H X. specialize (H c X). cbn in H. rewrite N.eqb_refl in H. discriminate.
  - intros H x X. destruct (N.eqb_spec c x); auto. subst. tauto.
Qed.

Definition tops (zs : list N) : Prop := Forall (fun z => z = 0 \/ z = 255) zs.
Lemma movemask_zero : forall zs, tops zs -> (movemask (length zs) (le zs) = 0 <-> Forall (fun z => z = 0) zs).
Proof.
  induction 1 as [|z zs Hz H IH]; [cbn; split; auto|]. cbn [length movemask le].
  assert (Hb : z < 256) by (destruct Hz; subst; reflexivity). rewrite shiftr_8 by auto.
  assert (T : N.testbit (z + 256 * le zs) 7 = N.testbit z 7).
  { rewrite <- (N.mod_pow2_bits_low _ 8) by reflexivity. change (2 ^ 8) with 256. rewrite N.mul_comm, N.mod_add by lia. rewrite N.mod_small; auto. }
  rewrite T. destruct Hz as [->| ->].
  - change (N.testbit 0 7) with false. rewrite N.add_0_l. split.
    + intros X. constructor; auto. apply IH. lia.
    + intros X. inversion X; subst. apply IH in H3. lia.
  - change (N.testbit 255 7) with true. split; intros X; [lia|]. inversion X; discriminate.
Qed.

(** CheckBytes with the tests of several bytes or-ed together. *)
Definition zmask (i : isa) (c : N) (xs : list N) : N := check_bytes i (mask_of i c) (le xs).
Definition lor_all (i : isa) (cs xs : list N) (acc : N) : N := fold_left (fun a c => N.lor a (zmask i c xs)) cs acc.

Lemma lor_zero : forall a b, N.lor a b = 0 <-> a = 0 /\ b = 0.
Proof. intros a b. apply N.lor_eq_0_iff. Qed.

Definition eqs (c : N) (xs : list N) := map (fun x => if c =? x then 255 else 0) xs.
Lemma eqs_tops : forall c xs, tops (eqs c xs).
Proof. intros c xs. unfold eqs, tops. apply Forall_forall. intros z Z. apply in_map_iff in Z as [x [<- _]]. destruct (c =? x); auto. Qed.
Fixpoint lors (xs ys : list N) : list N := match xs, ys with x :: xs', y :: ys' => N.lor x y :: lors xs' ys' | _, _ => [] end.
Lemma lors_le : forall xs ys, tops xs -> tops ys -> length xs = length ys -> N.lor (le xs) (le ys) = le (lors xs ys).
Proof.
  intros xs. induction xs as [|x xs IH]; intros [|y ys] Hx Hy L; try discriminate; [reflexivity|].
  inversion Hx as [|? ? X1 X2]; subst. inversion Hy as [|? ? Y1 Y2]; subst. cbn [le lors]. rewrite lor_digits.
  - rewrite IH by (auto; cbn in L; lia). reflexivity.
  - destruct X1; subst; reflexivity.
  - destruct Y1; subst; reflexivity.
Qed.
Lemma lors_tops : forall xs ys, tops xs -> tops ys -> tops (lors xs ys).
Proof.
  intros xs. induction xs as [|x xs IH]; intros [|y ys] Hx Hy; try constructor; inversion Hx; inversion Hy; subst; auto.
  - destruct H1, H5; subst; auto.
  - apply IH; auto.
Qed.
Lemma lors_length : forall xs ys, length xs = length ys -> length (lors xs ys) = length xs.
Proof. induction xs as [|x xs IH]; intros [|y ys] L; try discriminate; auto. cbn in *. f_equal. apply IH. lia. Qed.
Lemma lors_zero : forall xs ys, length xs = length ys -> (Forall (fun z => z = 0) (lors xs ys) <-> Forall (fun z => z = 0) xs /\ Forall (fun z => z = 0) ys).
Proof.
  induction xs as [|x xs IH]; intros [|y ys] L; try discriminate; cbn [lors]; [split; auto|].
  rewrite !Forall_cons_iff, IH by (cbn in L; lia). rewrite N.lor_eq_0_iff. tauto.
Qed.

Lemma sse_all : forall xs cs zs, Forall byte xs -> length xs = 16%nat -> Forall byte cs -> tops zs -> length zs = 16%nat ->
  exists zs', lor_all SSE2 cs xs (le zs) = le zs' /\ tops zs' /\ length zs' = 16%nat /\
    (Forall (fun z => z = 0) zs' <-> Forall (fun z => z = 0) zs /\ forall c, In c cs -> ~ In c xs).
Proof.
  intros xs cs zs Hx Lx Hc. revert zs. induction Hc as [|c cs Hb Hc IH]; intros zs Tz Lz.
  - exists zs. splits; auto. cbn. tauto.
  - unfold lor_all. cbn [fold_left]. unfold zmask at 2. rewrite mask_of_le by auto. cbn [check_bytes word_size].
    change (N.to_nat 16) with 16%nat. rewrite cmpeq_digits by auto. fold (eqs c xs).
    assert (Le : length (eqs c xs) = 16%nat) by (unfold eqs; rewrite map_length; auto).
    rewrite lors_le by (auto using eqs_tops; congruence).
    destruct (IH (lors zs (eqs c xs))) as (zs' & E & T & L & Z).
    { apply lors_tops; auto using eqs_tops. }
    { rewrite lors_length; congruence. }
    exists zs'. splits; auto. rewrite Z, lors_zero by congruence. unfold eqs. rewrite eq_bytes_zero. cbn [In]. split.
    + intros [[A B] C]. split; auto. intros d [<-|D]; auto.
    + intros [A B]. splits; auto.
Qed.

Theorem any_set_ok : forall i xs c cs, length xs = N.to_nat (word_size i) -> Forall byte xs -> Forall byte (c :: cs) ->
  (is_any_set i (lor_all i cs xs (zmask i c xs)) = false <-> forall d, In d (c :: cs) -> ~ In d xs).
Proof.
  intros i xs c cs L Hx Hc. inversion Hc as [|? ? Hb Hc']; subst.
  assert (S : forall (Q : forall d, byte d -> (zmask i d xs = 0 <-> ~ In d xs)),
    lor_all i cs xs (zmask i c xs) = 0 <-> forall d, In d (c :: cs) -> ~ In d xs).
  { intros Q. unfold lor_all.
    assert (X : forall ds a, Forall byte ds -> (fold_left (fun a c => N.lor a (zmask i c xs)) ds a = 0 <-> a = 0 /\ forall d, In d ds -> ~ In d xs)).
    { intros ds. induction ds as [|d ds IH]; intros a Hd; cbn [fold_left]; [cbn; tauto|]. inversion Hd; subst. rewrite IH, lor_zero, Q by auto.
      cbn [In]. split.
      - intros [[A B] C]. split; auto. intros e [<-|E]; auto.
      - intros [A B]. splits; auto. }
    rewrite X by auto. rewrite Q by auto. cbn [In]. split.
    - intros [A B] d [<-|D]; auto.
    - intros A. split; auto. }
  destruct i.
  - cbn [is_any_set]. rewrite negb_false_iff, N.eqb_eq. apply S. intros d Hd. unfold zmask. cbn [check_bytes mask_of]. apply basic_ok; auto.
  - cbn [is_any_set]. rewrite negb_false_iff, N.eqb_eq. apply S. intros d Hd. unfold zmask. rewrite mask_of_le by auto. cbn [check_bytes word_size].
    change (N.to_nat 8) with 8%nat. rewrite cmpeq_digits by auto. rewrite le_zero, eq_bytes_zero. tauto.
  - cbn [is_any_set]. rewrite negb_false_iff, N.eqb_eq. cbn [word_size] in L. change (N.to_nat 16) with 16%nat in L.
    unfold zmask. rewrite mask_of_le by auto. cbn [check_bytes word_size]. change (N.to_nat 16) with 16%nat. rewrite cmpeq_digits by auto. fold (eqs c xs).
    destruct (sse_all xs cs (eqs c xs) Hx L Hc' (eqs_tops _ _)) as (zs' & E & T & Lz & Z).
    { unfold eqs. rewrite map_length. auto. }
    fold zmask in E. rewrite E. rewrite <- Lz, movemask_zero by auto. rewrite Z. unfold eqs. rewrite eq_bytes_zero. cbn [In]. split.
    + intros [A B] d [<-|D]; auto.
    + intros A. split; auto.
Qed.
