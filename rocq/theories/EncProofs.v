(** UTF-8: encoding and decoding are inverse. *)
From Coq Require Import List Bool Arith NArith ZArith Lia.
From Verif Require Import Util Spec PartitionModel FsmModel EncModel EncSpec.
Import ListNotations.
Local Open Scope N_scope.

Local Ltac Zify.zify_post_hook ::= Z.div_mod_to_equations.

(** ** Facts about all bytes *)
Lemma below : forall (P : N -> bool) n, forallb P (map N.of_nat (seq 0 n)) = true -> forall a, a < N.of_nat n -> P a = true.
Proof.
  intros P n H a Ha. rewrite forallb_forall in H. apply H. rewrite in_map_iff. exists (N.to_nat a). rewrite N2Nat.id. split; auto. apply in_seq. lia.
Qed.
Lemma lor_128 : forall a, a < 64 -> N.lor 128 a = 128 + a.
Proof. intros a H. apply N.eqb_eq. apply (below (fun a => N.lor 128 a =? 128 + a) 64); [vm_compute; reflexivity|exact H]. Qed.
Lemma lor_192 : forall a, a < 32 -> N.lor 192 a = 192 + a.
Proof. intros a H. apply N.eqb_eq. apply (below (fun a => N.lor 192 a =? 192 + a) 32); [vm_compute; reflexivity|exact H]. Qed.
Lemma lor_224 : forall a, a < 16 -> N.lor 224 a = 224 + a.
Proof. intros a H. apply N.eqb_eq. apply (below (fun a => N.lor 224 a =? 224 + a) 16); [vm_compute; reflexivity|exact H]. Qed.
Lemma lor_240 : forall a, a < 8 -> N.lor 240 a = 240 + a.
Proof. intros a H. apply N.eqb_eq. apply (below (fun a => N.lor 240 a =? 240 + a) 8); [vm_compute; reflexivity|exact H]. Qed.

Definition cont_b (c : N) : bool := (128 <=? c) && (c <? 192).
Lemma cont_b_iff : forall c, cont_b c = true <-> continuation c.
Proof. intros c. unfold cont_b, continuation. rewrite andb_true_iff, N.leb_le, N.ltb_lt. tauto. Qed.
Lemma cont_test : forall c, byte c -> (N.land c 192 =? 128) = cont_b c.
Proof.
  intros c H. apply eqb_prop. apply (below (fun c => eqb (N.land c 192 =? 128) (cont_b c)) 256); [vm_compute; reflexivity|exact H].
Qed.
Lemma cont_bits : forall c, continuation c -> N.land c 63 = c - 128.
Proof.
  intros c [A B]. assert (X : (negb (cont_b c) || (N.land c 63 =? c - 128)) = true).
  { apply (below (fun c => negb (cont_b c) || (N.land c 63 =? c - 128)) 256); [vm_compute; reflexivity|lia]. }
  unfold cont_b in X. rewrite (proj2 (N.leb_le _ _) A), (proj2 (N.ltb_lt _ _) B) in X. apply N.eqb_eq. exact X.
Qed.

(** the lead byte's count, as a function *)
Definition announced (c : N) : nat :=
  if c <? 128 then 1 else if c <? 192 then 0 else if c <? 224 then 2 else if c <? 240 then 3 else if c <? 248 then 4 else 0.
Lemma announced_len : forall c, byte c -> utf8_rune_len c = announced c.
Proof. intros c H. apply Nat.eqb_eq. apply (below (fun c => Nat.eqb (utf8_rune_len c) (announced c)) 256); [vm_compute; reflexivity|exact H]. Qed.
Lemma announced_iff : forall c n, announced c = S n <-> announces c n.
Proof.
  intros c n. unfold announced, announces.
  destruct (N.ltb_spec c 128); [split; intros; lia|]. destruct (N.ltb_spec c 192); [split; intros; lia|].
  destruct (N.ltb_spec c 224); [split; intros; lia|]. destruct (N.ltb_spec c 240); [split; intros; lia|].
  destruct (N.ltb_spec c 248); split; intros; lia.
Qed.
Lemma lead_mask : forall c n, byte c -> announces c n ->
  (if (1 <? S n)%nat then N.land c (utf8_leadbyte_mask (S n)) else c) = lead_bits c.
Proof.
  intros c n H A. apply announced_iff in A. apply N.eqb_eq.
  assert (X : match announced c with O => true | S m => (if (1 <? S m)%nat then N.land c (utf8_leadbyte_mask (S m)) else c) =? lead_bits c end = true).
  { apply (below (fun c => match announced c with O => true | S m => (if (1 <? S m)%nat then N.land c (utf8_leadbyte_mask (S m)) else c) =? lead_bits c end) 256);
      [vm_compute; reflexivity|exact H]. }
  rewrite A in X. exact X.
Qed.

(** ** Arithmetic *)
Lemma land_63 : forall x, N.land x 63 = x mod 64.
Proof. intros x. exact (N.land_ones x 6). Qed.
Lemma land_7 : forall x, N.land x 7 = x mod 8.
Proof. intros x. exact (N.land_ones x 3). Qed.
Lemma shr : forall x n, N.shiftr x n = x / 2 ^ n.
Proof. intros. apply N.shiftr_div_pow2. Qed.
Lemma small_bits : forall a n m, a < 2 ^ n -> n <= m -> N.testbit a m = false.
Proof.
  intros a n m H L. rewrite <- (N.mod_small a (2 ^ n)) by exact H. apply N.mod_pow2_bits_high. exact L.
Qed.
Lemma shift_in : forall r a, a < 64 -> N.lor (N.shiftl r 6) a = r * 64 + a.
Proof.
  intros r a H. assert (X : N.land (N.shiftl r 6) a = 0).
  { apply N.bits_inj_0. intros m. rewrite N.land_spec. destruct (N.lt_ge_cases m 6) as [L|L].
    - rewrite N.shiftl_spec_low by exact L. reflexivity.
    - rewrite (small_bits a 6 m) by (auto; exact H). apply andb_false_r. }
  rewrite <- N.lxor_lor by exact X. rewrite <- N.add_nocarry_lxor by exact X. rewrite N.shiftl_mul_pow2. reflexivity.
Qed.
Lemma div_lt : forall a b c, b <> 0 -> a < b * c -> a / b < c.
Proof. intros. apply N.div_lt_upper_bound; auto. Qed.
Lemma mod64 : forall a, a mod 64 < 64.
Proof. intros. apply N.mod_lt. discriminate. Qed.

(** ** Encoding *)
Lemma uchar_small : forall a, a < 256 -> uchar a = a.
Proof. intros a H. apply N.mod_small. exact H. Qed.
Lemma to_local_form : forall c, c < 2097152 -> utf8_to_local c = utf8_form c.
Proof.
  intros c H. unfold utf8_to_local, utf8_put_rune, utf8_rune_len_by_ucs, utf8_form. rewrite !land_63, land_7, !shr.
  change (2 ^ 6) with 64. change (2 ^ 12) with 4096. change (2 ^ 18) with 262144.
  destruct (N.ltb_spec c 128) as [A|A].
  { cbn [repeat length Nat.leb skipn app]. rewrite uchar_small by lia. reflexivity. }
  destruct (N.ltb_spec c 2048) as [B|B].
  { cbn [repeat length Nat.leb skipn app]. assert (c / 64 < 32) by (apply div_lt; [discriminate|exact B]). pose proof (mod64 c).
    rewrite lor_192, lor_128 by assumption. rewrite !uchar_small by lia. reflexivity. }
  destruct (N.ltb_spec c 65536) as [C|C].
  { cbn [repeat length Nat.leb skipn app]. assert (c / 4096 < 16) by (apply div_lt; [discriminate|exact C]). pose proof (mod64 c). pose proof (mod64 (c / 64)).
    rewrite lor_224, !lor_128 by assumption. rewrite !uchar_small by lia. reflexivity. }
  destruct (N.ltb_spec c 2097152) as [D|D]; [|lia].
  cbn [repeat length Nat.leb skipn app]. assert (Q : c / 262144 < 8) by (apply div_lt; [discriminate|exact H]).
  rewrite (N.mod_small (c / 262144) 8) by exact Q.
  pose proof (mod64 c). pose proof (mod64 (c / 64)). pose proof (mod64 (c / 4096)).
  rewrite lor_240, !lor_128 by assumption. rewrite !uchar_small by lia. reflexivity.
Qed.

Lemma form_char : forall c, c < 2097152 -> exists b v, utf8_form c = b :: v /\ announces b (length v) /\ Forall continuation v /\ seq_value b v = c /\ byte b.
Proof.
  intros c H. unfold utf8_form, announces, seq_value, lead_bits, byte.
  destruct (N.ltb_spec c 128) as [A|A].
  { exists c, []. splits; [reflexivity|cbn [length]; lia|constructor| |lia]. cbn [fold_left]. rewrite (proj2 (N.ltb_lt c 128)) by lia. reflexivity. }
  assert (K : forall x, continuation (128 + x mod 64)) by (intros x; pose proof (mod64 x) as X; unfold continuation; generalize dependent (x mod 64); intros; lia).
  assert (E : forall x, 128 + x - 128 = x) by (intros; lia).
  assert (M : forall x, x / 64 * 64 + x mod 64 = x) by (intros x; rewrite N.mul_comm; symmetry; apply N.div_mod; discriminate).
  assert (D2 : c / 4096 = c / 64 / 64) by (rewrite N.div_div by discriminate; reflexivity).
  assert (D3 : c / 262144 = c / 4096 / 64) by (rewrite N.div_div by discriminate; reflexivity).
  destruct (N.ltb_spec c 2048) as [B|B].
  { assert (Q : c / 64 < 32) by (apply div_lt; [discriminate|exact B]). exists (192 + c / 64), [128 + c mod 64].
    splits; [reflexivity|cbn [length]; lia|repeat constructor; apply K| |lia]. cbn [fold_left].
    rewrite (proj2 (N.ltb_ge _ 128)), (proj2 (N.ltb_lt _ 224)) by lia. rewrite E. replace (192 + c / 64 - 192) with (c / 64) by lia. apply M. }
  destruct (N.ltb_spec c 65536) as [C|C].
  { assert (Q : c / 4096 < 16) by (apply div_lt; [discriminate|exact C]). exists (224 + c / 4096), [128 + c / 64 mod 64; 128 + c mod 64].
    splits; [reflexivity|cbn [length]; lia|repeat constructor; apply K| |lia]. cbn [fold_left].
    rewrite (proj2 (N.ltb_ge _ 128)), (proj2 (N.ltb_ge _ 224)), (proj2 (N.ltb_lt _ 240)) by lia. rewrite !E. replace (224 + c / 4096 - 224) with (c / 4096) by lia.
    rewrite D2, !M. reflexivity. }
  assert (Q : c / 262144 < 8) by (apply div_lt; [discriminate|exact H]). exists (240 + c / 262144), [128 + c / 4096 mod 64; 128 + c / 64 mod 64; 128 + c mod 64].
  splits; [reflexivity|cbn [length]; lia|repeat constructor; apply K| |lia]. cbn [fold_left].
  rewrite (proj2 (N.ltb_ge _ 128)), (proj2 (N.ltb_ge _ 224)), (proj2 (N.ltb_ge _ 240)) by lia. rewrite !E. replace (240 + c / 262144 - 240) with (c / 262144) by lia.
  rewrite D3, M, D2, !M. reflexivity.
Qed.

(** ** Decoding *)
Lemma continues_some : forall v r, Forall continuation v -> utf8_continues r v = Some (fold_left (fun acc b => acc * 64 + (b - 128)) v r).
Proof.
  induction v as [|b v IH]; intros r H; cbn [utf8_continues fold_left]; auto. inversion H; subst.
  unfold utf8_continue. assert (byte b) by (unfold continuation, byte in *; lia).
  rewrite cont_test, (proj2 (cont_b_iff b)) by assumption. rewrite cont_bits by assumption. rewrite shift_in by (unfold continuation in *; lia). apply IH; auto.
Qed.
Lemma continues_none : forall v r, Forall byte v -> ~ Forall continuation v -> utf8_continues r v = None.
Proof.
  induction v as [|b v IH]; intros r H N; [destruct N; constructor|]. cbn [utf8_continues]. inversion H; subst. unfold utf8_continue.
  rewrite cont_test by assumption. destruct (cont_b b) eqn:E; auto. apply IH; auto. intros X. apply N. constructor; auto. apply cont_b_iff. exact E.
Qed.
Lemma cont_dec : forall v, Forall continuation v \/ ~ Forall continuation v.
Proof.
  intros v. destruct (forallb cont_b v) eqn:E; [left|right].
  - rewrite forallb_forall in E. apply Forall_forall. intros x Hx. apply cont_b_iff, E, Hx.
  - intros F. rewrite Forall_forall in F. assert (forallb cont_b v = true); [|congruence]. apply forallb_forall. intros x Hx. apply cont_b_iff, F, Hx.
Qed.

Lemma utf8_read_ok : forall b v rest, byte b -> announces b (length v) -> Forall continuation v ->
  utf8_from_local (b :: v ++ rest) = Ok (seq_value b v, rest).
Proof.
  intros b v rest Hb A F. unfold utf8_from_local, utf8_read_rune. rewrite announced_len by exact Hb.
  pose proof A as A'. apply announced_iff in A'. rewrite A'. cbn [length]. rewrite app_length.
  rewrite (proj2 (Nat.ltb_ge _ _)) by lia. cbn [Nat.eqb]. rewrite lead_mask by assumption.
  replace (S (length v) - 1)%nat with (length v) by lia. rewrite firstn_app, firstn_all, Nat.sub_diag. cbn [firstn]. rewrite app_nil_r.
  rewrite continues_some by exact F. cbn [bind skipn]. rewrite skipn_app, skipn_all, Nat.sub_diag. reflexivity.
Qed.
Lemma utf8_read_cases : forall s, s <> [] -> Forall byte s ->
  (exists b v rest, s = b :: v ++ rest /\ announces b (length v) /\ Forall continuation v /\ utf8_from_local s = Ok (seq_value b v, rest)) \/
  (utf8_from_local s = Throw EEncoding /\ forall b v rest, s = b :: v ++ rest -> announces b (length v) -> ~ Forall continuation v).
Proof.
  intros s Hn Hs. destruct s as [|b s]; [congruence|]. inversion Hs as [|? ? Hb Hs']; subst.
  destruct (announced b) as [|n] eqn:A.
  { right. split.
    - unfold utf8_from_local, utf8_read_rune. rewrite announced_len, A by exact Hb. reflexivity.
    - intros b' v rest E Ha. injection E as <- _. apply announced_iff in Ha. congruence. }
  destruct (le_lt_dec n (length s)) as [L|L].
  - destruct (cont_dec (firstn n s)) as [F|F].
    + left. assert (Hl : length (firstn n s) = n) by (apply firstn_length_le; exact L).
      exists b, (firstn n s), (skipn n s). rewrite firstn_skipn. rewrite Hl. apply announced_iff in A. splits; auto.
      rewrite <- (firstn_skipn n s) at 1. apply utf8_read_ok; auto. rewrite Hl. exact A.
    + right. split.
      * unfold utf8_from_local, utf8_read_rune. rewrite announced_len, A by exact Hb. cbn [length]. rewrite (proj2 (Nat.ltb_ge _ _)) by lia. cbn [Nat.eqb].
        replace (S n - 1)%nat with n by lia. rewrite continues_none; [reflexivity| |exact F].
        apply Forall_forall. intros x Hx. rewrite Forall_forall in Hs'. apply Hs'. rewrite <- (firstn_skipn n s). apply in_or_app. auto.
      * intros b' v rest E Ha Fv. injection E as <- E. apply announced_iff in Ha. assert (n = length v) by congruence. subst n. apply F.
        rewrite E, firstn_app, firstn_all, Nat.sub_diag. cbn [firstn]. rewrite app_nil_r. exact Fv.
  - right. split.
    + unfold utf8_from_local, utf8_read_rune. rewrite announced_len, A by exact Hb. cbn [length]. rewrite (proj2 (Nat.ltb_lt _ _)) by lia. reflexivity.
    + intros b' v rest E Ha Fv. injection E as <- E. apply announced_iff in Ha. assert (n = length v) by congruence. subst n s. rewrite app_length in L. lia.
Qed.

(** ** Round trips *)
Lemma utf8_round_trip : forall c rest, c < 2097152 -> utf8_from_local (utf8_to_local c ++ rest) = Ok (c, rest).
Proof.
  intros c rest H. rewrite to_local_form by exact H. destruct (form_char c H) as (b & v & -> & A & F & V & B). cbn [app].
  rewrite utf8_read_ok by assumption. rewrite V. reflexivity.
Qed.
Lemma utf8_prefix_free : forall a b x y, a < 2097152 -> b < 2097152 -> utf8_to_local a ++ x = utf8_to_local b ++ y -> a = b /\ x = y.
Proof.
  intros a b x y Ha Hb E. pose proof (utf8_round_trip a x Ha) as X. rewrite E, utf8_round_trip in X by exact Hb.
  split; congruence.
Qed.

Lemma from_loop_utf8 : forall fuel s, Forall byte s -> (length s <= fuel)%nat ->
  (exists cs, from_local_loop utf8 fuel s = Ok cs /\ decodes s cs) \/ (from_local_loop utf8 fuel s = Throw EEncoding /\ forall cs, ~ decodes s cs).
Proof.
  induction fuel as [|k IH]; intros s Hs Hl.
  - destruct s as [|b s]; [left; exists []; split; [reflexivity|constructor]|cbn in Hl; lia].
  - destruct s as [|b s]; [left; exists []; split; [reflexivity|constructor]|].
    change (from_local_loop utf8 (S k) (b :: s)) with
      (let* (c, rest) := utf8_from_local (b :: s) in let* cs := from_local_loop utf8 k rest in Ok (c :: cs)).
    destruct (utf8_read_cases (b :: s)) as [(b' & v & rest & E & A & F & R)|[R N]]; auto; [discriminate| |].
    + rewrite R. cbn [bind]. injection E as <- ->. inversion Hs; subst. apply Forall_app in H2 as [_ Hr].
      destruct (IH rest Hr) as [(cs & -> & D)|[-> D]].
      * cbn [length] in Hl. rewrite app_length in Hl. lia.
      * left. cbn [bind]. exists (seq_value b v :: cs). split; auto. constructor; auto.
      * right. cbn [bind]. split; auto. intros cs D'. inversion D' as [|c v' s' cs' A' F' D'' E1 E2]; subst. apply announced_iff in A, A'.
        assert (X : length v' = length v) by congruence.
        assert (Y : s' = rest).
        { apply (f_equal (skipn (length v))) in H. rewrite <- X in H at 1. rewrite !skipn_app, !skipn_all, !Nat.sub_diag in H. exact H. }
        subst s'. exact (D _ D'').
    + rewrite R. right. split; auto. intros cs D. inversion D as [|c v' s' cs' A' F' D'' E1 E2]; subst. exact (N _ _ _ eq_refl A' F').
Qed.

Lemma from_utf8_iff : forall s cs, Forall byte s -> (from_local_all utf8 s = Ok cs <-> decodes s cs).
Proof.
  intros s cs H. unfold from_local_all. destruct (from_loop_utf8 (length s) s H (le_n _)) as [(cs' & E & D)|[E D]]; rewrite E.
  - split; [intros X; replace cs with cs' by congruence; exact D|]. intros D'. f_equal. clear E H. revert cs D'.
    induction D as [|c v s cs' A F D IH]; intros cs D'.
    + inversion D'. reflexivity.
    + inversion D' as [|c2 v2 s2 cs2 A2 F2 D2 E1 E2]; subst. apply announced_iff in A, A2. assert (L : length v2 = length v) by congruence.
      assert (Ev : v2 = v) by (apply (f_equal (firstn (length v))) in H; rewrite <- L in H at 1; rewrite !firstn_app, !firstn_all, !Nat.sub_diag in H; cbn [firstn] in H; rewrite !app_nil_r in H; exact H).
      subst v2. apply app_inv_head in H. subst s2. f_equal. apply IH; exact D2.
  - split; [discriminate|]. intros D'. destruct (D _ D').
Qed.
Lemma from_utf8_total : forall s, Forall byte s -> (exists cs, from_local_all utf8 s = Ok cs) \/ from_local_all utf8 s = Throw EEncoding.
Proof. intros s H. destruct (from_loop_utf8 (length s) s H (le_n _)) as [(cs & E & _)|[E _]]; eauto. Qed.

Lemma form_bytes : forall c, c < 2097152 -> Forall byte (utf8_form c).
Proof.
  intros c H. destruct (form_char c H) as (b & v & -> & A & F & _ & B). constructor; auto. eapply Forall_impl; [|exact F]. unfold continuation, byte. intros; lia.
Qed.
Lemma forms_decode : forall cs, Forall (fun c => c < 2097152) cs -> decodes (flat_map utf8_to_local cs) cs /\ Forall byte (flat_map utf8_to_local cs).
Proof.
  induction cs as [|c cs IH]; intros H; cbn [flat_map]; [split; constructor|]. inversion H; subst. destruct (IH H3) as [D B].
  rewrite to_local_form by assumption. split; [|apply Forall_app; split; auto; apply form_bytes; auto].
  destruct (form_char c H2) as (b & v & -> & A & F & V & _). cbn [app]. rewrite <- V. constructor; auto.
Qed.
Lemma utf8_text_round_trip : forall cs, Forall (fun c => c < 2097152) cs -> from_local_all utf8 (flat_map utf8_to_local cs) = Ok cs.
Proof. intros cs H. destruct (forms_decode cs H) as [D B]. apply from_utf8_iff; auto. Qed.

Lemma form_utf8char : forall c, c < 2097152 -> L_utf8char (utf8_form c).
Proof. intros c H. destruct (form_char c H) as (b & v & E & A & F & _). exists b, v. auto. Qed.
Lemma to_local_nonempty : forall c, utf8_to_local c <> [].
Proof.
  intros c. unfold utf8_to_local, utf8_put_rune, utf8_rune_len_by_ucs.
  destruct (c <? 128); [discriminate|]. destruct (c <? 2048); [discriminate|]. destruct (c <? 65536); [discriminate|].
  destruct (c <? 2097152); [discriminate|]. destruct (c <? 67108864); discriminate.
Qed.
Lemma to_local_bytes : forall c, Forall byte (utf8_to_local c).
Proof.
  assert (U : forall x, byte (uchar x)) by (intros x; unfold byte, uchar; apply N.mod_lt; discriminate). assert (B : byte 32) by reflexivity.
  intros c. unfold utf8_to_local, utf8_put_rune, utf8_rune_len_by_ucs.
  destruct (c <? 128); [cbn [repeat length Nat.leb skipn app]; auto|]. destruct (c <? 2048); [cbn [repeat length Nat.leb skipn app]; auto|].
  destruct (c <? 65536); [cbn [repeat length Nat.leb skipn app]; auto|]. destruct (c <? 2097152); [cbn [repeat length Nat.leb skipn app]; auto|].
  destruct (c <? 67108864); cbn [repeat length Nat.leb skipn app]; auto 10.
Qed.
Lemma latin1_round_trip : forall c rest, c < 128 -> latin1_from_local (latin1_to_local c ++ rest) = Ok (c, rest).
Proof.
  intros c rest H. unfold latin1_to_local. rewrite (proj2 (N.ltb_lt _ _)) by exact H. cbn [app latin1_from_local]. rewrite uchar_small by lia.
  rewrite (proj2 (N.leb_gt _ _)) by exact H. reflexivity.
Qed.
