(** The lexer reads the documented syntax. *)
From Coq Require Import List Bool Arith NArith ZArith Lia.
From Verif Require Import Util Spec RegexModel UniModel LexModel LexSpec UniFacts.
Import ListNotations.
Local Open Scope N_scope.

(** ** Control codes *)
Lemma control_mask : forall c, N.land c 65280 = 256 * ((c / 256) mod 256).
Proof.
  intros c. replace ((c / 256) mod 256) with (N.land (N.shiftr c 8) 255) by (change 255 with (N.ones 8); rewrite N.land_ones, N.shiftr_div_pow2; reflexivity).
  rewrite N.mul_comm. change 256 with (2 ^ 8). rewrite <- N.shiftl_mul_pow2, N.shiftl_land. change (N.shiftl 255 8) with 65280.
  rewrite <- N.ldiff_ones_r. apply N.bits_inj. intros i. rewrite !N.land_spec, N.ldiff_spec.
  destruct (N.testbit (N.ones 8) i) eqn:E; [|cbn; rewrite andb_true_r; reflexivity].
  rewrite N.ones_spec_iff in E.
  assert (N.testbit 65280 i = false) as ->; [|now rewrite !andb_false_r].
  change 65280 with (N.shiftl 255 8). apply N.shiftl_spec_low. exact E.
Qed.
Lemma control_iff : forall c, is_control c = true <-> reserved c.
Proof. intros c. unfold is_control, ControlMask, Control, reserved. rewrite control_mask, N.eqb_eq. lia. Qed.
Lemma control_no : forall c, ~ reserved c -> is_control c = false.
Proof. intros c H. destruct (is_control c) eqn:E; auto. apply control_iff in E. tauto. Qed.
Lemma low_plain : forall c, c < 61440 -> ~ reserved c.
Proof. intros c H E. unfold reserved in E. assert (c / 256 < 240) by (apply N.div_lt_upper_bound; lia). rewrite N.mod_small in E; lia. Qed.
Lemma below_256 : forall p, all_bits 8 0 p = true -> forall c, c < 256 -> p c = true.
Proof. intros p H c Hc. apply (all_bits_ok 8 0 p H). change (2 ^ N.of_nat 8) with 256. lia. Qed.
Ltac bytes p := let c := fresh in let H := fresh in intros c H; pose proof (below_256 p ltac:(vm_compute; reflexivity) c H) as X; cbv beta in X.
Lemma ctl_eq : forall c, c < 256 -> ctl c = 61440 + c.
Proof. bytes (fun c => ctl c =? 61440 + c). apply N.eqb_eq, X. Qed.
Lemma strip_ctl : forall c, c < 256 -> strip (ctl c) = c.
Proof. bytes (fun c => strip (ctl c) =? c). apply N.eqb_eq, X. Qed.
Lemma control_ctl : forall c, c < 256 -> is_control (ctl c) = true.
Proof. bytes (fun c => is_control (ctl c)). exact X. Qed.
Lemma not_end : forall c, ~ reserved c -> c <> End.
Proof. intros c H ->. apply H. vm_compute. reflexivity. Qed.
Lemma plain_not_ctl : forall c d, d < 256 -> ~ reserved c -> c <> ctl d.
Proof. intros c d Hd H ->. apply H, control_iff, control_ctl, Hd. Qed.

(** ** Reading characters: an escape may have been folded already *)
Definition same (s t : list N) : Prop := s = t \/ exists d r, d < 255 /\ t = 92 :: d :: r /\ s = ctl d :: r.
Definition starts (t : list N) : Prop :=
  t = [] \/ (exists d r, d < 255 /\ t = 92 :: d :: r) \/ exists c r, t = c :: r /\ c <> 92 /\ ~ reserved c.
Lemma same_refl : forall s, same s s. Proof. left. reflexivity. Qed.
Lemma get_plain : forall c s, c <> 92 -> get_char (c :: s) = Ok (c, s).
Proof. intros c s H. unfold get_char. replace (c =? 92) with false; auto. symmetry. apply N.eqb_neq, H. Qed.
Lemma same_get : forall s t, same s t -> get_char s = get_char t.
Proof.
  intros s t [->|(d & r & Hd & -> & ->)]; auto. rewrite get_plain; [reflexivity|]. rewrite ctl_eq by lia. lia.
Qed.
Lemma same_plain : forall s c t, c <> 92 -> same s (c :: t) -> s = c :: t.
Proof. intros s c t H [->|(d & r & _ & E & _)]; auto. congruence. Qed.
Lemma starts_unget : forall t, starts t -> exists c s, get_char t = Ok (c, s) /\ same (unget_char c s) t.
Proof.
  intros t [->|[(d & r & Hd & ->)|(c & r & -> & H & R)]].
  - exists End, []. split; auto. left. reflexivity.
  - exists (ctl d), r. split; auto. unfold unget_char. replace (ctl d =? End) with false; [right; exists d, r; auto|].
    symmetry. apply N.eqb_neq. rewrite ctl_eq by lia. unfold End. lia.
  - exists c, r. rewrite get_plain by auto. split; auto. unfold unget_char. replace (c =? End) with false; [left; auto|].
    symmetry. apply N.eqb_neq, not_end, R.
Qed.
Lemma starts_cons : forall c t, c <> 92 -> ~ reserved c -> starts (c :: t).
Proof. intros c t H R. right. right. exists c, t. auto. Qed.
Lemma starts_esc : forall d t, d < 255 -> starts (92 :: d :: t).
Proof. intros d t H. right. left. exists d, t. auto. Qed.

(** ** \x *)
Lemma hex_plain : forall c, hexdigit c -> c < 128. Proof. unfold hexdigit. intros. lia. Qed.
Lemma is_hex_ok : forall c, hexdigit c -> is_hex c = true.
Proof.
  intros c H. unfold is_hex. destruct H as [H|[H|H]].
  - replace (48 <=? c) with true by (symmetry; apply N.leb_le; lia). replace (c <=? 57) with true by (symmetry; apply N.leb_le; lia). reflexivity.
  - replace (65 <=? c) with true by (symmetry; apply N.leb_le; lia). replace (c <=? 70) with true by (symmetry; apply N.leb_le; lia).
    cbn. rewrite orb_true_r. reflexivity.
  - replace (97 <=? c) with true by (symmetry; apply N.leb_le; lia). replace (c <=? 102) with true by (symmetry; apply N.leb_le; lia).
    rewrite orb_true_r. reflexivity.
Qed.
Lemma hex_fold : forall ds a, fold_left (fun a c => a * 16 + hex_value c) ds a = fold_left (fun a c => 16 * a + hex_digit_value c) ds a.
Proof. induction ds as [|d ds IH]; intros a; cbn [fold_left]; auto. rewrite IH. f_equal. unfold hex_value, hex_digit_value. lia. Qed.
Lemma hex_to_dec_ok : forall ds, hex_number ds <= 1114111 -> hex_to_dec ds = Ok (hex_number ds).
Proof.
  intros ds H. unfold hex_to_dec. rewrite hex_fold. fold (hex_number ds). cbv zeta.
  replace (18446744073709551616 <=? hex_number ds) with false by (symmetry; apply N.leb_gt; lia).
  rewrite N.mod_small by lia. replace (1114111 <? hex_number ds) with false by (symmetry; apply N.ltb_ge; lia). reflexivity.
Qed.
Lemma hex2_low : forall a b, hexdigit a -> hexdigit b -> hex_number [a; b] < 256.
Proof.
  intros a b Ha Hb. unfold hex_number. cbn [fold_left].
  assert (V : forall c, hexdigit c -> hex_digit_value c < 16).
  { intros c H. unfold hex_digit_value. destruct (c <=? 57) eqn:E1; [apply N.leb_le in E1; unfold hexdigit in H; lia|].
    apply N.leb_gt in E1. destruct (c <=? 70) eqn:E2; [apply N.leb_le in E2|apply N.leb_gt in E2]; unfold hexdigit in H; lia. }
  pose proof (V a Ha). pose proof (V b Hb). lia.
Qed.
Lemma unget_plain : forall c s, c <> End -> unget_char c s = c :: s.
Proof. intros c s H. unfold unget_char. replace (c =? End) with false; auto. symmetry. apply N.eqb_neq, H. Qed.
Lemma read_hex_brace : forall ds acc fuel t c s, Forall hexdigit ds -> (acc <> [] \/ ds <> []) -> c :: s = ds ++ 125 :: t -> (length ds < fuel)%nat ->
  read_hex (fun c n => (c =? End) || (negb (Nat.eqb n 0) && (c =? 125)))%bool fuel acc c s = Ok (acc ++ ds, 125 :: t).
Proof.
  induction ds as [|d ds IH]; intros acc fuel t c s F A E L; destruct fuel as [|k]; try (cbn in L; lia); cbn [read_hex].
  - cbn in E. injection E as -> ->. rewrite app_nil_r. replace (125 =? End) with false by reflexivity. rewrite orb_false_l.
    destruct acc as [|x acc]; [destruct A; congruence|]. cbn [length Nat.eqb negb andb]. rewrite N.eqb_refl. rewrite unget_plain by (unfold End; lia). reflexivity.
  - cbn in E. injection E as -> ->. apply Forall_inv in F as Hd. apply Forall_inv_tail in F. pose proof (hex_plain _ Hd).
    replace (d =? End) with false by (symmetry; apply N.eqb_neq; unfold End; lia).
    replace (d =? 125) with false by (symmetry; apply N.eqb_neq; unfold hexdigit in Hd; lia).
    rewrite andb_false_r. cbn [orb]. rewrite (is_hex_ok _ Hd). cbn [negb].
    destruct ds as [|e ds].
    + cbn [app]. rewrite get_plain by lia. cbn [bind]. rewrite IH with (t := t); auto; [now rewrite <- app_assoc| |cbn in *; lia].
      left. destruct acc; discriminate.
    + cbn [app]. apply Forall_inv in F as He. pose proof (hex_plain _ He). rewrite get_plain by (unfold hexdigit in He; lia). cbn [bind].
      rewrite IH with (t := t); auto; [now rewrite <- app_assoc| |cbn in *; lia]. left. destruct acc; discriminate.
Qed.
Lemma read_unicode_brace : forall ds t, hex_ok ds -> read_unicode (ctl 120 :: 123 :: ds ++ 125 :: t) = Ok (hex_number ds, t).
Proof.
  intros ds t (N0 & F & L & _). unfold read_unicode. rewrite get_plain by (vm_compute; discriminate). cbn [bind peek_char].
  rewrite N.eqb_refl. rewrite get_plain by lia. cbn [bind].
  destruct ds as [|d ds]; [congruence|]. cbn [app]. pose proof (Forall_inv F) as Hd. cbv beta in Hd. pose proof (hex_plain _ Hd).
  rewrite get_plain by (unfold hexdigit in Hd; lia). cbn [bind].
  rewrite (read_hex_brace (d :: ds) [] _ t d (ds ++ 125 :: t)); auto; [|rewrite app_length; cbn; lia].
  cbn [bind]. rewrite get_plain by lia. cbn [bind]. rewrite N.eqb_refl. cbn [negb app]. rewrite hex_to_dec_ok by auto. reflexivity.
Qed.
Lemma read_unicode_two : forall a b t, hexdigit a -> hexdigit b -> starts t ->
  exists s, read_unicode (ctl 120 :: a :: b :: t) = Ok (hex_number [a; b], s) /\ same s t.
Proof.
  intros a b t Ha Hb S. pose proof (hex_plain _ Ha). pose proof (hex_plain _ Hb). destruct (starts_unget t S) as (c & r & G & Sm).
  exists (unget_char c r). split; auto. unfold read_unicode. rewrite get_plain by (vm_compute; discriminate). cbn [bind peek_char].
  replace (a =? 123) with false by (symmetry; apply N.eqb_neq; unfold hexdigit in Ha; lia).
  rewrite get_plain by (unfold hexdigit in Ha; lia). cbn [bind length read_hex Nat.eqb]. rewrite (is_hex_ok _ Ha). cbn [negb].
  rewrite get_plain by (unfold hexdigit in Hb; lia). cbn [bind length app read_hex Nat.eqb]. rewrite (is_hex_ok _ Hb). cbn [negb].
  rewrite G. cbn [bind length app read_hex Nat.eqb]. cbn [negb]. rewrite hex_to_dec_ok; [reflexivity|]. pose proof (hex2_low a b Ha Hb). lia.
Qed.

(** ** Single characters between brackets *)
Notation rc := range_controls.
Lemma strchr_in : forall l c, c < 256 -> strchr l c = true <-> In c (l ++ [0]).
Proof.
  intros l c H. unfold strchr. rewrite N.mod_small by lia. rewrite existsb_exists. split; [intros (x & I & E)|intros I; exists c; split; auto; apply N.eqb_refl].
  apply N.eqb_eq in E. now subst.
Qed.
Lemma correct_plain : forall c, ~ reserved c -> ~ In c [94; 91; 93; 45; 92; 0] -> correct c rc = c.
Proof.
  intros c R I. unfold correct. rewrite (control_no c R). cbn [andb]. destruct (c <=? 255) eqn:E; auto. apply N.leb_le in E.
  assert (strchr rc (N.land c 255) = false) as ->; auto.
  change 255 with (N.ones 8). rewrite N.land_ones. change (2 ^ 8) with 256. rewrite N.mod_small by lia.
  destruct (strchr rc c) eqn:S; auto. apply strchr_in in S; [|lia]. exfalso. apply I. exact S.
Qed.
Lemma correct_ctl_dash : forall d, d < 256 -> correct (ctl d) rc <> ctl 45.
Proof. bytes (fun d => negb (correct (ctl d) rc =? ctl 45)). apply negb_true_iff, N.eqb_neq in X. exact X. Qed.
Lemma correct_dash : forall c, ~ reserved c -> (correct c rc =? ctl 45) = (c =? 45).
Proof.
  intros c R. destruct (N.lt_ge_cases c 256) as [L|L].
  - revert c L R. bytes (fun c => Bool.eqb (correct c rc =? ctl 45) (c =? 45)). intros _. apply eqb_prop, X.
  - unfold correct. rewrite (control_no c R). cbn [andb]. replace (c <=? 255) with false by (symmetry; apply N.leb_gt; lia). cbn [andb].
    transitivity false; [|symmetry]; apply N.eqb_neq; [|lia]. apply plain_not_ctl; auto. lia.
Qed.
Definition dashed (t : list N) : bool := match t with c :: _ => c =? 45 | [] => false end.
Lemma peek_dash : forall s t, same s t -> starts t -> (correct (peek_char s) rc =? ctl 45) = dashed t.
Proof.
  intros s t S [->|[(d & r & Hd & ->)|(c & r & -> & H & R)]].
  - destruct S as [->|(d & r & _ & E & _)]; [reflexivity|discriminate].
  - destruct S as [->|(e & q & He & E & ->)]; [reflexivity|]. injection E as <- <-. cbn [peek_char dashed].
    transitivity false; [|reflexivity]. apply N.eqb_neq, correct_ctl_dash. lia.
  - apply same_plain in S; auto. subst s. cbn [peek_char dashed]. apply correct_dash, R.
Qed.

(** What the loop does with a character that may begin a range. *)
Lemma single_begin : forall b s t, single_ok b -> same s (single_text b ++ t) -> starts t ->
  exists c s1 u s2, get_char s = Ok (c, s1) /\
    let c := correct c rc in let uni := c =? ctl 120 in
    (c =? End) = false /\ (c =? ctl 93) = false /\ (if uni then read_unicode (unget_char c s1) else Ok (0, s1)) = Ok (u, s2) /\
    same s2 t /\ (negb (is_control c) || uni)%bool = true /\ (if uni then u else c) = single_value b /\ (c =? ctl 45) = false /\
    (is_control c && (strchr range_controls2 (strip c) || strchr range_controls (strip c)))%bool = false /\
    (negb (is_control c) || negb (strchr range_controls (strip c)))%bool = true.
Proof.
  intros b s t Hb S St. rewrite (same_get _ _ S). destruct b as [c|c|x y|ds]; cbn [single_text single_ok single_value] in *.
  - destruct Hb as (I & R & W). exists c, t, 0, t. cbn [app]. rewrite get_plain by (intros ->; apply I; cbn; auto 10).
    split; auto. cbv zeta. rewrite correct_plain by auto. rewrite (control_no c R). cbn [andb orb negb].
    assert (P : forall d, d < 256 -> (c =? ctl d) = false) by (intros d Hd; apply N.eqb_neq, plain_not_ctl; auto).
    rewrite !P by lia. replace (c =? End) with false by (symmetry; apply N.eqb_neq, not_end, R). repeat (split; [try reflexivity; try apply same_refl|]); reflexivity.
  - exists (ctl c), t, 0, t. split; [reflexivity|]. cbv zeta.
    repeat (destruct Hb as [<-|Hb]; [repeat (split; [try (vm_compute; reflexivity); try apply same_refl|]); vm_compute; reflexivity|]). destruct Hb.
  - destruct Hb as [Hx Hy]. destruct (read_unicode_two x y t Hx Hy St) as (s2 & E & S2).
    exists (ctl 120), (x :: y :: t), (hex_number [x; y]), s2. split; [reflexivity|]. cbv zeta. change (correct (ctl 120) rc) with (ctl 120).
    rewrite N.eqb_refl. rewrite unget_plain by (vm_compute; discriminate). rewrite E.
    repeat (split; [try (vm_compute; reflexivity); auto|]). vm_compute. reflexivity.
  - pose proof (read_unicode_brace ds t Hb) as E.
    exists (ctl 120), (123 :: ds ++ 125 :: t), (hex_number ds), t. cbn [app]. split.
    { rewrite <- app_assoc. reflexivity. }
    cbv zeta. change (correct (ctl 120) rc) with (ctl 120).
    rewrite N.eqb_refl. rewrite unget_plain by (vm_compute; discriminate). rewrite E.
    repeat (split; [try (vm_compute; reflexivity); try apply same_refl; auto|]). vm_compute. reflexivity.
Qed.
Lemma single_end : forall b t, single_ok b -> starts t ->
  exists c s1 s2, get_char (single_text b ++ t) = Ok (c, s1) /\ same s2 t /\
    (if c =? ctl 120 then read_unicode (unget_char c s1)
     else let e := correct c rc in if is_control e then Throw ESyntax else Ok (e, s1)) = Ok (single_value b, s2).
Proof.
  intros b t Hb St. destruct b as [c|c|x y|ds]; cbn [single_text single_ok single_value] in *.
  - destruct Hb as (I & R & W). exists c, t, t. cbn [app]. rewrite get_plain by (intros ->; apply I; cbn; auto 10).
    split; auto. split; [apply same_refl|]. cbv zeta. rewrite correct_plain by auto. rewrite (control_no c R).
    replace (c =? ctl 120) with false; [reflexivity|]. symmetry. apply N.eqb_neq, plain_not_ctl; auto. lia.
  - exists (ctl c), t, t. split; [reflexivity|]. split; [apply same_refl|].
    repeat (destruct Hb as [<-|Hb]; [reflexivity|]). destruct Hb.
  - destruct Hb as [Hx Hy]. destruct (read_unicode_two x y t Hx Hy St) as (s2 & E & S2).
    exists (ctl 120), (x :: y :: t), s2. split; [reflexivity|]. split; [exact S2|]. rewrite N.eqb_refl.
    rewrite unget_plain by (vm_compute; discriminate). exact E.
  - exists (ctl 120), (123 :: ds ++ 125 :: t), t. cbn [app]. split.
    { rewrite <- app_assoc. reflexivity. }
    split; [apply same_refl|]. rewrite N.eqb_refl. rewrite unget_plain by (vm_compute; discriminate). apply read_unicode_brace, Hb.
Qed.
Lemma add_range_in : forall b e cs x, In x (add_range b e cs) <-> In x cs \/ b <= x <= e.
Proof.
  intros b e cs x. unfold add_range.
  assert (G : forall l cs, In x (fold_left (fun acc i => sadd (b + N.of_nat i) acc) l cs) <-> In x cs \/ exists i, In i l /\ x = b + N.of_nat i).
  { induction l as [|i l IH]; intros cs0; cbn [fold_left]; [split; [tauto|intros [?|(j & [] & _)]; auto]|].
    rewrite IH, sadd_in. split.
    - intros [[->|H]|(j & H & ->)]; auto; right; [exists i|exists j]; cbn; auto.
    - intros [H|(j & [->|H] & ->)]; auto. right. exists j. auto. }
  rewrite G. apply or_iff_compat_l. split.
  - intros (i & H & ->). apply in_seq in H. lia.
  - intros H. exists (N.to_nat (x - b)). rewrite in_seq. lia.
Qed.

(** ** Sets *)
Definition raw_member (m : member) (x : N) : Prop :=
  match m with
  | MSingle b => x = single_value b
  | MEsc c | MRaw c => x = c
  | MRange b e => single_value b <= x <= single_value e
  | MClass k => x = ctl (cls_name k)
  | MDash => x = 45
  end.
Lemma single_starts : forall b t, single_ok b -> starts (single_text b ++ t).
Proof.
  intros b t H. destruct b as [c|c|x y|ds]; cbn [single_text app] in *; try (apply starts_esc; reflexivity).
  - destruct H as (I & R & W). apply starts_cons; auto. intros ->. apply I. cbn. auto 10.
  - apply starts_esc. cbn in H. intuition subst; reflexivity.
Qed.
Lemma cls_low : forall k, cls_name k < 255. Proof. destruct k; reflexivity. Qed.
Lemma members_start : forall ms a t, members_ok a ms -> starts (members_text ms ++ 93 :: t).
Proof.
  intros [|m ms] a t H; cbn [members_text flat_map app].
  - apply starts_cons; [lia|apply low_plain; reflexivity].
  - destruct H as (H & _ & _). rewrite <- app_assoc. destruct m as [b|c|b e|k| |c]; cbn [member_text member_ok] in *.
    + apply single_starts, H.
    + apply starts_esc. cbn in H. intuition subst; reflexivity.
    + rewrite <- app_assoc. apply single_starts, H.
    + apply starts_esc, cls_low.
    + apply starts_cons; [lia|apply low_plain; reflexivity].
    + cbn [app]. apply starts_cons; [lia|apply low_plain; lia].
Qed.
Lemma single_not_dash : forall b t, single_ok b -> dashed (single_text b ++ t) = false.
Proof.
  intros [c|c|x y|ds] t H; cbn [single_text app dashed] in *; try reflexivity. apply N.eqb_neq. intros ->. apply (proj1 H). cbn. auto 10.
Qed.
Lemma members_not_dash : forall ms t, members_ok true ms -> dashed (members_text ms ++ 93 :: t) = false.
Proof.
  intros [|m ms] t H; cbn [members_text flat_map app]; [reflexivity|]. destruct H as (H & D & _). rewrite <- app_assoc.
  destruct m as [b|c|b e|k| |c]; cbn [member_text member_ok] in *.
  - apply single_not_dash, H.
  - reflexivity.
  - rewrite <- app_assoc. apply single_not_dash, H.
  - reflexivity.
  - specialize (D eq_refl). discriminate.
  - cbn [app dashed]. destruct H as [->| ->]; reflexivity.
Qed.

Lemma range_loop_ok : forall ms a fuel s t cs neg, members_ok a ms -> same s (members_text ms ++ 93 :: t) -> (length ms < fuel)%nat ->
  exists cs', (let* (c, s) := get_char s in range_loop fuel (correct c rc) s cs neg) = Ok (TLetters cs' neg, t) /\
    forall x, In x cs' <-> In x cs \/ exists m, In m ms /\ raw_member m x.
Proof.
  induction ms as [|m ms IH]; intros a fuel s t cs neg H S L; destruct fuel as [|k]; try (cbn in L; lia).
  - cbn [members_text flat_map app] in S. rewrite (same_get _ _ S), get_plain by lia. cbn [bind].
    exists cs. change (correct 93 rc) with (ctl 93). cbn [range_loop]. split; [reflexivity|].
    intros x. split; auto. intros [H0|(m & [] & _)]; auto.
  - destruct H as (Hm & Hd & Hr). cbn [members_text flat_map] in S. fold (members_text ms) in S. rewrite <- app_assoc in S.
    assert (FIN : forall cs1 s1 P, same s1 (members_text ms ++ 93 :: t) -> (forall x, In x cs1 <-> In x cs \/ P x) ->
      (forall x, P x <-> raw_member m x) ->
      exists cs', (let* (c, s) := get_char s1 in range_loop k (correct c rc) s cs1 neg) = Ok (TLetters cs' neg, t) /\
        forall x, In x cs' <-> In x cs \/ exists m0, In m0 (m :: ms) /\ raw_member m0 x).
    { intros cs1 s1 P S1 E1 E2. destruct (IH _ k s1 t cs1 neg Hr S1 ltac:(cbn in L; lia)) as (cs' & E & I). exists cs'. split; auto.
      intros x. rewrite I, E1, E2. split.
      - intros [[X|X]|(m0 & X & Y)]; auto; right; [exists m|exists m0]; cbn; auto.
      - intros [X|(m0 & [->|X] & Y)]; auto. right. exists m0. auto. }
    assert (ESC : forall c, (In c [42; 43; 123; 125; 40; 41; 36; 63; 46; 38; 126] -> m = MEsc c ->
       exists cs', (let* (c, s) := get_char s in range_loop (Datatypes.S k) (correct c rc) s cs neg) = Ok (TLetters cs' neg, t) /\
        forall x, In x cs' <-> In x cs \/ exists m0, In m0 (m :: ms) /\ raw_member m0 x)).
    { intros c Hc ->. rewrite (same_get _ _ S). cbn [member_text app] in *.
      destruct (FIN (sadd c cs) (members_text ms ++ 93 :: t) (fun x => x = c)) as (cs' & E & I);
        [apply same_refl|intros x; rewrite sadd_in; tauto|reflexivity|].
      exists cs'. split; auto. rewrite <- E. clear -Hc.
      repeat (destruct Hc as [<-|Hc]; [reflexivity|]). destruct Hc. }
    destruct m as [b|c|b e|kk| |c]; cbn [member_text member_ok] in *.
    + pose proof (members_start ms true t Hr) as St. destruct (single_begin b s _ Hm S St) as (c & s1 & u & s2 & G & X).
      cbv zeta in X. destruct X as (X1 & X2 & X3 & X4 & X5 & X6 & X7 & X8 & X9).
      rewrite G. cbn [bind range_loop]. rewrite X1, X2. cbv zeta. rewrite X3. cbn [bind].
      rewrite X5, (peek_dash _ _ X4 St), (members_not_dash ms t Hr). cbn [andb]. rewrite X7, X8, X9. cbn [bind].
      apply FIN with (P := fun x => x = single_value b); auto; [|reflexivity]. intros x. rewrite sadd_in, X6. tauto.
    + apply (ESC c); auto.
    + destruct Hm as (Hb & He & Hx). pose proof (members_start ms false t Hr) as St. rewrite <- !app_assoc in S. cbn [app] in S.
      destruct (single_begin b s (45 :: single_text e ++ members_text ms ++ 93 :: t) Hb S) as (c & s1 & u & s2 & G & X).
      { apply starts_cons; [lia|apply low_plain; reflexivity]. }
      cbv zeta in X. destruct X as (X1 & X2 & X3 & X4 & X5 & X6 & X7 & X8 & X9).
      rewrite G. cbn [bind range_loop]. rewrite X1, X2. cbv zeta. rewrite X3. cbn [bind]. rewrite X5.
      rewrite (peek_dash _ _ X4) by (apply starts_cons; [lia|apply low_plain; reflexivity]). cbn [dashed andb]. rewrite N.eqb_refl.
      apply same_plain in X4; [|lia]. subst s2. rewrite get_plain by lia. cbn [bind].
      destruct (single_end e _ He St) as (c2 & s3 & s4 & G2 & S4 & X). rewrite G2. cbn [bind]. cbv zeta in X. rewrite X. cbn [bind].
      rewrite X6. apply FIN with (P := fun x => single_value b <= x <= single_value e); auto; [|reflexivity]. intros x. apply add_range_in.
    + rewrite (same_get _ _ S). cbn [app].
      destruct (FIN (sadd (ctl (cls_name kk)) cs) (members_text ms ++ 93 :: t) (fun x => x = ctl (cls_name kk))) as (cs' & E & I);
        [apply same_refl|intros x; rewrite sadd_in; tauto|reflexivity|].
      exists cs'. split; auto. rewrite <- E. clear. destruct kk; reflexivity.
    + rewrite (same_get _ _ S). cbn [app]. rewrite get_plain by lia. cbn [bind].
      destruct (FIN (sadd 45 cs) (members_text ms ++ 93 :: t) (fun x => x = 45)) as (cs' & E & I);
        [apply same_refl|intros x; rewrite sadd_in; tauto|reflexivity|].
      exists cs'. split; auto.
    + rewrite (same_get _ _ S). cbn [app]. rewrite get_plain by lia. cbn [bind].
      destruct (FIN (sadd c cs) (members_text ms ++ 93 :: t) (fun x => x = c)) as (cs' & E & I);
        [apply same_refl|intros x; rewrite sadd_in; tauto|reflexivity|].
      exists cs'. split; auto. rewrite <- E. clear -Hm. destruct Hm as [->| ->]; reflexivity.
Qed.
Lemma get_length : forall t c s, get_char t = Ok (c, s) -> (length t <= S (S (length s)))%nat.
Proof.
  intros [|x l] c s G; [cbn; lia|]. unfold get_char in G. destruct (x =? 92).
  - destruct l; [discriminate|]. injection G as _ <-. cbn. lia.
  - injection G as _ <-. cbn. lia.
Qed.
Lemma members_length : forall ms, (length ms <= length (members_text ms))%nat.
Proof.
  induction ms as [|m ms IH]; cbn [members_text flat_map length]; [lia|]. fold (members_text ms). rewrite app_length.
  assert (0 < length (member_text m))%nat; [|lia].
  destruct m as [b|c|b e|k| |c]; cbn; try lia; [destruct b; cbn; lia|rewrite app_length; cbn; lia].
Qed.
Lemma set_first : forall ms a t c s, members_ok a ms -> get_char (members_text ms ++ 93 :: t) = Ok (c, s) -> (forall r, ms <> MRaw 94 :: r) ->
  correct c rc <> ctl 94.
Proof.
  intros ms a t c s H G F.
  assert (P : forall x, x < 256 -> x <> 94 -> correct x rc <> ctl 94).
  { bytes (fun x => (x =? 94) || negb (correct x rc =? ctl 94))%bool. intros E. apply N.eqb_neq in E. rewrite E in X. cbn [orb] in X.
    apply negb_true_iff, N.eqb_neq in X. exact X. }
  assert (Q : forall d, d < 256 -> correct (ctl d) rc <> ctl 94).
  { bytes (fun d => negb (correct (ctl d) rc =? ctl 94)). apply negb_true_iff, N.eqb_neq in X. exact X. }
  assert (B : forall b u, single_ok b -> get_char (single_text b ++ u) = Ok (c, s) -> correct c rc <> ctl 94).
  { intros b u Hb Gb. destruct b as [x|x|x y|ds]; cbn [single_text app single_ok] in *.
    - destruct Hb as (I & R & W). rewrite get_plain in Gb by (intros ->; apply I; cbn; auto 10). injection Gb as <- _.
      rewrite correct_plain by auto. apply plain_not_ctl; auto. lia.
    - injection Gb as <- _. apply Q. cbn in Hb. lia.
    - injection Gb as <- _. apply Q. lia.
    - injection Gb as <- _. apply Q. lia. }
  destruct ms as [|m ms]; cbn [members_text flat_map app] in G.
  - rewrite get_plain in G by lia. injection G as <- _. apply P; lia.
  - destruct H as (H & _ & _). rewrite <- app_assoc in G. destruct m as [b|x|b e|k| |x]; cbn [member_text member_ok app] in *.
    + apply (B _ _ H G).
    + injection G as <- _. apply Q. cbn in H. lia.
    + rewrite <- app_assoc in G. apply (B _ _ (proj1 H) G).
    + injection G as <- _. apply Q. pose proof (cls_low k). lia.
    + rewrite get_plain in G by lia. injection G as <- _. apply P; lia.
    + rewrite get_plain in G by lia. injection G as <- _. apply P; [lia|]. intros ->. apply (F ms). reflexivity.
Qed.
Lemma lex_range_ok : forall neg ms t, members_ok false ms -> (neg = false -> forall r, ms <> MRaw 94 :: r) ->
  exists cs, lex_range (91 :: (if neg then [94] else []) ++ members_text ms ++ 93 :: t) = Ok (TLetters cs neg, t) /\
    forall x, In x cs <-> exists m, In m ms /\ raw_member m x.
Proof.
  intros neg ms t H F. unfold lex_range. rewrite get_plain by lia. cbn [bind]. change (correct 91 rc) with (ctl 91).
  change ((ctl 91 =? 91) || (ctl 91 =? 93))%bool with false. cbv iota.
  destruct (starts_unget _ (members_start ms false t H)) as (c & s & G & _).
  destruct (range_loop_ok ms false (S (S (length s))) _ t [] neg H (same_refl _)) as (cs & E & I).
  { pose proof (get_length _ _ _ G) as L. rewrite app_length in L. cbn [length] in L. pose proof (members_length ms). lia. }
  exists cs. split; [|intros x; rewrite I; cbn; tauto].
  destruct neg.
  - cbn [app]. rewrite get_plain by lia. cbn [bind]. change (correct 94 rc =? ctl 94) with true. cbv iota.
    rewrite G in E |- *. exact E.
  - cbn [app]. rewrite G in E |- *. cbn [bind] in *.
    replace (correct c rc =? ctl 94) with false; [exact E|]. symmetry. apply N.eqb_neq. apply (set_first _ _ _ _ _ H G); auto.
Qed.
