(** The lexer reads the documented syntax: counts, classes, items, patterns. *)
From Coq Require Import List Bool Arith NArith ZArith Lia.
From Verif Require Import Util Spec RegexModel UniModel LexModel LexSpec UniFacts LexProofs.
Import ListNotations.
Local Open Scope N_scope.

(** ** Counts *)
Definition dec_from (n : Z) (ds : list N) : Z := fold_left (fun a c => 10 * a + (Z.of_N c - 48))%Z ds n.
Lemma dec_grows : forall ds n, Forall decdigit ds -> (0 <= n)%Z -> (n <= dec_from n ds)%Z.
Proof.
  induction ds as [|d ds IH]; intros n F H; [cbn; lia|]. change (dec_from n (d :: ds)) with (dec_from (10 * n + (Z.of_N d - 48)) ds).
  pose proof (Forall_inv F) as Hd. cbv beta in Hd. unfold decdigit in Hd. specialize (IH (10 * n + (Z.of_N d - 48))%Z (Forall_inv_tail F) ltac:(lia)). lia.
Qed.
Lemma digit_ok : forall c, decdigit c -> is_digit c = true.
Proof.
  intros c H. unfold decdigit in H. rewrite (proj1 (ascii_facts c ltac:(lia))). apply andb_true_intro. rewrite !N.leb_le. lia.
Qed.
Lemma read_count_ok : forall ds fuel n c s x t, Forall decdigit ds -> c :: s = ds ++ x :: t -> x <> 92 -> is_digit x = false ->
  (length ds < fuel)%nat -> (0 <= n)%Z -> (dec_from n ds < 2147483648)%Z -> read_count fuel n c s = Ok (dec_from n ds, x, t).
Proof.
  induction ds as [|d ds IH]; intros fuel n c s x t F E X D L Hn V; destruct fuel as [|k]; try (cbn in L; lia); cbn [read_count].
  - cbn in E. injection E as -> ->. rewrite D. reflexivity.
  - cbn in E. injection E as -> ->. pose proof (Forall_inv F) as Hd. cbv beta in Hd. rewrite (digit_ok _ Hd). unfold decdigit in Hd.
    change (dec_from n (d :: ds)) with (dec_from (10 * n + (Z.of_N d - 48)) ds) in *.
    pose proof (dec_grows ds (10 * n + (Z.of_N d - 48))%Z (Forall_inv_tail F) ltac:(lia)) as G.
    assert (next_count n d = Ok (10 * n + (Z.of_N d - 48))%Z) as ->.
    { unfold next_count. cbv zeta. replace (2147483647 <? n * 10)%Z with false by (symmetry; apply Z.ltb_ge; lia).
      replace (n * 10 <? -2147483648)%Z with false by (symmetry; apply Z.ltb_ge; lia). cbn [orb].
      rewrite Z.mod_small by lia. replace (2147483647 <? n * 10 + Z.of_N d - 48)%Z with false by (symmetry; apply Z.ltb_ge; lia). f_equal. lia. }
    cbn [bind].
    assert (exists c2 s2, get_char (ds ++ x :: t) = Ok (c2, s2) /\ c2 :: s2 = ds ++ x :: t) as (c2 & s2 & G2 & E2).
    { destruct ds as [|e ds]; cbn [app].
      - exists x, t. split; auto. apply get_plain, X.
      - exists e, (ds ++ x :: t). split; auto. apply get_plain. pose proof (Forall_inv (Forall_inv_tail F)) as He. cbv beta in He. unfold decdigit in He. lia. }
    rewrite G2. cbn [bind]. rewrite (IH k _ c2 s2 x t); auto; [apply (Forall_inv_tail F)|cbn in L; lia|lia].
Qed.
Lemma digit_125 : is_digit 125 = false. Proof. vm_compute. reflexivity. Qed.
Lemma digit_44 : is_digit 44 = false. Proof. vm_compute. reflexivity. Qed.
Lemma first_digit : forall ds r, number_ok ds -> exists c s, ds ++ r = c :: s /\ decdigit c.
Proof.
  intros [|d ds] r (N0 & F & _); [congruence|]. exists d, (ds ++ r). split; auto. apply (Forall_inv F).
Qed.
Lemma count_digits : forall ds x t c s, number_ok ds -> ds ++ x :: t = c :: s -> x <> 92 -> is_digit x = false ->
  read_count (S (S (length s))) 0 c s = Ok (dec_number ds, x, t).
Proof.
  intros ds x t c s (N0 & F & V) E X D. unfold dec_number in *. apply (read_count_ok ds _ 0%Z c s x t); auto; [|lia].
  assert (L : length (ds ++ x :: t) = length (c :: s)) by now rewrite E. rewrite app_length in L. cbn in L. lia.
Qed.
Lemma lex_count_ok : forall ds t, number_ok ds -> lex_count (123 :: ds ++ 125 :: t) = Ok (TCount (dec_number ds) (dec_number ds), t).
Proof.
  intros ds t H. unfold lex_count. rewrite get_plain by lia. cbn [bind]. change ((123 =? ctl 123) || (123 =? ctl 125))%bool with false. cbv iota.
  destruct (first_digit ds (125 :: t) H) as (c & s & E & D). rewrite E. pose proof D as D'. unfold decdigit in D'. rewrite get_plain by lia. cbn [bind].
  rewrite (digit_ok _ D). cbn [negb]. rewrite (count_digits ds 125 t c s H E) by (try apply digit_125; lia). cbn [bind]. rewrite N.eqb_refl. reflexivity.
Qed.
Lemma lex_count_from : forall ds t, number_ok ds -> lex_count (123 :: ds ++ 44 :: 125 :: t) = Ok (TCount (dec_number ds) Inf, t).
Proof.
  intros ds t H. unfold lex_count. rewrite get_plain by lia. cbn [bind]. change ((123 =? ctl 123) || (123 =? ctl 125))%bool with false. cbv iota.
  destruct (first_digit ds (44 :: 125 :: t) H) as (c & s & E & D). rewrite E. pose proof D as D'. unfold decdigit in D'. rewrite get_plain by lia. cbn [bind].
  rewrite (digit_ok _ D). cbn [negb]. rewrite (count_digits ds 44 (125 :: t) c s H E) by (try apply digit_44; lia). cbn [bind].
  change (44 =? 125) with false. rewrite N.eqb_refl. cbn [negb]. rewrite get_plain by lia. cbn [bind]. rewrite N.eqb_refl. reflexivity.
Qed.
Lemma lex_count_to : forall ds es t, number_ok ds -> number_ok es ->
  lex_count (123 :: ds ++ 44 :: es ++ 125 :: t) = Ok (TCount (dec_number ds) (dec_number es), t).
Proof.
  intros ds es t H H2. unfold lex_count. rewrite get_plain by lia. cbn [bind]. change ((123 =? ctl 123) || (123 =? ctl 125))%bool with false. cbv iota.
  destruct (first_digit ds (44 :: es ++ 125 :: t) H) as (c & s & E & D). rewrite E. pose proof D as D'. unfold decdigit in D'. rewrite get_plain by lia. cbn [bind].
  rewrite (digit_ok _ D). cbn [negb]. rewrite (count_digits ds 44 (es ++ 125 :: t) c s H E) by (try apply digit_44; lia). cbn [bind].
  change (44 =? 125) with false. rewrite N.eqb_refl. cbn [negb].
  destruct (first_digit es (125 :: t) H2) as (c2 & s2 & E2 & D2). rewrite E2. pose proof D2 as D2'. unfold decdigit in D2'. rewrite get_plain by lia. cbn [bind].
  replace (c2 =? 125) with false by (symmetry; apply N.eqb_neq; lia). rewrite (digit_ok _ D2). cbn [negb].
  rewrite (count_digits es 125 t c2 s2 H2 E2) by (try apply digit_125; lia). cbn [bind]. rewrite N.eqb_refl. reflexivity.
Qed.

(** ** Options *)
Lemma options_cases : forall added icase andnot, options added icase andnot ->
  added = [] /\ icase = false /\ andnot = false \/ added = [FCase] /\ icase = true /\ andnot = false \/
  added = [FAndNot] /\ icase = false /\ andnot = true \/ (added = [FCase; FAndNot] \/ added = [FAndNot; FCase]) /\ icase = true /\ andnot = true.
Proof.
  intros added icase andnot (ND & I & C & A).
  assert (B : forall b (P : Prop), (b = true <-> P) -> (P -> b = true) /\ (~ P -> b = false)).
  { intros b P E. split; [tauto|]. destruct b; auto. intros X. exfalso. apply X, E. reflexivity. }
  destruct (B _ _ C) as [C1 C2]. destruct (B _ _ A) as [A1 A2]. clear B C A.
  destruct added as [|f added]; [left; split; [auto|]; split; [apply C2|apply A2]; intros []|right].
  inversion_clear ND as [|? ? N1 ND1]. destruct (I f (or_introl eq_refl)) as [->| ->].
  - destruct added as [|g added].
    + left. split; [auto|]. split; [apply C1; now left|apply A2; intros [|[]]; discriminate].
    + destruct (I g (or_intror (or_introl eq_refl))) as [->| ->]; [exfalso; apply N1; now left|].
      destruct added as [|h added]; [right; right; split; [auto|]; split; [apply C1; now left|apply A1; right; now left]|].
      exfalso. destruct (I h (or_intror (or_intror (or_introl eq_refl)))) as [->| ->]; [apply N1; right; now left|].
      inversion_clear ND1 as [|? ? N2 _]. apply N2. now left.
  - destruct added as [|g added].
    + right. left. split; [auto|]. split; [apply C2; intros [|[]]; discriminate|apply A1; now left].
    + destruct (I g (or_intror (or_introl eq_refl))) as [->| ->]; [|exfalso; apply N1; now left].
      destruct added as [|h added]; [right; right; split; [auto|]; split; [apply C1; right; now left|apply A1; now left]|].
      exfalso. destruct (I h (or_intror (or_intror (or_introl eq_refl)))) as [->| ->]; [|apply N1; right; now left].
      inversion_clear ND1 as [|? ? N2 _]. apply N2. now left.
Qed.
Definition case_set (icase : bool) (cs : list N) : list N :=
  if icase then fold_left (fun acc c => sadd (to_lower c) (sadd (to_upper c) acc)) cs [] else cs.
Lemma alter_all_eq : forall added icase andnot cs n, options added icase andnot ->
  alter_all (features added) (TLetters cs n) = alter_classes (case_set icase cs) n.
Proof.
  intros added icase andnot cs n O.
  destruct (options_cases _ _ _ O) as [(-> & -> & ->)|[(-> & -> & ->)|[(-> & -> & ->)|([->| ->] & -> & ->)]]];
    unfold alter_all, features, alter, alter_case, case_set; cbn [fold_left add_feature default_features priority Nat.ltb Nat.leb rev app bind];
    destruct (alter_classes _ n); reflexivity.
Qed.
Lemma alter_other : forall added icase andnot t, options added icase andnot -> (forall cs n, t <> TLetters cs n) ->
  alter_all (features added) t = Ok t /\ check_term t = Ok t.
Proof.
  intros added icase andnot t O H.
  destruct (options_cases _ _ _ O) as [(-> & -> & ->)|[(-> & -> & ->)|[(-> & -> & ->)|([->| ->] & -> & ->)]]];
    (destruct t; [exfalso; eapply H; reflexivity|..]; split; reflexivity).
Qed.
Lemma find_feature : forall added icase andnot c, options added icase andnot ->
  find (fun f => feature_accepts f c) (features added) =
    if c =? ctl 120 then Some FUnicode
    else if ((c =? 91) || (c =? ctl 91) || (c =? ctl 93))%bool then Some FRange
    else if ((c =? 123) || (c =? ctl 123) || (c =? ctl 125))%bool then Some FCount
    else if (andnot && ((c =? 38) || (c =? 126) || (c =? ctl 38) || (c =? ctl 126)))%bool then Some FAndNot else None.
Proof.
  intros added icase andnot c O.
  assert (K : forall l, (forall k, In k l -> c = k \/ c <> k)) by (intros l k _; destruct (N.eq_dec c k); auto).
  destruct (existsb (N.eqb c) [ctl 120; 91; ctl 91; ctl 93; 123; ctl 123; ctl 125; 38; 126; ctl 38; ctl 126]) eqn:E.
  - apply existsb_exists in E as (x & I & E). apply N.eqb_eq in E. subst x.
    destruct (options_cases _ _ _ O) as [(-> & -> & ->)|[(-> & -> & ->)|[(-> & -> & ->)|([->| ->] & -> & ->)]]];
      clear -I; repeat (destruct I as [<-|I]; [reflexivity|]); destruct I.
  - cbn [existsb] in E. repeat (apply orb_false_elim in E as [? E]).
    destruct (options_cases _ _ _ O) as [(-> & -> & ->)|[(-> & -> & ->)|[(-> & -> & ->)|([->| ->] & -> & ->)]]];
      unfold features; cbn [fold_left add_feature default_features priority Nat.ltb Nat.leb find feature_accepts];
      repeat match goal with H : (c =? _) = false |- _ => rewrite H; clear H end; reflexivity.
Qed.

(** ** Classes and cases *)
Lemma case_set_in : forall icase cs x, In x (case_set icase cs) <-> exists c, In c cs /\ lit icase c x.
Proof.
  intros [|] cs x; unfold case_set, lit.
  - assert (G : forall l acc, In x (fold_left (fun acc c => sadd (to_lower c) (sadd (to_upper c) acc)) l acc) <->
      In x acc \/ exists c, In c l /\ (x = to_upper c \/ x = to_lower c)).
    { induction l as [|c l IH]; intros acc; cbn [fold_left]; [split; [tauto|intros [?|(j & [] & _)]; auto]|].
      rewrite IH, !sadd_in. split.
      - intros [[->|[->|H]]|(j & H & Q)]; auto; right; [exists c|exists c|exists j]; cbn; auto.
      - intros [H|(j & [->|H] & Q)]; auto; [intuition|]. right. exists j. auto. }
    rewrite G. cbn. tauto.
  - split; [intros H; exists x; auto|intros (c & H & ->); exact H].
Qed.
Lemma fold_add_in : forall l acc x, In x (fold_left (fun acc x => sadd x acc) l acc) <-> In x acc \/ In x l.
Proof. induction l as [|c l IH]; intros acc x; cbn [fold_left]; [cbn; tauto|]. rewrite IH, sadd_in. cbn. intuition. Qed.
Lemma class_set_in : forall bs x, In x (class_set bs) <-> exists b, In b bs /\ fst b <= x <= snd b.
Proof.
  intros bs x. unfold class_set.
  assert (G : forall l acc, In x (fold_left (fun acc b => add_range (fst b) (snd b) acc) l acc) <-> In x acc \/ exists b, In b l /\ fst b <= x <= snd b).
  { induction l as [|c l IH]; intros acc; cbn [fold_left]; [split; [tauto|intros [?|(j & [] & _)]; auto]|].
    rewrite IH, add_range_in. split.
    - intros [[H|H]|(j & H & Q)]; auto; right; [exists c|exists j]; cbn; auto.
    - intros [H|(j & [->|H] & Q)]; auto. right. exists j. auto. }
  rewrite G. cbn. tauto.
Qed.
Definition class_of (c : N) : option (list (N * N)) := if is_control c then find_class c else None.
Definition image (c x : N) : Prop := match class_of c with Some b => In x (class_set b) | None => x = c end.
Definition in_class (c : N) : bool := match class_of c with Some _ => true | None => false end.
Lemma alter_classes_eq : forall cs n, exists cs',
  (forall x, In x cs' <-> exists c, In c cs /\ image c x) /\
  alter_classes cs n =
    let neg := existsb (fun c => in_class c && is_upper (strip c))%bool cs in
    let pos := existsb (fun c => in_class c && negb (is_upper (strip c)))%bool cs in
    if (neg && (pos || n))%bool then Throw ESyntax else Ok (TLetters cs' (neg || n)%bool).
Proof.
  intros cs n. unfold alter_classes.
  match goal with |- context [fold_left ?f cs ([], false, false)] => set (F := f) end.
  assert (G : forall l a p q, exists a', fold_left F l (a, p, q) =
      (a', (p || existsb (fun c => in_class c && negb (is_upper (strip c))) l)%bool, (q || existsb (fun c => in_class c && is_upper (strip c)) l)%bool) /\
      forall x, In x a' <-> In x a \/ exists c, In c l /\ image c x).
  { induction l as [|c l IH]; intros a p q; cbn [fold_left existsb].
    - exists a. rewrite !orb_false_r. split; auto. intros x. split; auto. intros [H|(j & [] & _)]; auto.
    - assert (exists a1, F (a, p, q) c = (a1, (p || (in_class c && negb (is_upper (strip c))))%bool, (q || (in_class c && is_upper (strip c)))%bool) /\
        forall x, In x a1 <-> In x a \/ image c x) as (a1 & E1 & I1).
      { unfold F, image, in_class. fold (class_of c). destruct (class_of c) as [b|].
        - eexists. cbn [andb]. split; [reflexivity|]. intros x. apply fold_add_in.
        - eexists. cbn [andb]. rewrite !orb_false_r. split; [reflexivity|]. intros x. rewrite sadd_in. tauto. }
      rewrite E1. destruct (IH a1 (p || in_class c && negb (is_upper (strip c)))%bool (q || in_class c && is_upper (strip c))%bool) as (a' & E & I). exists a'. split; [rewrite !orb_assoc; exact E|].
      intros x. rewrite I, I1. split.
      + intros [[H|H]|(j & H & Q)]; auto; right; [exists c|exists j]; cbn; auto.
      + intros [H|(j & [->|H] & Q)]; auto. right. exists j. auto. }
  destruct (G cs [] false false) as (a' & E & I). exists a'. split.
  - intros x. rewrite I. cbn. tauto.
  - rewrite E. cbn [orb]. reflexivity.
Qed.
Definition cls_bounds (k : cls) : list (N * N) := match find (fun kv => fst kv =? cls_name k) class_table with Some kv => snd kv | None => [] end.
Lemma class_lower : forall k, class_of (ctl (cls_name k)) = Some (cls_bounds k) /\ is_upper (strip (ctl (cls_name k))) = false.
Proof. destruct k; split; vm_compute; reflexivity. Qed.
Lemma class_upper : forall k, class_of (ctl (ascii_upper (cls_name k))) = Some (cls_bounds k) /\ is_upper (strip (ctl (ascii_upper (cls_name k)))) = true.
Proof. destruct k; split; vm_compute; reflexivity. Qed.
Lemma cls_bounds_in : forall k x, In x (class_set (cls_bounds k)) <-> cls_has k x.
Proof.
  intros k x. rewrite class_set_in.
  destruct k; cbn [cls_bounds cls_name find class_table fst snd N.eqb Pos.eqb class_l class_c app]; cbn [cls_has]; unfold latin_letter, cyrillic_letter;
    (split; [intros (b & I & H); cbn [In] in I; repeat (destruct I as [<-|I]; [cbn in H; lia|]); destruct I|]); intros H.
  - destruct H; [exists (65, 90)|exists (97, 122)]; cbn; auto.
  - destruct H as [H|[->| ->]]; [exists (1040, 1103)|exists (1025, 1025)|exists (1105, 1105)]; cbn; split; auto 10; lia.
  - destruct H as [[H|H]|[H|[->| ->]]]; [exists (65, 90)|exists (97, 122)|exists (1040, 1103)|exists (1025, 1025)|exists (1105, 1105)]; cbn; split; auto 10; lia.
  - exists (48, 57). cbn. auto.
  - destruct H as [H|[H|[H|[H|H]]]]; subst x; [exists (32, 32)|exists (9, 9)|exists (13, 13)|exists (10, 10)|exists (160, 160)]; cbn; split; auto 10; lia.
  - exists (10, 10). cbn. subst. split; auto; lia.
  - exists (13, 13). cbn. subst. split; auto; lia.
  - exists (9, 9). cbn. subst. split; auto; lia.
Qed.

(** ** From the characters read to the token *)
Lemma lit_plain : forall icase y x, ~ reserved y -> wide y -> lit icase y x -> is_control x = false.
Proof.
  intros icase y x R W H. destruct (case_control y W) as [L U]. rewrite (control_no y R) in L, U. unfold lit in H.
  destruct icase; [destruct H; subst; auto|subst; apply control_no, R].
Qed.
Lemma cls_plain : forall k x, cls_has k x -> is_control x = false.
Proof.
  intros k x H. apply control_no, low_plain. destruct k; cbn in H; unfold latin_letter, cyrillic_letter in H; lia.
Qed.
Lemma cls_upper_low : forall k, ascii_upper (cls_name k) < 255. Proof. destruct k; reflexivity. Qed.
Lemma lit_control : forall icase d x, d < 256 -> lit icase (ctl d) x <-> x = ctl d.
Proof.
  intros icase d x H. unfold lit. destruct icase; [|tauto].
  destruct (case_fixed (ctl d)) as [-> ->]; [rewrite ctl_eq; lia|apply control_ctl, H|tauto].
Qed.
Lemma letters_ok : forall added icase andnot cs n (P : N -> Prop) (Q : cls -> Prop), options added icase andnot ->
  (forall x, In x cs <-> P x \/ exists k, Q k /\ x = ctl (cls_name k)) -> (forall x, P x -> ~ reserved x /\ wide x) ->
  exists cs', (let* t := alter_all (features added) (TLetters cs n) in check_term t) = Ok (TLetters cs' n) /\
    forall x, In x cs' <-> (exists y, P y /\ lit icase y x) \/ exists k, Q k /\ cls_has k x.
Proof.
  intros added icase andnot cs n P Q O HC HP. rewrite (alter_all_eq _ _ _ _ _ O).
  assert (C1 : forall c, In c (case_set icase cs) -> (is_control c = false /\ exists y, P y /\ lit icase y c) \/ exists k, Q k /\ c = ctl (cls_name k)).
  { intros c H. apply case_set_in in H as (y & Hy & L). apply HC in Hy as [Hy|(k & Hk & ->)].
    - left. destruct (HP y Hy) as [R W]. split; [apply (lit_plain icase y c R W L)|exists y; auto].
    - right. exists k. split; auto. apply lit_control in L; auto. pose proof (cls_low k). lia. }
  destruct (alter_classes_eq (case_set icase cs) n) as (cs' & I & E). rewrite E. cbv zeta. clear E.
  assert (existsb (fun c => in_class c && is_upper (strip c))%bool (case_set icase cs) = false) as ->.
  { apply not_true_is_false. intros X. apply existsb_exists in X as (c & Hc & X). apply andb_prop in X as [X U].
    destruct (C1 c Hc) as [[K _]|(k & _ & ->)].
    - unfold in_class, class_of in X. rewrite K in X. discriminate.
    - rewrite (proj2 (class_lower k)) in U. discriminate. }
  cbn [andb orb bind].
  assert (J : forall x, In x cs' <-> (exists y, P y /\ lit icase y x) \/ exists k, Q k /\ cls_has k x).
  { intros x. rewrite I. split.
    - intros (c & Hc & M). unfold image in M. destruct (C1 c Hc) as [[K Y]|(k & Hk & ->)].
      + unfold class_of in M. rewrite K in M. subst x. auto.
      + rewrite (proj1 (class_lower k)) in M. apply cls_bounds_in in M. right. exists k. auto.
    - intros [(y & Hy & L)|(k & Hk & H)].
      + exists x. destruct (HP y Hy) as [R W]. split.
        * apply case_set_in. exists y. split; auto. apply HC. auto.
        * unfold image, class_of. rewrite (lit_plain icase y x R W L). reflexivity.
      + exists (ctl (cls_name k)). split.
        * apply case_set_in. exists (ctl (cls_name k)). split; [apply HC; right; exists k; auto|]. apply lit_control; auto.
          pose proof (cls_low k). lia.
        * unfold image. rewrite (proj1 (class_lower k)). apply cls_bounds_in, H. }
  exists cs'. split; auto. cbn [check_term].
  assert (existsb is_control cs' = false) as ->; auto.
  apply not_true_is_false. intros X. apply existsb_exists in X as (x & Hx & X). apply J in Hx as [(y & Hy & L)|(k & _ & H)].
  - destruct (HP y Hy) as [R W]. rewrite (lit_plain icase y x R W L) in X. discriminate.
  - rewrite (cls_plain k x H) in X. discriminate.
Qed.
Lemma letters_neg : forall added icase andnot k, options added icase andnot ->
  exists cs', (let* t := alter_all (features added) (TLetters [ctl (ascii_upper (cls_name k))] false) in check_term t) = Ok (TLetters cs' true) /\
    forall x, In x cs' <-> cls_has k x.
Proof.
  intros added icase andnot k O. rewrite (alter_all_eq _ _ _ _ _ O). set (c := ctl (ascii_upper (cls_name k))).
  assert (C1 : forall x, In x (case_set icase [c]) <-> x = c).
  { intros x. rewrite case_set_in. split.
    - intros (y & [<-|[]] & L). apply lit_control in L; auto. pose proof (cls_upper_low k). lia.
    - intros ->. exists c. split; [now left|]. apply lit_control; auto. pose proof (cls_upper_low k). lia. }
  destruct (alter_classes_eq (case_set icase [c]) false) as (cs' & I & E). rewrite E. cbv zeta. clear E.
  destruct (class_upper k) as [K U]. fold c in K, U.
  assert (existsb (fun c => in_class c && is_upper (strip c))%bool (case_set icase [c]) = true) as ->.
  { apply existsb_exists. exists c. split; [apply C1; auto|]. unfold in_class. rewrite K, U. reflexivity. }
  assert (existsb (fun c => in_class c && negb (is_upper (strip c)))%bool (case_set icase [c]) = false) as ->.
  { apply not_true_is_false. intros X. apply existsb_exists in X as (x & Hx & X). apply C1 in Hx. subst x. rewrite U in X. rewrite andb_false_r in X. discriminate. }
  cbn [andb orb bind].
  assert (J : forall x, In x cs' <-> cls_has k x).
  { intros x. rewrite I. split.
    - intros (y & Hy & M). apply C1 in Hy. subst y. unfold image in M. rewrite K in M. apply cls_bounds_in, M.
    - intros H. exists c. split; [apply C1; auto|]. unfold image. rewrite K. apply cls_bounds_in, H. }
  exists cs'. split; auto. cbn [check_term].
  assert (existsb is_control cs' = false) as ->; auto.
  apply not_true_is_false. intros X. apply existsb_exists in X as (x & Hx & X). apply J in Hx. rewrite (cls_plain k x Hx) in X. discriminate.
Qed.

(** ** One item *)
Lemma item_starts : forall andnot i t, item_ok andnot i -> starts (item_text i ++ t).
Proof.
  intros andnot i t H.
  destruct i as [c|c|a b|ds|k neg|neg ms| | | | | | | | | |ds|ds|ds es| |]; cbn [item_text app] in *;
    try (apply starts_cons; [lia|apply low_plain; reflexivity]); try (apply starts_esc; reflexivity).
  - destruct H as (I & R & W). apply starts_cons; auto. intros ->. apply I. now left.
  - apply starts_esc. cbn in H. destruct andnot; cbn in H; lia.
  - apply starts_esc. destruct neg; [apply cls_upper_low|apply cls_low].
Qed.
Lemma pattern_starts : forall andnot is, Forall (item_ok andnot) is -> starts (pattern_text is).
Proof. intros andnot [|i is] F; [left; reflexivity|]. cbn [pattern_text flat_map]. apply (item_starts andnot). apply (Forall_inv F). Qed.

(** The beginning of DoLex: the first character, put back. *)
Lemma do_lex_plain : forall fs s c t, c <> 92 -> ~ reserved c -> same s (c :: t) ->
  do_lex fs s = match find (fun f => feature_accepts f c) fs with Some f => feature_lex f (c :: t) | None => Ok (lex_plain c, t) end.
Proof.
  intros fs s c t H R S. unfold do_lex. rewrite (same_get _ _ S), get_plain by auto. cbn [bind]. rewrite unget_plain by (apply not_end, R).
  cbn [peek_char]. replace (c =? End) with false by (symmetry; apply N.eqb_neq, not_end, R). rewrite get_plain by auto. reflexivity.
Qed.
Lemma do_lex_esc : forall fs s d t, d < 255 -> same s (92 :: d :: t) ->
  do_lex fs s = match find (fun f => feature_accepts f (ctl d)) fs with Some f => feature_lex f (ctl d :: t) | None => Ok (lex_plain (ctl d), t) end.
Proof.
  intros fs s d t H S. unfold do_lex. rewrite (same_get _ _ S). cbn [get_char]. rewrite N.eqb_refl. cbn [bind].
  assert (E : ctl d <> End) by (rewrite ctl_eq by lia; unfold End; lia).
  rewrite unget_plain by auto. cbn [peek_char]. replace (ctl d =? End) with false by (symmetry; apply N.eqb_neq, E).
  rewrite get_plain; [reflexivity|]. rewrite ctl_eq by lia. lia.
Qed.

Lemma one_letter : forall added icase andnot c s' s, options added icase andnot -> ~ reserved c -> wide c ->
  do_lex (features added) s = Ok (character c, s') ->
  exists tk, lex (features added) s = Ok (Some tk, s') /\ letters_of tk false (lit icase c).
Proof.
  intros added icase andnot c s' s O R W E. unfold lex. rewrite E. cbn [bind].
  destruct (letters_ok added icase andnot [c] false (fun x => x = c) (fun _ => False) O) as (cs & A & I).
  { intros x. cbn. split; [intros [->|[]]; auto|intros [->|(k & [] & _)]; auto]. }
  { intros x ->. auto. }
  unfold character. destruct (alter_all (features added) (TLetters [c] false)) as [t|?| |]; cbn [bind] in A |- *; try discriminate.
  rewrite A. cbn [bind to_token]. eexists. split; [reflexivity|]. exists cs. split; auto. intros x. rewrite I. split.
  - intros [(y & -> & L)|(k & [] & _)]; auto.
  - intros L. left. exists c. auto.
Qed.
Lemma other_term : forall added icase andnot t tk s' s, options added icase andnot -> (forall cs n, t <> TLetters cs n) ->
  to_token t = Some tk -> do_lex (features added) s = Ok (t, s') -> lex (features added) s = Ok (Some tk, s').
Proof.
  intros added icase andnot t tk s' s O H T E. unfold lex. rewrite E. cbn [bind]. destruct (alter_other _ _ _ t O H) as [-> K]. cbn [bind].
  rewrite K. cbn [bind]. rewrite T. reflexivity.
Qed.
Lemma plain_letter : forall c, ~ In c (special false) -> ~ reserved c -> lex_plain c = character c.
Proof.
  intros c I R. unfold lex_plain. rewrite (control_no c R). cbn [andb].
  repeat match goal with |- context [c =? ?k] => destruct (c =? k) eqn:?; [exfalso; apply I; match goal with H : (c =? k) = true |- _ => apply N.eqb_eq in H; subst c end; cbn; auto 20|] end.
  reflexivity.
Qed.
Lemma lex_item : forall added icase andnot i s t, options added icase andnot -> item_ok andnot i -> same s (item_text i ++ t) -> starts t ->
  exists tk s', lex (features added) s = Ok (Some tk, s') /\ same s' t /\ stands_for icase i tk.
Proof.
  intros added icase andnot i s t O H S St.
  assert (OPS : forall c tm tk, item_text i = [c] -> In c [46; 94; 36; 40; 41; 124; 42; 43; 63] -> lex_plain c = tm -> to_token tm = Some tk ->
    (forall cs n, tm <> TLetters cs n) -> exists s', lex (features added) s = Ok (Some tk, s') /\ same s' t).
  { intros c tm tk E I L T N0. exists t. split; [|apply same_refl]. apply (other_term added icase andnot tm); auto.
    rewrite E in S. cbn [app] in S. rewrite (do_lex_plain _ _ c t) by (auto; try apply low_plain; cbn in I; lia).
    rewrite (find_feature _ _ _ _ O), <- L. clear -I.
    repeat (destruct I as [<-|I]; [destruct andnot; reflexivity|]). destruct I. }
  destruct i as [c|c|a b|ds|k neg|neg ms| | | | | | | | | |ds|ds|ds es| |]; cbn [item_text item_ok stands_for app] in *.
  - (* a character *) destruct H as (I & R & W).
    destruct (one_letter added icase andnot c t s O R W) as (tk & E & L); [|exists tk, t; split; auto; split; auto; apply same_refl].
    assert (K : c <> 92) by (intros ->; apply I; now left).
    rewrite (do_lex_plain _ _ c t) by auto. rewrite (find_feature _ _ _ _ O).
    assert (X : forall d, d < 256 -> (c =? ctl d) = false) by (intros d Hd; apply N.eqb_neq, plain_not_ctl; auto).
    rewrite !X by lia. assert (Y : forall d, In d (special andnot) -> (c =? d) = false) by (intros d Hd; apply N.eqb_neq; intros ->; auto).
    rewrite (Y 91), (Y 123) by (cbn; auto 20). cbn [orb].
    assert ((andnot && ((c =? 38) || (c =? 126) || false || false))%bool = false) as ->.
    { destruct andnot; auto. rewrite (Y 38), (Y 126) by (cbn; auto 20). reflexivity. }
    rewrite plain_letter; auto. intros Z. apply I. unfold special in *. apply in_app_iff in Z as [Z|[]]. apply in_app_iff. auto.
  - (* an escaped one *)
    assert (B : c < 255) by (destruct andnot; cbn in H; lia).
    destruct (one_letter added icase andnot c t s O) as (tk & E & L); [apply low_plain; lia|unfold wide; lia| |exists tk, t; split; auto; split; auto; apply same_refl].
    rewrite (do_lex_esc _ _ c t B S), (find_feature _ _ _ _ O). clear -H.
    destruct andnot; cbn in H; repeat (destruct H as [<-|H]; [reflexivity|]); destruct H.
  - (* \xHH *) destruct H as [Ha Hb]. destruct (read_unicode_two a b t Ha Hb St) as (s' & E & S').
    pose proof (hex2_low a b Ha Hb) as B.
    destruct (one_letter added icase andnot (hex_number [a; b]) s' s O) as (tk & E1 & L); [apply low_plain; lia|unfold wide; lia| |exists tk, s'; auto].
    rewrite (do_lex_esc _ _ 120 (a :: b :: t)) by (auto; lia). rewrite (find_feature _ _ _ _ O). rewrite N.eqb_refl. cbn [feature_lex]. rewrite E. reflexivity.
  - (* \x{H...} *) rewrite <- app_assoc in S. cbn [app] in S.
    destruct (one_letter added icase andnot (hex_number ds) t s O) as (tk & E1 & L); [apply H|unfold wide; destruct H as (_ & _ & H & _); lia| |exists tk, t; split; auto; split; auto; apply same_refl].
    rewrite (do_lex_esc _ _ 120 (123 :: ds ++ 125 :: t)) by (auto; lia). rewrite (find_feature _ _ _ _ O). rewrite N.eqb_refl. cbn [feature_lex].
    rewrite (read_unicode_brace ds t H). reflexivity.
  - (* a class *) destruct neg.
    + destruct (letters_neg added icase andnot k O) as (cs & A & I).
      assert (E : do_lex (features added) s = Ok (TLetters [ctl (ascii_upper (cls_name k))] false, t)).
      { rewrite (do_lex_esc _ _ _ t (cls_upper_low k) S), (find_feature _ _ _ _ O). destruct k, andnot; reflexivity. }
      unfold lex. rewrite E. cbn [bind].
      destruct (alter_all (features added) (TLetters [ctl (ascii_upper (cls_name k))] false)) as [t0|?| |]; cbn [bind] in A |- *; try discriminate.
      rewrite A. cbn [bind to_token]. do 2 eexists. split; [reflexivity|]. split; [apply same_refl|]. exists cs. auto.
    + destruct (letters_ok added icase andnot [ctl (cls_name k)] false (fun _ => False) (fun k' => k' = k) O) as (cs & A & I).
      { intros x. split; [intros [<-|[]]; right; exists k; auto|intros [[]|(k' & -> & ->)]; now left]. }
      { intros x []. }
      assert (E : do_lex (features added) s = Ok (TLetters [ctl (cls_name k)] false, t)).
      { rewrite (do_lex_esc _ _ _ t (cls_low k) S), (find_feature _ _ _ _ O). destruct k, andnot; reflexivity. }
      unfold lex. rewrite E. cbn [bind].
      destruct (alter_all (features added) (TLetters [ctl (cls_name k)] false)) as [t0|?| |]; cbn [bind] in A |- *; try discriminate.
      rewrite A. cbn [bind to_token]. do 2 eexists. split; [reflexivity|]. split; [apply same_refl|]. exists cs. split; auto.
      intros x. rewrite I. split; [intros [(y & [] & _)|(k' & -> & X)]; auto|intros X; right; exists k; auto].
  - (* a set *) destruct H as [H F]. destruct (lex_range_ok neg ms t H F) as (cs0 & E0 & I0).
    assert (S0 : same s (91 :: (if neg then [94] else []) ++ members_text ms ++ 93 :: t)).
    { replace (91 :: (if neg then [94] else []) ++ members_text ms ++ 93 :: t) with ((91 :: (if neg then [94] else []) ++ members_text ms ++ [93]) ++ t); auto.
      cbn. rewrite <- !app_assoc. reflexivity. }
    assert (E : do_lex (features added) s = Ok (TLetters cs0 neg, t)).
    { rewrite (do_lex_plain _ _ 91 _) with (3 := S0) by (try apply low_plain; lia). rewrite (find_feature _ _ _ _ O). exact E0. }
    assert (MP : forall a m x, members_ok a ms -> In m ms -> raw_member m x -> (exists k, m = MClass k) \/ (~ reserved x /\ wide x)).
    { clear. induction ms as [|m0 ms IH]; intros a m x H I R; [destruct I|]. destruct H as (H & _ & HR). destruct I as [->|I]; [|eapply IH; eauto].
      assert (SV : forall b, single_ok b -> ~ reserved (single_value b) /\ wide (single_value b)).
      { intros [c|c|a0 b0|ds] Hb; cbn in *.
        - tauto.
        - split; [apply low_plain; lia|unfold wide; lia].
        - destruct Hb as [Ha Hb]. pose proof (hex2_low _ _ Ha Hb) as B. unfold hex_number in B. cbn in B. split; [apply low_plain; lia|unfold wide; lia].
        - destruct Hb as (_ & _ & B & N0). split; auto. unfold wide. lia. }
      destruct m as [b|c|b e|k| |c]; cbn [member_ok raw_member] in *.
      - right. subst x. apply SV, H.
      - right. subst x. split; [apply low_plain; cbn in H; lia|unfold wide; cbn in H; lia].
      - right. destruct H as (Hb & He & Hx). split; [apply Hx, R|]. destruct (SV e He) as [_ W]. unfold wide in *. lia.
      - left. exists k. auto.
      - right. subst x. split; [apply low_plain; lia|unfold wide; lia].
      - right. subst x. split; [apply low_plain; lia|unfold wide; lia]. }
    destruct (letters_ok added icase andnot cs0 neg (fun x => exists m, In m ms /\ (forall k, m <> MClass k) /\ raw_member m x) (fun k => In (MClass k) ms) O) as (cs & A & I).
    { intros x. rewrite I0. split.
      - intros (m & Hm & R). destruct m as [b|c|b e|k| |c]; try (left; eexists; split; [exact Hm|]; split; [discriminate|exact R]). right. exists k. auto.
      - intros [(m & Hm & _ & R)|(k & Hk & ->)]; [exists m; auto|exists (MClass k); cbn; auto]. }
    { intros x (m & Hm & NC & R). destruct (MP false m x H Hm R) as [(k & ->)|X]; auto. exfalso. apply (NC k). reflexivity. }
    unfold lex. rewrite E. cbn [bind].
    destruct (alter_all (features added) (TLetters cs0 neg)) as [t0|?| |]; cbn [bind] in A |- *; try discriminate.
    rewrite A. cbn [bind to_token]. do 2 eexists. split; [reflexivity|]. split; [apply same_refl|]. exists cs. split; auto.
    intros x. rewrite I. split.
    + intros [(y & (m & Hm & NC & R) & L)|(k & Hk & X)]; [|exists (MClass k); auto].
      exists m. split; auto. destruct m as [b|c|b e|k| |c]; cbn [raw_member in_member] in *; subst; auto; [exists y; auto|exfalso; eapply NC; reflexivity].
    + intros (m & Hm & X). destruct m as [b|c|b e|k| |c]; cbn [in_member] in X.
      * left. exists (single_value b). split; auto. exists (MSingle b). split; auto. split; [discriminate|reflexivity].
      * left. exists c. split; auto. exists (MEsc c). split; auto. split; [discriminate|reflexivity].
      * destruct X as (y & Y & L). left. exists y. split; auto. exists (MRange b e). split; auto. split; [discriminate|exact Y].
      * right. exists k. auto.
      * left. exists 45. split; auto. exists MDash. split; auto. split; [discriminate|reflexivity].
      * left. exists c. split; auto. exists (MRaw c). split; auto. split; [discriminate|reflexivity].
  - destruct (OPS 46 TDot KDot) as (s' & E & S'); cbn; auto 20; try discriminate. exists KDot, s'. auto.
  - destruct (OPS 94 TBegin KBegin) as (s' & E & S'); cbn; auto 20; try discriminate. exists KBegin, s'. auto.
  - destruct (OPS 36 TEnd KEnd) as (s' & E & S'); cbn; auto 20; try discriminate. exists KEnd, s'. auto.
  - destruct (OPS 40 TOpen KOpen) as (s' & E & S'); cbn; auto 20; try discriminate. exists KOpen, s'. auto.
  - destruct (OPS 41 TClose KClose) as (s' & E & S'); cbn; auto 20; try discriminate. exists KClose, s'. auto.
  - destruct (OPS 124 TOr KOr) as (s' & E & S'); cbn; auto 20; try discriminate. exists KOr, s'. auto.
  - destruct (OPS 42 (TCount 0 Inf) (KCount 0 Inf)) as (s' & E & S'); cbn; auto 20; try discriminate. exists (KCount 0 Inf), s'. auto.
  - destruct (OPS 43 (TCount 1 Inf) (KCount 1 Inf)) as (s' & E & S'); cbn; auto 20; try discriminate. exists (KCount 1 Inf), s'. auto.
  - destruct (OPS 63 (TCount 0 1) (KCount 0 1)) as (s' & E & S'); cbn; auto 20; try discriminate. exists (KCount 0 1), s'. auto.
  - rewrite <- app_assoc in S. cbn [app] in S. eexists _, t. split; [|split; [apply same_refl|reflexivity]].
    apply (other_term added icase andnot (TCount (dec_number ds) (dec_number ds))); auto; [discriminate|].
    rewrite (do_lex_plain _ _ 123 _) with (3 := S) by (try apply low_plain; lia). rewrite (find_feature _ _ _ _ O).
    change (feature_lex FCount (123 :: ds ++ 125 :: t) = Ok (TCount (dec_number ds) (dec_number ds), t)). apply lex_count_ok, H.
  - rewrite <- app_assoc in S. cbn [app] in S. eexists _, t. split; [|split; [apply same_refl|reflexivity]].
    apply (other_term added icase andnot (TCount (dec_number ds) Inf)); auto; [discriminate|].
    rewrite (do_lex_plain _ _ 123 _) with (3 := S) by (try apply low_plain; lia). rewrite (find_feature _ _ _ _ O).
    change (feature_lex FCount (123 :: ds ++ 44 :: 125 :: t) = Ok (TCount (dec_number ds) Inf, t)). apply lex_count_from, H.
  - destruct H as [H1 H2]. rewrite <- app_assoc in S. cbn [app] in S. rewrite <- app_assoc in S. cbn [app] in S.
    eexists _, t. split; [|split; [apply same_refl|reflexivity]].
    apply (other_term added icase andnot (TCount (dec_number ds) (dec_number es))); auto; [discriminate|].
    rewrite (do_lex_plain _ _ 123 _) with (3 := S) by (try apply low_plain; lia). rewrite (find_feature _ _ _ _ O).
    change (feature_lex FCount (123 :: ds ++ 44 :: es ++ 125 :: t) = Ok (TCount (dec_number ds) (dec_number es), t)). apply lex_count_to; auto.
  - exists KAnd, t. split; [|split; [apply same_refl|reflexivity]]. apply (other_term added icase andnot TAnd); auto; [discriminate|].
    rewrite (do_lex_plain _ _ 38 t) by (auto; try apply low_plain; lia). rewrite (find_feature _ _ _ _ O), H. reflexivity.
  - exists KNot, t. split; [|split; [apply same_refl|reflexivity]]. apply (other_term added icase andnot TNot); auto; [discriminate|].
    rewrite (do_lex_plain _ _ 126 t) by (auto; try apply low_plain; lia). rewrite (find_feature _ _ _ _ O), H. reflexivity.
Qed.

(** ** A pattern *)
Lemma lex_end : forall added icase andnot, options added icase andnot -> lex (features added) [] = Ok (None, []).
Proof.
  intros added icase andnot O. unfold lex. assert (do_lex (features added) [] = Ok (TFinish, [])) as -> by reflexivity. cbn [bind].
  destruct (alter_other _ _ _ TFinish O) as [-> K]; [discriminate|]. cbn [bind]. rewrite K. reflexivity.
Qed.
Lemma lex_pattern : forall added icase andnot is fuel s, options added icase andnot -> Forall (item_ok andnot) is -> same s (pattern_text is) ->
  (length is < fuel)%nat -> exists ts, lex_loop (features added) fuel s = Ok ts /\ Forall2 (stands_for icase) is ts.
Proof.
  intros added icase andnot is. induction is as [|i is IH]; intros fuel s O F S L; destruct fuel as [|n]; try (cbn in L; lia); cbn [lex_loop].
  - destruct S as [->|(d & r & _ & E & _)]; [|discriminate]. cbn [pattern_text flat_map]. rewrite (lex_end _ _ _ O). cbn [bind]. exists []. split; auto.
  - cbn [pattern_text flat_map] in S. fold (pattern_text is) in S.
    destruct (lex_item added icase andnot i s _ O (Forall_inv F) S (pattern_starts _ _ (Forall_inv_tail F))) as (tk & s' & E & S' & M).
    rewrite E. cbn [bind]. destruct (IH n s' O (Forall_inv_tail F) S' ltac:(cbn in L; lia)) as (ts & E2 & M2). rewrite E2. cbn [bind].
    exists (tk :: ts). auto.
Qed.
Lemma items_length : forall is, (length is <= length (pattern_text is))%nat.
Proof.
  induction is as [|i is IH]; cbn [pattern_text flat_map length]; [lia|]. fold (pattern_text is). rewrite app_length.
  assert (0 < length (item_text i))%nat; [|lia]. destruct i; cbn; lia.
Qed.
Lemma lex_all_ok : forall added icase andnot is, options added icase andnot -> Forall (item_ok andnot) is ->
  exists ts, lex_all (features added) (pattern_text is) = Ok ts /\ Forall2 (stands_for icase) is ts.
Proof.
  intros added icase andnot is O F. apply (lex_pattern added icase andnot is _ _ O F (same_refl _)). pose proof (items_length is). lia.
Qed.
