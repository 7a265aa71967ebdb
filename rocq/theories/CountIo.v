(** Reading back what LoadedScanner::Save wrote. *)
From Coq Require Import List Bool Arith NArith Lia.
From Verif Require Import Util Spec FsmModel RunModel RunSpec ScannerModel ScannerProofs IoModel IoBytes CountModel NgModel CountIoModel.
Import ListNotations.
Local Open Scope N_scope.

(** ** Images *)
Definition hdr (v ty : N) : list N := le 4 MAGIC ++ le 4 v ++ le 4 8 ++ le 4 16 ++ le 4 ty ++ le 4 24.
(** What follows the transitions in version 6 *)
Definition old_part (v : N) (old : list N) : list N := if v =? 6 then old ++ align_save (N.of_nat (length old)) else [].
Definition tables (v : N) (old : list N) (s : loaded) : list N :=
  aligned_save_array 1 (d_letters s) ++ aligned_save_array 8 (map jump_word (d_jumps s)) ++ old_part v old ++ aligned_save_array 1 (d_tags s).
Definition img (v ty : N) (pad old : list N) (s : loaded) : list N :=
  hdr v ty ++ align_save 24 ++ loaded_locals pad s ((d_initial s + two64 - d_base s) mod two64) ++ align_save 24 ++ tables v old s.
Lemma save_img : forall pad ty s x, save_loaded pad ty s = Ok x -> d_states s * d_nletters s < two32 /\ x = img 7 ty pad [] s.
Proof.
  intros pad ty s x H. unfold save_loaded in H. destruct (N.leb_spec two32 (d_states s * d_nletters s)); [discriminate H|]. split; auto. symmetry.
  injection H as H. exact H.
Qed.
Lemma save_total : forall pad ty s, d_states s * d_nletters s < two32 -> save_loaded pad ty s = Ok (img 7 ty pad [] s).
Proof. intros pad ty s H. unfold save_loaded. destruct (N.leb_spec two32 (d_states s * d_nletters s)); [lia|]. reflexivity. Qed.

Record storable (s : loaded) : Prop := {
  so_states : d_states s < two32;
  so_nletters : d_nletters s < two32;
  so_regexps : d_regexps s < two32;
  so_llen : length (d_letters s) = 264%nat;
  so_letters : Forall (fun x => x < 256) (d_letters s);
  so_jlen : N.of_nat (length (d_jumps s)) = d_states s * d_nletters s;
  so_jumps : Forall (fun j => fst j < two32 /\ snd j < two32) (d_jumps s);
  so_tlen : N.of_nat (length (d_tags s)) = d_states s;
  so_init : d_base s <= d_initial s < two64;
  so_within : d_initial s - d_base s <= 8 * (d_states s * d_nletters s)
}.
Definition moved (buf : N) (owned : bool) (s : loaded) : loaded :=
  mkLoaded (d_states s) (d_nletters s) (d_regexps s) (buf + MaxChar + (d_initial s - d_base s)) buf
    (d_letters s) (d_jumps s) (map (fun t => t mod 256) (d_tags s)) owned false.

Lemma jump_word_back : forall j, fst j < two32 -> snd j < two32 -> word_jump (jump_word j) = j /\ jump_word j < 256 ^ N.of_nat 8.
Proof.
  intros [a b] A B. cbn [fst snd] in *. unfold word_jump, jump_word. cbn [fst snd]. split.
  - rewrite N.add_comm, N.mul_comm. rewrite N.add_comm, N.mod_add by discriminate. rewrite N.mod_small by auto. rewrite N.div_add by discriminate. rewrite N.div_small by auto. reflexivity.
  - change (256 ^ N.of_nat 8) with two64. unfold two32, two64 in *. lia.
Qed.
Lemma jumps_back : forall js, Forall (fun j => fst j < two32 /\ snd j < two32) js -> map word_jump (map jump_word js) = js /\ Forall (fun x => x < 256 ^ N.of_nat 8) (map jump_word js).
Proof.
  induction 1 as [|j js [A B] F [IH1 IH2]]; cbn [map]; auto. destruct (jump_word_back j A B) as [H1 H2]. rewrite H1, IH1. auto.
Qed.
Lemma array1_mod : forall xs, array 1 xs = array 1 (map (fun t => t mod 256) xs).
Proof.
  induction xs as [|x xs IH]; cbn [array flat_map map]; auto. unfold array in IH. rewrite IH. f_equal. cbn [le]. rewrite N.mod_mod by discriminate. reflexivity.
Qed.
Lemma mods_small : forall xs, Forall (fun x => x < 256 ^ N.of_nat 1) (map (fun t => t mod 256) xs).
Proof. intros xs. apply Forall_map, Forall_forall. intros x _. change (256 ^ N.of_nat 1) with 256. apply N.mod_lt. discriminate. Qed.

(** ** The header and the Locals *)
Lemma hdr_length : forall v ty, length (hdr v ty) = 24%nat.
Proof. intros. unfold hdr. rewrite !app_length, !le_length. reflexivity. Qed.
Lemma hdr_fields : forall v ty, v < two32 -> ty < two32 -> h_version (hdr v ty) = v /\ h_type (hdr v ty) = ty.
Proof.
  intros v ty V T. split.
  - unfold h_version, hdr. fields. exact V.
  - unfold h_type, hdr. fields. exact T.
Qed.
Lemma hdr_valid : forall v ty, v = 6 \/ v = 7 -> ty = 4 \/ ty = 5 -> validate ty_loaded 24 (hdr v ty) = Ok tt.
Proof. intros v ty [-> | ->] [-> | ->]; vm_compute; reflexivity. Qed.
Lemma load_hdr : forall v ty t r, v = 6 \/ v = 7 -> ty = 4 \/ ty = 5 -> load_header ty_loaded 24 (mkStream t (hdr v ty ++ align_save 24 ++ r)) = Ok (hdr v ty, mkStream t r).
Proof.
  intros. unfold load_header. rewrite aligned_load_ok by (rewrite hdr_length; reflexivity). cbn [bind]. rewrite hdr_valid by auto. reflexivity.
Qed.
Lemma locals_length : forall pad s i, length pad = 4%nat -> length (loaded_locals pad s i) = 24%nat.
Proof. intros pad s i H. unfold loaded_locals. rewrite !app_length, !le_length, H. reflexivity. Qed.
Lemma locals_fields : forall pad s i, length pad = 4%nat -> storable s -> i < two64 ->
  field 0 4 (loaded_locals pad s i) = d_states s /\ field 4 4 (loaded_locals pad s i) = d_nletters s /\ field 8 4 (loaded_locals pad s i) = d_regexps s /\ field 16 8 (loaded_locals pad s i) = i.
Proof.
  intros pad s i P S I. unfold loaded_locals. splits.
  - rewrite field_here; [reflexivity|exact (so_states _ S)].
  - rewrite field_past by (rewrite le_length; lia). rewrite le_length. apply field_here. exact (so_nletters _ S).
  - rewrite !field_past by (rewrite le_length; lia). rewrite !le_length. apply field_here. exact (so_regexps _ S).
  - rewrite !field_past by (rewrite ?le_length; lia). rewrite !le_length. rewrite P. rewrite <- (app_nil_r (le 8 i)). apply field_here. exact I.
Qed.
Lemma initial_back : forall s buf, storable s -> buf + MaxChar + (d_initial s - d_base s) < two64 ->
  (d_initial s + two64 - d_base s) mod two64 < two64 /\ ((d_initial s + two64 - d_base s) mod two64 + (buf + MaxChar)) mod two64 = buf + MaxChar + (d_initial s - d_base s).
Proof.
  intros s buf S R. destruct (so_init _ S) as [A B]. split; [apply N.mod_lt; discriminate|].
  replace (d_initial s + two64 - d_base s) with (d_initial s - d_base s + 1 * two64) by lia. rewrite N.mod_add by discriminate. rewrite (N.mod_small (d_initial s - d_base s)) by lia.
  rewrite N.mod_small by lia. lia.
Qed.
Lemma at_moved : forall pad s buf owned lx jx tx, length pad = 4%nat -> storable s -> buf + MaxChar + (d_initial s - d_base s) < two64 ->
  loaded_at (loaded_locals pad s ((d_initial s + two64 - d_base s) mod two64)) buf owned
    (array 1 (d_letters s) ++ lx) (array 8 (map jump_word (d_jumps s)) ++ jx) (array 1 (d_tags s) ++ tx) = moved buf owned s.
Proof.
  intros pad s buf owned lx jx tx P S R. destruct (initial_back s buf S R) as [I1 I2].
  destruct (locals_fields pad s _ P S I1) as (F1 & F2 & F3 & F4). unfold loaded_at. cbv zeta. rewrite F1, F2, F3, F4, I2. unfold moved.
  destruct (jumps_back _ (so_jumps _ S)) as [J1 J2].
  rewrite words_array; [|rewrite (so_llen _ S); reflexivity|exact (so_letters _ S)].
  rewrite words_array; [|rewrite map_length; symmetry; exact (so_jlen _ S)|exact J2].
  rewrite array1_mod. rewrite words_array; [|rewrite map_length; symmetry; exact (so_tlen _ S)|apply mods_small].
  rewrite J1. reflexivity.
Qed.

(** ** Loading *)
Lemma array_count : forall n xs, N.of_nat (length (array n xs)) = N.of_nat n * N.of_nat (length xs).
Proof. intros. rewrite array_length. lia. Qed.
Lemma load_img : forall v ty pad old s buf null t rest, v = 6 \/ v = 7 -> ty = 4 \/ ty = 5 -> length pad = 4%nat ->
  N.of_nat (length old) = 4 * (d_states s * d_nletters s) -> storable s -> d_states s * d_nletters s < two32 -> buf + MaxChar + (d_initial s - d_base s) < two64 ->
  load_loaded buf null (mkStream t (img v ty pad old s ++ rest)) = Ok (ty, moved buf true s, mkStream t rest).
Proof.
  intros v ty pad old s buf null t rest V T P O S C R. unfold img. rewrite <- !app_assoc. unfold load_loaded.
  rewrite load_hdr by auto. cbn [bind]. rewrite aligned_load_ok by (rewrite locals_length by auto; reflexivity). cbn [bind].
  destruct (initial_back s buf S R) as [I1 I2]. destruct (locals_fields pad s _ P S I1) as (F1 & F2 & F3 & F4). cbv zeta. rewrite F1, F2.
  destruct (N.leb_spec two32 (d_states s * d_nletters s)); [lia|]. unfold tables, aligned_save_array. rewrite <- !app_assoc.
  rewrite (so_llen _ S). change (N.of_nat 1 * N.of_nat 264) with MaxChar.
  rewrite aligned_load_ok by (rewrite array_count, (so_llen _ S); reflexivity). cbn [bind].
  rewrite map_length, (so_jlen _ S). rewrite aligned_load_ok by (rewrite array_count, map_length, (so_jlen _ S); reflexivity). cbn [bind].
  assert (VT : v < two32 /\ ty < two32) by (unfold two32; lia). destruct VT as [V1 T1]. destruct (hdr_fields v ty V1 T1) as [-> ->].
  rewrite (so_tlen _ S).
  assert (E : forall r, (let* st5 := (if v =? RE_VERSION_WITH_MACTIONS
       then let* (_, st') := aligned_load (4 * (d_states s * d_nletters s)) (Some (zeros (4 * (d_states s * d_nletters s)))) (mkStream t (old_part v old ++ r)) in Ok st'
       else Ok (mkStream t (old_part v old ++ r))) in Ok st5) = Ok (mkStream t r)).
  { intros r. unfold old_part, RE_VERSION_WITH_MACTIONS. destruct V as [-> | ->]; cbn [N.eqb Pos.eqb bind]; [|reflexivity].
    rewrite <- app_assoc. rewrite O. rewrite aligned_load_ok by exact O. reflexivity. }
  match goal with |- bind ?X ?K = _ => assert (EX : X = Ok (mkStream t (array 1 (d_tags s) ++ align_save (N.of_nat 1 * d_states s) ++ rest))) end.
  { specialize (E (array 1 (d_tags s) ++ align_save (N.of_nat 1 * d_states s) ++ rest)). destruct (v =? RE_VERSION_WITH_MACTIONS); [|exact E].
    destruct (aligned_load (4 * (d_states s * d_nletters s)) (Some (zeros (4 * (d_states s * d_nletters s)))) _) as [[x y]| | |]; exact E. }
  rewrite EX. cbn [bind]. replace (N.of_nat 1 * d_states s) with (d_states s) by lia.
  rewrite aligned_load_ok by (rewrite array_count, (so_tlen _ S); lia). cbn [bind].
  rewrite <- (app_nil_r (array 1 (d_letters s))), <- (app_nil_r (array 8 _)), <- (app_nil_r (array 1 (d_tags s))). rewrite at_moved by auto. reflexivity.
Qed.

(** ** Mapping *)
Lemma padding_small : forall n, padding n <= 7 * n.
Proof. intros n. destruct (N.eq_dec n 0) as [->|H]; [reflexivity|]. pose proof (padding_facts n). lia. Qed.
Lemma map_ptr_ok : forall sz count p size, p mod 8 = 0 -> p + 8 * size < two64 -> count * sz + padding (count * sz) <= size ->
  map_ptr sz count (p, size) = Ok (p + (count * sz + padding (count * sz)), size - count * sz).
Proof.
  intros sz count p size A B C. assert (D : size - count * sz = 0 -> padding (count * sz) = 0) by lia. unfold map_ptr. cbn [snd]. rewrite (N.mod_small (count * sz)) by lia. set (n := count * sz) in *. clearbody n.
  destruct (N.ltb_spec size n); [lia|]. rewrite advance_ok by lia.
  assert (PA : padding (p + n) = padding n).
  { unfold padding. rewrite !align_up_8. apply N.mod_divide in A; [|lia]. destruct A as [z ->]. replace (z * 8 + n + 7) with (n + 7 + z * 8) by lia. rewrite N.div_add by lia. lia. }
  destruct (N.eq_dec (size - n) 0) as [Z|Z].
  - specialize (D Z). rewrite align_ptr_0.
    + rewrite D. f_equal; f_equal; lia.
    + pose proof (padding_facts n) as [_ X]. rewrite D, N.add_0_r in X. rewrite N.add_mod, A, X by lia. reflexivity.
  - rewrite align_ptr_ok by lia. rewrite PA. f_equal; f_equal; lia.
Qed.
Lemma map_hdr : forall m v ty p size y, v = 6 \/ v = 7 -> ty = 4 \/ ty = 5 -> holds m p (hdr v ty ++ y) -> p mod 8 = 0 ->
  p + 8 * size < two64 -> 24 <= size -> map_header m ty_loaded 24 (p, size) = Ok (hdr v ty, (p + 24, size - 24)).
Proof.
  intros m v ty p size y V T H A B C. unfold map_header, map_ptr. cbn [snd]. change ((1 * 24) mod two64) with 24.
  destruct (N.ltb_spec size 24); [lia|]. rewrite advance_ok by lia.
  rewrite align_ptr_0 by (rewrite N.add_mod, A by lia; reflexivity). cbn [bind fst].
  rewrite (peek_here m 24 _ _ _ H) by apply hdr_length. cbn [bind]. rewrite hdr_valid by auto. reflexivity.
Qed.
Lemma saved_length : forall n xs, N.of_nat (length (aligned_save_array n xs)) = N.of_nat n * N.of_nat (length xs) + padding (N.of_nat n * N.of_nat (length xs)).
Proof. intros. unfold aligned_save_array. rewrite app_length, align_save_length. rewrite Nat2N.inj_add, array_count, N2Nat.id. reflexivity. Qed.
Lemma pad_mod : forall x, (x + padding x) mod 8 = 0. Proof. intros. apply padding_facts. Qed.
Lemma mod8_add : forall p x, p mod 8 = 0 -> x mod 8 = 0 -> (p + x) mod 8 = 0.
Proof. intros p x A B. rewrite N.add_mod, A, B by lia. reflexivity. Qed.
Lemma mmap_img : forall m v ty pad old s ptr size, v = 6 \/ v = 7 -> ty = 4 \/ ty = 5 -> length pad = 4%nat ->
  N.of_nat (length old) = 4 * (d_states s * d_nletters s) -> storable s -> d_states s * d_nletters s < two32 ->
  holds m ptr (img v ty pad old s) -> ptr mod 8 = 0 -> ptr + 8 * size < two64 -> N.of_nat (length (img v ty pad old s)) <= size -> d_states s <> 0 ->
  exists size', mmap_loaded m ptr size = Ok (ty, moved (ptr + 48) false s, (ptr + N.of_nat (length (img v ty pad old s)), size')) /\
    size - N.of_nat (length (img v ty pad old s)) <= size' <= size.
Proof.
  intros m v ty pad old s ptr size V T P O S C H A B Z NZ.
  set (J := d_states s * d_nletters s) in *.
  assert (LI : N.of_nat (length (img v ty pad old s)) = 48 + (264 + (8 * J + N.of_nat (length (old_part v old)) + (d_states s + padding (d_states s))))).
  { unfold img, tables. rewrite !app_length, !Nat2N.inj_add, hdr_length, locals_length, !align_save_length, !saved_length, map_length, (so_llen _ S), (so_jlen _ S), (so_tlen _ S) by auto. fold J.
    change (N.of_nat 1 * N.of_nat 264) with 264. change (padding 264) with 0. change (padding 24) with 0. change (N.of_nat 8) with 8. rewrite (padding_0 (8 * J)) by (rewrite N.mul_comm; apply N.mod_mul; lia).
    change (N.of_nat 1) with 1. rewrite !N.mul_1_l. lia. }
  rewrite LI in Z |- *.
  unfold img in H. change (align_save 24) with (@nil N) in H. cbn [app] in H. unfold mmap_loaded, check_align. rewrite A. cbn [N.eqb bind].
  rewrite (map_hdr m v ty ptr size _ V T H A B) by lia. cbn [bind fst].
  apply holds_split in H as [_ H]. rewrite hdr_length in H. change (N.of_nat 24) with 24 in H.
  pose proof (map_ptr_ok 24 1 (ptr + 24) (size - 24)) as E1. change (1 * 24 + padding (1 * 24)) with 24 in E1. change (1 * 24) with 24 in E1.
  rewrite E1 by (try apply mod8_add; auto; lia). clear E1. cbn [bind]. replace (ptr + 24 + 24) with (ptr + 48) in * by lia.
  rewrite (peek_here m 24 _ _ _ H) by (apply locals_length; auto). cbn [bind].
  apply holds_split in H as [_ H]. rewrite locals_length in H by auto. change (N.of_nat 24) with 24 in H. replace (ptr + 24 + 24) with (ptr + 48) in H by lia.
  assert (R : ptr + 48 + MaxChar + (d_initial s - d_base s) < two64) by (pose proof (so_within _ S); unfold MaxChar; fold J in H0; lia).
  destruct (initial_back s (ptr + 48) S R) as [I1 I2]. destruct (locals_fields pad s _ P S I1) as (F1 & F2 & F3 & F4). cbv zeta. rewrite F1, F2. fold J.
  destruct (N.leb_spec two32 J); [lia|].
  pose proof (map_ptr_ok 1 MaxChar (ptr + 48) (size - 24 - 24)) as E2. change (MaxChar * 1 + padding (MaxChar * 1)) with 264 in E2. change (MaxChar * 1) with 264 in E2.
  rewrite E2 by (try apply mod8_add; auto; lia). clear E2. cbn [bind fst].
  assert (P8 : padding (J * 8) = 0) by (apply padding_0; apply N.mod_mul; lia).
  pose proof (map_ptr_ok 8 J (ptr + 48 + 264) (size - 24 - 24 - 264)) as E3. rewrite P8, N.add_0_r in E3.
  rewrite E3; [|do 2 (apply mod8_add; [|reflexivity]); auto|lia|lia]. clear E3. cbn [bind fst]. set (z3 := size - 24 - 24 - 264 - J * 8).
  assert (VT : v < two32 /\ ty < two32) by (unfold two32; lia). destruct VT as [V1 T1]. destruct (hdr_fields v ty V1 T1) as [-> ->].
  set (ol := N.of_nat (length (old_part v old))) in *.
  assert (A3 : (ptr + 48 + 264 + J * 8) mod 8 = 0) by (do 3 (apply mod8_add; [|first [reflexivity|apply N.mod_mul; lia]]); auto).
  pose proof (padding_small (J * 4)) as PJ. pose proof (padding_small (d_states s)) as PS.
  assert (Hz3 : z3 + (312 + J * 8) = size) by (unfold z3; lia). clearbody z3.
  assert (EO : exists z4, (if v =? RE_VERSION_WITH_MACTIONS then map_ptr 4 J (ptr + 48 + 264 + J * 8, z3) else Ok (ptr + 48 + 264 + J * 8, z3)) = Ok (ptr + 48 + 264 + J * 8 + ol, z4) /\
    z3 - ol <= z4 <= z3 /\ ol + 8 * z4 <= 8 * z3 /\ ol mod 8 = 0).
  { unfold ol, old_part, RE_VERSION_WITH_MACTIONS. destruct V as [-> | ->]; cbn [N.eqb Pos.eqb].
    - assert (OL : ol = J * 4 + padding (J * 4)).
      { unfold ol, old_part. cbn [N.eqb Pos.eqb]. rewrite app_length, align_save_length, Nat2N.inj_add, N2Nat.id, O. replace (4 * J) with (J * 4) by lia. reflexivity. }
      exists (z3 - J * 4). rewrite (map_ptr_ok 4 J (ptr + 48 + 264 + J * 8) z3); [|exact A3|lia|rewrite <- OL; lia].
      assert (OL' : N.of_nat (length (old ++ align_save (N.of_nat (length old)))) = J * 4 + padding (J * 4)) by (rewrite <- OL; reflexivity). rewrite OL'. split; [reflexivity|]. split; [lia|]. split; [lia|apply pad_mod].
    - exists z3. cbn [length]. change (N.of_nat 0) with 0. rewrite N.add_0_r. split; [reflexivity|]. split; [lia|]. split; [lia|reflexivity]. }
  destruct EO as (z4 & E4 & Z4 & W4 & M4).
  match goal with |- context [bind ?X _] => replace X with (Ok (ptr + 48 + 264 + J * 8 + ol, z4) : res cursor) by (symmetry; exact E4) end. cbn [bind fst].
  pose proof (map_ptr_ok 1 (d_states s) (ptr + 48 + 264 + J * 8 + ol) z4) as E5. rewrite N.mul_1_r in E5.
  rewrite E5; [|apply mod8_add; auto|lia|lia]. clear E5. cbn [bind fst].
  unfold tables, aligned_save_array in H. rewrite <- !app_assoc in H.
  rewrite (peek_here m (N.to_nat MaxChar) _ _ _ H) by (rewrite array_length, (so_llen _ S); reflexivity). cbn [bind].
  apply holds_split in H as [_ H]. rewrite array_count, (so_llen _ S) in H. change (N.of_nat 1 * N.of_nat 264) with 264 in H. change (align_save 264) with (@nil N) in H. cbn [app] in H.
  rewrite (peek_here m (N.to_nat (8 * J)) _ _ _ H) by (rewrite array_length, map_length; pose proof (so_jlen _ S) as X; fold J in X; lia). cbn [bind].
  apply holds_split in H as [_ H]. rewrite array_count, map_length, (so_jlen _ S) in H. fold J in H. change (N.of_nat 8) with 8 in H.
  rewrite (align_save_0 (8 * J)) in H by (rewrite N.mul_comm; apply N.mod_mul; lia). cbn [app] in H.
  apply holds_split in H as [_ H]. fold ol in H. replace (8 * J) with (J * 8) in H by lia.
  rewrite (peek_here m (N.to_nat (d_states s)) _ _ _ H) by (rewrite array_length; pose proof (so_tlen _ S); lia). cbn [bind].
  rewrite <- (app_nil_r (array 1 (d_letters s))), <- (app_nil_r (array 8 _)), <- (app_nil_r (array 1 (d_tags s))). rewrite at_moved by auto.
  exists (z4 - d_states s). split; [f_equal; f_equal; f_equal; lia|lia].
Qed.
