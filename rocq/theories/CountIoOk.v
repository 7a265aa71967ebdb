(** Counting scanners that were saved and read back. *)
From Coq Require Import List Bool Arith NArith Lia.
From Verif Require Import Util Spec FsmModel RunModel RunSpec ScannerModel ScannerProofs ScannerCompile IoModel IoBytes ScannerApi CountModel CountSpec RunProofs CountProofs LoadedProofs LoadedGlue CountIoModel CountIo.
Import ListNotations.
Local Open Scope N_scope.

Lemma moved_ok : forall buf owned s, loaded_ok s -> d_null s = false -> loaded_ok (moved buf owned s) /\ d_count (moved buf owned s) = d_count s.
Proof.
  intros buf owned s L NU. assert (DC : d_count s = d_regexps s) by (unfold d_count; rewrite NU; auto).
  destruct L as [L0 L1 L2 L3 L4 L5 L6 L7 L8]. split; [|rewrite DC; reflexivity]. split; cbn; auto.
  - unfold d_count. cbn. rewrite <- DC. auto.
  - intros q l H1 H2. destruct (L5 q l H1 H2) as (q' & a & A1 & A2 & A3). exists q', a. splits; auto. unfold d_count. cbn. rewrite <- DC. auto.
  - destruct L6 as (q & A1 & A2). exists q. split; auto. rewrite A2. unfold d_state, d_base, state_size. cbn. lia.
  - rewrite map_length. exact L7.
Qed.
Lemma initial_within : forall s, loaded_ok s -> exists q, q < d_states s /\ d_initial s = d_base s + q * state_size s.
Proof. intros s L. destruct (lo_init _ L) as (q & Q & E). exists (N.of_nat q). split; [lia|]. rewrite E. reflexivity. Qed.
Lemma storable_ok : forall s, loaded_ok s -> dplaced s -> d_nletters s <= 256 -> d_regexps s < two32 -> Forall (fun j => fst j < two32 /\ snd j < two32) (d_jumps s) -> storable s.
Proof.
  intros s L [P1 P2] F RE J. pose proof (nl_pos s L) as NP. destruct (initial_within s L) as (q & Q & E).
  assert (JL : N.of_nat (length (d_jumps s)) = d_states s * d_nletters s) by (rewrite (lo_jlen _ L); lia).
  constructor; auto.
  - exact (lo_states _ L).
  - unfold two32. lia.
  - exact (lo_llen _ L).
  - apply Forall_forall. intros x Hx. pose proof (lo_lt _ L x Hx). lia.
  - rewrite (lo_tlen _ L). lia.
  - rewrite E. unfold state_size in *. nia.
  - rewrite E. unfold state_size. nia.
Qed.
Lemma cell_at : forall n m i, (i < n * m)%nat -> (i / m < n /\ i mod m < m /\ i / m * m + i mod m = i)%nat.
Proof.
  intros n m i H. assert (m <> 0)%nat by (intros ->; lia). splits.
  - apply Nat.div_lt_upper_bound; auto. lia.
  - apply Nat.mod_upper_bound. auto.
  - pose proof (Nat.div_mod i m H0). lia.
Qed.
Lemma jumps_small : forall s, loaded_ok s -> Forall (fun j => fst j < two32 /\ snd j < two32) (d_jumps s).
Proof.
  intros s L. apply Forall_forall. intros j Hj. apply In_nth_error in Hj as [i Hi].
  assert (B : (i < N.to_nat (d_states s) * N.to_nat (d_nletters s))%nat) by (rewrite <- (lo_jlen _ L); apply nth_error_Some; congruence).
  destruct (cell_at _ _ _ B) as (B1 & B2 & B3). destruct (lo_entry _ L _ _ B1 B2) as (q' & a & A1 & _ & A2 & _). rewrite B3, Hi in A1. injection A1 as ->. cbn [fst snd]. split; auto.
  unfold shift_of. apply N.mod_lt. discriminate.
Qed.
Lemma loaded_storable : forall s, loaded_ok s -> dplaced s -> d_nletters s <= 256 -> d_null s = false -> storable s.
Proof.
  intros s L P F NU. apply storable_ok; auto using jumps_small. pose proof (lo_count _ L) as C. unfold d_count in C. rewrite NU in C. unfold two32. lia.
Qed.
Lemma dplaced_cells : forall s, loaded_ok s -> dplaced s -> d_states s * d_nletters s < two32.
Proof. intros s L [_ P]. unfold state_size, two31, two32 in *. nia. Qed.
Lemma room_initial : forall s buf, loaded_ok s -> droom buf s -> buf + MaxChar + (d_initial s - d_base s) < two64.
Proof.
  intros s buf L R. destruct (initial_within s L) as (q & Q & E). pose proof (nl_pos s L). rewrite E. unfold droom, state_size in *. nia.
Qed.

(** Reading an image whose bytes are all there *)
Lemma img_length_word : forall v ty pad old s, length pad = 4%nat -> storable s -> (N.of_nat (length (img v ty pad old s))) mod 8 = 0.
Proof.
  intros v ty pad old s P S. unfold img, tables. rewrite !app_length, !Nat2N.inj_add, hdr_length, locals_length, !saved_length by auto. change (align_save 24) with (@nil N). cbn [length].
  change (N.of_nat 24) with 24. change (N.of_nat 0) with 0. apply mod8_add; [reflexivity|]. apply mod8_add; [reflexivity|]. apply mod8_add; [reflexivity|]. apply mod8_add; [reflexivity|].
  apply mod8_add; [apply pad_mod|]. apply mod8_add; [apply pad_mod|]. apply mod8_add; [|apply pad_mod].
  unfold old_part. destruct (v =? 6); [|reflexivity]. rewrite app_length, align_save_length, Nat2N.inj_add, N2Nat.id. apply pad_mod.
Qed.
Lemma d_save_what : forall pad s x, d_save pad s = Ok x -> d_states s * d_nletters s < two32 /\ x = img 7 4 pad [] s.
Proof. intros pad s x H. apply save_img in H. exact H. Qed.
Lemma load_img7 : forall ty pad s buf null t rest, ty = 4 \/ ty = 5 -> length pad = 4%nat -> storable s -> d_states s * d_nletters s < two32 -> buf + MaxChar + (d_initial s - d_base s) < two64 ->
  load_loaded buf null (mkStream t (img 7 ty pad [] s ++ rest)) = Ok (ty, moved buf true s, mkStream t rest).
Proof.
  intros ty pad s buf null t rest T P S C R. rewrite <- (load_img 7 ty pad (repeat 0 (N.to_nat (4 * (d_states s * d_nletters s)))) s buf null t rest); auto.
  rewrite repeat_length. lia.
Qed.
Lemma mmap_img7 : forall m ty pad s ptr size, ty = 4 \/ ty = 5 -> length pad = 4%nat -> storable s -> d_states s * d_nletters s < two32 ->
  holds m ptr (img 7 ty pad [] s) -> ptr mod 8 = 0 -> ptr + 8 * size < two64 -> N.of_nat (length (img 7 ty pad [] s)) <= size -> d_states s <> 0 ->
  exists size', mmap_loaded m ptr size = Ok (ty, moved (ptr + 48) false s, (ptr + N.of_nat (length (img 7 ty pad [] s)), size')) /\
    size - N.of_nat (length (img 7 ty pad [] s)) <= size' <= size.
Proof.
  intros m ty pad s ptr size T P S C H A B Z NZ. set (old := repeat 0 (N.to_nat (4 * (d_states s * d_nletters s)))).
  assert (I : img 7 ty pad [] s = img 7 ty pad old s) by reflexivity. rewrite I in *. apply mmap_img; auto. unfold old. rewrite repeat_length. lia.
Qed.
Lemma states_pos : forall s, loaded_ok s -> d_states s <> 0.
Proof. intros s L. destruct (initial_within s L) as (q & Q & _). lia. Qed.
Lemma d_load_ok : forall buf pad s x null t rest, loaded_ok s -> dplaced s -> d_nletters s <= 256 -> d_null s = false -> length pad = 4%nat -> droom buf s -> d_save pad s = Ok x ->
  d_load buf null (mkStream t (x ++ rest)) = Ok (moved buf true s, mkStream t rest).
Proof.
  intros buf pad s x null t rest L P F NU PL R E. apply d_save_what in E as [C ->]. unfold d_load. rewrite load_img7 by (auto using loaded_storable, room_initial). reflexivity.
Qed.
Lemma d_mmap_ok : forall m pad s x ptr size, loaded_ok s -> dplaced s -> d_nletters s <= 256 -> d_null s = false -> length pad = 4%nat -> d_save pad s = Ok x ->
  holds m ptr x -> ptr mod 8 = 0 -> mappable ptr size -> N.of_nat (length x) <= size -> d_mmap m ptr size = Ok (moved (ptr + 48) false s, ptr + N.of_nat (length x)).
Proof.
  intros m pad s x ptr size L P F NU PL E H A (M1 & M2 & M3) Z. apply d_save_what in E as [C ->]. unfold d_mmap.
  destruct (mmap_img7 m 4 pad s ptr size) as (z & -> & _); auto using loaded_storable, states_pos.
Qed.
Lemma mmap_aligned : forall m ptr size v, mmap_loaded m ptr size = Ok v -> ptr mod 8 = 0.
Proof. intros m ptr size v H. unfold mmap_loaded, check_align in H. destruct (N.eqb_spec (ptr mod 8) 0); [auto|discriminate H]. Qed.
Lemma d_mmap_aligned : forall m ptr size v, d_mmap m ptr size = Ok v -> ptr mod 8 = 0.
Proof. intros m ptr size v H. unfold d_mmap in H. apply bind_ok in H as ([[ty s] c] & H & _). eapply mmap_aligned; eauto. Qed.
