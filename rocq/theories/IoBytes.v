(** Facts about the bytes of images and about reading streams and memory. *)
From Coq Require Import List Bool Arith NArith Lia.
From Verif Require Import Util Spec FsmModel RunModel RunSpec ScannerModel ScannerProofs IoModel.
Import ListNotations.
Local Open Scope N_scope.

Lemma le_length : forall n x, length (le n x) = n.
Proof. induction n; intros; cbn [le length]; auto. Qed.
Lemma unle_le : forall n x, x < 256 ^ N.of_nat n -> unle (le n x) = x.
Proof.
  induction n as [|n IH]; intros x H; cbn [le unle].
  - cbn in H. lia.
  - rewrite Nat2N.inj_succ, N.pow_succ_r' in H. rewrite IH.
    + pose proof (N.div_mod x 256 ltac:(lia)). lia.
    + apply N.div_lt_upper_bound; lia.
Qed.
Lemma le_bytes : forall n x, Forall byte (le n x).
Proof. induction n; intros; cbn [le]; constructor; auto. unfold byte. apply N.mod_lt. lia. Qed.
Lemma zeros_length : forall n, length (zeros n) = N.to_nat n.
Proof. intros. apply repeat_length. Qed.
Lemma array_length : forall n xs, length (array n xs) = (n * length xs)%nat.
Proof.
  intros n. induction xs as [|x xs IH]; cbn [array flat_map length]; [lia|]. rewrite app_length, le_length. unfold array in IH. rewrite IH. lia.
Qed.
Lemma firstn_here : forall A n (a b : list A), length a = n -> firstn n (a ++ b) = a.
Proof. intros A n a b <-. rewrite firstn_app, firstn_all, Nat.sub_diag. cbn. apply app_nil_r. Qed.
Lemma skipn_here : forall A n (a b : list A), length a = n -> skipn n (a ++ b) = b.
Proof. intros A n a b <-. rewrite skipn_app, skipn_all, Nat.sub_diag. reflexivity. Qed.
Lemma skipn_past : forall A n (a b : list A), (length a <= n)%nat -> skipn n (a ++ b) = skipn (n - length a) b.
Proof. intros A n a b H. rewrite skipn_app, skipn_all2 by auto. reflexivity. Qed.
Lemma chunks_flat : forall n xs r, Forall (fun x => length x = n) xs -> chunks n (length xs) (concat xs ++ r) = xs.
Proof.
  intros n. induction xs as [|x xs IH]; intros r H; cbn [chunks length concat app]; auto. inversion H; subst.
  rewrite <- app_assoc. rewrite firstn_here, skipn_here by auto. f_equal. auto.
Qed.
Lemma words_array : forall n xs r count, count = N.of_nat (length xs) -> Forall (fun x => x < 256 ^ N.of_nat n) xs ->
  words n count (array n xs ++ r) = xs.
Proof.
  intros n xs r count -> F. unfold words. rewrite Nat2N.id. unfold array. rewrite flat_map_concat_map.
  rewrite <- (map_length (le n) xs) at 1. rewrite chunks_flat.
  - rewrite map_map. rewrite <- (map_id xs) at 2. apply map_ext_in. intros x Hx. apply unle_le. rewrite Forall_forall in F. auto.
  - apply Forall_map, Forall_forall. intros. apply le_length.
Qed.
Lemma field_here : forall n x b, x < 256 ^ N.of_nat n -> field 0 n (le n x ++ b) = x.
Proof. intros. unfold field. cbn [skipn]. rewrite firstn_here by apply le_length. apply unle_le. auto. Qed.
Lemma field_past : forall off n a b, (length a <= off)%nat -> field off n (a ++ b) = field (off - length a) n b.
Proof. intros. unfold field. rewrite skipn_past by auto. reflexivity. Qed.

(** ** Streams that throw *)
Lemma read_ok : forall n old t b r, N.of_nat (length b) = n -> read n old (mkStream t (b ++ r)) = Ok (b, mkStream t r).
Proof.
  intros n old t b r <-. unfold read. cbn [st_left st_throws]. rewrite app_length.
  destruct (N.leb_spec (N.of_nat (length b)) (N.of_nat (length b + length r))); [|lia].
  rewrite Nat2N.id, firstn_here, skipn_here by auto. reflexivity.
Qed.
Lemma align_load_ok : forall size t r, align_load size (mkStream t (align_save size ++ r)) = Ok (mkStream t r).
Proof.
  intros. unfold align_load, align_save. destruct (N.eqb_spec (padding size) 0) as [E|E].
  - rewrite E. reflexivity.
  - rewrite read_ok by (rewrite zeros_length; apply N2Nat.id). reflexivity.
Qed.
Lemma aligned_load_ok : forall n old t b r, N.of_nat (length b) = n ->
  aligned_load n old (mkStream t (b ++ align_save n ++ r)) = Ok (b, mkStream t r).
Proof. intros. unfold aligned_load. rewrite read_ok by auto. cbn [bind]. rewrite align_load_ok. reflexivity. Qed.

(** A reader of throwing streams: it looks only at what it consumes, and throws when that is
    not all there. *)
Definition strict (l : list N) : stream := mkStream true l.
Definition reader {A} (f : stream -> res (A * stream)) : Prop := forall l a st, f (strict l) = Ok (a, st) ->
  exists u r, l = u ++ r /\ st = strict r /\ (forall r', f (strict (u ++ r')) = Ok (a, strict r')) /\
    (forall u' x y, u = u' ++ x :: y -> f (strict u') = Throw EStream).
Lemma reader_ok : forall A (a : A), reader (fun st => Ok (a, st)).
Proof.
  intros A a l a' st E. inversion E; subst. exists [], l. repeat split; auto.
  intros u' x y H. destruct u'; discriminate.
Qed.
Lemma reader_read : forall n old, reader (read n old).
Proof.
  intros n old l a st E. unfold read in E. cbn [strict st_left st_throws] in E.
  destruct (N.leb_spec n (N.of_nat (length l))) as [L|L]; [|discriminate]. inversion E; subst.
  exists (firstn (N.to_nat n) l), (skipn (N.to_nat n) l).
  assert (Len : N.of_nat (length (firstn (N.to_nat n) l)) = n) by (rewrite firstn_length; lia).
  repeat split.
  - symmetry. apply firstn_skipn.
  - intros r'. apply read_ok. auto.
  - intros u' x y H. unfold read. cbn [strict st_left st_throws]. rewrite H, app_length in Len. cbn [length] in Len.
    destruct (N.leb_spec n (N.of_nat (length u'))); [lia|]. reflexivity.
Qed.
Lemma split_short : forall A (u v u' w : list A), u ++ v = u' ++ w -> (length u' <= length u)%nat -> exists z, u = u' ++ z.
Proof.
  intros A u v u' w H L. exists (skipn (length u') u). rewrite <- (firstn_skipn (length u') u) at 1. f_equal.
  transitivity (firstn (length u') (u ++ v)).
  - rewrite firstn_app. replace (length u' - length u)%nat with O by lia. cbn [firstn]. symmetry. apply app_nil_r.
  - rewrite H. apply firstn_here. auto.
Qed.
Lemma reader_bind : forall A B (f : stream -> res (A * stream)) (g : A -> stream -> res (B * stream)),
  reader f -> (forall a, reader (g a)) -> reader (fun st => let* (a, st1) := f st in g a st1).
Proof.
  intros A B f g F G l b st E. destruct (f (strict l)) as [[a st1]| | |] eqn:Ef; cbn [bind] in E; try discriminate.
  destruct (F _ _ _ Ef) as (u & r & -> & -> & F1 & F2). destruct (G a _ _ _ E) as (v & s & -> & -> & G1 & G2).
  exists (u ++ v), s. rewrite <- app_assoc. repeat split.
  - intros r'. rewrite <- app_assoc. rewrite F1. cbn [bind]. apply G1.
  - intros u' x y H. destruct (Nat.lt_ge_cases (length u') (length u)) as [L|L].
    + destruct (split_short _ _ _ _ _ H ltac:(lia)) as [[|z zs] X]; [rewrite X, app_nil_r in L; lia|]. rewrite (F2 _ _ _ X). reflexivity.
    + destruct (split_short _ _ _ _ _ (eq_sym H) L) as [z ->]. rewrite <- app_assoc in H. apply app_inv_head in H. rewrite F1. cbn [bind]. eapply G2. eauto.
Qed.
Lemma reader_pure : forall A B (x : res A) (g : A -> stream -> res (B * stream)),
  (forall a, x = Ok a -> reader (g a)) -> reader (fun st => let* a := x in g a st).
Proof.
  intros A B x g G. destruct x as [a| | |]; [exact (G a eq_refl)| | |]; intros l b st E; discriminate.
Qed.
Lemma reader_if : forall A (b : bool) (f g : stream -> res (A * stream)), reader f -> reader g -> reader (fun st => if b then f st else g st).
Proof. intros A [] f g F G; auto. Qed.
Lemma reader_fail : forall A (x : res (A * stream)), (forall v, x <> Ok v) -> reader (fun _ => x).
Proof. intros A x H l a st E. destruct (H _ E). Qed.
Lemma reader_align : forall size, reader (fun st => let* st1 := align_load size st in Ok (tt, st1)).
Proof.
  intros size. unfold align_load. destruct (padding size =? 0); [apply (reader_ok _ tt)|].
  intros l a st E. cbn [bind] in E. pose proof (reader_read (padding size) (Some (zeros (padding size)))) as R.
  destruct (read (padding size) (Some (zeros (padding size))) (strict l)) as [[b st1]| | |] eqn:Er; cbn [bind] in E; try discriminate.
  inversion E; subst. destruct (R _ _ _ Er) as (u & r & E1 & E2 & F1 & F2). exists u, r. repeat split; auto.
  - intros r'. rewrite F1. reflexivity.
  - intros u' x y H. rewrite (F2 _ _ _ H). reflexivity.
Qed.
Lemma reader_ext : forall A (f g : stream -> res (A * stream)), (forall st, f st = g st) -> reader f -> reader g.
Proof.
  intros A f g H F l a st E. rewrite <- H in E. destruct (F _ _ _ E) as (u & r & E1 & E2 & F1 & F2). exists u, r. repeat split; auto.
  - intros. rewrite <- H. auto.
  - intros. rewrite <- H. eauto.
Qed.
Lemma reader_bind_align : forall B size (g : stream -> res (B * stream)), reader g -> reader (fun st => let* st1 := align_load size st in g st1).
Proof.
  intros B size g G. eapply reader_ext; [|apply (reader_bind _ _ _ (fun _ => g) (reader_align size)); intros _; exact G].
  intros st. cbn beta. destruct (align_load size st); reflexivity.
Qed.
Lemma reader_aligned : forall n old, reader (aligned_load n old).
Proof.
  intros n old. unfold aligned_load. apply reader_bind; [apply reader_read|]. intros b.
  apply reader_bind_align. apply reader_ok.
Qed.
Lemma reader_header : forall ty hs, reader (load_header ty hs).
Proof.
  intros. unfold load_header. apply reader_bind; [apply reader_aligned|]. intros h.
  apply (reader_pure _ _ (validate ty hs h) (fun _ st => Ok (h, st))). intros. apply reader_ok.
Qed.

(** ** Memory *)
Lemma holds_split : forall m a x y, holds m a (x ++ y) -> holds m a x /\ holds m (a + N.of_nat (length x)) y.
Proof.
  intros m a x y [B H]. apply Forall_app in B as [B1 B2]. split; split; auto; intros i Hi.
  - rewrite H by (rewrite app_length; lia). rewrite app_nth1 by auto. reflexivity.
  - replace (a + N.of_nat (length x) + N.of_nat i) with (a + N.of_nat (length x + i)) by lia. rewrite H by (rewrite app_length; lia).
    rewrite app_nth2_plus. reflexivity.
Qed.
Lemma peek_holds : forall m x a, holds m a x -> peek m (length x) a = Ok x.
Proof.
  intros m. induction x as [|b x IH]; intros a H; cbn [length peek]; auto.
  destruct (holds_split m a [b] x H) as [[_ H1] H2]. specialize (H1 0%nat ltac:(cbn; lia)). cbn [nth length] in *. rewrite N.add_0_r in H1.
  unfold load8. rewrite H1. cbn [bind]. change (N.of_nat 1) with 1 in H2. rewrite (IH _ H2). reflexivity.
Qed.
Lemma peek_here : forall m n x y a, holds m a (x ++ y) -> length x = n -> peek m n a = Ok x.
Proof. intros m n x y a H <-. apply peek_holds. apply (holds_split m a x y H). Qed.

Lemma align_up_8 : forall x, align_up x 8 = (x + 7) / 8 * 8.
Proof. intros. change 8 with (2 ^ 3). rewrite align_up_pow. reflexivity. Qed.
Lemma padding_0 : forall x, x mod 8 = 0 -> padding x = 0.
Proof.
  intros x H. unfold padding. rewrite align_up_8. apply N.mod_divide in H; [|lia]. destruct H as [z ->].
  rewrite N.add_comm. rewrite N.div_add by lia. change (7 / 8) with 0. lia.
Qed.
Lemma padding_facts : forall x, padding x < 8 /\ (x + padding x) mod 8 = 0.
Proof.
  intros x. unfold padding. destruct (align_up_facts x 3) as [A B]. change (2 ^ 3) with 8 in *. split; [lia|].
  replace (x + (align_up x 8 - x)) with (align_up x 8) by lia. exact B.
Qed.
Lemma align_save_length : forall x, length (align_save x) = N.to_nat (padding x).
Proof. intros. apply zeros_length. Qed.
Lemma align_save_0 : forall x, x mod 8 = 0 -> align_save x = [].
Proof. intros x H. unfold align_save. rewrite padding_0; auto. Qed.
Lemma header_length : forall ty hs, length (header_bytes ty hs) = 24%nat.
Proof. intros. unfold header_bytes. rewrite !app_length, !le_length. reflexivity. Qed.
Ltac fields := repeat (rewrite field_past by (rewrite le_length || rewrite zeros_length; cbn; lia); rewrite ?le_length, ?zeros_length; change (N.to_nat 4) with 4%nat; cbn [Nat.sub]); rewrite field_here; try reflexivity.
Lemma validate_header : forall ty hs, 0 < ty < 6 -> hs < two32 -> validate ty hs (header_bytes ty hs) = Ok tt.
Proof.
  intros ty hs Ht Hh. unfold validate.
  assert (F1 : h_magic (header_bytes ty hs) = MAGIC) by (unfold h_magic, header_bytes; fields; reflexivity).
  assert (F2 : h_version (header_bytes ty hs) = RE_VERSION) by (unfold h_version, header_bytes; fields; reflexivity).
  assert (F3 : h_ptr_size (header_bytes ty hs) = 8) by (unfold h_ptr_size, header_bytes; fields; reflexivity).
  assert (F4 : h_word_size (header_bytes ty hs) = 16) by (unfold h_word_size, header_bytes; fields; reflexivity).
  assert (F5 : h_type (header_bytes ty hs) = ty) by (unfold h_type, header_bytes; fields; change (256 ^ N.of_nat 4) with two32; unfold two32; lia).
  assert (F6 : h_hdr_size (header_bytes ty hs) = hs) by (unfold h_hdr_size, header_bytes; rewrite <- (app_nil_r (le 4 hs)); fields; exact Hh).
  rewrite F1, F2, F3, F4, F5, F6, !N.eqb_refl. cbn [negb orb andb].
  rewrite andb_false_r. cbn [andb]. rewrite andb_false_r. reflexivity.
Qed.
Lemma load_header_ok : forall ty hs t r, 0 < ty < 6 -> hs < two32 ->
  load_header ty hs (mkStream t (header_bytes ty hs ++ align_save 24 ++ r)) = Ok (header_bytes ty hs, mkStream t r).
Proof.
  intros. unfold load_header. rewrite aligned_load_ok by (rewrite header_length; reflexivity). cbn [bind].
  rewrite validate_header by auto. reflexivity.
Qed.
(** Advancing a cursor over [d] bytes, then aligning it. *)
Lemma advance_ok : forall d p size, p + d < two64 -> d <= size -> size < two64 -> advance d (p, size) = (p + d, size - d).
Proof.
  intros d p size A B C. unfold advance. cbn [fst snd]. f_equal; [apply N.mod_small; lia|].
  rewrite (N.mod_small d) by lia. replace (size + two64 - d) with (size - d + 1 * two64) by lia. rewrite N.mod_add by discriminate. apply N.mod_small. lia.
Qed.
Lemma align_ptr_0 : forall p size, p mod 8 = 0 -> align_ptr (p, size) = Ok (p, size).
Proof. intros p size H. unfold align_ptr. rewrite H. reflexivity. Qed.
Lemma align_ptr_ok : forall p size, p + 8 * size < two64 -> 1 <= size -> align_ptr (p, size) = Ok (p + padding p, size).
Proof.
  intros p size A B. unfold align_ptr. destruct (N.eqb_spec (p mod 8) 0) as [E|E].
  - rewrite padding_0 by auto. rewrite N.add_0_r. reflexivity.
  - rewrite N.mod_small by auto. unfold padding. destruct (align_up_facts p 3) as [C _]. change (2 ^ 3) with 8 in C.
    destruct (N.ltb_spec (p + 8 * size) (align_up p 8)); [lia|]. rewrite N.div_small by lia. f_equal. f_equal; lia.
Qed.
Lemma align_ptr_end : forall p, p mod 8 <> 0 -> p < two64 -> align_ptr (p, 0) = Throw EImage.
Proof.
  intros p A B. unfold align_ptr. destruct (N.eqb_spec (p mod 8) 0); [contradiction|]. rewrite N.mod_small by lia.
  destruct (align_up_facts p 3) as [C D]. change (2 ^ 3) with 8 in *. destruct (N.ltb_spec (p + 8 * 0) (align_up p 8)); auto.
  assert (align_up p 8 = p) by lia. congruence.
Qed.
(** One byte more than there was: the size wraps around. *)
Lemma advance_over : forall p, p + 1 < two64 -> advance 1 (p, 0) = (p + 1, two64 - 1).
Proof. intros p A. unfold advance. cbn [fst snd]. f_equal. apply N.mod_small. auto. Qed.
Lemma align_ptr_over : forall p, 8 <= p < two64 -> p mod 8 <> 0 -> align_ptr (p, two64 - 1) = Throw EImage.
Proof.
  intros p A B. unfold align_ptr. destruct (N.eqb_spec (p mod 8) 0); [contradiction|].
  replace (p + 8 * (two64 - 1)) with (p - 8 + 8 * two64) by (unfold two64; lia). rewrite N.mod_add by discriminate. rewrite N.mod_small by lia.
  destruct (align_up_facts p 3) as [C D]. change (2 ^ 3) with 8 in *. destruct (N.ltb_spec (p - 8) (align_up p 8)); auto. lia.
Qed.
Lemma map_header_ok : forall m ty hs p size y, 0 < ty < 6 -> hs < two32 -> holds m p (header_bytes ty hs ++ y) -> p mod 8 = 0 ->
  p + 24 < two64 -> 24 <= size -> size < two64 -> map_header m ty hs (p, size) = Ok (header_bytes ty hs, (p + 24, size - 24)).
Proof.
  intros m ty hs p size y Ht Hh H A B C D. unfold map_header, map_ptr. cbn [snd]. change ((1 * 24) mod two64) with 24.
  destruct (N.ltb_spec size 24); [lia|]. rewrite advance_ok by lia.
  rewrite align_ptr_0 by (rewrite N.add_mod, A by lia; reflexivity). cbn [bind fst].
  rewrite (peek_here m 24 _ _ _ H) by apply header_length. cbn [bind]. rewrite validate_header by auto. reflexivity.
Qed.
Lemma map_header_short : forall m ty hs p size, size < 24 -> map_header m ty hs (p, size) = Throw EImage.
Proof.
  intros m ty hs p size H. unfold map_header, map_ptr. cbn [snd]. change ((1 * 24) mod two64) with 24.
  destruct (N.ltb_spec size 24); [reflexivity|lia].
Qed.
Lemma map_empty_ok : forall m e p size y, holds m p (bool_byte e ++ y) -> p mod 8 = 0 -> p + 8 * size < two64 -> 2 <= size ->
  map_empty m (p, size) = Ok (e, (p + 8, size - 1)).
Proof.
  intros m e p size y H A B C. unfold map_empty. cbn [fst]. rewrite (peek_here m 1 _ _ _ H) by reflexivity. cbn [bind].
  assert (E : to_bool (bool_byte e) = Ok e) by (destruct e; reflexivity). rewrite E. cbn [bind]. rewrite advance_ok by lia.
  rewrite align_ptr_ok by lia. cbn [bind]. f_equal. f_equal. f_equal. unfold padding. rewrite align_up_8.
  apply N.mod_divide in A; [|lia]. destruct A as [z ->]. replace (z * 8 + 1 + 7) with ((z + 1) * 8) by lia. rewrite N.div_mul by lia. lia.
Qed.
Lemma map_empty_short : forall m e p size y, holds m p (bool_byte e ++ y) -> p mod 8 = 0 -> 8 <= p -> p + 8 < two64 -> size <= 1 ->
  map_empty m (p, size) = Throw EImage.
Proof.
  intros m e p size y H A B C D. unfold map_empty. cbn [fst]. rewrite (peek_here m 1 _ _ _ H) by reflexivity. cbn [bind].
  assert (E : to_bool (bool_byte e) = Ok e) by (destruct e; reflexivity). rewrite E. cbn [bind].
  assert (M : (p + 1) mod 8 <> 0) by (rewrite N.add_mod, A by lia; discriminate).
  assert (S : size = 0 \/ size = 1) by lia. destruct S as [-> | ->].
  - rewrite advance_over by lia. rewrite align_ptr_over by (auto; lia). reflexivity.
  - rewrite advance_ok by lia. change (1 - 1) with 0. rewrite align_ptr_end by (auto; lia). reflexivity.
Qed.
