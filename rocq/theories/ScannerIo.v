(** Saving, loading and mapping relocatable scanners. *)
From Coq Require Import List Bool Arith NArith Lia.
From Verif Require Import Util Spec PartitionModel FsmModel DetermineModel MinimizeModel RunModel RunSpec ScannerModel ScannerSpec ScannerProofs
  ScannerBuild ScannerCompile ScannerCopy GlueModel ScannerFits IoModel IoBytes.
Import ListNotations.
Local Open Scope N_scope.

(** The same tables at another address. *)
Definition rebase (buf : N) (owned : bool) (s : scanner) : scanner :=
  mkScanner (s_states s) (s_nletters s) (s_regexps s)
    (buf + 2 * MaxChar + 8 * s_fsize s + 8 * s_states s + (s_initial s - s_base s)) (s_fsize s) buf
    (s_letters s) (s_final s) (s_index s) (s_rows s) owned false.

Lemma diff_shift : forall k b b' x y, k_reloc k = true -> b + x < two64 -> b' + x < two64 -> diff k (b + x) (b + y) = diff k (b' + x) (b' + y).
Proof.
  intros k b b' x y R A B. unfold diff. rewrite R. f_equal. f_equal. lia.
Qed.
Lemma shows_rebase : forall n s cls t buf owned, let k := mkKind true n in machine_ok t -> shows k s cls t -> placed k (rebase buf owned s) ->
  shows k (rebase buf owned s) cls t.
Proof.
  intros n s cls t buf owned k M S P.
  assert (E : forall i, index_to_state k (rebase buf owned s) i = s_base (rebase buf owned s) + i * row_bytes k (s_nletters s)) by reflexivity.
  assert (E0 : forall i, index_to_state k s i = s_base s + i * row_bytes k (s_nletters s)) by reflexivity.
  destruct (row_size_facts k (s_nletters s)) as (_ & _ & RP).
  pose proof (pl_space _ _ P) as Sp. pose proof (pl_space _ _ (sh_placed _ _ _ _ S)) as Sp0.
  change (s_states (rebase buf owned s)) with (s_states s) in Sp. change (s_nletters (rebase buf owned s)) with (s_nletters s) in Sp.
  split; auto.
  - apply S.
  - apply S.
  - rewrite E. cbn [rebase s_initial]. rewrite (sh_init _ _ _ _ S), E0. unfold s_base at 3. cbn [s_buf s_fsize s_states rebase]. lia.
  - apply S.
  - intros c Hc. apply (sh_letters _ _ _ _ S c Hc).
  - intros i r Hr. change (s_rows (rebase buf owned s)) with (s_rows s) in Hr. destruct (sh_row _ _ _ _ S i r Hr) as (J1 & J2 & J3 & J4 & J5 & J6).
    splits; auto. intros c Hc. rewrite (J3 c Hc). f_equal. rewrite !E, !E0. apply diff_shift; auto.
    + assert (Hi : (i < length (s_rows s))%nat) by (apply nth_error_Some; congruence). rewrite (sh_rows _ _ _ _ S) in Hi. rewrite (sh_states _ _ _ _ S) in Sp0. nia.
    + assert (Hi : (i < length (s_rows s))%nat) by (apply nth_error_Some; congruence). rewrite (sh_rows _ _ _ _ S) in Hi. rewrite (sh_states _ _ _ _ S) in Sp. nia.
  - apply (sh_acc _ _ _ _ S).
Qed.

(** ** The bytes *)
Section Image.
  Variables (n : nat) (s : scanner) (cls : N -> nat) (t : machine).
  Let k := mkKind true n.
  Hypothesis M : machine_ok t.
  Hypothesis S : shows k s cls t.
  Hypothesis F : fits s.
  Hypothesis Rg : s_regexps s < two32.
  Hypothesis Hn : (n <= 64)%nat.

  Lemma st_nl : s_nletters s <= 264. Proof. exact (shows_nl k k s cls t S M eq_refl (header_small k Hn) (header_small k Hn)). Qed.
  Lemma row_bytes_16 : 16 <= row_bytes k (s_nletters s).
  Proof.
    destruct (row_size_facts k (s_nletters s)) as (_ & A & B). apply N.mod_divide in A; [|lia]. destruct A as [z A]. rewrite A in *. destruct z; lia.
  Qed.
  Lemma st_states : s_states s < two32.
  Proof.
    pose proof (pl_reloc _ _ (sh_placed _ _ _ _ S) eq_refl) as X. pose proof row_bytes_16. unfold two31, two32 in *. nia.
  Qed.
  Lemma header_size_4 : header_size k * tsz k = 32 * N.of_nat n + 8.
  Proof. unfold header_size, tsz, k. cbn [k_reloc k_nmask]. replace ((4 * N.of_nat n + 1) * 8) with ((8 * N.of_nat n + 2) * 4) by lia. rewrite N.div_mul by lia. lia. Qed.
  Lemma masks_length : forall loops ms, masks_ok n loops ms -> length ms = (4 * n)%nat.
  Proof.
    intros loops ms H. destruct H as [Z|ms Z L G|ms Z L G Lo|b bs Lb By Nd Lo]; auto.
    - subst n. reflexivity.
    - assert (X : forall l : list N, length (flat_map (fun c => repeat (fill_size_t c) 4) l) = (4 * length l)%nat).
      { induction l as [|x l IH]; cbn [flat_map]; [reflexivity|]. rewrite app_length, IH, repeat_length. cbn [length]. lia. }
      rewrite X, app_length, repeat_length. cbn [length]. lia.
  Qed.
  Lemma row_ok : forall i r, nth_error (s_rows s) i = Some r -> length (r_masks r) = (4 * n)%nat /\ Forall (fun x => x < two64) (r_masks r) /\
    r_flags r < two64 /\ length (r_jumps r) = N.to_nat (s_nletters s) /\ Forall (fun x => x < two32) (r_jumps r).
  Proof.
    intros i r H. destruct (sh_row _ _ _ _ S i r H) as (J1 & J2 & J3 & J4 & J5 & J6).
    pose proof (ft_rows _ F) as G. rewrite Forall_forall in G. destruct (G r (nth_error_In _ _ H)) as [G1 G2].
    splits; auto.
    - eapply masks_length. exact J6.
    - apply Forall_forall. intros x Hx. apply In_nth_error in Hx as [j Hj].
      assert (Lj : (j < N.to_nat (s_nletters s))%nat) by (rewrite <- J1; apply nth_error_Some; congruence).
      destruct (J2 j Lj) as (c & Hc & <-). rewrite (J3 c Hc) in Hj. apply some_inj in Hj. subst x. unfold diff. cbn [k_reloc k]. apply N.mod_lt. discriminate.
  Qed.
  Lemma row_image_length : forall i r, nth_error (s_rows s) i = Some r -> length (row_image k (s_nletters s) r) = N.to_nat (row_bytes k (s_nletters s)).
  Proof.
    intros i r H. destruct (row_ok i r H) as (A & _ & _ & B & _). unfold row_image. rewrite !app_length, !array_length, le_length, zeros_length, A, B.
    change (N.to_nat (tsz k)) with 4%nat.
    destruct (row_size_facts k (s_nletters s)) as (X & _). assert (Y : s_nletters s * 4 + header_size k * tsz k <= row_bytes k (s_nletters s)).
    { unfold row_bytes. change (tsz k) with 4. rewrite <- N.mul_add_distr_r. apply N.mul_le_mono_r. exact X. }
    rewrite header_size_4 in Y. lia.
  Qed.
  Lemma row_at_image : forall i r, nth_error (s_rows s) i = Some r -> row_at k (s_nletters s) (row_image k (s_nletters s) r) = r.
  Proof.
    intros i r H. destruct (row_ok i r H) as (A & B & C & D & E). unfold row_at, row_image. rewrite <- !app_assoc.
    rewrite (words_array 8) by (try (rewrite A; cbn [k k_nmask]; lia); auto).
    rewrite field_past by (rewrite array_length, A; cbn [k k_nmask]; lia).
    replace (32 * k_nmask k - length (array 8 (r_masks r)))%nat with O by (rewrite array_length, A; cbn [k k_nmask]; lia).
    rewrite (field_here 8) by exact C.
    rewrite skipn_past by (rewrite array_length, A, header_size_4; lia).
    rewrite skipn_past by (rewrite le_length, array_length, A, header_size_4; lia).
    replace (N.to_nat (header_size k * tsz k) - length (array 8 (r_masks r)) - length (le 8 (r_flags r)))%nat with O by (rewrite le_length, array_length, A, header_size_4; lia).
    cbn [skipn]. change (N.to_nat (tsz k)) with 4%nat. rewrite (words_array 4) by (try (rewrite D, N2Nat.id; reflexivity); exact E).
    destruct r; reflexivity.
  Qed.
  Lemma rows_length : N.of_nat (length (flat_map (row_image k (s_nletters s)) (s_rows s))) = s_states s * row_bytes k (s_nletters s).
  Proof.
    rewrite (sh_states _ _ _ _ S), <- (sh_rows _ _ _ _ S). rewrite flat_map_concat_map.
    assert (X : forall l, (forall r, In r l -> length (row_image k (s_nletters s) r) = N.to_nat (row_bytes k (s_nletters s))) ->
      N.of_nat (length (concat (map (row_image k (s_nletters s)) l))) = N.of_nat (length l) * row_bytes k (s_nletters s)).
    { induction l as [|r l IH]; intros H; cbn [map concat length]; [lia|]. rewrite app_length, Nat2N.inj_add, IH, H by (intros; try apply H; cbn; auto). lia. }
    apply X. intros r H. apply In_nth_error in H as [i H]. eapply row_image_length. eauto.
  Qed.
  Lemma buf_size_eq : buf_size k s = 2 * MaxChar + 8 * s_fsize s + 8 * s_states s + s_states s * row_bytes k (s_nletters s) /\ buf_size k s mod 8 = 0.
  Proof.
    destruct (row_size_facts k (s_nletters s)) as (_ & Z & _). apply N.mod_divide in Z; [|lia]. destruct Z as [z Z].
    assert (E : 2 * MaxChar + 8 * s_fsize s + 8 * s_states s + s_states s * row_bytes k (s_nletters s) = (66 + s_fsize s + s_states s + 2 * z * s_states s) * 8) by (rewrite Z; unfold MaxChar; lia).
    unfold buf_size. replace (row_size k (s_nletters s) * s_states s * tsz k) with (s_states s * row_bytes k (s_nletters s)) by (unfold row_bytes; lia).
    rewrite E, align_up_8. rewrite N.add_comm, N.div_add by lia. change (7 / 8) with 0. rewrite N.add_0_l. split; [reflexivity|apply N.mod_mul; lia].
  Qed.
  Lemma buf_size_lt : buf_size k s < 4 * two64 / 256 .
  Proof.
    destruct buf_size_eq as [-> _]. pose proof (pl_reloc _ _ (sh_placed _ _ _ _ S) eq_refl) as X. pose proof st_states. pose proof (ft_fsize _ F).
    change (4 * two64 / 256) with 288230376151711744. unfold two31, two32, MaxChar in *. lia.
  Qed.
  Lemma buffer_length : N.of_nat (length (scanner_buffer k s)) = buf_size k s.
  Proof.
    destruct buf_size_eq as [-> _]. unfold scanner_buffer. rewrite !app_length, !array_length, !Nat2N.inj_add, rows_length.
    rewrite (sh_lettab _ _ _ _ S), (ft_flen _ F), (ft_ilen _ F). unfold MaxChar. lia.
  Qed.
  Lemma locals_length : forall i, length (scanner_locals k s i) = 48%nat.
  Proof. intros. unfold scanner_locals. rewrite !app_length, !le_length, !zeros_length. reflexivity. Qed.
  Definition rel : N := (s_initial s + two64 - s_base s) mod two64.
  Lemma rel_eq : rel = s_initial s - s_base s /\ rel < s_states s * row_bytes k (s_nletters s) /\ rel < two64.
  Proof.
    unfold rel. rewrite (sh_init _ _ _ _ S). unfold index_to_state. pose proof (mo_start _ M). pose proof row_bytes_16.
    pose proof (pl_space _ _ (sh_placed _ _ _ _ S)) as P. rewrite (sh_states _ _ _ _ S) in *.
    assert (X : N.of_nat (m_start t) * row_bytes k (s_nletters s) < N.of_nat (m_states t) * row_bytes k (s_nletters s)) by (apply N.mul_lt_mono_pos_r; lia).
    replace (s_base s + N.of_nat (m_start t) * row_bytes k (s_nletters s) + two64 - s_base s) with (N.of_nat (m_start t) * row_bytes k (s_nletters s) + 1 * two64) by lia.
    rewrite N.mod_add by discriminate. rewrite N.mod_small by lia. splits; lia.
  Qed.
  Lemma locals_fields : let l := scanner_locals k s rel in
    field 0 4 l = s_states s /\ field 4 4 l = s_nletters s /\ field 8 4 l = s_regexps s /\ field 16 8 l = rel /\ field 24 4 l = s_fsize s /\
    field 32 8 l = reloc_sig k /\ field 40 8 l = short_sig n.
  Proof.
    intros l. unfold l, scanner_locals. pose proof st_states. pose proof st_nl. pose proof (ft_fsize _ F). destruct rel_eq as (_ & _ & RL).
    change (256 ^ N.of_nat 4) with two32 in *.
    splits; try rewrite <- (app_nil_r (le 8 (short_sig _))); fields; change (256 ^ N.of_nat 4) with two32; change (256 ^ N.of_nat 8) with two64; auto.
    - unfold two32. lia.
    - cbn [k k_nmask]. unfold short_sig. destruct n; [reflexivity|]. unfold two64. lia.
  Qed.
  Lemma at_buffer : forall buf owned, placed k (rebase buf owned s) -> scanner_at k (scanner_locals k s rel) buf owned (scanner_buffer k s) = rebase buf owned s.
  Proof.
    intros buf owned P. destruct locals_fields as (A & B & C & D & E & _). unfold scanner_at, scanner_head.
    cbn [s_states s_nletters s_regexps s_initial s_fsize]. rewrite A, B, C, D, E. unfold rebase. unfold s_base at 1. cbn [s_buf s_fsize s_states].
    destruct rel_eq as (R1 & R2 & _). pose proof (pl_space _ _ P) as Sp.
    change (s_states (rebase buf owned s)) with (s_states s) in Sp. change (s_nletters (rebase buf owned s)) with (s_nletters s) in Sp.
    unfold s_base in Sp at 1. cbn [rebase s_buf s_fsize s_states] in Sp.
    rewrite N.mod_small by lia. unfold scanner_buffer.
    rewrite (words_array 2) by (try exact (ft_letters _ F); rewrite (sh_lettab _ _ _ _ S); reflexivity).
    rewrite (skipn_here _ (N.to_nat (2 * MaxChar))) by (rewrite array_length, (sh_lettab _ _ _ _ S); reflexivity).
    rewrite (words_array 8) by (try exact (ft_final _ F); rewrite (ft_flen _ F); lia).
    rewrite (skipn_here _ (N.to_nat (8 * s_fsize s))) by (rewrite array_length, (ft_flen _ F); lia).
    rewrite (words_array 8) by (try exact (ft_index _ F); rewrite (ft_ilen _ F); lia).
    rewrite (skipn_here _ (N.to_nat (8 * s_states s))) by (rewrite array_length, (ft_ilen _ F); lia).
    assert (CH : chunks (N.to_nat (row_bytes k (s_nletters s))) (N.to_nat (s_states s)) (flat_map (row_image k (s_nletters s)) (s_rows s)) =
      map (row_image k (s_nletters s)) (s_rows s)).
    { rewrite flat_map_concat_map, <- (app_nil_r (concat _)). rewrite <- (ft_nrows _ F), <- (map_length (row_image k (s_nletters s)) (s_rows s)) at 1.
      apply chunks_flat. apply Forall_map, Forall_forall. intros r H. apply In_nth_error in H as [i H]. eapply row_image_length. eauto. }
    rewrite CH, map_map.
    assert (RW : map (fun x => row_at k (s_nletters s) (row_image k (s_nletters s) x)) (s_rows s) = s_rows s).
    { rewrite <- (map_id (s_rows s)) at 2. apply map_ext_in. intros r H. apply In_nth_error in H as [i H]. eapply row_at_image. eauto. }
    rewrite RW. f_equal. lia.
  Qed.

  Definition front (e : bool) : list N := header_bytes ty_scanner 48 ++ align_save 24 ++ scanner_locals k s rel ++ align_save 48 ++ bool_byte e ++ align_save 1.
  Lemma front_length : forall e, length (front e) = 80%nat.
  Proof. intros e. unfold front. rewrite !app_length, header_length, locals_length, !align_save_length. destruct e; reflexivity. Qed.
  Lemma save_ok : save_reloc n s = if s_null s then Ok (front true) else if s_owned s then Ok (front false ++ scanner_buffer k s) else UB.
  Proof.
    unfold save_reloc. fold k. fold rel. unfold front. destruct (s_null s); auto. destruct (s_owned s); auto.
    rewrite (align_save_0 (buf_size k s)) by apply buf_size_eq. rewrite app_nil_r. reflexivity.
  Qed.
  Lemma load_front : forall e st buf null r, st_left st = front e ++ r -> load_reloc n buf null st =
    (let st3 := mkStream (st_throws st) r in
     if e then Ok (null, st3)
     else let* (bs, st4) := aligned_load (buf_size k s) None st3 in
          let* _ := check_align buf in
          Ok (scanner_at k (scanner_locals k s rel) buf true bs, st4)).
  Proof.
    intros e [th l] buf null r E. cbn [st_left st_throws] in *. subst l. unfold front, load_reloc. rewrite <- !app_assoc.
    rewrite load_header_ok by (repeat split; reflexivity). cbn [bind].
    rewrite aligned_load_ok by (fold k; rewrite locals_length; reflexivity). cbn [bind].
    destruct locals_fields as (A & B & C & _ & D & _ & X). fold k. rewrite X. rewrite N.eqb_refl. cbn [negb].
    rewrite (aligned_load_ok 1) by reflexivity. cbn [bind]. assert (TB : to_bool (bool_byte e) = Ok e) by (destruct e; reflexivity). rewrite TB. cbn [bind].
    destruct e; auto.
    assert (BS : buf_size k (scanner_head (scanner_locals k s rel) buf true) = buf_size k s).
    { unfold buf_size, scanner_head. cbn [s_fsize s_states s_nletters]. rewrite A, B, D. reflexivity. }
    rewrite BS. destruct (N.leb_spec two64 (buf_size k s)); [|reflexivity]. pose proof buf_size_lt. change (4 * two64 / 256) with 288230376151711744 in *. unfold two64 in *. lia.
  Qed.
  Lemma load_image : forall th r buf null, buf mod 8 = 0 -> placed k (rebase buf true s) ->
    load_reloc n buf null (mkStream th ((front false ++ scanner_buffer k s) ++ r)) = Ok (rebase buf true s, mkStream th r).
  Proof.
    intros th r buf null A P. rewrite <- app_assoc. rewrite (load_front false _ _ _ (scanner_buffer k s ++ r)) by reflexivity. cbn zeta beta iota.
    pose proof (aligned_load_ok (buf_size k s) None th (scanner_buffer k s) r buffer_length) as L. rewrite align_save_0 in L by apply buf_size_eq. cbn [app] in L.
    cbn [st_throws]. rewrite L. cbn [bind]. unfold check_align. rewrite A. cbn [N.eqb bind]. rewrite at_buffer by auto. reflexivity.
  Qed.
  Lemma load_null : forall th r buf null, load_reloc n buf null (mkStream th (front true ++ r)) = Ok (null, mkStream th r).
  Proof. intros. rewrite (load_front true _ _ _ r) by reflexivity. reflexivity. Qed.

  Lemma placed_at : forall buf owned bs, placed k (scanner_at k (scanner_locals k s rel) buf owned bs) -> placed k (rebase buf owned s).
  Proof.
    intros buf owned bs [A B C]. destruct locals_fields as (X1 & X2 & _ & _ & X5 & _).
    unfold scanner_at, scanner_head in *. unfold s_base in B. cbn [s_buf s_states s_nletters s_fsize] in *. rewrite X1, X2, X5 in *.
    split; auto.
  Qed.
  Lemma load_inv : forall img th r buf null s' st', save_reloc n s = Ok img -> load_reloc n buf null (mkStream th (img ++ r)) = Ok (s', st') ->
    (s_null s = true -> s_owned s = false) -> placed k s' ->
    st' = mkStream th r /\ ((s_null s = true /\ s' = null) \/ (s_null s = false /\ s' = rebase buf true s)).
  Proof.
    intros img th r buf null s' st' E L NO P. rewrite save_ok in E. destruct (s_null s).
    - apply ok_inj in E. subst img. rewrite load_null in L. inversion L; subst. auto.
    - destruct (s_owned s); [|discriminate]. apply ok_inj in E. subst img. rewrite <- app_assoc in L.
      rewrite (load_front false _ _ _ (scanner_buffer k s ++ r)) in L by reflexivity. cbn zeta beta iota in L.
      pose proof (aligned_load_ok (buf_size k s) None th (scanner_buffer k s) r buffer_length) as AL. rewrite align_save_0 in AL by apply buf_size_eq. cbn [app] in AL.
      cbn [st_throws] in L. rewrite AL in L. cbn [bind] in L. destruct (check_align buf); cbn [bind] in L; try discriminate. inversion L; subst s' st'.
      split; auto. right. split; auto. apply at_buffer. eapply placed_at. exact P.
  Qed.

  (** ** Mapping *)
  Lemma mmap_front : forall m ptr size e y null, holds m ptr (front e ++ y) -> ptr mod 8 = 0 -> ptr + 8 * size < two64 -> ptr + 80 < two64 -> 8 <= ptr ->
    mmap_scanner n null m ptr size =
    if size <? 74 then Throw EImage
    else if e then Ok (null, ptr + 80)
    else if size - 73 <? buf_size k s then Throw EImage
    else let* bs := peek m (N.to_nat (buf_size k s)) (ptr + 80) in
         let* c4 := align_ptr (advance (buf_size k s) (ptr + 80, size - 73)) in
         Ok (scanner_at k (scanner_locals k s rel) (ptr + 80) false bs, fst c4).
  Proof.
    intros m ptr size e y null H A B B1 B2. unfold front in H. rewrite <- !app_assoc in H.
    assert (H1 := H). rewrite (align_save_0 24), (align_save_0 48) in H by reflexivity. cbn [app] in H.
    destruct (holds_split _ _ _ _ H) as [_ H2]. rewrite header_length in H2. change (N.of_nat 24) with 24 in H2.
    destruct (holds_split _ _ _ _ H2) as [_ H3]. rewrite locals_length in H3. change (N.of_nat 48) with 48 in H3.
    assert (A24 : (ptr + 24) mod 8 = 0) by (rewrite N.add_mod, A by lia; reflexivity).
    assert (A72 : (ptr + 24 + 48) mod 8 = 0) by (rewrite N.add_mod, A24 by lia; reflexivity).
    unfold mmap_scanner, check_align. rewrite A. cbn [N.eqb bind].
    destruct (N.ltb_spec size 24) as [S24|S24].
    { rewrite map_header_short by auto. destruct (N.ltb_spec size 74); [reflexivity|lia]. }
    rewrite (map_header_ok m ty_scanner 48 ptr size _ ltac:(split; reflexivity) ltac:(reflexivity) H1) by (auto; lia). cbn [bind snd fst].
    destruct (N.ltb_spec (size - 24) 48) as [S72|S72].
    { destruct (N.ltb_spec size 74); [reflexivity|lia]. }
    rewrite (peek_here m 48 _ _ _ H2) by apply locals_length. cbn [bind].
    destruct locals_fields as (X1 & X2 & X3 & _ & X5 & X6 & X7). fold k. rewrite X6, N.eqb_refl. cbn [negb].
    rewrite advance_ok by lia. rewrite align_ptr_0 by auto. cbn [bind]. rewrite X7, N.eqb_refl. cbn [negb].
    destruct (N.ltb_spec size 74) as [S74|S74].
    { rewrite (map_empty_short _ _ _ _ _ H3) by (auto; lia). reflexivity. }
    rewrite (map_empty_ok _ _ _ _ _ H3) by (auto; lia). cbn [bind]. replace (ptr + 24 + 48 + 8) with (ptr + 80) by lia. replace (size - 24 - 48 - 1) with (size - 73) by lia.
    assert (A80 : (ptr + 80) mod 8 = 0) by (rewrite N.add_mod, A by lia; reflexivity).
    destruct e.
    { rewrite align_ptr_0 by auto. reflexivity. }
    cbn [fst snd].
    assert (BS : buf_size k (scanner_head (scanner_locals k s rel) (ptr + 80) false) = buf_size k s).
    { unfold buf_size, scanner_head. cbn [s_fsize s_states s_nletters]. rewrite X1, X2, X5. reflexivity. }
    rewrite BS. destruct (N.leb_spec two64 (buf_size k s)).
    { pose proof buf_size_lt. change (4 * two64 / 256) with 288230376151711744 in *. unfold two64 in *. lia. }
    destruct (size - 73 <? buf_size k s); auto. rewrite A80. reflexivity.
  Qed.
  Lemma mmap_image : forall m ptr size y null, holds m ptr ((front false ++ scanner_buffer k s) ++ y) -> ptr mod 8 = 0 -> 8 <= ptr -> ptr + 8 * size < two64 ->
    80 + buf_size k s <= size + 7 -> placed k (rebase (ptr + 80) false s) ->
    mmap_scanner n null m ptr size = Ok (rebase (ptr + 80) false s, ptr + N.of_nat (length (front false ++ scanner_buffer k s))).
  Proof.
    intros m ptr size y null H A A8 B C P. rewrite <- app_assoc in H.
    assert (T : 528 <= buf_size k s) by (destruct buf_size_eq as [-> _]; unfold MaxChar; lia).
    rewrite (mmap_front m ptr size false _ null H) by (auto; lia).
    destruct (N.ltb_spec size 74); [lia|]. destruct (N.ltb_spec (size - 73) (buf_size k s)); [lia|].
    destruct (holds_split _ _ _ _ H) as [_ H2]. rewrite front_length in H2. change (N.of_nat 80) with 80 in H2.
    rewrite (peek_here m _ _ _ _ H2) by (rewrite <- buffer_length; rewrite Nat2N.id; reflexivity). cbn [bind].
    rewrite advance_ok by lia.
    rewrite align_ptr_0. 2:{ rewrite N.add_mod, (proj2 buf_size_eq), (N.add_mod ptr 80 8), A by lia. reflexivity. }
    cbn [bind fst]. rewrite at_buffer by auto. rewrite app_length, front_length, Nat2N.inj_add, buffer_length. do 2 f_equal. lia.
  Qed.
  Lemma mmap_null : forall m ptr size y null, holds m ptr (front true ++ y) -> ptr mod 8 = 0 -> 8 <= ptr -> ptr + 8 * size < two64 ->
    74 <= size -> mmap_scanner n null m ptr size = Ok (null, ptr + N.of_nat (length (front true))).
  Proof.
    intros m ptr size y null H A A8 B C. rewrite (mmap_front m ptr size true _ null H) by (auto; lia). rewrite front_length.
    destruct (N.ltb_spec size 74); [lia|]. reflexivity.
  Qed.
  Lemma mmap_inv : forall img m ptr size null s' p', save_reloc n s = Ok img -> holds m ptr img -> 8 <= ptr -> ptr + 80 < two64 -> ptr + 8 * size < two64 ->
    mmap_scanner n null m ptr size = Ok (s', p') -> placed k s' ->
    p' = ptr + N.of_nat (length img) /\ ((s_null s = true /\ s' = null) \/ (s_null s = false /\ s' = rebase (ptr + 80) false s)).
  Proof.
    intros img m ptr size null s' p' E H A8 B1 B L P. rewrite save_ok in E.
    assert (A : ptr mod 8 = 0). { unfold mmap_scanner, check_align in L. destruct (N.eqb_spec (ptr mod 8) 0); auto. discriminate. }
    destruct (s_null s).
    - apply ok_inj in E. subst img. rewrite <- (app_nil_r (front true)) in H. rewrite (mmap_front m ptr size true _ null H) in L by auto. rewrite front_length.
      destruct (N.ltb_spec size 74); [discriminate|]. inversion L; subst. auto.
    - destruct (s_owned s); [|discriminate]. apply ok_inj in E. subst img. rewrite (mmap_front m ptr size false _ null H) in L by auto.
      destruct (N.ltb_spec size 74); [discriminate|]. destruct (N.ltb_spec (size - 73) (buf_size k s)); [discriminate|].
      destruct (holds_split _ _ _ _ H) as [_ H2]. rewrite front_length in H2. change (N.of_nat 80) with 80 in H2. rewrite <- (app_nil_r (scanner_buffer k s)) in H2.
      rewrite (peek_here m _ _ _ _ H2) in L by (rewrite <- buffer_length; rewrite Nat2N.id; reflexivity). cbn [bind] in L.
      rewrite advance_ok in L by lia.
      rewrite align_ptr_0 in L. 2:{ rewrite N.add_mod, (proj2 buf_size_eq), (N.add_mod ptr 80 8), A by lia. reflexivity. }
      cbn [bind fst] in L. inversion L; subst s' p'. split; [rewrite app_length, front_length, Nat2N.inj_add, buffer_length; lia|]. right. split; auto.
      apply at_buffer. eapply placed_at. exact P.
  Qed.
  Lemma mmap_short : forall m ptr size e y null, holds m ptr (front e ++ y) -> ptr mod 8 = 0 -> 8 <= ptr -> ptr + 80 < two64 -> ptr + 8 * size < two64 ->
    size + 7 < 80 + (if e then 0 else buf_size k s) -> mmap_scanner n null m ptr size = Throw EImage.
  Proof.
    intros m ptr size e y null H A A8 B C D. rewrite (mmap_front m ptr size e _ null H) by auto.
    destruct (N.ltb_spec size 74); auto. destruct e; [lia|]. destruct (N.ltb_spec (size - 73) (buf_size k s)); [auto|lia].
  Qed.
End Image.
