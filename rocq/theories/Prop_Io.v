(** Properties C32-C35: saving, loading and mapping scanners.  [obtained], [obtained_simple],
    [obtained_slow] (ScannerApi.v, SimpleApi.v): what a user can obtain, with the languages it
    stands for; all the theorems about such scanners apply to the loaded and mapped ones.
    [alike] (IoSpec.v): after every text the same answers.  A stream is the bytes left and
    whether reading past its end throws. *)
From Coq Require Import List Bool Arith NArith Lia.
From Verif Require Import Util Spec PartitionModel FsmModel DetermineModel MinimizeModel FsmSem Api
  RunModel RunSpec ScannerModel ScannerSpec GlueModel ScannerApi ScannerCompile ScannerClosure SimpleModel SimpleApi IoModel IoSpec GlueWitness ScannerProofs ScannerUser SimpleUser IoBytes IoUser IoCheck Prop_Scanner Prop_Simple.
Import ListNotations.
Local Open Scope N_scope.

(** ** C32 *)
(** Whatever follows the image in the stream is left there; the image is whole words. *)
Theorem C32_scanner : forall n s Ls, obtained (mkKind true n) s Ls -> s_owned s = true \/ s_null s = true ->
  exists img, save_scanner (mkKind true n) 0 s s = Ok img /\ N.of_nat (length img) mod 8 = 0 /\
  forall buf b0 null throws rest, default_scanner (mkKind true n) b0 = Ok null -> placed (mkKind true n) null -> user_address buf ->
    exists s', load_scanner (mkKind true n) 0 buf null null (mkStream throws (img ++ rest)) = Ok (s', mkStream throws rest) /\
      obtained (mkKind true n) s' Ls /\ s_null s' = s_null s /\
      (s_null s = false -> s_owned s' = true /\ alike (mkKind true n) (mkKind true n) s s').
Proof.
  intros n s Ls O D. destruct (scanner_save_ok n s Ls O D) as (img & E & A). exists img. split; [exact E|]. split; [exact A|].
  intros buf b0 null th rest Dn P U. exact (scanner_load_ok n s Ls img buf b0 null th rest O E Dn P U).
Qed.
Print Assumptions C32_scanner.

(** Nonrelocatable scanners are converted, saved, loaded and converted back. *)
Theorem C32_nonrelocatable : forall n s Ls b b0 rnull, obtained (mkKind false n) s Ls -> default_scanner (mkKind true n) b0 = Ok rnull ->
  placed (mkKind true n) (convert_scanner (mkKind false n) (mkKind true n) b rnull s) ->
  exists img, save_scanner (mkKind false n) b rnull s = Ok img /\ N.of_nat (length img) mod 8 = 0 /\
  forall b1 b2 b3 buf rnull' null throws rest, default_scanner (mkKind true n) b1 = Ok rnull' -> placed (mkKind true n) rnull' ->
    default_scanner (mkKind false n) b2 = Ok null -> placed (mkKind false n) null -> user_address b3 -> user_address buf ->
    exists s', load_scanner (mkKind false n) b3 buf rnull' null (mkStream throws (img ++ rest)) = Ok (s', mkStream throws rest) /\
      obtained (mkKind false n) s' Ls /\ s_null s' = s_null s /\ (s_null s = false -> alike (mkKind false n) (mkKind false n) s s').
Proof. exact nonreloc_save_load. Qed.
Print Assumptions C32_nonrelocatable.

Theorem C32_simple : forall s Ls, obtained_simple s Ls -> p_owned s = true \/ p_null s = true ->
  exists img, save_simple s = Ok img /\ N.of_nat (length img) mod 8 = 0 /\
  forall buf b0 null throws rest, simple_default b0 = Ok null -> simple_placed null -> buf + p_states s * 265 * 8 <= 18446744073709551616 ->
    exists s', load_simple buf null (mkStream throws (img ++ rest)) = Ok (s', mkStream throws rest) /\
      obtained_simple s' Ls /\ p_null s' = p_null s /\ (p_null s = false -> alike_simple s s').
Proof.
  intros s Ls O D. destruct (simple_save_user s Ls O D) as (img & E & A). exists img. split; [exact E|]. split; [exact A|].
  intros buf b0 null th rest Dn P U. exact (simple_load_user s Ls img buf b0 null th rest O E Dn P U).
Qed.
Print Assumptions C32_simple.

(** A loaded SlowScanner is the saved one; [old] is the size of the table of the object
    loaded into. *)
Theorem C32_slow : forall s Ls, obtained_slow s Ls -> (exists v, w_jumps s = InVec v) \/ w_null s = true ->
  exists img, save_slow s = Ok img /\ N.of_nat (length img) mod 8 = 0 /\
  forall null old throws rest, N.of_nat (length img) < 18446744073709551616 -> slow_default = Ok null ->
    exists s', load_slow old null (mkStream throws (img ++ rest)) = Ok (s', mkStream throws rest) /\
      obtained_slow s' Ls /\ w_null s' = w_null s /\ (w_null s = false -> s' = s).
Proof.
  intros s Ls O D. destruct (slow_save_user s Ls O D) as (img & E & A). exists img. split; [exact E|]. split; [exact A|].
  intros null old th rest Z Dn. exact (slow_load_user s Ls img null old th rest O E Z Dn).
Qed.
Print Assumptions C32_slow.

Definition exo_null : scanner := Eval vm_compute in match default_scanner exs_kind 8192 with Ok s => s | _ => exs_s end.
Definition exo_img : list N := Eval vm_compute in match save_reloc 2 exs_s with Ok l => l | _ => [] end.
Lemma exo_null_ok : default_scanner exs_kind 8192 = Ok exo_null /\ placed exs_kind exo_null.
Proof. split; [vm_compute; reflexivity|]. apply placed_b_ok. vm_compute. reflexivity. Qed.
Example C32_example : obtained exs_kind exs_s [accepts exs_f] /\ s_owned exs_s = true /\ s_null exs_s = false /\
  save_reloc 2 exs_s = Ok exo_img /\ length exo_img = 808%nat /\ default_scanner exs_kind 8192 = Ok exo_null /\ placed exs_kind exo_null /\ user_address 65536.
Proof.
  split; [apply exs_obtained|]. split; [reflexivity|]. split; [reflexivity|]. split; [vm_compute; reflexivity|]. split; [reflexivity|].
  split; [apply exo_null_ok|]. split; [apply exo_null_ok|]. split; [reflexivity|discriminate].
Qed.
Definition exo_plain : scanner := Eval vm_compute in match compile (mkKind false 2) 4096 exs_f with Ok s => s | _ => exs_s end.
Example C32_nonrelocatable_example : obtained (mkKind false 2) exo_plain [accepts exs_f] /\
  placed exs_kind (convert_scanner (mkKind false 2) exs_kind 65536 exo_null exo_plain) /\
  (exists null, default_scanner (mkKind false 2) 8192 = Ok null /\ placed (mkKind false 2) null).
Proof.
  split.
  { apply (ob_compile (mkKind false 2) 4096 exs_f); [cbn; lia|apply exs_built|vm_compute; reflexivity|]. apply placed_b_ok. vm_compute. reflexivity. }
  split; [apply placed_b_ok; vm_compute; reflexivity|]. eexists. split; [vm_compute; reflexivity|]. apply placed_b_ok. vm_compute. reflexivity.
Qed.
Definition exo_snull : simple := Eval vm_compute in match simple_default 8192 with Ok s => s | _ => exi_s end.
Definition exo_simg : list N := Eval vm_compute in match save_simple exi_s with Ok l => l | _ => [] end.
Definition exo_limg : list N := Eval vm_compute in match save_slow exi_l with Ok l => l | _ => [] end.
Lemma exo_slow_obtained : obtained_slow exi_l [accepts exi_f].
Proof. apply C22_example. Qed.
Example C32_others_example : obtained_simple exi_s [accepts exi_f] /\ p_owned exi_s = true /\ p_null exi_s = false /\ save_simple exi_s = Ok exo_simg /\
  simple_default 8192 = Ok exo_snull /\ simple_placed exo_snull /\ p_states exi_s = 4 /\
  obtained_slow exi_l [accepts exi_f] /\ (exists v, w_jumps exi_l = InVec v) /\ w_null exi_l = false /\ save_slow exi_l = Ok exo_limg /\ length exo_limg = 2408%nat /\
  slow_default = Ok exi_d.
Proof.
  split; [apply exi_obtained|]. do 2 (split; [reflexivity|]). split; [vm_compute; reflexivity|]. split; [vm_compute; reflexivity|].
  split; [vm_compute; discriminate|]. split; [reflexivity|]. split; [apply exo_slow_obtained|]. split; [eexists; reflexivity|]. split; [reflexivity|].
  split; [vm_compute; reflexivity|]. split; [reflexivity|vm_compute; reflexivity].
Qed.

(** A mapped scanner owns no buffer and cannot be saved: SaveScanner writes from the null
    m_buffer (multi.h:570), the others fail an assertion (scanner_io.cpp:38, 75). *)
Theorem C32_mapped_refuted :
  (exists s Ls, obtained exs_kind s Ls /\ s_null s = false /\ save_scanner exs_kind 0 s s = UB) /\
  (exists s Ls, obtained_simple s Ls /\ p_null s = false /\ save_simple s = UB) /\
  (exists s Ls, obtained_slow s Ls /\ w_null s = false /\ save_slow s = UB).
Proof.
  split; [|split].
  - destruct (scanner_mmap_ok 2 exs_s _ exo_img 8192 exo_null (only 4096 exo_img) 4096 808 exs_obtained) as (s' & E & O & Nu & _).
    + vm_compute. reflexivity.
    + apply exo_null_ok.
    + apply exo_null_ok.
    + apply only_holds, bytes_check. vm_compute. reflexivity.
    + reflexivity.
    + vm_compute. repeat split; discriminate.
    + vm_compute. discriminate.
    + exists s', [accepts exs_f]. split; [exact O|]. split; [rewrite Nu; reflexivity|].
      unfold save_scanner. cbn [exs_kind k_reloc k_nmask]. unfold save_reloc. rewrite Nu. change (s_null exs_s) with false. cbv iota.
      replace (s_owned s') with false; [reflexivity|]. revert E. vm_compute. intros E. inversion E. reflexivity.
  - destruct (simple_mmap_user exo_snull exi_s _ exo_simg (only 4096 exo_simg) 4096 8528 exi_obtained) as (s' & E & O & Nu & _).
    + vm_compute. reflexivity.
    + reflexivity.
    + apply only_holds, bytes_check. vm_compute. reflexivity.
    + reflexivity.
    + vm_compute. repeat split; discriminate.
    + vm_compute. discriminate.
    + exists s', [accepts exi_f]. split; [exact O|]. split; [exact Nu|]. unfold save_simple. rewrite Nu. cbv iota.
      replace (p_owned s') with false; [reflexivity|]. revert E. vm_compute. intros E. inversion E. reflexivity.
  - destruct (slow_mmap_user exi_d exi_l _ exo_limg (only 4096 exo_limg) 4096 2408 exo_slow_obtained) as (s' & E & O & Nu & _).
    + vm_compute. reflexivity.
    + reflexivity.
    + reflexivity.
    + apply only_holds, bytes_check. vm_compute. reflexivity.
    + reflexivity.
    + vm_compute. repeat split; discriminate.
    + vm_compute. discriminate.
    + exists s', [accepts exi_f]. split; [exact O|]. split; [exact Nu|]. unfold save_slow. rewrite Nu. cbv iota.
      assert (X : exists p j, w_jumps s' = Mapped p j) by (revert E; vm_compute; intros E; inversion E; eexists; eexists; reflexivity).
      destruct X as (p & j & ->). reflexivity.
Qed.
Print Assumptions C32_mapped_refuted.

(** ** C33 *)
(** What is loaded begins with the right header ([begins_well], IoSpec.v): scanner types 1, 2, 3,
    Locals of 48, 16, 24 bytes; a Scanner also has the signature of its kind of shortcuts. *)
Theorem C33_accepts_only : forall throws l, Forall byte l ->
  (forall k b buf rnull null s st, load_scanner k b buf rnull null (mkStream throws l) = Ok (s, st) ->
     begins_well 1 48 l /\ u64_at 64 l = (if Nat.eqb (k_nmask k) 0 then 4096 else 8192 + N.of_nat (k_nmask k))) /\
  (forall buf null s st, load_simple buf null (mkStream throws l) = Ok (s, st) -> begins_well 2 16 l) /\
  (forall old null s st, load_slow old null (mkStream throws l) = Ok (s, st) -> begins_well 3 24 l).
Proof.
  intros th l B. split; [|split]; intros.
  - split.
    + apply (headed_ok _ _ _ _ _ _ _ (scanner_headed k b buf rnull null) B) in H; auto; lia.
    + rewrite (scanner_signed _ _ _ _ _ _ _ _ B H). destruct (k_nmask k); reflexivity.
  - apply (headed_ok _ _ _ _ _ _ _ (simple_headed buf null) B) in H; auto; lia.
  - apply (headed_ok _ _ _ _ _ _ _ (slow_headed old null) B) in H; auto; lia.
Qed.
Print Assumptions C33_accepts_only.

(** Anything else is rejected by throwing: with the error of the image when the 24 bytes are
    there, and in any case when the stream throws at its end. *)
Theorem C33_rejects : forall throws l, Forall byte l ->
  (~ begins_well 1 48 l -> forall k b buf rnull null,
     ((24 <= length l)%nat -> load_scanner k b buf rnull null (mkStream throws l) = Throw EImage) /\
     exists e, load_scanner k b buf rnull null (mkStream true l) = Throw e) /\
  (~ begins_well 2 16 l -> forall buf null,
     ((24 <= length l)%nat -> load_simple buf null (mkStream throws l) = Throw EImage) /\
     exists e, load_simple buf null (mkStream true l) = Throw e) /\
  (~ begins_well 3 24 l -> forall old null,
     ((24 <= length l)%nat -> load_slow old null (mkStream throws l) = Throw EImage) /\
     exists e, load_slow old null (mkStream true l) = Throw e).
Proof.
  intros th l B. split; [|split]; intros N *; (split; [intros L|]).
  - apply (headed_rejects _ 1 48); auto using scanner_headed; lia.
  - apply (headed_strict _ 1 48 _ l); auto using scanner_headed; lia.
  - apply (headed_rejects _ 2 16); auto using simple_headed; lia.
  - apply (headed_strict _ 2 16 _ l); auto using simple_headed; lia.
  - apply (headed_rejects _ 3 24); auto using slow_headed; lia.
  - apply (headed_strict _ 3 24 _ l); auto using slow_headed; lia.
Qed.
Print Assumptions C33_rejects.

(** A stream that throws at its end: of what a load consumes, every proper prefix throws. *)
Theorem C33_ends_early : forall l,
  (forall k b buf rnull null s st, load_scanner k b buf rnull null (mkStream true l) = Ok (s, st) -> exists u, l = u ++ st_left st /\
     forall v w, u = v ++ w -> w <> [] -> load_scanner k b buf rnull null (mkStream true v) = Throw EStream) /\
  (forall buf null s st, load_simple buf null (mkStream true l) = Ok (s, st) -> exists u, l = u ++ st_left st /\
     forall v w, u = v ++ w -> w <> [] -> load_simple buf null (mkStream true v) = Throw EStream) /\
  (forall old null s st, load_slow old null (mkStream true l) = Ok (s, st) -> exists u, l = u ++ st_left st /\
     forall v w, u = v ++ w -> w <> [] -> load_slow old null (mkStream true v) = Throw EStream).
Proof.
  intros l. split; [|split]; intros.
  - exact (reader_early _ _ l s st (reader_scanner k b buf rnull null) H).
  - exact (reader_early _ _ l s st (reader_simple buf null) H).
  - exact (reader_early _ _ l s st (reader_slow old null) H).
Qed.
Print Assumptions C33_ends_early.

Example C33_example : Forall byte exo_img /\ begins_well 1 48 exo_img /\ u64_at 64 exo_img = 8194 /\
  (exists s, load_scanner exs_kind 0 65536 exo_null exo_null (mkStream true (exo_img ++ [1; 2; 3])) = Ok (s, mkStream true [1; 2; 3])) /\
  (24 <= length exo_simg)%nat /\ ~ begins_well 1 48 exo_simg /\
  load_scanner exs_kind 0 65536 exo_null exo_null (mkStream false exo_simg) = Throw EImage /\
  load_scanner exs_kind 0 65536 exo_null exo_null (mkStream true (firstn 807 exo_img)) = Throw EStream.
Proof.
  split; [apply bytes_check; vm_compute; reflexivity|]. split; [split; try (vm_compute; reflexivity); [vm_compute; lia|right; vm_compute; reflexivity]|].
  split; [vm_compute; reflexivity|]. split; [eexists; vm_compute; reflexivity|]. split; [vm_compute; lia|].
  split; [intros [? ? ? ? ? X ?]; revert X; vm_compute; discriminate|]. split; vm_compute; reflexivity.
Qed.

(** On a stream that does not throw (a std::istream as constructed) an image cut short is
    accepted: the transitions that are missing lead to state 0, and the scanner answers
    otherwise than the saved one. *)
Theorem C33_lenient_refuted : exists s Ls img n, obtained_slow s Ls /\ save_slow s = Ok img /\ (n < length img)%nat /\
  exists null s', slow_default = Ok null /\ load_slow 0 null (mkStream false (firstn n img)) = Ok (s', mkStream false []) /\
  exists w, is_word w /\ (let* a := steps (slow_ops s) [w_start s] w in slow_final s a) = Ok true /\
    (let* a := steps (slow_ops s') [w_start s'] w in slow_final s' a) = Ok false.
Proof.
  exists exi_l, [accepts exi_f], exo_limg, 2392%nat. split; [apply exo_slow_obtained|]. split; [vm_compute; reflexivity|]. split; [vm_compute; lia|].
  exists exi_d. eexists. split; [vm_compute; reflexivity|]. split; [vm_compute; reflexivity|]. exists [97; 98; 97; 98].
  split; [repeat constructor; try reflexivity; discriminate|]. split; vm_compute; reflexivity.
Qed.
Print Assumptions C33_lenient_refuted.

(** ** C34 *)
(** [holds m ptr img]: the image is in memory at [ptr].  The pointer returned is just past it. *)
Theorem C34_scanner : forall n s Ls img b0 null m ptr size, obtained (mkKind true n) s Ls -> save_scanner (mkKind true n) 0 s s = Ok img ->
  default_scanner (mkKind true n) b0 = Ok null -> placed (mkKind true n) null ->
  holds m ptr img -> ptr mod 8 = 0 -> mappable ptr size -> N.of_nat (length img) <= size ->
  exists s', mmap_scanner n null m ptr size = Ok (s', ptr + N.of_nat (length img)) /\ obtained (mkKind true n) s' Ls /\
    s_null s' = s_null s /\ (s_null s = false -> alike (mkKind true n) (mkKind true n) s s').
Proof. exact scanner_mmap_ok. Qed.
Print Assumptions C34_scanner.

Theorem C34_simple : forall this s Ls img m ptr size, obtained_simple s Ls -> save_simple s = Ok img -> p_null s = false ->
  holds m ptr img -> ptr mod 8 = 0 -> mappable ptr size -> N.of_nat (length img) <= size ->
  exists s', mmap_simple this m ptr size = Ok (s', ptr + N.of_nat (length img)) /\ obtained_simple s' Ls /\ p_null s' = false /\ alike_simple s s'.
Proof. intros this s Ls img m ptr size O E N H A M Z. apply simple_mmap_user; auto. lia. Qed.
Print Assumptions C34_simple.

Theorem C34_slow : forall this s Ls img m ptr size, obtained_slow s Ls -> save_slow s = Ok img -> w_null s = false -> N.of_nat (length img) < 18446744073709551616 ->
  holds m ptr img -> ptr mod 8 = 0 -> mappable ptr size -> N.of_nat (length img) <= size ->
  exists s', mmap_slow this m ptr size = Ok (s', ptr + N.of_nat (length img)) /\ obtained_slow s' Ls /\ w_null s' = false /\ alike_slow s s'.
Proof. exact slow_mmap_user. Qed.
Print Assumptions C34_slow.

(** Ranges that are too short are rejected once more than the slack is missing; a pointer
    that is not aligned, or an image with a foreign header, is rejected always. *)
Theorem C34_rejects : forall m ptr size,
  (forall n s Ls img null, obtained (mkKind true n) s Ls -> save_scanner (mkKind true n) 0 s s = Ok img -> holds m ptr img -> mappable ptr size ->
     size + 7 < N.of_nat (length img) -> mmap_scanner n null m ptr size = Throw EImage) /\
  (forall this s Ls img, obtained_simple s Ls -> save_simple s = Ok img -> holds m ptr img -> mappable ptr size ->
     size + 7 < N.of_nat (length img) -> mmap_simple this m ptr size = Throw EImage) /\
  (forall this s Ls img, obtained_slow s Ls -> save_slow s = Ok img -> w_null s = false -> N.of_nat (length img) < 18446744073709551616 -> holds m ptr img -> mappable ptr size ->
     size + 18 < N.of_nat (length img) -> mmap_slow this m ptr size = Throw EImage).
Proof.
  intros m ptr size. split; [|split]; intros.
  - eapply scanner_mmap_short; eauto.
  - eapply simple_mmap_cut; eauto.
  - eapply slow_mmap_cut; eauto.
Qed.
Print Assumptions C34_rejects.

Theorem C34_misaligned : forall m ptr size, ptr mod 8 <> 0 -> (forall n null, mmap_scanner n null m ptr size = Throw EImage) /\
  (forall this, mmap_simple this m ptr size = Throw EImage) /\ (forall this, mmap_slow this m ptr size = Throw EImage).
Proof.
  intros m ptr size H. split; [|split]; intros.
  - exact (map_misaligned _ _ _ _ m ptr size (map_headed_scanner n null) H).
  - exact (map_misaligned _ _ _ _ m ptr size (map_headed_simple this) H).
  - exact (map_misaligned _ _ _ _ m ptr size (map_headed_slow this) H).
Qed.
Print Assumptions C34_misaligned.

Theorem C34_foreign : forall m ptr size l, holds m ptr l -> (24 <= length l)%nat -> mappable ptr size ->
  (~ begins_well 1 48 l -> forall n null, mmap_scanner n null m ptr size = Throw EImage) /\
  (~ begins_well 2 16 l -> forall this, mmap_simple this m ptr size = Throw EImage) /\
  (~ begins_well 3 24 l -> forall this, mmap_slow this m ptr size = Throw EImage).
Proof.
  intros m ptr size l H L (M1 & M2 & M3). split; [|split]; intros N *.
  - apply (map_rejects _ 1 48 _ m ptr size l (map_headed_scanner n null) (proj1 H)); auto; lia.
  - apply (map_rejects _ 2 16 _ m ptr size l (map_headed_simple this) (proj1 H)); auto; lia.
  - apply (map_rejects _ 3 24 _ m ptr size l (map_headed_slow this) (proj1 H)); auto; lia.
Qed.
Print Assumptions C34_foreign.

Example C34_example : obtained exs_kind exs_s [accepts exs_f] /\ save_scanner exs_kind 0 exs_s exs_s = Ok exo_img /\
  holds (only 4096 exo_img) 4096 exo_img /\ mappable 4096 808 /\ N.of_nat (length exo_img) = 808 /\
  holds (only 4096 exo_simg) 4096 exo_simg /\ mappable 4096 8528 /\ N.of_nat (length exo_simg) = 8528 /\
  holds (only 4096 exo_limg) 4096 exo_limg /\ mappable 4096 2408 /\ N.of_nat (length exo_limg) = 2408 /\
  mmap_scanner 2 exo_null (only 4096 exo_img) 4096 800 = Throw EImage.
Proof.
  split; [apply exs_obtained|]. split; [vm_compute; reflexivity|].
  do 3 (split; [apply only_holds, bytes_check; vm_compute; reflexivity|]; split; [vm_compute; repeat split; discriminate|]; split; [reflexivity|]). vm_compute. reflexivity.
Qed.

(** A range that ends up to seven bytes early is not rejected: AlignPtr adds to the pointer
    without taking from the size.  Where nothing follows the range, Mmap reads past its end. *)
Theorem C34_short_refuted :
  (exists s Ls img null size, obtained exs_kind s Ls /\ s_null s = false /\ save_scanner exs_kind 0 s s = Ok img /\ default_scanner exs_kind 8192 = Ok null /\
     size + 7 = N.of_nat (length img) /\ mappable 4096 size /\
     (exists s', mmap_scanner 2 null (only 4096 img) 4096 size = Ok (s', 4096 + N.of_nat (length img))) /\
     mmap_scanner 2 null (only 4096 (firstn (N.to_nat size) img)) 4096 size = UB) /\
  (exists s Ls img this size, obtained_slow s Ls /\ w_null s = false /\ save_slow s = Ok img /\ size + 10 = N.of_nat (length img) /\ mappable 4096 size /\
     (exists s', mmap_slow this (only 4096 img) 4096 size = Ok (s', 4096 + N.of_nat (length img))) /\
     mmap_slow this (only 4096 (firstn (N.to_nat size) img)) 4096 size = UB).
Proof.
  split.
  - exists exs_s, [accepts exs_f], exo_img, exo_null, 801. split; [apply exs_obtained|]. split; [reflexivity|]. split; [vm_compute; reflexivity|].
    split; [apply exo_null_ok|]. split; [reflexivity|]. split; [vm_compute; repeat split; discriminate|].
    split; [eexists; vm_compute; reflexivity|vm_compute; reflexivity].
  - exists exi_l, [accepts exi_f], exo_limg, exi_d, 2398. split; [apply exo_slow_obtained|]. split; [reflexivity|]. split; [vm_compute; reflexivity|].
    split; [reflexivity|]. split; [vm_compute; repeat split; discriminate|]. split; [eexists; vm_compute; reflexivity|vm_compute; reflexivity].
Qed.
Print Assumptions C34_short_refuted.

(** ** C35 *)
(** Whatever the object held ([mmap_scanner] returns its new contents). *)
Theorem C35_scanner : forall n s Ls img b0 null m ptr size, obtained (mkKind true n) s Ls -> s_null s = true -> save_scanner (mkKind true n) 0 s s = Ok img ->
  default_scanner (mkKind true n) b0 = Ok null -> placed (mkKind true n) null -> holds m ptr img -> ptr mod 8 = 0 -> mappable ptr size -> N.of_nat (length img) <= size ->
  exists s', mmap_scanner n null m ptr size = Ok (s', ptr + N.of_nat (length img)) /\ s_null s' = true /\ obtained (mkKind true n) s' [].
Proof.
  intros n s Ls img b0 null m ptr size O Nu E D P H A M Z. destruct (scanner_mmap_ok n s Ls img b0 null m ptr size O E D P H A M Z) as (s' & X & O' & N' & _).
  exists s'. split; [exact X|]. split; [congruence|]. rewrite Nu in N'.
  destruct (obtained_ok _ _ _ O') as [[_ _ Hnull _ _] _]. destruct (Hnull N') as [_ X0]. rewrite <- X0. exact O'.
Qed.
Print Assumptions C35_scanner.

(** SimpleScanner and SlowScanner keep what they held: the object is not empty afterwards,
    and goes on matching as before. *)
Theorem C35_simple_refuted : exists this Ls empty img, obtained_simple this Ls /\ p_null this = false /\ obtained_simple empty [] /\ p_null empty = true /\
  save_simple empty = Ok img /\ mappable 4096 (N.of_nat (length img)) /\ holds (only 4096 img) 4096 img /\
  mmap_simple this (only 4096 img) 4096 (N.of_nat (length img)) = Ok (this, 4096 + N.of_nat (length img)).
Proof.
  assert (O : obtained_simple exo_snull []) by (apply (os_default 8192); [vm_compute; reflexivity|vm_compute; discriminate]).
  exists exi_s, [accepts exi_f], exo_snull. eexists. split; [apply exi_obtained|]. split; [reflexivity|]. split; [exact O|]. split; [reflexivity|].
  split; [vm_compute; reflexivity|]. split; [vm_compute; repeat split; discriminate|]. split; [apply only_holds, bytes_check; vm_compute; reflexivity|].
  vm_compute. reflexivity.
Qed.
Print Assumptions C35_simple_refuted.

Theorem C35_slow_refuted : exists this Ls empty img, obtained_slow this Ls /\ w_null this = false /\ obtained_slow empty [] /\ w_null empty = true /\
  save_slow empty = Ok img /\ mappable 4096 (N.of_nat (length img)) /\ holds (only 4096 img) 4096 img /\
  mmap_slow this (only 4096 img) 4096 (N.of_nat (length img)) = Ok (this, 4096 + N.of_nat (length img)).
Proof.
  exists exi_l, [accepts exi_f], exi_d. eexists. split; [apply exo_slow_obtained|]. split; [reflexivity|].
  split; [apply ol_default; vm_compute; reflexivity|]. split; [reflexivity|].
  split; [vm_compute; reflexivity|]. split; [vm_compute; repeat split; discriminate|]. split; [apply only_holds, bytes_check; vm_compute; reflexivity|].
  vm_compute. reflexivity.
Qed.
Print Assumptions C35_slow_refuted.

Example C35_example : obtained exs_kind exo_null [] /\ s_null exo_null = true /\ exists img, save_scanner exs_kind 0 exo_null exo_null = Ok img /\
  length img = 80%nat /\ holds (only 4096 img) 4096 img /\ mappable 4096 80.
Proof.
  split; [apply (ob_default exs_kind 8192); [cbn; lia|apply exo_null_ok|apply exo_null_ok]|]. split; [reflexivity|]. eexists.
  split; [vm_compute; reflexivity|]. split; [reflexivity|]. split; [apply only_holds, bytes_check; vm_compute; reflexivity|]. vm_compute. repeat split; discriminate.
Qed.
