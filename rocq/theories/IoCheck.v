(** Which bytes Load and Mmap take, and what they do with streams that end early; for C33, C34. *)
From Coq Require Import List Bool Arith NArith ZArith Lia.
From Verif Require Import Util Spec PartitionModel FsmModel DetermineModel MinimizeModel RunModel RunSpec ScannerModel GlueModel SimpleModel IoModel IoSpec ScannerCompile IoBytes.
Import ListNotations.
Local Open Scope N_scope.

(** ** Fields *)
Lemma nth_firstn_lt : forall A n i (l : list A) d, (i < n)%nat -> nth i (firstn n l) d = nth i l d.
Proof.
  intros A n. induction n; intros i l d H; [lia|]. destruct l; [reflexivity|]. destruct i; [reflexivity|]. cbn [firstn nth]. apply IHn. lia.
Qed.
Lemma nth_skipn_add : forall A n i (l : list A) d, nth i (skipn n l) d = nth (n + i) l d.
Proof.
  intros A n. induction n; intros i l d; [reflexivity|]. destruct l; [destruct i; reflexivity|]. cbn [skipn Nat.add nth]. apply IHn.
Qed.
Lemma four : forall (l : list N), length l = 4%nat -> l = [nth 0 l 0; nth 1 l 0; nth 2 l 0; nth 3 l 0].
Proof. intros [|a [|b [|c [|d [|]]]]] H; try discriminate. reflexivity. Qed.
Lemma field_u32 : forall off l, (off + 4 <= length l)%nat -> field off 4 l = u32_at off l.
Proof.
  intros off l H. unfold field, u32_at. assert (L : length (firstn 4 (skipn off l)) = 4%nat) by (rewrite firstn_length, skipn_length; lia).
  rewrite (four _ L), !nth_firstn_lt, !nth_skipn_add by lia. rewrite Nat.add_0_r. cbn [unle]. lia.
Qed.
Lemma unle_app : forall a b, unle (a ++ b) = unle a + 256 ^ N.of_nat (length a) * unle b.
Proof.
  induction a; intros b; [cbn [app unle length]; change (256 ^ N.of_nat 0) with 1; lia|].
  cbn [app unle length]. rewrite IHa, Nat2N.inj_succ, N.pow_succ_r'. lia.
Qed.
Lemma firstn_add : forall A n m (l : list A), firstn (n + m) l = firstn n l ++ firstn m (skipn n l).
Proof. intros A n. induction n; intros m l; [reflexivity|]. destruct l; cbn [Nat.add firstn skipn app]; [rewrite firstn_nil; reflexivity|]. f_equal. apply IHn. Qed.
Lemma skipn_add : forall A n m (l : list A), skipn (n + m) l = skipn m (skipn n l).
Proof. intros A n. induction n; intros m l; [reflexivity|]. destruct l; cbn [Nat.add skipn]; [rewrite skipn_nil; reflexivity|]. apply IHn. Qed.
Lemma field_u64 : forall off l, (off + 8 <= length l)%nat -> field off 8 l = u64_at off l.
Proof.
  intros off l H. unfold u64_at. rewrite <- !field_u32 by lia. unfold field. rewrite (firstn_add _ 4 4), unle_app, firstn_length, skipn_length, skipn_add.
  replace (Nat.min 4 (length l - off)) with 4%nat by lia. change (256 ^ N.of_nat 4) with 4294967296. lia.
Qed.
Lemma u32_firstn : forall n off l, (off + 4 <= n)%nat -> u32_at off (firstn n l) = u32_at off l.
Proof. intros. unfold u32_at. rewrite !nth_firstn_lt by lia. reflexivity. Qed.
Lemma magic_bytes : forall l, Forall byte l -> (24 <= length l)%nat -> h_magic (firstn 24 l) = MAGIC <-> firstn 4 l = [80; 73; 82; 69].
Proof.
  intros l B L. unfold h_magic, field. cbn [skipn]. rewrite firstn_firstn. change (Nat.min 4 24) with 4%nat.
  assert (L4 : length (firstn 4 l) = 4%nat) by (rewrite firstn_length; lia).
  assert (B4 : Forall byte (firstn 4 l)). { rewrite <- (firstn_skipn 4 l) in B. apply Forall_app in B. apply B. }
  destruct (firstn 4 l) as [|a [|b [|c [|d [|]]]]]; try discriminate L4. inversion B4 as [|? ? Ba B1]; subst. inversion B1 as [|? ? Bb B2]; subst.
  inversion B2 as [|? ? Bc B3]; subst. inversion B3 as [|? ? Bd B5]; subst. unfold byte, MAGIC in *. cbn [unle]. split; intros E.
  - assert (a = 80 /\ b = 73 /\ c = 82 /\ d = 69) as (-> & -> & -> & ->) by lia. reflexivity.
  - inversion E; subst. reflexivity.
Qed.

(** ** The header *)
Lemma validate_iff : forall ty hs l, Forall byte l -> (24 <= length l)%nat -> 0 < ty < 4 -> 0 < hs ->
  (validate ty hs (firstn 24 l) = Ok tt /\ begins_well ty hs l) \/ (validate ty hs (firstn 24 l) = Throw EImage /\ ~ begins_well ty hs l).
Proof.
  intros ty hs l B L T H. pose proof (magic_bytes l B L) as Mg. unfold validate.
  assert (L24 : length (firstn 24 l) = 24%nat) by (rewrite firstn_length; lia).
  assert (F : forall off, (off + 4 <= 24)%nat -> field off 4 (firstn 24 l) = u32_at off l).
  { intros off O. rewrite field_u32 by (rewrite L24; auto). apply u32_firstn; auto. }
  unfold h_ptr_size, h_word_size, h_version, h_type, h_hdr_size. rewrite !F by lia.
  destruct (N.eqb_spec (h_magic (firstn 24 l)) MAGIC) as [E1|E1]; cbn [negb orb].
  2:{ right. split; [reflexivity|]. intros [? M' ? ? ? ? ?]. tauto. }
  destruct (N.eqb_spec (u32_at 8 l) 8) as [E2|E2]; cbn [negb orb].
  2:{ right. split; [reflexivity|]. intros []; tauto. }
  destruct (N.eqb_spec (u32_at 12 l) 16) as [E3|E3]; cbn [negb orb].
  2:{ right. split; [reflexivity|]. intros []; tauto. }
  unfold RE_VERSION, RE_VERSION_WITH_MACTIONS. destruct (N.eqb_spec (u32_at 4 l) 7) as [E4|E4]; destruct (N.eqb_spec (u32_at 4 l) 6) as [E5|E5]; cbn [negb andb];
    try (right; split; [reflexivity|]; intros []; tauto).
  all: destruct (N.eqb_spec ty 0) as [E6|E6]; [lia|]; cbn [negb andb]; destruct (N.eqb_spec ty (u32_at 16 l)) as [E7|E7]; cbn [negb andb].
  all: unfold ty_loaded; destruct (N.eqb_spec ty 4) as [E8|E8]; [lia|]; cbn [negb andb].
  all: destruct (N.eqb_spec hs 0) as [E9|E9]; [lia|]; cbn [negb andb]; destruct (N.eqb_spec (u32_at 20 l) hs) as [E10|E10]; cbn [negb].
  all: try (right; split; [reflexivity|]; intros []; congruence).
  all: left; split; [reflexivity|]; split; auto; tauto.
Qed.

(** Reading at least 24 bytes. *)
Lemma header_read : forall ty hs th l, (24 <= length l)%nat ->
  load_header ty hs (mkStream th l) = (let* _ := validate ty hs (firstn 24 l) in Ok (firstn 24 l, mkStream th (skipn 24 l))).
Proof.
  intros ty hs th l L. unfold load_header, aligned_load, read. cbn [st_left st_throws].
  destruct (N.leb_spec 24 (N.of_nat (length l))); [|lia]. reflexivity.
Qed.
Lemma header_rejects : forall ty hs th l, Forall byte l -> 0 < ty < 4 -> 0 < hs -> (24 <= length l)%nat -> ~ begins_well ty hs l ->
  load_header ty hs (mkStream th l) = Throw EImage.
Proof.
  intros ty hs th l B T H L N. rewrite header_read by auto. destruct (validate_iff ty hs l B L T H) as [[_ Bw]|[-> _]]; [contradiction|reflexivity].
Qed.
(** Reading fewer. *)
Lemma read_short : forall n old th l, N.of_nat (length l) < n -> read n old (mkStream th l) =
  if th then Throw EStream else match old with None => UB | Some o => Ok (l ++ skipn (length l) o, mkStream false []) end.
Proof. intros. unfold read. cbn [st_left st_throws]. destruct (N.leb_spec n (N.of_nat (length l))); [lia|]. reflexivity. Qed.
Lemma header_short : forall ty hs th l, (length l < 24)%nat ->
  (exists e, load_header ty hs (mkStream th l) = Throw e) \/ exists h, th = false /\ load_header ty hs (mkStream th l) = Ok (h, mkStream false []).
Proof.
  intros ty hs th l L. unfold load_header, aligned_load. rewrite read_short by lia. destruct th; [left; eexists; reflexivity|].
  cbn [bind]. change (align_load 24 (mkStream false [])) with (Ok (mkStream false [])). cbn [bind].
  destruct (validate ty hs _) as [[]|e| |] eqn:V; cbn [bind].
  - right. eexists. split; [reflexivity|]. reflexivity.
  - left. eexists. reflexivity.
  - exfalso. revert V. unfold validate. repeat (match goal with |- context [if ?b then _ else _] => destruct b end); discriminate.
  - exfalso. revert V. unfold validate. repeat (match goal with |- context [if ?b then _ else _] => destruct b end); discriminate.
Qed.
Lemma dry_aligned : forall n o, 0 < n -> n mod 8 = 0 -> aligned_load n (Some o) (mkStream false []) = Ok (o, mkStream false []).
Proof.
  intros n o H A. unfold aligned_load. rewrite read_short by (cbn [length]; lia). cbn [bind app length skipn].
  unfold align_load. rewrite padding_0 by auto. reflexivity.
Qed.
Lemma dry_flag : aligned_load 1 None (mkStream false []) = UB.
Proof. reflexivity. Qed.

(** A load that begins with a header of [ty] and [hs] and then needs more. *)
Definition headed {A} (ty hs : N) (f : stream -> res A) : Prop := exists g, (forall st, f st = let* (h, st1) := load_header ty hs st in g st1) /\
  forall v, g (mkStream false []) <> Ok v.
Lemma headed_ok : forall A ty hs (f : stream -> res A) th l v, headed ty hs f -> Forall byte l -> 0 < ty < 4 -> 0 < hs -> f (mkStream th l) = Ok v -> begins_well ty hs l.
Proof.
  intros A ty hs f th l v (g & F & G) B T H E. rewrite F in E. destruct (Nat.lt_ge_cases (length l) 24) as [L|L].
  - destruct (header_short ty hs th l L) as [[e X]|(h & Et & X)]; rewrite X in E; [discriminate E|]. cbn [bind] in E. destruct (G _ E).
  - rewrite header_read in E by auto. destruct (validate_iff ty hs l B L T H) as [[_ Bw]|[V _]]; auto. rewrite V in E. discriminate E.
Qed.
Lemma headed_rejects : forall A ty hs (f : stream -> res A) th l, headed ty hs f -> Forall byte l -> 0 < ty < 4 -> 0 < hs -> (24 <= length l)%nat -> ~ begins_well ty hs l ->
  f (mkStream th l) = Throw EImage.
Proof. intros A ty hs f th l (g & F & _) B T H L N. rewrite F, header_rejects by auto. reflexivity. Qed.
Lemma headed_strict : forall A ty hs (f : stream -> res A) l, headed ty hs f -> Forall byte l -> 0 < ty < 4 -> 0 < hs -> ~ begins_well ty hs l ->
  exists e, f (strict l) = Throw e.
Proof.
  intros A ty hs f l Hd B T H N. destruct (Nat.lt_ge_cases (length l) 24) as [L|L].
  - destruct Hd as (g & F & _). exists EStream. rewrite F. unfold load_header, aligned_load, strict. rewrite read_short by lia. reflexivity.
  - exists EImage. exact (headed_rejects _ _ _ _ true l Hd B T H L N).
Qed.
Lemma reloc_headed : forall n buf null, headed 1 48 (load_reloc n buf null).
Proof.
  intros. unfold load_reloc. eexists. split; [intros st; reflexivity|]. cbv beta. intros v. rewrite dry_aligned by (try reflexivity; lia). cbn [bind].
  destruct (negb _); [discriminate|]. rewrite dry_flag. discriminate.
Qed.
Lemma scanner_headed : forall k b buf rnull null, headed 1 48 (load_scanner k b buf rnull null).
Proof.
  intros. unfold load_scanner. destruct (k_reloc k); [apply reloc_headed|]. destruct (reloc_headed (k_nmask k) b rnull) as (g & F & G).
  exists (fun st => let* (s, st1) := g st in Ok (convert_scanner (mkKind true (k_nmask k)) k buf null s, st1)). split.
  - intros st. rewrite F. destruct (load_header 1 48 st) as [[h st1]| | |]; reflexivity.
  - intros v. destruct (g (mkStream false [])) eqn:X; cbn [bind]; try discriminate. destruct (G _ eq_refl).
Qed.
Lemma simple_headed : forall buf null, headed 2 16 (load_simple buf null).
Proof. intros. unfold load_simple. eexists. split; [intros st; reflexivity|]. cbv beta. intros v. rewrite dry_aligned by (try reflexivity; lia). cbn [bind]. rewrite dry_flag. discriminate. Qed.
Lemma slow_headed : forall old null, headed 3 24 (load_slow old null).
Proof. intros. unfold load_slow. eexists. split; [intros st; reflexivity|]. cbv beta. intros v. rewrite dry_aligned by (try reflexivity; lia). cbn [bind]. rewrite dry_flag. discriminate. Qed.

(** The signature of the shortcuts. *)
Lemma u64_skip : forall n off l, u64_at off (skipn n l) = u64_at (n + off) l.
Proof. intros. unfold u64_at, u32_at. rewrite !nth_skipn_add, <- !Nat.add_assoc. reflexivity. Qed.
Lemma u64_firstn : forall n off l, (off + 8 <= n)%nat -> u64_at off (firstn n l) = u64_at off l.
Proof. intros. unfold u64_at. rewrite !u32_firstn by lia. reflexivity. Qed.
Lemma aligned_cases : forall n o th l, n mod 8 = 0 ->
  ((N.to_nat n <= length l)%nat /\ aligned_load n (Some o) (mkStream th l) = Ok (firstn (N.to_nat n) l, mkStream th (skipn (N.to_nat n) l))) \/
  ((length l < N.to_nat n)%nat /\ th = true /\ aligned_load n (Some o) (mkStream th l) = Throw EStream) \/
  ((length l < N.to_nat n)%nat /\ th = false /\ exists b, aligned_load n (Some o) (mkStream th l) = Ok (b, mkStream false [])).
Proof.
  intros n o th l A. unfold aligned_load, read. cbn [st_left st_throws].
  assert (X : forall st, align_load n st = Ok st) by (intros; unfold align_load; rewrite padding_0; auto).
  destruct (N.leb_spec n (N.of_nat (length l))) as [L|L].
  - left. split; [lia|]. cbn [bind]. rewrite X. reflexivity.
  - right. destruct th; [left|right]; (split; [lia|]; split; [reflexivity|]); [reflexivity|]. eexists. cbn [bind]. rewrite X. reflexivity.
Qed.
Lemma reloc_signed : forall n buf null th l v, Forall byte l -> load_reloc n buf null (mkStream th l) = Ok v -> u64_at 64 l = short_sig n /\ (72 < length l)%nat.
Proof.
  intros n buf null th l v B E. assert (Bw : begins_well 1 48 l) by (apply (headed_ok _ _ _ _ _ _ _ (reloc_headed n buf null) B) in E; auto; lia).
  destruct Bw as [L _ _ _ _ _ _]. unfold load_reloc in E. rewrite header_read in E by auto.
  destruct (validate ty_scanner 48 (firstn 24 l)); cbn [bind] in E; try discriminate E.
  destruct (aligned_cases 48 (scanner_locals (mkKind true n) null (s_initial null)) th (skipn 24 l) eq_refl) as [[L1 X]|[(L1 & Et & X)|(L1 & Et & b & X)]]; rewrite X in E; cbn [bind] in E; try discriminate E.
  - change (N.to_nat 48) with 48%nat in *. rewrite field_u64, u64_firstn, u64_skip in E by (rewrite ?firstn_length; lia). change (24 + 40)%nat with 64%nat in E.
    destruct (N.eqb_spec (u64_at 64 l) (short_sig n)) as [Es|Es]; cbn [negb] in E; [|discriminate E]. split; auto. rewrite skipn_length in L1.
    destruct (Nat.eq_dec (length l) 72) as [E72|]; [|lia]. exfalso. rewrite (skipn_all2 (skipn 24 l)) in E by (rewrite skipn_length; lia).
    destruct th; [|rewrite dry_flag in E]; discriminate E.
  - destruct (negb _); [discriminate E|]. rewrite dry_flag in E. discriminate E.
Qed.
Lemma scanner_signed : forall k b buf rnull null th l v, Forall byte l -> load_scanner k b buf rnull null (mkStream th l) = Ok v -> u64_at 64 l = short_sig (k_nmask k).
Proof.
  intros k b buf rnull null th l v B E. unfold load_scanner in E. destruct (k_reloc k); [exact (proj1 (reloc_signed _ _ _ _ _ _ B E))|].
  destruct (load_reloc (k_nmask k) b rnull (mkStream th l)) eqn:X; try discriminate E. exact (proj1 (reloc_signed _ _ _ _ _ _ B X)).
Qed.

(** ** Strict streams *)
Lemma reader_reloc : forall n buf null, reader (load_reloc n buf null).
Proof.
  intros. unfold load_reloc. cbv zeta. apply (reader_bind _ _ (load_header ty_scanner 48)); [apply reader_header|]. intros _.
  apply reader_bind; [apply reader_aligned|]. intros l. apply reader_if; [apply reader_fail; discriminate|].
  apply reader_bind; [apply reader_aligned|]. intros e. apply reader_pure. intros em _. apply reader_if; [apply reader_ok|].
  apply reader_if; [apply reader_fail; discriminate|]. apply reader_bind; [apply reader_aligned|]. intros bs. apply reader_pure. intros. apply reader_ok.
Qed.
Lemma reader_scanner : forall k b buf rnull null, reader (load_scanner k b buf rnull null).
Proof.
  intros. unfold load_scanner. destruct (k_reloc k); [apply reader_reloc|].
  apply reader_bind; [apply reader_reloc|]. intros s. apply reader_ok.
Qed.
Lemma reader_simple : forall buf null, reader (load_simple buf null).
Proof.
  intros. unfold load_simple. cbv zeta. apply (reader_bind _ _ (load_header ty_simple 16)); [apply reader_header|]. intros _.
  apply reader_bind; [apply reader_aligned|]. intros l.
  apply reader_bind; [apply reader_aligned|]. intros e. apply reader_pure. intros em _. apply reader_if; [apply reader_ok|].
  apply reader_bind; [apply reader_aligned|]. intros bs. apply reader_ok.
Qed.
Lemma reader_sizes : forall count c, reader (load_sizes count c).
Proof.
  induction count; intros c; [apply reader_ok|]. cbn [load_sizes]. apply reader_bind; [apply reader_read|]. intros b. cbv zeta.
  apply reader_if; [apply reader_fail; discriminate|]. apply reader_bind; [apply IHcount|]. intros. apply reader_ok.
Qed.
Lemma reader_lists : forall ns, reader (load_lists ns).
Proof.
  induction ns; [apply reader_ok|]. cbn [load_lists]. apply reader_bind; [|intros b; apply reader_bind; [apply IHns|]; intros; apply reader_ok].
  destruct (a =? 0); [apply reader_ok|apply reader_read].
Qed.
Lemma reader_slow : forall old null, reader (load_slow old null).
Proof.
  intros. unfold load_slow. cbv zeta. apply (reader_bind _ _ (load_header ty_slow 24)); [apply reader_header|]. intros _.
  apply reader_bind; [apply reader_aligned|]. intros l.
  apply reader_bind; [apply reader_aligned|]. intros e. apply reader_pure. intros em _. apply reader_if; [apply reader_ok|].
  apply reader_bind; [apply reader_aligned|]. intros ls. apply reader_bind; [apply reader_aligned|]. intros fs.
  apply reader_bind; [apply reader_read|]. intros c. apply reader_bind; [apply reader_sizes|]. intros ns.
  apply reader_bind_align. apply reader_bind; [apply reader_lists|]. intros vs. apply reader_bind_align. apply reader_ok.
Qed.
Lemma reader_early : forall A (f : stream -> res (A * stream)) l a st, reader f -> f (strict l) = Ok (a, st) ->
  exists u, l = u ++ st_left st /\ forall v w, u = v ++ w -> w <> [] -> f (strict v) = Throw EStream.
Proof.
  intros A f l a st R E. destruct (R _ _ _ E) as (u & r & -> & -> & _ & X). exists u. split; [reflexivity|].
  intros v [|x w] Eu Nw; [destruct (Nw eq_refl)|]. exact (X _ _ _ Eu).
Qed.

(** ** Mapped headers *)
Definition map_headed {A} (ty hs : N) (f : mem -> N -> N -> res A) : Prop := exists g, forall m p size,
  f m p size = let* _ := check_align p in let* (h, c) := map_header m ty hs (p, size) in g m c.
Lemma map_headed_scanner : forall n null, map_headed 1 48 (mmap_scanner n null).
Proof. intros. eexists. intros. reflexivity. Qed.
Lemma map_headed_simple : forall this, map_headed 2 16 (mmap_simple this).
Proof. intros. eexists. intros. reflexivity. Qed.
Lemma map_headed_slow : forall this, map_headed 3 24 (mmap_slow this).
Proof. intros. eexists. intros. reflexivity. Qed.
Lemma map_rejects : forall A ty hs (f : mem -> N -> N -> res A) m p size l, map_headed ty hs f -> Forall byte l -> 0 < ty < 4 -> 0 < hs -> (24 <= length l)%nat ->
  holds m p l -> p + 8 * size < two64 -> ~ begins_well ty hs l -> f m p size = Throw EImage.
Proof.
  intros A ty hs f m p size l (g & F) B T H L Ho Z N. rewrite F. unfold check_align. destruct (N.eqb_spec (p mod 8) 0) as [A8|A8]; [|reflexivity]. cbn [bind].
  destruct (N.lt_ge_cases size 24) as [S|S]; [rewrite map_header_short by auto; reflexivity|].
  unfold map_header, map_ptr. cbn [fst snd]. change ((1 * 24) mod two64) with 24. destruct (N.ltb_spec size 24); [lia|].
  rewrite advance_ok, align_ptr_0 by (try lia; rewrite N.add_mod, A8 by lia; reflexivity). cbn [bind].
  rewrite (peek_here m 24 (firstn 24 l) (skipn 24 l)) by (rewrite ?firstn_skipn, ?firstn_length; auto; lia). cbn [bind].
  destruct (validate_iff ty hs l B L T H) as [[_ Bw]|[-> _]]; [contradiction|reflexivity].
Qed.
Lemma map_misaligned : forall A ty hs (f : mem -> N -> N -> res A) m p size, map_headed ty hs f -> p mod 8 <> 0 -> f m p size = Throw EImage.
Proof. intros A ty hs f m p size (g & F) N. rewrite F. unfold check_align. destruct (N.eqb_spec (p mod 8) 0); [contradiction|reflexivity]. Qed.
