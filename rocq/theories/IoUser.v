(** Saving, loading and mapping, for the user. *)
From Coq Require Import List Bool Arith NArith Lia Sorted.
From Verif Require Import Util Spec PartitionModel FsmModel DetermineModel MinimizeModel FsmSem Api ApiProofs BuildFacts RunModel RunSpec RunProofs
  ScannerModel ScannerSpec ScannerProofs ScannerBuild ScannerCompile ScannerCopy ScannerFits GlueModel SimpleModel IoModel IoBytes ScannerIo ScannerApi ScannerClosure ScannerUser SimpleProofs SlowProofs SimpleIo SlowIo SimpleApi SimpleUser IoSpec.
Import ListNotations.
Local Open Scope N_scope.
Local Opaque all_letters all_bytes.

(** ** Alike *)
Lemma shows_alike : forall k k' s s' cls cls' t, machine_ok t -> shows k s cls t -> shows k' s' cls' t -> alike k k' s s'.
Proof.
  intros k k' s s' cls cls' t M S S'. split; [rewrite (sh_states _ _ _ _ S), (sh_states _ _ _ _ S'); reflexivity|].
  intros w Hw. pose proof (mo_start _ M) as St.
  destruct (steps_addr k s cls t S M w (m_start t) St Hw) as [E L]. destruct (steps_addr k' s' cls' t S' M w (m_start t) St Hw) as [E' _].
  set (q := m_run t (m_start t) w) in *. exists (addr k s q), (addr k' s' q).
  cbn [scanner_ops o_init]. fold (scanner_ops k s). fold (scanner_ops k' s'). rewrite (sh_init _ _ _ _ S), (sh_init _ _ _ _ S'). splits; auto.
  unfold scanner_says. f_equal; [f_equal; [f_equal|]|].
  - rewrite (state_index_addr k' s' q), (state_index_addr k s q). reflexivity.
  - rewrite (final_addr k' s' cls' t S' q L), (final_addr k s cls t S q L). reflexivity.
  - rewrite (dead_addr k' s' cls' t S' q L), (dead_addr k s cls t S q L). reflexivity.
  - rewrite (accepted_addr k' s' cls' t S' q L), (accepted_addr k s cls t S q L). reflexivity.
Qed.
Lemma simple_shows_alike : forall s s' t, simple_shows s t -> simple_shows s' t -> alike_simple s s'.
Proof.
  intros s s' t S S'. split; [rewrite (ss_states _ _ S), (ss_states _ _ S'); reflexivity|].
  intros w Hw. pose proof (mo_start _ (ss_ok _ _ S)) as St.
  destruct (simple_steps s t S w (m_start t) St Hw) as [E L]. destruct (simple_steps s' t S' w (m_start t) St Hw) as [E' _].
  set (q := m_run t (m_start t) w) in *. exists (simple_addr s q), (simple_addr s' q).
  cbn [simple_ops o_init]. fold (simple_ops s). fold (simple_ops s'). rewrite (ss_init _ _ S), (ss_init _ _ S'). splits; auto.
  unfold simple_says. f_equal; [f_equal|].
  - assert (X : forall s0, simple_index s0 (simple_addr s0 q) = N.of_nat q).
    { intros s0. unfold simple_index, simple_addr, simple_row. change MaxChar with 264. 
      replace (p_buf s0 + (N.of_nat q * 265 + 1) * 8 - p_buf s0) with (8 + N.of_nat q * ((264 + 1) * 8)) by lia. rewrite N.div_add by discriminate. reflexivity. }
    rewrite !X. reflexivity.
  - rewrite (simple_final_at s' t S' q L), (simple_final_at s t S q L). reflexivity.
  - rewrite (simple_accepted_at s' t S' q L), (simple_accepted_at s t S q L). reflexivity.
Qed.
Lemma mapped_step : forall s v l cur st, w_jumps s = InVec v -> slow_next_translated s cur l = Ok st -> slow_next_translated (slow_mapped s v) cur l = Ok st.
Proof.
  intros s v l cur st J. unfold slow_next_translated. change (w_states (slow_mapped s v)) with (w_states s). generalize (@nil N).
  induction cur as [|q cur IH]; intros acc; cbn [foldm]; auto.
  destruct (slow_dests s q l) as [ds| | |] eqn:D; cbn [bind]; try discriminate. rewrite (mapped_dests s v q l ds J D). cbn [bind].
  destruct (slow_push (w_states s) ds acc); cbn [bind]; try discriminate. apply IH.
Qed.
Lemma mapped_steps : forall s v w a st, w_jumps s = InVec v -> steps (slow_ops s) a w = Ok st -> steps (slow_ops (slow_mapped s v)) a w = Ok st.
Proof.
  intros s v. induction w as [|c w IH]; intros a st J E; cbn [steps slow_ops o_step] in *; auto. fold (slow_ops s) in *. fold (slow_ops (slow_mapped s v)).
  unfold slow_next in *. cbn [slow_mapped w_letters]. destruct (nth_error (w_letters s) (N.to_nat c)) as [l|]; [|discriminate].
  destruct (slow_next_translated s a l) as [st1| | |] eqn:X; cbn [bind] in E; try discriminate.
  fold (slow_mapped s v). rewrite (mapped_step s v l a st1 J X). cbn [bind]. apply IH; auto.
Qed.
Lemma mapped_alike : forall s v Ls, w_jumps s = InVec v -> lfaithful s Ls -> alike_slow s (slow_mapped s v).
Proof.
  intros s v Ls J (_ & _ & n & g & H & _). split; [reflexivity|]. intros w Hw. destruct (slow_accepts s g n w H Hw) as (st & E & b & Eb & _).
  exists st, st. splits; auto.
  - apply mapped_steps; auto.
  - assert (X : forall q, slow_final (slow_mapped s v) q = slow_final s q).
    { induction q as [|x q IH]; cbn [slow_final]; auto. cbn [slow_mapped w_finals]. rewrite IH. reflexivity. }
    unfold slow_says, slow_accepted. rewrite X. reflexivity.
Qed.

(** ** Scanner *)
Lemma rebase_placed : forall n s buf owned, placed (mkKind true n) s -> fits s -> user_address buf -> placed (mkKind true n) (rebase buf owned s).
Proof.
  intros n s buf owned [A B C] F [U1 U2]. specialize (C eq_refl). pose proof (ft_fsize _ F) as Fs. split; auto.
  unfold s_base. cbn [rebase s_buf s_states s_nletters s_fsize]. destruct (row_size_facts (mkKind true n) (s_nletters s)) as (_ & _ & P).
  unfold two64, two31, two32, MaxChar in *. nia.
Qed.
Lemma default_null : forall k b s, default_scanner k b = Ok s -> s_null s = true.
Proof. intros k b s E. destruct (default_inv _ _ _ E) as (s0 & _ & ->). reflexivity. Qed.
Lemma scanner_save_ok : forall n s Ls, obtained (mkKind true n) s Ls -> s_owned s = true \/ s_null s = true ->
  exists img, save_reloc n s = Ok img /\ N.of_nat (length img) mod 8 = 0.
Proof.
  intros n s Ls O D. destruct (obtained_ok _ _ _ O) as [[Hn Rg Nu Co (cls & t & M & S & T)] Fi]. cbn [k_nmask] in Hn.
  rewrite (save_ok n s Rg Hn). destruct (s_null s).
  - exists (front n s true). split; [reflexivity|]. rewrite front_length. reflexivity.
  - destruct D as [-> |]; [|discriminate]. exists (front n s false ++ scanner_buffer (mkKind true n) s). split; [reflexivity|].
    rewrite app_length, front_length, Nat2N.inj_add, (buffer_length n s cls t S Fi Rg Hn). destruct (buf_size_eq n s Rg Hn) as [_ E].
    rewrite N.add_mod, E by lia. reflexivity.
Qed.
Lemma scanner_load_ok : forall n s Ls img buf b0 null throws rest, obtained (mkKind true n) s Ls -> save_reloc n s = Ok img ->
  default_scanner (mkKind true n) b0 = Ok null -> placed (mkKind true n) null -> user_address buf ->
  exists s', load_reloc n buf null (mkStream throws (img ++ rest)) = Ok (s', mkStream throws rest) /\ obtained (mkKind true n) s' Ls /\
    s_null s' = s_null s /\ (s_null s = false -> s_owned s' = true /\ alike (mkKind true n) (mkKind true n) s s').
Proof.
  intros n s Ls img buf b0 null th rest O E D P U. destruct (obtained_ok _ _ _ O) as [[Hn Rg Nu Co (cls & t & M & S & T)] Fi]. cbn [k_nmask] in Hn.
  pose proof E as E0. rewrite (save_ok n s Rg Hn) in E. destruct (s_null s) eqn:NN.
  - apply ok_inj in E. subst img. exists null. pose proof (load_null n s cls t M S Fi Rg Hn th rest buf null) as L. splits; auto.
    + exact (ob_load n buf b0 null s Ls _ th rest null _ O E0 D L P).
    + exact (default_null _ _ _ D).
    + intros X; discriminate X.
  - destruct (s_owned s) eqn:Ow; [|discriminate E]. apply ok_inj in E. subst img. exists (rebase buf true s).
    assert (P' : placed (mkKind true n) (rebase buf true s)) by (apply rebase_placed; auto; apply (sh_placed _ _ _ _ S)).
    pose proof (load_image n s cls t M S Fi Rg Hn th rest buf null (proj1 U) P') as L. splits; auto.
    + exact (ob_load n buf b0 null s Ls _ th rest _ _ O E0 D L P').
    + intros _. split; [reflexivity|]. exact (shows_alike _ _ s _ cls cls t M S (shows_rebase n s cls t buf true M S P')).
Qed.
Lemma holds_end : forall m p l, holds m p l -> holds m p (l ++ []).
Proof. intros. rewrite app_nil_r. auto. Qed.
Lemma scanner_mmap_ok : forall n s Ls img b0 null m ptr size, obtained (mkKind true n) s Ls -> save_reloc n s = Ok img ->
  default_scanner (mkKind true n) b0 = Ok null -> placed (mkKind true n) null -> holds m ptr img -> ptr mod 8 = 0 -> mappable ptr size -> N.of_nat (length img) <= size ->
  exists s', mmap_scanner n null m ptr size = Ok (s', ptr + N.of_nat (length img)) /\ obtained (mkKind true n) s' Ls /\
    s_null s' = s_null s /\ (s_null s = false -> alike (mkKind true n) (mkKind true n) s s').
Proof.
  intros n s Ls img b0 null m ptr size O E D P H A Mp Z. destruct (obtained_ok _ _ _ O) as [[Hn Rg Nu Co (cls & t & M & S & T)] Fi]. cbn [k_nmask] in Hn.
  pose proof Mp as (M1 & M2 & M3). pose proof E as E0. pose proof H as H0. rewrite (save_ok n s Rg Hn) in E. destruct (s_null s) eqn:NN.
  - apply ok_inj in E. subst img. exists null. rewrite front_length in Z. assert (Z' : 74 <= size) by (clear - Z; lia).
    pose proof (mmap_null n s cls t M S Fi Rg Hn m ptr size [] null (holds_end _ _ _ H) A M1 M3 Z') as L. splits; auto.
    + exact (ob_mmap n b0 null s Ls _ m ptr size null _ O E0 D H0 Mp L P).
    + exact (default_null _ _ _ D).
    + intros X; discriminate X.
  - destruct (s_owned s) eqn:Ow; [|discriminate E]. apply ok_inj in E. subst img. exists (rebase (ptr + 80) false s).
    rewrite app_length, front_length, Nat2N.inj_add, (buffer_length n s cls t S Fi Rg Hn) in Z. change (N.of_nat 80) with 80 in Z.
    destruct (buf_size_eq n s Rg Hn) as [Eb _]. pose proof (sh_placed _ _ _ _ S) as [P1 P2 P3].
    assert (P' : placed (mkKind true n) (rebase (ptr + 80) false s)).
    { split; [| |exact P3].
      - cbn [rebase s_buf]. rewrite N.add_mod, A by lia. reflexivity.
      - unfold s_base. cbn [rebase s_buf s_states s_nletters s_fsize]. rewrite Eb in Z. clear - Z M3. lia. }
    assert (Z' : 80 + buf_size (mkKind true n) s <= size + 7) by (clear - Z; lia).
    pose proof (mmap_image n s cls t M S Fi Rg Hn m ptr size [] null (holds_end _ _ _ H) A M1 M3 Z' P') as L. splits; auto.
    + exact (ob_mmap n b0 null s Ls _ m ptr size _ _ O E0 D H0 Mp L P').
    + intros _. exact (shows_alike _ _ s _ cls cls t M S (shows_rebase n s cls t (ptr + 80) false M S P')).
Qed.
Lemma scanner_mmap_short : forall n s Ls img null m ptr size, obtained (mkKind true n) s Ls -> save_reloc n s = Ok img ->
  holds m ptr img -> mappable ptr size -> size + 7 < N.of_nat (length img) -> mmap_scanner n null m ptr size = Throw EImage.
Proof.
  intros n s Ls img null m ptr size O E H (M1 & M2 & M3) Z. destruct (obtained_ok _ _ _ O) as [[Hn Rg Nu Co (cls & t & M & S & T)] Fi]. cbn [k_nmask] in Hn.
  destruct (N.eqb_spec (ptr mod 8) 0) as [A|A].
  2:{ unfold mmap_scanner, check_align. destruct (N.eqb_spec (ptr mod 8) 0); [contradiction|reflexivity]. }
  rewrite (save_ok n s Rg Hn) in E. destruct (s_null s).
  - apply ok_inj in E. subst img. rewrite front_length in Z. apply (mmap_short n s cls t M S Fi Rg Hn m ptr size true [] null (holds_end _ _ _ H) A M1 M2 M3).
    clear - Z. lia.
  - destruct (s_owned s); [|discriminate E]. apply ok_inj in E. subst img.
    rewrite app_length, front_length, Nat2N.inj_add, (buffer_length n s cls t S Fi Rg Hn) in Z. change (N.of_nat 80) with 80 in Z.
    exact (mmap_short n s cls t M S Fi Rg Hn m ptr size false _ null H A M1 M2 M3 Z).
Qed.
(** Up to seven bytes may be missing. *)
Lemma scanner_mmap_long : forall n s Ls img b0 null m ptr size, obtained (mkKind true n) s Ls -> save_reloc n s = Ok img ->
  default_scanner (mkKind true n) b0 = Ok null -> holds m ptr img -> ptr mod 8 = 0 -> mappable ptr size -> s_null s = false -> N.of_nat (length img) <= size + 7 ->
  exists s', mmap_scanner n null m ptr size = Ok (s', ptr + N.of_nat (length img)).
Proof.
  intros n s Ls img b0 null m ptr size O E D H A Mp NN Z. destruct (obtained_ok _ _ _ O) as [[Hn Rg Nu Co (cls & t & M & S & T)] Fi]. cbn [k_nmask] in Hn.
  pose proof Mp as (M1 & M2 & M3). rewrite (save_ok n s Rg Hn), NN in E.
  destruct (s_owned s) eqn:Ow; [|discriminate E]. apply ok_inj in E. subst img. exists (rebase (ptr + 80) false s).
  rewrite app_length, front_length, Nat2N.inj_add, (buffer_length n s cls t S Fi Rg Hn) in Z. change (N.of_nat 80) with 80 in Z.
  destruct (buf_size_eq n s Rg Hn) as [Eb _]. pose proof (sh_placed _ _ _ _ S) as [P1 P2 P3].
  assert (P' : placed (mkKind true n) (rebase (ptr + 80) false s)).
  { split; [| |exact P3].
    - cbn [rebase s_buf]. rewrite N.add_mod, A by lia. reflexivity.
    - unfold s_base. cbn [rebase s_buf s_states s_nletters s_fsize]. rewrite Eb in Z. unfold MaxChar in Z. clear - Z M3. unfold MaxChar. lia. }
  exact (mmap_image n s cls t M S Fi Rg Hn m ptr size [] null (holds_end _ _ _ H) A M1 M3 Z P').
Qed.

(** ** Nonrelocatable scanners *)
Lemma steps_det : forall St (o : ops St) a w x y, steps o a w = Ok x -> steps o a w = Ok y -> x = y.
Proof. congruence. Qed.
Lemma alike_trans : forall k1 k2 k3 a b c, alike k1 k2 a b -> alike k2 k3 b c -> alike k1 k3 a c.
Proof.
  intros k1 k2 k3 a b c [E1 H1] [E2 H2]. split; [congruence|]. intros w Hw. destruct (H1 w Hw) as (x & y & X & Y & Q). destruct (H2 w Hw) as (y' & z & Y' & Z & Q').
  exists x, z. splits; auto. rewrite Y in Y'. apply ok_inj in Y'. subst y'. congruence.
Qed.
Lemma convert_alike : forall k k' buf null s Ls, obtained k s Ls -> k_nmask k' = k_nmask k -> s_null s = false -> placed k' (convert_scanner k k' buf null s) ->
  alike k k' s (convert_scanner k k' buf null s).
Proof.
  intros k k' buf null s Ls O Hk NN P. destruct (obtained_faithful _ _ _ O) as [Hn Rg Nu Co (cls & t & M & S & T)]. unfold convert_scanner in *. rewrite NN in *.
  assert (S' : shows k' (deep_copy k k' buf s) cls t) by (apply deep_copy_ok; auto; apply header_small; lia).
  exact (shows_alike _ _ s _ cls cls t M S S').
Qed.
Lemma convert_null : forall k k' buf b0 null s, default_scanner k' b0 = Ok null -> s_null (convert_scanner k k' buf null s) = s_null s.
Proof. intros k k' buf b0 null s D. unfold convert_scanner. destruct (s_null s) eqn:E; auto. eapply default_null; eauto. Qed.
Lemma back_placed : forall n buf null s Ls, obtained (mkKind true n) s Ls -> placed (mkKind false n) null -> user_address buf ->
  placed (mkKind false n) (convert_scanner (mkKind true n) (mkKind false n) buf null s).
Proof.
  intros n buf null s Ls O Pn [U1 U2]. unfold convert_scanner. destruct (s_null s); auto.
  destruct (obtained_ok _ _ _ O) as [[Hn Rg Nu Co (cls & t & M & S & T)] Fi]. cbn [k_nmask] in Hn.
  pose proof (st_nl n s cls t M S Hn) as NL. pose proof (sh_placed _ _ _ _ S) as [P1 P2 P3]. specialize (P3 eq_refl). pose proof (row_bytes_16 n s) as R16.
  assert (R : row_bytes (mkKind false n) (s_nletters s) <= 8000) by (apply row_bytes_le; auto).
  assert (Q : s_states s <= 134217728) by (unfold two31 in P3; nia).
  assert (Q' : s_states s * row_bytes (mkKind false n) (s_nletters s) <= 134217728 * 8000) by (apply N.mul_le_mono; lia).
  pose proof (ft_fsize _ Fi) as Fs.
  split; unfold s_base; cbn [deep_copy s_buf s_states s_nletters s_fsize]; [exact U1| |discriminate].
  unfold two64, two32, MaxChar in *. lia.
Qed.
Lemma nonreloc_save_load : forall n s Ls b b0 rnull, obtained (mkKind false n) s Ls -> default_scanner (mkKind true n) b0 = Ok rnull ->
  placed (mkKind true n) (convert_scanner (mkKind false n) (mkKind true n) b rnull s) ->
  exists img, save_scanner (mkKind false n) b rnull s = Ok img /\ N.of_nat (length img) mod 8 = 0 /\
  forall b1 b2 b3 buf rnull' null throws rest, default_scanner (mkKind true n) b1 = Ok rnull' -> placed (mkKind true n) rnull' ->
    default_scanner (mkKind false n) b2 = Ok null -> placed (mkKind false n) null -> user_address b3 -> user_address buf ->
    exists s', load_scanner (mkKind false n) b3 buf rnull' null (mkStream throws (img ++ rest)) = Ok (s', mkStream throws rest) /\
      obtained (mkKind false n) s' Ls /\ s_null s' = s_null s /\ (s_null s = false -> alike (mkKind false n) (mkKind false n) s s').
Proof.
  intros n s Ls b b0 rnull O D P. pose proof (ob_convert _ (mkKind true n) _ _ _ _ _ O eq_refl D P) as Or. pose proof (convert_null (mkKind false n) _ b _ _ s D) as Nr.
  assert (Al : s_null s = false -> alike (mkKind false n) (mkKind true n) s (convert_scanner (mkKind false n) (mkKind true n) b rnull s))
    by (intros; eapply convert_alike; eauto).
  assert (Ow : s_owned (convert_scanner (mkKind false n) (mkKind true n) b rnull s) = true \/ s_null (convert_scanner (mkKind false n) (mkKind true n) b rnull s) = true).
  { unfold convert_scanner. destruct (s_null s); [right; eapply default_null; eauto|left; reflexivity]. }
  unfold save_scanner. cbn [k_reloc k_nmask]. destruct (scanner_save_ok _ _ _ Or Ow) as (img & E & A). exists img. splits; auto.
  intros b1 b2 b3 buf rnull' null th rest D1 P1 D2 P2 U1 U2.
  destruct (scanner_load_ok _ _ _ img b3 b1 rnull' th rest Or E D1 P1 U1) as (s1 & L1 & O1 & N1 & A1).
  unfold load_scanner. cbn [k_reloc k_nmask]. rewrite L1. cbn [bind]. eexists. split; [reflexivity|].
  assert (P3 : placed (mkKind false n) (convert_scanner (mkKind true n) (mkKind false n) buf null s1)) by (eapply back_placed; eauto).
  splits.
  - eapply (ob_convert (mkKind true n)); eauto.
  - rewrite (convert_null _ _ _ _ _ _ D2). congruence.
  - intros NN. rewrite Nr in N1, A1. destruct (A1 NN) as [_ A1']. eapply alike_trans; [apply Al; auto|]. eapply alike_trans; [exact A1'|]. eapply convert_alike; eauto.
Qed.

(** ** SimpleScanner *)
Lemma simple_default_null : forall b s, simple_default b = Ok s -> p_null s = true.
Proof. intros b s E. destruct (simple_default_inv _ _ E) as (s0 & _ & ->). reflexivity. Qed.
Lemma simple_save_user : forall s Ls, obtained_simple s Ls -> p_owned s = true \/ p_null s = true ->
  exists img, save_simple s = Ok img /\ N.of_nat (length img) mod 8 = 0.
Proof.
  intros s Ls O D. destruct (obtained_simple_ok _ _ O) as [(Nu & Nf & t & S & _) F].
  rewrite (simple_save_ok s t S). destruct (p_null s).
  - exists (simple_front s true). split; [reflexivity|]. rewrite (simple_front_length s t S). reflexivity.
  - destruct D as [-> |D]; [|discriminate D]. exists (simple_front s false ++ array 8 (p_words s)). split; [reflexivity|].
    rewrite app_length, (simple_front_length s t S), Nat2N.inj_add, (table_length s t S). destruct (simple_size s t S) as (_ & E & _).
    rewrite N.add_mod, E by lia. reflexivity.
Qed.
Lemma simple_load_user : forall s Ls img buf b0 null throws rest, obtained_simple s Ls -> save_simple s = Ok img -> simple_default b0 = Ok null -> simple_placed null ->
  buf + p_states s * 265 * 8 <= 18446744073709551616 ->
  exists s', load_simple buf null (mkStream throws (img ++ rest)) = Ok (s', mkStream throws rest) /\ obtained_simple s' Ls /\
    p_null s' = p_null s /\ (p_null s = false -> alike_simple s s').
Proof.
  intros s Ls img buf b0 null th rest O E D P Sm. destruct (obtained_simple_ok _ _ O) as [(Nu & Nf & t & S & _) F].
  pose proof E as E0. rewrite (simple_save_ok s t S) in E. destruct (p_null s) eqn:NN.
  - apply ok_inj in E. subst img. exists null. pose proof (simple_load_front s t S true th buf null rest) as L. cbv iota in L. split; [exact L|]. splits.
    + exact (os_load buf b0 null s Ls _ th rest null _ O E0 D L P).
    + exact (simple_default_null _ _ D).
    + intros X; discriminate X.
  - destruct (p_owned s) eqn:Ow; [|discriminate E]. apply ok_inj in E. subst img. exists (simple_rebase buf true s).
    assert (P' : simple_placed (simple_rebase buf true s)) by exact Sm.
    pose proof (simple_load_image s t S F th rest buf null P') as L. split; [exact L|]. splits.
    + exact (os_load buf b0 null s Ls _ th rest _ _ O E0 D L P').
    + reflexivity.
    + intros _. exact (simple_shows_alike s _ t S (simple_shows_rebase s t buf true S P')).
Qed.
Lemma simple_mmap_user : forall this s Ls img m ptr size, obtained_simple s Ls -> save_simple s = Ok img -> p_null s = false ->
  holds m ptr img -> ptr mod 8 = 0 -> mappable ptr size -> N.of_nat (length img) <= size + 7 ->
  exists s', mmap_simple this m ptr size = Ok (s', ptr + N.of_nat (length img)) /\ obtained_simple s' Ls /\ p_null s' = false /\ alike_simple s s'.
Proof.
  intros this s Ls img m ptr size O E NN H A Mp Z. destruct (obtained_simple_ok _ _ O) as [(Nu & Nf & t & S & _) F].
  pose proof Mp as (M1 & M2 & M3). pose proof E as E0. pose proof H as H0. rewrite (simple_save_ok s t S), NN in E.
  destruct (p_owned s) eqn:Ow; [|discriminate E]. apply ok_inj in E. subst img. exists (simple_rebase (ptr + 48) false s).
  rewrite app_length, (simple_front_length s t S), Nat2N.inj_add, (table_length s t S) in Z. change (N.of_nat 48) with 48 in Z.
  pose proof (simple_mmap_image s t S F m ptr size [] this (holds_end _ _ _ H) A M1 M3 Z) as L. split; [exact L|]. splits.
  - exact (os_mmap this s Ls _ m ptr size _ _ O NN E0 H0 Mp L).
  - reflexivity.
  - destruct (simple_size s t S) as (Sz & _). apply (simple_shows_alike s _ t S). apply simple_shows_rebase; auto.
    rewrite <- Sz. clear - Z M3 M1. unfold two64 in *. lia.
Qed.
Lemma simple_mmap_cut : forall this s Ls img m ptr size, obtained_simple s Ls -> save_simple s = Ok img ->
  holds m ptr img -> mappable ptr size -> size + 7 < N.of_nat (length img) -> mmap_simple this m ptr size = Throw EImage.
Proof.
  intros this s Ls img m ptr size O E H (M1 & M2 & M3) Z. destruct (obtained_simple_ok _ _ O) as [(Nu & Nf & t & S & _) F].
  destruct (N.eqb_spec (ptr mod 8) 0) as [A|A].
  2:{ unfold mmap_simple, check_align. destruct (N.eqb_spec (ptr mod 8) 0); [contradiction|reflexivity]. }
  rewrite (simple_save_ok s t S) in E. destruct (p_null s).
  - apply ok_inj in E. subst img. rewrite (simple_front_length s t S) in Z. apply (simple_mmap_short s t S m ptr size true [] this (holds_end _ _ _ H) A M1 M2 M3).
    clear - Z. lia.
  - destruct (p_owned s); [|discriminate E]. apply ok_inj in E. subst img.
    rewrite app_length, (simple_front_length s t S), Nat2N.inj_add, (table_length s t S) in Z. change (N.of_nat 48) with 48 in Z.
    exact (simple_mmap_short s t S m ptr size false _ this H A M1 M2 M3 Z).
Qed.
(** An empty image leaves the object as it was. *)
Lemma simple_mmap_empty : forall this s Ls img m ptr size, obtained_simple s Ls -> save_simple s = Ok img -> p_null s = true ->
  holds m ptr img -> ptr mod 8 = 0 -> mappable ptr size -> N.of_nat (length img) <= size -> mmap_simple this m ptr size = Ok (this, ptr + N.of_nat (length img)).
Proof.
  intros this s Ls img m ptr size O E NN H A (M1 & M2 & M3) Z. destruct (obtained_simple_ok _ _ O) as [(Nu & Nf & t & S & _) F].
  rewrite (simple_save_ok s t S), NN in E. apply ok_inj in E. subst img. rewrite (simple_front_length s t S) in *.
  rewrite (simple_mmap_front s t S m ptr size true [] this (holds_end _ _ _ H) A M3 M2 M1). destruct (N.ltb_spec size 42); [clear - Z H0; lia|]. reflexivity.
Qed.

(** ** SlowScanner *)
Lemma slow_save_user : forall s Ls, obtained_slow s Ls -> (exists v, w_jumps s = InVec v) \/ w_null s = true ->
  exists img, save_slow s = Ok img /\ N.of_nat (length img) mod 8 = 0.
Proof.
  intros s Ls O D. destruct (obtained_slow_ok _ _ O) as (A & F & Nl). assert (V : exists v, w_jumps s = InVec v) by (destruct D as [|D]; auto). destruct V as [v J].
  rewrite (slow_save_ok s v J). destruct (w_null s).
  - exists (slow_front s true). split; [reflexivity|]. rewrite slow_front_length. reflexivity.
  - exists (slow_front s false ++ slow_body s v). split; [reflexivity|].
    rewrite app_length, slow_front_length, Nat2N.inj_add, (body_length s v F J (lfaithful_start _ _ A)). change (N.of_nat 56) with 56.
    destruct (padding_facts (w_states s)) as [_ P1]. destruct (padding_facts (4 * total v)) as [_ P2].
    apply N.mod_divide in P1; [|lia]. apply N.mod_divide in P2; [|lia]. destruct P1 as [y ->]. destruct P2 as [z ->].
    replace (56 + (2112 + y * 8 + 8 * count s + z * 8)) with ((271 + y + count s + z) * 8) by lia. apply N.mod_mul. lia.
Qed.
Lemma slow_load_user : forall s Ls img null old throws rest, obtained_slow s Ls -> save_slow s = Ok img -> N.of_nat (length img) < 18446744073709551616 ->
  slow_default = Ok null -> exists s', load_slow old null (mkStream throws (img ++ rest)) = Ok (s', mkStream throws rest) /\ obtained_slow s' Ls /\
    w_null s' = w_null s /\ (w_null s = false -> s' = s).
Proof.
  intros s Ls img null old th rest O E Z D. destruct (obtained_slow_ok _ _ O) as (A & F & Nl). destruct (save_slow_vec _ _ Nl E) as [v J].
  pose proof E as E0. rewrite (slow_save_ok s v J) in E. apply ok_inj in E. destruct (w_null s) eqn:NN.
  - subst img. destruct (slow_default_inv _ D) as (s0 & _ & Nn).
    assert (L : load_slow old null (mkStream th (slow_front s true ++ rest)) = Ok (null, mkStream th rest)).
    { unfold load_slow, slow_front. rewrite <- !app_assoc. rewrite load_header_ok by (repeat split; reflexivity). cbn [bind].
      rewrite aligned_load_ok by (rewrite slow_locals_length; reflexivity). cbn [bind]. rewrite (aligned_load_ok 1) by reflexivity. reflexivity. }
    exists null. split; [exact L|]. splits.
    + exact (ol_load null s Ls _ old th rest null _ O E0 Z D L).
    + rewrite Nn. reflexivity.
    + intros X; discriminate X.
  - subst img. pose proof Z as Z'. rewrite app_length in Z'. assert (Zb : lenN (slow_body s v) < two64) by (unfold two64; lia).
    pose proof (slow_load_image s v F J (lfaithful_start _ _ A) Zb old null th rest NN) as L. exists s. split; [exact L|]. splits; auto.
Qed.
Lemma slow_mmap_user : forall this s Ls img m ptr size, obtained_slow s Ls -> save_slow s = Ok img -> w_null s = false -> N.of_nat (length img) < 18446744073709551616 ->
  holds m ptr img -> ptr mod 8 = 0 -> mappable ptr size -> N.of_nat (length img) <= size ->
  exists s', mmap_slow this m ptr size = Ok (s', ptr + N.of_nat (length img)) /\ obtained_slow s' Ls /\ w_null s' = false /\ alike_slow s s'.
Proof.
  intros this s Ls img m ptr size O E NN Z H A8 Mp Sz. destruct (obtained_slow_ok _ _ O) as (A & F & Nl). destruct (save_slow_vec _ _ Nl E) as [v J].
  pose proof Mp as (M1 & M2 & M3). pose proof E as E0. rewrite (slow_save_ok s v J), NN in E. apply ok_inj in E. subst img.
  pose proof Z as Z'. rewrite app_length in Z'. assert (Zb : lenN (slow_body s v) < two64) by (unfold two64; lia).
  pose proof (slow_mmap_case s v F J (lfaithful_start _ _ A) Zb m ptr size [] this (holds_end _ _ _ H) A8 M1 M2 M3) as L.
  destruct (need_length s v F J (lfaithful_start _ _ A) Zb) as [N1 _]. destruct (N.ltb_spec size (need s v)) as [X|X] in L; [clear - X N1 Sz; lia|].
  exists (slow_mapped s v). split; [exact L|]. splits.
  - exact (ol_mmap this s Ls _ m ptr size _ _ O NN E0 Z H Mp L).
  - reflexivity.
  - exact (mapped_alike s v Ls J A).
Qed.
Lemma slow_mmap_cut : forall this s Ls img m ptr size, obtained_slow s Ls -> save_slow s = Ok img -> w_null s = false -> N.of_nat (length img) < 18446744073709551616 ->
  holds m ptr img -> mappable ptr size -> size + 18 < N.of_nat (length img) -> mmap_slow this m ptr size = Throw EImage.
Proof.
  intros this s Ls img m ptr size O E NN Z H (M1 & M2 & M3) Sz. destruct (obtained_slow_ok _ _ O) as (A & F & Nl). destruct (save_slow_vec _ _ Nl E) as [v J].
  destruct (N.eqb_spec (ptr mod 8) 0) as [A8|A8].
  2:{ unfold mmap_slow, check_align. destruct (N.eqb_spec (ptr mod 8) 0); [contradiction|reflexivity]. }
  rewrite (slow_save_ok s v J), NN in E. apply ok_inj in E. subst img.
  pose proof Z as Z'. rewrite app_length in Z'. assert (Zb : lenN (slow_body s v) < two64) by (unfold two64; lia).
  rewrite (slow_mmap_case s v F J (lfaithful_start _ _ A) Zb m ptr size [] this (holds_end _ _ _ H) A8 M1 M2 M3).
  destruct (need_length s v F J (lfaithful_start _ _ A) Zb) as [_ N1]. destruct (N.ltb_spec size (need s v)) as [X|X]; [reflexivity|clear - X N1 Sz; lia].
Qed.

Lemma only_holds : forall p l, Forall byte l -> holds (only p l) p l.
Proof.
  intros p l B. split; auto. intros i Hi. unfold only. destruct (N.ltb_spec (p + N.of_nat i) p); [lia|].
  replace (N.to_nat (p + N.of_nat i - p)) with i by lia. apply nth_error_nth'. auto.
Qed.
Lemma bytes_check : forall l, forallb (fun c => c <? 256) l = true -> Forall byte l.
Proof. intros l H. rewrite forallb_forall in H. apply Forall_forall. intros x X. apply N.ltb_lt. auto. Qed.
