(** Every scanner the interface gives is faithful. *)
From Coq Require Import List Bool Arith NArith Lia Sorted.
From Verif Require Import Util Spec PartitionModel FsmModel DetermineModel FsmSem FsmBasics PartitionProofs DetGeneric DetProofs MinimizeModel MinProofs CompProofs FsmOps DeadProofs Nfa
  RunModel RunSpec RunProofs PrefixProofs Api ApiProofs BuildFacts ScannerModel ScannerSpec ScannerProofs ScannerBuild ScannerCompile ScannerCopy GlueModel GlueTable GlueProofs ScannerFits IoModel IoBytes ScannerIo ScannerApi HalfModel HalfSpec HalfTurn HalfTable HalfMake.
Import ListNotations.

Record tells (t : machine) (n : N) (Ls : list lang) : Prop := {
  te_ids : forall q, q < m_states t -> ids_ok n (m_accepted t q);
  te_final : forall w, is_word w -> (m_final t (m_run t (m_start t) w) = true <-> exists L, In L Ls /\ L w);
  te_dead : forall w, is_word w -> (m_dead t (m_run t (m_start t) w) = true <-> forall L v, In L Ls -> is_word v -> ~ L (w ++ v));
  te_acc : forall w i, is_word w -> (In i (m_accepted t (m_run t (m_start t) w)) <-> exists L, nth_error Ls (N.to_nat i) = Some L /\ L w)
}.
Record faithful (k : kind) (s : scanner) (Ls : list lang) : Prop := mkFaithful {
  fa_nmask : k_nmask k <= 64;
  fa_rg : (s_regexps s < two32)%N;
  fa_null : s_null s = true -> s_owned s = false /\ Ls = [];
  fa_count : s_count s = N.of_nat (length Ls);
  fa_shows : exists cls t, machine_ok t /\ shows k s cls t /\ tells t (s_regexps s) Ls
}.

Lemma run_lt : forall t, machine_ok t -> forall w q, q < m_states t -> is_word w -> m_run t q w < m_states t.
Proof.
  intros t M. induction w as [|c w IH]; intros q Hq Hw; [exact Hq|]. inversion Hw; subst. unfold m_run. cbn [fold_left]. apply IH; auto. apply M; auto.
Qed.
Lemma faithful_reports : forall k s Ls, faithful k s Ls -> reports k s Ls.
Proof.
  intros k s Ls [_ _ _ _ (cls & t & M & S & T)] w Hw.
  destruct (steps_addr k s cls t S M w (m_start t) (mo_start _ M) Hw) as [E L].
  exists (addr k s (m_run t (m_start t) w)). rewrite (sh_init _ _ _ _ S). splits; auto.
  - eexists. split; [apply (final_addr k s cls t S); auto|apply (te_final _ _ _ T); auto].
  - eexists. split; [apply (dead_addr k s cls t S); auto|apply (te_dead _ _ _ T); auto].
  - eexists. splits; [apply (accepted_addr k s cls t S); auto|apply (te_ids _ _ _ T); auto|intros; apply (te_acc _ _ _ T); auto].
Qed.

(** ** Compile *)
Lemma compile_tells : forall g d, wf g -> det_any g -> dead_states g = Ok d ->
  tells (machine_of g d) 1 [accepts g].
Proof.
  intros g d W D Ed. assert (Hi : initial g < size g) by apply W.
  assert (A : forall w, accepts g w <-> acc_from g (initial g) w) by (intros; reflexivity).
  split; auto.
  - intros q Hq. cbn [machine_of m_accepted]. destruct (is_final g q); split; repeat constructor.
  - intros w Hw. cbn [m_start machine_of]. rewrite machine_final by auto. split.
    + intros H. exists (accepts g). split; [left; auto|]. apply A. auto.
    + intros (L & [<-|[]] & H). apply A. auto.
  - intros w Hw. change (m_start (machine_of g d)) with (initial g). destruct (machine_path g d W D w (initial g) Hi Hw) as [P L].
    rewrite (machine_dead g d W D Ed) by (auto; exists w; auto). split.
    + intros H L0 v [<-|[]] Hv X. apply (H v Hv). apply A in X. destruct X as [q [Px Fx]]. apply path_split in Px as (m & P1 & P2).
      rewrite (tpath_fun g W D w _ _ _ P P1). exists q. auto.
    + intros H v Hv X. apply (H (accepts g) v); auto; [left; auto|]. apply A. destruct X as [q [Px Fx]]. exists q. split; auto. eapply path_app; eauto.
  - intros w i Hw. cbn [m_start machine_of m_accepted]. pose proof (machine_final g d W D w (initial g) Hi Hw) as F. cbn [machine_of m_final] in F.
    set (q := m_run _ _ _) in *. clearbody q. destruct (is_final g q).
    + split.
      * intros [<-|[]]. exists (accepts g). split; auto. apply A, F. auto.
      * intros (L & E & X). left. destruct (N.to_nat i) as [|[|j]] eqn:Ei; [lia|discriminate|discriminate].
    + split; [intros []|]. intros (L & E & X). destruct (N.to_nat i) as [|[|j]] eqn:Ei; [|discriminate|discriminate].
      apply some_inj in E. subst L. apply A in X. apply F in X. discriminate.
Qed.
Lemma tells_eq : forall t n L M, lang_eq L M -> tells t n [L] -> tells t n [M].
Proof.
  intros t n L M E [T2 T3 T4 T5]. split; auto.
  - intros w Hw. rewrite (T3 w Hw). split; intros (X & [<-|[]] & Y); eexists; (split; [left; reflexivity|apply E; auto]).
  - intros w Hw. rewrite (T4 w Hw). split; intros H X v [<-|[]] Hv Y; [apply (H L v)|apply (H M v)]; auto; try (left; auto); apply E; auto.
  - intros w i Hw. rewrite (T5 w i Hw). split; intros (X & A & B); destruct (N.to_nat i) as [|[|]]; try discriminate; apply some_inj in A; subst X;
      eexists; (split; [reflexivity|apply E; auto]).
Qed.
Lemma compile_faithful : forall k buf f s, k_nmask k <= 64 -> built f -> compile k buf f = Ok s -> placed k s -> faithful k s [accepts f].
Proof.
  intros k buf f s Hn B E P. destruct (compile_ok k buf f B Hn s E) as (g & d & C & Bg & W & D & R & Ed & LE & M & Sh & F1 & F2 & F3 & F4 & _).
  split; auto.
  - rewrite F2. reflexivity.
  - rewrite F4. discriminate.
  - unfold s_count. rewrite F4, F2. reflexivity.
  - exists (cls_of (letters g)), (machine_of g d). splits; auto. rewrite F2. eapply tells_eq; [exact LE|]. apply compile_tells; auto.
Qed.

(** ** Half-final scanners *)
Lemma table_faithful : forall k buf g L s, k_nmask k <= 64 -> made g L -> table_of k buf g = Ok s -> placed k s -> faithful k s [L] /\ fits s.
Proof.
  intros k buf g L s Hn [W D Z LE] E P. pose proof (zt_tag g Z) as T. split; [|eapply table_fits; eauto].
  destruct (table_ok k buf g Hn W D T s E) as (d & Ed & M & Sh & _ & F2 & _ & F4 & _).
  split; auto.
  - rewrite F2. reflexivity.
  - rewrite F4. discriminate.
  - unfold s_count. rewrite F4, F2. reflexivity.
  - exists (cls_of (letters g)), (machine_of g d). splits; auto. rewrite F2. eapply tells_eq; [exact LE|]. apply compile_tells; auto.
Qed.
Lemma half_faithful : forall k buf f s, k_nmask k <= 64 -> built f -> half_compile k buf f 0 = Ok s -> placed k s ->
  faithful k s [half_lang (accepts f)] /\ fits s.
Proof.
  intros k buf f s Hn B E P. unfold half_compile in E. destruct (make_scanner_ok f B) as [(g & Eg & M & _)|X]; [|rewrite X in E; discriminate E].
  rewrite Eg in E. cbn [bind] in E. exact (table_faithful k buf g _ s Hn M E P).
Qed.
Lemma half_made_ok : forall f g L, built f -> half_made f g L -> made g L.
Proof.
  intros f g L B [g' E|i sm g' E].
  - destruct (make_scanner_ok f B) as [(g0 & Eg & M & _)|X]; [|rewrite X in E; discriminate E]. rewrite Eg in E. apply ok_inj in E. subst g'. exact M.
  - destruct (make_non_greedy_ok i sm f B) as [(g0 & Eg & M & _)|X]; [|rewrite X in E; discriminate E]. rewrite Eg in E. apply ok_inj in E. subst g'. exact M.
Qed.
Lemma half_fsm_faithful : forall k buf f g L s, k_nmask k <= 64 -> built f -> half_made f g L -> half_compile_counter k buf g = Ok s -> placed k s ->
  faithful k s [L] /\ fits s.
Proof.
  intros k buf f g L s Hn B H E P. apply half_made_ok in H; [|exact B]. pose proof H as [W D Z LE].
  rewrite (counter_table k buf g Hn W D (zt_tag g Z)) in E. exact (table_faithful k buf g L s Hn H E P).
Qed.

(** ** The default scanner *)
Definition empty_of (s : scanner) : scanner := mkScanner (s_states s) (s_nletters s) (s_regexps s) (s_initial s) (s_fsize s) (s_buf s)
    (s_letters s) (s_final s) (s_index s) (s_rows s) false true.
Lemma default_inv : forall k buf s, default_scanner k buf = Ok s -> exists s0, compile k buf make_false = Ok s0 /\ s = empty_of s0.
Proof.
  intros k buf s. unfold default_scanner. generalize (compile k buf make_false). intros [s0| | |] E; try discriminate. cbn [bind] in E. apply ok_inj in E.
  exists s0. split; auto.
Qed.
Lemma default_faithful : forall k buf s, k_nmask k <= 64 -> default_scanner k buf = Ok s -> placed k s -> faithful k s [].
Proof.
  intros k buf s Hn E P. apply default_inv in E as (s0 & C & ->). assert (P0 : placed k s0) by (destruct P as [P1 P2 P3]; split; assumption). clear P.
  destruct (compile_faithful k buf make_false s0 Hn built_false C P0) as [_ Rg Nu Co (cls & t & M & S & T)]. clear C P0.
  split; auto.
  exists cls, t. splits; auto.
  - destruct S as [Pl ? ? ? ? ?]. split; try assumption. destruct Pl; split; assumption.
  - assert (NA : forall w, ~ accepts make_false w) by (intros w X; apply make_false_lang in X; exact X). destruct T as [T2 T3 T4 T5]. split; auto.
    + intros w Hw. rewrite (T3 w Hw). split; [|intros (L & [] & _)]. intros (L & [<-|[]] & X). destruct (NA w X).
    + intros w Hw. rewrite (T4 w Hw). split; [intros _ L v []|]. intros _ L v [<-|[]] _. apply NA.
    + intros w i Hw. rewrite (T5 w i Hw). split; intros (L & X & Y).
      * destruct (N.to_nat i) as [|[|]]; try discriminate. apply some_inj in X. subst L. destruct (NA w Y).
      * destruct (N.to_nat i); discriminate.
Qed.

(** ** Copying and converting *)
Lemma copy_faithful : forall k buf s Ls, faithful k s Ls -> placed k (copy_scanner k buf s) -> faithful k (copy_scanner k buf s) Ls.
Proof.
  intros k buf s Ls F P. unfold copy_scanner in *. destruct (s_owned s) eqn:O; auto. destruct F as [Hn Rg Nu Co (cls & t & M & S & T)].
  assert (NN : s_null s = false) by (destruct (s_null s); auto; destruct (Nu eq_refl); congruence).
  split; auto.
  - discriminate.
  - rewrite <- Co. unfold s_count. rewrite NN. reflexivity.
  - exists cls, t. splits; auto. apply deep_copy_ok; auto; apply header_small; auto.
Qed.
Lemma convert_faithful : forall k k' buf b0 null s Ls, faithful k s Ls -> k_nmask k' = k_nmask k -> default_scanner k' b0 = Ok null ->
  placed k' (convert_scanner k k' buf null s) -> faithful k' (convert_scanner k k' buf null s) Ls.
Proof.
  intros k k' buf b0 null s Ls [Hn Rg Nu Co (cls & t & M & S & T)] Hk D P. unfold convert_scanner in *. destruct (s_null s) eqn:NN.
  - destruct (Nu eq_refl) as [_ ->]. apply (default_faithful k' b0); auto. lia.
  - split; auto.
    + lia.
    + discriminate.
    + rewrite <- Co. unfold s_count. rewrite NN. reflexivity.
    + exists cls, t. splits; auto. apply deep_copy_ok; auto; apply header_small; lia.
Qed.

(** ** Glue *)
Lemma glue_tells : forall tl tr t n m La Lb, n = N.of_nat (length La) -> tells tl n La -> tells tr m Lb ->
  (forall q, q < m_states t -> ids_ok (n + m) (m_accepted t q)) ->
  (forall w, is_word w ->
    let q := m_run t (m_start t) w in let ql := m_run tl (m_start tl) w in let qr := m_run tr (m_start tr) w in
    m_final t q = m_final tl ql || m_final tr qr /\ m_dead t q = m_dead tl ql && m_dead tr qr /\
    m_accepted t q = m_accepted tl ql ++ map (fun i => (i + n)%N) (m_accepted tr qr)) ->
  tells t (n + m) (La ++ Lb).
Proof.
  intros tl tr t n m La Lb En Tl Tr I H. split; auto.
  - intros w Hw. destruct (H w Hw) as (-> & _ & _). rewrite orb_true_iff, (te_final _ _ _ Tl w Hw), (te_final _ _ _ Tr w Hw). split.
    + intros [(L & A & B)|(L & A & B)]; exists L; split; auto; apply in_or_app; auto.
    + intros (L & A & B). apply in_app_or in A as [A|A]; [left|right]; eauto.
  - intros w Hw. destruct (H w Hw) as (_ & -> & _). rewrite andb_true_iff, (te_dead _ _ _ Tl w Hw), (te_dead _ _ _ Tr w Hw). split.
    + intros [A B] L v X. apply in_app_or in X as [X|X]; eauto.
    + intros A. split; intros L v X; apply A; apply in_or_app; auto.
  - intros w i Hw. destruct (H w Hw) as (_ & _ & ->). rewrite in_app_iff, (te_acc _ _ _ Tl w i Hw), in_map_iff. split.
    + intros [(L & A & B)|(j & <- & X)].
      * exists L. split; auto. apply nth_error_app_l. auto.
      * apply (te_acc _ _ _ Tr w j Hw) in X as (L & A & B). exists L. split; auto. rewrite nth_error_app2 by lia.
        replace (N.to_nat (j + n) - length La) with (N.to_nat j) by lia. auto.
    + intros (L & A & B). destruct (Nat.lt_ge_cases (N.to_nat i) (length La)).
      * left. rewrite nth_error_app1 in A by auto. eauto.
      * right. rewrite nth_error_app2 in A by auto. exists (i - n)%N. split; [lia|]. apply (te_acc _ _ _ Tr w _ Hw). exists L. split; auto.
        replace (N.to_nat (i - n)) with (N.to_nat i - length La) by lia. auto.
Qed.
Lemma null_default : forall k b null, default_scanner k b = Ok null -> s_null null = true /\ s_owned null = false.
Proof.
  intros k b null E. apply default_inv in E as (s0 & _ & ->). auto.
Qed.
Lemma glue_faithful : forall k b0 b1 b2 null l r maxSize s La Lb, faithful k l La -> faithful k r Lb -> default_scanner k b0 = Ok null ->
  glue k b1 b2 null l r maxSize = Ok s -> (s_null s = true -> s_null l = true \/ s_null r = true) -> (maxSize <= 262141)%N ->
  room k b1 s -> placed k s -> faithful k s (La ++ Lb).
Proof.
  intros k b0 b1 b2 null l r maxSize s La Lb Fl Fr D E NF LM R P. destruct (null_default _ _ _ D) as [N1 N2].
  destruct (s_null l) eqn:NL.
  { destruct (fa_null _ _ _ Fl NL) as [_ ->]. unfold glue in E. rewrite NL in E. apply ok_inj in E. subst s. apply copy_faithful; auto. }
  destruct (s_null r) eqn:NR.
  { destruct (fa_null _ _ _ Fr NR) as [_ ->]. unfold glue in E. rewrite NL, NR in E. apply ok_inj in E. subst s. rewrite app_nil_r. apply copy_faithful; auto. }
  assert (NS : s_null s = false) by (destruct (s_null s); auto; destruct NF; auto; discriminate). clear NF.
  destruct Fl as [Hn Rgl _ Col (cl & tl & Ml & Sl & Tl)]. destruct Fr as [_ Rgr _ Cor (cr & tr & Mr & Sr & Tr)].
  assert (Cl : s_regexps l = N.of_nat (length La)) by (rewrite <- Col; unfold s_count; rewrite NL; auto).
  assert (Cr : s_regexps r = N.of_nat (length Lb)) by (rewrite <- Cor; unfold s_count; rewrite NR; auto).
  assert (LL : ((if maxSize =? 0 then 80000 else maxSize) <= 262141)%N) by (destruct (maxSize =? 0)%N; lia).
  assert (HS := header_small k Hn).
  assert (NTM : ~ too_many k l r maxSize).
  { intros TM. rewrite (glue_too_many k l r cl cr tl tr Sl Ml Sr Mr HS NL NR Rgl Rgr b1 b2 null maxSize LL TM) in E. apply ok_inj in E. congruence. }
  destruct (glue_fits k l r cl cr tl tr Sl Ml Sr Mr HS NL NR Rgl Rgr (te_ids _ _ _ Tl) (te_ids _ _ _ Tr) b1 b2 null maxSize LL NTM) as
    (s' & t & E' & M & Sh & O & I & F1 & F2 & F3 & F4 & F5 & F6 & F7 & F8); [right; eauto|].
  rewrite E in E'. apply ok_inj in E'. subst s'. destruct (Sh R P) as [cls S].
  split; auto.
  - congruence.
  - unfold s_count. rewrite F4, F2, app_length. lia.
  - exists cls, t. splits; auto. rewrite F2. apply glue_tells with (tl := tl) (tr := tr); auto. rewrite <- F2. auto.
Qed.

(** ** Images *)
Lemma rebase_fits : forall buf owned s, fits s -> fits (rebase buf owned s).
Proof. intros buf owned s []. split; auto. Qed.
Lemma rebase_faithful : forall n buf owned s Ls, faithful (mkKind true n) s Ls -> s_null s = false -> placed (mkKind true n) (rebase buf owned s) ->
  faithful (mkKind true n) (rebase buf owned s) Ls.
Proof.
  intros n buf owned s Ls [Hn Rg Nu Co (cls & t & M & S & T)] NN P. split; auto.
  - discriminate.
  - rewrite <- Co. unfold s_count. rewrite NN. reflexivity.
  - exists cls, t. splits; auto. apply shows_rebase; auto.
Qed.
Lemma load_faithful : forall n buf b0 null s Ls img throws rest s' st, faithful (mkKind true n) s Ls -> fits s -> save_reloc n s = Ok img ->
  default_scanner (mkKind true n) b0 = Ok null -> load_reloc n buf null (mkStream throws (img ++ rest)) = Ok (s', st) ->
  placed (mkKind true n) s' -> faithful (mkKind true n) s' Ls /\ fits s'.
Proof.
  intros n buf b0 null s Ls img th rest s' st Fa Fi Sv D Ld P. pose proof Fa as [Hn Rg Nu Co (cls & t & M & S & T)]. cbn [k_nmask] in Hn.
  destruct (load_inv n s cls t M S Fi Rg Hn img th rest buf null s' st Sv Ld) as (_ & [[NN ->]|[NN ->]]); auto.
  - intros H. apply Nu. auto.
  - destruct (Nu NN) as [_ ->]. split; [eapply default_faithful; eauto|eapply default_fits; eauto].
  - split; [apply rebase_faithful; auto|apply rebase_fits; auto].
Qed.
Lemma mmap_faithful : forall n b0 null s Ls img m ptr size s' p, faithful (mkKind true n) s Ls -> fits s -> save_reloc n s = Ok img ->
  default_scanner (mkKind true n) b0 = Ok null -> holds m ptr img -> mappable ptr size -> mmap_scanner n null m ptr size = Ok (s', p) ->
  placed (mkKind true n) s' -> faithful (mkKind true n) s' Ls /\ fits s'.
Proof.
  intros n b0 null s Ls img m ptr size s' p Fa Fi Sv D H (A & B & C) Ld P. pose proof Fa as [Hn Rg Nu Co (cls & t & M & S & T)]. cbn [k_nmask] in Hn.
  destruct (mmap_inv n s cls t M S Fi Rg Hn img m ptr size null s' p Sv H A B C Ld P) as (_ & [[NN ->]|[NN ->]]).
  - destruct (Nu NN) as [_ ->]. split; [eapply default_faithful; eauto|eapply default_fits; eauto].
  - split; [apply rebase_faithful; auto|apply rebase_fits; auto].
Qed.

Lemma obtained_ok : forall k s Ls, obtained k s Ls -> faithful k s Ls /\ fits s.
Proof.
  intros k s Ls H. induction H.
  - split; [eapply compile_faithful; eauto|eapply compile_fits; eauto].
  - eapply half_faithful; eauto.
  - eapply half_fsm_faithful; eauto.
  - split; [eapply default_faithful; eauto|eapply default_fits; eauto].
  - split; [apply copy_faithful; auto; apply IHobtained|apply copy_fits, IHobtained].
  - split; [eapply convert_faithful; eauto; apply IHobtained|apply convert_fits; [eapply default_fits; eauto|apply IHobtained]].
  - destruct IHobtained1, IHobtained2. split; [eapply glue_faithful; eauto|eapply glue_result_fits; [eapply default_fits; eauto| | |eauto]; auto].
  - destruct IHobtained. eapply load_faithful; eauto.
  - destruct IHobtained. eapply mmap_faithful; eauto.
Qed.
Lemma obtained_faithful : forall k s Ls, obtained k s Ls -> faithful k s Ls.
Proof. intros k s Ls H. apply (obtained_ok k s Ls H). Qed.
