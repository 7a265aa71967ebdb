(** When no greedy repetition ends before a letter was read, the match that a capturing scanner
    of a surrounded automaton reports begins as early as any. *)
From Coq Require Import List Bool Arith NArith Lia.
From Verif Require Import Util Spec PartitionModel FsmModel Nfa NfaOps PartitionProofs FsmSem FsmBasics FsmOps FsmOps2 TagFacts ApproxSpec Api BuildFacts ScannerModel SimpleModel
  CapModel CapSpec CapApi CapTable CapRun CapMarks CapMarks2 CapUser CapLeft ApiProofs.
Import ListNotations.
Local Opaque all_letters all_bytes.

Section Surrounded.
  Variable f : fsm.
  Hypothesis W : wf f.
  Hypothesis U : uncompressed f.
  Hypothesis O : outs f.
  Hypothesis NM : no_marks f.
  Hypothesis T : tags f = [].
  Hypothesis Small : (N.of_nat (size f) + 2 <= two32)%N.
  Hypothesis GF : ~ greedy_front f.
  Let g := surround f.
  Let n := size f.
  Let A p q := (output g p q mod two32)%N.

  Definition since (w : list N) (q : nat) (b e : N) (k : nat) : Prop :=
    (q < n /\ exists u m, w = u ++ strip m /\ path (medge f) (initial f) m q /\ b = mark_at u 0 m /\ e = mark_at u 1 m /\ k = length u) \/
    (q = n + 1 /\ exists u m v, w = u ++ strip m ++ v /\ marked f m /\ b = mark_at u 0 m /\ e = mark_at u 1 m /\ k = length u).
  Lemma sreach_since : forall w q b e k, sreach (raw g) (output g) (initial g) w q b e k -> is_word w -> (N.of_nat (length w) < nowhere)%N -> since w q b e k.
  Proof.
    pose proof (g_facts f W U T) as (_ & _ & _ & Ig & _ & _ & _ & R). fold g n in Ig, R. pose proof (wf_init _ W) as WI. fold n in WI.
    assert (AO : forall p q, n <= p \/ n <= q -> (output g p q mod two32 = 0)%N) by exact (A_out f W U O T Small). assert (AE : forall p q, (output g p q mod two32)%N = output f p q) by exact (A_eq f W U O T Small).
    assert (EN : forall p c q, edge f p c q -> p < n /\ q < n) by (intros; eapply edge_bound; eauto).
    intros w q b e k S. induction S as [w b e q Rw Eq Nq|w p b e q k S IH X|w p b e c q k S IH X]; intros Hw L.
    - assert (SW : seen f w (initial g) b e) by (apply (reach_seen f W U O T Small); auto). rewrite Ig in *.
      destruct SW as [(_ & -> & ->)|[(Y & _)|(Y & _)]]; [|fold n in Y; lia|fold n in Y; lia].
      apply R in Eq. rewrite AO by lia. destruct (note_none (N.of_nat (length w)) nowhere nowhere) as [-> ->].
      destruct Eq as [Eq|[(_ & -> & _)|[(_ & _ & ->)|[(Y & _)|(Y & _)]]]]; [apply EN in Eq; lia|contradiction| |apply (wf_fin _ W) in Y; fold n in Y; lia|lia].
      left. split; auto. exists w, []. rewrite app_nil_r. splits; auto. apply path_nil.
    - specialize (IH Hw L). apply R in X.
      assert (Z : (output g p q mod two32 = 0)%N -> since w q b e k -> since w q (note_begin (output g p q mod two32) (N.of_nat (length w)) b) (note_end (output g p q mod two32) (N.of_nat (length w)) e) k).
      { intros ->. destruct (note_none (N.of_nat (length w)) b e) as [-> ->]. auto. }
      destruct X as [X|[(-> & -> & _)|[(-> & _ & ->)|[(X & _ & ->)|(-> & -> & _)]]]].
      + pose proof (EN _ _ _ X) as [B1 B2]. destruct IH as [(Lp & u & m & Ew & P & Eb & Ee & Ek)|(-> & _)]; [|lia].
        rewrite AE. destruct (N.eq_dec (output f p q) 0) as [Z0|Z0].
        * rewrite Z0. left. split; auto. exists u, m. splits; auto. rewrite <- (app_nil_r m). eapply path_app; [exact P|]. apply path_eps1. left. splits; auto. reflexivity.
        * destruct (mark_at_mark u m (output f p q) w Ew L) as [M1 M2]. left. split; auto. exists u, (m ++ [mark (output f p q)]). splits.
          -- rewrite strip_app, strip_mark, app_nil_r. auto.
          -- eapply path_app; [exact P|]. apply path_step1; [apply mark_not_eps|]. right. exists (output f p q). auto.
          -- rewrite M1, Eb. reflexivity.
          -- rewrite M2, Ee. reflexivity.
          -- exact Ek.
      + destruct IH as [(Y & _)|(Y & _)]; lia.
      + destruct IH as [(Y & _)|(Y & _)]; lia.
      + apply Z; [apply AO; lia|]. pose proof (wf_fin _ W _ X) as Lp. fold n in Lp. destruct IH as [(_ & u & m & Ew & P & Eb & Ee & Ek)|(-> & _)]; [|lia].
        right. split; auto. exists u, m, []. rewrite app_nil_r. splits; auto. exists p. auto.
      + apply Z; auto. apply AO. lia.
    - unfold is_word in Hw. apply Forall_app in Hw as [Hw Hc]. inversion Hc as [|? ? [Lc Nc] _]; subst. rewrite app_length in L. cbn [length] in L. specialize (IH Hw ltac:(lia)). apply R in X.
      assert (Z : (output g p q mod two32 = 0)%N -> since (w ++ [c]) q b e k -> since (w ++ [c]) q (note_begin (output g p q mod two32) (N.of_nat (length w) + 1) b) (note_end (output g p q mod two32) (N.of_nat (length w) + 1) e) k).
      { intros ->. destruct (note_none (N.of_nat (length w) + 1)%N b e) as [-> ->]. auto. }
      destruct X as [X|[(-> & -> & _)|[(_ & E & _)|[(_ & E & _)|(-> & -> & _)]]]]; try (exfalso; apply Nc; exact E).
      + pose proof (EN _ _ _ X) as [B1 B2]. destruct IH as [(Lp & u & m & Ew & P & Eb & Ee & Ek)|(-> & _)]; [|lia].
        assert (Z0 : output f p q = 0%N). { destruct (N.eq_dec (output f p q) 0) as [|Z0]; auto. exfalso. apply Nc. eapply (o_eps f O); eauto. }
        apply Z; [rewrite AE; auto|]. left. split; auto. exists u, (m ++ [c]). splits; auto.
        * rewrite strip_app, strip_letter by exact Lc. rewrite app_assoc, Ew. reflexivity.
        * eapply path_app; [exact P|]. apply path_step1; [exact Nc|]. left. auto.
        * rewrite mark_at_letter by exact Lc. auto.
        * rewrite mark_at_letter by exact Lc. auto.
      + destruct IH as [(Y & _)|(Y & _)]; lia.
      + apply Z; [apply AO; lia|]. destruct IH as [(Lp & _)|(_ & u & m & v & Ew & Hm & Eb & Ee & Ek)]; [lia|]. right. split; auto. exists u, m, (v ++ [c]).
        rewrite Ew, <- !app_assoc. auto 6.
  Qed.

  (** every match is a run *)
  Lemma match_sreach : forall u x v, is_word (u ++ x ++ v) -> accepts f x -> exists b e, sreach (raw g) (output g) (initial g) (u ++ x ++ v) (n + 1) b e (length u).
  Proof.
    pose proof (g_facts f W U T) as (_ & _ & _ & Ig & _ & _ & _ & R). fold g n in Ig, R. pose proof (wf_init _ W) as WI. fold n in WI.
    intros u x v Hw (y & P & Fy). rewrite Ig. unfold is_word in Hw. apply Forall_app in Hw as [Hu Hw]. apply Forall_app in Hw as [Hx Hv].
    assert (Ru : exists b e, reach (raw g) (fun p q => output g p q mod two32)%N n u n b e).
    { clear - Hu R. induction u as [|c u IH] using rev_ind.
      - eexists; eexists. apply reach_start. apply R. right; left. splits; auto. reflexivity.
      - apply Forall_app in Hu as [Hu Hc]. inversion Hc as [|? ? [Lc _] _]; subst. destruct (IH Hu) as (b & e & Y). eexists; eexists. eapply reach_step; [exact Y|]. apply R. right; left. auto. }
    destruct Ru as (b & e & Ru).
    assert (S0 : exists b e, sreach (raw g) (output g) n u (initial f) b e (length u)).
    { eexists; eexists. apply sr_leave; [exact Ru|apply R; right; right; left; auto|lia]. }
    assert (S1 : forall p x q, path (edge f) p x q -> forall w, (exists b e, sreach (raw g) (output g) n w p b e (length u)) -> exists b e, sreach (raw g) (output g) n (w ++ x) q b e (length u)).
    { clear - R. intros p x q P. induction P as [p|p q x r He P IH|p c q x r Hc He P IH]; intros w (b & e & S).
      - rewrite app_nil_r. eauto.
      - apply IH. eexists; eexists. eapply sr_eps; [exact S|]. apply R. auto.
      - change (c :: x) with ([c] ++ x). rewrite app_assoc. apply IH. eexists; eexists. eapply sr_step; [exact S|]. apply R. auto. }
    destruct (S1 _ _ _ P u S0) as (b1 & e1 & S2).
    assert (S3 : exists b e, sreach (raw g) (output g) n (u ++ x) (n + 1) b e (length u)).
    { eexists; eexists. eapply sr_eps; [exact S2|]. apply R. right; right; right; left. auto. }
    rewrite app_assoc. clear - S3 R Hv. revert S3. generalize (u ++ x). induction v as [|c v IH]; intros w S3; [rewrite app_nil_r; auto|].
    inversion Hv as [|? ? [Lc _] Hv']; subst. change (c :: v) with ([c] ++ v). rewrite app_assoc. apply IH; auto. destruct S3 as (b & e & S3). eexists; eexists. eapply sr_step; [exact S3|]. apply R. right; right; right; right. auto.
  Qed.

  Lemma front_calm : forall q r, path (raw g) (initial g) [] q -> raw g q Epsilon r -> N.testbit (output g q r mod two32) 2 = false.
  Proof.
    pose proof (g_facts f W U T) as (_ & _ & _ & Ig & _ & _ & _ & R). fold g n in Ig, R. pose proof (wf_init _ W) as WI. fold n in WI.
    assert (AO : forall p q, n <= p \/ n <= q -> (output g p q mod two32 = 0)%N) by exact (A_out f W U O T Small). assert (AE : forall p q, (output g p q mod two32)%N = output f p q) by exact (A_eq f W U O T Small).
    assert (EN : forall p c q, edge f p c q -> p < n /\ q < n) by (intros; eapply edge_bound; eauto).
    intros q r P X. rewrite Ig in P.
    assert (Z : forall p w q, path (raw g) p w q -> w = [] -> (p = n \/ path (edge f) (initial f) [] p \/ p = n + 1) -> (q = n \/ path (edge f) (initial f) [] q \/ q = n + 1)).
    { clear - R EN WI. intros p w q P. induction P as [p|p q w r He P IH|p c q w r Hc He P IH]; intros Ew D; [auto| |discriminate Ew]. apply IH; auto. apply R in He.
      destruct He as [He|[(_ & -> & _)|[(_ & _ & ->)|[(_ & _ & ->)|(_ & -> & _)]]]]; auto; [|right; left; apply path_nil].
      destruct D as [->|[D| ->]]; [apply EN in He; lia| |apply EN in He; lia]. right; left. change (@nil N) with (@nil N ++ []). eapply path_app; [exact D|]. apply path_eps1, He. }
    specialize (Z _ _ _ P eq_refl (or_introl eq_refl)). apply R in X. destruct X as [X|[(-> & -> & _)|[(-> & _ & ->)|[(Y & _ & ->)|(-> & -> & _)]]]]; try (rewrite AO by lia; reflexivity).
    pose proof (EN _ _ _ X). destruct Z as [->|[Z| ->]]; [lia| |lia]. rewrite AE. destruct (N.testbit (output f q r) 2) eqn:Eb; auto. exfalso. apply GF. exists q, r. auto.
  Qed.

  Theorem surround_leftmost : forall s w cl ans st, cap_compile g = Ok s -> is_word w -> (N.of_nat (length w) < nowhere)%N -> cap_run s w = Ok cl -> get_capture s cl = Ok (ans, Some st) ->
    exists u m v, w = u ++ strip m ++ v /\ marked f m /\ g_begin st = mark_at u 0 m /\ g_end st = mark_at u 1 m /\
      forall u' x v', w = u' ++ x ++ v' -> accepts f x -> length u <= length u'.
  Proof.
    intros s w cl ans st Es Hw L Ecl Eg. pose proof (g_facts f W U T) as (Wg & Ug & Sg & Ig & Fg & Tg & Og & R). fold g n in Wg, Ug, Sg, Ig, Fg, Tg, Og, R. pose proof (wf_init _ W) as WI. fold n in WI.
    assert (EN : forall p c q, edge f p c q -> p < n /\ q < n) by (intros; eapply edge_bound; eauto).
    destruct (cap_compile_ok g Wg Tg) as (s' & Es' & Sh); [rewrite Sg; unfold n; lia|]. rewrite Es in Es'. injection Es' as <-.
    assert (H0 : forall r, raw g 0 BeginMark r -> initial g = 0%nat).
    { intros r X. apply R in X. destruct X as [X|[(E & _)|[(E & _)|[(_ & E & _)|(E & _)]]]]; try lia; [exfalso; exact (proj1 (NM _ _) X)|discriminate E]. }
    assert (EL : forall q, ends (raw g) (is_final g) q <-> q = n + 1) by exact (ends_last f W U NM T Small).
    assert (Hl : Forall (fun c => (c < MaxChar)%N) w) by (eapply Forall_impl; [|exact Hw]; intros c [Lc _]; exact Lc).
    assert (L2 : (N.of_nat (length w) < two64)%N) by (change two64 with (nowhere + 1)%N; lia).
    destruct (run_ok s (size g) (raw g) (output g) (initial g) (is_final g) Sh H0 w Hl L2) as (cl1 & Ecl1 & K). rewrite Ecl in Ecl1. injection Ecl1 as <-.
    assert (En : forall q c, (c < MaxChar)%N -> ends (raw g) (is_final g) q -> raw g q c q) by (intros q c Hc X; apply EL in X; subst q; apply R; right; right; right; right; auto).
    destruct (run_left s (size g) (raw g) (output g) (initial g) (is_final g) Sh) with (w := w) as (cl1 & Lg & Ecl1 & I); auto.
    { intros p c X. rewrite Ig in *. apply R in X. destruct X as [X|[(-> & _)|[(-> & _)|[(_ & _ & E)|(_ & E & _)]]]]; auto; [apply EN in X; lia|lia|lia]. }
    { intros c r Hc Nc. rewrite Ig. rewrite R. split; [|intros ->; auto]. intros [X|[(_ & E & _)|[(_ & E & _)|[(_ & E & _)|(E & _)]]]]; auto; [apply EN in X; lia|contradiction|contradiction|lia]. }
    { rewrite Ig. apply (A_out f W U O T Small). fold n. auto. }
    { rewrite EL, Ig. lia. }
    { exact front_calm. }
    rewrite Ecl in Ecl1. injection Ecl1 as <-.
    assert (Ir : Forall (in_range (size g)) (cs_states cl)) by (apply Forall_forall; intros t It; apply (ki_sound _ _ _ _ _ _ _ K), It).
    destruct (first_ok s (size g) (raw g) (output g) (initial g) (is_final g) Sh (cs_states cl) Ir) as (r & Rf & X).
    unfold get_capture in Eg. rewrite Rf in Eg. cbn [bind] in Eg. destruct r as [[ans' st']|].
    - injection Eg as <- <-. assert (Z : (output g (initial g) (initial g) mod two32 = 0)%N) by (rewrite Ig; apply (A_out f W U O T Small); fold n; auto).
      assert (NI : ~ ends (raw g) (is_final g) (initial g)) by (rewrite EL, Ig; lia).
      destruct (leftmost s (size g) (raw g) (output g) (initial g) (is_final g) Sh Z NI w cl Lg ans' st' I Rf) as (q & k & Nq & Eq & Sq & Min).
      apply EL in Eq. subst q. apply sreach_since in Sq; auto. destruct Sq as [(Y & _)|(_ & u & m & v & Ew & Hm & Eb & Ee & ->)]; [lia|]. exists u, m, v. splits; auto.
      intros u' x v' Ew' Hx. destruct (match_sreach u' x v') as (b & e & S); [rewrite <- Ew'; auto|auto|]. rewrite <- Ew' in S. eapply Min; [exact S|]. apply EL. reflexivity.
    - exfalso. destruct (cs_match cl) as [t|] eqn:Em; [|discriminate Eg]. assert (Nm : cs_match cl <> None) by (rewrite Em; discriminate). destruct (ki_last _ _ _ _ _ _ _ K En Nm) as (t' & It & St). rewrite Forall_forall in X. apply (X t' It St).
  Qed.
End Surrounded.

Theorem captures_leftmost : forall f L s w cl ans st, captures f L -> uncompressed f -> ~ greedy_front f -> (N.of_nat (size f) + 2 <= two32)%N -> cap_compile (surround f) = Ok s ->
  is_word w -> (N.of_nat (length w) < nowhere)%N -> cap_run s w = Ok cl -> get_capture s cl = Ok (ans, Some st) ->
  exists u m v, w = u ++ strip m ++ v /\ L m /\ g_begin st = mark_at u 0 m /\ g_end st = mark_at u 1 m /\ forall u' x v', w = u' ++ x ++ v' -> accepts f x -> length u <= length u'.
Proof.
  intros f L s w cl ans st C U GF S E Hw Lw R G. destruct (captures_ok f L C) as (W & O & NM & T & M).
  destruct (surround_leftmost f W U O NM T S GF s w cl ans st E Hw Lw R G) as (u & m & v & Ew & Hm & Eb & Ee & Min). exists u, m, v. splits; auto.
Qed.

(** ** Without marks at the front *)
Lemma bare_output : forall f, outputs f = [] -> forall p q, output f p q = 0%N.
Proof. intros f E p q. rewrite output_get, E. reflexivity. Qed.
(** behind a plain piece that does not match the empty text nothing matters *)
Lemma front_cat : forall a g L, built a -> ~ accepts a [] -> captures g L -> ~ greedy_front (fsm_cat a g).
Proof.
  intros a g L B Ne C (q & r & P & X & Bt). destruct (captures_ok g L C) as (Wg & Og & _). pose proof (built_wf a B) as Wa. destruct (built_bare a B) as [_ Oa].
  destruct (cat_structure a g Wa Wg) as (Sg & Ig & _). pose proof (wf_init _ Wa) as WI.
  assert (Z : forall p w q, path (edge (fsm_cat a g)) p w q -> w = [] -> path (edge a) (initial a) [] p -> path (edge a) (initial a) [] q).
  { intros p w q' P'. induction P' as [p|p q' w r' He P' IH|p c q' w r' Hc He P' IH]; intros Ew D; [auto| |discriminate Ew]. apply IH; auto. apply (cat_edge a g Wa Wg) in He.
    destruct He as [He|[(p' & q0 & -> & _ & He)|(Fp & _)]].
    - change (@nil N) with (@nil N ++ []). eapply path_app; [exact D|]. apply path_eps1, He.
    - exfalso. assert (p' + size a < size a); [|lia]. inversion D as [? Y|? z ? ? Hz Pz|]; subst; [lia|]. clear - D Wa WI.
      assert (Z : forall p w q, path (edge a) p w q -> p < size a -> q < size a). { intros p w q P. induction P as [p|p q w r He P IH|p c q w r Hc He P IH]; intros Lp; auto; apply IH; eapply edge_bound; eauto. }
      eapply Z; eauto.
    - exfalso. apply Ne. exists p. auto. }
  rewrite Ig in P. specialize (Z _ _ _ P eq_refl (path_nil _ _)).
  assert (Lq : q < size a).
  { clear - Z Wa WI. assert (Y : forall p w q, path (edge a) p w q -> p < size a -> q < size a). { intros p w q' P. induction P as [p|p q' w r He P IH|p c q' w r Hc He P IH]; intros Lp; auto; apply IH; eapply edge_bound; eauto. } eapply Y; eauto. }
  rewrite (cat_output a g Wa Wg (bare_outs a Oa) Og) in Bt. rewrite (bare_output a Oa) in Bt. destruct (Nat.leb_spec (size a) r); [|discriminate Bt]. destruct (Nat.leb_spec (size a) q); [lia|].
  destruct (smem q (finals a)) eqn:Es; [|discriminate Bt]. apply smem_in in Es. apply Ne. exists q. auto.
Qed.
Lemma front_group : forall a b c, built a -> built b -> built c -> ~ greedy_front (fsm_cat (fsm_cat a (capture_mark b)) c).
Proof.
  intros a b c Ba Bb Bc (q & r & _ & _ & Bt). pose proof (built_wf a Ba) as Wa. pose proof (built_wf b Bb) as Wb. pose proof (built_wf c Bc) as Wc.
  destruct (built_bare a Ba) as [_ Oa]. destruct (built_bare b Bb) as [_ Ob]. destruct (built_bare c Bc) as [_ Oc].
  destruct (capture_structure b Wb) as (Wm & _ & _ & _ & _ & _ & _ & Om & _). destruct (capture_mark_outs b Wb (bare_outs b Ob)) as [Um _].
  assert (Z : forall p x, N.testbit (output (capture_mark b) p x) 2 = false).
  { intros p x. rewrite output_get, Om, oget_osets, oget_oset, Ob. unfold oget, orow. cbn [mfind]. destruct (_ && _); [reflexivity|]. destruct (_ && _); reflexivity. }
  destruct (fsm_cat_wf a (capture_mark b) Wa Wm) as [W1 _]. destruct (fsm_cat_outs a (capture_mark b) Wa Wm (bare_outs a Oa) Um) as [O1 _].
  rewrite (cat_output _ c W1 Wc O1 (bare_outs c Oc)) in Bt. rewrite !(bare_output c Oc) in Bt.
  assert (Y : forall p x, N.testbit (output (fsm_cat a (capture_mark b)) p x) 2 = false).
  { intros p x. rewrite (cat_output a _ Wa Wm (bare_outs a Oa) Um), (bare_output a Oa). destruct (size a <=? x); [|reflexivity]. destruct (size a <=? p); [apply Z|]. destruct (smem p (finals a)); [apply Z|reflexivity]. }
  destruct (_ <=? r); [|rewrite Y in Bt; discriminate Bt]. destruct (_ <=? q); [discriminate Bt|]. destruct (smem _ _); discriminate Bt.
Qed.

Theorem group_leftmost : forall a b c s w cl ans st, built a -> no_marks a -> built b -> no_marks b -> built c -> no_marks c ->
  let f := fsm_cat (fsm_cat a (capture_mark b)) c in (N.of_nat (size f) + 2 <= two32)%N -> cap_compile (surround f) = Ok s ->
  is_word w -> (N.of_nat (length w) < nowhere)%N -> cap_run s w = Ok cl -> get_capture s cl = Ok (ans, Some st) ->
  exists u x y z v, w = u ++ x ++ y ++ z ++ v /\ accepts a x /\ accepts b y /\ accepts c z /\
    g_begin st = N.of_nat (length (u ++ x)) /\ g_end st = N.of_nat (length (u ++ x ++ y)) /\ forall u' t v', w = u' ++ t ++ v' -> accepts f t -> length u <= length u'.
Proof.
  intros a b c s w cl ans st Ba Na Bb Nb Bc Nc f S E Hw Lw R G.
  pose proof (cp_cat _ _ _ _ (cp_cat _ _ _ _ (cp_plain a Ba Na) (cp_group _ _ (cp_plain b Bb Nb))) (cp_plain c Bc Nc)) as C. fold f in C.
  assert (U : uncompressed f) by (apply fsm_cat_wf; [apply (captures_ok _ _ (cp_cat _ _ _ _ (cp_plain a Ba Na) (cp_group _ _ (cp_plain b Bb Nb))))|apply built_wf; auto]).
  destruct (captures_leftmost f _ s w cl ans st C U (front_group a b c Ba Bb Bc) S E Hw Lw R G) as (u & m & v & Ew & (x1 & z & -> & (x & m2 & -> & Hx & (y & -> & Hy)) & Hz) & Eb & Ee & Min).
  pose proof (accepts_letters _ _ (built_wf _ Ba) Hx) as Lx. pose proof (accepts_letters _ _ (built_wf _ Bb) Hy) as Ly. pose proof (accepts_letters _ _ (built_wf _ Bc) Hz) as Lz.
  rewrite !strip_app, !strip_mark, (strip_word x), (strip_word y), (strip_word z) in Ew by auto. cbn [app] in Ew. rewrite app_nil_r, <- !app_assoc in Ew.
  exists u, x, y, z, v. splits; auto.
  - rewrite Eb. unfold mark_at. rewrite !first_mark_app, !first_mark_mark, !strip_mark, (first_mark_word 0 x), (first_mark_word 0 y), (first_mark_word 0 z), (strip_word x) by auto. cbn. rewrite app_length. f_equal. lia.
  - rewrite Ee. unfold mark_at. rewrite !first_mark_app, !first_mark_mark, !strip_mark, (first_mark_word 1 x), (first_mark_word 1 y), (first_mark_word 1 z), (strip_word x), (strip_word y) by auto. cbn. rewrite !app_length. f_equal. lia.
Qed.
