(** What a capturing scanner finds in a text when it was compiled from a surrounded
    automaton. *)
From Coq Require Import List Bool Arith NArith Lia.
From Verif Require Import Util Spec PartitionModel FsmModel Nfa NfaOps PartitionProofs FsmSem FsmBasics FsmOps FsmOps2 TagFacts ApproxSpec Api BuildFacts ScannerModel SimpleModel
  CapModel CapSpec CapApi CapTable CapRun CapMarks CapMarks2 CapAppend AdvNfa ApiProofs.
Import ListNotations.
Local Opaque all_letters all_bytes.

(** ** Marked words *)
Lemma strip_app : forall x y, strip (x ++ y) = strip x ++ strip y.
Proof. intros. unfold strip. apply filter_app. Qed.
Lemma strip_letter : forall c, (c < MaxChar)%N -> strip [c] = [c].
Proof. intros c L. unfold strip. cbn [filter]. apply N.ltb_lt in L. rewrite L. reflexivity. Qed.
Lemma mark_ltb : forall a, (mark a <? MaxChar)%N = false.
Proof. intros. apply N.ltb_ge. unfold mark. lia. Qed.
Lemma strip_mark : forall a, strip [mark a] = [].
Proof. intros. unfold strip. cbn [filter]. rewrite mark_ltb. reflexivity. Qed.
Lemma first_mark_app : forall k x y, first_mark k (x ++ y) = match first_mark k x with Some j => Some j | None => option_map (Nat.add (length (strip x))) (first_mark k y) end.
Proof.
  intros k. induction x as [|c x IH]; intros y; cbn [app first_mark].
  - cbn. destruct (first_mark k y); reflexivity.
  - rewrite IH. unfold strip. cbn [filter]. destruct (c <? MaxChar)%N.
    + destruct (first_mark k x); auto. destruct (first_mark k y); reflexivity.
    + destruct (N.testbit (c - MaxChar) k); auto.
Qed.
Lemma first_mark_bound : forall k x j, first_mark k x = Some j -> j <= length (strip x).
Proof.
  intros k. induction x as [|c x IH]; intros j; cbn [first_mark]; [discriminate|]. unfold strip. cbn [filter]. destruct (c <? MaxChar)%N.
  - destruct (first_mark k x) as [j'|]; [|discriminate]. intros [= <-]. cbn [length]. specialize (IH _ eq_refl). unfold strip in IH. lia.
  - destruct (N.testbit (c - MaxChar) k); [intros [= <-]; lia|]. apply IH.
Qed.
Lemma first_mark_mark : forall k a, first_mark k [mark a] = if N.testbit a k then Some 0 else None.
Proof. intros. cbn [first_mark]. rewrite mark_ltb. unfold mark. replace (MaxChar + a - MaxChar)%N with a by lia. reflexivity. Qed.
Lemma first_mark_word : forall k x, Forall (fun c => (c < MaxChar)%N) x -> first_mark k x = None.
Proof. intros k x F. induction F as [|c x L F IH]; auto. cbn [first_mark]. apply N.ltb_lt in L. rewrite L, IH. reflexivity. Qed.
Lemma strip_word : forall x, Forall (fun c => (c < MaxChar)%N) x -> strip x = x.
Proof. intros x F. induction F as [|c x L F IH]; auto. unfold strip in *. cbn [filter]. apply N.ltb_lt in L. rewrite L, IH. reflexivity. Qed.

Lemma mark_at_letter : forall u k m c, (c < MaxChar)%N -> mark_at u k (m ++ [c]) = mark_at u k m.
Proof. intros. unfold mark_at. rewrite first_mark_app. rewrite (first_mark_word k [c]) by auto. destruct (first_mark k m); reflexivity. Qed.
Lemma mark_at_mark : forall u m a w, w = u ++ strip m -> (N.of_nat (length w) < nowhere)%N ->
  mark_at u 0 (m ++ [mark a]) = note_begin a (N.of_nat (length w)) (mark_at u 0 m) /\ mark_at u 1 (m ++ [mark a]) = note_end a (N.of_nat (length w)) (mark_at u 1 m).
Proof.
  intros u m a w -> L. rewrite app_length in *. unfold mark_at, note_begin, note_end. rewrite !first_mark_app, !first_mark_mark.
  assert (B : forall k j, first_mark k m = Some j -> (N.of_nat (length u + j) =? nowhere)%N = false).
  { intros k j E. apply first_mark_bound in E. apply N.eqb_neq. lia. }
  split; destruct (first_mark _ m) as [j|] eqn:E; try (rewrite (B _ _ E), andb_false_r; reflexivity); rewrite N.eqb_refl, andb_true_r; destruct (N.testbit a _); cbn [option_map]; auto; f_equal; lia.
Qed.
Lemma note_none : forall pos b e, note_begin 0 pos b = b /\ note_end 0 pos e = e.
Proof. intros. split; reflexivity. Qed.

(** ** Surrounded automata *)
Section Surrounded.
  Variable f : fsm.
  Hypothesis W : wf f.
  Hypothesis U : uncompressed f.
  Hypothesis O : outs f.
  Hypothesis NM : no_marks f.
  Hypothesis T : tags f = [].
  Hypothesis Small : (N.of_nat (size f) + 2 <= two32)%N.
  Let g := surround f.
  Let n := size f.
  Let A p q := (output g p q mod two32)%N.

  Lemma g_facts : wf g /\ uncompressed g /\ size g = n + 2 /\ initial g = n /\ finals g = [n + 1] /\ tags g = [] /\ outputs g = outputs f /\
    forall p c q, raw g p c q <-> edge f p c q \/ (p = n /\ q = n /\ (c < MaxChar)%N) \/ (p = n /\ c = Epsilon /\ q = initial f) \/
      (In p (finals f) /\ c = Epsilon /\ q = n + 1) \/ (p = n + 1 /\ q = n + 1 /\ (c < MaxChar)%N).
  Proof.
    destruct (surround_structure f W U) as (W' & U' & S' & I' & F' & T' & O' & E'). splits; auto; [rewrite <- T; exact T'|].
    intros p c q. rewrite <- raw_uncompressed by exact U'. apply E'.
  Qed.
  Lemma A_eq : forall p q, A p q = output f p q.
  Proof.
    intros p q. unfold A. destruct g_facts as (_ & _ & _ & _ & _ & _ & Og & _). rewrite (output_same f g p q Og).
    apply N.mod_small. pose proof (o_small _ O p q). assert (16 < two32)%N by reflexivity. lia.
  Qed.
  Lemma A_out : forall p q, n <= p \/ n <= q -> A p q = 0%N.
  Proof. intros p q L. rewrite A_eq, output_get. apply (okeys_out (size f)); [apply O|auto]. Qed.

  (** What the runs of the scanner have seen *)
  Definition seen (w : list N) (q : nat) (b e : N) : Prop :=
    (q = n /\ b = nowhere /\ e = nowhere) \/
    (q < n /\ exists u m, w = u ++ strip m /\ path (medge f) (initial f) m q /\ b = mark_at u 0 m /\ e = mark_at u 1 m) \/
    (q = n + 1 /\ exists u m v, w = u ++ strip m ++ v /\ marked f m /\ b = mark_at u 0 m /\ e = mark_at u 1 m).
  Lemma edge_n : forall p c q, edge f p c q -> p < n /\ q < n.
  Proof. intros. eapply edge_bound; eauto. Qed.
  Lemma seen_eps : forall w p b e q, (N.of_nat (length w) < nowhere)%N -> seen w p b e -> raw g p Epsilon q ->
    seen w q (note_begin (A p q) (N.of_nat (length w)) b) (note_end (A p q) (N.of_nat (length w)) e).
  Proof.
    intros w p b e q L S X. destruct g_facts as (_ & _ & _ & _ & _ & _ & _ & R). apply R in X. pose proof (wf_init _ W) as WI. fold n in WI.
    assert (Z : A p q = 0%N -> seen w q b e -> seen w q (note_begin (A p q) (N.of_nat (length w)) b) (note_end (A p q) (N.of_nat (length w)) e)).
    { intros ->. destruct (note_none (N.of_nat (length w)) b e) as [-> ->]. auto. }
    destruct X as [X|[(-> & -> & _)|[(-> & _ & ->)|[(X & _ & ->)|(-> & -> & _)]]]].
    - pose proof (edge_n _ _ _ X) as [B1 B2]. destruct S as [(-> & _)|[(Lp & u & m & Ew & P & Eb & Ee)|(-> & _)]]; [lia| |lia].
      rewrite A_eq. destruct (N.eq_dec (output f p q) 0) as [Z0|Z0].
      + rewrite Z0. right; left. split; auto. exists u, m. splits; auto. rewrite <- (app_nil_r m). eapply path_app; [exact P|]. apply path_eps1. left. splits; auto. reflexivity.
      + destruct (mark_at_mark u m (output f p q) w Ew L) as [M1 M2]. right; left. split; auto. exists u, (m ++ [mark (output f p q)]). splits.
        * rewrite strip_app, strip_mark, app_nil_r. auto.
        * eapply path_app; [exact P|]. apply path_step1; [apply mark_not_eps|]. right. exists (output f p q). auto.
        * rewrite M1, Eb. reflexivity.
        * rewrite M2, Ee. reflexivity.
    - apply Z; auto. apply A_out. lia.
    - apply Z; [apply A_out; lia|]. destruct S as [(_ & Eb & Ee)|[(Lp & _)|(Eq & _)]]; [|lia|lia]. right; left. split; auto. exists w, []. rewrite app_nil_r. splits; auto. apply path_nil.
    - apply Z; [apply A_out; lia|]. pose proof (wf_fin _ W _ X) as Lp. fold n in Lp. destruct S as [(-> & _)|[(_ & u & m & Ew & P & Eb & Ee)|(-> & _)]]; [lia| |lia].
      right; right. split; auto. exists u, m, []. rewrite app_nil_r. splits; auto. exists p. auto.
    - apply Z; auto. apply A_out. lia.
  Qed.
  Lemma seen_step : forall w p b e c q, letter c -> (N.of_nat (length w) + 1 < nowhere)%N -> seen w p b e -> raw g p c q ->
    seen (w ++ [c]) q (note_begin (A p q) (N.of_nat (length w) + 1) b) (note_end (A p q) (N.of_nat (length w) + 1) e).
  Proof.
    intros w p b e c q [Lc Nc] L S X. destruct g_facts as (_ & _ & _ & _ & _ & _ & _ & R). apply R in X.
    assert (Z : A p q = 0%N -> seen (w ++ [c]) q b e -> seen (w ++ [c]) q (note_begin (A p q) (N.of_nat (length w) + 1) b) (note_end (A p q) (N.of_nat (length w) + 1) e)).
    { intros ->. destruct (note_none (N.of_nat (length w) + 1)%N b e) as [-> ->]. auto. }
    destruct X as [X|[(-> & -> & _)|[(_ & E & _)|[(_ & E & _)|(-> & -> & _)]]]]; try (exfalso; apply Nc; exact E).
    - pose proof (edge_n _ _ _ X) as [B1 B2]. destruct S as [(-> & _)|[(Lp & u & m & Ew & P & Eb & Ee)|(-> & _)]]; [lia| |lia].
      assert (Z0 : output f p q = 0%N). { destruct (N.eq_dec (output f p q) 0) as [|Z0]; auto. exfalso. apply Nc. eapply (o_eps f O); eauto. }
      apply Z; [rewrite A_eq; auto|]. right; left. split; auto. exists u, (m ++ [c]). splits.
      + rewrite strip_app, strip_letter by exact Lc. rewrite app_assoc, Ew. reflexivity.
      + eapply path_app; [exact P|]. apply path_step1; [exact Nc|]. left. auto.
      + rewrite mark_at_letter by exact Lc. auto.
      + rewrite mark_at_letter by exact Lc. auto.
    - apply Z; [apply A_out; lia|]. destruct S as [(_ & Eb & Ee)|[(Lp & _)|(Eq & _)]]; [|lia|lia]. left. auto.
    - apply Z; [apply A_out; lia|]. destruct S as [(Eq & _)|[(Lp & _)|(_ & u & m & v & Ew & Hm & Eb & Ee)]]; [lia|lia|]. right; right. split; auto. exists u, m, (v ++ [c]).
      rewrite Ew, <- !app_assoc. auto.
  Qed.
  Lemma reach_seen : forall w q b e, reach (raw g) A (initial g) w q b e -> is_word w -> (N.of_nat (length w) < nowhere)%N -> seen w q b e.
  Proof.
    intros w q b e R. induction R as [q X|w p b e q R IH X|w p b e c q R IH X]; intros Hw L.
    - destruct g_facts as (_ & _ & _ & Ig & _ & _ & _ & Rg). rewrite Ig in *. apply Rg in X.
      destruct X as [X|[(_ & -> & _)|[(_ & E & _)|[(_ & E & _)|(E & _)]]]]; [apply edge_n in X; lia| |discriminate E|discriminate E|lia].
      rewrite (A_out n n) by lia. destruct (note_none 0 nowhere nowhere) as [-> ->]. left. auto.
    - apply seen_eps; auto.
    - unfold is_word in Hw. apply Forall_app in Hw as [Hw Hc]. inversion Hc as [|? ? Lc _]; subst. rewrite app_length in L. cbn [length] in L. apply seen_step; auto; [lia|]. apply IH; auto. lia.
  Qed.
  Lemma path_reach : forall p v q, path (raw g) p v q -> forall w b e, reach (raw g) A (initial g) w p b e -> exists b' e', reach (raw g) A (initial g) (w ++ v) q b' e'.
  Proof.
    intros p v q P. induction P as [p|p q v r He P IH|p c q v r Hc He P IH]; intros w b e R.
    - rewrite app_nil_r. eauto.
    - eapply IH. eapply reach_eps; eauto.
    - destruct (IH (w ++ [c]) _ _ (reach_step _ _ _ _ _ _ _ _ _ R He)) as (b' & e' & X). rewrite <- app_assoc in X. eauto.
  Qed.

  Lemma ends_last : forall q, ends (raw g) (is_final g) q <-> q = n + 1.
  Proof.
    intros q. destruct g_facts as (_ & _ & _ & _ & Fg & _ & _ & R).
    assert (Fi : forall x, is_final g x = true <-> x = n + 1). { intros x. unfold is_final. rewrite smem_in, Fg. cbn [In]. intuition. }
    unfold ends. setoid_rewrite Fi. split; [|auto]. intros [X|(r & X & Y)]; auto. apply R in X.
    destruct X as [X|[(-> & -> & _)|[(_ & E & _)|[(_ & E & _)|(-> & _)]]]]; try discriminate E; auto; [exfalso; eapply NM; eauto|].
    destruct Y as [Y|(t & Y & ->)]; [lia|]. apply R in Y. destruct Y as [Y|[(_ & E & _)|[(_ & _ & E)|[(X & _)|(E & _)]]]]; try lia; [apply edge_n in Y; lia|pose proof (wf_init _ W) as WI; fold n in WI; lia|apply (wf_fin _ W) in X; fold n in X; lia].
  Qed.

  Theorem surround_runs : exists s, cap_compile g = Ok s /\ forall w, is_word w -> (N.of_nat (length w) < nowhere)%N ->
    exists cl, cap_run s w = Ok cl /\ (cs_match cl <> None <-> contains (accepts f) w) /\
      exists ans o, get_capture s cl = Ok (ans, o) /\ (o <> None <-> contains (accepts f) w) /\ (o = None -> ans = false) /\
        forall st, o = Some st -> exists u m v, w = u ++ strip m ++ v /\ marked f m /\ g_begin st = mark_at u 0 m /\ g_end st = mark_at u 1 m /\
          (ans = true <-> g_begin st <> nowhere).
  Proof.
    destruct g_facts as (Wg & Ug & Sg & Ig & Fg & Tg & Og & Rg).
    destruct (cap_compile_ok g Wg Tg) as (s & Es & Sh); [rewrite Sg; unfold n; lia|]. exists s. split; [exact Es|]. intros w Hw L.
    assert (H0 : forall r, raw g 0 BeginMark r -> initial g = 0%nat).
    { intros r X. apply Rg in X. pose proof (wf_init _ W) as WI. fold n in WI. destruct X as [X|[(E & _)|[(E & _)|[(_ & E & _)|(E & _)]]]]; try lia; [exfalso; exact (proj1 (NM _ _) X)|discriminate E]. }
    destruct (run_ok s (size g) (raw g) (output g) (initial g) (is_final g) Sh H0 w) as (cl & Ecl & K).
    { eapply Forall_impl; [|exact Hw]. intros c [Lc _]. exact Lc. }
    { change two64 with (nowhere + 1)%N. lia. }
    exists cl. split; [exact Ecl|].
    assert (Con : contains (accepts f) w <-> exists b e, reach (raw g) A (initial g) w (n + 1) b e).
    { split.
      - intros (a & v & b & -> & Hv). destruct (surround_ok f W) as (_ & _ & Hl).
        assert (Hg : accepts g (a ++ v ++ b)).
        { apply Hl. unfold is_word in Hw. apply Forall_app in Hw as [Ha Hw]. apply Forall_app in Hw as [Hv' Hb]. exists a, (v ++ b). splits; auto. exists v, b. splits; auto. }
        destruct Hg as (q & P & Fq). rewrite Fg in Fq. destruct Fq as [<- | []].
        destruct (path_reach (initial g) (a ++ v ++ b) (n + 1)) with (w := @nil N) (b := note_begin (A (initial g) (initial g)) 0 nowhere) (e := note_end (A (initial g) (initial g)) 0 nowhere) as (b' & e' & X).
        + eapply path_ext; [|exact P]. intros. symmetry. apply raw_uncompressed, Ug.
        + apply reach_start. rewrite Ig. apply Rg. right; left. splits; auto. reflexivity.
        + cbn [app] in X. eauto.
      - intros (b & e & R). apply reach_seen in R; auto. destruct R as [(E & _)|[(E & _)|(_ & u & m & v & Ew & (q & P & Fq) & _)]]; [lia|lia|].
        exists u, (strip m), v. split; auto. exists q. split; auto. clear - P. induction P as [p|p q m r He P IH|p c q m r Hc He P IH].
        + apply path_nil.
        + destruct He as [(_ & He & _)|(a & Ha & E & _)]; [eapply path_eps; eauto|]. exfalso. apply (mark_not_eps a). auto.
        + destruct He as [(Lc & He & _)|(a & Ha & -> & He & _)].
          * change (c :: m) with ([c] ++ m). rewrite strip_app, strip_letter by auto. eapply path_step; eauto.
          * change (mark a :: m) with ([mark a] ++ m). rewrite strip_app, strip_mark. eapply path_eps; eauto. }
    assert (St : forall st, stops (raw g) (is_final g) st <-> g_num st = N.of_nat (n + 1)).
    { intros st. unfold stops. split; [intros (q & E & X); apply ends_last in X; congruence|]. intros E. exists (n + 1). split; auto. apply ends_last. auto. }
    assert (Pre : forall u v, w = u ++ v -> contains (accepts f) u -> contains (accepts f) w).
    { intros u v E (a & x & b & -> & Hx). exists a, x, (b ++ v). rewrite E, <- !app_assoc. auto. }
    assert (Sub : forall u v, w = u ++ v -> is_word u /\ (N.of_nat (length u) < nowhere)%N).
    { intros u v E. rewrite E in Hw, L. unfold is_word in *. apply Forall_app in Hw. rewrite app_length in L. split; [tauto|lia]. }
    assert (Run : forall st, runs (raw g) (output g) (initial g) w st -> stops (raw g) (is_final g) st -> exists b e, reach (raw g) A (initial g) w (n + 1) b e /\ b = g_begin st /\ e = g_end st).
    { intros st (q & E & R) X. apply St in X. assert (q = n + 1) by (apply Nat2N.inj; congruence). subst q. eauto. }
    assert (M : cs_match cl <> None <-> contains (accepts f) w).
    { split.
      - destruct (cs_match cl) as [st|] eqn:E; [|congruence]. intros _. destruct (ki_match _ _ _ _ _ _ _ K st E) as (u & v & Ew & (q & Eq & R) & X). apply (Pre u v Ew).
        apply St in X. assert (q = n + 1) by (apply Nat2N.inj; congruence). subst q. destruct (Sub _ _ Ew) as [Hu Lu]. apply reach_seen in R; auto.
        destruct R as [(E' & _)|[(E' & _)|(_ & a & m & b & Eu & (q & P & Fq) & _)]]; [lia|lia|]. exists a, (strip m), b. split; auto. exists q. split; auto. clear - P. induction P as [p|p q m r He P IH|p c q m r Hc He P IH].
        + apply path_nil.
        + destruct He as [(_ & He & _)|(a & Ha & E & _)]; [eapply path_eps; eauto|]. exfalso. apply (mark_not_eps a). auto.
        + destruct He as [(Lc & He & _)|(a & Ha & -> & He & _)].
          * change (c :: m) with ([c] ++ m). rewrite strip_app, strip_letter by auto. eapply path_step; eauto.
          * change (mark a :: m) with ([mark a] ++ m). rewrite strip_app, strip_mark. eapply path_eps; eauto.
      - intros C E. apply Con in C as (b & e & R). destruct (ki_complete _ _ _ _ _ _ _ K E) as [C1 C2]. destruct (C1 _ _ _ R) as (st & I & E'). apply (C2 st I). apply St. exact E'. }
    split; [exact M|].
    destruct (first_ok s (size g) (raw g) (output g) (initial g) (is_final g) Sh (cs_states cl)) as (r & Er & Hr).
    { apply Forall_forall. intros st I. apply (ki_sound _ _ _ _ _ _ _ K st I). }
    unfold get_capture. rewrite Er. cbn [bind]. destruct r as [[ans st]|].
    - destruct Hr as (I & X & mm & Ec). destruct (ki_sound _ _ _ _ _ _ _ K st I) as [R _]. destruct (Run st R X) as (b & e & R' & Eb & Ee).
      exists ans, (Some st). split; [reflexivity|]. split; [split; [intros _; apply Con; eauto|discriminate]|]. split; [discriminate|]. intros st' [= <-].
      pose proof (reach_seen _ _ _ _ R' Hw L) as Se. destruct Se as [(E' & _)|[(E' & _)|(_ & u & m & v & Ew & Hm & Eb' & Ee')]]; [lia|lia|].
      exists u, m, v. rewrite <- Eb, <- Ee. splits; auto. rewrite Eb.
      assert (HB : has_begin st = true <-> g_begin st <> nowhere). { unfold has_begin. rewrite negb_true_iff, N.eqb_neq. reflexivity. }
      rewrite <- HB. apply St in X. destruct (captured_ok s (size g) (raw g) (output g) (initial g) (is_final g) Sh st (n + 1) X) as (r & m' & Ec' & C1 & C2 & C3); [lia|].
      rewrite Ec in Ec'. injection Ec' as <- <-. split.
      + intros Ea. destruct (C2 Ea) as [_ [|(t & Et & Z)]]; auto. exfalso. apply Rg in Et. destruct Et as [Et|[(E' & _)|[(E' & _)|[(E' & _)|(_ & -> & _)]]]]; try lia; [apply edge_n in Et; lia|apply (wf_fin _ W) in E'; fold n in E'; lia|].
        fold (A (n + 1) (n + 1)) in Z. rewrite A_out in Z by lia. discriminate Z.
      + intros Hb. apply C3; auto. apply C1, ends_last. reflexivity.
    - assert (E0 : cs_match cl = None).
      { destruct (cs_match cl) eqn:E; auto. destruct (ki_last _ _ _ _ _ _ _ K) as (st & I & X); [|congruence|].
        - intros q c Lc X. apply ends_last in X. subst q. apply Rg. right; right; right; right. auto.
        - rewrite Forall_forall in Hr. exfalso. eapply Hr; eauto. }
      rewrite E0 in *. exists false, None. splits; auto. intros st X. discriminate X.
  Qed.
End Surrounded.

(** ** Expressions with captures *)
Lemma L_star_mono : forall (L M : lang), (forall w, L w -> M w) -> forall w, L_star L w -> L_star M w.
Proof. intros L M H w X. induction X; constructor; auto. Qed.
Lemma captures_ok : forall f L, captures f L -> wf f /\ outs f /\ no_marks f /\ tags f = [] /\ forall m, marked f m -> L m.
Proof.
  assert (EB : forall c, c = BeginMark \/ c = EndMark -> c <> Epsilon) by (intros c [-> | ->]; discriminate).
  intros f L C. induction C as [f B NM|f L C (W & O & NM & T & M)|f L gr C (W & O & NM & T & M)|f g L1 L2 C1 (W1 & O1 & NM1 & T1 & M1) C2 (W2 & O2 & NM2 & T2 & M2)
    |f g L1 L2 C1 (W1 & O1 & NM1 & T1 & M1) C2 (W2 & O2 & NM2 & T2 & M2)|f L C (W & O & NM & T & M)|f g L strs C (W & O & NM & T & M) U H E|f L C (W & O & NM & T & M) U].
  - pose proof (built_wf f B) as W. destruct (built_bare f B) as [T O]. splits; auto; [apply bare_outs; auto|]. intros m Hm. apply bare_marked; auto.
  - destruct (capture_structure f W) as (Wg & _ & _ & _ & Lg & _ & Tg & _ & Eg). destruct (capture_mark_outs f W O) as [Og Mg]. splits; auto.
    + intros p q. split; intros X; apply Eg in X; destruct X as [X|(X & _)]; try discriminate X; destruct (NM p q); contradiction.
    + rewrite Tg. auto.
    + intros m Hm. destruct (Mg m Hm) as (x & -> & Hx). eauto.
  - destruct (repetition_structure f gr W) as (Wg & _ & _ & _ & Lg & _ & Tg & _ & Eg). destruct (repetition_outs f gr W O) as [Og Mg]. splits; auto.
    + intros p q. split; intros X; apply Eg in X; destruct X as [X|(X & _)]; try discriminate X; destruct (NM p q); contradiction.
    + rewrite Tg. auto.
    + intros m Hm. destruct (Mg m Hm) as (x & -> & Hx). exists x. split; auto.
  - destruct (fsm_cat_wf f g W1 W2) as [Wg Ug]. destruct (fsm_cat_outs f g W1 W2 O1 O2) as [Og Mg]. splits; auto.
    + intros p q. split; intros X; apply (cat_edge f g W1 W2) in X; destruct X as [X|[(p' & q' & _ & _ & X)|(_ & q' & _ & X)]]; first [exact (proj1 (NM1 _ _) X)|exact (proj2 (NM1 _ _) X)|exact (proj1 (NM2 _ _) X)|exact (proj2 (NM2 _ _) X)].
    + rewrite cat_tags, T1, T2. reflexivity.
    + intros m Hm. destruct (Mg m Hm) as (x & y & -> & Hx & Hy). exists x, y. auto.
  - destruct (fsm_or_ok f g W1 W2) as (Wg & Ug & _). destruct (fsm_or_outs f g W1 W2 O1 O2) as [Og Mg]. destruct (or_structure f g W1 W2) as (_ & Tg & _ & _ & Eg). splits; auto.
    + intros p q. assert (Y : forall c, c = BeginMark \/ c = EndMark -> edge (fsm_or f g) p c q -> edge f p c q \/ shifted f g p c q).
      { intros c Hc X. apply EB in Hc. destruct Eg as [(_ & _ & _ & _ & Eg)|[(_ & _ & _ & Eg)|[(_ & _ & _ & Eg)|(_ & _ & _ & _ & Eg)]]]; apply Eg in X; destruct X as [X|[X|(_ & X & _)]]; auto; try contradiction. destruct X as [X _]. auto. }
      split; intros X; apply Y in X; auto; destruct X as [X|(p' & q' & _ & _ & X)]; first [exact (proj1 (NM1 _ _) X)|exact (proj2 (NM1 _ _) X)|exact (proj1 (NM2 _ _) X)|exact (proj2 (NM2 _ _) X)].
    + rewrite Tg, T1, T2. reflexivity.
    + intros m Hm. destruct (Mg m Hm); [left|right]; auto.
  - destruct (iterate_ok f W) as (Wg & Ug & _). destruct (iterate_structure f W) as (_ & _ & _ & _ & Tg & _ & Eg). destruct (iterate_outs f W O) as [Og Mg]. splits; auto.
    + intros p q. split; intros X; apply Eg in X; destruct X as [X|(X & _)]; try discriminate X; destruct (NM p q); contradiction.
    + rewrite Tg. auto.
    + intros m Hm. eapply L_star_mono; [exact M|apply Mg; auto].
  - destruct (strings_marked f strs g W U O NM H E) as (Wg & _ & Og & NMg & Tg & Mg). splits; auto; [congruence|]. intros m Hm. destruct (Mg m Hm) as (x & y & -> & Hx & Hy). exists x, y. auto.
  - destruct (dot_marked f W U O NM) as (Wg & _ & Og & NMg & Tg & Mg). splits; auto; [congruence|]. intros m Hm. destruct (Mg m Hm) as (x & y & -> & Hx & Hy). exists x, y. auto.
Qed.

Theorem captures_found : forall f L, captures f L -> uncompressed f -> (N.of_nat (size f) + 2 <= two32)%N -> exists s, cap_compile (surround f) = Ok s /\
  forall w, is_word w -> (N.of_nat (length w) < nowhere)%N ->
  exists cl, cap_run s w = Ok cl /\ (cs_match cl <> None <-> contains (accepts f) w) /\
    exists ans o, get_capture s cl = Ok (ans, o) /\ (o <> None <-> contains (accepts f) w) /\ (o = None -> ans = false) /\
      forall st, o = Some st -> exists u m v, w = u ++ strip m ++ v /\ L m /\ g_begin st = mark_at u 0 m /\ g_end st = mark_at u 1 m /\
        (ans = true <-> g_begin st <> nowhere).
Proof.
  intros f L C U S. destruct (captures_ok f L C) as (W & O & NM & T & M). destruct (surround_runs f W U O NM T S) as (s & E & H). exists s. split; [exact E|].
  intros w Hw Lw. destruct (H w Hw Lw) as (cl & E1 & M1 & ans & o & E2 & M2 & N2 & D). exists cl. splits; auto. exists ans, o. splits; auto.
  intros st Es. destruct (D st Es) as (u & m & v & Ew & Hm & R). exists u, m, v. splits; auto; apply R.
Qed.

Lemma accepts_letters : forall f w, wf f -> accepts f w -> Forall (fun c => (c < MaxChar)%N) w.
Proof.
  intros f w W (q & P & _). revert P. generalize (initial f). intros i P. induction P as [p|p q w r He P IH|p c q w r Hc He P IH]; auto. constructor; auto. eapply edge_letter; eauto.
Qed.
Theorem group_found : forall a b c, built a -> no_marks a -> built b -> no_marks b -> built c -> no_marks c ->
  let f := fsm_cat (fsm_cat a (capture_mark b)) c in (N.of_nat (size f) + 2 <= two32)%N -> exists s, cap_compile (surround f) = Ok s /\
  forall w, is_word w -> (N.of_nat (length w) < nowhere)%N -> exists cl ans o, cap_run s w = Ok cl /\ get_capture s cl = Ok (ans, o) /\
    (cs_match cl <> None <-> contains (accepts f) w) /\ (ans = true <-> contains (accepts f) w) /\ (ans = true <-> o <> None) /\
    forall st, o = Some st -> exists u x y z v, w = u ++ x ++ y ++ z ++ v /\ accepts a x /\ accepts b y /\ accepts c z /\
      g_begin st = N.of_nat (length (u ++ x)) /\ g_end st = N.of_nat (length (u ++ x ++ y)).
Proof.
  intros a b c Ba Na Bb Nb Bc Nc f S.
  pose proof (cp_cat _ _ _ _ (cp_cat _ _ _ _ (cp_plain a Ba Na) (cp_group _ _ (cp_plain b Bb Nb))) (cp_plain c Bc Nc)) as C.
  assert (U : uncompressed f) by (apply fsm_cat_wf; [apply (captures_ok _ _ (cp_cat _ _ _ _ (cp_plain a Ba Na) (cp_group _ _ (cp_plain b Bb Nb))))|apply built_wf; auto]).
  destruct (captures_found _ _ C U S) as (s & E & H). exists s. split; [exact E|]. intros w Hw L. destruct (H w Hw L) as (cl & E1 & M1 & ans & o & E2 & M2 & N2 & D).
  exists cl, ans, o. split; [exact E1|]. split; [exact E2|]. split; [exact M1|].
  assert (D' : forall st, o = Some st -> exists u x y z v, w = u ++ x ++ y ++ z ++ v /\ accepts a x /\ accepts b y /\ accepts c z /\
      g_begin st = N.of_nat (length (u ++ x)) /\ g_end st = N.of_nat (length (u ++ x ++ y)) /\ ans = true).
  { intros st Es. destruct (D st Es) as (u & m & v & Ew & (x1 & z & -> & (x & m2 & -> & Hx & (y & -> & Hy)) & Hz) & Eb & Ee & Ea).
    pose proof (accepts_letters _ _ (built_wf _ Ba) Hx) as Lx. pose proof (accepts_letters _ _ (built_wf _ Bb) Hy) as Ly. pose proof (accepts_letters _ _ (built_wf _ Bc) Hz) as Lz.
    rewrite !strip_app, !strip_mark, (strip_word x), (strip_word y), (strip_word z) in Ew by auto. cbn [app] in Ew. rewrite app_nil_r, <- !app_assoc in Ew.
    assert (EB : g_begin st = N.of_nat (length (u ++ x))).
    { rewrite Eb. unfold mark_at. rewrite !first_mark_app, !first_mark_mark, !strip_mark, (first_mark_word 0 x), (first_mark_word 0 y), (first_mark_word 0 z), (strip_word x) by auto. cbn. rewrite app_length. f_equal. lia. }
    exists u, x, y, z, v. splits; auto.
    - rewrite Ee. unfold mark_at. rewrite !first_mark_app, !first_mark_mark, !strip_mark, (first_mark_word 1 x), (first_mark_word 1 y), (first_mark_word 1 z), (strip_word x), (strip_word y) by auto. cbn. rewrite !app_length. f_equal. lia.
    - apply Ea. rewrite EB. rewrite Ew in L. rewrite !app_length in *. lia. }
  assert (A : ans = true <-> o <> None).
  { split; [intros X Y; rewrite (N2 Y) in X; discriminate|]. destruct o as [st|]; [|congruence]. intros _. destruct (D' st eq_refl) as (? & ? & ? & ? & ? & _ & _ & _ & _ & _ & _ & X). exact X. }
  split; [rewrite A; exact M2|]. split; [exact A|]. intros st Es. destruct (D' st Es) as (u & x & y & z & v & X1 & X2 & X3 & X4 & X5 & X6 & _). exists u, x, y, z, v. auto 6.
Qed.
