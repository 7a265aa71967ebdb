(** SimpleScanner and SlowScanner for the user. *)
From Coq Require Import List Bool Arith NArith Lia Sorted.
From Verif Require Import Util Spec PartitionModel FsmModel DetermineModel MinimizeModel Nfa PartitionProofs FsmSem FsmBasics FsmOps EpsProofs DetProofs MinProofs CompProofs Api ApiProofs BuildFacts
  TagFacts RunModel RunSpec RunProofs PrefixProofs ScannerModel ScannerSpec ScannerProofs ScannerBuild ScannerCompile ScannerApi ScannerClosure ScannerUser SimpleModel SimpleProofs SlowProofs IoModel IoBytes SimpleIo SlowIo SimpleApi.
Import ListNotations.
Local Open Scope N_scope.
Local Opaque all_letters all_bytes.

(** ** Any scanner that works and answers for languages *)
Section Answers.
  Variables (St : Type) (o : ops St) (V : St -> Prop) (acc : St -> res (list N)) (Ls : list lang).
  Hypothesis W : works o V.
  Hypothesis R : tells_of o acc Ls.

  Lemma tells_accepts : forall w, is_word w -> (Accepts o w <-> any_of Ls w).
  Proof.
    intros w Hw. destruct (R w Hw) as (a & E & (fin & F & I) & _). unfold Accepts. rewrite <- I. split.
    - intros (a' & E' & F'). congruence.
    - intros ->. eauto.
  Qed.
  Lemma tells_ext : forall bm bs, Forall byte bs ->
    (forall n, (n <= length bs)%nat -> (Accepts o (mark_if bm BeginMark ++ firstn n bs) <-> any_of Ls (mark_if bm BeginMark ++ firstn n bs))) /\
    (Accepts o (mark_if bm BeginMark ++ bs ++ [EndMark]) <-> any_of Ls (mark_if bm BeginMark ++ bs ++ [EndMark])).
  Proof.
    intros bm bs H. split; intros; apply tells_accepts; apply Forall_app; split; try (apply mark_word, BeginMark_letter).
    - apply firstn_word; auto.
    - apply Forall_app. split; [apply bytes_word; auto|]. constructor; [apply EndMark_letter|constructor].
  Qed.
  Lemma tells_shortest : forall (m : mem) bm em b bs, text_at m b bs ->
    exists r, shortest_prefix o m bm em b (b + N.of_nat (length bs)) = Ok r /\
      shortest_result (fun u => any_of Ls (mark_if bm BeginMark ++ u)) em b bs r.
  Proof.
    intros m bm em b bs T. destruct (@shortest_prefix_generic _ o V W m bm em b bs T) as (r & E & H). exists r. split; auto.
    destruct (tells_ext bm bs (proj1 (proj1 (proj2 T)))) as [X Y]. revert H. apply shortest_ext; auto.
  Qed.
  Lemma tells_longest : forall (m : mem) bm em b bs, text_at m b bs ->
    exists r, longest_prefix o m bm em b (b + N.of_nat (length bs)) = Ok r /\
      longest_result (fun u => any_of Ls (mark_if bm BeginMark ++ u)) em b bs r.
  Proof.
    intros m bm em b bs T. destruct (@longest_prefix_generic _ o V W m bm em b bs T) as (r & E & H). exists r. split; auto.
    destruct (tells_ext bm bs (proj1 (proj1 (proj2 T)))) as [X Y]. revert H. apply longest_ext; auto.
  Qed.
End Answers.

(** ** SimpleScanner *)
Definition sfaithful (s : simple) (Ls : list lang) : Prop :=
  (p_null s = true -> Ls = [] /\ p_owned s = false) /\ (p_null s = false -> length Ls = 1%nat) /\
  exists t, simple_shows s t /\ forall w, is_word w -> (m_final t (m_run t (m_start t) w) = true <-> any_of Ls w).

Lemma any_of_one : forall L w, any_of [L] w <-> L w.
Proof. intros. unfold any_of. split; [intros (x & [<- | []] & H); auto|]. intros H. exists L. split; [left|]; auto. Qed.
Lemma any_of_none : forall w, any_of [] w <-> False.
Proof. intros. unfold any_of. split; [intros (x & [] & _)|tauto]. Qed.

Lemma one_or_none : forall (fin : bool) Ls w, (length Ls <= 1)%nat -> (fin = true <-> any_of Ls w) ->
  StronglySorted N.lt (if fin then [0] else []) /\
  forall i, In i (if fin then [0] else []) <-> exists L, nth_error Ls (N.to_nat i) = Some L /\ L w.
Proof.
  intros fin Ls w Hl H. split; [destruct fin; repeat constructor|]. intros i. destruct Ls as [|L [|L' Ls]]; cbn [length] in Hl; try lia.
  - rewrite any_of_none in H. destruct fin; [exfalso; apply H; auto|]. cbn [In]. split; [tauto|]. intros (L & X & _). destruct (N.to_nat i); discriminate.
  - rewrite any_of_one in H. split.
    + destruct fin; cbn [In]; [|tauto]. intros [<- | []]. exists L. split; auto. apply H; auto.
    + intros (L' & X & Y). destruct (N.to_nat i) as [|j] eqn:Ei; cbn [nth_error] in X; [|destruct j; discriminate]. apply some_inj in X. subst L'.
      rewrite (proj2 H Y). left. lia.
Qed.

Lemma simple_compile_faithful : forall buf f s, built f -> simple_compile buf f = Ok s -> simple_placed s -> sfaithful s [accepts f].
Proof.
  intros buf f s B E P. destruct (simple_compile_inv buf f s B E) as (g & C & W & D & L & M & E1 & E2 & E3 & E4 & E5 & T). unfold sfaithful. splits.
  - congruence.
  - auto.
  - exists (machine_of g []). split.
    + split; auto. unfold simple_placed in P. rewrite E2 in P. exact P.
    + intros w Hw. rewrite any_of_one, <- (L w). cbn [m_start machine_of]. fold (machine_of g []). apply machine_final; auto. apply (wf_init _ W).
Qed.
Lemma simple_default_inv : forall buf s, simple_default buf = Ok s -> exists s0, simple_compile buf make_false = Ok s0 /\
  s = mkSimple (p_states s0) (p_initial s0) (p_buf s0) (p_words s0) false true.
Proof.
  intros buf s. unfold simple_default. generalize (simple_compile buf make_false). intros [s0| | |]; cbn [bind]; try discriminate.
  intros H. apply ok_inj in H. eauto.
Qed.
Lemma simple_default_faithful : forall buf s, simple_default buf = Ok s -> simple_placed s -> sfaithful s [].
Proof.
  intros buf s E P. destruct (simple_default_inv _ _ E) as (s0 & E0 & ->).
  destruct (simple_compile_faithful buf make_false s0) as (_ & _ & t & H & F); auto; [apply built_false|].
  unfold sfaithful. splits; auto; [discriminate|]. exists t. split.
  - destruct H as [A1 A2 A3 A4 A5]. split; auto.
  - intros w Hw. rewrite (F w Hw), any_of_one, any_of_none. split; [|tauto]. apply make_false_lang.
Qed.
Lemma simple_copy_faithful : forall buf s Ls, sfaithful s Ls -> simple_placed (simple_copy buf s) -> sfaithful (simple_copy buf s) Ls.
Proof.
  intros buf s Ls (N1 & N2 & t & H & F) P. unfold simple_copy in *. destruct (p_owned s) eqn:Ow.
  - assert (Nn : p_null s = false).
    { destruct (p_null s) eqn:X; auto. destruct N1; auto; congruence. }
    unfold sfaithful. cbn [p_null p_owned]. splits; [discriminate| |].
    + intros _. apply N2; auto.
    + exists t. split; auto. destruct H as [A1 A2 A3 A4 A5]. unfold simple_placed in P. cbn [p_buf p_states] in P. rewrite A3 in P.
      split; cbn [p_buf p_words p_states p_initial]; auto. rewrite A4. unfold simple_addr. cbn [p_buf]. pose proof (mo_start _ A1) as St. unfold two64 in *.
      replace (p_buf s + (N.of_nat (m_start t) * 265 + 1) * 8 + (buf + 18446744073709551616 - p_buf s))
        with (buf + (N.of_nat (m_start t) * 265 + 1) * 8 + 1 * 18446744073709551616) by lia.
      rewrite N.mod_add by discriminate. apply N.mod_small. lia.
  - unfold sfaithful. rewrite Ow. splits; auto. exists t. auto.
Qed.
Lemma simple_rebase_faithful : forall buf owned s Ls, sfaithful s Ls -> p_null s = false -> buf + p_states s * 265 * 8 <= 18446744073709551616 ->
  sfaithful (simple_rebase buf owned s) Ls.
Proof.
  intros buf owned s Ls (N1 & N2 & t & H & F) Nu P. unfold sfaithful. cbn [simple_rebase p_null]. splits; [discriminate|auto|].
  exists t. split; auto. apply simple_shows_rebase; auto.
Qed.
Lemma simple_rebase_fits : forall buf owned s, simple_fits s -> simple_fits (simple_rebase buf owned s).
Proof. intros buf owned s F. exact F. Qed.
Lemma obtained_simple_ok : forall s Ls, obtained_simple s Ls -> sfaithful s Ls /\ simple_fits s.
Proof.
  intros s Ls O. induction O.
  - split; [eapply simple_compile_faithful; eauto|eapply simple_compile_fits; eauto].
  - split; [eapply simple_default_faithful; eauto|eapply simple_default_fits; eauto].
  - destruct IHO. split; [apply simple_copy_faithful; auto|apply simple_copy_fits; auto].
  - destruct IHO as [A B]. pose proof A as (N1 & N2 & t & Sh & _).
    destruct (simple_load_inv s t Sh B img throws rest buf null s' st H H1 H2) as (_ & [[NN ->]|(NN & _ & ->)]).
    + destruct (N1 NN) as [-> _]. split; [eapply simple_default_faithful; eauto|eapply simple_default_fits; eauto].
    + split; [apply simple_rebase_faithful; auto|apply simple_rebase_fits; auto].
  - destruct IHO as [A B]. pose proof A as (N1 & N2 & t & Sh & _). destruct H2 as (M1 & M2 & M3).
    destruct (simple_mmap_inv s t Sh B img m ptr size this s' p H0 H1 M1 M2 M3 H3) as (_ & [[NN _]|(_ & E & P)]); [congruence|]. subst s'.
    split; [apply simple_rebase_faithful; auto|apply simple_rebase_fits; auto].
Qed.
Lemma obtained_simple_faithful : forall s Ls, obtained_simple s Ls -> sfaithful s Ls.
Proof. intros s Ls O. apply (obtained_simple_ok s Ls O). Qed.
Lemma sfaithful_short : forall s Ls, sfaithful s Ls -> (length Ls <= 1)%nat.
Proof. intros s Ls (A & B & _). destruct (p_null s); [destruct A as [-> _]; auto; cbn; lia|]. rewrite B; auto. Qed.
Lemma obtained_simple_tells : forall s Ls, obtained_simple s Ls -> tells_of (simple_ops s) (simple_accepted s) Ls.
Proof.
  intros s Ls O w Hw. pose proof (obtained_simple_faithful _ _ O) as X. pose proof (sfaithful_short _ _ X) as Sh. destruct X as (_ & _ & t & H & F).
  destruct (simple_steps s t H w (m_start t) (mo_start _ (ss_ok _ _ H)) Hw) as [E L].
  exists (simple_addr s (m_run t (m_start t) w)). cbn [simple_ops o_init o_final]. fold (simple_ops s). rewrite (ss_init _ _ H). split; auto. split.
  - exists (m_final t (m_run t (m_start t) w)). split; [apply (simple_final_at s t H); auto|]. auto.
  - exists (if m_final t (m_run t (m_start t) w) then [0] else []). split; [apply (simple_accepted_at s t H); auto|]. apply one_or_none; auto.
Qed.
Lemma obtained_simple_count : forall s Ls, obtained_simple s Ls -> simple_count s = N.of_nat (length Ls).
Proof.
  intros s Ls O. destruct (obtained_simple_faithful _ _ O) as (A & B & _). unfold simple_count. destruct (p_null s).
  - destruct A as [-> _]; auto.
  - rewrite B; auto.
Qed.
Lemma obtained_simple_works : forall s Ls, obtained_simple s Ls -> exists V, works (simple_ops s) V.
Proof. intros s Ls O. destruct (obtained_simple_faithful _ _ O) as (_ & _ & t & H & _). eexists. apply (simple_works s t H). Qed.
Lemma simple_total : forall buf f, built f -> determined f = false -> user_address buf ->
  (exists s, simple_compile buf f = Ok s /\ obtained_simple s [accepts f]) \/ simple_compile buf f = Throw ETooComplicated.
Proof.
  intros buf f B D [U1 U2]. destruct (simple_compile_total buf f B D) as [(s & E & L)|E]; auto. left. exists s. split; auto.
  eapply os_compile; eauto. destruct (simple_compile_inv buf f s B E) as (g & _ & _ & _ & _ & _ & Eb & _). unfold simple_placed. rewrite Eb. lia.
Qed.

(** ** SlowScanner *)
Definition lfaithful (s : slow) (Ls : list lang) : Prop :=
  (w_null s = true -> Ls = []) /\ (w_null s = false -> length Ls = 1%nat) /\
  exists n g, slow_shows s n (edge g) (initial g) (is_final g) /\ forall w, accepts g w <-> any_of Ls w.
Lemma slow_compile_faithful : forall f s, built f -> N.of_nat (size f) <= two32 -> slow_compile f = Ok s -> lfaithful s [accepts f].
Proof.
  intros f s B Hn E. destruct (slow_compile_ok f B Hn) as (s' & E' & Nu & _ & _ & H & L). rewrite E in E'. apply ok_inj in E'. subst s'.
  unfold lfaithful. splits; auto; [congruence|]. exists (size f), (remove_epsilons f). split; auto. intros w. rewrite any_of_one. apply L.
Qed.
Lemma slow_default_inv : forall s, slow_default = Ok s -> exists s0, slow_compile make_false = Ok s0 /\
  s = mkSlow (w_states s0) (w_lcount s0) (w_start s0) (w_letters s0) (w_finals s0) (w_jumps s0) true.
Proof.
  intros s. unfold slow_default. generalize (slow_compile make_false). intros [s0| | |]; cbn [bind]; try discriminate.
  intros H. apply ok_inj in H. eauto.
Qed.
Lemma slow_default_faithful : forall s, slow_default = Ok s -> lfaithful s [].
Proof.
  intros s E. destruct (slow_default_inv _ E) as (s0 & E0 & ->).
  destruct (slow_compile_faithful make_false s0) as (_ & _ & n & g & H & F); auto; [apply built_false|vm_compute; discriminate|].
  unfold lfaithful. splits; auto; [discriminate|]. exists n, g. split.
  - destruct H as [A1 A2 A3 A4 A5 A6]. split; auto.
  - intros w. rewrite (F w), any_of_one, any_of_none. split; [|tauto]. apply make_false_lang.
Qed.
Lemma lfaithful_start : forall s Ls, lfaithful s Ls -> w_start s < w_states s.
Proof. intros s Ls (_ & _ & n & g & H & _). destruct (sl_init _ _ _ _ _ H) as [-> L]. rewrite (sl_states _ _ _ _ _ H). lia. Qed.
Lemma mapped_faithful : forall s v Ls, w_jumps s = InVec v -> w_null s = false -> lfaithful s Ls -> lfaithful (slow_mapped s v) Ls.
Proof.
  intros s v Ls J Nu (A & B & n & g & H & F). unfold lfaithful. cbn [slow_mapped w_null]. splits; [discriminate|auto|].
  exists n, g. split; auto. apply mapped_shows; auto.
Qed.
Definition lnull (s : slow) : Prop := w_null s = true -> exists v, w_jumps s = InVec v.
Lemma slow_default_shape : forall s, slow_default = Ok s -> slow_fits s /\ lnull s.
Proof.
  intros s E. destruct (slow_default_inv _ E) as (s0 & E0 & ->). destruct (slow_compile_fits make_false s0 built_false E0) as [[A B C] _].
  destruct (slow_compile_ok make_false built_false) as (s1 & E1 & _ & (v & J) & _); [vm_compute; discriminate|]. rewrite E0 in E1. apply ok_inj in E1. subst s1.
  split; [split; auto|]. intros _. exists v. exact J.
Qed.
Lemma save_slow_vec : forall s img, lnull s -> save_slow s = Ok img -> exists v, w_jumps s = InVec v.
Proof.
  intros s img L E. unfold save_slow in E. destruct (w_null s) eqn:Nu; [apply L; auto|]. destruct (w_jumps s) as [v|]; [eauto|discriminate].
Qed.
Lemma obtained_slow_ok : forall s Ls, obtained_slow s Ls -> lfaithful s Ls /\ slow_fits s /\ lnull s.
Proof.
  intros s Ls O. induction O.
  - splits; [eapply slow_compile_faithful; eauto|eapply slow_compile_fits; eauto|].
    destruct (slow_compile_ok f H H0) as (s' & E' & Nu & _). rewrite H1 in E'. apply ok_inj in E'. subst s'. unfold lnull. congruence.
  - split; [apply slow_default_faithful; auto|apply slow_default_shape; auto].
  - unfold slow_copy. rewrite H. destruct (w_jumps s); auto.
  - destruct IHO as (A & B & C). destruct (save_slow_vec _ _ C H) as [v J].
    destruct (slow_load_inv s v img old null throws rest s' st B J (lfaithful_start _ _ A) H0 H H2) as (_ & [[NN ->]|[_ ->]]); [|auto].
    destruct A as (A & _). rewrite (A NN). split; [apply slow_default_faithful; auto|apply slow_default_shape; auto].
  - destruct IHO as (A & B & C). destruct (save_slow_vec _ _ C H0) as [v J]. destruct H3 as (M1 & M2 & M3).
    destruct (slow_mmap_inv s v img m ptr size this s' p B J (lfaithful_start _ _ A) H1 H H0 H2 M1 M2 M3 H4) as (_ & E). subst s'.
    splits; [apply mapped_faithful; auto|apply mapped_fits; auto|]. unfold lnull. discriminate.
Qed.
Lemma obtained_slow_faithful : forall s Ls, obtained_slow s Ls -> lfaithful s Ls.
Proof. intros s Ls O. apply (obtained_slow_ok s Ls O). Qed.
Lemma obtained_slow_tells : forall s Ls, obtained_slow s Ls -> tells_of (slow_ops s) (slow_accepted s) Ls.
Proof.
  intros s Ls O w Hw. destruct (obtained_slow_faithful _ _ O) as (A & B & n & g & H & F).
  assert (Sh : (length Ls <= 1)%nat) by (destruct (w_null s); [rewrite A by auto; cbn; lia|rewrite B; auto]).
  destruct (slow_accepts s g n w H Hw) as (st & E & b & Eb & Ib). exists st. cbn [slow_ops o_init o_final]. fold (slow_ops s). rewrite F in Ib.
  split; auto. split; [eauto|]. unfold slow_accepted. rewrite Eb. cbn [bind]. eexists. split; [reflexivity|]. apply one_or_none; auto.
Qed.
Lemma obtained_slow_count : forall s Ls, obtained_slow s Ls -> slow_count s = N.of_nat (length Ls).
Proof.
  intros s Ls O. destruct (obtained_slow_faithful _ _ O) as (A & B & _). unfold slow_count. destruct (w_null s).
  - rewrite A by auto. reflexivity.
  - rewrite B; auto.
Qed.
Lemma obtained_slow_works : forall s Ls, obtained_slow s Ls -> exists V, works (slow_ops s) V.
Proof. intros s Ls O. destruct (obtained_slow_faithful _ _ O) as (_ & _ & n & g & H & _). eexists. apply (slow_works s n _ _ _ H). Qed.
Lemma slow_total : forall f, built f -> N.of_nat (size f) <= 4294967296 -> exists s, slow_compile f = Ok s /\ obtained_slow s [accepts f].
Proof. intros f B Hn. destruct (slow_compile_ok f B Hn) as (s & E & _). exists s. split; auto. apply ol_compile; auto. Qed.
