(** What CountingScanner counts. *)
From Coq Require Import List Bool Arith NArith Lia.
From Verif Require Import Util Spec FsmModel DetermineModel MinimizeModel FsmSem FsmBasics CompProofs Api ApiProofs BuildFacts
  RunModel RunSpec ScannerModel ScannerCompile CountModel CountSpec CountApi CountProofs CountUser CountAuto CountScan CountMeans.
Import ListNotations.
Local Opaque all_letters all_bytes.
Local Opaque determine fsm_or fsm_cat fsm_and complement surround with_dup any_char unsparse.

Lemma counts_same : forall adv s w i n m, counts adv s w i n -> counts adv s w i m -> n = m.
Proof. intros adv s w i n m (st & A & B) (st' & C & D). congruence. Qed.
(** The result is the longest run of what happens to the pair of words. *)
Lemma counting_runs_of : forall buf re sep s w, built re -> built sep -> counting_scanner buf re sep = Ok s -> determinable re sep -> dplaced s -> (d_nletters s <= 256)%N ->
  (forall u, piece (accepts re) (accepts sep) u -> Forall any_letter u) -> resumable (piece (accepts re) (accepts sep)) -> is_word w -> (N.of_nat (length w) < two32)%N ->
  exists evs n u v, pscan (piece (accepts re) (accepts sep)) [] [] w evs u v /\ longest_run evs n /\ counts false s w 0 (N.of_nat n).
Proof.
  intros buf re sep s w Br Bs E Dt P Few Ha G1 Hw Lw. destruct (counting_events buf re sep s Br Bs E Dt P Few Ha G1) as [_ Ev].
  destruct (counting_result false s w 0 (counting_new buf re sep s Br Bs E) P Hw Lw ltac:(lia)) as (acts & n & H1 & H2 & H3).
  destruct (Ev w acts Hw H1) as (u & v & X). exists (flat_map (events_of false 0) acts), n, u, v. auto.
Qed.
Lemma counts_no_more : forall buf re sep s w n, built re -> built sep -> counting_scanner buf re sep = Ok s -> determinable re sep -> dplaced s -> (d_nletters s <= 256)%N ->
  (forall u, piece (accepts re) (accepts sep) u -> Forall any_letter u) -> resumable (piece (accepts re) (accepts sep)) -> is_word w -> (N.of_nat (length w) < two32)%N ->
  counts false s w 0 (N.of_nat n) -> chain (piece (accepts re) (accepts sep)) w n.
Proof.
  intros buf re sep s w n Br Bs E Dt P Few Ha G1 Hw Lw C.
  destruct (counting_runs_of buf re sep s w Br Bs E Dt P Few Ha G1 Hw Lw) as (evs & m & u & v & X & [R _] & C').
  destruct (counting_events buf re sep s Br Bs E Dt P Few Ha G1) as [Hdec _].
  pose proof (counts_same _ _ _ _ _ _ C C') as Y. apply Nat2N.inj in Y. subst m.
  exact (scan_never_too_many _ (piece_ne _ _) Ha Hdec G1 w evs u v n Hw X R).
Qed.
Lemma any_words : forall w, Forall any_letter w -> is_word w.
Proof. intros w H. eapply Forall_impl; [|exact H]. exact any_is_letter. Qed.
Lemma counts_greedily : forall buf re sep s w, built re -> built sep -> counting_scanner buf re sep = Ok s -> determinable re sep -> dplaced s -> (d_nletters s <= 256)%N ->
  (forall u, piece (accepts re) (accepts sep) u -> Forall any_letter u) -> steady (piece (accepts re) (accepts sep)) -> Forall any_letter w -> (N.of_nat (length w) < two32)%N ->
  exists evs n, greedy (piece (accepts re) (accepts sep)) [] w evs /\ longest_run evs n /\ counts false s w 0 (N.of_nat n).
Proof.
  intros buf re sep s w Br Bs E Dt P Few Ha G0 Hw Lw. pose proof (steady_resumable _ (piece_ne _ _) G0) as G1.
  destruct (counting_runs_of buf re sep s w Br Bs E Dt P Few Ha G1 (any_words w Hw) Lw) as (evs & n & u & v & X & R & C).
  destruct (counting_events buf re sep s Br Bs E Dt P Few Ha G1) as [Hdec _]. exists evs, n. splits; auto.
  apply (scan_greedy _ (piece_ne _ _) Ha Hdec G0 w [] evs u v); auto; [constructor|]. right. apply begun_nil. apply piece_ne.
Qed.
Lemma greedy_fun : forall M u w evs, greedy M u w evs -> forall evs', greedy M u w evs' -> evs = evs'.
Proof.
  intros M u w evs H. induction H; intros evs' H'; inversion H'; subst; auto; try congruence; try contradiction; f_equal; auto.
Qed.

(** ** Nothing but bytes between words that do not meet *)
Lemma comp_dec : forall f nf, good f -> complement f = Ok nf -> forall w, is_word w -> accepts f w \/ ~ accepts f w.
Proof.
  intros f nf G E w Hw. Transparent complement. unfold complement in E. Opaque complement.
  destruct (determine_good f 0 G) as [(h & E' & Wh & Dh & _ & L & _)|(h & E' & _)]; rewrite E' in E; cbn in E; [|discriminate E].
  destruct (accepts_dec_det h Wh Dh w Hw) as [X|X]; [left; apply L; auto|right; intros Y; apply X, L; exact Y].
Qed.
Lemma bytes_word : forall w, bytes w -> is_word w.
Proof. intros w H. eapply Forall_impl; [|exact H]. intros c Hc. cbv beta in Hc. split; [unfold MaxChar; lia|unfold Epsilon; intros ->; lia]. Qed.
Lemma bytes_any : forall w, bytes w -> Forall any_letter w.
Proof. intros w H. eapply Forall_impl; [|exact H]. intros c Hc. left. exact Hc. Qed.
Section Bytes.
  Variables re sep : lang.
  Hypothesis Hre : forall u, re u -> bytes u.
  Hypothesis Hsep : forall u, sep u <-> bytes u.
  Hypothesis Hin : forall u, bytes u -> (exists x y z, u = x ++ y ++ z /\ re y) \/ ~ exists x y z, u = x ++ y ++ z /\ re y.
  Lemma piece_bytes : forall u, piece re sep u -> bytes u.
  Proof. intros u (a & b & -> & H1 & H2 & _). apply Forall_app. split; [apply Hsep; exact H1|exact (Hre b H2)]. Qed.
  Lemma first_piece : forall n p b z, length p <= n -> bytes p -> re b -> ~ re [] -> begun (piece re sep) (p ++ b ++ z).
  Proof.
    induction n as [|n IH]; intros p b z Hl Hp Hb Hn; destruct (Hin p Hp) as [(x & y & z' & -> & Hy)|N].
    - rewrite !app_length in Hl. destruct y; [contradiction|cbn in Hl; lia].
    - exists (p ++ b), z. rewrite <- app_assoc. split; auto. exists p, b. splits; auto. apply Hsep. auto.
    - rewrite <- !app_assoc. apply IH; auto.
      + rewrite !app_length in Hl. destruct y; [contradiction|cbn in Hl; lia].
      + apply Forall_app in Hp. tauto.
    - exists (p ++ b), z. rewrite <- app_assoc. split; auto. exists p, b. splits; auto. apply Hsep. auto.
  Qed.
  Lemma piece_occurs : forall x m, bytes x -> piece re sep m -> begun (piece re sep) (x ++ m).
  Proof.
    intros x m Hx (a & b & -> & H1 & H2 & H3). assert (Hn : ~ re []) by (intros Y; apply H3; exists [], [], a; auto).
    replace (x ++ a ++ b) with ((x ++ a) ++ b ++ []) by (rewrite app_nil_r, app_assoc; auto). eapply first_piece; eauto. apply Forall_app. split; auto. apply Hsep. auto.
  Qed.
  Lemma apart_free : apart re -> prefix_free (piece re sep).
  Proof.
    intros [A1 A2] u v (x & b & -> & X1 & X2 & X3) (y & b' & E & Y1 & Y2 & Y3). rewrite <- app_assoc in E.
    destruct (Nat.le_gt_cases (length (x ++ b)) (length y)) as [C|C].
    { exfalso. apply Y3. rewrite app_length in C.
      apply (f_equal (firstn (length y))) in E. rewrite (firstn_app _ y), Nat.sub_diag, firstn_O, app_nil_r, firstn_all in E.
      rewrite !firstn_app in E. rewrite (firstn_all2 x), (firstn_all2 b) in E by lia. symmetry in E. eauto. }
    rewrite app_length in C. destruct (Nat.le_gt_cases (length x) (length y)) as [C'|C'].
    - (* the second starts inside the first *)
      destruct (app_eq_app _ _ _ _ E) as (l & [[E1 E2]|[E1 E2]]).
      + subst x. rewrite app_length in C'. assert (l = []) by (destruct l; [auto|cbn in C'; lia]). subst l. cbn [app] in E2. subst b'. destruct (A1 [] b v X2 Y2) as [_ Z]. exact Z.
      + subst y. apply app_eq_app in E2 as (k & [[E2 E3]|[E2 E3]]).
        * subst b b'. rewrite !app_length in C. assert (k <> []) by (intros ->; cbn in C; lia). exact (A2 l k v H X2 Y2).
        * subst l v. rewrite app_length in C. rewrite app_length in C. lia.
    - (* the first lies inside the second *)
      destruct (app_eq_app _ _ _ _ E) as (l & [[E1 E2]|[E1 E2]]).
      + subst x. rewrite E2 in Y2. destruct (A1 l b v X2 Y2) as [_ Z]. exact Z.
      + subst y. rewrite app_length in C'. lia.
  Qed.
End Bytes.
Lemma counts_all : forall buf re sep s w n, built re -> built sep -> counting_scanner buf re sep = Ok s -> determinable re sep -> dplaced s -> (d_nletters s <= 256)%N ->
  (forall u, accepts re u -> bytes u) -> (forall u, accepts sep u <-> bytes u) -> prefix_free (piece (accepts re) (accepts sep)) -> bytes w -> (N.of_nat (length w) + 2 < two32)%N ->
  (counts false s (BeginMark :: w ++ [EndMark]) 0 (N.of_nat n) <-> chain (piece (accepts re) (accepts sep)) w n /\ forall m, chain (piece (accepts re) (accepts sep)) w m -> m <= n).
Proof.
  intros buf re sep s w n Br Bs E Dt P Few Hre Hsep Hf Hw Lw. set (L := piece (accepts re) (accepts sep)) in *.
  assert (Hin : forall u, bytes u -> (exists x y z, u = x ++ y ++ z /\ accepts re y) \/ ~ exists x y z, u = x ++ y ++ z /\ accepts re y).
  { intros u Hu. destruct Dt as (nr & _ & _ & _ & Enr & _). pose proof (built_surround re Br) as Bsr. pose proof (bytes_word u Hu) as Wu.
    destruct (comp_dec (surround re) nr (built_good _ Bsr) Enr u Wu) as [X|X].
    - left. apply f_surround in X; auto. destruct X as (x & y & z & -> & _ & _ & H). eauto.
    - right. intros (x & y & z & -> & H). apply X. apply f_surround; auto. apply Forall_app in Wu as [X1 X2]. apply Forall_app in X2 as [_ X3]. exists x, y, z. auto. }
  assert (Hb : forall u, L u -> bytes u) by (intros u; apply (piece_bytes (accepts re) (accepts sep) Hre Hsep)).
  assert (Ha : forall u, L u -> Forall any_letter u) by (intros u Hu; apply bytes_any; auto).
  assert (G0 : steady L) by (apply free_steady; auto). pose proof (steady_resumable _ (piece_ne _ _) G0) as G1. fold L in G1.
  set (t := BeginMark :: w ++ [EndMark]).
  assert (Ht : Forall any_letter t) by (constructor; [right; left; auto|]; apply Forall_app; split; [apply bytes_any; auto|constructor; [right; right; auto|constructor]]).
  assert (Lt : (N.of_nat (length t) < two32)%N) by (unfold t; cbn [length]; rewrite app_length; cbn [length]; lia).
  destruct (counts_greedily buf re sep s t Br Bs E Dt P Few Ha G0 Ht Lt) as (evs & k & Gr & [R1 R2] & C). fold L in Gr.
  destruct (counting_events buf re sep s Br Bs E Dt P Few Ha G1) as [Hdec _]. fold L in Hdec.
  (* chains of the text between the marks are those of the text *)
  assert (CH : forall m, chain L t m -> chain L w m).
  { intros m (x & ms & y & Ex & Lm & F). destruct ms as [|m0 ms]; [cbn in Lm; subst m; exists w, [], []; cbn; rewrite app_nil_r; auto|].
    assert (Bc : bytes (concat (m0 :: ms))).
    { clear - F Hb. induction F as [|z l Hz F IH]; cbn [concat]; [constructor|]. apply Forall_app. split; [exact (Hb z Hz)|exact IH]. }
    assert (Ne : concat (m0 :: ms) <> []).
    { inversion F; subst. intros Y. cbn [concat] in Y. apply app_eq_nil in Y as [-> _]. apply (piece_ne (accepts re) (accepts sep)). exact H1. }
    remember (concat (m0 :: ms)) as q eqn:Eq. unfold t in Ex. destruct x as [|c x].
    - destruct q as [|d q]; [destruct (Ne eq_refl)|]. cbn in Ex. injection Ex as Ec _. subst d. inversion Bc; subst. unfold BeginMark in *. lia.
    - cbn in Ex. injection Ex as <- Ex. destruct y as [|d y _] using rev_ind.
      + rewrite app_nil_r in Ex. destruct q as [|d q _] using rev_ind; [destruct (Ne eq_refl)|]. rewrite app_assoc in Ex. apply app_inj_tail in Ex as [_ <-].
        apply Forall_app in Bc as [_ Bc]. inversion Bc; subst. unfold EndMark in *. lia.
      + rewrite !app_assoc in Ex. apply app_inj_tail in Ex as [Ex _]. exists x, (m0 :: ms), y. rewrite <- Eq, Ex, app_assoc. auto. }
  assert (C1 : chain L w k) by (apply CH; exact (counts_no_more buf re sep s t k Br Bs E Dt P Few Ha G1 (any_words t Ht) Lt C)).
  assert (C2 : forall m, chain L w m -> m <= k).
  { intros m Hm. assert (X : m = 0 \/ exists m0, L m0).
    { destruct Hm as (x & ms & y & _ & Lm & F). destruct ms as [|m0 ms]; [left; auto|right]. inversion F; subst. eauto. }
    destruct X as [->|[m0 H0]]; [lia|].
    destruct (greedy_never_too_few L (piece_ne _ _) Hdec Hf Hb (piece_occurs (accepts re) (accepts sep) Hsep Hin) m0 H0 w evs m Hw Gr Hm) as (m' & H1 & H2).
    specialize (R2 m' H2). lia. }
  split.
  - intros C'. pose proof (counts_same _ _ _ _ _ _ C C') as Y. apply Nat2N.inj in Y. subst n. auto.
  - intros [X1 X2]. assert (n = k) by (apply Nat.le_antisymm; auto). subst n. exact C.
Qed.

(** Words of [re] one after another with anything in between *)
Lemma chain_pieces : forall re sep : lang, (forall u, re u -> bytes u) -> (forall u, sep u <-> bytes u) ->
  (forall u, bytes u -> (exists x y z, u = x ++ y ++ z /\ re y) \/ ~ exists x y z, u = x ++ y ++ z /\ re y) -> ~ re [] ->
  forall w n, bytes w -> (chain (L_cat sep re) w n <-> chain (piece re sep) w n).
Proof.
  intros re sep Hre Hsep Hin Hn w n Hw. split.
  - intros (x & ms & y & -> & Lm & F).
    assert (X : forall z, bytes z -> exists ps z', z ++ concat ms = concat ps ++ z' /\ length ps = length ms /\ Forall (piece re sep) ps).
    { clear - F Hre Hsep Hin Hn. induction F as [|m ms (a & b & -> & Ha & Hb) F IH]; intros z Hz.
      - exists [], z. cbn. rewrite app_nil_r. auto.
      - assert (Y : begun (piece re sep) ((z ++ a) ++ b ++ [])).
        { eapply first_piece; eauto. apply Forall_app. split; auto. apply Hsep. auto. }
        destruct Y as (p & z1 & E & Hp). rewrite app_nil_r, <- app_assoc in E.
        assert (Hz1 : bytes z1).
        { assert (Z : bytes (z ++ a ++ b)) by (repeat (apply Forall_app; split); auto; [apply Hsep; auto|apply Hre; auto]). rewrite E in Z. apply Forall_app in Z. tauto. }
        destruct (IH z1 Hz1) as (ps & z' & E1 & E2 & E3). exists (p :: ps), z'. cbn [concat length]. splits; auto.
        rewrite !app_assoc, <- (app_assoc z), E, <- !app_assoc, E1. reflexivity. }
    assert (Hx : bytes x) by (apply Forall_app in Hw; tauto).
    destruct (X x Hx) as (ps & z' & E1 & E2 & E3). exists [], ps, (z' ++ y). cbn [app]. splits; auto; [|congruence].
    rewrite app_assoc, E1, app_assoc. reflexivity.
  - intros (x & ms & y & -> & Lm & F). exists x, ms, y. splits; auto. eapply Forall_impl; [|exact F]. intros m (a & b & -> & Ha & Hb & _). exists a, b. auto.
Qed.
Lemma counts_occurrences : forall buf re sep s w n, built re -> built sep -> counting_scanner buf re sep = Ok s -> determinable re sep -> dplaced s -> (d_nletters s <= 256)%N ->
  (forall u, accepts re u -> bytes u /\ u <> []) -> apart (accepts re) -> (forall u, accepts sep u <-> bytes u) -> bytes w -> (N.of_nat (length w) + 2 < two32)%N ->
  (counts false s (BeginMark :: w ++ [EndMark]) 0 (N.of_nat n) <-> chain (L_cat (accepts sep) (accepts re)) w n /\ forall m, chain (L_cat (accepts sep) (accepts re)) w m -> m <= n).
Proof.
  intros buf re sep s w n Br Bs E Dt P Few Hre Ap Hsep Hw Lw.
  assert (Hb : forall u, accepts re u -> bytes u) by (intros u H; apply Hre; auto). assert (Hn : ~ accepts re []) by (intros H; apply Hre in H; tauto).
  pose proof (apart_free (accepts re) (accepts sep) Ap) as Hf.
  rewrite (counts_all buf re sep s w n Br Bs E Dt P Few Hb Hsep Hf Hw Lw).
  assert (Hin : forall u, bytes u -> (exists x y z, u = x ++ y ++ z /\ accepts re y) \/ ~ exists x y z, u = x ++ y ++ z /\ accepts re y).
  { intros u Hu. destruct Dt as (nr & _ & _ & _ & Enr & _). pose proof (built_surround re Br) as Bsr. pose proof (bytes_word u Hu) as Wu.
    destruct (comp_dec (surround re) nr (built_good _ Bsr) Enr u Wu) as [X|X].
    - left. apply f_surround in X; auto. destruct X as (x & y & z & -> & _ & _ & H). eauto.
    - right. intros (x & y & z & -> & H). apply X. apply f_surround; auto. apply Forall_app in Wu as [X1 X2]. apply Forall_app in X2 as [_ X3]. exists x, y, z. auto. }
  pose proof (chain_pieces (accepts re) (accepts sep) Hb Hsep Hin Hn w) as X. split; intros [Y1 Y2]; split; try (apply X; auto); intros m Hm; apply Y2; apply X; auto.
Qed.
Lemma counts_greedily_unique : forall buf re sep s w, built re -> built sep -> counting_scanner buf re sep = Ok s -> determinable re sep -> dplaced s -> (d_nletters s <= 256)%N ->
  (forall u, piece (accepts re) (accepts sep) u -> Forall any_letter u) -> steady (piece (accepts re) (accepts sep)) -> Forall any_letter w -> (N.of_nat (length w) < two32)%N ->
  exists evs n, greedy (piece (accepts re) (accepts sep)) [] w evs /\ (forall evs', greedy (piece (accepts re) (accepts sep)) [] w evs' -> evs' = evs) /\
    longest_run evs n /\ counts false s w 0 (N.of_nat n).
Proof.
  intros buf re sep s w Br Bs E Dt P Few Ha G0 Hw Lw. destruct (counts_greedily buf re sep s w Br Bs E Dt P Few Ha G0 Hw Lw) as (evs & n & G & R & C).
  exists evs, n. splits; auto. intros evs' G'. exact (greedy_fun _ _ _ _ G' evs G).
Qed.
