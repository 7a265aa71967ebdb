(** Complement, intersection and Canonize. *)
From Coq Require Import List Bool Arith NArith Lia.
From Verif Require Import Util Spec PartitionModel PartitionProofs FsmModel DetermineModel MinimizeModel Nfa NfaOps FsmSem FsmBasics FsmOps FsmOps2 DeadProofs EpsProofs DetGeneric DetProofs MinGeneric MinProofs.
Import ListNotations.
Local Opaque all_letters.

(** An automaton whose [determined] flag, when set, can be relied on. *)
Definition good (f : fsm) : Prop := wf f /\ (determined f = true -> det_ok f).

Lemma acc_from_initial : forall f w, acc_from f (initial f) w <-> accepts f w.
Proof. intros; reflexivity. Qed.

Section DetPath.
  Variable f : fsm.
  Hypothesis W : wf f.
  Hypothesis D : det_ok f.

  Lemma det_path_total : forall w p, p < size f -> is_word w -> exists q, q < size f /\ path (edge f) p w q.
  Proof.
    induction w as [|c w IH]; intros p Hp Hw.
    - exists p. split; auto. constructor.
    - inversion Hw as [|? ? [H1 H2] Hw']; subst. destruct (dedge_total f W D p c Hp H1 H2) as [m [Hm E]].
      destruct (IH m Hm Hw') as [q [Hq P]]. exists q. split; auto. eapply path_step; eauto.
  Qed.
  Lemma det_path_fun : forall w p q q', path (edge f) p w q -> path (edge f) p w q' -> q = q'.
  Proof.
    induction w as [|c w IH]; intros p q q' P P'.
    - destruct (path_inv _ _ _ _ P) as [[_ ->]|[(m & H1 & P1)|(c & m & w1 & E & _)]]; [|destruct (dedge_no_eps f W D _ _ H1)|discriminate].
      destruct (path_inv _ _ _ _ P') as [[_ ->]|[(m & H1 & P1)|(c & m & w1 & E & _)]]; [|destruct (dedge_no_eps f W D _ _ H1)|discriminate]. auto.
    - destruct (path_inv _ _ _ _ P) as [[E _]|[(m & H1 & P1)|(c1 & m & w1 & E & Hc & H1 & P1)]]; [discriminate|destruct (dedge_no_eps f W D _ _ H1)|].
      injection E as <- <-.
      destruct (path_inv _ _ _ _ P') as [[E _]|[(m' & H1' & P1')|(c1 & m' & w1 & E & Hc' & H1' & P1')]]; [discriminate|destruct (dedge_no_eps f W D _ _ H1')|].
      injection E as <- <-. rewrite (dedge_fun f W D _ _ _ _ H1 H1') in *. eauto.
  Qed.
  Lemma det_acc_path : forall p w q v, path (edge f) p w q -> (acc_from f p (w ++ v) <-> acc_from f q v).
  Proof.
    intros p w q v P. split.
    - intros [r [P' F]]. apply path_split in P' as [m [P1 P2]]. rewrite (det_path_fun _ _ _ _ P P1). exists r. auto.
    - intros [r [P' F]]. exists r. split; auto. eapply path_app; eauto.
  Qed.
End DetPath.

Lemma determine_small : forall f maxsize, wf f -> determined f = false ->
  (2 ^ N.of_nat (size f) <= det_limit maxsize + 1)%N -> exists g, determine f maxsize = Ok (true, g).
Proof.
  intros f maxsize W D H. destruct (determine_ok f maxsize W D) as (b & g & E & Wg & _ & _ & _ & B).
  destruct b; [eauto|]. destruct (B eq_refl) as [Sz [ss [ND [L S]]]]. exfalso.
  assert (X : length ss <= 2 ^ size f).
  { rewrite <- Sz. apply subsets_bound; auto. intros s Hs. destruct (S s Hs) as [A [w [_ C]]]. split; auto. intros q Hq.
    apply C in Hq. unfold reach_set in Hq. eapply (path_closed _ (fun q => q < size g)); [|exact Hq|apply Wg].
    intros p c q' _ E'. eapply edge_bound; eauto. }
  assert (Y : (N.of_nat (length ss) <= 2 ^ N.of_nat (size f))%N).
  { replace (2 ^ N.of_nat (size f))%N with (N.of_nat (2 ^ size f)); [lia|]. rewrite Nat2N.inj_pow. auto. }
  lia.
Qed.

(** C08 *)
Definition comp_table (f : fsm) : fsm :=
  let f3 := resize_fsm f (size f + 1) in
  let e := size f3 - 1 in
  let f4 := fold_left (fun g i => if is_final g i then g else connect g i e Epsilon) (seq 0 (size f3)) f3 in
  set_determined (set_final (clear_final f4) e true) false.

Lemma comp_table_ok : forall f, wf f -> det_ok f ->
  wf (comp_table f) /\ determined (comp_table f) = false /\ lang_eq (accepts (comp_table f)) (L_not (accepts f)).
Proof.
  intros f W D. unfold comp_table. set (f1 := resize_fsm f (size f + 1)).
  assert (E1 : size f1 = size f + 1) by apply size_resize. rewrite E1. replace (size f + 1 - 1) with (size f) by lia.
  set (f2 := fold_left _ (seq 0 (size f + 1)) f1).
  assert (A : adds f1 f2 (fun p c q => exists x, In x (seq 0 (size f + 1)) /\ (~ In x (finals f) /\ p = x /\ c = Epsilon /\ q = size f))).
  { unfold f2. apply adds_fold with (S := fun x p c q => ~ In x (finals f) /\ p = x /\ c = Epsilon /\ q = size f).
    intros g x T Hx A. unfold is_final. rewrite (ad_fin _ _ _ A). change (finals f1) with (finals f). apply in_seq in Hx.
    destruct (smem x (finals f)) eqn:F.
    - apply smem_in in F. eapply adds_ext; [apply adds_refl|]. tauto.
    - apply smem_false in F. eapply adds_ext.
      + apply connect_adds; rewrite ?(ad_size _ _ _ A), ?E1; try lia. reflexivity.
      + cbn. tauto. }
  clearbody f2. set (h := set_determined _ false).
  assert (Lh : letters h = letters f) by (change (letters f2 = letters f); rewrite (ad_let _ _ _ A); reflexivity).
  assert (Sh : size h = size f + 1) by (change (size f2 = size f + 1); rewrite (ad_size _ _ _ A); auto).
  assert (Ih : initial h = initial f) by (change (initial f2 = initial f); rewrite (ad_init _ _ _ A); auto).
  assert (Ef1 : forall p c q, raw f1 p c q <-> raw f p c q) by (intros; apply raw_resize; lia).
  assert (Cf1 : coherent f1).
  { intros p c r Hr Hp q. rewrite !Ef1. unfold f1 in Hp. rewrite pres_resize in Hp by lia. apply (wf_coh _ W p c r Hr Hp). }
  assert (Bf1 : bcoherent f1).
  { intros q c r Hr [p0 Hp] p. rewrite !Ef1. rewrite Ef1 in Hp. apply (wf_bcoh _ W q c r Hr). eauto. }
  pose proof (wf_init _ W) as WI.
  split; [|split; [reflexivity|]].
  - constructor.
    + rewrite Ih. lia.
    + change (finals h) with [size f]. rewrite Sh. intros q [<-|[]]. lia.
    + change (finals h) with [size f]. repeat constructor.
    + change (rows_ok f2). apply (ad_rows _ _ _ A). apply rows_ok_resize; [lia|apply W].
    + rewrite Lh; apply W.
    + change (coherent f2). eapply adds_eps_coherent; [exact A|apply W|exact Cf1|]. intros p c q [x [_ [_ [_ [-> _]]]]]. auto.
    + change (bcoherent f2). eapply adds_eps_bcoherent; [exact A|apply W|exact Bf1|]. intros p c q [x [_ [_ [_ [-> _]]]]]. auto.
    + intros X. change (isAlt f2 = true) in X. pose proof (ad_alt _ _ _ A X) as X1. change (isAlt f = true) in X1.
      exfalso. destruct (wf_alt _ W X1) as [_ [_ Y]].
      destruct (do_all _ D 0%N) as [r R]; [reflexivity|discriminate|].
      destruct (do_fun _ D (initial f) r WI) as [q [_ M]]; [eapply part_rep_rep; eauto; apply W|].
      assert (r = Epsilon); [apply (Y r q); unfold raw, row_get; rewrite M; left; auto|].
      apply part_rep_not_eps in R; [tauto|apply W].
  - assert (Eh : forall p c q, edge h p c q <-> edge f p c q \/ (c = Epsilon /\ q = size f /\ p < size f + 1 /\ ~ In p (finals f))).
    { intros p c q. rewrite !edge_raw, (erep_let h f) by apply Lh.
      etransitivity; [apply (ad_raw _ _ _ A)|]. rewrite Ef1.
      assert (X : erep f c = Epsilon <-> c = Epsilon).
      { unfold erep. destruct (part_rep (letters f) c) eqn:E; [|tauto].
        apply part_rep_not_eps in E; [tauto|apply W]. }
      split.
      - intros [H|[x [Hx [H1 [-> [H2 ->]]]]]]; auto. apply in_seq in Hx. apply X in H2. right. splits; auto. lia.
      - intros [H|[-> [-> [H1 H2]]]]; auto. right. exists p. splits; auto; [apply in_seq; lia|apply X; auto]. }
    assert (F1 : forall p w q, path (edge f) p w q -> path (edge h) p w q) by (apply path_mono; intros; apply Eh; auto).
    assert (F2 : forall p w q, path (edge h) p w q -> p = size f -> w = []).
    { intros p w q P. induction P as [p|p m w q H P IH|p c m w q Hc H P IH]; intros ->; auto.
      - apply Eh in H as [H|[_ [-> _]]]; auto. apply edge_bound in H; auto. lia.
      - apply Eh in H as [H|[-> _]]; [|congruence]. apply edge_bound in H; auto. lia. }
    assert (F3 : forall p w q, path (edge h) p w q -> p < size f -> q = size f ->
              exists m, path (edge f) p w m /\ ~ In m (finals f)).
    { intros p w q P. induction P as [p|p m w q H P IH|p c m w q Hc H P IH]; intros Hp ->.
      - lia.
      - apply Eh in H as [H|[_ [-> [_ H]]]]; [destruct (dedge_no_eps f W D _ _ H)|].
        rewrite (F2 _ _ _ P eq_refl). exists p. split; auto. constructor.
      - apply Eh in H as [H|[-> _]]; [|congruence]. pose proof (edge_bound _ _ _ _ W H) as [_ Hm].
        destruct (IH Hm eq_refl) as [x [X Y]]. exists x. split; auto. eapply path_step; eauto. }
    intros w. unfold accepts. rewrite Ih. change (finals h) with [size f]. split.
    + intros [q [P [<-|[]]]]. destruct (F3 _ _ _ P WI eq_refl) as [m [P1 N]]. split.
      * unfold is_word. apply Forall_forall. intros c Hc. clear -P1 Hc W D.
        induction P1 as [p|p m w q H P IH|p c' m w q Hc' H P IH]; [destruct Hc|auto|].
        destruct Hc as [<-|Hc]; auto. split; auto. eapply edge_letter; eauto.
      * intros [q [P2 F]]. rewrite (det_path_fun f W D _ _ _ _ P1 P2) in N. auto.
    + intros [Hw N]. destruct (det_path_total f W D w (initial f) WI Hw) as [q [Hq P]].
      assert (Nq : ~ In q (finals f)) by (intros X; apply N; exists q; auto).
      exists (size f). split; [|left; auto]. rewrite <- (app_nil_r w). eapply path_app; [apply F1; exact P|].
      eapply path_eps; [|constructor]. apply Eh. right. splits; auto. lia.
Qed.

Lemma determine_good : forall f maxsize, good f ->
  (exists g, determine f maxsize = Ok (true, g) /\ wf g /\ det_ok g /\ determined g = true /\ lang_eq (accepts g) (accepts f) /\
     (determined f = false -> forall i, i < size g -> exists w, is_word w /\ path (edge g) (initial g) w i) /\
     (determined f = true -> g = f)) \/
  (exists g, determine f maxsize = Ok (false, g) /\ determined f = false /\ wf g /\ lang_eq (accepts g) (accepts f)).
Proof.
  intros f maxsize [W Hd]. destruct (determined f) eqn:E.
  - left. exists f. unfold determine. rewrite E. splits; auto; [apply lang_eq_refl|discriminate].
  - destruct (determine_ok f maxsize W E) as (b & g & R & Wg & _ & L & B1 & B2). destruct b; [left|right]; exists g; splits; auto.
    + apply B1; auto.
    + apply B1; auto.
    + intros _. apply B1; auto.
    + discriminate.
Qed.

Lemma complement_ok : forall f, good f ->
  (exists g, complement f = Ok g /\ wf g /\ determined g = false /\ lang_eq (accepts g) (L_not (accepts f))) \/
  (complement f = Throw ETooComplicated /\ determined f = false /\ exists g, determine f 0 = Ok (false, g)).
Proof.
  intros f G. unfold complement. destruct (determine_good f 0 G) as [(g & -> & Wg & Dg & Hd & L & _)|(g & -> & H & Wg & L)].
  - left. cbn [bind negb]. destruct (minimize_ok g Wg Dg Hd) as (h & cls & -> & Wh & Dh & _ & _ & _ & _ & I & _ & A & _).
    cbn [bind]. fold (comp_table h). destruct (comp_table_ok h Wh Dh) as (W2 & D2 & L2). exists (comp_table h). splits; auto.
    intros w. rewrite (L2 w). unfold L_not. rewrite <- (L w). rewrite <- !acc_from_initial. rewrite I, A; [tauto|apply Wg].
  - right. cbn [bind negb]. eauto.
Qed.

(** The expression of at most 17 states can always be complemented. *)
Lemma complement_small : forall f, good f -> size f <= 17 -> exists g, complement f = Ok g.
Proof.
  intros f G Hs. destruct (complement_ok f G) as [(g & E & _)|(_ & D & g & E)]; [eauto|]. exfalso.
  destruct (determine_small f 0) as [g' E']; [apply G|auto| |congruence].
  assert (2 ^ N.of_nat (size f) <= 2 ^ 17)%N by (apply N.pow_le_mono_r; lia).
  change (det_limit 0 + 1)%N with 200001%N. change (2 ^ 17)%N with 131072%N in H. lia.
Qed.

(** C09 *)
Lemma good_undet : forall f, wf f -> determined f = false -> good f.
Proof. intros f W D. split; auto. congruence. Qed.

Lemma fsm_or_undet : forall f g, determined (fsm_or f g) = false.
Proof.
  intros f g. unfold fsm_or. destruct (isAlt f), (isAlt g); reflexivity.
Qed.

Lemma accepts_dec_det : forall f, wf f -> det_ok f -> forall w, is_word w -> accepts f w \/ ~ accepts f w.
Proof.
  intros f W D w Hw. destruct (det_path_total f W D w (initial f) (wf_init _ W) Hw) as [q [Hq P]].
  destruct (in_dec Nat.eq_dec q (finals f)) as [F|F]; [left; exists q; auto|].
  right. intros [q' [P' F']]. rewrite (det_path_fun f W D _ _ _ _ P P') in F. auto.
Qed.

Lemma L_not_not : forall f, good f -> (exists g, complement f = Ok g) -> lang_eq (L_not (L_not (accepts f))) (accepts f).
Proof.
  intros f G [g E] w. unfold L_not. split.
  - intros [Hw N]. unfold complement in E. destruct (determine_good f 0 G) as [(h & E' & Wh & Dh & _ & L & _)|(h & E' & _)]; rewrite E' in E; cbn in E; [|discriminate].
    destruct (accepts_dec_det h Wh Dh w Hw) as [X|X]; [apply L; auto|]. exfalso. apply N. split; auto. rewrite <- (L w). auto.
  - intros H. pose proof (accepts_is_word _ _ (proj1 G) H). split; auto. tauto.
Qed.

Lemma fsm_and_ok : forall a b, good a -> good b ->
  (exists g, fsm_and a b = Ok g /\ wf g /\ determined g = false /\ lang_eq (accepts g) (L_and (accepts a) (accepts b))) \/
  fsm_and a b = Throw ETooComplicated.
Proof.
  intros a b Ga Gb. unfold fsm_and.
  destruct (complement_ok a Ga) as [(a1 & Ea & Wa & Da & La)|(Ea & _)]; rewrite Ea; cbn [bind]; [|right; auto].
  destruct (complement_ok b Gb) as [(b1 & Eb & Wb & Db & Lb)|(Eb & _)]; rewrite Eb; cbn [bind]; [|right; auto].
  destruct (fsm_or_ok a1 b1 Wa Wb) as (Wo & _ & Lo).
  destruct (complement_ok (fsm_or a1 b1)) as [(g & Eg & Wg & Dg & Lg)|(Eg & _)]; [|left; exists g; splits; auto|right; auto].
  { apply good_undet; auto using fsm_or_undet. }
  intros w. rewrite (Lg w). unfold L_not at 1. rewrite (Lo w). unfold L_or. rewrite (La w), (Lb w). unfold L_and.
  rewrite <- (L_not_not a Ga (ex_intro _ _ Ea) w), <- (L_not_not b Gb (ex_intro _ _ Eb) w). unfold L_not. tauto.
Qed.

(** ** Canonize *)
Definition all_reachable (f : fsm) : Prop := forall i, i < size f -> exists w, is_word w /\ path (edge f) (initial f) w i.

Lemma canonize_ok : forall f maxsize, good f ->
  (exists g, canonize f maxsize = Ok g /\ wf g /\ det_ok g /\ determined g = true /\ lang_eq (accepts g) (accepts f) /\
     (forall x y, x < size g -> y < size g -> (forall w, is_word w -> (acc_from g x w <-> acc_from g y w)) -> x = y) /\
     ((determined f = true -> all_reachable f) -> all_reachable g)) \/
  (canonize f maxsize = Throw ETooComplicated /\ determined f = false /\ exists g, determine f maxsize = Ok (false, g)).
Proof.
  intros f maxsize G. unfold canonize.
  assert (X : forall h, wf h -> det_ok h -> determined h = true -> lang_eq (accepts h) (accepts f) ->
    ((determined f = true -> all_reachable f) -> all_reachable h) ->
    exists g, minimize h = Ok g /\ wf g /\ det_ok g /\ determined g = true /\ lang_eq (accepts g) (accepts f) /\
     (forall x y, x < size g -> y < size g -> (forall w, is_word w -> (acc_from g x w <-> acc_from g y w)) -> x = y) /\
     ((determined f = true -> all_reachable f) -> all_reachable g)).
  { intros h Wh Dh Hd L R. destruct (minimize_ok h Wh Dh Hd) as (g & cls & E & Wg & Dg & Hg & _ & C1 & C2 & I & P & A & N).
    exists g. splits; auto.
    - intros w. rewrite <- (L w). rewrite <- !acc_from_initial, I. apply A, Wh.
    - intros HR x Hx. destruct (C2 x Hx) as [s [Hs <-]]. destruct (R HR s Hs) as [w [Hw Pw]]. exists w. split; auto.
      rewrite I. apply P; auto. apply Wh. }
  destruct (determined f) eqn:Hd.
  - left. cbn [bind]. apply X; auto; try apply G; auto. apply lang_eq_refl.
  - destruct (determine_good f maxsize G) as [(h & E & Wh & Dh & Hh & L & R & _)|(h & E & _ & Wh & L)].
    + rewrite E. cbn [bind]. left. apply X; auto. intros _. exact (R Hd).
    + rewrite E. cbn [bind]. right. eauto.
Qed.

(** ** Minimality *)
Lemma fin_choice : forall (P : nat -> word -> Prop) n, (forall i, i < n -> exists w, P i w) ->
  exists h : nat -> word, forall i, i < n -> P i (h i).
Proof.
  intros P n. induction n as [|n IH]; intros H.
  - exists (fun _ => []). intros; lia.
  - destruct IH as [h Hh]; [intros; apply H; lia|]. destruct (H n) as [w Hw]; [lia|].
    exists (fun i => if Nat.eqb i n then w else h i). intros i Hi. destruct (Nat.eqb_spec i n); [subst; auto|]. apply Hh. lia.
Qed.

Lemma pigeon : forall (h : nat -> nat) n m, (forall i, i < n -> h i < m) ->
  (forall i j, i < n -> j < n -> h i = h j -> i = j) -> n <= m.
Proof.
  intros h n m H1 H2. assert (X : length (map h (seq 0 n)) <= length (seq 0 m)).
  - apply NoDup_incl_length.
    + assert (Y : forall a k, a + k <= n -> NoDup (map h (seq a k))).
      { intros a k. revert a. induction k as [|k IH]; intros a Hk; cbn [seq map]; constructor.
        - intros X. apply in_map_iff in X as [j [E Hj]]. apply in_seq in Hj. apply H2 in E; lia.
        - apply IH. lia. }
      apply Y. lia.
    + intros x Hx. apply in_map_iff in Hx as [i [<- Hi]]. apply in_seq in Hi. apply in_seq. specialize (H1 i). lia.
  - rewrite map_length, !seq_length in X. auto.
Qed.

(** A complete deterministic automaton, as any textbook has it. *)
Lemma dfa_run_lt : forall d, dfa_valid d -> forall w s, s < dfa_states d -> is_word w -> dfa_run d s w < dfa_states d.
Proof.
  intros d [_ V] w. induction w as [|c w IH]; intros s Hs Hw; cbn; auto. inversion Hw; subst. apply IH; auto.
Qed.

Lemma minimal : forall g, wf g -> det_ok g -> all_reachable g ->
  (forall x y, x < size g -> y < size g -> (forall w, is_word w -> (acc_from g x w <-> acc_from g y w)) -> x = y) ->
  forall d, dfa_valid d -> dfa_recognises d (accepts g) -> size g <= dfa_states d.
Proof.
  intros g W D R N d V C.
  destruct (fin_choice (fun i w => is_word w /\ path (edge g) (initial g) w i) (size g) R) as [h Hh].
  apply (pigeon (fun i => dfa_run d (dfa_start d) (h i))).
  - intros i Hi. apply dfa_run_lt; auto; [apply V|apply Hh; auto].
  - intros i j Hi Hj E. apply N; auto. destruct (Hh i Hi) as [W1 P1], (Hh j Hj) as [W2 P2].
    intros v Hv. rewrite <- (det_acc_path g W D _ _ _ v P1), <- (det_acc_path g W D _ _ _ v P2), !acc_from_initial.
    rewrite <- (C (h i ++ v)), <- (C (h j ++ v)) by (apply Forall_app; auto).
    unfold dfa_run in *. rewrite !fold_left_app, E. tauto.
Qed.

(** Two minimal automata for the same language are the same up to renaming of states. *)
Definition nerode (g : fsm) : Prop :=
  forall x y, x < size g -> y < size g -> (forall w, is_word w -> (acc_from g x w <-> acc_from g y w)) -> x = y.

Section Iso.
  Variables g1 g2 : fsm.
  Hypothesis W1 : wf g1.
  Hypothesis W2 : wf g2.
  Hypothesis D1 : det_ok g1.
  Hypothesis D2 : det_ok g2.
  Hypothesis R1 : all_reachable g1.
  Hypothesis R2 : all_reachable g2.
  Hypothesis N1 : nerode g1.
  Hypothesis N2 : nerode g2.
  Hypothesis L : lang_eq (accepts g1) (accepts g2).

  Lemma same_words : forall w x y, is_word w -> path (edge g1) (initial g1) w x -> path (edge g2) (initial g2) w y ->
    forall v, acc_from g1 x v <-> acc_from g2 y v.
  Proof.
    intros w x y Hw P1 P2 v. rewrite <- (det_acc_path g1 W1 D1 _ _ _ v P1), <- (det_acc_path g2 W2 D2 _ _ _ v P2), !acc_from_initial. apply L.
  Qed.

  Lemma iso_ok : exists h, isomorphic g1 g2 h.
  Proof.
    assert (X : forall i, i < size g1 -> exists y w, is_word w /\ path (edge g1) (initial g1) w i /\ y < size g2 /\ path (edge g2) (initial g2) w y).
    { intros i Hi. destruct (R1 i Hi) as [w [Hw P]]. destruct (det_path_total g2 W2 D2 w (initial g2) (wf_init _ W2) Hw) as [y [Hy Q]]. eauto 8. }
    assert (Y : exists h : nat -> nat, forall i, i < size g1 -> exists w, is_word w /\ path (edge g1) (initial g1) w i /\ h i < size g2 /\ path (edge g2) (initial g2) w (h i)).
    { clear -X. revert X. generalize (size g1). intros n. induction n as [|n IH]; intros X.
      - exists (fun _ => 0). intros; lia.
      - destruct IH as [h Hh]; [intros; apply X; lia|]. destruct (X n) as [y Hy]; [lia|].
        exists (fun i => if Nat.eqb i n then y else h i). intros i Hi. destruct (Nat.eqb_spec i n); [subst; auto|]. apply Hh. lia. }
    destruct Y as [h Hh]. 
    assert (A : forall x, x < size g1 -> forall v, acc_from g1 x v <-> acc_from g2 (h x) v).
    { intros x Hx. destruct (Hh x Hx) as [w [Hw [P [_ Q]]]]. eapply same_words; eauto. }
    assert (Lt : forall x, x < size g1 -> h x < size g2) by (intros x Hx; destruct (Hh x Hx) as [w H]; tauto).
    assert (U : forall w x y, is_word w -> path (edge g1) (initial g1) w x -> path (edge g2) (initial g2) w y -> y = h x).
    { intros w x y Hw P Q.
      assert (Hx : x < size g1) by (eapply (path_closed _ (fun q => q < size g1)); [|exact P|apply W1]; intros p c q _ E; eapply edge_bound; eauto).
      assert (Hy : y < size g2) by (eapply (path_closed _ (fun q => q < size g2)); [|exact Q|apply W2]; intros p c q _ E; eapply edge_bound; eauto).
      apply N2; auto. intros v Hv. rewrite <- (A x Hx v). symmetry. exact (same_words w _ _ Hw P Q v). }
    assert (Inj : forall x y, x < size g1 -> y < size g1 -> h x = h y -> x = y).
    { intros x y Hx Hy E. apply N1; auto. intros v _. rewrite (A x Hx v), (A y Hy v), E. tauto. }
    assert (Sur : forall y, y < size g2 -> exists x, x < size g1 /\ h x = y).
    { intros y Hy. destruct (R2 y Hy) as [w [Hw Q]]. destruct (det_path_total g1 W1 D1 w (initial g1) (wf_init _ W1) Hw) as [x [Hx P]].
      exists x. split; auto. symmetry. eapply U; eauto. }
    exists h. constructor; auto.
    - apply Nat.le_antisymm; [apply (pigeon h); auto|].
      assert (V : exists k : nat -> nat, forall y, y < size g2 -> k y < size g1 /\ h (k y) = y).
      { clear -Sur. revert Sur. generalize (size g2). intros n. induction n as [|n IH]; intros X.
        - exists (fun _ => 0). intros; lia.
        - destruct IH as [k Hk]; [intros; apply X; lia|]. destruct (X n) as [y Hy]; [lia|].
          exists (fun i => if Nat.eqb i n then y else k i). intros i Hi. destruct (Nat.eqb_spec i n); [subst; auto|]. apply Hk. lia. }
      destruct V as [k Hk]. apply (pigeon k).
      + intros i Hi. apply Hk; auto.
      + intros i j Hi Hj E. destruct (Hk i Hi) as [_ E1], (Hk j Hj) as [_ E2]. congruence.
    - symmetry. apply (U []); constructor.
    - intros x c y Hx Hy. destruct (Hh x Hx) as [w [Hw [P [_ Q]]]].
      assert (Z : forall f p c q, wf f -> det_ok f -> edge f p c q -> letter c).
      { intros f p c0 q Wf Df E. split; [eapply edge_letter; eauto|]. intros ->. eapply dedge_no_eps; eauto. }
      split; intros E.
      + pose proof (Z _ _ _ _ W1 D1 E) as [C1 C2]. destruct (dedge_total g2 W2 D2 (h x) c (Lt x Hx) C1 C2) as [y' [Hy' E']].
        replace (h y) with y'; auto. apply (U (w ++ [c])).
        * apply Forall_app. split; auto. constructor; [split|]; auto.
        * eapply path_app; [exact P|]. eapply path_step; eauto. constructor.
        * eapply path_app; [exact Q|]. eapply path_step; eauto. constructor.
      + pose proof (Z _ _ _ _ W2 D2 E) as [C1 C2]. destruct (dedge_total g1 W1 D1 x c Hx C1 C2) as [y' [Hy' E']].
        replace y with y'; auto. apply Inj; auto. symmetry. apply (U (w ++ [c])).
        * apply Forall_app. split; auto. constructor; [split|]; auto.
        * eapply path_app; [exact P|]. eapply path_step; eauto. constructor.
        * eapply path_app; [exact Q|]. eapply path_step; eauto. constructor.
    - intros x Hx. rewrite <- (acc_nil g1 W1 D1), <- (acc_nil g2 W2 D2). apply A; auto.
  Qed.
End Iso.
