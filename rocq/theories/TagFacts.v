(** The building calls never set tags or outputs. *)
From Coq Require Import List Bool Arith NArith Lia.
From Verif Require Import Util Spec PartitionModel FsmModel DetermineModel MinimizeModel FsmSem EncModel ApproxModel Api.
Import ListNotations.
Local Opaque all_letters all_bytes range_letters.

Definition bare (f : fsm) : Prop := tags f = [] /\ outputs f = [].

Lemma bare_fold : forall A (g : fsm -> A -> fsm) l f, (forall h x, bare h -> bare (g h x)) -> bare f -> bare (fold_left g l f).
Proof. intros A g l. induction l as [|x l IH]; intros f H B; cbn [fold_left]; auto. Qed.
Lemma bare_fold2 : forall A B (g : fsm * B -> A -> fsm * B) l f, (forall h x, bare (fst h) -> bare (fst (g h x))) -> bare (fst f) -> bare (fst (fold_left g l f)).
Proof. intros A B g l. induction l as [|x l IH]; intros f H Hb; cbn [fold_left]; auto. Qed.

Lemma bare_connect : forall f a b c, bare f -> bare (connect f a b c). Proof. auto. Qed.
Lemma bare_connect_final : forall f b c, bare f -> bare (connect_final f b c).
Proof. intros. unfold connect_final, clear_hints, set_isAlt. split; cbn [tags outputs]; apply bare_fold; auto. Qed.

Lemma bare_append : forall f c, bare f -> bare (append_special f c).
Proof. intros f c H. apply (bare_connect_final (resize_fsm f (size f + 1)) (size (resize_fsm f (size f + 1)) - 1) c) in H. exact H. Qed.

Lemma bare_as_inner : forall cs f l st, bare f -> bare (fst (fst (as_inner f l st cs))).
Proof.
  induction cs as [|c cs IH]; intros f l st H; cbn [as_inner]; auto.
  destruct (mfind (st, c) l); auto.
Qed.

Lemma bare_import : forall f g, bare f -> bare g -> bare (import_fsm f g).
Proof. intros f g [A B] [C D]. split; cbn [import_fsm tags outputs]; rewrite ?C, ?D; auto. Qed.

Lemma bare_cat : forall f g, bare f -> bare g -> bare (fsm_cat f g).
Proof.
  intros f g Hf Hg. unfold fsm_cat.
  set (f1 := import_fsm f g). assert (H1 : bare f1) by (apply bare_import; auto). clearbody f1.
  set (f2 := fold_left _ (row_at f1 _) f1). assert (H2 : bare f2).
  { unfold f2. apply bare_fold; auto. intros h [c tos] Hh. apply bare_fold; auto. intros. apply bare_connect_final; auto. }
  clearbody f2. set (f3 := set_outputs f2 _). assert (H3 : bare f3).
  { destruct H2, Hg as [? Hg]. split; auto. unfold f3, cat_outputs. rewrite Hg. auto. }
  clearbody f3. set (f4 := fold_left _ (finals g) _). assert (H4 : bare f4) by (apply bare_fold; auto). clearbody f4. exact H4.
Qed.

Lemma bare_times : forall f n g, bare f -> bare g -> bare (fsm_times_loop f n g).
Proof. intros f. induction n as [|n IH]; intros g Hf Hg; cbn [fsm_times_loop]; auto. apply IH; auto. apply bare_cat; auto. Qed.

Lemma bare_or : forall f g, bare f -> bare g -> bare (fsm_or f g).
Proof.
  intros f g Hf Hg. unfold fsm_or. set (f1 := import_fsm f g). assert (H1 : bare f1) by (apply bare_import; auto). clearbody f1.
  set (f3 := if negb (isAlt f) && negb (isAlt g) then _ else _). assert (H3 : bare f3); [|clearbody f3; exact H3].
  unfold f3. destruct (isAlt f), (isAlt g); cbn [negb andb]; auto. apply bare_fold; auto.
Qed.

Lemma bare_iterate : forall f, bare f -> bare (iterate f).
Proof.
  intros f H. unfold iterate. set (s := size (resize_fsm f (size f + 2))).
  set (f3 := connect _ _ _ _). assert (H3 : bare f3) by exact H. clearbody f3.
  set (f5 := connect_final (connect_final _ _ _) _ _).
  assert (H5 : bare f5) by (apply bare_connect_final, bare_connect_final; auto). clearbody f5. exact H5.
Qed.

Lemma bare_prepend : forall f, bare f -> bare (prepend_anything f).
Proof.
  intros f H. unfold prepend_anything. set (f2 := fold_left _ _ _). assert (H2 : bare f2) by (apply bare_fold; auto). clearbody f2. exact H2.
Qed.
Lemma bare_close : forall f n, bare f -> bare (set_determined (set_final (clear_final f) n true) false).
Proof. auto. Qed.
Lemma bare_append_any : forall f, bare f -> bare (append_anything f).
Proof.
  intros f H.
  assert (A : bare (fold_left (fun g c => connect g (size f) (size f) c) all_letters (resize_fsm f (size f + 1)))).
  { apply bare_fold; [intros; apply bare_connect; auto|exact H]. }
  exact (bare_close _ (size f) (bare_connect_final _ (size f) Epsilon A)).
Qed.
Lemma bare_dot : forall f, bare f -> bare (append_dot f).
Proof.
  intros f H. set (f1 := resize_fsm f (size f + 1)).
  assert (A : bare (fold_left (fun g c => connect_final g (size g - 1) c) all_bytes f1)).
  { apply bare_fold; [intros; apply bare_connect_final; auto|exact H]. }
  exact (bare_close _ (size (fold_left (fun g c => connect_final g (size g - 1) c) all_bytes f1) - 1) A).
Qed.
Lemma bare_utf8_dot : forall f, bare f -> bare (utf8_append_dot f).
Proof.
  intros f H. set (f3 := utf_tails (size f) (utf_leads (resize_fsm f (size f + utf_max_len)))).
  assert (A : bare f3).
  { unfold f3, utf_tails. apply bare_fold; [intros g i Hg; apply bare_fold; auto; intros; apply bare_connect; auto|].
    unfold utf_leads. apply bare_fold; [intros g i Hg; apply bare_fold; auto; intros; apply bare_connect_final; auto|]. exact H. }
  exact (bare_close _ (size f3 - 1) A).
Qed.
Lemma bare_reverse : forall f, bare f -> bare (fsm_reverse f).
Proof. intros f [A B]. split; cbn [fsm_reverse set_sparsed set_tags tags outputs set_outputs]; auto. rewrite B. reflexivity. Qed.

Lemma bare_dead : forall f g, bare f -> remove_dead_ends f = Ok g -> bare g.
Proof.
  intros f g H E. unfold remove_dead_ends in E. destruct (dead_states f); cbn [bind] in E; try discriminate. injection E as <-.
  set (f2 := fold_left _ _ _). assert (H2 : bare f2) by (apply bare_fold; auto). clearbody f2. exact H2.
Qed.
Lemma bare_prefix : forall f g, bare f -> make_prefix f = Ok g -> bare g.
Proof.
  intros f g H E. unfold make_prefix in E. destruct (remove_dead_ends f) eqn:D; cbn [bind] in E; try discriminate. injection E as <-.
  apply bare_dead in D; auto. set (f2 := fold_left _ _ _).
  assert (H2 : bare f2); [|clearbody f2; exact H2]. apply bare_fold; auto. intros h x Hh. destruct (row_at h x); auto.
Qed.
Lemma bare_suffix : forall f, bare f -> bare (make_suffix f).
Proof.
  intros f H. unfold make_suffix. set (f2 := fold_left _ _ _).
  assert (H2 : bare f2); [|clearbody f2; exact H2]. apply bare_fold; auto. intros h x Hh. destruct (Nat.eqb x (initial h)); auto.
Qed.

Lemma bare_shortcut : forall from thru acc, bare (fst acc) -> bare (fst (shortcut_epsilon from thru acc)).
Proof.
  intros from thru [f inv] [A B]. cbn [fst] in *. unfold shortcut_epsilon. rewrite B. cbn [mfind].
  apply bare_fold2; [|split; auto]. intros [h i] x Hh. exact Hh.
Qed.
Lemma bare_merge : forall from f to, bare f -> bare (merge_epsilon from f to).
Proof.
  intros from f to [A B]. unfold merge_epsilon. rewrite B. cbn [mfind].
  set (f1 := fold_left _ _ _). assert (H1 : bare f1).
  { apply bare_fold; [|split; auto]. intros h [c tos] Hh. exact Hh. }
  clearbody f1. set (f2 := if is_final f1 to then _ else _). assert (H2 : bare f2) by (unfold f2; destruct (is_final f1 to); auto).
  clearbody f2. destruct H2 as [A2 B2]. rewrite A2. cbn [mfind]. rewrite B2. cbn [mfind]. split; auto.
Qed.
Lemma bare_noeps : forall f, bare f -> bare (remove_epsilons f).
Proof.
  intros f H. unfold remove_epsilons. set (f1 := unsparse f). assert (H1 : bare f1) by exact H. clearbody f1.
  set (f2 := close_eps f1). assert (H2 : bare f2).
  { unfold f2, close_eps. apply bare_fold2; auto. intros [h inv] x Hh. cbn [fst] in Hh. apply bare_fold2; auto.
    intros acc y Ha. destruct (Nat.eqb y x); auto. apply bare_shortcut. auto. }
  clearbody f2. set (f3 := merge_all_eps f2). assert (H3 : bare f3); [|clearbody f3; exact H3].
  unfold f3, merge_all_eps. apply bare_fold; auto. intros h x Hh. apply bare_fold; auto.
  intros h' y Hh'. destruct (Nat.eqb y x); auto. apply bare_merge; auto.
Qed.

Lemma bare_members : forall f ns s g, bare f -> bare g -> bare (accept_members f ns s g).
Proof.
  intros f ns. induction s as [|j s IH]; intros g Hf Hg; cbn [accept_members]; auto.
  destruct (proj1 Hf). assert (X : tags f = []) by apply Hf. rewrite X. cbn [mfind].
  destruct (is_final f j); cbn [andb]; auto.
Qed.
Lemma bare_accept : forall f term states, bare f -> bare (accept_states f term states).
Proof.
  intros f term states Hf. unfold accept_states. set (g1 := clear_final _). assert (H1 : bare g1) by (split; reflexivity). clearbody g1.
  set (g2 := fold_left _ _ g1). assert (H2 : bare g2).
  { apply bare_fold; auto. intros h x Hh. apply bare_members; auto. unfold accept_terminal. apply bare_fold; auto.
    intros h' y Hh'. destruct (smem y term); auto. apply bare_fold; auto. intros h'' [c z] Hh''. exact Hh''. }
  clearbody g2. destruct H2 as [A B]. split; auto. unfold set_outputs, accept_outputs. cbn [outputs]. rewrite (proj2 Hf). auto.
Qed.
Lemma bare_determine : forall f m b g, bare f -> determine f m = Ok (b, g) -> bare g.
Proof.
  intros f m b g H E. unfold determine in E. destruct (determined f); [injection E as <- <-; auto|].
  pose proof (bare_noeps f H) as H1. set (f1 := remove_epsilons f) in *. clearbody f1.
  destruct (det_run _ _ _ _ _ _); try discriminate; injection E as <- <-; auto.
  set (g1 := fold_left _ _ _). assert (H2 : bare g1).
  { apply bare_fold; [|apply bare_accept; auto]. intros h [[x y] c] Hh. exact Hh. }
  clearbody g1. destruct H2 as [A B]. split; auto. unfold set_sparsed, set_outputs, prune_outputs. cbn [outputs]. rewrite B.
  cbn [mfind]. generalize (seq 0 (size g1)). intros l. induction l; cbn [fold_left]; auto.
Qed.
Lemma bare_minimize : forall f g, bare f -> minimize f = Ok g -> bare g.
Proof.
  intros f g H E. unfold minimize in E. destruct (rev_rows _ _ _); cbn [bind] in E; try discriminate.
  destruct (negb (determined f)); [injection E as <-; auto|]. destruct (min_run _ _ _ _ _); cbn [bind] in E; try discriminate.
  injection E as <-. unfold min_accept. set (g1 := set_final _ 0 false). assert (H1 : bare g1) by (split; reflexivity). clearbody g1.
  set (g2 := fold_left _ _ g1). assert (H2 : bare g2).
  { apply bare_fold; auto. intros h x Hh. unfold min_accept_state. rewrite (proj1 H). cbn [mfind].
    set (h1 := min_accept_row _ _ _ _). assert (Hh1 : bare h1).
    { apply bare_fold; auto. intros h' [c tos] Hh'. exact Hh'. }
    destruct (is_final f x); auto. }
  destruct H2. split; auto. unfold set_outputs, min_outputs. cbn [outputs]. rewrite (proj2 H). reflexivity.
Qed.
Lemma bare_canonize : forall f m g, bare f -> canonize f m = Ok g -> bare g.
Proof.
  intros f m g H E. unfold canonize in E. destruct (determined f).
  - cbn [bind] in E. eapply bare_minimize; eauto.
  - destruct (determine f m) as [[b h]| | |] eqn:D; cbn [bind] in E; try discriminate. destruct b; cbn [bind] in E; [|discriminate].
    eapply bare_minimize; [|eauto]. eapply bare_determine; eauto.
Qed.
Lemma bare_complement : forall f g, bare f -> complement f = Ok g -> bare g.
Proof.
  intros f g H E. unfold complement in E. destruct (determine f 0) as [[b h]| | |] eqn:D; cbn [bind] in E; try discriminate.
  destruct b; cbn [negb] in E; [|discriminate]. destruct (minimize h) as [f2| | |] eqn:M; cbn [bind] in E; try discriminate.
  assert (H2 : bare f2) by (eapply bare_minimize; [eapply bare_determine|]; eauto). injection E as <-.
  set (f4 := fold_left _ _ _). assert (H4 : bare f4); [|clearbody f4; exact H4].
  apply bare_fold; auto. intros h' x Hh'. destruct (is_final h' x); auto.
Qed.
Lemma bare_strings : forall f strs g, bare f -> append_strings f strs = Ok g -> bare g.
Proof.
  intros f strs g H E. unfold append_strings in E. destruct (existsb _ strs); [discriminate|].
  set (e := size (resize_fsm f (size f + 1)) - 1) in E. set (a0 := (resize_fsm f (size f + 1), [], [])) in E.
  assert (H0 : bare (fst (fst a0))) by exact H. clearbody a0.
  assert (X : bare (fst (fst (fold_left (as_one e) strs a0)))).
  { clear E. revert a0 H0. induction strs as [|s strs IH]; intros a0 H0; cbn [fold_left]; auto. apply IH.
    destruct a0 as [[h sl] l]. cbn [fst] in H0. unfold as_one. destruct s as [|c s]; auto.
    destruct s as [|c' s].
    - cbn [fst]. apply (bare_connect_final h e c) in H0. exact H0.
    - assert (Hn : bare (set_determined (connect_final (resize_fsm h (size h + 1)) (size h) c) false)).
      { apply (bare_connect_final (resize_fsm h (size h + 1)) (size h) c) in H0. exact H0. }
      destruct (mfind c sl) as [n|].
      + pose proof (bare_as_inner (removelast (c' :: s)) h l n H0) as Hi.
        destruct (as_inner h l n (removelast (c' :: s))) as [[f2 l1] st]. exact Hi.
      + match goal with |- context [as_inner ?x l ?y ?z] => pose proof (bare_as_inner z x l y Hn) as Hi;
          destruct (as_inner x l y z) as [[f2 l1] st] end. exact Hi. }
  destruct (fold_left (as_one e) strs a0) as [[f2 a] b]. injection E as <-. exact X.
Qed.

Lemma and_inv : forall f g h, fsm_and f g = Ok h ->
  exists f1 g1, complement f = Ok f1 /\ complement g = Ok g1 /\ complement (fsm_or f1 g1) = Ok h.
Proof.
  intros f g h. unfold fsm_and. destruct (complement f) as [f1| | |]; cbn [bind]; try discriminate.
  destruct (complement g) as [g1| | |]; cbn [bind]; try discriminate. intros H. exists f1, g1. auto.
Qed.

Lemma bare_approx : forall f d, bare f -> bare (create_approx f d).
Proof.
  intros f d H. assert (L : bare (approx_levels f d)).
  { unfold approx_levels. apply bare_fold; auto. intros g k Hg. unfold approx_level. apply bare_fold; [|apply bare_import; auto].
    intros g1 s H1. unfold approx_state. set (g2 := fold_left (approx_letter _ _ _) _ _). assert (H2 : bare g2).
    { apply bare_fold; auto. intros g3 c H3. unfold approx_letter. apply bare_fold; [auto|]. apply bare_fold; auto.
      intros g4 t H4. unfold approx_dest. apply bare_connect. apply bare_fold; auto. intros g5 ch H5. destruct (connected _ _ _ _); auto. }
    clearbody g2. destruct (is_final f s); auto. }
  unfold create_approx. set (g := approx_levels f d) in *. clearbody g. apply bare_fold; auto.
  intros g1 [s [[a b] r]] H1. exact H1.
Qed.

Theorem built_bare : forall f, built f -> bare f.
Proof.
  intros f B. induction B.
  - split; reflexivity.
  - split; reflexivity.
  - apply bare_append; auto.
  - unfold append_string. apply bare_fold; auto. intros; apply bare_append; auto.
  - apply bare_dot; auto.
  - apply bare_utf8_dot; auto.
  - eapply bare_strings; eauto.
  - apply bare_cat; auto.
  - apply bare_or; auto.
  - destruct (and_inv _ _ _ H) as (f1 & g1 & E1 & E2 & E3). apply (bare_complement (fsm_or f1 g1)); auto.
    apply bare_or; [apply (bare_complement f f1)|apply (bare_complement g g1)]; auto.
  - apply bare_iterate; auto.
  - eapply bare_complement; eauto.
  - unfold fsm_times. apply bare_times; auto. split; reflexivity.
  - apply bare_prepend; auto.
  - apply bare_append_any; auto.
  - unfold surround. apply bare_append_any. apply bare_prepend; auto.
  - apply bare_reverse; auto.
  - eapply bare_prefix; eauto.
  - apply bare_suffix; auto.
  - eapply bare_dead; eauto.
  - apply bare_noeps; auto.
  - eapply bare_determine; eauto.
  - eapply bare_minimize; eauto.
  - eapply bare_canonize; eauto.
  - apply bare_approx; auto.
Qed.
