(** The pairs of the constructor of CountingScanner as pairs of words: what they do to a text. *)
From Coq Require Import List Bool Arith NArith Lia.
From Verif Require Import Util Spec FsmModel CountModel CountSpec DetSets CountAuto.
Import ListNotations.

Definition begun (L : lang) (u : word) : Prop := exists m z, u = m ++ z /\ L m.
Definition alive (L : lang) (u : word) : Prop := exists y, is_word y /\ (L (u ++ y) \/ any1 (u ++ y)).
Definition hit (L : lang) (u : word) : Prop := L u \/ any1 u.
Definition or_event (o : option event) : list event := match o with Some e => [e] | None => [] end.

Definition main_of (L : lang) (u v : word) (c : N) (u1 : word) (o : option event) : Prop :=
  (alive L (u ++ [c]) /\ u1 = u ++ [c] /\ o = None) \/
  (~ alive L (u ++ [c]) /\ u1 = v ++ [c] /\ ((begun L (u ++ [c]) /\ o = Some Inc) \/ (~ begun L (u ++ [c]) /\ o = Some Rst))).
Definition backup_of (L : lang) (v : word) (c : N) (u1 v1 : word) : Prop :=
  ((hit L u1 \/ (hit L (v ++ [c]) /\ ~ begun L u1)) /\ v1 = []) \/
  (~ hit L u1 /\ ~ (hit L (v ++ [c]) /\ ~ begun L u1) /\ v1 = v ++ [c]).
Definition pstep (L : lang) (u v : word) (c : N) (u1 v1 : word) (o : option event) : Prop :=
  main_of L u v c u1 o /\ backup_of L v c u1 v1.
Fixpoint pscan (L : lang) (u v : word) (w : word) (evs : list event) (u' v' : word) : Prop :=
  match w with
  | [] => evs = [] /\ u' = u /\ v' = v
  | c :: w' => exists u1 v1 o evs1, pstep L u v c u1 v1 o /\ evs = or_event o ++ evs1 /\ pscan L u1 v1 w' evs1 u' v'
  end.

Section Scan.
  Variable L : lang.
  Hypothesis Hne : ~ L [].
  Hypothesis Hany : forall u, L u -> Forall any_letter u.
  Hypothesis Hdec : forall u, is_word u -> L u \/ ~ L u.
  Hypothesis G1 : resumable L.

  Lemma begun_snoc : forall u c, begun L (u ++ [c]) <-> begun L u \/ L (u ++ [c]).
  Proof.
    intros u c. split.
    - intros (m & z & E & H). destruct z as [|d z] using rev_ind; [rewrite app_nil_r in E; subst; auto|]. rewrite app_assoc in E. apply app_inj_tail in E as [-> _]. left. exists m, z. auto.
    - intros [(m & z & -> & H)|H]; [exists m, (z ++ [c]); rewrite app_assoc; auto|exists (u ++ [c]), []; rewrite app_nil_r; auto].
  Qed.
  Lemma begun_nil : ~ begun L [].
  Proof. intros (m & z & E & H). destruct m; [auto|discriminate E]. Qed.
  Lemma L_ne : forall u, L u -> u <> [].
  Proof. intros u H ->. auto. Qed.
  Lemma alive_of_L : forall u, L u -> alive L u.
  Proof. intros u H. exists []. rewrite app_nil_r. split; [constructor|auto]. Qed.
  Lemma alive_any : forall u, alive L u -> Forall any_letter u.
  Proof.
    intros u (y & _ & [H|(c & E & H)]).
    - apply Hany in H. apply Forall_app in H. tauto.
    - destruct u as [|d u]; [constructor|]. cbn in E. injection E as -> E. apply app_eq_nil in E as [-> _]. auto.
  Qed.
  Lemma alive_long : forall u, alive L u -> 1 < length u -> exists y, L (u ++ y).
  Proof.
    intros u (y & _ & [H|(c & E & H)]) Hl; [eauto|]. apply (f_equal (@length _)) in E. rewrite app_length in E. cbn in E. lia.
  Qed.
  Lemma any1_snoc : forall u c, any1 (u ++ [c]) <-> u = [] /\ any_letter c.
  Proof.
    intros u c. split.
    - intros (d & E & H). destruct u as [|x u]; [injection E as ->; auto|]. destruct u; discriminate E.
    - intros [-> H]. exists c. auto.
  Qed.

  (** What is known of the two words. *)
  Definition J (u v : word) : Prop :=
    (~ begun L u /\ (v = [] \/ v = u)) \/
    (exists k, L k /\ u = k ++ v /\ ~ begun L v /\ forall v1 v2, v = v1 ++ v2 -> v1 <> [] -> ~ L (k ++ v1)).
  Lemma J_init : J [] [].
  Proof. left. split; auto. apply begun_nil. Qed.
  Lemma J_hit : forall u, L u -> J u [].
  Proof.
    intros u H. right. exists u. rewrite app_nil_r. splits; auto; [apply begun_nil|]. intros v1 v2 E N. symmetry in E. apply app_eq_nil in E as [-> _]. congruence.
  Qed.
  Lemma J_restart : forall v c u1 v1, is_word (v ++ [c]) -> ~ begun L v -> u1 = v ++ [c] -> backup_of L v c u1 v1 -> J u1 v1.
  Proof.
    intros v c u1 v1 Hw Hb -> [[H ->]|(H1 & H2 & ->)].
    - destruct (Hdec _ Hw) as [D|D]; [apply J_hit; auto|]. left. split; auto. rewrite begun_snoc. tauto.
    - left. split; auto. rewrite begun_snoc. intros [X|X]; auto. apply H1. left. auto.
  Qed.
  Lemma J_step : forall u v c u1 v1 o, is_word u -> is_word v -> letter c -> J u v -> pstep L u v c u1 v1 o -> J u1 v1.
  Proof.
    intros u v c u1 v1 o Hu Hv Hc Hj [Hm Hb].
    assert (Hx : is_word (u ++ [c])) by (apply Forall_app; auto). assert (Hy : is_word (v ++ [c])) by (apply Forall_app; auto).
    destruct Hj as [[Nb [->| ->]]|(k & Lk & -> & Nb & Hmax)].
    - destruct Hm as [(Al & -> & ->)|(Al & -> & _)]; [|eapply J_restart; eauto using begun_nil].
      destruct (Hdec _ Hx) as [D|D].
      + destruct Hb as [[_ ->]|(X & _)]; [apply J_hit; auto|]. destruct X. left. auto.
      + assert (Nx : ~ begun L (u ++ [c])) by (rewrite begun_snoc; tauto). destruct Hb as [[_ ->]|(_ & X & _)]; [left; auto|].
        destruct X. split; auto. right. apply any1_snoc. split; auto. apply alive_any in Al. apply Forall_app in Al as [_ Al]. inversion Al; auto.
    - apply (J_restart u c u1 v1); auto. destruct Hm as [(_ & -> & _)|(_ & -> & _)]; auto.
    - destruct Hm as [(Al & -> & ->)|(Al & -> & _)]; [|eapply J_restart; eauto].
      destruct (Hdec _ Hx) as [D|D].
      + destruct Hb as [[_ ->]|(X & _)]; [apply J_hit; auto|]. destruct X. left. auto.
      + pose proof (L_ne _ Lk) as Nk.
        assert (Bx : begun L ((k ++ v) ++ [c])) by (exists k, (v ++ [c]); rewrite app_assoc; auto).
        assert (Nh : ~ hit L ((k ++ v) ++ [c])).
        { intros [X|X]; auto. apply any1_snoc in X as [X _]. apply app_eq_nil in X as [X _]. auto. }
        destruct Hb as [[X ->]|(_ & _ & ->)]; [tauto|]. right. exists k. rewrite app_assoc. splits; auto.
        * rewrite begun_snoc. intros [X|X]; auto. destruct (alive_long _ Al) as (y & Y).
          { destruct k; [congruence|]. rewrite !app_length. cbn. lia. }
          rewrite <- (app_assoc k) in Y. destruct (G1 k (v ++ [c]) Lk X (ex_intro _ y Y)) as (a & b & E & Na & La).
          destruct b as [|d b] using rev_ind; [rewrite app_nil_r in E; subst a; rewrite app_assoc in La; auto|].
          rewrite app_assoc in E. apply app_inj_tail in E as [E _]. apply (Hmax a b E Na La).
        * intros a b E Na La. destruct b as [|d b] using rev_ind; [rewrite app_nil_r in E; subst a; rewrite app_assoc in La; auto|].
          rewrite app_assoc in E. apply app_inj_tail in E as [E _]. apply (Hmax a b E Na La).
  Qed.
  Lemma step_word : forall u v c u1 v1 o, is_word u -> is_word v -> letter c -> pstep L u v c u1 v1 o -> is_word u1 /\ is_word v1.
  Proof.
    intros u v c u1 v1 o Hu Hv Hc [Hm Hb]. assert (Hx : is_word (u ++ [c])) by (apply Forall_app; auto). assert (Hy : is_word (v ++ [c])) by (apply Forall_app; auto).
    split; [destruct Hm as [(_ & -> & _)|(_ & -> & _)]|destruct Hb as [(_ & ->)|(_ & _ & ->)]]; auto. constructor.
  Qed.

  (** *** Never too many *)
  (** [p] is the text before the word [u]; the last increments are for pieces at its end. *)
  Definition pieces (p : word) (evs : list event) : Prop :=
    forall z y, evs = z ++ y -> ~ In Rst y -> exists p' ms, p = p' ++ concat ms /\ length ms = incs y /\ Forall L ms.
  Lemma pieces_none : forall p evs, (forall z y, evs = z ++ y -> ~ In Rst y -> incs y = 0) -> pieces p evs.
  Proof. intros p evs H z y E N. exists p, []. cbn. rewrite app_nil_r, (H z y E N). auto. Qed.
  Lemma incs_snoc : forall l e, incs (l ++ [e]) = incs l + match e with Inc => 1 | Rst => 0 end.
  Proof. induction l as [|x l IH]; intros e; [destruct e; reflexivity|]. cbn. destruct x; rewrite IH; lia. Qed.
  Lemma scan_chain : forall w u v p evs0 evs u' v', is_word w -> is_word u -> is_word v -> J u v -> pieces p evs0 -> (forall n, is_run evs0 n -> chain L p n) ->
    pscan L u v w evs u' v' -> forall n, is_run (evs0 ++ evs) n -> chain L (p ++ u ++ w) n.
  Proof.
    induction w as [|c w IH]; intros u v p evs0 evs u' v' Hw Hu Hv Hj Hp Hr S n R; cbn [pscan] in S.
    - destruct S as (-> & -> & ->). rewrite !app_nil_r in *. destruct (Hr n R) as (x & ms & y & -> & E). exists x, ms, (y ++ u). rewrite <- !app_assoc. auto.
    - destruct S as (u1 & v1 & o & evs1 & S & -> & S'). inversion Hw as [|? ? Hc Hw']; subst.
      destruct (step_word _ _ _ _ _ _ Hu Hv Hc S) as [Hu1 Hv1]. pose proof (J_step _ _ _ _ _ _ Hu Hv Hc Hj S) as Hj1.
      assert (KEY : exists p1, p1 ++ u1 = p ++ u ++ [c] /\ (exists q, p1 = p ++ q) /\ pieces p1 (evs0 ++ or_event o) /\ forall n, is_run (evs0 ++ or_event o) n -> chain L p1 n).
      { assert (Ext : forall q n, chain L p n -> chain L (p ++ q) n).
        { intros q m (x & ms & y & -> & E). exists x, ms, (y ++ q). rewrite <- !app_assoc. auto. }
        assert (Res : forall q, (forall m, is_run evs0 m -> chain L (p ++ q) m) /\ pieces (p ++ q) (evs0 ++ [Rst]) /\ forall m, is_run (evs0 ++ [Rst]) m -> chain L (p ++ q) m).
        { intros q. assert (X0 : forall m, is_run evs0 m -> chain L (p ++ q) m) by auto. splits; auto.
          - apply pieces_none. intros z y E N. destruct y as [|e y _] using rev_ind; auto. rewrite app_assoc in E. apply app_inj_tail in E as [_ <-]. destruct N. apply in_app_iff. cbn. auto.
          - intros m (x & y & z & E & N & I). destruct z as [|e z _] using rev_ind.
            + rewrite app_nil_r in E. destruct y as [|e y _] using rev_ind.
              * cbn in I. subst m. exists (p ++ q), [], []. cbn. rewrite !app_nil_r. auto.
              * rewrite app_assoc in E. apply app_inj_tail in E as [_ <-]. destruct N. apply in_app_iff. cbn. auto.
            + rewrite !app_assoc in E. apply app_inj_tail in E as [E _]. apply X0. exists x, y, z. rewrite <- app_assoc in E. auto. }
        destruct S as [[(Al & -> & ->)|(Al & -> & [[Bg ->]|[Bg ->]])] _].
        - exists p. cbn [or_event]. rewrite app_nil_r. splits; auto. exists []. rewrite app_nil_r. auto.
        - destruct Hj as [[Nb _]|(k & Lk & -> & Nb & Hmax)].
          + exfalso. apply begun_snoc in Bg as [Bg|Bg]; auto. apply Al, alive_of_L. auto.
          + exists (p ++ k). cbn [or_event]. splits.
            * rewrite <- !app_assoc. reflexivity.
            * eauto.
            * intros z y E N. destruct y as [|e y _] using rev_ind.
              -- exists (p ++ k), []. cbn. rewrite app_nil_r. auto.
              -- rewrite app_assoc in E. apply app_inj_tail in E as [E <-]. destruct (Hp z y E) as (p' & ms & -> & Lm & Fm); [intros X; apply N, in_app_iff; auto|].
                 exists p', (ms ++ [k]). rewrite concat_app, incs_snoc, app_length, Lm. cbn [concat length]. rewrite app_nil_r, app_assoc. splits; auto. apply Forall_app. auto.
            * intros m (x & y & z & E & N & I). destruct z as [|e z _] using rev_ind.
              -- rewrite app_nil_r in E. destruct y as [|e y _] using rev_ind.
                 ++ cbn in I. subst m. exists (p ++ k), [], []. cbn. rewrite !app_nil_r. auto.
                 ++ rewrite app_assoc in E. apply app_inj_tail in E as [E <-]. destruct (Hp x y E) as (p' & ms & -> & Lm & Fm); [intros X; apply N, in_app_iff; auto|].
                    exists p', (ms ++ [k]), []. rewrite incs_snoc in I. rewrite concat_app, app_length, Lm. cbn [concat length]. rewrite !app_nil_r, <- app_assoc. splits; auto. apply Forall_app. auto.
              -- rewrite !app_assoc in E. apply app_inj_tail in E as [E _]. apply Ext, Hr. exists x, y, z. rewrite <- app_assoc in E. auto.
        - destruct Hj as [[Nb [->| ->]]|(k & Lk & -> & Nb & Hmax)].
          + exists (p ++ u). cbn [or_event app]. rewrite <- app_assoc. destruct (Res u) as (X1 & X2 & X3). splits; eauto.
          + exists p. cbn [or_event app]. destruct (Res []) as (X1 & X2 & X3). rewrite app_nil_r in *. splits; eauto. exists []. rewrite app_nil_r. auto.
          + exfalso. apply Bg. exists k, (v ++ [c]). rewrite app_assoc. auto. }
      destruct KEY as (p1 & E1 & _ & Hp1 & Hr1).
      rewrite app_assoc in R. specialize (IH u1 v1 p1 (evs0 ++ or_event o) evs1 u' v' Hw' Hu1 Hv1 Hj1 Hp1 Hr1 S' n R).
      rewrite app_assoc, E1, <- !app_assoc in IH. exact IH.
  Qed.
  Lemma scan_never_too_many : forall w evs u v n, is_word w -> pscan L [] [] w evs u v -> is_run evs n -> chain L w n.
  Proof.
    intros w evs u v n Hw S R. assert (P0 : pieces [] []).
    { apply pieces_none. intros z y E _. symmetry in E. apply app_eq_nil in E as [_ ->]. reflexivity. }
    apply (scan_chain w [] [] [] [] evs u v Hw ltac:(constructor) ltac:(constructor) J_init P0); auto.
    intros m (x & y & z & E & _ & I). symmetry in E. apply app_eq_nil in E as [_ E]. apply app_eq_nil in E as [-> _]. cbn in I. subst m. exists [], [], []. auto.
  Qed.
End Scan.

(** *** Greedy reading *)
Section Greedy.
  Variable L : lang.
  Hypothesis Hne : ~ L [].
  Hypothesis Hany : forall u, L u -> Forall any_letter u.
  Hypothesis Hdec : forall u, is_word u -> L u \/ ~ L u.
  Lemma steady_resumable : steady L -> resumable L.
  Proof. intros H u v Hu Hv B. exists v, []. rewrite app_nil_r. splits; auto. intros ->. auto. Qed.
  Lemma any_is_letter : forall c, any_letter c -> letter c.
  Proof. intros c [H|[H|H]]; [split; [unfold MaxChar; lia|unfold Epsilon; lia]|subst c; split; [reflexivity|discriminate]..]. Qed.
  Hypothesis G0 : steady L.
  Lemma scan_greedy : forall w u evs u' v', Forall any_letter w -> is_word u -> (L u \/ ~ begun L u) -> pscan L u [] w evs u' v' -> greedy L u w evs.
  Proof.
    induction w as [|c w IH]; intros u evs u' v' Hw Hu Hi S; cbn [pscan] in S.
    - destruct S as (-> & _). constructor.
    - inversion Hw as [|? ? Hc Hw']; subst. destruct S as (u1 & v1 & o & evs1 & (Hm & Hb) & -> & S).
      pose proof (any_is_letter c Hc) as Lc. assert (Hx : is_word (u ++ [c])) by (apply Forall_app; auto).
      assert (Hc1 : any1 [c]) by (exists c; auto). assert (Ac : alive L [c]) by (exists []; split; [constructor|right; exact Hc1]).
      assert (Wc : is_word [c]) by (constructor; auto).
      assert (Dc : forall x, is_word x -> (L x \/ ~ begun L x) -> forall d, letter d -> begins L (x ++ [d]) \/ x = [] -> L (x ++ [d]) \/ ~ begun L (x ++ [d])).
      { intros x Wx Ix d Ld Bx. destruct (Hdec (x ++ [d])) as [D|D]; [apply Forall_app; auto|auto|]. right. rewrite begun_snoc. intros [X|X]; auto.
        destruct Ix as [Ix|Ix]; auto. destruct Bx as [Bx|Bx]; [apply D, G0; auto|]. subst x. auto. }
      assert (Ic : L [c] \/ ~ begun L [c]) by (apply (Dc [] ltac:(constructor) (or_intror (begun_nil L Hne)) c Lc); auto).
      destruct Hm as [(Al & -> & ->)|(Al & -> & Ho)].
      + cbn [or_event app]. assert (Bg : u <> [] -> begins L (u ++ [c])).
        { intros Nu. apply (alive_long L); auto. rewrite app_length. destruct u; [congruence|cbn; lia]. }
        assert (Ix : L (u ++ [c]) \/ ~ begun L (u ++ [c])) by (apply Dc; auto; destruct u; auto; left; apply Bg; discriminate).
        assert (v1 = []) as ->.
        { destruct Hb as [[_ ->]|(X1 & X2 & ->)]; auto. exfalso. destruct Ix as [Ix|Ix]; [apply X1; left; auto|]. apply X2. split; auto. right. exact Hc1. }
        destruct u as [|d u].
        * apply greedy_first. eapply IH; eauto.
        * apply greedy_more; [discriminate|apply Bg; discriminate|]. eapply IH; eauto.
      + destruct u as [|d u]; [destruct (Al Ac)|]. set (x := d :: u) in *. assert (Nx : x <> []) by discriminate. clearbody x.
        assert (Nb : ~ begins L (x ++ [c])).
        { intros (y & H). apply Al. destruct (Forall_app any_letter (x ++ [c]) y) as [X _]. destruct (X (Hany _ H)) as [_ Fy].
          exists y. split; auto. eapply Forall_impl; [|exact Fy]. apply any_is_letter. }
        assert (v1 = []) as -> by (destruct Hb as [[_ ->]|(X & _)]; auto; destruct X; right; exact Hc1).
        cbn [app] in *. destruct Ho as [[Bg ->]|[Bg ->]]; cbn [or_event app].
        * apply greedy_piece; auto; [|eapply IH; eauto]. apply begun_snoc in Bg as [Bg|Bg]; [tauto|]. destruct Nb. exists []. rewrite app_nil_r. auto.
        * apply greedy_miss; auto; [|eapply IH; eauto]. intros X. apply Bg. exists x, [c]. auto.
  Qed.
End Greedy.

(** *** Greedy reading when no piece starts another *)
Section Free.
  Variable L : lang.
  Hypothesis Hne : ~ L [].
  Hypothesis Hdec : forall u, is_word u -> L u \/ ~ L u.
  Hypothesis Hfree : prefix_free L.
  Hypothesis Hbyte : forall u, L u -> Forall (fun c => c < 256)%N u.
  (** wherever a piece ends, one that starts at the beginning of the text has ended *)
  Hypothesis Hocc : forall x m, Forall (fun c => c < 256)%N x -> L m -> begun L (x ++ m).
  Variable m0 : word.
  Hypothesis H0 : L m0.
  Lemma free_steady : steady L.
  Proof. intros u v H (y & B). rewrite <- app_assoc in B. apply (Hfree u _ H) in B. apply app_eq_nil in B as [-> _]. rewrite app_nil_r. auto. Qed.
  Lemma prefixes : forall (a b c d : word), a ++ b = c ++ d -> (exists z, c = a ++ z /\ b = z ++ d) \/ (exists z, a = c ++ z /\ d = z ++ b).
  Proof.
    induction a as [|x a IH]; intros b c d E.
    - left. exists c. auto.
    - destruct c as [|y c]; [right; exists (x :: a); auto|]. cbn in E. injection E as <- E. destruct (IH _ _ _ E) as [(z & -> & ->)|(z & -> & ->)]; [left|right]; exists z; auto.
  Qed.
  Lemma same_piece : forall a b c d, a ++ b = c ++ d -> L a -> L c -> a = c /\ b = d.
  Proof.
    intros a b c d E Ha Hc. destruct (prefixes _ _ _ _ E) as [(z & -> & ->)|(z & -> & ->)]; [apply (Hfree a z Ha) in Hc|apply (Hfree c z Hc) in Ha]; subst z; rewrite app_nil_r; auto.
  Qed.
  Lemma bytes_word : forall u, Forall (fun c => c < 256)%N u -> is_word u.
  Proof. intros u H. eapply Forall_impl; [|exact H]. intros c X. apply any_is_letter. left. exact X. Qed.
  Lemma greedy_all : forall w u evs, Forall (fun c => c < 256)%N (u ++ w) -> (L u \/ ~ begun L u) -> greedy L u (w ++ [EndMark]) evs ->
    exists k t, evs = repeat Inc k ++ t /\ forall a ms b, u ++ w = a ++ concat ms ++ b -> Forall L ms -> length ms <= k.
  Proof.
    assert (End_ : forall u, ~ begins L (u ++ [EndMark])).
    { intros u (y & H). apply Hbyte in H. rewrite <- app_assoc in H. apply Forall_app in H as [_ H]. inversion H as [|? ? X _]. discriminate X. }
    assert (Grow : forall u, Forall (fun c => c < 256)%N u -> ~ begun L u -> begins L u).
    { intros u Bu Nb. destruct (Hocc u m0 Bu H0) as (m & z & E & Hm). destruct (prefixes _ _ _ _ E) as [(y & -> & _)|(y & -> & _)].
      - exists y. auto. - destruct Nb. exists m, y. auto. }
    assert (Some1 : forall u a m ms b, Forall (fun c => c < 256)%N u -> u = a ++ concat (m :: ms) ++ b -> L m -> exists k z, a ++ m = k ++ z /\ L k /\ u = k ++ z ++ concat ms ++ b).
    { intros u a m ms b Bu -> Hm. cbn [concat] in *. apply Forall_app in Bu as [Ba _]. destruct (Hocc a m Ba Hm) as (k & z & E & Hk). exists k, z. splits; auto.
      rewrite <- app_assoc. rewrite app_assoc, E, <- !app_assoc. reflexivity. }
    assert (Nil : forall u, Forall (fun c => c < 256)%N u -> ~ begun L u -> forall a ms b, u = a ++ concat ms ++ b -> Forall L ms -> length ms <= 0).
    { intros u Bu Nb a [|m ms] b E F; auto. exfalso. inversion F; subst. destruct (Some1 _ a m ms b Bu eq_refl ltac:(auto)) as (k & z & _ & Hk & X).
      apply Nb. rewrite X. exists k, (z ++ concat ms ++ b). auto. }
    induction w as [|c w IH]; intros u evs Bw Hi G; cbn [app] in G.
    - rewrite app_nil_r in *. inversion G as [|? ? ? G' E1 E2|? ? ? ? Nu Bg G' E1 E2|? ? ? ? Nu Bg Hu G' E1 E2|? ? ? ? Nu Bg Hu G' E1 E2]; subst.
      + exists 0, evs. split; auto. apply Nil; auto. apply begun_nil. auto.
      + destruct (End_ _ Bg).
      + exists 1, evs0. split; auto. intros a [|m ms] b E F; cbn; [lia|]. inversion F as [|? ? Hm Fm]; subst. destruct (Some1 _ a m ms b Bw eq_refl Hm) as (k & z & _ & Hk & X).
        destruct (same_piece (a ++ concat (m :: ms) ++ b) [] k (z ++ concat ms ++ b)) as [_ Y]; auto; [rewrite app_nil_r; exact X|].
        symmetry in Y. apply app_eq_nil in Y as [_ Y]. apply app_eq_nil in Y as [Y _]. destruct ms as [|m' ms]; cbn; auto. cbn in Y. apply app_eq_nil in Y as [-> _]. inversion Fm. contradiction.
      + exists 0, (Rst :: evs0). split; auto. apply Nil; auto. tauto.
    - assert (Bc : Forall (fun c => c < 256)%N (c :: w)) by (apply Forall_app in Bw; tauto). assert (Hcb : (c < 256)%N) by (inversion Bc; auto).
      assert (Wc : letter c) by (apply any_is_letter; left; auto).
      assert (Ic : L [c] \/ ~ begun L [c]).
      { destruct (Hdec [c]) as [D|D]; [constructor; auto|auto|]. right. rewrite <- (app_nil_l [c]), begun_snoc. intros [X|X]; auto. apply (begun_nil L Hne X). }
      inversion G as [|? ? ? G' E1 E2|? ? ? ? Nu Bg G' E1 E2|? ? ? ? Nu Bg Hu G' E1 E2|? ? ? ? Nu Bg Hu G' E1 E2]; subst.
      + apply (IH [c]); auto.
      + assert (Nb : ~ begun L u).
        { destruct Hi as [Hi|Hi]; auto. destruct Bg as (y & Y). rewrite <- app_assoc in Y. apply (Hfree u _ Hi) in Y. discriminate Y. }
        replace (u ++ c :: w) with ((u ++ [c]) ++ w) by (rewrite <- app_assoc; reflexivity). apply IH; auto.
        * rewrite <- app_assoc. exact Bw.
        * destruct (Hdec (u ++ [c])) as [D|D]; [apply bytes_word; apply Forall_app in Bw as [B1 _]; apply Forall_app; auto|auto|]. right. rewrite begun_snoc. tauto.
      + destruct (IH [c] _ Bc Ic G') as (k & t & -> & Hk). exists (S k), t. split; auto.
        intros a [|m ms] b E F; cbn [length]; [lia|]. inversion F as [|? ? Hm Fm]; subst.
        destruct (Some1 _ a m ms b Bw E Hm) as (k0 & z & _ & Hk0 & X). destruct (same_piece _ _ _ _ X Hu Hk0) as [_ Y].
        apply le_n_S. apply (Hk z ms b); auto.
      + exfalso. apply Bg. destruct Hi as [Hi|Hi]; [contradiction|]. apply Forall_app in Bw as [B1 _]. assert (B2 : Forall (fun c => c < 256)%N (u ++ [c])) by (apply Forall_app; auto).
        destruct (Hdec (u ++ [c])) as [D|D]; [apply bytes_word; auto|exists []; rewrite app_nil_r; auto|]. apply Grow; auto. rewrite begun_snoc. tauto.
  Qed.
  Lemma greedy_never_too_few : forall w evs n, Forall (fun c => c < 256)%N w -> greedy L [] (BeginMark :: w ++ [EndMark]) evs -> chain L w n -> exists m, n <= m /\ is_run evs m.
  Proof.
    intros w evs n Bw G (a & ms & b & E & <- & F). inversion G as [|? ? ? G' E1 E2|? ? ? ? Nu Bg G' E1 E2|? ? ? ? Nu Bg Hu G' E1 E2|? ? ? ? Nu Bg Hu G' E1 E2]; subst; try congruence.
    clear G E1. assert (NB : forall y, ~ begins L (BeginMark :: y)).
    { intros y (z & H). apply Hbyte in H. inversion H as [|? ? X _]. discriminate X. }
    destruct (a ++ concat ms ++ b) as [|c w] eqn:E.
    - apply app_eq_nil in E as [-> E]. apply app_eq_nil in E as [E _]. destruct ms as [|m ms]; [|cbn in E; apply app_eq_nil in E as [-> _]; inversion F; contradiction].
      exists 0. split; auto. exists [], [], evs. auto.
    - cbn [app] in G'. inversion G' as [|? ? ? G2 E1 E2|? ? ? ? Nu Bg G2 E1 E2|? ? ? ? Nu Bg Hu G2 E1 E2|? ? ? ? Nu Bg Hu G2 E1 E2]; subst.
      + destruct (NB _ Bg).
      + apply Hbyte in Hu. inversion Hu as [|? ? X _]. discriminate X.
      + assert (Hcb : (c < 256)%N) by (inversion Bw; auto). assert (Wc : letter c) by (apply any_is_letter; left; auto).
        assert (Ic : L [c] \/ ~ begun L [c]).
        { destruct (Hdec [c]) as [D|D]; [constructor; auto|auto|]. right. rewrite <- (app_nil_l [c]), begun_snoc. intros [X|X]; auto. apply (begun_nil L Hne X). }
        destruct (greedy_all w [c] _ Bw Ic G2) as (k & t & -> & Hk). exists k. split; [apply (Hk a ms b); auto|].
        exists [Rst], (repeat Inc k), t. splits; auto.
        * intros X. apply repeat_spec in X. discriminate X.
        * clear. induction k; cbn; auto.
  Qed.
End Free.
