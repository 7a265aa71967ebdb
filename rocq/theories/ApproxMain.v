(** The words CreateApproxFsm accepts. *)
From Coq Require Import List Bool Arith NArith Lia.
From Verif Require Import Util Spec PartitionModel PartitionProofs FsmModel Nfa FsmSem FsmBasics FsmOps FsmOps2 ApproxModel ApproxSpec ApproxProofs.
Import ListNotations.
Local Opaque all_letters.

Local Ltac sp := repeat match goal with |- _ /\ _ => split end.

Lemma edits_tail : forall sw k u w, edits sw false k u w -> forall tl, edits sw tl k u w.
Proof.
  intros sw k u w H tl. induction H; [apply e_nil|apply e_same|apply e_replace|apply e_insert|apply e_remove|apply e_swap]; auto.
  destruct H0 as [H0|H0]; [discriminate H0|auto].
Qed.

Lemma path_cons : forall E x c u y, path E x (c :: u) y -> exists p q, path E x [] p /\ c <> Epsilon /\ E p c q /\ path E q u y.
Proof.
  intros E x c u y H. remember (c :: u) as w eqn:Ew. revert c u Ew. induction H as [p|p q w r He H IH|p a q w r Ha He H IH]; intros c u Ew.
  - discriminate.
  - destruct (IH c u Ew) as (m & m' & H1 & H2 & H3 & H4). exists m, m'. sp; auto. eapply path_eps; eauto.
  - injection Ew as -> ->. exists p, q. sp; auto. apply path_nil.
Qed.

Section Main.
  Variable f : fsm.
  Hypothesis W : wf f.
  Hypothesis Pf : plain f.
  Variable d : nat.
  Let n := size f.
  Let h := create_approx f d.

  Let npos : 0 < n.
  Proof. pose proof (wf_init _ W). unfold n. lia. Qed.
  Let shape : exists g, levels_ok f d g /\ swapped f g (approx_list f d) h.
  Proof. apply approx_shape; auto; apply W. Qed.

  Lemma edge_plain : forall p c q, edge f p c q <-> raw f p c q.
  Proof. intros p c q. unfold edge. rewrite erep_empty by apply Pf. reflexivity. Qed.
  Lemma approx_uncompressed : uncompressed h.
  Proof. destruct shape as (g & _ & Sw). apply (sp_plain _ _ _ _ Sw). Qed.
  Lemma edge_approx : forall p c q, edge h p c q <-> raw h p c q.
  Proof. intros p c q. unfold edge. rewrite erep_empty by apply approx_uncompressed. reflexivity. Qed.

  (** The edges of the result *)
  Lemma approx_edges : forall p c q, edge h p c q <->
    (exists i x y, i <= d /\ p = x + i * n /\ q = y + i * n /\ edge f x c y) \/
    (exists i x y, i < d /\ p = x + i * n /\ q = y + S i * n /\ (c < MaxChar)%N /\ ((exists c0, edge f x c0 y) /\ (c = Epsilon \/ ~ edge f x c y) \/ x < n /\ x = y /\ outgoing_letters f x <> [])) \/
    (exists j a r, nth_error (approx_list f d) j = Some (p, (a, c, r)) /\ q = S d * n + j) \/
    (exists j i x b r, nth_error (approx_list f d) j = Some (x + i * n, (c, b, r)) /\ i < d /\ x < n /\ p = S d * n + j /\ q = r + S i * n).
  Proof.
    intros p c q. rewrite edge_approx. destruct shape as (g & L & Sw). rewrite (sp_raw _ _ _ _ Sw), (lv_raw _ _ _ L), (lv_size _ _ _ L). fold n.
    unfold same_level, next_level, middle_in, middle_out. fold n. split.
    - intros [[(i & x & y & Hi & -> & -> & H)|(i & x & Hi & Hx & H)]|[H|(j & st & b & r & H & -> & ->)]].
      + left. exists i, x, y. rewrite edge_plain. auto.
      + right. left. unfold raised, replaced, inserted in H. destruct H as [(y & c0 & H & -> & -> & Hc & D)|(Ho & -> & -> & Hc)].
        * exists i, x, y. sp; auto; [cbn [Nat.mul]; unfold n; lia|]. left. split; [exists c0; apply edge_plain; auto|]. rewrite edge_plain. auto.
        * exists i, x, x. sp; auto. cbn [Nat.mul]; unfold n; lia.
      + right. right. left. exact H.
      + right. right. right. pose proof H as H0. apply nth_error_In in H0. apply approx_list_in in H0 as (i & x & q & Hi & Hx & -> & _); auto.
        exists j, i, x, b, r. sp; auto. fold n. rewrite Nat.div_add, Nat.div_small by lia. cbn [Nat.mul Nat.add]. lia.
    - intros [(i & x & y & Hi & -> & -> & H)|[(i & x & y & Hi & -> & -> & Hc & H)|[H|(j & i & x & b & r & H & Hi & Hx & -> & ->)]]].
      + left. left. exists i, x, y. rewrite <- edge_plain. auto.
      + left. right. destruct H as [[[c0 H] D]|(Hx & <- & H)].
        * exists i, x. assert (Hx : x < n) by (apply edge_bound in H; [unfold n; tauto|auto]). sp; auto. left. exists y, c0. rewrite <- edge_plain. split; auto.
          unfold replaced. rewrite <- edge_plain. sp; auto. fold n. cbn [Nat.mul]. lia.
        * exists i, x. sp; auto. right. split; auto. unfold inserted. sp; auto. fold n. cbn [Nat.mul]. lia.
      + right. left. exact H.
      + right. right. exists j, (x + i * n), b, r. sp; auto. fold n. rewrite Nat.div_add, Nat.div_small by lia. cbn [Nat.mul Nat.add]. lia.
  Qed.
  Lemma approx_finals : forall q, In q (finals h) <-> exists i x, i <= d /\ In x (finals f) /\ q = x + i * n.
  Proof. intros q. destruct shape as (g & L & Sw). rewrite (sp_fin _ _ _ _ Sw). apply (lv_fin _ _ _ L). Qed.
  Lemma approx_initial : initial h = initial f.
  Proof. destruct shape as (g & L & Sw). rewrite (sp_init _ _ _ _ Sw). apply (lv_init _ _ _ L). Qed.
  Lemma approx_size : size h = S d * n + length (approx_list f d).
  Proof. destruct shape as (g & L & Sw). rewrite (sp_size _ _ _ _ Sw), (lv_size _ _ _ L). reflexivity. Qed.
  Lemma approx_undet : determined h = determined f.
  Proof. destruct shape as (g & L & Sw). rewrite (sp_det _ _ _ _ Sw). apply (lv_det _ _ _ L). Qed.

  Theorem approx_wf : wf h.
  Proof.
    pose proof approx_size as Es. pose proof approx_initial as Ei. pose proof approx_uncompressed as U. pose proof approx_finals as Ef. pose proof edge_approx as Ee. pose proof approx_edges as Ed.
    destruct shape as (g & L & Sw). destruct Sw. constructor.
    - rewrite Ei, Es. pose proof (wf_init _ W). fold n in H. cbn [Nat.mul]. lia.
    - intros q Hq. apply Ef in Hq as (i & x & Hi & Hx & ->). apply (wf_fin _ W) in Hx. fold n in Hx. rewrite Es. cbn [Nat.mul]. nia.
    - rewrite sp_fin. apply (lv_sorted _ _ _ L).
    - exact sp_rows.
    - apply uncompressed_letters. exact U.
    - apply uncompressed_coherent. exact U.
    - apply uncompressed_bcoherent. exact U.
    - intros A. destruct (sp_alt A) as [A1 A2]. destruct (lv_alt _ _ _ L A1) as [A3 A4]. destruct (wf_alt _ W A3) as (B1 & B2 & B3).
      assert (R : forall p c q, raw h p c q -> exists i x y, p = x + i * n /\ q = y + i * n /\ raw f x c y).
      { intros p c q H. apply sp_raw in H. rewrite A2 in H. destruct H as [H|[(j & a & r & H & _)|(j & s & b & r & H & _)]]; [|destruct j; discriminate H|destruct j; discriminate H].
        apply (lv_raw _ _ _ L) in H as [(i & x & y & _ & H)|H]; [exists i, x, y; exact H|]. apply A4 in H. destruct H. }
      rewrite Ei. sp.
      + intros p c H. apply R in H as (i & x & y & _ & E & H). pose proof (raw_bound f x c y (wf_rows _ W) H) as (_ & Hy & _).
        destruct (level_unique n (initial f) y 0 i) as [<- <-]; [apply W|exact Hy|cbn [Nat.mul]; lia|]. eapply B1; eauto.
      + intros H. apply Ef in H as (i & x & _ & Hx & E). pose proof (wf_fin _ W x Hx) as Hx'.
        destruct (level_unique n (initial f) x 0 i) as [<- <-]; [apply W|exact Hx'|cbn [Nat.mul]; lia|]. auto.
      + intros c q H. apply R in H as (i & x & y & E & _ & H). pose proof (raw_bound f x c y (wf_rows _ W) H) as (Hx & _).
        destruct (level_unique n (initial f) x 0 i) as [<- <-]; [apply W|exact Hx|cbn [Nat.mul]; lia|]. eapply B3; eauto.
  Qed.

  (** ** Only words that are close *)
  Definition leads (tl : bool) (x : nat) (u : word) : Prop := exists x' y, path (edge f) x u x' /\ path (edge f) x' [] y /\ In y (finals f) /\
    (tl = true -> outgoing_letters f x' <> []).
  Definition close (i x : nat) (w : word) : Prop := exists u j tl, leads tl x u /\ edits true tl j u w /\ i + j <= d.

  Lemma leads_step : forall tl x c y u, edge f x c y -> c <> Epsilon -> leads tl y u -> leads tl x (c :: u).
  Proof. intros tl x c y u E N (x' & z & H1 & H2). exists x', z. split; auto. eapply path_step; eauto. Qed.
  Lemma leads_eps : forall tl x y u, edge f x Epsilon y -> leads tl y u -> leads tl x u.
  Proof. intros tl x y u E (x' & z & H1 & H2). exists x', z. split; auto. eapply path_eps; eauto. Qed.
  Lemma edge_out : forall x c y, edge f x c y -> outgoing_letters f x <> [].
  Proof. intros x c y H. apply edge_plain, raw_pres in H. apply mkeys_in in H. fold (outgoing_letters f x) in H. intros X. rewrite X in H. destruct H. Qed.
  Lemma leads_open : forall tl x, leads tl x [] -> outgoing_letters f x <> [] -> leads true x [].
  Proof. intros tl x (x' & y & H1 & H2 & H3 & _) H. exists x, y. split; [apply path_nil|]. split; [|split; auto]. exact (path_app _ _ _ _ _ _ H1 H2). Qed.
  Lemma close_insert : forall i x y w c, (exists c0, x = y \/ edge f x c0 y /\ c0 = Epsilon) -> outgoing_letters f x <> [] -> letter c -> close (S i) y w -> close i x (c :: w).
  Proof.
    intros i x y w c (c0 & Hxy) Ho Hc (u & j & tl & H1 & H2 & H3).
    assert (H1' : leads tl x u) by (destruct Hxy as [->|[E ->]]; [auto|eapply leads_eps; eauto]). destruct u as [|b u].
    - exists [], (S j), true. split; [eapply leads_open; eauto|]. split; [|lia]. apply e_insert; auto.
      destruct tl; auto. apply edits_tail; auto.
    - exists (b :: u), (S j), tl. split; auto. split; [|lia]. apply e_insert; auto. right. discriminate.
  Qed.
  Lemma close_weak : forall i x w, close (S i) x w -> close i x w.
  Proof. intros i x w (u & j & tl & H1 & H2 & H3). exists u, j, tl. sp; auto. lia. Qed.

  (** What is left to read in the middle of an exchange *)
  Definition half_way (P : nat) (w : word) : Prop := forall j i x a b r, nth_error (approx_list f d) j = Some (x + i * n, (a, b, r)) ->
    i < d -> x < n -> P = S d * n + j -> (a = Epsilon /\ close (S i) r w) \/ (a <> Epsilon /\ exists w', w = a :: w' /\ close (S i) r w').

  Lemma nth_swap : forall j i x a b r, x < n -> nth_error (approx_list f d) j = Some (x + i * n, (a, b, r)) ->
    i < d /\ exists q, edge f x a q /\ edge f q b r.
  Proof.
    intros j i x a b r Hx H. apply nth_error_In in H. apply approx_list_in in H as (i' & x' & q & Hi & Hx' & E & H1 & H2 & _); auto.
    fold n in E. destruct (level_unique n x x' i i' Hx Hx' E) as [<- <-]. split; auto. exists q. rewrite !edge_plain. auto.
  Qed.

  Lemma only_close : forall P w Q, path (edge h) P w Q -> In Q (finals h) ->
    (forall i x, x < n -> P = x + i * n -> i <= d -> close i x w) /\ half_way P w.
  Proof.
    intros P w Q H Hq. induction H as [p|p q w r He H IH|p c q w r Hc He H IH].
    - apply approx_finals in Hq as (i' & x' & Hi' & Hx' & ->). pose proof (wf_fin _ W _ Hx') as B. fold n in B. split.
      + intros i x Hx E Hi. destruct (level_unique n x' x i' i B Hx E) as [-> ->]. exists [], 0, false. split; [|split; [apply e_nil|lia]].
        exists x, x. split; [apply path_nil|]. split; [apply path_nil|]. split; auto. discriminate.
      + intros j i x a b r _ _ _ E. exfalso. nia.
    - specialize (IH Hq) as [IH1 IH2]. apply approx_edges in He. split.
      + intros i x Hx -> Hi. destruct He as [(i' & x' & y & Hi' & E & -> & He)|[(i' & x' & y & Hi' & E & -> & _ & He)|[(j & a & r' & He & ->)|(j & i' & x' & b & r' & He & Hi' & Hx' & E & ->)]]].
        * pose proof (edge_bound f _ _ _ W He) as [B1 B2]. destruct (level_unique n x x' i i' Hx B1 E) as [<- <-].
          destruct (IH1 i y B2 eq_refl Hi) as (u & j & tl & H1 & H2 & H3). exists u, j, tl. split; [eapply leads_eps; eauto|auto].
        * destruct He as [[[c0 He] _]|(Hx' & <- & _)].
          -- pose proof (edge_bound f _ _ _ W He) as [B1 B2]. destruct (level_unique n x x' i i' Hx B1 E) as [<- <-].
             destruct (IH1 (S i) y B2 eq_refl Hi') as (u & j & tl & H1 & H2 & H3). destruct (N.eq_dec c0 Epsilon) as [->|Hn].
             ++ exists u, j, tl. split; [eapply leads_eps; eauto|]. split; auto. lia.
             ++ exists (c0 :: u), (S j), tl. split; [eapply leads_step; eauto|]. split; [apply e_remove; auto|lia].
          -- destruct (level_unique n x x' i i' Hx Hx' E) as [<- <-]. apply close_weak. apply IH1; auto.
        * destruct (nth_swap j i x a Epsilon r' Hx He) as (Hi' & m & E1 & E2).
          destruct (IH2 j i x a Epsilon r' He Hi' Hx eq_refl) as [[-> C]|(Hn & w' & -> & C)].
          -- apply close_weak in C. destruct C as (u & k & tl & H1 & H2 & H3). exists u, k, tl. split; auto. eapply leads_eps; [exact E1|]. eapply leads_eps; [exact E2|]. auto.
          -- apply close_weak in C. destruct C as (u & k & tl & H1 & H2 & H3). exists (a :: u), k, tl. split; [|split; [apply e_same; auto|auto]].
             eapply leads_step; [exact E1|auto|]. eapply leads_eps; eauto.
        * exfalso. nia.
      + intros j i x a b r' Hj Hi Hx ->. left. destruct He as [(i' & x' & y & Hi' & E & -> & He)|[(i' & x' & y & Hi' & E & -> & _ & He)|[(j' & a' & r1 & He & ->)|(j' & i' & x' & b' & r1 & He & Hi' & Hx' & E & ->)]]].
        * exfalso. pose proof (edge_bound f _ _ _ W He) as [B1 B2]. fold n in B1. nia.
        * exfalso. assert (x' < n) by (destruct He as [[[c0 He] _]|[X _]]; [pose proof (edge_bound f _ _ _ W He); unfold n; tauto|auto]). nia.
        * exfalso. pose proof He as He'. apply nth_error_In in He'. apply approx_list_in in He' as (i' & x' & m & Hi' & Hx' & E & _); auto. fold n in E, Hx'. nia.
        * assert (j' = j) by lia. subst j'. rewrite He in Hj. injection Hj as Ex <- <- <-. destruct (level_unique n x' x i' i Hx' Hx Ex) as [-> ->].
          split; auto. destruct (nth_swap j i x Epsilon b' r1 Hx He) as (_ & m & E1 & E2). apply IH1; auto. apply edge_bound in E2; auto. unfold n; tauto.
    - specialize (IH Hq) as [IH1 IH2]. apply approx_edges in He. split.
      + intros i x Hx -> Hi. destruct He as [(i' & x' & y & Hi' & E & -> & He)|[(i' & x' & y & Hi' & E & -> & Hl & He)|[(j & a & r' & He & ->)|(j & i' & x' & b & r' & He & Hi' & Hx' & E & ->)]]].
        * pose proof (edge_bound f _ _ _ W He) as [B1 B2]. destruct (level_unique n x x' i i' Hx B1 E) as [<- <-].
          destruct (IH1 i y B2 eq_refl Hi) as (u & j & tl & H1 & H2 & H3). exists (c :: u), j, tl. split; [eapply leads_step; eauto|]. split; auto. apply e_same; auto.
        * destruct He as [[[c0 He] _]|(Hx' & <- & Ho)].
          -- pose proof (edge_bound f _ _ _ W He) as [B1 B2]. destruct (level_unique n x x' i i' Hx B1 E) as [<- <-].
             specialize (IH1 (S i) y B2 eq_refl Hi'). destruct (N.eq_dec c0 Epsilon) as [->|Hn].
             ++ eapply close_insert; [exists Epsilon; right; split; [exact He|reflexivity]|eapply edge_out; eauto|split; auto|auto].
             ++ destruct IH1 as (u & j & tl & H1 & H2 & H3). exists (c0 :: u), (S j), tl. split; [eapply leads_step; eauto|]. split; [apply e_replace; auto; split; auto|lia].
          -- destruct (level_unique n x x' i i' Hx Hx' E) as [<- <-]. eapply close_insert; [exists Epsilon; left; reflexivity|auto|split; auto|]. apply IH1; auto.
        * destruct (nth_swap j i x a c r' Hx He) as (Hi' & m & E1 & E2).
          destruct (IH2 j i x a c r' He Hi' Hx eq_refl) as [[-> C]|(Hn & w' & -> & C)].
          -- apply close_weak in C. destruct C as (u & k & tl & H1 & H2 & H3). exists (c :: u), k, tl. split; [|split; [apply e_same; auto|auto]].
             eapply leads_eps; [exact E1|]. eapply leads_step; eauto.
          -- destruct C as (u & k & tl & H1 & H2 & H3). exists (a :: c :: u), (S k), tl. split; [|split; [apply e_swap; auto|lia]].
             eapply leads_step; [exact E1|auto|]. eapply leads_step; eauto.
        * exfalso. nia.
      + intros j i x a b r' Hj Hi Hx ->. right. destruct He as [(i' & x' & y & Hi' & E & -> & He)|[(i' & x' & y & Hi' & E & -> & _ & He)|[(j' & a' & r1 & He & ->)|(j' & i' & x' & b' & r1 & He & Hi' & Hx' & E & ->)]]].
        * exfalso. pose proof (edge_bound f _ _ _ W He) as [B1 B2]. fold n in B1. nia.
        * exfalso. assert (x' < n) by (destruct He as [[[c0 He] _]|[X _]]; [pose proof (edge_bound f _ _ _ W He); unfold n; tauto|auto]). nia.
        * exfalso. pose proof He as He'. apply nth_error_In in He'. apply approx_list_in in He' as (i' & x' & m & Hi' & Hx' & E & _); auto. fold n in E, Hx'. nia.
        * assert (j' = j) by lia. subst j'. rewrite He in Hj. injection Hj as Ex <- <- <-. destruct (level_unique n x' x i' i Hx' Hx Ex) as [-> ->].
          split; auto. exists w. split; auto. destruct (nth_swap j i x c b' r1 Hx He) as (_ & m & E1 & E2). apply IH1; auto. apply edge_bound in E2; auto. unfold n; tauto.
  Qed.

  (** ** All words that are close *)
  Lemma path_level : forall i, i <= d -> forall x w y, path (edge f) x w y -> path (edge h) (x + i * n) w (y + i * n).
  Proof.
    intros i Hi x w y H. apply (path_map (edge f) (edge h) (fun x => x + i * n) (fun _ => True)); auto.
    intros p c q _ E. apply approx_edges. left. exists i, p, q. auto.
  Qed.
  Lemma path_out : forall x w y, path (edge f) x w y -> (w <> [] \/ outgoing_letters f y <> []) -> outgoing_letters f x <> [].
  Proof. intros x w y H. destruct H as [p|p q w r He H|p c q w r Hc He H]; intros D; [destruct D; auto; congruence|eapply edge_out; eauto|eapply edge_out; eauto]. Qed.

  Lemma swap_path : forall i x a b q r w, i < d -> x < n -> a <> Epsilon -> b <> Epsilon -> edge f x a q -> edge f q b r -> ~ (r = x /\ q = x) ->
    forall Q, path (edge h) (r + S i * n) w Q -> path (edge h) (x + i * n) (b :: a :: w) Q.
  Proof.
    intros i x a b q r w Hi Hx Ha Hb E1 E2 Hn Q P1.
    assert (I : In (x + i * n, (a, b, r)) (approx_list f d)).
    { apply approx_list_in; auto. exists i, x, q. rewrite <- !edge_plain. auto 10. }
    apply In_nth_error in I as [j Hj]. eapply path_step; [exact Hb| |eapply path_step; [exact Ha| |exact P1]]; apply approx_edges; right; right.
    - left. exists j, a, r. split; [exact Hj|reflexivity].
    - right. exists j, i, x, b, r. sp; auto.
  Qed.

  (** [E]: the edges the word may take; letters can be exchanged where none of them reads
      nothing. *)
  Lemma all_close : forall (E : nat -> N -> nat -> Prop), (forall p c q, E p c q -> edge f p c q) ->
    forall sw tl j u w, edits sw tl j u w -> (sw = true -> forall p q, ~ E p Epsilon q) -> forall i x y, x < n -> i + j <= d ->
    path E x u y -> (tl = true -> outgoing_letters f y <> []) ->
    exists k, k <= i + j /\ path (edge h) (x + i * n) w (y + k * n).
  Proof.
    intros E HE. assert (HP : forall p w q, path E p w q -> path (edge f) p w q) by (apply path_mono; auto).
    assert (HB : forall p c q, E p c q -> q < n) by (intros p c q X; apply HE, edge_bound in X; auto; unfold n; tauto).
    intros sw tl j u w H Hsw. induction H as [|k c u w H IH|k c c' u w Hc H IH|k c' u w Hc Ht H IH|k c u w H IH|k a b u w Hs H IH]; intros i x y Hx Hi L To.
    - exists i. split; [lia|]. apply path_level; [lia|auto].
    - apply path_cons in L as (p & q & H1 & Hc & H2 & L). destruct (IH i q y) as (m & Hm & P1); eauto.
      exists m. split; auto. change (c :: w) with ([] ++ c :: w). eapply path_app; [apply path_level; [lia|apply HP, H1]|]. eapply path_step; [auto| |exact P1].
      apply approx_edges. left. exists i, p, q. sp; auto. lia.
    - apply path_cons in L as (p & q & H1 & Hc0 & H2 & L).
      destruct (In_dec Nat.eq_dec q (row_get (row_at f p) c')) as [D|D].
      + destruct (IH i q y) as (m & Hm & P1); eauto; [lia|]. exists m. split; [lia|]. change (c' :: w) with ([] ++ c' :: w). eapply path_app; [apply path_level; [lia|apply HP, H1]|].
        eapply path_step; [apply Hc| |exact P1]. apply approx_edges. left. exists i, p, q. sp; auto; [lia|]. apply edge_plain. exact D.
      + destruct (IH (S i) q y) as (m & Hm & P1); eauto; [lia|]. exists m. split; [lia|]. change (c' :: w) with ([] ++ c' :: w). eapply path_app; [apply path_level; [lia|apply HP, H1]|].
        eapply path_step; [apply Hc| |exact P1]. apply approx_edges. right. left. exists i, p, q. sp; auto; [lia|apply Hc|]. left. split; [eauto|]. right. rewrite edge_plain. exact D.
    - destruct (IH (S i) x y) as (m & Hm & P1); auto; [lia|]. exists m. split; [lia|]. eapply path_step; [apply Hc| |exact P1].
      apply approx_edges. right. left. exists i, x, x. sp; auto; [lia|apply Hc|]. right. sp; auto.
      eapply path_out; [apply HP, L|]. destruct Ht as [Ht|Ht]; auto.
    - apply path_cons in L as (p & q & H1 & Hc0 & H2 & L).
      destruct (IH (S i) q y) as (m & Hm & P1); eauto; [lia|]. exists m. split; [lia|]. change w with ([] ++ w). eapply path_app; [apply path_level; [|apply HP, H1]; lia|].
      eapply path_eps; [|exact P1]. apply approx_edges. right. left. exists i, p, q. sp; auto; [lia|reflexivity|]. left. split; eauto.
    - specialize (Hsw Hs). apply path_cons in L as (p & q & H1 & Ha & H2 & L). apply path_cons in L as (p' & q' & H1' & Hb & H2' & L).
      assert (E1 : x = p) by (inversion H1; subst; auto; exfalso; eapply Hsw; eauto). assert (E2 : q = p') by (inversion H1'; subst; auto; exfalso; eapply Hsw; eauto). subst p p'.
      destruct (Nat.eq_dec q' x) as [E'|E']; [destruct (Nat.eq_dec q x) as [E''|E'']|].
      + subst q q'. destruct (IH i x y) as (m & Hm & P1); auto; [lia|]. exists m. split; [lia|].
        eapply path_step; [exact Hb| |eapply path_step; [exact Ha| |exact P1]]; apply approx_edges; left; exists i, x, x; sp; auto; lia.
      + destruct (IH (S i) q' y) as (m & Hm & P1); eauto; [lia|]. exists m. split; [lia|]. eapply swap_path with (q := q); eauto; [lia|tauto].
      + destruct (IH (S i) q' y) as (m & Hm & P1); eauto; [lia|]. exists m. split; [lia|]. eapply swap_path with (q := q); eauto; [lia|tauto].
  Qed.

  Theorem approx_only : forall w, accepts h w -> exists u k tl, accepts f u /\ k <= d /\ edits true tl k u w /\ (tl = true -> ends_open f u).
  Proof.
    intros w (Q & P & F). rewrite approx_initial in P. destruct (only_close _ _ _ P F) as [C _].
    destruct (C 0 (initial f)) as (u & k & tl & (x & y & H1 & H2 & H3 & H4) & H5 & H6); [apply W|cbn [Nat.mul]; lia|lia|].
    exists u, k, tl. split; [|split; [auto|split; [auto|]]].
    - exists y. split; auto. rewrite <- (app_nil_r u). eapply path_app; eauto.
    - intros T. exists x, y. auto.
  Qed.
  Theorem approx_all : forall sw tl u k w, accepts f u -> k <= d -> edits sw tl k u w -> (tl = true -> ends_open f u) -> (sw = true -> no_epsilons f) -> accepts h w.
  Proof.
    intros sw tl u k w (y & P & F) Hk H To Hs. destruct tl.
    - destruct (To eq_refl) as (x & z & P1 & Ho & P2 & F2). destruct (all_close (edge f) (fun _ _ _ X => X) _ _ _ _ _ H Hs 0 (initial f) x (wf_init _ W) Hk P1 (fun _ => Ho)) as (m & Hm & P3).
      exists (z + m * n). rewrite approx_initial. cbn [Nat.mul] in P3. rewrite Nat.add_0_r in P3. split.
      + rewrite <- (app_nil_r w). eapply path_app; [exact P3|]. apply path_level; [lia|auto].
      + apply approx_finals. exists m, z. sp; auto. lia.
    - destruct (all_close (edge f) (fun _ _ _ X => X) _ _ _ _ _ H Hs 0 (initial f) y (wf_init _ W) Hk P) as (m & Hm & P3); [discriminate|].
      exists (y + m * n). rewrite approx_initial. cbn [Nat.mul] in P3. rewrite Nat.add_0_r in P3. split; auto.
      apply approx_finals. exists m, y. sp; auto. lia.
  Qed.
End Main.
