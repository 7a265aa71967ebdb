(** SlowCapturingScanner: what its list of states holds after a text. *)
From Coq Require Import List Bool Arith NArith Lia.
From Verif Require Import Util Spec PartitionModel FsmModel ScannerModel SimpleModel CapModel CapSpec CapTable.
Import ListNotations.
Local Open Scope N_scope.

Lemma land1 : forall a, (N.land a 1 =? 0) = negb (N.testbit a 0).
Proof. intros a. change 1 with (N.ones 1). rewrite N.land_ones. change (2 ^ 1) with 2. rewrite N.bit0_odd, <- N.bit0_mod. rewrite N.bit0_odd. destruct (N.odd a); reflexivity. Qed.
Lemma land2 : forall a, (N.land a 2 =? 0) = negb (N.testbit a 1).
Proof.
  intros a. apply eq_true_iff_eq. rewrite N.eqb_eq, negb_true_iff. split.
  - intros H. assert (X : N.testbit (N.land a 2) 1 = false) by (rewrite H; reflexivity). rewrite N.land_spec in X. change (N.testbit 2 1) with true in X. rewrite andb_true_r in X. exact X.
  - intros H. apply N.bits_inj. intros k. rewrite N.land_spec, N.bits_0. destruct (N.eq_dec k 1) as [->|Hk]; [rewrite H; reflexivity|].
    change 2 with (2 ^ 1). rewrite N.pow2_bits_false by auto. apply andb_false_r.
Qed.
Lemma cap_move_eq : forall cur to a pos, cap_move cur to a pos = mkSingle to (note_begin a pos (g_begin cur)) (note_end a pos (g_end cur)).
Proof.
  intros [q b e] to a pos. unfold cap_move, note_begin, note_end, has_begin, has_end, BeginCapture, EndCapture. rewrite land1, land2, !negb_involutive.
  cbn [g_begin g_end]. unfold set_begin, set_end, single_new. change nowhere with npos. cbn [g_begin g_end g_num].
  destruct (N.testbit a 0), (N.testbit a 1); rewrite N.eqb_refl; cbn [andb g_begin g_end g_num];
    destruct (N.eqb_spec b npos) as [->|]; destruct (N.eqb_spec e npos) as [->|]; cbn [andb negb g_begin g_end g_num]; rewrite ?N.eqb_refl; try reflexivity.
Qed.

Definition nf (used : list bool) : nat := length (filter negb used).
Lemma nf_upd : forall used x, nth_error used x = Some false -> S (nf (upd x (fun _ => true) used)) = nf used.
Proof.
  induction used as [|b used IH]; intros [|x] H; cbn [nth_error] in H; try discriminate.
  - injection H as ->. reflexivity.
  - unfold nf in *. cbn [upd filter]. destruct b; cbn [negb length]; rewrite <- (IH x H); reflexivity.
Qed.
Definition all_of (p : prio) : list single := pr_non p ++ pr_none p ++ pr_greedy p.

Lemma insert_in : forall a acc ins st, In st (all_of (cap_insert a acc ins)) <-> In st (all_of acc) \/ In st (all_of ins).
Proof.
  intros a acc ins st. unfold cap_insert, all_of. destruct (negb (N.land a EndNonGreedyRepetition =? 0)); [|destruct (N.land a EndRepetition =? 0)];
    cbn [pr_non pr_none pr_greedy]; rewrite !in_app_iff; tauto.
Qed.

Section Shows.
  Variables (s : cap) (n : nat) (E : nat -> N -> nat -> Prop) (A0 : nat -> nat -> N) (i : nat) (F : nat -> bool).
  Hypothesis H : cap_shows s n E A0 i F.
  Let A p q := A0 p q mod two32.

  Section Groups.
    Variables (P : single -> Prop) (pos : N).
    Hypothesis Pe : forall st p r, P st -> g_num st = N.of_nat p -> E p Epsilon r -> P (cap_move st (N.of_nat r) (A p r) pos).

    Record grown (used used' : list bool) (new : list single) : Prop := {
      gw_len : length used' = length used;
      gw_mono : forall x, nth_error used x = Some true -> nth_error used' x = Some true;
      gw_new : forall st, In st new -> P st /\ exists x, g_num st = N.of_nat x /\ (x < n)%nat;
      gw_old : forall x, nth_error used' x = Some true -> nth_error used x = Some true \/ exists st, In st new /\ g_num st = N.of_nat x;
      gw_closed : forall st x r, In st new -> g_num st = N.of_nat x -> E x Epsilon r -> nth_error used' r = Some true
    }.
    Lemma grown_refl : forall used, grown used used [].
    Proof. intros used. split; auto; intros; contradiction. Qed.
    Lemma grown_trans : forall u1 u2 u3 l1 l2, grown u1 u2 l1 -> grown u2 u3 l2 -> grown u1 u3 (l1 ++ l2).
    Proof.
      intros u1 u2 u3 l1 l2 G1 G2. split.
      - rewrite (gw_len _ _ _ G2). apply G1.
      - intros x Hx. apply G2, G1, Hx.
      - intros st Hs. apply in_app_iff in Hs. destruct Hs as [Hs|Hs]; [apply (gw_new _ _ _ G1)|apply (gw_new _ _ _ G2)]; auto.
      - intros x Hx. apply (gw_old _ _ _ G2) in Hx. destruct Hx as [Hx|(st & I & X)].
        + apply (gw_old _ _ _ G1) in Hx. destruct Hx as [Hx|(st & I & X)]; auto. right. exists st. rewrite in_app_iff. auto.
        + right. exists st. rewrite in_app_iff. auto.
      - intros st x r Hs Hx Hr. apply in_app_iff in Hs. destruct Hs as [Hs|Hs]; [apply G2; eapply (gw_closed _ _ _ G1)|eapply (gw_closed _ _ _ G2)]; eauto.
    Qed.
    Lemma grown_nf : forall u u' l, grown u u' l -> (nf u' <= nf u)%nat.
    Proof.
      intros u u' l G. destruct G as [L M _ _ _]. unfold nf. revert u' L M. induction u as [|b u IH]; intros [|b' u'] L M; cbn [length] in L; try discriminate; auto.
      assert (X : (length (filter negb u') <= length (filter negb u))%nat) by (apply IH; [lia|intros x Hx; exact (M (S x) Hx)]).
      cbn [filter]. destruct b; [|destruct b'; cbn [negb length]; lia]. specialize (M 0%nat eq_refl). cbn [nth_error] in M. injection M as ->. cbn [negb]. exact X.
    Qed.

    Lemma groups_ok : forall fuel cur q c l used acc, (nf used < fuel)%nat -> length used = n -> g_num cur = N.of_nat q -> (q < n)%nat -> c < MaxChar ->
      cap_translate s c = Ok l -> (forall r, E q c r -> P (cap_move cur (N.of_nat r) (A q r) pos)) ->
      exists acc' used' new, to_groups fuel s cur l pos used acc = Ok (acc', used') /\ grown used used' new /\
        (forall st, In st (all_of acc') <-> In st (all_of acc) \/ In st new) /\ (forall r, E q c r -> nth_error used' r = Some true).
    Proof.
      induction fuel as [|fuel IH]; intros cur q c l used acc Hf Hl Hq Lq Hc Tl Pc; [lia|]. cbn [to_groups]. rewrite Hq.
      destruct (ks_next _ _ _ _ _ _ H c Hc) as (l' & Tl' & X). rewrite Tl in Tl'. injection Tl' as <-. destruct (X q Lq) as (ts & Ets & Its). clear X. rewrite Ets. cbn [bind].
      assert (Hts : forall x a, In (x, a) ts -> exists r, x = N.of_nat r /\ E q c r /\ a = A q r /\ (r < n)%nat).
      { intros x a Hx. apply Its in Hx. destruct Hx as (r & R1 & R2 & R3). exists r. splits; auto. eapply (ks_bound _ _ _ _ _ _ H); eauto. }
      destruct (ks_next _ _ _ _ _ _ H Epsilon ltac:(reflexivity)) as (le & Tle & _).
      match goal with |- context [foldm ?f ts _] => set (stepf := f) end.
      assert (Sf : forall acc used to a, stepf (acc, used) (to, a) = match nth_error used (N.to_nat to) with
          | None => UB
          | Some true => Ok (acc, used)
          | Some false =>
              let* (inside, used2) := to_groups fuel s (cap_move cur to a pos) le pos (upd (N.to_nat to) (fun _ => true) used) prio_new in
              Ok (cap_insert a acc (mkPrio (pr_non inside) (pr_none inside ++ [cap_move cur to a pos]) (pr_greedy inside)), used2)
          end).
      { intros. unfold stepf. rewrite Tle. reflexivity. }
      clearbody stepf.
      assert (G : exists acc' used' new, foldm stepf ts (acc, used) = Ok (acc', used') /\ grown used used' new /\
        (forall st, In st (all_of acc') <-> In st (all_of acc) \/ In st new) /\ (forall x a, In (x, a) ts -> nth_error used' (N.to_nat x) = Some true)).
      { clear Its Ets. revert acc used Hf Hl. induction ts as [|[x a] ts IHt]; intros acc used Hf Hl.
        - exists acc, used, []. splits; auto; [apply grown_refl|intros; cbn [In]; tauto|intros; contradiction].
        - cbn [foldm]. destruct (Hts x a (or_introl eq_refl)) as (r & -> & Er & -> & Lr). rewrite Sf, Nnat.Nat2N.id.
          destruct (nth_error used r) as [b|] eqn:Eu; [|apply nth_error_None in Eu; lia]. destruct b.
          + cbn [bind]. destruct (IHt ltac:(intros; apply Hts; right; auto) acc used Hf Hl) as (acc' & used' & new & R & G & I & U). exists acc', used', new. splits; auto.
            intros y b [[= <- <-]|Hy]; [|eauto]. rewrite Nnat.Nat2N.id. apply G. exact Eu.
          + assert (Pst : P (cap_move cur (N.of_nat r) (A q r) pos)) by (apply Pc; auto).
            assert (Nst : g_num (cap_move cur (N.of_nat r) (A q r) pos) = N.of_nat r) by (rewrite cap_move_eq; reflexivity).
            set (st := cap_move cur (N.of_nat r) (A q r) pos) in *.
            set (used1 := upd r (fun _ => true) used). pose proof (nf_upd used r Eu) as Nu. fold used1 in Nu.
            destruct (IH st r Epsilon le used1 prio_new) as (ins & used2 & new & R & G & I & U); [lia|unfold used1; rewrite upd_length; auto|exact Nst|exact Lr|reflexivity|exact Tle|intros r0 Hr0; apply Pe; auto|].
            rewrite R. cbn [bind].
            assert (G' : grown used used2 (new ++ [st])).
            { split.
              - rewrite (gw_len _ _ _ G). unfold used1. apply upd_length.
              - intros y Hy. apply G. unfold used1. rewrite nth_error_upd, Hy. destruct (Nat.eqb y r); reflexivity.
              - intros t Ht. apply in_app_iff in Ht. destruct Ht as [Ht|[<- | []]]; [apply (gw_new _ _ _ G); auto|]. split; auto. exists r. auto.
              - intros y Hy. apply (gw_old _ _ _ G) in Hy. destruct Hy as [Hy|(t & It & Nt)].
                + unfold used1 in Hy. rewrite nth_error_upd in Hy. destruct (Nat.eqb_spec y r) as [Hyr|]; auto. right. exists st. rewrite in_app_iff, Hyr. cbn [In]. auto.
                + right. exists t. rewrite in_app_iff. auto.
              - intros t y z Ht Ny Ez. apply in_app_iff in Ht. destruct Ht as [Ht|[<- | []]]; [eapply (gw_closed _ _ _ G); eauto|].
                assert (y = r) by (rewrite Nst in Ny; lia). subst y. apply U. exact Ez. }
            match goal with |- context [foldm _ ts (?a, used2)] => set (acc1 := a) end.
            destruct (IHt ltac:(intros; apply Hts; right; auto) acc1 used2) as (acc' & used' & new' & R' & G2 & I' & U').
            { pose proof (grown_nf _ _ _ G'). lia. } { rewrite (gw_len _ _ _ G'). auto. }
            exists acc', used', ((new ++ [st]) ++ new'). splits; auto.
            * eapply grown_trans; eauto.
            * intros t. rewrite I'. unfold acc1. rewrite insert_in.
              assert (Z : In t (all_of {| pr_non := pr_non ins; pr_none := pr_none ins ++ [st]; pr_greedy := pr_greedy ins |}) <-> In t new \/ t = st).
              { unfold all_of. cbn [pr_non pr_none pr_greedy]. rewrite !in_app_iff. cbn [In]. specialize (I t). unfold all_of in I. rewrite !in_app_iff in I. cbn [prio_new pr_non pr_none pr_greedy app In] in I. assert (Y : t = st <-> st = t) by (split; intros; congruence). clear - I Y. tauto. }
              rewrite Z, !in_app_iff. cbn [In]. assert (Y : t = st <-> st = t) by (split; intros; congruence). rewrite Y. clear. tauto.
            * intros y b [[= <- <-]|Hy]; [|eauto]. rewrite Nnat.Nat2N.id. apply G2. apply G. unfold used1. rewrite nth_error_upd, Nat.eqb_refl, Eu. reflexivity. }
      destruct G as (acc' & used' & new & R & G & I & U). exists acc', used', new. splits; auto.
      intros r Hr. rewrite <- (Nnat.Nat2N.id r). eapply U. apply Its. exists r. splits; eauto.
    Qed.
  End Groups.

  (** ** Where a text may end *)
  Lemma after_ok : forall now ts matched, (forall x a, In (x, a) ts -> exists t, x = N.of_nat t /\ (t < n)%nat) ->
    exists r m, cap_after s now ts matched = Ok (r, m) /\
      (m = true <-> matched = true \/ exists t a, In (N.of_nat t, a) ts /\ F t = true) /\
      (r = true <-> now = true /\ exists t a, In (N.of_nat t, a) ts /\ F t = true).
  Proof.
    intros now. induction ts as [|[x a] ts IH]; intros matched Hts; cbn [cap_after].
    - exists false, matched. splits; auto.
      + split; auto. intros [|(t & a & [] & _)]; auto.
      + split; [discriminate|]. intros (_ & t & a & [] & _).
    - destruct (Hts x a (or_introl eq_refl)) as (t & -> & Lt). rewrite (ks_final _ _ _ _ _ _ H t Lt). cbn [bind].
      destruct (F t) eqn:Et.
      + destruct now.
        * exists true, true. splits; auto; split; auto; intros _; [right|split; auto]; exists t, a; split; auto; left; auto.
        * destruct (IH true ltac:(intros; eapply Hts; right; eauto)) as (r & m & R & M & Rr). exists r, m. splits; auto.
          -- rewrite M. split; auto. intros _. right. exists t, a. split; auto. left; auto.
          -- rewrite Rr. split; [intros [X _]; discriminate|intros [X _]; discriminate].
      + destruct (IH matched ltac:(intros; eapply Hts; right; eauto)) as (r & m & R & M & Rr). exists r, m. splits; auto.
        * rewrite M. split; (intros [|(t' & a' & I & Ft)]; [auto|]); right; exists t', a'; split; auto; [right; auto|].
          destruct I as [I|I]; auto. injection I as I _. assert (t' = t) by lia. congruence.
        * rewrite Rr. split; [intros (N1 & t' & a' & I & Ft); split; [auto|]; exists t', a'; split; auto; right; auto|].
          intros (N1 & t' & a' & I & Ft). split; auto. exists t', a'. split; auto. destruct I as [I|I]; auto. injection I as I _. assert (t' = t) by lia. congruence.
  Qed.

  Let fin r := F r = true \/ exists t, E r Epsilon t /\ F t = true.
  Lemma end_ok : forall hb ts matched, (forall x a, In (x, a) ts -> exists t, x = N.of_nat t /\ (t < n)%nat) ->
    exists r m, cap_end s hb ts matched = Ok (r, m) /\
      (m = true <-> matched = true \/ exists t a, In (N.of_nat t, a) ts /\ fin t) /\
      (r = true <-> exists t a, In (N.of_nat t, a) ts /\ fin t /\ hb || negb (N.land a (N.lor BeginCapture EndCapture) =? 0) = true).
  Proof.
    intros hb. induction ts as [|[x a] ts IH]; intros matched Hts; cbn [cap_end].
    - exists false, matched. splits; auto.
      + split; auto. intros [|(t & a & [] & _)]; auto.
      + split; [discriminate|]. intros (t & a & [] & _).
    - destruct (Hts x a (or_introl eq_refl)) as (t & -> & Lt). rewrite (ks_final _ _ _ _ _ _ H t Lt). cbn [bind].
      set (now := hb || negb (N.land a (N.lor BeginCapture EndCapture) =? 0)).
      assert (IH' := fun mt => IH mt ltac:(intros; eapply Hts; right; eauto)). clear IH.
      destruct (F t) eqn:Et.
      + assert (Ht : fin t) by (left; auto). destruct now eqn:En.
        * exists true, true. splits; auto; split; auto; intros _; [right|]; exists t, a; splits; auto; left; auto.
        * destruct (IH' true) as (r & m & R & M & Rr). exists r, m. splits; auto.
          -- rewrite M. split; auto. intros _. right. exists t, a. split; auto. left; auto.
          -- rewrite Rr. split; intros (t' & a' & I & Ft & Nt); exists t', a'; splits; auto; [right; auto|].
             destruct I as [I|I]; auto. injection I as I <-. unfold now in En. congruence.
      + destruct (ks_next _ _ _ _ _ _ H Epsilon ltac:(reflexivity)) as (le & Tle & X). rewrite Tle. cbn [bind]. destruct (X t Lt) as (es & Ees & Ies). rewrite Ees. cbn [bind].
        destruct (after_ok now es matched) as (r1 & m1 & R1 & M1 & Rr1).
        { intros y b Hy. apply Ies in Hy. destruct Hy as (z & -> & Ez & _). exists z. split; auto. eapply (ks_bound _ _ _ _ _ _ H); eauto. }
        rewrite R1. cbn [bind].
        assert (Ft : (exists t' a', In (N.of_nat t', a') es /\ F t' = true) <-> fin t).
        { unfold fin. rewrite Et. split.
          - intros (z & b & Iz & Fz). apply Ies in Iz. destruct Iz as (z' & Z & Ez & _). apply Nnat.Nat2N.inj in Z. subst z'. right. eauto.
          - intros [Y|(z & Ez & Fz)]; [discriminate|]. exists z, (A0 t z mod two32). split; auto. apply Ies. exists z. auto. }
        rewrite Ft in M1, Rr1. destruct r1.
        * exists true, m1. destruct (proj1 Rr1 eq_refl) as [N1 F1]. splits; auto.
          -- rewrite M1. split; [|auto]. intros _. right. exists t, a. split; auto. left; auto.
          -- split; auto. intros _. exists t, a. splits; auto. left; auto.
        * destruct (IH' m1) as (r & m & R & M & Rr). exists r, m. splits; auto.
          -- rewrite M, M1. split; [intros [[|Y]|(t' & a' & I & Y)]; auto; right|intros [|(t' & a' & [I|I] & Y)]; auto].
             ++ exists t, a. split; auto. left; auto.
             ++ exists t', a'. split; auto. right; auto.
             ++ injection I as I _. apply Nnat.Nat2N.inj in I. subst t'. auto.
             ++ right. exists t', a'. auto.
          -- rewrite Rr. split; intros (t' & a' & I & Y & Nt); exists t', a'; splits; auto; [right; auto|].
             destruct I as [I|I]; auto. injection I as I <-. apply Nnat.Nat2N.inj in I. subst t'. exfalso. assert (Z : false = true) by (apply Rr1; split; auto). discriminate.
  Qed.

  Lemma captured_ok : forall st q, g_num st = N.of_nat q -> (q < n)%nat -> exists r m, captured s st = Ok (r, m) /\
    (m = true <-> ends E F q) /\
    (r = true -> m = true /\ (has_begin st = true \/ exists t, E q EndMark t /\ negb (N.land (A q t) (N.lor BeginCapture EndCapture) =? 0) = true)) /\
    (m = true -> has_begin st = true -> r = true).
  Proof.
    intros st q Hq Lq. unfold captured. rewrite Hq, (ks_final _ _ _ _ _ _ H q Lq). cbn [bind].
    destruct (F q && has_begin st) eqn:Eb.
    - apply andb_true_iff in Eb. destruct Eb as [Fq Hb]. exists true, true. splits; auto. split; auto. intros _. left; auto.
    - destruct (ks_next _ _ _ _ _ _ H EndMark ltac:(reflexivity)) as (le & Tle & X). rewrite Tle. cbn [bind]. destruct (X q Lq) as (es & Ees & Ies). rewrite Ees. cbn [bind].
      destruct (end_ok (has_begin st) es (F q)) as (r & m & R & M & Rr).
      { intros y b Hy. apply Ies in Hy. destruct Hy as (z & -> & Ez & _). exists z. split; auto. eapply (ks_bound _ _ _ _ _ _ H); eauto. }
      assert (Fe : (exists t a, In (N.of_nat t, a) es /\ fin t) <-> exists t, E q EndMark t /\ fin t).
      { split.
        - intros (z & b & Iz & Fz). apply Ies in Iz. destruct Iz as (z' & Z & Ez & _). apply Nnat.Nat2N.inj in Z. subst z'. eauto.
        - intros (z & Ez & Fz). exists z, (A0 q z mod two32). split; auto. apply Ies. exists z. auto. }
      exists r, m. splits; auto.
      + rewrite M, Fe. reflexivity.
      + intros Hr. apply Rr in Hr. destruct Hr as (t & a & I & Ft & Hn). split; [apply M; right; eauto|]. apply orb_true_iff in Hn. destruct Hn as [|Hn]; auto.
        right. apply Ies in I. destruct I as (z' & Z & Ez & Ea). apply Nnat.Nat2N.inj in Z. subst z' a. exists t. split; auto.
      + intros Hm Hb. apply Rr. apply M in Hm. rewrite Hb in Eb. rewrite andb_true_r in Eb. destruct Hm as [Hm|(t & a & I & Ft)]; [congruence|].
        exists t, a. splits; auto. rewrite Hb. reflexivity.
  Qed.

  Definition in_range (st : single) : Prop := exists q, g_num st = N.of_nat q /\ (q < n)%nat.
  Definition stops (st : single) : Prop := exists q, g_num st = N.of_nat q /\ ends E F q.

  Lemma matched_ok : forall st, in_range st -> exists m, cap_matched s st = Ok m /\ (m = true <-> stops st).
  Proof.
    intros st (q & Hq & Lq). destruct (captured_ok st q Hq Lq) as (r & m & R & M & _). exists m. unfold cap_matched. rewrite R. split; auto. rewrite M. split.
    - intros; exists q; auto.
    - intros (q' & Hq' & X). assert (q' = q) by (rewrite Hq in Hq'; lia). subst; auto.
  Qed.

  Lemma push_ok : forall l nl, Forall in_range l -> exists nl' l1, push_states s l nl = Ok nl' /\ cs_pos nl' = cs_pos nl /\ cs_states nl' = cs_states nl ++ l1 /\ incl l1 l /\
    ((l1 = l /\ cs_match nl' = cs_match nl /\ Forall (fun st => ~ stops st) l) \/ exists st, In st l1 /\ stops st /\ cs_match nl' = Some st).
  Proof.
    induction l as [|st l IH]; intros nl Hl; cbn [push_states].
    - exists nl, []. rewrite app_nil_r. splits; auto; try (intros ? []). 
    - inversion Hl; subst. destruct (matched_ok st ltac:(auto)) as (m & Em & Im). rewrite Em. cbn [bind]. destruct m.
      + eexists _, [st]. split; [reflexivity|]. cbn [cs_pos cs_states cs_match]. splits; auto; [intros ? [<- | []]; left; auto|].
        right. exists st. splits; auto; [left; auto|apply Im; auto].
      + destruct (IH (mkState (cs_states nl ++ [st]) (cs_pos nl) (cs_match nl)) ltac:(auto)) as (nl' & l1 & R & P1 & S1 & I1 & D). exists nl', (st :: l1).
        cbn [cs_pos cs_states cs_match] in P1, S1, D. rewrite <- app_assoc in S1. splits; auto.
        * intros x [<-|Hx]; [left; auto|right; auto].
        * destruct D as [(-> & M & Fa)|(t & It & St & Mt)]; [left|right; exists t; splits; auto; right; auto]. splits; auto. constructor; auto. intros X. apply Im in X. discriminate.
  Qed.

  (** ** The states after a text *)
  Definition runs (w : list N) (st : single) : Prop := exists q, g_num st = N.of_nat q /\ reach E A i w q (g_begin st) (g_end st).
  Record kinv (w : list N) (cl : cstate) : Prop := {
    ki_pos : cs_pos cl = N.of_nat (length w);
    ki_sound : forall st, In st (cs_states cl) -> runs w st /\ in_range st;
    ki_match : forall st, cs_match cl = Some st -> exists u v, w = u ++ v /\ runs u st /\ stops st;
    ki_complete : cs_match cl = None -> (forall q b e, reach E A i w q b e -> exists st, In st (cs_states cl) /\ g_num st = N.of_nat q) /\
      forall st, In st (cs_states cl) -> ~ stops st;
    ki_last : (forall q c, c < MaxChar -> ends E F q -> E q c q) -> cs_match cl <> None -> exists st, In st (cs_states cl) /\ stops st
  }.

  Lemma runs_eps : forall w st p r, runs w st -> g_num st = N.of_nat p -> E p Epsilon r -> runs w (cap_move st (N.of_nat r) (A p r) (N.of_nat (length w))).
  Proof.
    intros w st p r (q & Hq & R) Hp Er. assert (q = p) by (rewrite Hp in Hq; lia). subst q. rewrite cap_move_eq. exists r. split; auto. cbn [g_begin g_end]. apply reach_eps; auto.
  Qed.
  Lemma runs_step : forall w st p c r, runs w st -> g_num st = N.of_nat p -> E p c r -> runs (w ++ [c]) (cap_move st (N.of_nat r) (A p r) (N.of_nat (length w) + 1)).
  Proof.
    intros w st p c r (q & Hq & R) Hp Er. assert (q = p) by (rewrite Hp in Hq; lia). subst q. rewrite cap_move_eq. exists r. split; auto. cbn [g_begin g_end]. apply reach_step; auto.
  Qed.
  Lemma stops_at : forall st q, g_num st = N.of_nat q -> (stops st <-> ends E F q).
  Proof. intros st q Hq. split; [|intros; exists q; auto]. intros (q' & Hq' & X). assert (q' = q) by (rewrite Hq in Hq'; lia). subst; auto. Qed.
  Lemma nf_repeat : forall k, nf (repeat false k) = k.
  Proof. induction k; auto. unfold nf in *. cbn [repeat filter negb length]. auto. Qed.
  Lemma nf_le : forall u, (nf u <= length u)%nat.
  Proof. unfold nf. induction u as [|b u IH]; cbn [filter length]; auto. destruct b; cbn [negb length]; lia. Qed.
  Lemma unused : forall k x, nth_error (repeat false k) x <> Some true.
  Proof. intros k x X. apply nth_error_In, repeat_spec in X. discriminate. Qed.

  Definition used0 : list bool := repeat false (N.to_nat (k_states s)).
  Lemma used0_len : length used0 = n.
  Proof. unfold used0. rewrite repeat_length, (ks_states _ _ _ _ _ _ H), Nnat.Nat2N.id. reflexivity. Qed.

  (** While the states of the new list are collected. *)
  Record collects (P : single -> Prop) (pos : N) (m0 : option single) (nl : cstate) (used : list bool) (new : list single) : Prop := {
    co_grown : grown P used0 used new;
    co_pos : cs_pos nl = pos;
    co_incl : incl (cs_states nl) new;
    co_match : forall st, cs_match nl = Some st -> m0 = Some st \/ (In st new /\ stops st);
    co_none : cs_match nl = None -> m0 = None /\ incl new (cs_states nl) /\ forall st, In st new -> ~ stops st;
    co_last : (exists st, In st new /\ stops st) -> exists st, In st (cs_states nl) /\ stops st
  }.
  Lemma collects_push : forall P pos m0 nl used new used' new' l,
    collects P pos m0 nl used new -> grown P used used' new' -> (forall st, In st l <-> In st new') ->
    exists nl', push_states s l nl = Ok nl' /\ collects P pos m0 nl' used' (new ++ new').
  Proof.
    intros P pos m0 nl used new used' new' l C G I. destruct (push_ok l nl) as (nl' & l1 & R & P1 & S1 & I1 & D).
    { apply Forall_forall. intros st Hst. apply I in Hst. apply (gw_new _ _ _ _ G) in Hst. destruct Hst as (_ & x & X). exists x; auto. }
    exists nl'. split; auto. split.
    - eapply grown_trans; [apply C|apply G].
    - rewrite P1. apply C.
    - rewrite S1. intros st Hst. apply in_app_iff in Hst. apply in_app_iff. destruct Hst as [Hst|Hst]; [left; apply C; auto|right; apply I, I1, Hst].
    - intros st Hst. destruct D as [(-> & M & Fa)|(t & It & St & Mt)].
      + rewrite M in Hst. apply (co_match _ _ _ _ _ _ C) in Hst. destruct Hst as [|[? ?]]; auto. right. rewrite in_app_iff. auto.
      + rewrite Mt in Hst. injection Hst as <-. right. rewrite in_app_iff. split; auto. right. apply I, I1, It.
    - intros Hn. destruct D as [(-> & M & Fa)|(t & It & St & Mt)]; [|congruence]. rewrite M in Hn. destruct (co_none _ _ _ _ _ _ C Hn) as (N1 & N2 & N3). splits; auto.
      + rewrite S1. intros st Hst. apply in_app_iff in Hst. apply in_app_iff. destruct Hst as [Hst|Hst]; [left; apply N2, Hst|right; apply I, Hst].
      + intros st Hst. apply in_app_iff in Hst. destruct Hst as [Hst|Hst]; [apply N3, Hst|]. rewrite Forall_forall in Fa. apply Fa, I, Hst.
    - intros (st & Hst & X). apply in_app_iff in Hst. rewrite S1. setoid_rewrite in_app_iff. destruct Hst as [Hst|Hst].
      + destruct (co_last _ _ _ _ _ _ C ltac:(exists st; auto)) as (t & It & St). exists t. auto.
      + destruct D as [(-> & M & Fa)|(t & It & St & Mt)]; [|exists t; auto]. rewrite Forall_forall in Fa. exfalso. apply (Fa st); auto. apply I; auto.
  Qed.

  Lemma fuel_ok : forall u, length u = n -> (nf u < groups_fuel s)%nat.
  Proof. intros u Hu. unfold groups_fuel. rewrite (ks_states _ _ _ _ _ _ H), Nnat.Nat2N.id. pose proof (nf_le u). lia. Qed.
  Lemma reach_bound : forall w q b e, reach E A i w q b e -> (q < n)%nat.
  Proof. intros w q b e R. destruct R; eapply (ks_bound _ _ _ _ _ _ H); eauto. Qed.

  Lemma kinv_collect : forall w m0 nl used new,
    (forall st, m0 = Some st -> exists u v, w = u ++ v /\ runs u st /\ stops st) ->
    collects (runs w) (N.of_nat (length w)) m0 nl used new ->
    (m0 = None -> forall q b e, reach E A i w q b e -> nth_error used q = Some true) ->
    ((forall q c, c < MaxChar -> ends E F q -> E q c q) -> m0 <> None -> exists st, In st new /\ stops st) ->
    kinv w nl.
  Proof.
    intros w m0 nl used new Hm C Hc Hl. pose proof (co_grown _ _ _ _ _ _ C) as G. split.
    - apply C.
    - intros st Hst. apply (co_incl _ _ _ _ _ _ C) in Hst. apply (gw_new _ _ _ _ G) in Hst. exact Hst.
    - intros st Hst. apply (co_match _ _ _ _ _ _ C) in Hst. destruct Hst as [Hst|[Hst Ss]]; auto. exists w, []. rewrite app_nil_r. splits; auto. apply (gw_new _ _ _ _ G), Hst.
    - intros Hn. destruct (co_none _ _ _ _ _ _ C Hn) as (N1 & N2 & N3). split.
      + intros q b e R. apply Hc in R; auto. apply (gw_old _ _ _ _ G) in R. destruct R as [R|(st & I & X)]; [exfalso; eapply unused; eauto|]. exists st. split; auto.
      + intros st Hst. apply N3, (co_incl _ _ _ _ _ _ C), Hst.
    - intros L Hn. apply (co_last _ _ _ _ _ _ C). destruct (cs_match nl) as [st|] eqn:Em; [|congruence]. destruct (co_match _ _ _ _ _ _ C st Em) as [M|[I X]]; [|eauto].
      apply Hl; auto. congruence.
  Qed.

  Hypothesis H0 : forall r, E 0%nat BeginMark r -> i = 0%nat.

  Lemma initialize_ok : exists cl, cap_initialize s = Ok cl /\ kinv [] cl.
  Proof.
    unfold cap_initialize. fold used0. destruct (ks_next _ _ _ _ _ _ H BeginMark ltac:(reflexivity)) as (lb & Tb & _). rewrite Tb. cbn [bind].
    destruct (ks_init _ _ _ _ _ _ H) as [Si Li]. rewrite Si.
    assert (Pe : forall st p r, runs [] st -> g_num st = N.of_nat p -> E p Epsilon r -> runs [] (cap_move st (N.of_nat r) (A p r) 0)) by (intros; apply runs_eps; auto).
    assert (Ps : forall r, E i BeginMark r -> runs [] (cap_move (single_new (N.of_nat i)) (N.of_nat r) (A i r) 0)).
    { intros r Hr. rewrite cap_move_eq. exists r. split; auto. cbn [g_begin g_end single_new]. apply (reach_start E A i r Hr). }
    destruct (groups_ok (runs []) 0 Pe (groups_fuel s) (single_new (N.of_nat i)) i BeginMark lb used0 prio_new) as (p1 & u1 & new1 & R1 & G1 & I1 & U1); auto.
    { apply fuel_ok, used0_len. } { apply used0_len. } { reflexivity. }
    rewrite R1. cbn [bind].
    destruct (groups_ok (runs []) 0 Pe (groups_fuel s) (single_new 0) 0 BeginMark lb u1 p1) as (p2 & u2 & new2 & R2 & G2 & I2 & U2); auto.
    { apply fuel_ok. rewrite (gw_len _ _ _ _ G1). apply used0_len. } { rewrite (gw_len _ _ _ _ G1). apply used0_len. } { lia. } { reflexivity. }
    { intros r Hr. pose proof (H0 r Hr) as Ei. change (single_new 0) with (single_new (N.of_nat 0)). rewrite <- Ei in Hr |- *. apply Ps. exact Hr. }
    rewrite R2. cbn [bind]. unfold update_nlist. fold (all_of p2).
    destruct (collects_push (runs []) 0 None cstate_new used0 [] u2 (new1 ++ new2) (all_of p2)) as (nl & R & C).
    { split; cbn [cs_pos cs_states cs_match cstate_new]; auto; try discriminate.
      - apply grown_refl.
      - intros ? [].
      - intros _. splits; auto; intros ? []. }
    { eapply grown_trans; eauto. }
    { intros st. rewrite I2, I1, in_app_iff. cbn [prio_new all_of pr_non pr_none pr_greedy app In]. tauto. }
    rewrite R. eexists. split; [reflexivity|]. cbn [app] in C. eapply kinv_collect; [|exact C| |].
    - discriminate.
    - intros _. assert (Z : forall w q b e, reach E A i w q b e -> w = [] -> nth_error u2 q = Some true); [|intros q b e X; exact (Z [] q b e X eq_refl)].
      intros w q b e X. induction X as [q Hq|w p b e q X IH Hq|w p b e c q X IH Hq]; intros Ew.
      + apply G2. apply U1. exact Hq.
      + specialize (IH Ew). apply (gw_old _ _ _ _ (co_grown _ _ _ _ _ _ C)) in IH. destruct IH as [IH|(st & Is & Ns)]; [exfalso; eapply unused; eauto|].
        eapply (gw_closed _ _ _ _ (co_grown _ _ _ _ _ _ C)); eauto.
      + destruct w; discriminate.
    - intros _ X. congruence.
  Qed.

  Lemma next_ok : forall w cl c, kinv w cl -> c < MaxChar -> N.of_nat (length w) + 1 < two64 -> exists cl', cap_next s cl c = Ok cl' /\ kinv (w ++ [c]) cl'.
  Proof.
    intros w cl c K Hc Lw. unfold cap_next. destruct (ks_next _ _ _ _ _ _ H c Hc) as (l & Tl & _). rewrite Tl. cbn [bind].
    unfold cap_next_translated. cbv zeta. rewrite (ki_pos _ _ K), N.mod_small by auto. fold used0.
    assert (Lp : N.of_nat (length w) + 1 = N.of_nat (length (w ++ [c]))) by (rewrite app_length; cbn [length]; lia).
    assert (Pe : forall st p r, runs (w ++ [c]) st -> g_num st = N.of_nat p -> E p Epsilon r -> runs (w ++ [c]) (cap_move st (N.of_nat r) (A p r) (N.of_nat (length w) + 1))).
    { rewrite Lp. intros; apply runs_eps; auto. }
    match goal with |- context [foldm ?g _ _] => set (stepf := g) end.
    assert (L : forall L nl used new, (forall st, In st L -> runs w st /\ in_range st) -> collects (runs (w ++ [c])) (N.of_nat (length w) + 1) (cs_match cl) nl used new ->
      exists nl' used' new', foldm stepf L (nl, used) = Ok (nl', used') /\ collects (runs (w ++ [c])) (N.of_nat (length w) + 1) (cs_match cl) nl' used' new' /\
        (forall x, nth_error used x = Some true -> nth_error used' x = Some true) /\
        (forall st q r, In st L -> g_num st = N.of_nat q -> E q c r -> nth_error used' r = Some true)).
    { induction L as [|st L IH]; intros nl used new HL C; cbn [foldm].
      - exists nl, used, new. splits; auto. intros ? ? ? [].
      - destruct (HL st (or_introl eq_refl)) as (Rs & q & Hq & Lq). pose proof (co_grown _ _ _ _ _ _ C) as G0.
        assert (Lu : length used = n) by (rewrite (gw_len _ _ _ _ G0); apply used0_len).
        destruct (groups_ok (runs (w ++ [c])) (N.of_nat (length w) + 1) Pe (groups_fuel s) st q c l used prio_new) as (p1 & u1 & new1 & R1 & G1 & I1 & U1); auto.
        { apply fuel_ok, Lu. } { intros r Hr. apply runs_step; auto. }
        destruct (collects_push _ _ _ nl used new u1 new1 (all_of p1) C G1) as (nl1 & R2 & C1).
        { intros t. rewrite I1. cbn [prio_new all_of pr_non pr_none pr_greedy app In]. tauto. }
        assert (Es : stepf (nl, used) st = Ok (nl1, u1)) by (unfold stepf; rewrite R1; cbn [bind]; unfold update_nlist; fold (all_of p1); rewrite R2; reflexivity).
        rewrite Es. cbn [bind]. destruct (IH nl1 u1 (new ++ new1) ltac:(intros; apply HL; right; auto) C1) as (nl' & used' & new' & R3 & C3 & M3 & U3).
        exists nl', used', new'. splits; auto.
        + intros x Hx. apply M3, G1, Hx.
        + intros t y r [<-|Ht] Ny Er; [|eapply U3; eauto]. assert (y = q) by (rewrite Hq in Ny; lia). subst y. apply M3, U1, Er. }
    destruct (L (cs_states cl) (mkState [] (N.of_nat (length w) + 1) (cs_match cl)) used0 []) as (nl & used & new & R & C & _ & U).
    { apply K. }
    { split; cbn [cs_pos cs_states cs_match]; auto.
      - apply grown_refl.
      - intros ? [].
      - intros Hn. splits; auto; intros ? []. }
    rewrite R. cbn [bind]. exists nl. split; auto. rewrite Lp in C. pose proof (co_grown _ _ _ _ _ _ C) as G.
    eapply kinv_collect; [|exact C| |].
    - intros st Hst. apply (ki_match _ _ K) in Hst. destruct Hst as (u & v & -> & X). exists u, (v ++ [c]). rewrite app_assoc. auto.
    - intros Hn q b e X. destruct (ki_complete _ _ K Hn) as [Kc _]. revert X. assert (Z : forall w' q b e, reach E A i w' q b e -> w' = w ++ [c] -> nth_error used q = Some true); [|intros X; exact (Z _ q b e X eq_refl)].
      clear q b e. intros w' q b e X. induction X as [q Hq|w' p b e q X IH Hq|w' p b e c' q X IH Hq]; intros Ew.
      + symmetry in Ew. apply app_eq_nil in Ew. destruct Ew; discriminate.
      + specialize (IH Ew). apply (gw_old _ _ _ _ G) in IH. destruct IH as [IH|(st & Is & Ns)]; [exfalso; eapply unused; eauto|].
        eapply (gw_closed _ _ _ _ G); eauto.
      + apply app_inj_tail in Ew. destruct Ew as [-> ->]. destruct (Kc p b e X) as (st & Is & Ns). eapply U; eauto.
    - intros Lo Hm. destruct (ki_last _ _ K Lo Hm) as (st & Is & q & Nq & Eq). assert (X : nth_error used q = Some true) by (eapply U; eauto).
      apply (gw_old _ _ _ _ G) in X. destruct X as [X|(t & It & Nt)]; [exfalso; eapply unused; eauto|]. exists t. split; auto. exists q. auto.
  Qed.

  Lemma steps_ok : forall v w cl, kinv w cl -> Forall (fun c => c < MaxChar) v -> N.of_nat (length (w ++ v)) < two64 -> exists cl', foldm (cap_next s) v cl = Ok cl' /\ kinv (w ++ v) cl'.
  Proof.
    induction v as [|c v IH]; intros w cl K Hv Lv; cbn [foldm].
    - exists cl. rewrite app_nil_r. auto.
    - inversion Hv; subst. rewrite app_length in Lv. cbn [length] in Lv. destruct (next_ok w cl c K) as (cl1 & R1 & K1); auto; [lia|]. rewrite R1. cbn [bind].
      destruct (IH (w ++ [c]) cl1 K1) as (cl' & R & K'); auto; [rewrite !app_length; cbn [length]; lia|]. exists cl'. rewrite <- app_assoc in K'. auto.
  Qed.
  Lemma run_ok : forall w, Forall (fun c => c < MaxChar) w -> N.of_nat (length w) < two64 -> exists cl, cap_run s w = Ok cl /\ kinv w cl.
  Proof.
    intros w Hw Lw. unfold cap_run. destruct initialize_ok as (cl & R & K). rewrite R. cbn [bind]. destruct (steps_ok w [] cl K Hw Lw) as (cl' & R' & K'). exists cl'. auto.
  Qed.

  Lemma first_ok : forall l, Forall in_range l -> exists r, first_matched s l = Ok r /\
    match r with
    | None => Forall (fun st => ~ stops st) l
    | Some (ans, st) => In st l /\ stops st /\ exists m, captured s st = Ok (ans, m)
    end.
  Proof.
    induction l as [|st l IH]; intros Hl; cbn [first_matched].
    - exists None. split; auto.
    - inversion Hl as [|? ? (q & Hq & Lq) Hl']; subst. destruct (captured_ok st q Hq Lq) as (r & m & R & M & _). rewrite R. cbn [bind]. destruct m.
      + exists (Some (r, st)). splits; auto; [left; auto|exists q; split; auto; apply M; auto|eauto].
      + destruct (IH Hl') as (r' & R' & X). exists r'. split; auto. destruct r' as [[ans t]|]; [destruct X as (X1 & X2 & X3); splits; auto; right; auto|].
        constructor; auto. rewrite (stops_at st q Hq), <- M. discriminate.
  Qed.
End Shows.
