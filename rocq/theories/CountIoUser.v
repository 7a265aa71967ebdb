(** Counting scanners that were saved and read back count what they counted. *)
From Coq Require Import List Bool Arith NArith Lia.
From Verif Require Import Util Spec FsmModel Api RunModel RunSpec ScannerModel ScannerProofs ScannerCompile IoBytes ScannerApi CountModel CountSpec CountApi RunProofs CountProofs SimpleProofs LoadedProofs LoadedGlue CountBuild AdvModel CountUser
  NgModel NgApi NgTable NgGlue NgGlued CountIoModel CountIo CountIoOk NgIo NgSem NgRun.
From Verif Require Import IoModel.
Import ListNotations.
Local Open Scope N_scope.

(** ** What is counted depends on the actions only *)
Definition v_run (adv : bool) (i : nat) (acts : list N) : view := fold_left (fun v a => v_take adv i a v) acts (mkView 0 0 false).
Lemma counts_actions : forall adv t w acts i n, actions t (d_initial t) w = Ok acts ->
  (counts adv t w i n <-> (i < 16)%nat /\ n = N.max (v_cur (v_run adv i acts)) (v_tot (v_run adv i acts))).
Proof.
  intros adv t w acts i n E. destruct (steps_count_ok adv t w (c_init t) acts (init_ok t) E) as [st ES].
  destruct (steps_count adv t w _ _ (init_ok t) ES) as (acts' & B1 & _ & B3 & B4). cbn [c_init c_state] in B1. rewrite E in B1. injection B1 as <-. split.
  - intros (st' & E1 & E2). rewrite ES in E1. injection E1 as <-. assert (Hi : (i < 16)%nat).
    { destruct B3 as [B3 _]. rewrite <- B3. apply nth_error_Some. intros X. unfold c_result in E2. rewrite X in E2. discriminate E2. }
    split; auto. pose proof (result_view st i B3 Hi) as RV. rewrite (B4 i Hi), init_view in RV. fold (v_run adv i acts) in RV. rewrite RV in E2. injection E2 as <-. reflexivity.
  - intros [Hi ->]. exists st. split; auto. pose proof (result_view st i B3 Hi) as RV. rewrite (B4 i Hi), init_view in RV. exact RV.
Qed.
Lemma similar_counts : forall s s', table_ok s -> similar s s' -> dplaced s -> dplaced s' -> forall adv w i n, is_word w -> (counts adv s' w i n <-> counts adv s w i n).
Proof.
  intros s s' T S P P' adv w i n Hw. pose proof (sim_init _ _ S) as (q & Hq & I1 & I2).
  destruct (tlive_actions s T P w _ (tinit s T) Hw) as [acts A]. pose proof A as A'. rewrite I1 in A'. rewrite <- (sim_actions s s' T S P P' w q Hq Hw), <- I2 in A'.
  rewrite (counts_actions adv s w acts i n A), (counts_actions adv s' w acts i n A'). reflexivity.
Qed.

Definition at_state (q : N) (st : nstate) : nstate := mkNS q (ns_cur st) (ns_tot st).
Definition rmap {A B} (f : A -> B) (x : res A) : res B := let* a := x in Ok (f a).
Lemma bind_at : forall (f g : nstate -> res nstate) q x, (forall st, g (at_state q st) = rmap (at_state q) (f st)) -> bind (rmap (at_state q) x) g = rmap (at_state q) (bind x f).
Proof. intros f g q x H. destruct x; cbn [rmap bind]; auto. Qed.
Lemma fold_at : forall A (f : nstate -> A -> res nstate) q L st, (forall st x, f (at_state q st) x = rmap (at_state q) (f st x)) -> foldm f L (at_state q st) = rmap (at_state q) (foldm f L st).
Proof. intros A f q L st H. apply (foldm_commute _ _ _ (at_state q) f f). intros s x _. rewrite H. destruct (f s x); reflexivity. Qed.
Lemma reset_at : forall q i st, n_reset i (at_state q st) = rmap (at_state q) (n_reset i st).
Proof. intros. unfold n_reset. cbn [at_state ns_cur ns_tot ns_state]. destruct (_ <? _); reflexivity. Qed.
Lemma incr_at : forall q i st, n_incr i (at_state q st) = rmap (at_state q) (n_incr i st).
Proof. intros. unfold n_incr. cbn [at_state ns_cur ns_tot ns_state]. destruct (_ && _); reflexivity. Qed.
Lemma take_at : forall s a q st, n_take s a (at_state q st) = rmap (at_state q) (n_take s a st).
Proof.
  intros s a q st. unfold n_take. destruct (a =? 0); [reflexivity|]. destruct (n_compat s).
  - unfold n_take_compat. assert (X : (if N.land a ResetMask =? 0 then Ok (at_state q st) else n_resets a (at_state q st)) = rmap (at_state q) (if N.land a ResetMask =? 0 then Ok st else n_resets a st)).
    { destruct (N.land a ResetMask =? 0); [reflexivity|]. unfold n_resets. apply fold_at. intros st0 i. cbn [at_state ns_cur ns_tot ns_state]. destruct (N.testbit a (16 + N.of_nat i)); [|reflexivity].
      destruct (nth_error (ns_cur st0) i) as [c|]; [|reflexivity]. destruct (nth_error (ns_tot st0) i) as [t|]; [|reflexivity]. destruct (c =? 0); reflexivity. }
    rewrite X. apply bind_at. intros st0. destruct (N.land a IncrementMask =? 0); [reflexivity|]. unfold n_increments. apply fold_at. intros st1 i. cbn [at_state ns_cur ns_tot ns_state]. destruct (N.testbit a (N.of_nat i)); [|reflexivity].
    destruct (nth_error (ns_cur st1) i); reflexivity.
  - destruct (n_acts s) as [acts|].
    + destruct (ids_at acts a) as [[rs p]| | |]; cbn [bind]; try reflexivity. rewrite (fold_at _ (fun st i => n_reset i st)) by (intros; apply reset_at). apply bind_at. intros st0.
      destruct (ids_at acts p) as [[is p']| | |]; cbn [bind]; try reflexivity. apply (fold_at _ (fun st i => n_incr i st)). intros. apply incr_at.
    + assert (X : (if N.land a ResetAction =? 0 then Ok (at_state q st) else n_reset 0 (at_state q st)) = rmap (at_state q) (if N.land a ResetAction =? 0 then Ok st else n_reset 0 st)).
      { destruct (N.land a ResetAction =? 0); [reflexivity|apply reset_at]. }
      rewrite X. apply bind_at. intros st0. destruct (N.land a IncrementAction =? 0); [reflexivity|apply incr_at].
Qed.
Definition takes (s : nscanner) (acts : list N) (st : nstate) : res nstate := foldm (fun st a => n_take s a st) acts st.
Lemma steps_takes : forall s w q st acts, actions (n_base s) (ns_state st) w = Ok acts -> rmap (at_state q) (steps (n_ops s) st w) = rmap (at_state q) (takes s acts st).
Proof.
  intros s. induction w as [|c w IH]; intros q st acts A; cbn [actions] in A; [apply ok_inj in A; subst; reflexivity|].
  apply bind_ok in A as ([a1 x] & A1 & A). apply bind_ok in A as (acts' & A2 & A). apply ok_inj in A. subst acts. unfold takes. cbn [steps n_ops o_step foldm]. unfold n_next. rewrite A1. cbn [bind].
  change (mkNS a1 (ns_cur st) (ns_tot st)) with (at_state a1 st). rewrite take_at. destruct (n_take s x st) as [st1| | |] eqn:T; cbn [rmap bind]; try reflexivity.
  specialize (IH q (at_state a1 st1) acts' A2). unfold n_ops in IH |- *. rewrite IH. unfold takes. rewrite (fold_at _ (fun st a => n_take s a st)) by (intros; apply take_at). destruct (foldm _ acts' st1); reflexivity.
Qed.
Lemma takes_same : forall s s' acts st, n_acts s' = n_acts s -> n_compat s' = n_compat s -> takes s' acts st = takes s acts st.
Proof.
  intros s s' acts st E1 E2. assert (X : forall a st, n_take s' a st = n_take s a st) by (intros; unfold n_take; rewrite E1, E2; reflexivity).
  revert st. induction acts as [|a acts IH]; intros st; [reflexivity|]. unfold takes in *. cbn [foldm]. rewrite X. destruct (n_take s a st); cbn [bind]; auto.
Qed.
Lemma ncounts_actions : forall s w acts i n, actions (n_base s) (d_initial (n_base s)) w = Ok acts -> (ncounts s w i n <-> exists st, takes s acts (n_init s) = Ok st /\ n_result st i = Ok n).
Proof.
  intros s w acts i n A. pose proof (steps_takes s w 0 (n_init s) acts A) as H. unfold ncounts. split; intros (st & E & R); rewrite E in H; cbn [rmap bind] in H.
  - destruct (takes s acts (n_init s)) as [st'| | |]; try discriminate H. apply ok_inj in H. exists st'. split; auto. rewrite <- R. unfold n_result. apply (f_equal ns_cur) in H as H1. apply (f_equal ns_tot) in H as H2. cbn [at_state ns_cur ns_tot] in H1, H2. rewrite H1, H2. reflexivity.
  - destruct (steps (n_ops s) (n_init s) w) as [st'| | |]; try discriminate H. apply ok_inj in H. exists st'. split; auto. rewrite <- R. unfold n_result. apply (f_equal ns_cur) in H as H1. apply (f_equal ns_tot) in H as H2. cbn [at_state ns_cur ns_tot] in H1, H2. rewrite H1, H2. reflexivity.
Qed.
Lemma similar_ncounts : forall s s', table_ok (n_base s) -> similar (n_base s) (n_base s') -> n_acts s' = n_acts s -> n_compat s' = n_compat s -> nplaced s -> nplaced s' ->
  forall w i n, is_word w -> (ncounts s' w i n <-> ncounts s w i n).
Proof.
  intros s s' T S E1 E2 P P' w i n Hw. pose proof (sim_init _ _ S) as (q & Hq & I1 & I2).
  destruct (tlive_actions (n_base s) T (proj1 P) w _ (tinit _ T) Hw) as [acts A]. pose proof A as A'. rewrite I1 in A'. rewrite <- (sim_actions _ _ T S (proj1 P) (proj1 P') w q Hq Hw), <- I2 in A'.
  rewrite (ncounts_actions s w acts i n A), (ncounts_actions s' w acts i n A'). rewrite (takes_same s s' acts _ E1 E2).
  assert (NI : n_init s' = at_state (d_initial (n_base s')) (n_init s)) by (unfold n_init, at_state; cbn [ns_cur ns_tot]; unfold n_count; rewrite (sim_count _ _ S); reflexivity). rewrite NI.
  unfold takes. rewrite (fold_at _ (fun st a => n_take s a st)) by (intros; apply take_at). split; intros (st & X & R).
  - destruct (foldm _ acts (n_init s)) as [st'| | |]; cbn [rmap bind] in X; try discriminate X. apply ok_inj in X. subst st. exists st'. auto.
  - rewrite X. cbn [rmap bind]. eexists. split; [reflexivity|]. exact R.
Qed.

(** ** CountingScanner and AdvancedCountingScanner *)
Lemma moved_placed : forall b o s, dplaced s -> droom b s -> dplaced (moved b o s).
Proof. intros b o s [_ P] R. split; [exact R|exact P]. Qed.
Lemma map_room : forall s pad ty ptr size, storable s -> length pad = 4%nat -> ptr + 8 * size < two64 -> N.of_nat (length (img 7 ty pad [] s)) <= size -> droom (ptr + 48) s.
Proof.
  intros s pad ty ptr size S P B Z. unfold img, tables in Z. rewrite !app_length, !Nat2N.inj_add, hdr_length, locals_length, !saved_length, map_length, (so_jlen _ S), (so_llen _ S) in Z by auto.
  unfold droom, state_size. change (N.of_nat 1 * N.of_nat 264) with 264 in Z. change (N.of_nat 8) with 8 in Z. unfold MaxChar. nia.
Qed.
Theorem load_counts : forall buf pad s null throws rest, counting s -> dplaced s -> d_nletters s <= 256 -> d_null s = false -> length pad = 4%nat -> droom buf s ->
  exists x s', d_save pad s = Ok x /\ N.of_nat (length x) mod 8 = 0 /\ d_load buf null (mkStream throws (x ++ rest)) = Ok (s', mkStream throws rest) /\
    counting s' /\ dplaced s' /\ d_count s' = d_count s /\ forall adv w i n, is_word w -> (counts adv s' w i n <-> counts adv s w i n).
Proof.
  intros buf pad s null throws rest C P F NU PL R. pose proof (counting_ok s C) as L. pose proof (loaded_storable s L P F NU) as S.
  pose proof (save_total pad 4 s (dplaced_cells s L P)) as E. exists (img 7 4 pad [] s), (moved buf true s). pose proof (d_load_ok buf pad s _ null throws rest L P F NU PL R E) as EL.
  splits; auto.
  - apply img_length_word; auto.
  - eapply counting_load; eauto.
  - apply moved_placed; auto.
  - apply moved_ok; auto.
  - intros adv w i n Hw. apply similar_counts; auto using strip_ok, moved_placed. apply moved_similar; auto using strip_ok.
Qed.
Theorem mmap_counts : forall m pad s x ptr size, counting s -> dplaced s -> d_nletters s <= 256 -> d_null s = false -> length pad = 4%nat -> d_save pad s = Ok x ->
  holds m ptr x -> ptr mod 8 = 0 -> mappable ptr size -> N.of_nat (length x) <= size ->
  exists s', d_mmap m ptr size = Ok (s', ptr + N.of_nat (length x)) /\
    counting s' /\ dplaced s' /\ d_count s' = d_count s /\ forall adv w i n, is_word w -> (counts adv s' w i n <-> counts adv s w i n).
Proof.
  intros m pad s x ptr size C P F NU PL E H A M Z. pose proof (counting_ok s C) as L. pose proof (loaded_storable s L P F NU) as S.
  exists (moved (ptr + 48) false s). pose proof (d_mmap_ok m pad s x ptr size L P F NU PL E H A M Z) as EM.
  assert (R : droom (ptr + 48) s). { destruct (d_save_what _ _ _ E) as [_ ->]. destruct M as (_ & _ & M). eapply map_room; eauto. }
  splits; auto.
  - eapply counting_mmap; eauto.
  - apply moved_placed; auto.
  - apply moved_ok; auto.
  - intros adv w i n Hw. apply similar_counts; auto using strip_ok, moved_placed. apply moved_similar; auto using strip_ok.
Qed.
Lemma version6_img : forall s pad old, storable s -> length pad = 4%nat -> version6 s old (img 7 4 pad [] s) = img 6 4 pad old s.
Proof.
  intros s pad old S P. unfold version6. cbv zeta. set (k := (312 + 8 * N.to_nat (d_states s * d_nletters s))%nat).
  assert (SP : exists A B, (forall v o, img v 4 pad o s = hdr v 4 ++ A ++ old_part v o ++ B) /\ (24 + length A)%nat = k).
  { exists (loaded_locals pad s ((d_initial s + two64 - d_base s) mod two64) ++ aligned_save_array 1 (d_letters s) ++ aligned_save_array 8 (map jump_word (d_jumps s))), (aligned_save_array 1 (d_tags s)). split.
    - intros v o. unfold img, tables. change (align_save 24) with (@nil N). cbn [app]. rewrite <- !app_assoc. reflexivity.
    - unfold k. apply Nat2N.inj. rewrite !app_length, !Nat2N.inj_add, locals_length, !saved_length, map_length, (so_jlen _ S), (so_llen _ S) by auto.
      change (N.of_nat 1 * N.of_nat 264) with 264. change (padding 264) with 0. change (N.of_nat 8) with 8. rewrite (padding_0 (8 * _)) by (rewrite N.mul_comm; apply N.mod_mul; lia). lia. }
  destruct SP as (A & B & EI & LA). rewrite !EI. unfold old_part. cbn [N.eqb Pos.eqb app].
  assert (FK : firstn k (hdr 7 4 ++ A ++ B) = hdr 7 4 ++ A). { rewrite app_assoc. apply firstn_here. rewrite app_length, hdr_length. exact LA. }
  assert (SK : skipn k (hdr 7 4 ++ A ++ B) = B). { rewrite app_assoc. apply skipn_here. rewrite app_length, hdr_length. exact LA. }
  rewrite FK, SK. unfold hdr. cbn [le app firstn skipn]. rewrite <- !app_assoc. reflexivity.
Qed.
Theorem load_version6 : forall buf pad s null throws rest old x, counting s -> dplaced s -> d_nletters s <= 256 -> d_null s = false -> length pad = 4%nat -> droom buf s ->
  d_save pad s = Ok x -> N.of_nat (length old) = 4 * (d_states s * d_nletters s) ->
  d_load buf null (mkStream throws (version6 s old x ++ rest)) = d_load buf null (mkStream throws (x ++ rest)).
Proof.
  intros buf pad s null throws rest old x C P F NU PL R E O. pose proof (counting_ok s C) as L. pose proof (loaded_storable s L P F NU) as S.
  rewrite (d_load_ok buf pad s x null throws rest L P F NU PL R E). destruct (d_save_what _ _ _ E) as [CE ->]. rewrite version6_img by auto. unfold d_load.
  rewrite load_img; auto. apply room_initial; auto.
Qed.

(** ** NoGlueLimitCountingScanner *)
Theorem n_load_counts : forall this buf pad s Rs null throws rest, nobtained s Rs -> nplaced s -> d_null (n_base s) = false -> n_compat this = false -> length pad = 4%nat -> droom buf (n_base s) ->
  exists x s', n_save pad s = Ok x /\ n_load this buf null (mkStream throws (x ++ rest)) = Ok (s', mkStream throws rest) /\
    nobtained s' Rs /\ nplaced s' /\ forall w i n, is_word w -> (ncounts s' w i n <-> ncounts s w i n).
Proof.
  intros this buf pad s Rs null throws rest O P NU MO PL R. pose proof (nobtained_ok s Rs O) as K. pose proof (nobtained_fits s Rs O) as F. pose proof (ng_small _ _ K) as SM.
  pose proof (n_save_total pad s (dplaced_cells (strip (n_base s)) (ng_table _ _ K) (proj1 P)) (ng_full _ _ K P)) as E.
  pose proof (n_load_ok s pad _ (ng_table _ _ K) P NU ltac:(lia) F (ng_full _ _ K P) PL E this buf null throws rest MO R) as EL.
  eexists. eexists. split; [exact E|]. split; [exact EL|].
  assert (P' : nplaced (mkNG (moved buf true (n_base s)) (n_acts s) false)) by (split; [apply moved_placed; [apply P|exact R]|apply P]).
  split; [eapply nob_load; eauto|]. split; [exact P'|]. apply similar_ncounts; auto; [apply K|apply moved_similar; auto; apply K|symmetry; apply K].
Qed.
Theorem n_mmap_counts : forall m pad s Rs x ptr size, nobtained s Rs -> nplaced s -> d_null (n_base s) = false -> length pad = 4%nat -> n_save pad s = Ok x ->
  holds m ptr x -> ptr mod 8 = 0 -> mappable ptr size -> N.of_nat (length x) <= size ->
  exists s', n_mmap m ptr size = Ok (s', ptr + N.of_nat (length x)) /\
    nobtained s' Rs /\ nplaced s' /\ forall w i n, is_word w -> (ncounts s' w i n <-> ncounts s w i n).
Proof.
  intros m pad s Rs x ptr size O P NU PL E H A M Z. pose proof (nobtained_ok s Rs O) as K. pose proof (nobtained_fits s Rs O) as F. pose proof (ng_small _ _ K) as SM.
  pose proof (n_mmap_ok s pad _ (ng_table _ _ K) P NU ltac:(lia) F (ng_full _ _ K P) PL E m ptr size H A M Z) as EM. eexists. split; [exact EM|].
  assert (R : droom (ptr + 48) (n_base s)).
  { destruct (n_save_what _ _ _ E (ng_full _ _ K P)) as [_ EX]. destruct M as (_ & _ & M). assert (S : storable (n_base s)) by (apply n_storable; auto; [apply K|lia]).
    apply (map_room (n_base s) pad 5 ptr size S PL M). rewrite EX, app_length in Z. lia. }
  assert (P' : nplaced (mkNG (moved (ptr + 48) false (n_base s)) (n_acts s) false)) by (split; [apply moved_placed; [apply P|exact R]|apply P]).
  split; [eapply nob_mmap; eauto|]. split; [exact P'|]. apply similar_ncounts; auto; [apply K|apply moved_similar; auto; apply K|symmetry; apply K].
Qed.

(** ** An image of AdvancedCountingScanner, read by NoGlueLimitCountingScanner *)
Lemma resets_compat : forall n a st, has n st -> (forall i, (i < 16)%nat -> N.testbit a (16 + N.of_nat i) = true -> (i < n)%nat) -> exists st', n_resets a st = Ok st' /\ has n st' /\
  forall i, (i < n)%nat -> (i < 16)%nat -> pair_at i st' = if N.testbit a (16 + N.of_nat i) then (0, N.max (snd (pair_at i st)) (fst (pair_at i st))) else pair_at i st.
Proof.
  intros n a st H B. unfold n_resets.
  assert (X : forall L st, has n st -> NoDup L -> (forall i, In i L -> (i < 16)%nat) -> exists st', foldm (fun st i =>
      if N.testbit a (16 + N.of_nat i) then
        match nth_error (ns_cur st) i, nth_error (ns_tot st) i with
        | Some c, Some t => Ok (if c =? 0 then st else mkNS (ns_state st) (upd i (fun _ => 0) (ns_cur st)) (upd i (fun _ => N.max t c) (ns_tot st)))
        | _, _ => UB
        end
      else Ok st) L st = Ok st' /\ has n st' /\
    forall i, (i < n)%nat -> pair_at i st' = if existsb (Nat.eqb i) L && N.testbit a (16 + N.of_nat i) then (0, N.max (snd (pair_at i st)) (fst (pair_at i st))) else pair_at i st).
  { clear st H. induction L as [|j L IH]; intros st H ND LT; cbn [foldm]; [exists st; auto|]. apply NoDup_cons_iff in ND as [Hn Hnd].
    assert (Y : exists st1, (if N.testbit a (16 + N.of_nat j) then match nth_error (ns_cur st) j, nth_error (ns_tot st) j with
        | Some c, Some t => Ok (if c =? 0 then st else mkNS (ns_state st) (upd j (fun _ => 0) (ns_cur st)) (upd j (fun _ => N.max t c) (ns_tot st))) | _, _ => UB end else Ok st) = Ok st1 /\ has n st1 /\
      forall i, (i < n)%nat -> pair_at i st1 = if Nat.eqb i j && N.testbit a (16 + N.of_nat i) then (0, N.max (snd (pair_at i st)) (fst (pair_at i st))) else pair_at i st).
    { destruct (N.testbit a (16 + N.of_nat j)) eqn:T.
      - pose proof (B j (LT j (or_introl eq_refl)) T) as Hj. destruct H as [H1 H2].
        rewrite (nth_error_nth' (ns_cur st) 0) by lia. rewrite (nth_error_nth' (ns_tot st) 0) by lia. eexists. split; [reflexivity|].
        destruct (N.eqb_spec (nth j (ns_cur st) 0) 0) as [Z|Z].
        + split; [split; auto|]. intros i Hi. destruct (Nat.eqb_spec i j) as [->|]; cbn [andb]; auto. rewrite T. unfold pair_at. cbn [fst snd]. rewrite Z. f_equal. lia.
        + split; [split; cbn [ns_cur ns_tot]; rewrite upd_len; auto|]. intros i Hi. unfold pair_at. cbn [ns_cur ns_tot fst snd]. rewrite !nth_upd by lia. destruct (Nat.eqb_spec i j) as [->|]; cbn [andb].
          * rewrite T, Nat.eqb_refl. reflexivity.
          * destruct (Nat.eqb_spec j i); [congruence|reflexivity].
      - exists st. splits; auto. intros i Hi. destruct (Nat.eqb_spec i j) as [->|]; cbn [andb]; auto. rewrite T. reflexivity. }
    destruct Y as (st1 & E1 & H1 & V1). rewrite E1. cbn [bind]. destruct (IH st1 H1 Hnd (fun i Hi => LT i (or_intror Hi))) as (st' & E2 & H2 & V2). exists st'. splits; auto.
    intros i Hi. rewrite (V2 i Hi), (V1 i Hi). cbn [existsb]. destruct (Nat.eqb_spec i j) as [->|]; cbn [orb andb]; auto.
    assert (E : existsb (Nat.eqb j) L = false). { destruct (existsb (Nat.eqb j) L) eqn:E; auto. apply existsb_exists in E as (x & X1 & X2). apply Nat.eqb_eq in X2. subst. contradiction. }
    rewrite E. reflexivity. }
  destruct (X re_indices st H re_indices_nodup (fun j Hj => proj1 (re_indices_in j) Hj)) as (st' & E & H' & V). exists st'. splits; auto. intros i Hi H16. rewrite (V i Hi).
  replace (existsb (Nat.eqb i) re_indices) with true by (symmetry; apply existsb_exists; exists i; split; [apply re_indices_in; auto|apply Nat.eqb_refl]). reflexivity.
Qed.
Lemma increments_compat : forall n a st, has n st -> (forall i, (i < 16)%nat -> N.testbit a (N.of_nat i) = true -> (i < n)%nat) -> exists st', n_increments a st = Ok st' /\ has n st' /\
  forall i, (i < n)%nat -> (i < 16)%nat -> pair_at i st' = if N.testbit a (N.of_nat i) then ((fst (pair_at i st) + 1) mod two32, snd (pair_at i st)) else pair_at i st.
Proof.
  intros n a st H B. unfold n_increments.
  assert (X : forall L st, has n st -> NoDup L -> (forall i, In i L -> (i < 16)%nat) -> exists st', foldm (fun st i =>
      if N.testbit a (N.of_nat i) then
        match nth_error (ns_cur st) i with
        | Some c => Ok (mkNS (ns_state st) (upd i (fun _ => (c + 1) mod two32) (ns_cur st)) (ns_tot st))
        | None => UB
        end
      else Ok st) L st = Ok st' /\ has n st' /\
    forall i, (i < n)%nat -> pair_at i st' = if existsb (Nat.eqb i) L && N.testbit a (N.of_nat i) then ((fst (pair_at i st) + 1) mod two32, snd (pair_at i st)) else pair_at i st).
  { clear st H. induction L as [|j L IH]; intros st H ND LT; cbn [foldm]; [exists st; auto|]. apply NoDup_cons_iff in ND as [Hn Hnd].
    assert (Y : exists st1, (if N.testbit a (N.of_nat j) then match nth_error (ns_cur st) j with
        | Some c => Ok (mkNS (ns_state st) (upd j (fun _ => (c + 1) mod two32) (ns_cur st)) (ns_tot st)) | None => UB end else Ok st) = Ok st1 /\ has n st1 /\
      forall i, (i < n)%nat -> pair_at i st1 = if Nat.eqb i j && N.testbit a (N.of_nat i) then ((fst (pair_at i st) + 1) mod two32, snd (pair_at i st)) else pair_at i st).
    { destruct (N.testbit a (N.of_nat j)) eqn:T.
      - pose proof (B j (LT j (or_introl eq_refl)) T) as Hj. destruct H as [H1 H2].
        rewrite (nth_error_nth' (ns_cur st) 0) by lia. eexists. split; [reflexivity|].
        split; [split; cbn [ns_cur ns_tot]; rewrite ?upd_len; auto|]. intros i Hi. unfold pair_at. cbn [ns_cur ns_tot fst snd]. rewrite !nth_upd by lia. destruct (Nat.eqb_spec i j) as [->|]; cbn [andb].
        + rewrite T, Nat.eqb_refl. reflexivity.
        + destruct (Nat.eqb_spec j i); [congruence|reflexivity].
      - exists st. splits; auto. intros i Hi. destruct (Nat.eqb_spec i j) as [->|]; cbn [andb]; auto. rewrite T. reflexivity. }
    destruct Y as (st1 & E1 & H1 & V1). rewrite E1. cbn [bind]. destruct (IH st1 H1 Hnd (fun i Hi => LT i (or_intror Hi))) as (st' & E2 & H2 & V2). exists st'. splits; auto.
    intros i Hi. rewrite (V2 i Hi), (V1 i Hi). cbn [existsb]. destruct (Nat.eqb_spec i j) as [->|]; cbn [orb andb]; auto.
    assert (E : existsb (Nat.eqb j) L = false). { destruct (existsb (Nat.eqb j) L) eqn:E; auto. apply existsb_exists in E as (x & X1 & X2). apply Nat.eqb_eq in X2. subst. contradiction. }
    rewrite E. reflexivity. }
  destruct (X re_indices st H re_indices_nodup (fun j Hj => proj1 (re_indices_in j) Hj)) as (st' & E & H' & V). exists st'. splits; auto. intros i Hi H16. rewrite (V i Hi).
  replace (existsb (Nat.eqb i) re_indices) with true by (symmetry; apply existsb_exists; exists i; split; [apply re_indices_in; auto|apply Nat.eqb_refl]). reflexivity.
Qed.
(** The counters of one regexp in the two scanners *)
Definition agrees (v : view) (p : N * N) : Prop := fst p = v_cur v /\ snd p = v_tot v /\ (v_upd v = false -> v_cur v = 0).
Lemma take_compat : forall n a st, (n <= 16)%nat -> has n st -> acts_ok (N.of_nat n) a -> exists st', n_take_compat a st = Ok st' /\ has n st' /\
  forall i v, (i < n)%nat -> agrees v (pair_at i st) -> agrees (v_take true i a v) (pair_at i st').
Proof.
  intros n a st N16 H [_ A].
  assert (X : exists st1, (if N.land a ResetMask =? 0 then Ok st else n_resets a st) = Ok st1 /\ has n st1 /\
    forall i, (i < n)%nat -> pair_at i st1 = if N.testbit a (16 + N.of_nat i) then (0, N.max (snd (pair_at i st)) (fst (pair_at i st))) else pair_at i st).
  { destruct (N.land a ResetMask =? 0) eqn:Z.
    - exists st. splits; auto. intros i Hi. rewrite (testbit_land0 _ _ _ Z (testbit_rst_mask i ltac:(lia))). reflexivity.
    - destruct (resets_compat n a st H) as (st1 & E & H1 & V); [intros i _ T; apply A in T; lia|]. exists st1. splits; auto. intros i Hi. apply V; lia. }
  destruct X as (st1 & E1 & H1 & V1).
  assert (Y : exists st2, (if N.land a IncrementMask =? 0 then Ok st1 else n_increments a st1) = Ok st2 /\ has n st2 /\
    forall i, (i < n)%nat -> pair_at i st2 = if N.testbit a (N.of_nat i) then ((fst (pair_at i st1) + 1) mod two32, snd (pair_at i st1)) else pair_at i st1).
  { destruct (N.land a IncrementMask =? 0) eqn:Z.
    - exists st1. splits; auto. intros i Hi. rewrite (testbit_land0 _ _ _ Z (testbit_inc_mask i ltac:(lia))). reflexivity.
    - destruct (increments_compat n a st1 H1) as (st2 & E & H2 & V); [intros i Hi T; apply A in T; lia|]. exists st2. splits; auto. intros i Hi. apply V; lia. }
  destruct Y as (st2 & E2 & H2 & V2). exists st2. unfold n_take_compat. rewrite E1. cbn [bind]. splits; auto.
  intros i v Hi (G1 & G2 & G3). rewrite (V2 i Hi), (V1 i Hi). unfold v_take. cbn [v_inc v_rst].
  destruct (pair_at i st) as [c t]. cbn [fst snd] in G1, G2. subst c t. unfold v_rst, v_inc, agrees. destruct v as [cur tot up]. cbn [v_cur v_tot v_upd] in *.
  destruct (N.testbit a (16 + N.of_nat i)); destruct (N.testbit a (N.of_nat i)); destruct up; cbn [andb fst snd v_cur v_tot v_upd]; splits; auto; try discriminate; intros; rewrite ?(G3 eq_refl), ?N.max_0_r; auto.
Qed.
Lemma takes_compat : forall s n acts st, n_compat s = true -> (n <= 16)%nat -> has n st -> Forall (acts_ok (N.of_nat n)) acts -> exists st', takes s acts st = Ok st' /\ has n st' /\
  forall i v, (i < n)%nat -> agrees v (pair_at i st) -> agrees (fold_left (fun v a => v_take true i a v) acts v) (pair_at i st').
Proof.
  intros s n acts. induction acts as [|a acts IH]; intros st M N16 H F; [exists st; splits; auto|]. inversion F as [|? ? FA FR]; subst. unfold takes. cbn [foldm].
  destruct (take_compat n a st N16 H FA) as (st1 & E1 & H1 & V1).
  assert (X : exists st1', n_take s a st = Ok st1' /\ has n st1' /\ forall i v, (i < n)%nat -> agrees v (pair_at i st) -> agrees (v_take true i a v) (pair_at i st1')).
  { unfold n_take. rewrite M. destruct (N.eqb_spec a 0) as [->|Z]; [|eauto]. exists st. splits; auto. }
  clear st1 E1 H1 V1. destruct X as (st1 & E1 & H1 & V1). rewrite E1. cbn [bind]. destruct (IH st1 M N16 H1 FR) as (st' & E2 & H2 & V2). exists st'. splits; auto. intros i v Hi G. cbn [fold_left]. apply V2; auto.
Qed.
Lemma compat_moved : forall acts0 buf b s w i n, counting s -> dplaced s -> d_null s = false -> droom buf s -> is_word w -> N.of_nat i < d_count s ->
  (ncounts (mkNG (moved buf b s) acts0 true) w i n <-> counts true s w i n).
Proof.
  intros acts0 buf b s w i n C P NU R Hw Hi. pose proof (counting_ok s C) as L. pose proof (lo_count _ L) as C16. destruct (moved_ok buf b s L NU) as [L' C']. pose proof (moved_placed buf b s P R) as P'.
    destruct (actions_ok _ L' P' w _ (live_init _ L') Hw) as [acts A].
    rewrite <- (similar_counts s (moved buf b s) (strip_ok s L) (moved_similar buf b s (strip_ok s L) NU) P P' true w i n Hw). rewrite (counts_actions true _ w acts i n A).
    set (s' := mkNG (moved buf b s) acts0 true) in *. rewrite (ncounts_actions s' w acts i n A).
    assert (FA : Forall (acts_ok (N.of_nat (N.to_nat (d_count s)))) acts).
    { rewrite N2Nat.id, <- C'. exact (empty_actions _ L' P' w _ acts (live_init _ L') Hw A). }
    assert (H0 : has (N.to_nat (d_count s)) (n_init s')) by (unfold n_init, n_count; cbn [s' n_base]; rewrite C'; split; apply repeat_length).
    destruct (takes_compat s' (N.to_nat (d_count s)) acts (n_init s') eq_refl ltac:(lia) H0 FA) as (st & E1 & [H1 H2] & V).
    destruct (V i (mkView 0 0 false) ltac:(lia)) as (V1 & V2 & _).
    { unfold agrees, pair_at, n_init. cbn [ns_cur ns_tot fst snd v_cur v_tot v_upd]. rewrite !nth_repeat. auto. }
    unfold pair_at in V1, V2. cbn [fst snd] in V1, V2. fold (v_run true i acts) in V1, V2.
    assert (RS : n_result st i = Ok (N.max (v_cur (v_run true i acts)) (v_tot (v_run true i acts)))).
    { unfold n_result. rewrite (nth_error_nth' (ns_cur st) 0) by lia. rewrite (nth_error_nth' (ns_tot st) 0) by lia. rewrite V1, V2. reflexivity. }
    split.
    + intros (st' & X & Y). rewrite E1 in X. apply ok_inj in X. subst st'. rewrite RS in Y. apply ok_inj in Y. split; [lia|auto].
    + intros [_ ->]. exists st. auto.
Qed.
Theorem compat_counts : forall this buf pad s null throws rest, counting s -> dplaced s -> d_nletters s <= 256 -> d_null s = false -> length pad = 4%nat -> droom buf s ->
  exists x s', d_save pad s = Ok x /\ n_load this buf null (mkStream throws (x ++ rest)) = Ok (s', mkStream throws rest) /\ n_count s' = d_count s /\
    forall w i n, is_word w -> N.of_nat i < d_count s -> (ncounts s' w i n <-> counts true s w i n).
Proof.
  intros this buf pad s null throws rest C P F NU PL R. pose proof (counting_ok s C) as L. pose proof (loaded_storable s L P F NU) as S.
  pose proof (save_total pad 4 s (dplaced_cells s L P)) as E. exists (img 7 4 pad [] s), (mkNG (moved buf true s) (n_acts this) true). split; [exact E|]. split; [|split].
  - unfold n_load. rewrite load_img7; auto; [apply dplaced_cells; auto|apply room_initial; auto].
  - apply moved_ok; auto.
  - intros w i n Hw Hi. apply compat_moved; auto.
Qed.
Theorem compat_mmap_counts : forall m pad s x ptr size, counting s -> dplaced s -> d_nletters s <= 256 -> d_null s = false -> length pad = 4%nat -> d_save pad s = Ok x ->
  holds m ptr x -> ptr mod 8 = 0 -> mappable ptr size -> N.of_nat (length x) <= size ->
  exists s', n_mmap m ptr size = Ok (s', ptr + N.of_nat (length x)) /\ n_count s' = d_count s /\
    forall w i n, is_word w -> N.of_nat i < d_count s -> (ncounts s' w i n <-> counts true s w i n).
Proof.
  intros m pad s x ptr size C P F NU PL E H A M Z. pose proof (counting_ok s C) as L. pose proof (loaded_storable s L P F NU) as S.
  assert (R : droom (ptr + 48) s). { destruct (d_save_what _ _ _ E) as [_ ->]. destruct M as (_ & _ & M). eapply map_room; eauto. }
  exists (mkNG (moved (ptr + 48) false s) None true). splits.
  - apply d_save_what in E as [Cl ->]. destruct M as (M1 & M2 & M3). unfold n_mmap. destruct (mmap_img7 m 4 pad s ptr size) as (z & -> & _); auto using states_pos.
  - apply moved_ok; auto.
  - intros w i n Hw Hi. apply compat_moved; auto.
Qed.
