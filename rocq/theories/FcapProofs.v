(** CapturingScanner: its table, the language, and what is noted. *)
From Coq Require Import List Bool Arith NArith Lia.
From Verif Require Import Util Spec PartitionModel PartitionProofs FsmModel DetermineModel MinimizeModel FsmSem FsmBasics FsmOps FsmOps2 EpsProofs DetGeneric DetProofs MinProofs Nfa CompProofs
  ScannerModel ScannerProofs ScannerCompile RunModel RunSpec CountModel CountSpec CountProofs LoadedProofs CountBuild SimpleProofs FcapModel FcapSpec.
Import ListNotations.
Local Opaque all_letters all_bytes.

(** ** Tags through Canonize *)
Definition untagged (f : fsm) : Prop := tags f = [].
Lemma unt_fold : forall A (g : fsm -> A -> fsm) l f, (forall h x, untagged h -> untagged (g h x)) -> untagged f -> untagged (fold_left g l f).
Proof. intros A g l. induction l as [|x l IH]; intros f H B; cbn [fold_left]; auto. Qed.
Lemma unt_fold2 : forall A B (g : fsm * B -> A -> fsm * B) l f, (forall h x, untagged (fst h) -> untagged (fst (g h x))) -> untagged (fst f) -> untagged (fst (fold_left g l f)).
Proof. intros A B g l. induction l as [|x l IH]; intros f H Hb; cbn [fold_left]; auto. Qed.
Lemma unt_shortcut : forall from thru acc, untagged (fst acc) -> untagged (fst (shortcut_epsilon from thru acc)).
Proof.
  intros from thru [f inv] A. cbn [fst] in *. unfold shortcut_epsilon. apply unt_fold2; auto. intros [h i] x Hh. destruct (mfind from (outputs f)); exact Hh.
Qed.
Lemma unt_merge : forall from f to, untagged f -> untagged (merge_epsilon from f to).
Proof.
  intros from f to A. unfold merge_epsilon. set (eo := match mfind from (outputs f) with Some m => mfind to m | None => None end). clearbody eo.
  set (f1 := fold_left _ _ _). assert (H1 : untagged f1).
  { apply unt_fold; auto. intros h [c tos] Hh. destruct eo; exact Hh. }
  clearbody f1. set (f2 := if is_final f1 to then _ else _). assert (H2 : untagged f2) by (unfold f2; destruct (is_final f1 to); auto).
  clearbody f2. rewrite H2. cbn [mfind]. destruct (mfind to (outputs f2)); exact H2.
Qed.
Lemma unt_noeps : forall f, untagged f -> untagged (remove_epsilons f).
Proof.
  intros f H. unfold remove_epsilons. set (f1 := unsparse f). assert (H1 : untagged f1) by exact H. clearbody f1.
  set (f2 := close_eps f1). assert (H2 : untagged f2).
  { unfold f2, close_eps. apply unt_fold2; auto. intros [h inv] x Hh. cbn [fst] in Hh. apply unt_fold2; auto.
    intros acc y Ha. destruct (Nat.eqb y x); auto. apply unt_shortcut. auto. }
  clearbody f2. set (f3 := merge_all_eps f2). assert (H3 : untagged f3); [|clearbody f3; exact H3].
  unfold f3, merge_all_eps. apply unt_fold; auto. intros h x Hh. apply unt_fold; auto.
  intros h' y Hh'. destruct (Nat.eqb y x); auto. apply unt_merge; auto.
Qed.
Lemma unt_members : forall f ns s g, untagged f -> untagged g -> untagged (accept_members f ns s g).
Proof.
  intros f ns. induction s as [|j s IH]; intros g Hf Hg; cbn [accept_members]; auto. rewrite Hf. cbn [mfind]. destruct (is_final f j); cbn [andb]; auto.
Qed.
Lemma unt_accept : forall f term states, untagged f -> untagged (accept_states f term states).
Proof.
  intros f term states Hf. unfold accept_states. set (g1 := clear_final _). assert (H1 : untagged g1) by reflexivity. clearbody g1.
  set (g2 := fold_left _ _ g1). assert (H2 : untagged g2); [|exact H2].
  apply unt_fold; auto. intros h x Hh. apply unt_members; auto. unfold accept_terminal. apply unt_fold; auto.
  intros h' y Hh'. destruct (smem y term); auto. apply unt_fold; auto. intros h'' [c z] Hh''. exact Hh''.
Qed.
Lemma unt_determine : forall f m b g, untagged f -> determine f m = Ok (b, g) -> untagged g.
Proof.
  intros f m b g H E. unfold determine in E. destruct (determined f); [injection E as <- <-; auto|].
  pose proof (unt_noeps f H) as H1. set (f1 := remove_epsilons f) in *. clearbody f1.
  destruct (det_run _ _ _ _ _ _); try discriminate; injection E as <- <-; auto.
  set (g1 := fold_left _ _ _). assert (H2 : untagged g1); [|exact H2].
  apply unt_fold; [|apply unt_accept; auto]. intros h [[x y] c] Hh. exact Hh.
Qed.
Lemma unt_minimize : forall f g, untagged f -> minimize f = Ok g -> untagged g.
Proof.
  intros f g H E. unfold minimize in E. destruct (rev_rows _ _ _); cbn [bind] in E; try discriminate.
  destruct (negb (determined f)); [injection E as <-; auto|]. destruct (min_run _ _ _ _ _); cbn [bind] in E; try discriminate.
  injection E as <-. unfold min_accept. set (g1 := set_final _ 0 false). assert (H1 : untagged g1) by reflexivity. clearbody g1.
  set (g2 := fold_left _ _ g1). assert (H2 : untagged g2); [|exact H2].
  apply unt_fold; auto. intros h x Hh. unfold min_accept_state. rewrite H. cbn [mfind].
  set (h1 := min_accept_row _ _ _ _). assert (Hh1 : untagged h1) by (apply unt_fold; auto; intros h' [c tos] Hh'; exact Hh'). destruct (is_final f x); auto.
Qed.
Lemma unt_canonize : forall f m g, untagged f -> canonize f m = Ok g -> untagged g.
Proof.
  intros f m g H E. unfold canonize in E. destruct (determined f).
  - cbn [bind] in E. eapply unt_minimize; eauto.
  - destruct (determine f m) as [[b h]| | |] eqn:D; cbn [bind] in E; try discriminate. destruct b; cbn [bind] in E; [|discriminate].
    eapply unt_minimize; [|eauto]. eapply unt_determine; eauto.
Qed.

(** ** The table *)
Lemma tag_writes : forall (v : nat -> N) k a s, a + k <= length (d_tags s) -> exists T, foldm (fun s q => set_dtag s q (v q)) (seq a k) s = Ok (set_dtags s T) /\ length T = length (d_tags s) /\
  (forall q, a <= q < a + k -> nth_error T q = Some (v q mod 256)%N) /\ (forall q, q < a -> nth_error T q = nth_error (d_tags s) q).
Proof.
  intros v. induction k as [|k IH]; intros a s H; cbn [seq foldm].
  - exists (d_tags s). splits; auto; [destruct s; reflexivity|lia].
  - rewrite set_dtag_ok by lia. cbn [bind]. destruct (IH (S a) (set_dtags s (upd a (fun _ => v a mod 256)%N (d_tags s)))) as (T & E & LT & V & K).
    { cbn [set_dtags d_tags]. rewrite upd_length. lia. }
    cbn [set_dtags d_tags] in LT, K. rewrite upd_length in LT. exists T. splits; auto.
    + intros q Hq. destruct (Nat.eq_dec q a) as [->|Hn]; [|apply V; lia]. rewrite K by lia. rewrite nth_error_upd, Nat.eqb_refl.
      destruct (nth_error (d_tags s) a) eqn:X; [reflexivity|apply nth_error_None in X; lia].
    + intros q Hq. rewrite K by lia. rewrite nth_error_upd. destruct (Nat.eqb_spec q a); [lia|reflexivity].
Qed.
Lemma reown_fc : forall n f s, fc_build f (reown n s) = let* x := fc_build f s in Ok (reown n x).
Proof.
  intros n f s. unfold fc_build. rewrite reown_fold by (intros; apply reown_tag). destruct (foldm _ (seq 0 (size f)) s) as [s1| | |]; cbn [bind]; auto.
  apply reown_fold. intros s2 q. apply reown_fold. intros s3 [c x]. apply reown_fold. intros s4 y. apply reown_jump.
Qed.
Definition fc_remap (a : N) : N := (a mod two32)%N.
Lemma fc_build_eq : forall f s, fc_build f s = (let* s1 := foldm (fun s q => set_dtag s q (N.lor (fsm_tag f q) (if is_final f q then 1 else 0)%N)) (seq 0 (size f)) s in foldm wr (build_writes fc_remap f) s1).
Proof.
  intros f s. unfold fc_build. destruct (foldm _ (seq 0 (size f)) s) as [s1| | |]; cbn [bind]; auto.
  unfold build_writes. rewrite foldm_flat. apply foldm_ext. intros s' from _. rewrite foldm_flat. apply foldm_ext. intros s'' [c i] _. cbn [fst].
  rewrite foldm_map. apply foldm_ext. reflexivity.
Qed.
Lemma remap_ok : forall a, acts_ok 16 (fc_remap a).
Proof.
  intros a. unfold fc_remap. assert (H : (a mod two32 < two32)%N) by (apply N.mod_lt; discriminate). split; auto. intros j Hj.
  destruct (N.lt_ge_cases j 32) as [X|X]; [lia|]. exfalso. change two32 with (2 ^ 32)%N in Hj. rewrite (N.mod_pow2_bits_high a 32 j X) in Hj. discriminate Hj.
Qed.
Lemma fc_table : forall g s0 buf, wf g -> all_in_part g -> part_size (letters g) <= 256 -> init_loaded buf (size g) (letters g) (initial g) 1 = Ok s0 ->
  exists s, fc_build g s0 = Ok s /\ d_states s = N.of_nat (size g) /\ d_nletters s = N.of_nat (part_size (letters g)) /\ d_buf s = buf /\
  (dplaced s -> d_initial s = d_state s (N.of_nat (initial g)) /\
    (forall i c j, i < size g -> letter c -> (forall x, edge g i c x <-> x = j) -> d_next s (d_state s (N.of_nat i)) c = Ok (d_state s (N.of_nat j), fc_remap (output g i j))) /\
    (forall i, i < size g -> state_idx s (d_state s (N.of_nat i)) = N.of_nat i) /\
    (forall i, i < size g -> nth_error (d_tags s) i = Some (N.lor (fsm_tag g i) (if is_final g i then 1 else 0) mod 256)%N)).
Proof.
  intros g s1' buf W A PS E0.
  assert (PP : 0 < part_size (letters g)).
  { apply all_part_pos; [apply W|]. destruct (A 0%N eq_refl ltac:(discriminate)) as [r R]. eauto. }
  rewrite (reown_init 1 16) in E0 by reflexivity. apply bind_ok in E0 as (s0 & E0 & X). apply ok_inj in X. subst s1'.
  destruct (init_loaded_ok buf (size g) (letters g) (initial g) 16 s0 (wf_letters _ W) PP (wf_init _ W) ltac:(lia) E0) as (L0 & S0 & NL0 & R0 & B0 & I0 & LT0 & O0 & N0).
  clear E0. assert (C0 : d_count s0 = 16%N) by (unfold d_count; rewrite N0; auto).
  destruct (tag_writes (fun q => N.lor (fsm_tag g q) (if is_final g q then 1 else 0)%N) (size g) 0 s0) as (T & ET & LT & VT & _).
  { rewrite (lo_tlen _ L0), S0. lia. }
  pose proof (set_dtags_ok s0 T L0 LT) as L2.
  assert (F1 : forall x, x = set_dtags s0 T -> d_states x = N.of_nat (size g) /\ d_nletters x = N.of_nat (part_size (letters g)) /\ d_letters x = fill_bytes (letters g) /\ d_initial x = d_state x (N.of_nat (initial g)) /\ d_count x = 16%N /\ d_tags x = T /\ d_buf x = buf).
  { intros x ->. cbn [set_dtags d_states d_nletters d_letters d_initial d_tags d_buf]. splits; auto. }
  rewrite reown_fc, fc_build_eq, ET. cbn [bind]. set (s1 := set_dtags s0 T) in *. specialize (F1 s1 eq_refl).
  clearbody s1. destruct F1 as (S1 & NL1 & LT1 & IN1 & C1 & TG1 & B1).
  assert (HW : forall f t c a, In (f, t, c, a) (build_writes fc_remap g) -> f < N.to_nat (d_states s1) /\ t < N.to_nat (d_states s1) /\ acts_ok (d_count s1) a).
  { intros f t c a H. apply build_writes_in in H as (H1 & _ & H2 & ->). apply (dest_bound _ _ _ _ W) in H2. rewrite C1. splits; [lia|lia|apply remap_ok]. }
  destruct (writes_ok (build_writes fc_remap g) s1 (lo_jlen _ L2) (lo_lt _ L2) (nl_pos _ L2)) as (J & EJ & LJ & KJ).
  { intros f t c a H. apply (HW f t c a H). }
  pose proof (writes_loaded _ _ _ L2 HW EJ) as L1. rewrite EJ. cbn [bind]. exists (reown 1 (set_jumps s1 J)). splits; auto.
  intros P. change (dplaced (set_jumps s1 J)) in P. splits; [exact IN1| | |].
  2: { intros i Hi. exact (state_idx_ok (set_jumps s1 J) L1 i). }
  2: { intros i Hi. cbn [reown set_jumps d_tags]. rewrite TG1. apply VT. lia. }
  intros i c j Hi Hc Hj. change (d_next (set_jumps s1 J) (d_state (set_jumps s1 J) (N.of_nat i)) c = Ok (d_state (set_jumps s1 J) (N.of_nat j), fc_remap (output g i j))).
  destruct (A c (proj1 Hc) (proj2 Hc)) as [c' R]. pose proof (part_rep_rep _ _ _ (wf_letters _ W) R) as R'.
  assert (CLS : forall a a', part_rep (letters g) a = Some a' -> nth (N.to_nat a) (d_letters s1) 0%N = N.of_nat (cls_of (letters g) a)).
  { intros a a' Ra. destruct (fill_bytes_ok (letters g) a a' (wf_letters _ W) Ra) as [X Y]. rewrite LT1. apply nth_error_nth with (d := 0%N) in X. rewrite X. apply N.mod_small. lia. }
  assert (CE : cls_of (letters g) c = cls_of (letters g) c') by (unfold cls_of, part_index; unfold part_rep in R, R'; rewrite R, R'; reflexivity).
  assert (SC : slot s1 i c = slot s1 i c') by (unfold slot; rewrite (CLS c c' R), (CLS c' c' R'), CE; reflexivity).
  assert (DE : forall a x, part_rep (letters g) a = Some a -> (In x (destinations g i a) <-> edge g i a x)).
  { intros a x Ra. rewrite dest_rep by auto. unfold edge, erep. rewrite Ra. reflexivity. }
  assert (Hj' : forall x, In x (destinations g i c') <-> x = j).
  { intros x. rewrite DE by auto. rewrite <- Hj. unfold edge, erep. rewrite R, R'. reflexivity. }
  assert (Hi' : i < N.to_nat (d_states s1)) by lia.
  destruct (slot_lt s1 i c' (lo_lt _ L2) (nl_pos s1 L2) Hi') as [SLT _].
  assert (K : nth_error J (slot s1 i c) = Some (shift_of s1 i j, fc_remap (output g i j))).
  { rewrite SC. destruct (KJ (slot s1 i c')) as [[_ NW]|(f & t & a & v & X & Y & Z)].
    - rewrite LJ, (lo_jlen _ L2). exact SLT.
    - exfalso. apply (NW i j c' (fc_remap (output g i j))); auto. apply build_writes_in. splits; auto.
      + apply (part_list_rep _ c' (wf_letters _ W)). exact R'.
      + apply Hj'. auto.
    - destruct (slot_inj s1 _ _ _ _ (lo_lt _ L2) (nl_pos s1 L2) Y) as [-> Y2]. apply build_writes_in in X as (_ & (k1 & K1) & X3 & ->).
      assert (Ra : part_rep (letters g) a = Some a) by (apply (part_list_rep _ a (wf_letters _ W)); eauto).
      rewrite (CLS a a Ra), (CLS c' c' R') in Y2. apply Nat2N.inj in Y2.
      assert (a = c').
      { pose proof (proj2 (part_list_rep _ c' (wf_letters _ W)) R') as [k2 K2].
        apply (part_list_in _ _ _ (wf_letters _ W)) in K1 as [m1 K1]. apply (part_list_in _ _ _ (wf_letters _ W)) in K2 as [m2 K2].
        assert (QQ : forall x k m, part_rep (letters g) x = Some x -> mfind x (pset (letters g)) = Some (k, m) -> cls_of (letters g) x = k).
        { intros x k m RR MM. unfold cls_of, part_index. unfold part_rep in RR. rewrite RR, MM. reflexivity. }
        pose proof (QQ _ _ _ Ra K1) as Q1. pose proof (QQ _ _ _ R' K2) as Q2. assert (KK : k1 = k2) by congruence. rewrite <- KK in K2.
        exact (wp_inj _ (wf_letters _ W) a c' k1 m1 m2 K1 K2). }
      subst a. apply Hj' in X3. subst t. exact Z. }
  assert (Hjs : j < size g).
  { pose proof (proj2 (Hj' j) eq_refl) as X. exact (dest_bound _ _ _ _ W X). }
  assert (HL : nth_error (d_letters s1) (N.to_nat c) = Some (nth (N.to_nat c) (d_letters s1) 0%N)).
  { apply nth_error_nth'. rewrite (lo_llen _ L2). destruct Hc as [Hc _]. unfold MaxChar in Hc. lia. }
  unfold d_next. change (d_letters (set_jumps s1 J)) with (d_letters s1). rewrite HL.
  rewrite (trans_at (set_jumps s1 J)) by exact Hi'.
  change (d_jumps (set_jumps s1 J)) with J. change (d_nletters (set_jumps s1 J)) with (d_nletters s1).
  change (i * N.to_nat (d_nletters s1) + N.to_nat (nth (N.to_nat c) (d_letters s1) 0%N)) with (slot s1 i c). rewrite K. cbn [bind].
  change (shift_of s1 i j) with (shift_of (set_jumps s1 J) i j).
  rewrite (shift_ok (set_jumps s1 J) L1 P) by (cbn [set_jumps d_states]; lia). reflexivity.
Qed.

(** ** What is noted *)
Lemma land_bit : forall a k, (N.land a (2 ^ k) =? 0)%N = negb (N.testbit a k).
Proof.
  intros a k. destruct (N.testbit a k) eqn:B; cbn [negb].
  - apply N.eqb_neq. intros E. assert (X : N.testbit (N.land a (2 ^ k)) k = true) by (rewrite N.land_spec, B, N.pow2_bits_true; reflexivity). rewrite E, N.bits_0 in X. discriminate X.
  - apply N.eqb_eq. apply N.bits_inj_0. intros j. rewrite N.land_spec. destruct (N.eq_dec j k) as [->|H]; [rewrite B; reflexivity|]. rewrite N.pow2_bits_false by auto. apply andb_false_r.
Qed.
Lemma last_app : forall P Q k x, (forall i, i < k -> (P i <-> Q i)) -> last_below P k x -> last_below Q k x.
Proof.
  intros P Q k x H [[-> X]|(i & A & B & C & ->)]; [left|right].
  - split; auto. intros i Hi Y. apply (X i Hi). apply H; auto.
  - exists i. splits; auto; [apply H; auto|]. intros j Hj Y. apply (C j Hj). apply H; auto. lia.
Qed.
Lemma last_S : forall (P : nat -> Prop) k x, last_below P k x -> ~ P k -> last_below P (S k) x.
Proof.
  intros P k x [[-> X]|(i & A & B & C & ->)] N; [left|right].
  - split; auto. intros i Hi. destruct (Nat.eq_dec i k) as [->|]; auto. apply X. lia.
  - exists i. splits; auto. intros j Hj. destruct (Nat.eq_dec j k) as [->|]; auto. apply C. lia.
Qed.
Lemma last_here : forall (P : nat -> Prop) k, P k -> last_below P (S k) (N.of_nat k).
Proof. intros P k H. right. exists k. splits; auto. intros j Hj. lia. Qed.
Lemma last_npos : forall (P : nat -> Prop) k, last_below P k fc_npos -> (N.of_nat k <= fc_npos)%N -> forall i, i < k -> ~ P i.
Proof. intros P k [[_ X]|(i & A & _ & _ & E)] L; auto. exfalso. rewrite E in L. lia. Qed.
Lemma take_noted : forall acts st a q, noted acts (fc_begin st) (fc_end st) -> fc_counter st = N.of_nat (length acts) -> (N.of_nat (length acts) < fc_npos)%N ->
  let st' := fc_take a (mkFc q (fc_begin st) (fc_end st) ((fc_counter st + 1) mod two64)) in
  noted (acts ++ [a]) (fc_begin st') (fc_end st') /\ fc_counter st' = N.of_nat (length (acts ++ [a])) /\ fc_state st' = q.
Proof.
  intros acts st a q (k & Hk & B & E & D & M) C L. cbv zeta. rewrite app_length. cbn [length].
  assert (C1 : ((fc_counter st + 1) mod two64 = N.of_nat (length acts + 1))%N) by (rewrite C, N.mod_small by (unfold fc_npos, two64 in *; lia); lia).
  assert (C2 : ((N.of_nat (length acts + 1) + two64 - 1) mod two64 = N.of_nat (length acts))%N).
  { replace (N.of_nat (length acts + 1) + two64 - 1)%N with (N.of_nat (length acts) + 1 * two64)%N by (unfold two64; lia). rewrite N.mod_add by discriminate. apply N.mod_small. unfold fc_npos, two64 in *. lia. }
  unfold fc_take. cbn [fc_counter fc_begin fc_end fc_state]. rewrite C1, C2. unfold fc_captured. cbn [fc_begin fc_end].
  change fc_begin_bit with (2 ^ 0)%N. change fc_end_bit with (2 ^ 1)%N. rewrite !land_bit, !negb_involutive.
  assert (Old : forall i, i < length acts -> (begins acts i <-> begins (acts ++ [a]) i) /\ (finishes acts i <-> finishes (acts ++ [a]) i)).
  { intros i Hi. unfold begins, finishes. rewrite nth_error_app1 by auto. tauto. }
  assert (New : nth_error (acts ++ [a]) (length acts) = Some a) by (rewrite nth_error_app2, Nat.sub_diag by lia; reflexivity).
  assert (B' : last_below (begins (acts ++ [a])) k (fc_begin st)) by (eapply last_app; [|exact B]; intros i Hi; apply Old; lia).
  assert (E' : last_below (finishes (acts ++ [a])) k (fc_end st)) by (eapply last_app; [|exact E]; intros i Hi; apply Old; lia).
  destruct (negb (fc_begin st =? fc_npos)%N && negb (fc_end st =? fc_npos)%N) eqn:Cap; cbn [negb].
  { rewrite !andb_false_r. cbn [fc_begin fc_end fc_counter fc_state]. splits; auto. apply andb_true_iff in Cap as [X1 X2]. apply negb_true_iff, N.eqb_neq in X1, X2.
    exists k. rewrite app_length. cbn [length]. splits; auto; [lia|]. intros i j Hi Hj X Y. apply (M i j Hi Hj); apply Old; auto; lia. }
  rewrite !andb_true_r.
  assert (k = length acts). { destruct D as [D|[D1 D2]]; auto. exfalso. apply andb_false_iff in Cap as [X|X]; apply negb_false_iff, N.eqb_eq in X; contradiction. }
  subst k. assert (M' : forall i j, i < length acts -> j < length acts -> begins (acts ++ [a]) i -> finishes (acts ++ [a]) j -> False).
  { intros i j Hi Hj X Y. apply andb_false_iff in Cap as [Z|Z]; apply negb_false_iff, N.eqb_eq in Z.
    - rewrite Z in B'. eapply last_npos; [exact B'| |exact Hi|exact X]. lia.
    - rewrite Z in E'. eapply last_npos; [exact E'| |exact Hj|exact Y]. lia. }
  assert (M2 : forall i j, i < S (length acts) -> j < S (length acts) -> begins (acts ++ [a]) i -> finishes (acts ++ [a]) j -> i = S (length acts) - 1 \/ j = S (length acts) - 1).
  { intros i j Hi Hj X Y. destruct (Nat.eq_dec i (length acts)); [lia|]. destruct (Nat.eq_dec j (length acts)); [lia|]. exfalso. apply (M' i j); auto; lia. }
  assert (K : S (length acts) = length (acts ++ [a])) by (rewrite app_length; cbn [length]; lia).
  destruct (N.testbit a 0) eqn:T0; [|destruct (N.testbit a 1) eqn:T1]; cbn [fc_begin fc_end fc_counter fc_state]; splits; auto; exists (S (length acts)); splits; auto; try lia.
  - apply last_here. exists a. auto.
  - apply last_S; auto. intros (b & Y & Y0 & _). rewrite New in Y. injection Y as <-. congruence.
  - apply last_S; auto. intros (b & Y & Y0). rewrite New in Y. injection Y as <-. congruence.
  - apply last_here. exists a. auto.
  - apply last_S; auto. intros (b & Y & Y0). rewrite New in Y. injection Y as <-. congruence.
  - apply last_S; auto. intros (b & Y & _ & Y0). rewrite New in Y. injection Y as <-. congruence.
Qed.

(** ** Runs *)
Theorem fc_runs : forall f, good f -> tags f = [] ->
  (exists g, canonize f 0 = Ok g /\ lang_eq (accepts g) (accepts f) /\ forall buf, (N.of_nat (size g) < two32)%N -> part_size (letters g) <= 256 ->
    exists s, fc_compile buf f = Ok s /\ d_states s = N.of_nat (size g) /\ d_nletters s = N.of_nat (part_size (letters g)) /\ d_buf s = buf /\
    (dplaced s -> forall w, is_word w -> (N.of_nat (length w) < fc_npos)%N -> exists st fin acts, steps (fc_ops s) (fc_init s) w = Ok st /\ fc_final s st = Ok fin /\
      (fin = true <-> accepts f w) /\ fc_actions (d_next s) (d_initial s) w = Ok acts /\ length acts = length w /\ spells g (initial g) w acts /\ noted acts (fc_begin st) (fc_end st))) \/
  (canonize f 0 = Throw ETooComplicated /\ forall buf, fc_compile buf f = Throw ETooComplicated).
Proof.
  intros f G T. destruct (canonize_ok f 0 G) as [(g & E & W & D & Dt & La & _)|(E & _)]; [left|right; split; auto; intros buf; unfold fc_compile; rewrite E; reflexivity].
  exists g. splits; auto. intros buf Sz Ps. unfold fc_compile. rewrite E. cbn [bind]. pose proof (unt_canonize f 0 g T E) as Tg.
  assert (E0 : exists s0, init_loaded buf (size g) (letters g) (initial g) 1 = Ok s0).
  { unfold init_loaded. destruct (N.leb_spec two32 (N.of_nat (size g))); [lia|]. eauto. }
  destruct E0 as [s0 E0]. destruct (fc_table g s0 buf W (do_all _ D) Ps E0) as (s & Eb & St & NL & Bu & Tab). rewrite E0. cbn [bind]. exists s. splits; auto.
  intros P. destruct (Tab P) as (I & Nx & Ix & Tg'). clear Tab.
  assert (Z : forall w, is_word w -> forall p done st, p < size g -> fc_state st = d_state s (N.of_nat p) -> noted done (fc_begin st) (fc_end st) -> fc_counter st = N.of_nat (length done) ->
    (N.of_nat (length done + length w) < fc_npos)%N -> exists st' q acts, steps (fc_ops s) st w = Ok st' /\ path (edge g) p w q /\ q < size g /\ fc_state st' = d_state s (N.of_nat q) /\
      fc_actions (d_next s) (d_state s (N.of_nat p)) w = Ok acts /\ length acts = length w /\ spells g p w acts /\ noted (done ++ acts) (fc_begin st') (fc_end st')).
  { induction w as [|c w IH]; intros Hw p done st Hp Es Nd Cn Ln.
    - exists st, p, []. rewrite app_nil_r. cbn [steps fc_actions]. splits; auto; [apply path_nil|apply spells_nil].
    - inversion Hw as [|? ? [Lc Nc] Hw']; subst. destruct (dedge_total g W D p c Hp Lc Nc) as (m & Hm & Em).
      assert (Nm : d_next s (d_state s (N.of_nat p)) c = Ok (d_state s (N.of_nat m), fc_remap (output g p m))).
      { apply Nx; auto; [split; auto|]. intros x. split; [intros X; eapply dedge_fun; eauto|intros ->; auto]. }
      cbn [length] in Ln. destruct (take_noted done st (fc_remap (output g p m)) (d_state s (N.of_nat m)) Nd Cn ltac:(lia)) as (N1 & N2 & N3).
      set (st1 := fc_take (fc_remap (output g p m)) (mkFc (d_state s (N.of_nat m)) (fc_begin st) (fc_end st) ((fc_counter st + 1) mod two64))) in *.
      destruct (IH Hw' m (done ++ [fc_remap (output g p m)]) st1 Hm N3 N1 N2) as (st' & q & acts & X1 & X2 & X3 & X4 & X5 & X6 & X6s & X7).
      { rewrite app_length. cbn [length]. lia. }
      exists st', q, (fc_remap (output g p m) :: acts). cbn [steps fc_actions]. rewrite Nm. unfold fc_ops at 1. cbn [o_step]. unfold fc_next. rewrite Es, Nm. cbn [bind]. fold st1. rewrite X5. cbn [bind length].
      rewrite <- app_assoc in X7. splits; auto; [eapply path_step; eauto|apply spells_cons; auto]. }
  intros w Hw Lw. destruct (Z w Hw (initial g) [] (fc_init s) (wf_init _ W)) as (st & q & acts & X1 & X2 & X3 & X4 & X5 & X6 & X6s & X7); auto.
  { exists 0. cbn [length fc_init fc_begin fc_end]. splits; auto; try (left; split; [reflexivity|intros; lia]). intros; lia. }
  assert (Fq : fc_final s st = Ok (is_final g q)).
  { unfold fc_final. rewrite X4, (Ix q X3), Nat2N.id, (Tg' q X3). unfold fsm_tag. rewrite Tg. cbn [mfind]. destruct (is_final g q); reflexivity. }
  exists st, (is_final g q), acts. splits; auto; [|rewrite I; auto]. rewrite <- (La w). unfold is_final. rewrite smem_in. split; [intros F; exists q; auto|].
  intros (r & Pr & F). rewrite (det_path_fun g W D _ _ _ _ X2 Pr). auto.
Qed.
