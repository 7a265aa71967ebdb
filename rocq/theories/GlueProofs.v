(** Glue builds the product of two scanners. *)
From Coq Require Import List Bool Arith NArith Lia Sorted.
From Verif Require Import Util Spec PartitionModel FsmModel DetermineModel FsmBasics PartitionProofs DetGeneric DetProofs MinimizeModel
  RunModel RunSpec RunProofs PrefixProofs ScannerModel ScannerSpec ScannerProofs ScannerBuild ScannerCompile ScannerCopy GlueModel GlueTable.
Import ListNotations.

(** ** Finishing any table *)
Section Finish.
  Variables (k : kind) (s : scanner) (cls : N -> nat) (t : machine).
  Hypothesis P : placed k s.
  Hypothesis St : s_states s = N.of_nat (m_states t).
  Hypothesis Rl : length (s_rows s) = m_states t.
  Hypothesis In0 : s_initial s = index_to_state k s (N.of_nat (m_start t)).
  Hypothesis Ll : length (s_letters s) = 264.
  Hypothesis Lt : forall c, letter c -> nth_error (s_letters s) (N.to_nat c) = Some (N.of_nat (cls c) + header_size k)%N /\ (N.of_nat (cls c) < s_nletters s)%N.
  Hypothesis Cov : forall l, l < N.to_nat (s_nletters s) -> exists c, letter c /\ cls c = l.
  Hypothesis Nx : forall q c, q < m_states t -> letter c -> m_next t q c < m_states t.
  Hypothesis Rw : forall i r, nth_error (s_rows s) i = Some r ->
    r_masks r = repeat NO_SHORTCUT (4 * k_nmask k) /\ length (r_jumps r) = N.to_nat (s_nletters s) /\
    (forall c, letter c -> nth_error (r_jumps r) (cls c) =
       Some (diff k (index_to_state k s (N.of_nat i)) (index_to_state k s (N.of_nat (m_next t i c))))) /\
    negb (N.land (r_flags r) FinalFlag =? 0)%N = m_final t i /\ negb (N.land (r_flags r) DeadFlag =? 0)%N = m_dead t i.
  Hypothesis Ac : forall i, i < m_states t -> exists b, nth_error (s_index s) i = Some b /\
    until_end (skipn (N.to_nat b) (s_final s)) = Ok (m_accepted t i).

  Lemma finish_shows : shows k (build_shortcuts k s) cls t.
  Proof.
    assert (Rs : s_rows (build_shortcuts k s) = map (fun '(i, r) => row_shortcuts k s i r) (combine (seq 0 (length (s_rows s))) (s_rows s))) by reflexivity.
    split; auto.
    - destruct P. split; auto.
    - rewrite Rs, map_length, combine_length, seq_length, Rl, Nat.min_id. reflexivity.
    - intros i r Hi. change (s_nletters (build_shortcuts k s)) with (s_nletters s).
      change (forall x, index_to_state k (build_shortcuts k s) x = index_to_state k s x) with (forall x, index_to_state k s x = index_to_state k s x).
      rewrite Rs, nth_error_map, nth_error_combine_seq in Hi. destruct (nth_error (s_rows s) i) as [r0|] eqn:E; [|discriminate].
      cbn [option_map] in Hi. apply some_inj in Hi.
      assert (Li : i < m_states t) by (rewrite <- Rl; apply nth_error_Some; congruence).
      destruct (Rw i r0 E) as (R1 & R2 & R3 & R4 & R5).
      destruct (row_shortcuts_ok k s cls (m_next t i) i (r_jumps r0)) with (r := r0) as (M & Fl & Jp); auto.
      { intros c Hc. apply Lt; auto. }
      { intros l Hl. apply Cov. lia. }
      { intros c Hc. destruct (Lt c Hc). lia. }
      { intros c u Hc Hu. rewrite R3 in Hu by auto. apply some_inj in Hu. subst u.
        pose proof (Nx i c Li Hc) as Hn. destruct P as [_ Q1 Q2]. rewrite St in Q1, Q2. destruct (row_size_facts k (s_nletters s)) as (_ & _ & Pb).
        unfold index_to_state. rewrite go_diff.
        - split; intros X; [|rewrite X; auto]. assert (N.of_nat (m_next t i c) = N.of_nat i) by nia. lia.
        - nia.
        - nia.
        - intros Kr. specialize (Q2 Kr). split; nia. }
      rewrite Hi in *. rewrite Fl, Jp. splits; auto.
  Qed.
End Finish.

(** ** Jumps in any order *)
Section Connects.
  Variables (k : kind) (p : partition) (s0 : scanner).
  Hypothesis Wp : wf_part p.
  Hypothesis Hs : (header_size k + 264 <= 65536)%N.
  Hypothesis Lt : s_letters s0 = fill_letters (header_size k) p.
  Hypothesis Nl : s_nletters s0 = N.of_nat (part_size p).
  Let D (from to : nat) : N := diff k (index_to_state k s0 (N.of_nat from)) (index_to_state k s0 (N.of_nat to)).

  Lemma set_jump_at : forall rows from c to, from < length rows -> part_rep p c = Some c ->
    set_jump k (set_rows s0 rows) from c to =
    Ok (set_rows s0 (upd from (fun r => mkRow (r_masks r) (r_flags r) (upd (cls_of p c) (fun _ => D from to) (r_jumps r))) rows)).
  Proof.
    intros rows from c to Hf Hc. destruct (fill_letters_ok (header_size k) p Wp c c Hc Hs) as [E L].
    unfold set_jump. cbn [s_letters s_nletters s_rows set_rows]. rewrite Lt. apply nth_error_nth with (d := 0%N) in E. rewrite E, Nl.
    destruct (N.ltb_spec (N.of_nat (cls_of p c) + header_size k) (header_size k)); [lia|].
    replace (N.of_nat (cls_of p c) + header_size k - header_size k)%N with (N.of_nat (cls_of p c)) by lia. rewrite Nat2N.id.
    destruct (N.ltb_spec (N.of_nat (cls_of p c)) (N.of_nat (part_size p))); [|lia].
    destruct (Nat.ltb_spec from (length rows)); [|lia]. reflexivity.
  Qed.

  Lemma jumps_ok : forall L rows, (forall from to c, In (from, to, c) L -> from < length rows /\ part_rep p c = Some c) ->
    exists rows', foldm (fun s '(from, to, c) => set_jump k s from c to) L (set_rows s0 rows) = Ok (set_rows s0 rows') /\
      length rows' = length rows /\
      forall i r', nth_error rows' i = Some r' -> exists r, nth_error rows i = Some r /\
        r_masks r' = r_masks r /\ r_flags r' = r_flags r /\ length (r_jumps r') = length (r_jumps r) /\
        forall l, l < length (r_jumps r) ->
          (nth_error (r_jumps r') l = nth_error (r_jumps r) l /\ forall to c, In (i, to, c) L -> cls_of p c <> l) \/
          exists to c, In (i, to, c) L /\ cls_of p c = l /\ nth_error (r_jumps r') l = Some (D i to).
  Proof.
    induction L as [|[[from to] c] L IH]; intros rows HL; cbn [foldm].
    - exists rows. splits; auto. intros i r' E. exists r'. splits; auto.
    - destruct (HL from to c (or_introl eq_refl)) as [H1 H2]. rewrite set_jump_at by auto. cbn [bind].
      set (F := fun r => mkRow (r_masks r) (r_flags r) (upd (cls_of p c) (fun _ => D from to) (r_jumps r))).
      destruct (IH (upd from F rows)) as (rows' & E & Lr & R).
      { intros f' t' c' X. rewrite upd_length. apply (HL f' t' c'). right; auto. }
      rewrite upd_length in Lr. exists rows'. splits; auto.
      intros i r' Er'. destruct (R i r' Er') as (r1 & E1 & M1 & F1 & L1 & J1). rewrite nth_error_upd in E1.
      destruct (Nat.eqb_spec i from) as [->|Ne].
      + destruct (nth_error rows from) as [r|] eqn:Er; cbn [option_map] in E1; [|discriminate]. apply some_inj in E1. subst r1. exists r.
        unfold F in *. cbn [r_masks r_flags r_jumps] in *. rewrite upd_length in *. splits; auto.
        intros l Hl. destruct (J1 l Hl) as [[A B]|(to' & c' & A & B & C)].
        * rewrite nth_error_upd in A. destruct (Nat.eqb_spec l (cls_of p c)) as [->|Nl'].
          -- right. exists to, c. splits; auto; [left; auto|]. rewrite A. destruct (nth_error (r_jumps r) (cls_of p c)) eqn:X; [reflexivity|].
             apply nth_error_None in X. lia.
          -- left. split; auto. intros to' c' [X|X]; [|eapply B; eauto]. injection X as <- <-. auto.
        * right. exists to', c'. splits; auto. right; auto.
      + exists r1. splits; auto. intros l Hl. destruct (J1 l Hl) as [[A B]|(to' & c' & A & B & C)].
        * left. split; auto. intros to' c' [X|X]; [congruence|eapply B; eauto].
        * right. exists to', c'. splits; auto. right; auto.
  Qed.
End Connects.

(** ** Lists of regexp numbers *)
Definition ids_ok (n : N) (l : list N) : Prop := StronglySorted N.lt l /\ Forall (fun x => (x < n)%N) l.

Lemma until_end_app : forall ids rest, Forall (fun x => x <> End_mark) ids -> until_end (ids ++ End_mark :: rest) = Ok ids.
Proof.
  induction ids as [|x ids IH]; intros rest H; cbn [app until_end].
  - rewrite N.eqb_refl. reflexivity.
  - inversion H; subst. destruct (N.eqb_spec x End_mark); [congruence|]. rewrite IH by auto. reflexivity.
Qed.
Lemma glue_tables_ok : forall es pos fin idx, glue_tables es pos = (fin, idx) ->
  length idx = length es /\ length fin = length es + fold_right (fun e n => length (fst e) + n) 0 es /\
  forall pre, N.of_nat (length pre) = pos -> forall i e, nth_error es i = Some e -> Forall (fun x => x <> End_mark) (fst e) ->
    exists b, nth_error idx i = Some b /\ until_end (skipn (N.to_nat b) (pre ++ fin)) = Ok (fst e).
Proof.
  induction es as [|[ids fl] es IH]; intros pos fin idx E; cbn [glue_tables] in E.
  - injection E as <- <-. splits; auto. intros pre Hp [|i] x Hx; discriminate.
  - set (here := ids ++ [End_mark]) in *. destruct (glue_tables es (pos + N.of_nat (length here))) as [fin' idx'] eqn:E'.
    injection E as <- <-. destruct (IH _ _ _ E') as (I1 & I2 & I3). splits.
    + cbn [length]. auto.
    + rewrite app_length, I2. unfold here. rewrite app_length. cbn [length fold_right fst]. lia.
    + intros pre Hp [|i] e He Hf; cbn [nth_error] in *.
      * apply some_inj in He. subst e. cbn [fst] in *. exists pos. split; auto.
        rewrite <- Hp, Nat2N.id, skipn_app, skipn_all, Nat.sub_diag. cbn [skipn app]. unfold here. rewrite <- app_assoc. apply until_end_app. auto.
      * destruct (I3 (pre ++ here)) with (i := i) (e := e) as [b [B1 B2]]; auto; [rewrite app_length; lia|].
        exists b. split; auto. rewrite <- app_assoc in B2. exact B2.
Qed.
Lemma ids_app : forall n1 n2 x y, ids_ok n1 x -> ids_ok n2 y -> ids_ok (n1 + n2) (x ++ map (fun i => i + n1)%N y).
Proof.
  intros n1 n2 x y [Sx Bx] [Sy By]. rewrite Forall_forall in Bx, By. split.
  - induction Sx as [|a x Sx IH Fx]; cbn [app].
    + clear Bx By. induction Sy as [|b y Sy IH Fy]; cbn [map]; constructor; auto. rewrite Forall_forall in *.
      intros z Hz. apply in_map_iff in Hz as (u & <- & Hu). specialize (Fy u Hu). lia.
    + constructor; [apply IH; intros; apply Bx; right; auto|]. rewrite Forall_forall in *. intros z Hz. apply in_app_or in Hz as [Hz|Hz]; auto.
      apply in_map_iff in Hz as (u & <- & Hu). specialize (Bx a (or_introl eq_refl)). lia.
  - apply Forall_forall. intros z Hz. apply in_app_or in Hz as [Hz|Hz]; [apply Bx in Hz; lia|].
    apply in_map_iff in Hz as (u & <- & Hu). apply By in Hu. lia.
Qed.
Lemma ids_length : forall n l, ids_ok n l -> (N.of_nat (length l) <= n)%N.
Proof.
  intros n l [Hs Hb]. assert (ND : NoDup l).
  { clear Hb. induction Hs as [|a l Hs IH Hf]; constructor; auto. intros X. rewrite Forall_forall in Hf. specialize (Hf a X). lia. }
  apply NoDup_incl_length with (l' := map N.of_nat (seq 0 (N.to_nat n))) in ND.
  - rewrite map_length, seq_length in ND. lia.
  - rewrite Forall_forall in Hb. intros x Hx. apply Hb in Hx. apply in_map_iff. exists (N.to_nat x). split; [lia|]. apply in_seq. lia.
Qed.
Lemma mapm_ok : forall A B (f : A -> res B) g l, (forall x, In x l -> f x = Ok (g x)) -> mapm f l = Ok (map g l).
Proof.
  intros A B f g l. induction l as [|x l IH]; intros H; cbn [mapm map]; auto. rewrite (H x (or_introl eq_refl)). cbn [bind].
  rewrite IH by (intros; apply H; right; auto). reflexivity.
Qed.

(** The letters of the glued scanner. *)
Lemma glue_letters_gen : forall l r ls, NoDup ls -> (forall c, In c ls <-> letter c) ->
  let p := fold_left (fun p c => part_append (letters_eq l r) c p) ls part_empty in
  wf_part p /\ (forall c, letter c -> exists c', part_rep p c = Some c') /\
  (forall a b ra rb, part_rep p a = Some ra -> part_rep p b = Some rb -> (ra = rb <-> letters_eq l r a b = true)).
Proof.
  intros l r ls ND HL.
  assert (R : forall a, letters_eq l r a a = true) by (intros; unfold letters_eq; rewrite !N.eqb_refl; auto).
  assert (Sy : forall a b, letters_eq l r a b = letters_eq l r b a) by (intros; unfold letters_eq; rewrite (N.eqb_sym (nth (N.to_nat a) l 0%N)), (N.eqb_sym (nth (N.to_nat a) r 0%N)); auto).
  assert (Tr : forall a b c, letters_eq l r a b = true -> letters_eq l r b c = true -> letters_eq l r a c = true).
  { intros a b c. unfold letters_eq. rewrite !andb_true_iff, !N.eqb_eq. intros [] []. split; congruence. }
  destruct (part_build (letters_eq l r) R Sy ls part_empty) as (W & A & C); auto.
  - apply wf_part_empty.
  - split; cbn; discriminate.
  - intros c Hc. apply HL in Hc. exact Hc.
  - intros p. fold p in W, A, C. clearbody p. splits; auto.
    + intros c Hc. apply HL in Hc. assert (X : part_contains p c = true) by (apply C; auto). unfold part_contains in X. unfold part_rep.
      destruct (mfind c (pinv p)); [eauto|discriminate].
    + intros a b ra rb. apply part_rep_eq; auto.
Qed.
Lemma glue_chars_ok : NoDup glue_chars /\ forall c, In c glue_chars <-> letter c.
Proof.
  split.
  - apply NoDup_filter. apply map_nodup_in; [|apply seq_NoDup]. intros x y _ _ E. lia.
  - intros c. unfold glue_chars, letter. rewrite filter_In, in_map_iff. split.
    + intros [(x & <- & X) E]. apply in_seq in X. destruct (N.eqb_spec (N.of_nat x) Epsilon); [discriminate|]. split; auto. lia.
    + intros [H1 H2]. split; [|destruct (N.eqb_spec c Epsilon); [congruence|reflexivity]]. exists (N.to_nat c). split; [lia|]. apply in_seq. lia.
Qed.
Lemma glue_letters_ok : forall l r,
  wf_part (glue_letters l r) /\ (forall c, letter c -> exists c', part_rep (glue_letters l r) c = Some c') /\
  (forall a b ra rb, part_rep (glue_letters l r) a = Some ra -> part_rep (glue_letters l r) b = Some rb -> (ra = rb <-> letters_eq l r a b = true)).
Proof. intros l r. exact (glue_letters_gen l r glue_chars (proj1 glue_chars_ok) (proj2 glue_chars_ok)). Qed.
Global Opaque glue_letters.

(** ** The product *)
Definition okd {A} (d : A) (x : res A) : A := match x with Ok y => y | _ => d end.

Section Glue.
  Variables (k : kind) (l r : scanner) (cl cr : N -> nat) (tl tr : machine).
  Hypothesis Sl : shows k l cl tl.
  Hypothesis Ml : machine_ok tl.
  Hypothesis Sr : shows k r cr tr.
  Hypothesis Mr : machine_ok tr.
  Hypothesis Hs : (header_size k + 264 <= 65536)%N.
  Hypothesis Nul : s_null l = false.
  Hypothesis Nur : s_null r = false.
  Hypothesis Bl : (s_regexps l < two32)%N.
  Hypothesis Br : (s_regexps r < two32)%N.
  Hypothesis Il : forall q, q < m_states tl -> ids_ok (s_regexps l) (m_accepted tl q).
  Hypothesis Ir : forall q, q < m_states tr -> ids_ok (s_regexps r) (m_accepted tr q).

  Let p := glue_letters (s_letters l) (s_letters r).
  Let ls := part_list p.
  Let nx (st : N * N) (c : N) : N * N := okd (0%N, 0%N) (glue_next k l r st c).
  Let V (st : N * N) : Prop := live k l tl (fst st) /\ live k r tr (snd st).
  Let pr (q : nat * nat) : N * N := (addr k l (fst q), addr k r (snd q)).
  Let init : N * N := (s_initial l, s_initial r).

  Lemma glue_nx : forall q1 q2 c, q1 < m_states tl -> q2 < m_states tr -> letter c ->
    glue_next k l r (addr k l q1, addr k r q2) c = Ok (addr k l (m_next tl q1 c), addr k r (m_next tr q2 c)).
  Proof.
    intros q1 q2 c H1 H2 Hc. unfold glue_next. cbn [fst snd]. rewrite (next_addr k l cl tl Sl Ml) by auto. cbn [bind].
    rewrite (next_addr k r cr tr Sr Mr) by auto. reflexivity.
  Qed.
  Lemma ls_letter : forall c i, In (c, i) ls -> letter c /\ part_rep p c = Some c /\ cls_of p c = i.
  Proof.
    intros c i H. destruct (glue_letters_ok (s_letters l) (s_letters r)) as (Wp & _). fold p in Wp.
    apply (part_list_in p _ _ Wp) in H as [ms H]. pose proof (wp_self _ Wp _ _ _ H) as Hm.
    assert (R : part_rep p c = Some c) by (apply (wp_inv _ Wp); eauto). splits; auto.
    - apply (wp_range _ Wp _ _ R).
    - eapply cls_of_in; eauto.
  Qed.
  Lemma glue_next_ok : forall s c i, V s -> In (c, i) ls -> glue_next k l r s c = Ok (nx s c) /\ V (nx s c).
  Proof.
    intros [a b] c i [(q1 & H1 & E1) (q2 & H2 & E2)] H. cbn [fst snd] in *. subst a b. apply ls_letter in H as [Hc _].
    unfold nx. rewrite glue_nx by auto. cbn [okd]. split; auto. split; cbn [fst snd].
    - exists (m_next tl q1 c). split; auto. apply Ml; auto.
    - exists (m_next tr q2 c). split; auto. apply Mr; auto.
  Qed.
  Lemma init_V : V init.
  Proof.
    split; cbn [fst snd init].
    - exists (m_start tl). split; [apply Ml|apply (sh_init _ _ _ _ Sl)].
    - exists (m_start tr). split; [apply Mr|apply (sh_init _ _ _ _ Sr)].
  Qed.
  (** Letters of one class lead to the same place. *)
  Lemma nx_class : forall s c c', V s -> letter c -> part_rep p c = Some c' -> letter c' /\ nx s c = nx s c'.
  Proof.
    intros s c c' Vs Hc R. destruct (glue_letters_ok (s_letters l) (s_letters r)) as (Wp & _ & Eq). fold p in Wp, Eq.
    pose proof (part_rep_rep _ _ _ Wp R) as R'. assert (Hc' : letter c') by apply (wp_range _ Wp _ _ R'). split; auto.
    destruct (Eq _ _ _ _ R R') as [E _]. specialize (E eq_refl). unfold letters_eq in E. apply andb_true_iff in E as [E1 E2].
    apply N.eqb_eq in E1, E2.
    assert (X : forall s0 cls t, shows k s0 cls t -> nth (N.to_nat c) (s_letters s0) 0%N = nth (N.to_nat c') (s_letters s0) 0%N ->
      forall a, s_next k s0 a c = s_next k s0 a c').
    { intros s0 cls t S0 E a. unfold s_next. destruct (sh_letters _ _ _ _ S0 c Hc) as [A _]. destruct (sh_letters _ _ _ _ S0 c' Hc') as [B _].
      apply nth_error_nth with (d := 0%N) in A as A'. apply nth_error_nth with (d := 0%N) in B as B'. rewrite A, B. replace (N.of_nat (cls c') + header_size k)%N with (N.of_nat (cls c) + header_size k)%N by congruence.
      reflexivity. }
    unfold nx, glue_next. rewrite (X l cl tl Sl E1), (X r cr tr Sr E2). reflexivity.
  Qed.

  (** The machine with these states. *)
  Definition glued (states : list (N * N)) : machine :=
    let at_ {A} (d : A) (f : N * N -> A) (i : nat) := match nth_error states i with Some st => f st | None => d end in
    mkMachine (length states) 0
      (fun i c => at_ 0 (fun st => match index_of pair_eqb (nx st c) states with Some j => j | None => 0 end) i)
      (at_ false (fun st => okd false (s_isfinal k l (fst st)) || okd false (s_isfinal k r (snd st))))
      (at_ false (fun st => okd false (s_isdead k l (fst st)) && okd false (s_isdead k r (snd st))))
      (at_ [] (fun st => okd [] (s_accepted k l (fst st)) ++ map (fun i => (i + s_regexps l)%N) (okd [] (s_accepted k r (snd st))))).

  Section States.
    Variables (max : N) (states : list (N * N)) (trs : list (nat * list nat)).
    Hypothesis G : det_good _ init nx (fun _ => true) ls max states trs (length states).
    Let t := glued states.

    Lemma good_V : forall st, In st states -> V st.
    Proof.
      intros st H. apply (dg_reach _ _ _ _ _ _ _ _ _ G) in H. induction H as [|s c i H IH _ Hin]; [apply init_V|].
      apply (glue_next_ok s c i IH Hin).
    Qed.
    Lemma good_nth : forall i st, nth_error states i = Some st -> exists q1 q2, st = pr (q1, q2) /\ q1 < m_states tl /\ q2 < m_states tr.
    Proof.
      intros i [a b] H. apply nth_error_In, good_V in H. destruct H as [(q1 & H1 & E1) (q2 & H2 & E2)]. cbn [fst snd] in *. subst. exists q1, q2. auto.
    Qed.
    Lemma ls_facts : (forall c i, In (c, i) ls -> i < length ls) /\ NoDup (map snd ls).
    Proof.
      destruct (glue_letters_ok (s_letters l) (s_letters r)) as (Wp & _). fold p in Wp. split.
      - apply part_list_idx; auto.
      - apply part_list_nodup; auto.
    Qed.
    Lemma good_next : forall i st c, nth_error states i = Some st -> letter c ->
      nth_error states (m_next t i c) = Some (nx st c).
    Proof.
      intros i st c E Hc. cbn [t glued m_next]. rewrite E.
      destruct (index_of pair_eqb (nx st c) states) as [j|] eqn:I; [apply (index_of_some _ _ pair_eqb_ok) in I; auto|].
      apply (index_of_none _ _ pair_eqb_ok) in I. destruct I.
      destruct (glue_letters_ok (s_letters l) (s_letters r)) as (Wp & All & _). fold p in Wp, All. destruct (All c Hc) as [c' R].
      destruct (nx_class st c c' (good_V _ (nth_error_In _ _ E)) Hc R) as [_ ->].
      pose proof (part_rep_rep _ _ _ Wp R) as R'. apply (part_list_rep p c' Wp) in R' as [j R'].
      apply (det_good_all _ _ _ _ _ max states trs G). eapply dreach_next; eauto.
      apply (dg_reach _ _ _ _ _ _ _ _ _ G). eapply nth_error_In; eauto.
    Qed.
    Lemma good_run : forall w, is_word w -> m_run t 0 w < length states /\
      nth_error states (m_run t 0 w) = Some (pr (m_run tl (m_start tl) w, m_run tr (m_start tr) w)) /\
      m_run tl (m_start tl) w < m_states tl /\ m_run tr (m_start tr) w < m_states tr.
    Proof.
      intros w. induction w as [|c w IH] using rev_ind; intros Hw.
      - unfold m_run. cbn [fold_left]. pose proof (dg_init _ _ _ _ _ _ _ _ _ G) as E. splits; [apply nth_error_Some; congruence| |apply Ml|apply Mr].
        rewrite E. unfold init, pr. cbn [fst snd]. rewrite (sh_init _ _ _ _ Sl), (sh_init _ _ _ _ Sr). reflexivity.
      - apply Forall_app in Hw as [Hw Hc]. inversion Hc as [|? ? Hc' _]; subst. destruct (IH Hw) as (A & B & C1 & C2).
        unfold m_run in *. rewrite !fold_left_app. cbn [fold_left].
        pose proof (good_next _ _ c B Hc') as X. unfold nx, pr in X. cbn [fst snd] in X. rewrite glue_nx in X by auto. cbn [okd] in X.
        splits; [apply nth_error_Some; congruence|exact X|apply Ml; auto|apply Mr; auto].
    Qed.
    Lemma glued_ok : machine_ok t.
    Proof.
      split.
      - change (0 < length states). apply nth_error_Some. rewrite (dg_init _ _ _ _ _ _ _ _ _ G). discriminate.
      - intros q c Hq Hc. cbn [m_states t glued] in *. apply nth_error_Some in Hq. destruct (nth_error states q) as [st|] eqn:E; [|congruence].
        apply nth_error_Some. rewrite (good_next q st c E Hc). discriminate.
      - intros u w Hu Hw Dq. destruct (good_run u Hu) as (_ & E & H1 & H2). change (m_start t) with 0 in *.
        cbn [t glued m_dead] in Dq. cbn [t glued] in E. rewrite E in Dq. cbn [pr fst snd] in Dq.
        rewrite (dead_addr k l cl tl Sl), (dead_addr k r cr tr Sr) in Dq by auto. cbn [okd] in Dq. apply andb_true_iff in Dq as [D1 D2].
        assert (Huw : is_word (u ++ w)) by (apply Forall_app; auto).
        destruct (good_run (u ++ w) Huw) as (_ & Y & Y1 & Y2). cbn [t glued m_final]. cbn [t glued] in Y. rewrite Y. cbn [pr fst snd].
        rewrite (final_addr k l cl tl Sl), (final_addr k r cr tr Sr) by auto. cbn [okd].
        rewrite (mo_dead _ Ml u w) by auto. rewrite (mo_dead _ Mr u w) by auto. reflexivity.
    Qed.

    Lemma glued_outcome : forall w, is_word w ->
      let q := m_run t (m_start t) w in let ql := m_run tl (m_start tl) w in let qr := m_run tr (m_start tr) w in
      m_final t q = m_final tl ql || m_final tr qr /\ m_dead t q = m_dead tl ql && m_dead tr qr /\
      m_accepted t q = m_accepted tl ql ++ map (fun i => (i + s_regexps l)%N) (m_accepted tr qr).
    Proof.
      intros w Hw. destruct (good_run w Hw) as (A & B & C1 & C2). cbn zeta. change (m_start t) with 0. set (q := m_run t 0 w) in *. clearbody q.
      cbn [t glued m_final m_dead m_accepted]. rewrite B. cbn [pr fst snd].
      rewrite (final_addr k l cl tl Sl), (final_addr k r cr tr Sr), (dead_addr k l cl tl Sl), (dead_addr k r cr tr Sr),
        (accepted_addr k l cl tl Sl), (accepted_addr k r cr tr Sr) by auto. auto.
    Qed.

    (** What the loop over the states writes. *)
    Definition entry (st : N * N) : list N * N :=
      (okd [] (s_accepted k l (fst st)) ++ map (fun i => (i + s_regexps l)%N) (okd [] (s_accepted k r (snd st))),
       N.lor (if okd false (s_isfinal k l (fst st)) || okd false (s_isfinal k r (snd st)) then FinalFlag else 0%N)
         (if okd false (s_isdead k l (fst st)) && okd false (s_isdead k r (snd st)) then DeadFlag else 0%N)).
    Lemma entry_ok : forall st, In st states -> glue_entry k l r st = Ok (entry st) /\ ids_ok (s_regexps l + s_regexps r) (fst (entry st)).
    Proof.
      intros st H. apply In_nth_error in H as [i H]. destruct (good_nth i st H) as (q1 & q2 & -> & H1 & H2).
      unfold glue_entry, entry. cbn [pr fst snd].
      rewrite (final_addr k l cl tl Sl), (final_addr k r cr tr Sr), (dead_addr k l cl tl Sl), (dead_addr k r cr tr Sr),
        (accepted_addr k l cl tl Sl), (accepted_addr k r cr tr Sr) by auto. cbn [bind okd fst]. split; [|apply ids_app; auto].
      assert (E : map (fun i => ((i + s_count l) mod two64)%N) (m_accepted tr q2) = map (fun i => (i + s_regexps l)%N) (m_accepted tr q2)).
      { apply map_ext_in. intros x Hx. unfold s_count. rewrite Nul. apply N.mod_small. destruct (Ir q2 H2) as [_ F]. rewrite Forall_forall in F.
        specialize (F x Hx). cbn beta in F. unfold two32, two64 in *. lia. }
      rewrite E. destruct (m_final tl q1), (m_final tr q2), (m_dead tl q1), (m_dead tr q2); reflexivity.
    Qed.

    Variables (b1 : N).
    Let total := fold_right (fun e n => length (fst e) + n) 0 (map entry states).
    Lemma total_le : (N.of_nat total <= N.of_nat (length states) * (s_regexps l + s_regexps r))%N.
    Proof.
      assert (X : forall ss, incl ss states -> (N.of_nat (fold_right (fun e n => length (fst e) + n)%nat 0%nat (map entry ss)) <= N.of_nat (length ss) * (s_regexps l + s_regexps r))%N).
      { induction ss as [|st ss IH]; intros H; [cbn; lia|]. cbn [map fold_right length]. pose proof (IH (fun x Hx => H x (or_intror Hx))) as Y.
        destruct (entry_ok st (H st (or_introl eq_refl))) as [_ I]. apply ids_length in I. nia. }
      apply X. apply incl_refl.
    Qed.

    Lemma accept_ok : (N.of_nat (length states) + N.of_nat total < two32)%N -> (s_regexps l + s_regexps r < two32)%N ->
      exists s s1, glue_accept k b1 l r p states = Ok s /\
        foldm (fun s '(from, to, c) => set_jump k s from c to) (det_connects ls trs) s = Ok s1 /\
        (placed k s1 -> shows k (build_shortcuts k s1) (cls_of p) t) /\
        s_buf s1 = b1 /\ s_states s1 = N.of_nat (length states) /\ s_nletters s1 = N.of_nat (part_size p) /\
        s_regexps s1 = (s_regexps l + s_regexps r)%N /\ s_fsize s1 = N.of_nat (total + length states) /\ s_owned s1 = true /\ s_null s1 = false.
    Proof.
      intros L1 L2. destruct (glue_letters_ok (s_letters l) (s_letters r)) as (Wp & All & _). fold p in Wp, All.
      unfold glue_accept. rewrite (mapm_ok _ _ (glue_entry k l r) entry states) by (intros; apply entry_ok; auto). cbn [bind]. fold total.
      unfold init_scanner, s_count. rewrite Nul, Nur. destruct (N.leb_spec two32 (N.of_nat (length states) + N.of_nat total)); [lia|].
      destruct (N.leb_spec two32 (s_regexps l + s_regexps r)); [lia|]. cbn [orb bind].
      set (row0 := mkRow (repeat NO_SHORTCUT (4 * k_nmask k)) 0 (repeat 0%N (part_size p))).
      destruct (glue_tables (map entry states) 0) as [fin idx] eqn:ET. destruct (glue_tables_ok _ _ _ _ ET) as (I1 & I2 & I3). rewrite map_length in I1.
      match goal with |- context [set_tables ?x _ _] => set (s0 := set_tables x fin idx) end.
      assert (R0 : s_rows s0 = repeat row0 (length states)) by reflexivity.
      assert (Lt : s_letters s0 = fill_letters (header_size k) p) by reflexivity.
      assert (Nl : s_nletters s0 = N.of_nat (part_size p)) by reflexivity.
      assert (St : s_states s0 = N.of_nat (length states)) by reflexivity.
      assert (Fs : s_fsize s0 = N.of_nat (total + length states)) by reflexivity.
      assert (In0 : s_initial s0 = index_to_state k s0 (N.of_nat 0)) by reflexivity.
      assert (Rg : s_regexps s0 = (s_regexps l + s_regexps r)%N) by reflexivity.
      assert (Bf : s_buf s0 = b1) by reflexivity.
      assert (Ow : s_owned s0 = true) by reflexivity.
      assert (Nu : s_null s0 = false) by reflexivity.
      assert (Fi : s_final s0 = fin) by reflexivity.
      assert (Id : s_index s0 = idx) by reflexivity.
      assert (SR : s0 = set_rows s0 (repeat row0 (length states))) by reflexivity.
      clearbody s0.
      (* tags *)
      assert (TG : exists rows1, foldm (fun s '(i, e) => set_tag s i (snd e)) (combine (seq 0 (length (map entry states))) (map entry states)) s0 = Ok (set_rows s0 rows1) /\
        rows1 = map (fun st => mkRow (repeat NO_SHORTCUT (4 * k_nmask k)) (snd (entry st)) (repeat 0%N (part_size p))) states).
      { assert (X : forall ss pre, foldm (fun s '(i, e) => set_tag s i (snd e)) (combine (seq (length pre) (length (map entry ss))) (map entry ss)) (set_rows s0 (pre ++ repeat row0 (length ss))) =
            Ok (set_rows s0 (pre ++ map (fun st => mkRow (repeat NO_SHORTCUT (4 * k_nmask k)) (snd (entry st)) (repeat 0%N (part_size p))) ss))).
        { induction ss as [|st ss IH]; intros pre; [reflexivity|]. cbn [map length seq combine foldm].
          unfold set_tag at 1. cbn [s_rows set_rows]. rewrite app_length, repeat_length. destruct (Nat.ltb_spec (length pre) (length pre + S (length ss))); [|lia]. cbn [bind].
          rewrite upd_app_r. cbn [repeat upd]. rewrite set_rows_rows. cbn [row0 r_masks r_jumps].
          match goal with |- context [mkRow ?a ?b ?c :: repeat row0 (length ss)] => set (rw := mkRow a b c) end.
          specialize (IH (pre ++ [rw])). rewrite <- !app_assoc in IH. cbn [app] in IH. rewrite app_length in IH. cbn [length] in IH. rewrite Nat.add_1_r in IH.
          exact IH. }
        specialize (X states []). cbn [app length] in X. rewrite <- SR in X. eexists. split; [exact X|reflexivity]. }
      destruct TG as (rows1 & TG & R1). exists (set_rows s0 rows1).
      assert (L1' : length rows1 = length states) by (rewrite R1; apply map_length).
      destruct ls_facts as [LI LN].
      pose proof (det_connects_in _ init nx (fun _ => true) ls LN LI max states trs G) as DC.
      destruct (jumps_ok k p s0 Wp Hs Lt Nl (det_connects ls trs) rows1) as (rows2 & J & L2' & JR).
      { intros from to c H1. apply DC in H1 as (st & i & A & _ & B & _). apply ls_letter in B as (_ & B & _). split; auto. rewrite L1'. apply nth_error_Some. congruence. }
      exists (set_rows s0 rows2). splits; auto.
      intros P. apply finish_shows; auto.
      - cbn [s_rows set_rows t glued m_states]. congruence.
      - cbn [s_letters set_rows]. rewrite Lt. apply fill_letters_length.
      - intros c Hc. destruct (All c Hc) as [c' R]. cbn [s_letters s_nletters set_rows]. rewrite Lt, Nl. destruct (fill_letters_ok (header_size k) p Wp c c' R Hs). split; auto. lia.
      - cbn [s_nletters set_rows]. rewrite Nl, Nat2N.id. intros x Hx. destruct (part_list_surj p Wp x Hx) as [c Hc]. apply ls_letter in Hc as (A & _ & B). eauto.
      - apply glued_ok.
      - intros i r' E. cbn [s_rows set_rows] in E. destruct (JR i r' E) as (r1 & E1 & M1 & F1 & LJ & Jn).
        rewrite R1, nth_error_map in E1. destruct (nth_error states i) as [st|] eqn:Es; cbn [option_map] in E1; [|discriminate]. apply some_inj in E1. subst r1.
        cbn [r_masks r_flags r_jumps] in *. rewrite repeat_length in *. cbn [s_nletters set_rows]. rewrite Nl, Nat2N.id, F1. splits; auto.
        + intros c Hc. destruct (All c Hc) as [c' R]. destruct (fill_letters_ok (header_size k) p Wp c c' R Hs) as [_ Lc].
          rewrite !index_set_rows. destruct (Jn _ Lc) as [[_ X]|(to & c2 & X1 & X2 & ->)].
          * exfalso. destruct (nx_class st c c') as [Hc' _]; auto; [eapply good_V; eapply nth_error_In; eauto|].
            pose proof (part_rep_rep _ _ _ Wp R) as R'. pose proof R' as R''. apply (part_list_rep p c' Wp) in R'' as [j R''].
            assert (Q : nth_error states (m_next t i c') = Some (nx st c')) by (apply good_next; auto).
            apply (X (m_next t i c') c').
            -- apply DC. exists st, j. auto.
            -- apply (wp_inv _ Wp) in R as (x & ms & Y1 & Y2). rewrite (cls_of_in p c c' x ms); auto. eapply cls_of_in; eauto. eapply wp_self; eauto.
          * f_equal. f_equal. apply DC in X1 as (st' & j & Y1 & _ & Y2 & Y3). rewrite Es in Y1. apply some_inj in Y1. subst st'.
            apply ls_letter in Y2 as (Z1 & Z2 & Z3).
            assert (c2 = c').
            { apply (wp_inv _ Wp) in R as (x & ms & Q1 & Q2). apply (wp_inv _ Wp) in Z2 as (x' & ms' & Q1' & Q2').
              rewrite (cls_of_in p c c' x ms), (cls_of_in p c2 c2 x' ms') in X2 by auto. subst x'. eapply (wp_inj _ Wp); eauto. }
            subst c2. destruct (nx_class st c c') as [_ Enx]; auto; [eapply good_V; eapply nth_error_In; eauto|].
            pose proof (good_next i st c Es Hc) as Q. rewrite Enx in Q. f_equal.
            pose proof (dg_nodup _ _ _ _ _ _ _ _ _ G) as ND. rewrite NoDup_nth_error in ND. f_equal. apply ND; [apply nth_error_Some; congruence|]. congruence.
        + unfold entry. cbn [snd t glued m_final]. rewrite Es. destruct (okd false (s_isfinal k l (fst st)) || okd false (s_isfinal k r (snd st))), (okd false (s_isdead k l (fst st)) && okd false (s_isdead k r (snd st))); reflexivity.
        + unfold entry. cbn [snd t glued m_dead]. rewrite Es. destruct (okd false (s_isfinal k l (fst st)) || okd false (s_isfinal k r (snd st))), (okd false (s_isdead k l (fst st)) && okd false (s_isdead k r (snd st))); reflexivity.
      - intros i Hi. cbn [t glued m_states] in Hi. apply nth_error_Some in Hi. destruct (nth_error states i) as [st|] eqn:Es; [|congruence].
        destruct (I3 [] eq_refl i (entry st)) as [b [B1 B2]].
        { rewrite nth_error_map, Es. reflexivity. }
        { destruct (entry_ok st (nth_error_In _ _ Es)) as [_ [_ F]]. eapply Forall_impl; [|exact F]. cbn beta. intros x Hx. unfold End_mark, two32 in *. lia. }
        exists b. cbn [s_index s_final set_rows]. rewrite Id, Fi. cbn [app] in B2. split; auto. rewrite B2. cbn [t glued m_accepted entry fst]. rewrite Es. reflexivity.
    Qed.
  End States.

  (** The pairs of states that some text leads to. *)
  Definition reached (st : N * N) : Prop := exists w, is_word w /\
    steps (scanner_ops k l) (s_initial l) w = Ok (fst st) /\ steps (scanner_ops k r) (s_initial r) w = Ok (snd st).
  Lemma reached_dreach : forall st, reached st <-> dreach _ init nx (fun _ => true) ls st.
  Proof.
    destruct (glue_letters_ok (s_letters l) (s_letters r)) as (Wp & All & _). fold p in Wp, All.
    intros st. split.
    - intros (w & Hw & E1 & E2). revert st E1 E2. induction w as [|c w IH] using rev_ind; intros [a b] E1 E2; cbn [fst snd] in *.
      + injection E1 as <-. injection E2 as <-. constructor.
      + apply Forall_app in Hw as [Hw Hc]. inversion Hc as [|? ? Hc' _]; subst.
        rewrite (sh_init _ _ _ _ Sl) in E1. rewrite (sh_init _ _ _ _ Sr) in E2. change (index_to_state k l (N.of_nat (m_start tl))) with (addr k l (m_start tl)) in E1.
        change (index_to_state k r (N.of_nat (m_start tr))) with (addr k r (m_start tr)) in E2.
        assert (W1 : is_word (w ++ [c])) by (apply Forall_app; auto).
        rewrite (proj1 (steps_addr k l cl tl Sl Ml _ _ (mo_start _ Ml) W1)) in E1. rewrite (proj1 (steps_addr k r cr tr Sr Mr _ _ (mo_start _ Mr) W1)) in E2.
        apply ok_inj in E1, E2.
        destruct (steps_addr k l cl tl Sl Ml w _ (mo_start _ Ml) Hw) as [F1 L1]. destruct (steps_addr k r cr tr Sr Mr w _ (mo_start _ Mr) Hw) as [F2 L2].
        specialize (IH Hw (pr (m_run tl (m_start tl) w, m_run tr (m_start tr) w))). rewrite (sh_init _ _ _ _ Sl), (sh_init _ _ _ _ Sr) in IH. specialize (IH F1 F2).
        destruct (All c Hc') as [c' R]. pose proof (part_rep_rep _ _ _ Wp R) as R'. apply (part_list_rep p c' Wp) in R' as [j R'].
        pose proof (dreach_next _ init nx (fun _ => true) ls _ c' j IH eq_refl R') as D.
        assert (Vp : V (pr (m_run tl (m_start tl) w, m_run tr (m_start tr) w))) by (split; cbn [pr fst snd]; [exists (m_run tl (m_start tl) w)|exists (m_run tr (m_start tr) w)]; auto).
        destruct (nx_class _ c c' Vp Hc' R) as [_ Q]. rewrite <- Q in D. unfold nx, pr in D. cbn [fst snd] in D. rewrite glue_nx in D by auto. cbn [okd] in D.
        unfold m_run in E1, E2, D. rewrite fold_left_app in E1, E2. cbn [fold_left] in E1, E2. rewrite <- E1, <- E2. exact D.
    - intros H. assert (X : reached st /\ V st); [|apply X]. induction H as [|s c i H [(w & Hw & E1 & E2) Vs] _ Hin].
      + split; [|apply init_V]. exists []. splits; [constructor|reflexivity|reflexivity].
      + destruct (glue_next_ok s c i Vs Hin) as [En Vn]. split; auto. apply ls_letter in Hin as [Hc _]. exists (w ++ [c]). splits.
        * apply Forall_app. auto.
        * unfold glue_next in En. destruct (s_next k l (fst s) c) as [a| | |] eqn:N1; try discriminate. cbn [bind] in En.
          destruct (s_next k r (snd s) c) as [b| | |] eqn:N2; try discriminate. cbn [bind] in En. apply ok_inj in En. rewrite <- En. cbn [fst].
          rewrite steps_app, E1. cbn [bind steps scanner_ops o_step]. rewrite N1. reflexivity.
        * unfold glue_next in En. destruct (s_next k l (fst s) c) as [a| | |] eqn:N1; try discriminate. cbn [bind] in En.
          destruct (s_next k r (snd s) c) as [b| | |] eqn:N2; try discriminate. cbn [bind] in En. apply ok_inj in En. rewrite <- En. cbn [snd].
          rewrite steps_app, E2. cbn [bind steps scanner_ops o_step]. rewrite N2. reflexivity.
  Qed.

  Variables (b1 b2 : N) (null : scanner) (maxSize : N).
  Let lim := (if maxSize =? 0 then 80000 else maxSize)%N.

  (** More than [lim] + 1 pairs of states *)
  Definition too_many : Prop := exists sts, NoDup sts /\ (N.of_nat (length sts) = lim + 2)%N /\ forall st, In st sts -> reached st.

  Lemma glue_too_many : (lim <= 262141)%N -> too_many -> glue k b1 b2 null l r maxSize = Ok null.
  Proof.
    intros L (sts & D1 & D2 & D3). unfold glue. rewrite Nul, Nur. fold p. fold ls. fold lim. fold init.
    rewrite (glue_run_ok table_capacity ltac:(reflexivity) _ nx V ls glue_next_ok init lim init_V) by (unfold table_capacity; lia).
    destruct ls_facts as [LI LN]. rewrite (proj2 (det_run_fail_iff _ pair_eqb init nx (fun _ => true) ls pair_eqb_ok LN LI lim)); [reflexivity|].
    exists sts. splits; auto. intros st H. apply reached_dreach. auto.
  Qed.
  Lemma glue_fits : (lim <= 262141)%N -> ~ too_many ->
    (s_regexps l + s_regexps r <= 16000)%N \/ (exists s, glue k b1 b2 null l r maxSize = Ok s) ->
    exists s t, glue k b1 b2 null l r maxSize = Ok s /\ machine_ok t /\
      (room k b1 s -> placed k s -> exists cls, shows k s cls t) /\
      (forall w, is_word w ->
        let q := m_run t (m_start t) w in let ql := m_run tl (m_start tl) w in let qr := m_run tr (m_start tr) w in
        m_final t q = m_final tl ql || m_final tr qr /\ m_dead t q = m_dead tl ql && m_dead tr qr /\
        m_accepted t q = m_accepted tl ql ++ map (fun i => (i + s_regexps l)%N) (m_accepted tr qr)) /\
      (forall q, q < m_states t -> ids_ok (s_regexps s) (m_accepted t q)) /\
      s_buf s = b2 /\ s_regexps s = (s_regexps l + s_regexps r)%N /\ s_owned s = true /\ s_null s = false /\
      (s_states s <= lim + 1)%N /\ (s_nletters s <= 264)%N /\ (s_fsize s < two32)%N /\ (s_regexps s < two32)%N.
  Proof.
    intros L NT RG. unfold glue in *. rewrite Nul, Nur in *. fold p in RG |- *. fold ls in RG |- *. fold lim in RG |- *. fold init in RG |- *.
    rewrite (glue_run_ok table_capacity ltac:(reflexivity) _ nx V ls glue_next_ok init lim init_V) in * by (unfold table_capacity; lia).
    destruct ls_facts as [LI LN]. pose proof (det_run_ok _ pair_eqb init nx (fun _ => true) ls pair_eqb_ok LN LI lim) as D.
    destruct (det_run pair_eqb init nx (fun _ => true) ls lim) as [states trs| |].
    2:{ destruct NT. destruct D as (sts & A & B & C). exists sts. splits; auto. intros st H. apply reached_dreach. auto. }
    2:{ destruct D. }
    destruct D as [G LS]. cbn [bind].
    pose proof (total_le lim states trs G) as TL.
    assert (AB : (N.of_nat (length states) + N.of_nat (fold_right (fun e n => length (fst e) + n)%nat 0%nat (map entry states)) < two32)%N /\ (s_regexps l + s_regexps r < two32)%N).
    { destruct RG as [RG|(s & RG)]; [unfold two32; split; nia|]. cbn [bind] in RG. unfold glue_accept in RG.
      rewrite (mapm_ok _ _ (glue_entry k l r) entry states) in RG by (intros; apply (entry_ok lim states trs G); auto). cbn [bind] in RG.
      unfold init_scanner, s_count in RG. rewrite Nul, Nur in RG.
      destruct (N.leb_spec two32 (N.of_nat (length states) + N.of_nat (fold_right (fun e n => length (fst e) + n)%nat 0%nat (map entry states)))); [discriminate|].
      destruct (N.leb_spec two32 (s_regexps l + s_regexps r)); [discriminate|]. auto. }
    destruct AB as [AB1 AB2].
    destruct (accept_ok lim states trs G b1) as (s & s1 & E1 & E2 & Sh & F1 & F2 & F3 & F4 & F5 & F6 & F7); auto.
    rewrite E1. cbn [bind]. rewrite E2. cbn [bind]. set (s2 := build_shortcuts k s1) in *.
    assert (C : copy_scanner k b2 s2 = deep_copy k k b2 s2) by (unfold copy_scanner; replace (s_owned s2) with true by (symmetry; exact F6); reflexivity).
    eexists. exists (glued states). split; [rewrite C; reflexivity|].
    splits; auto.
    - apply (glued_ok lim states trs G).
    - intros R P. exists (cls_of p). apply deep_copy_ok; auto; [|apply (glued_ok lim states trs G)].
      apply Sh. destruct R as [R1 R2]. destruct P as [P1 P2 P3]. cbn [deep_copy s_fsize s_states s_nletters s_buf] in *.
      change (s_fsize s2) with (s_fsize s1) in *. change (s_states s2) with (s_states s1) in *. change (s_nletters s2) with (s_nletters s1) in *.
      split; [rewrite F1; auto| |exact P3]. unfold s_base. rewrite F1. lia.
    - apply (glued_outcome lim states trs G).
    - intros q Hq. cbn [deep_copy s_regexps]. change (s_regexps s2) with (s_regexps s1). rewrite F4. cbn [glued m_states m_accepted] in *.
      apply nth_error_Some in Hq. destruct (nth_error states q) as [st|] eqn:Es; [|congruence]. apply (entry_ok lim states trs G st (nth_error_In _ _ Es)).
    - cbn [deep_copy s_states]. change (s_states s2) with (s_states s1). rewrite F2. lia.
    - cbn [deep_copy s_nletters]. change (s_nletters s2) with (s_nletters s1). rewrite F3.
      destruct (glue_letters_ok (s_letters l) (s_letters r)) as (Wp & _). pose proof (part_size_le _ Wp). unfold p. lia.
    - cbn [deep_copy s_fsize]. change (s_fsize s2) with (s_fsize s1). rewrite F5. lia.
    - cbn [deep_copy s_regexps]. change (s_regexps s2) with (s_regexps s1). rewrite F4. lia.
  Qed.
  (** Above the capacity of the table. *)
  Lemma glue_overflow : (262144 <= lim)%N ->
    (exists sts, NoDup sts /\ (N.of_nat (length sts) = 262145)%N /\ forall st, In st sts -> reached st) ->
    glue k b1 b2 null l r maxSize = UB.
  Proof.
    intros L (sts & D1 & D2 & D3). unfold glue. rewrite Nul, Nur. fold p. fold ls. fold lim. fold init.
    destruct ls_facts as [LI LN].
    rewrite (glue_run_overflow table_capacity ltac:(reflexivity) _ nx V ls glue_next_ok init lim init_V); auto.
    exists sts. splits; auto. intros st H. apply reached_dreach. auto.
  Qed.
End Glue.
