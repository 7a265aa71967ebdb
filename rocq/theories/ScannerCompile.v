(** The constructor Scanner(Fsm&): the result shows the canonical automaton. *)
From Coq Require Import List Bool Arith NArith Lia.
From Verif Require Import Util Spec PartitionModel FsmModel DetermineModel MinimizeModel PartitionProofs Nfa FsmSem FsmBasics
  DeadProofs EpsProofs DetProofs MinProofs CompProofs Api ApiProofs BuildFacts TagFacts RunModel RunSpec RunProofs PrefixProofs ScannerModel ScannerSpec ScannerProofs ScannerBuild.
Import ListNotations.

(** ** Deterministic tables *)
(** All a table is filled from: one destination for every class and every state.  Rows may
    also list the other letters of a class (MakeHalfFinal leaves them). *)
Record det_any (f : fsm) : Prop := {
  da_all : all_in_part f;
  da_in : forall p c, pres f p c -> exists r, part_rep (letters f) c = Some r;
  da_fun : forall p c, p < size f -> part_rep (letters f) c = Some c ->
    exists q, q < size f /\ mfind c (row_at f p) = Some [q]
}.
Lemma det_any_of : forall f, det_ok f -> det_any f.
Proof. intros f [A K F]. split; auto. intros p c H. exists c. eauto. Qed.
Coercion det_any_of : det_ok >-> det_any.
#[export] Hint Resolve det_any_of : core.

Section DetAny.
  Variable f : fsm.
  Hypothesis W : wf f.
  Hypothesis D : det_any f.
  Lemma tedge : forall p c q, edge f p c q <-> exists r, part_rep (letters f) c = Some r /\ mfind r (row_at f p) = Some [q].
  Proof.
    intros p c q. unfold edge, erep. destruct (part_rep (letters f) c) as [r|] eqn:R.
    - split.
      + intros H. exists r. split; auto. change (raw f p r q) in H. pose proof (raw_bound _ _ _ _ (wf_rows _ W) H) as [B _].
        destruct (da_fun _ D p r B) as [q' [_ M]]; [eapply part_rep_rep; eauto; apply W|].
        unfold raw, row_get in H. rewrite M in *. destruct H as [->|[]]. auto.
      + intros [r' [[= <-] M]]. unfold row_get. rewrite M. left; auto.
    - split; [|intros [r [[=] _]]]. intros H. exfalso. change (raw f p c q) in H. apply raw_pres in H. apply (da_in _ D) in H as [r H]. congruence.
  Qed.
  Lemma tedge_no_eps : forall p q, ~ edge f p Epsilon q.
  Proof. intros p q H. apply tedge in H as [r [H _]]. apply part_rep_not_eps in H; [tauto|apply W]. Qed.
  Lemma tedge_fun : forall p c q q', edge f p c q -> edge f p c q' -> q = q'.
  Proof. intros p c q q' H1 H2. apply tedge in H1 as [r [A B]]. apply tedge in H2 as [r' [A' B']]. congruence. Qed.
  Lemma tpath_fun : forall w p q q', path (edge f) p w q -> path (edge f) p w q' -> q = q'.
  Proof.
    induction w as [|c w IH]; intros p q q' P P'.
    - destruct (path_inv _ _ _ _ P) as [[_ ->]|[(m & H1 & P1)|(c & m & w1 & E & _)]]; [|destruct (tedge_no_eps _ _ H1)|discriminate].
      destruct (path_inv _ _ _ _ P') as [[_ ->]|[(m & H1 & P1)|(c & m & w1 & E & _)]]; [|destruct (tedge_no_eps _ _ H1)|discriminate]. auto.
    - destruct (path_inv _ _ _ _ P) as [[E _]|[(m & H1 & P1)|(c1 & m & w1 & E & Hc & H1 & P1)]]; [discriminate|destruct (tedge_no_eps _ _ H1)|].
      injection E as <- <-.
      destruct (path_inv _ _ _ _ P') as [[E _]|[(m' & H1' & P1')|(c1 & m' & w1 & E & Hc' & H1' & P1')]]; [discriminate|destruct (tedge_no_eps _ _ H1')|].
      injection E as <- <-. rewrite (tedge_fun _ _ _ _ H1 H1') in *. eauto.
  Qed.
End DetAny.

(** ** The letter table *)
Lemma part_size_le : forall p, wf_part p -> part_size p <= 264.
Proof.
  intros p W. unfold part_size. rewrite <- (map_length fst). rewrite <- (map_length N.to_nat).
  rewrite <- (seq_length 264 0). apply NoDup_incl_length.
  - apply FinFun.Injective_map_NoDup; [intros x y; apply N2Nat.inj|].
    pose proof (wp_ssorted _ W) as Hs. unfold msorted in Hs. clear W. induction Hs as [|x l Hs IH Hf]; cbn; constructor; auto.
    intros X. apply in_map_iff in X as [y [E Hy]]. rewrite Forall_forall in Hf. specialize (Hf y Hy). rewrite E, kltb_irr in Hf. discriminate.
  - intros x H. apply in_map_iff in H as [c [<- H]]. apply (part_rep_key _ _ W) in H. apply (wp_range _ W) in H as [H _].
    apply in_seq. unfold MaxChar in H. lia.
Qed.

Definition cls_of (p : partition) (c : N) : nat := match part_index p c with Ok i => i | _ => 0 end.

Lemma cls_of_in : forall p c r i ms, wf_part p -> mfind r (pset p) = Some (i, ms) -> In c ms -> cls_of p c = i.
Proof.
  intros p c r i ms W H I. unfold cls_of, part_index. rewrite (proj2 (wp_inv _ W c r)); [|eauto]. rewrite H. reflexivity.
Qed.

Section FillLetters.
  Variables (hs : N) (p : partition).
  Hypothesis W : wf_part p.
  Let inner := fun (v : N) (acc ms : list N) => fold_left (fun a c => upd (N.to_nat c) (fun _ => v) a) ms acc.
  Lemma inner_length : forall v ms acc, length (inner v acc ms) = length acc.
  Proof. unfold inner. induction ms as [|c ms IH]; intros acc; cbn [fold_left]; auto. rewrite IH. apply upd_length. Qed.
  Lemma inner_nth : forall v ms acc j, j < length acc -> nth_error (inner v acc ms) j =
    if existsb (fun c => Nat.eqb (N.to_nat c) j) ms then Some v else nth_error acc j.
  Proof.
    unfold inner. induction ms as [|c ms IH]; intros acc j H; cbn [fold_left existsb]; auto.
    rewrite IH by (rewrite upd_length; auto). destruct (existsb _ ms); [rewrite orb_true_r; auto|]. rewrite orb_false_r.
    rewrite nth_error_upd, Nat.eqb_sym. destruct (Nat.eqb (N.to_nat c) j); auto.
    apply nth_error_Some in H. destruct (nth_error acc j); [reflexivity|congruence].
  Qed.
  Let outer := fun (acc : list N) (L : smap N (nat * list N)) =>
    fold_left (fun acc '(_, (idx, ms)) => fold_left (fun a c => upd (N.to_nat c) (fun _ => (N.of_nat idx + hs) mod 65536)%N a) ms acc) L acc.
  Lemma outer_length : forall L acc, length (outer acc L) = length acc.
  Proof. unfold outer. induction L as [|[r [i ms]] L IH]; intros acc; cbn [fold_left]; auto. rewrite IH. apply inner_length. Qed.
  (** once right, the entry stays right *)
  Lemma outer_nth : forall L acc c, (forall r i ms, In (r, (i, ms)) L -> In c ms -> i = cls_of p c) -> N.to_nat c < length acc ->
    (nth_error acc (N.to_nat c) = Some ((N.of_nat (cls_of p c) + hs) mod 65536)%N \/ exists r i ms, In (r, (i, ms)) L /\ In c ms) ->
    nth_error (outer acc L) (N.to_nat c) = Some ((N.of_nat (cls_of p c) + hs) mod 65536)%N.
  Proof.
    unfold outer. induction L as [|[r [i ms]] L IH]; intros acc c HL Hc H; cbn [fold_left].
    - destruct H as [H|(r & i & ms & [] & _)]. exact H.
    - fold (inner ((N.of_nat i + hs) mod 65536)%N acc ms). apply IH.
      + intros r' i' ms' X. apply (HL r' i' ms'). right; auto.
      + rewrite inner_length. auto.
      + rewrite inner_nth by auto. destruct (existsb (fun x => Nat.eqb (N.to_nat x) (N.to_nat c)) ms) eqn:E.
        * left. apply existsb_exists in E as [x [Hx E]]. apply Nat.eqb_eq, N2Nat.inj in E. subst x.
          rewrite <- (HL r i ms (or_introl eq_refl) Hx). reflexivity.
        * destruct H as [H|(r' & i' & ms' & [H|H] & I)]; auto.
          -- injection H as -> -> ->. exfalso. rewrite <- not_true_iff_false in E. apply E. apply existsb_exists.
             exists c. split; auto. apply Nat.eqb_refl.
          -- right. exists r', i', ms'. auto.
  Qed.
  Lemma fill_letters_length : length (fill_letters hs p) = 264.
  Proof. unfold fill_letters. fold (outer (repeat 0%N (N.to_nat MaxChar)) (pset p)). rewrite outer_length, repeat_length. reflexivity. Qed.
  Lemma fill_letters_ok : forall c r, part_rep p c = Some r -> (hs + 264 <= 65536)%N ->
    nth_error (fill_letters hs p) (N.to_nat c) = Some (N.of_nat (cls_of p c) + hs)%N /\ cls_of p c < part_size p.
  Proof.
    intros c r H Hs. pose proof (wp_range _ W _ _ H) as [Hc _]. unfold MaxChar in Hc.
    apply (wp_inv _ W) in H as [i [ms [H1 H2]]].
    assert (C : cls_of p c = i) by (eapply cls_of_in; eauto).
    assert (L : i < part_size p) by (eapply wp_idx; eauto).
    split; [|rewrite C; auto]. unfold fill_letters. fold (outer (repeat 0%N (N.to_nat MaxChar)) (pset p)).
    rewrite outer_nth.
    - f_equal. apply N.mod_small. pose proof (part_size_le p W). lia.
    - intros r' i' ms' X I. symmetry. apply (cls_of_in p c r' i' ms'); auto. apply msorted_find; auto. apply W.
    - rewrite repeat_length. unfold MaxChar. lia.
    - right. exists r, i, ms. split; auto. apply mfind_in; auto.
  Qed.
End FillLetters.

Lemma part_list_surj : forall p, wf_part p -> forall l, l < part_size p -> exists c, In (c, l) (part_list p).
Proof.
  intros p W l Hl. assert (X : In l (map snd (part_list p))).
  { apply (NoDup_length_incl (l := map snd (part_list p)) (l' := seq 0 (part_size p))).
    - apply part_list_nodup; auto.
    - rewrite seq_length, map_length, part_list_len. auto.
    - intros x Hx. apply in_map_iff in Hx as [[c i] [<- Hx]]. apply in_seq. pose proof (part_list_idx p W c i Hx). rewrite part_list_len in H. unfold part_size. cbn [snd]. lia.
    - apply in_seq. lia. }
  apply in_map_iff in X as [[c i] [E X]]. cbn in E. subst i. eauto.
Qed.

(** ** Row by row updates *)
Lemma foldm_rows : forall (step : scanner -> nat -> res scanner) (F : nat -> srow -> srow) s0 n,
  (forall rows q, length rows = n -> q < n -> step (set_rows s0 rows) q = Ok (set_rows s0 (upd q (F q) rows))) ->
  forall m a rows, length rows = n -> a + m <= n ->
  exists rows', foldm step (seq a m) (set_rows s0 rows) = Ok (set_rows s0 rows') /\ length rows' = n /\
    forall i, nth_error rows' i = if (a <=? i) && (i <? a + m) then option_map (F i) (nth_error rows i) else nth_error rows i.
Proof.
  intros step F s0 n H. induction m as [|m IH]; intros a rows Hr Ha; cbn [seq foldm].
  - exists rows. splits; auto. intros i. destruct (Nat.leb_spec a i), (Nat.ltb_spec i (a + 0)); auto; lia.
  - rewrite H by (auto; lia). cbn [bind]. destruct (IH (S a) (upd a (F a) rows)) as (rows' & E & L & X); [rewrite upd_length; auto|lia|].
    exists rows'. splits; auto. intros i. rewrite X, nth_error_upd.
    destruct (Nat.eqb_spec i a) as [->|D].
    + destruct (Nat.leb_spec (S a) a), (Nat.leb_spec a a), (Nat.ltb_spec a (a + S m)); cbn [andb]; try lia. reflexivity.
    + destruct (Nat.leb_spec (S a) i), (Nat.leb_spec a i), (Nat.ltb_spec i (S a + m)), (Nat.ltb_spec i (a + S m)); cbn [andb]; auto; lia.
Qed.

Lemma upd_upd : forall A i (f g : A -> A) l, upd i f (upd i g l) = upd i (fun x => f (g x)) l.
Proof. intros A i f g l. revert i. induction l as [|x l IH]; intros [|i]; cbn; auto. rewrite IH. reflexivity. Qed.
Lemma upd_ext : forall A i (f g : A -> A) l, (forall x, f x = g x) -> upd i f l = upd i g l.
Proof. intros A i f g l H. revert i. induction l as [|x l IH]; intros [|i]; cbn; auto; congruence. Qed.
Lemma set_rows_rows : forall s x y, set_rows (set_rows s x) y = set_rows s y. Proof. reflexivity. Qed.
Lemma index_set_rows : forall k s x i, index_to_state k (set_rows s x) i = index_to_state k s i. Proof. reflexivity. Qed.

Section Jumps.
  Variables (k : kind) (g : fsm) (s0 : scanner).
  Hypothesis Wg : wf g.
  Hypothesis Dg : det_any g.
  Let p := letters g.
  Let n := size g.
  Hypothesis Hs : (header_size k + 264 <= 65536)%N.
  Hypothesis Lt : s_letters s0 = fill_letters (header_size k) p.
  Hypothesis Nl : s_nletters s0 = N.of_nat (part_size p).

  (** the successor *)
  Definition nxt (q : nat) (c : N) : nat :=
    match mfind (erep g c) (row_at g q) with Some [x] => x | _ => 0 end.
  Lemma nxt_ok : forall q c r, q < n -> part_rep p c = Some r -> nxt q c < n /\ mfind r (row_at g q) = Some [nxt q c].
  Proof.
    intros q c r Hq Hc. destruct (da_fun _ Dg q r Hq (part_rep_rep _ _ _ (wf_letters _ Wg) Hc)) as [x [Hx E]].
    unfold nxt, erep. fold p. rewrite Hc, E. auto.
  Qed.
  Lemma dest_ok : forall q c, q < n -> part_rep p c = Some c -> destinations g q c = [nxt q c].
  Proof.
    intros q c Hq Hc. destruct (nxt_ok q c c Hq Hc) as [_ E]. unfold destinations, translate. fold p. rewrite Hc.
    assert (X : (if negb (sparsed g) || N.eqb c Epsilon then c else c) = c) by (destruct (negb (sparsed g) || N.eqb c Epsilon); auto).
    rewrite X. unfold row_get. rewrite E. reflexivity.
  Qed.

  Let D (from to : nat) : N := diff k (index_to_state k s0 (N.of_nat from)) (index_to_state k s0 (N.of_nat to)).
  Definition put (from : nat) (js : list N) (e : N * nat) : list N := upd (snd e) (fun _ => D from (nxt from (fst e))) js.

  Lemma set_jump_ok : forall rows from c to, from < length rows -> part_rep p c = Some c ->
    set_jump k (set_rows s0 rows) from c to =
    Ok (set_rows s0 (upd from (fun r => mkRow (r_masks r) (r_flags r) (upd (cls_of p c) (fun _ => D from to) (r_jumps r))) rows)).
  Proof.
    intros rows from c to Hf Hc. destruct (fill_letters_ok (header_size k) p (wf_letters _ Wg) c c Hc Hs) as [E L].
    unfold set_jump. cbn [s_letters s_nletters s_rows set_rows]. rewrite Lt. apply nth_error_nth with (d := 0%N) in E. rewrite E, Nl.
    destruct (N.ltb_spec (N.of_nat (cls_of p c) + header_size k) (header_size k)); [lia|].
    replace (N.of_nat (cls_of p c) + header_size k - header_size k)%N with (N.of_nat (cls_of p c)) by lia. rewrite Nat2N.id.
    destruct (N.ltb_spec (N.of_nat (cls_of p c)) (N.of_nat (part_size p))); [|lia].
    destruct (Nat.ltb_spec from (length rows)); [|lia]. reflexivity.
  Qed.

  Lemma row_jumps_ok : forall L rows from, length rows = n -> from < n -> (forall c i, In (c, i) L -> part_rep p c = Some c /\ cls_of p c = i) ->
    foldm (fun s '(c, _) => foldm (fun s to => set_jump k s from c to) (destinations g from c) s) L (set_rows s0 rows)
    = Ok (set_rows s0 (upd from (fun r => mkRow (r_masks r) (r_flags r) (fold_left (put from) L (r_jumps r))) rows)).
  Proof.
    induction L as [|[c i] L IH]; intros rows from Hr Hf HL; cbn [foldm fold_left].
    - do 2 f_equal. clear. revert from. induction rows as [|r rows IHr]; intros [|from]; cbn; auto.
      + destruct r; reflexivity.
      + rewrite <- IHr. reflexivity.
    - destruct (HL c i (or_introl eq_refl)) as [Hc Hi]. rewrite dest_ok by auto. cbn [foldm].
      rewrite set_jump_ok by (auto; lia). cbn [bind]. rewrite IH; auto.
      + rewrite upd_upd. do 2 f_equal. apply upd_ext. intros r. unfold put at 3. cbn [fst snd r_masks r_flags r_jumps]. rewrite <- Hi. reflexivity.
      + rewrite upd_length. auto.
      + intros c' i' X. apply HL. right; auto.
  Qed.

  Lemma put_length : forall L from js, length (fold_left (put from) L js) = length js.
  Proof. induction L as [|e L IH]; intros from js; cbn [fold_left]; auto. rewrite IH. apply upd_length. Qed.
  Lemma put_nth : forall L from js c, (forall c' i, In (c', i) L -> part_rep p c' = Some c' /\ cls_of p c' = i) ->
    part_rep p c = Some c -> cls_of p c < length js ->
    (nth_error js (cls_of p c) = Some (D from (nxt from c)) \/ In c (map fst L)) ->
    nth_error (fold_left (put from) L js) (cls_of p c) = Some (D from (nxt from c)).
  Proof.
    induction L as [|[c' i] L IH]; intros from js c HL Hc Lc H; cbn [fold_left].
    - destruct H as [H|[]]. exact H.
    - destruct (HL c' i (or_introl eq_refl)) as [Hc' Hi].
      apply IH; auto.
      + intros c'' i'' X. apply HL. right; auto.
      + unfold put. rewrite upd_length. auto.
      + unfold put. cbn [fst snd]. rewrite nth_error_upd. destruct (Nat.eqb_spec (cls_of p c) i) as [E|E].
        * left. apply nth_error_Some in Lc. destruct (nth_error js (cls_of p c)); [|congruence]. cbn [option_map].
          assert (c' = c) as ->; [|reflexivity].
          pose proof (wf_letters _ Wg) as Wp.
          destruct (part_index_ok p c c Wp Hc) as (a & A1 & _ & _). destruct (part_index_ok p c' c' Wp Hc') as (b & B1 & _ & _).
          eapply (part_index_inj p c' c c' c a Wp); eauto. unfold cls_of in *. rewrite A1 in *. rewrite B1 in *. congruence.
        * destruct H as [H|[H|H]]; auto. cbn [fst] in H. subst c'. congruence.
  Qed.
End Jumps.

(** ** The final table *)
Lemma final_table_ok : forall rows pos fin idx, final_table rows pos = (fin, idx) ->
  length idx = length rows /\
  length fin = length rows + length (filter (fun r => negb (N.land (r_flags r) FinalFlag =? 0)%N) rows) /\
  forall pre post, N.of_nat (length pre) = pos -> forall i r, nth_error rows i = Some r ->
    exists b, nth_error idx i = Some b /\
      until_end (skipn (N.to_nat b) (pre ++ fin ++ post)) = Ok (if negb (N.land (r_flags r) FinalFlag =? 0)%N then [0%N] else []).
Proof.
  induction rows as [|r rows IH]; intros pos fin idx E; cbn [final_table] in E.
  - injection E as <- <-. splits; auto. intros pre post Hp [|i] x Hx; discriminate.
  - set (here := if negb (N.land (r_flags r) FinalFlag =? 0)%N then [0%N; End_mark] else [End_mark]) in *.
    destruct (final_table rows (pos + N.of_nat (length here))) as [fin' idx'] eqn:E'. injection E as <- <-.
    destruct (IH _ _ _ E') as (I1 & I2 & I3). splits.
    + cbn [length]. auto.
    + rewrite app_length, I2. cbn [length filter]. unfold here. destruct (negb (N.land (r_flags r) FinalFlag =? 0)%N); cbn [length]; lia.
    + intros pre post Hp [|i] x Hx; cbn [nth_error] in *.
      * injection Hx as <-. exists pos. split; auto. rewrite <- Hp, Nat2N.id, skipn_app, skipn_all, Nat.sub_diag. cbn [skipn app].
        unfold here. destruct (negb (N.land (r_flags r) FinalFlag =? 0)%N); cbn; reflexivity.
      * destruct (I3 (pre ++ here) post) with (i := i) (r := x) as [b [B1 B2]]; auto; [rewrite app_length; lia|].
        exists b. split; auto. rewrite <- app_assoc. rewrite <- !app_assoc in B2. exact B2.
Qed.

(** ** The machine of a deterministic automaton *)
Definition machine_of (g : fsm) (dead : list nat) : machine :=
  mkMachine (size g) (initial g) (nxt g) (is_final g) (fun q => smem q dead) (fun q => if is_final g q then [0%N] else []).

Lemma machine_path : forall g d, wf g -> det_any g -> forall w q, q < size g -> is_word w ->
  path (edge g) q w (m_run (machine_of g d) q w) /\ m_run (machine_of g d) q w < size g.
Proof.
  intros g d W D. induction w as [|c w IH]; intros q Hq Hw; [cbn; split; auto; constructor|].
  inversion Hw as [|? ? [H1 H2] Hw']; subst. unfold m_run. cbn [fold_left machine_of m_next].
  destruct (da_all _ D c H1 H2) as [r Hr]. destruct (nxt_ok g W D q c r Hq Hr) as [Hn E].
  destruct (IH (nxt g q c) Hn Hw') as [P L]. split; auto. eapply path_step; eauto. apply (tedge g W D). eauto.
Qed.
Lemma machine_final : forall g d, wf g -> det_any g -> forall w q, q < size g -> is_word w ->
  (m_final (machine_of g d) (m_run (machine_of g d) q w) = true <-> acc_from g q w).
Proof.
  intros g d W D w q Hq Hw. destruct (machine_path g d W D w q Hq Hw) as [P L]. cbn [machine_of m_final]. unfold is_final. rewrite smem_in.
  split.
  - intros F. exists (m_run (machine_of g d) q w). auto.
  - intros [x [Px Fx]]. rewrite (tpath_fun g W D w q _ _ P Px). auto.
Qed.
Lemma machine_dead : forall g d, wf g -> det_any g -> dead_states g = Ok d -> forall q, q < size g -> (exists u, path (edge g) (initial g) u q) ->
  (m_dead (machine_of g d) q = true <-> forall w, is_word w -> ~ acc_from g q w).
Proof.
  intros g d W D Ed q Hq R. cbn [machine_of m_dead]. rewrite smem_in. destruct (dead_states_ok g W) as [d' [E' X]]. rewrite Ed in E'. injection E' as <-.
  rewrite X. split.
  - intros [_ [Hd|Hd]] w Hw [x [Px Fx]].
    + apply Hd. destruct R as [u Pu]. exists u. auto.
    + apply Hd. exists w, x. auto.
  - intros H. split; auto. right. intros [w [r [P F]]]. apply (H w); [|exists r; auto].
    clear - P W. induction P; auto; [constructor|]. constructor; auto. split; auto. eapply edge_letter; eauto.
Qed.
Lemma machine_of_ok : forall g d, wf g -> det_any g -> dead_states g = Ok d -> machine_ok (machine_of g d).
Proof.
  intros g d W D Ed. split; cbn [machine_of m_start m_states m_next].
  - apply W.
  - intros q c Hq [H1 H2]. destruct (da_all _ D c H1 H2) as [r Hr]. apply (nxt_ok g W D q c r Hq Hr).
  - intros u w Hu Hw Hd. change (initial g) with (m_start (machine_of g d)) in *. apply not_true_iff_false.
    destruct (machine_path g d W D u (initial g) (wf_init _ W) Hu) as [P L].
    unfold m_run. rewrite fold_left_app. fold (m_run (machine_of g d) (m_start (machine_of g d)) u).
    fold (m_run (machine_of g d) (m_run (machine_of g d) (m_start (machine_of g d)) u) w).
    change (m_start (machine_of g d)) with (initial g) in *. rewrite machine_final by auto.
    apply (proj1 (machine_dead g d W D Ed _ L (ex_intro _ u P)) Hd w Hw).
Qed.

(** ** Assembly *)
Lemma filter_seq_le : forall n (S : list nat) P, NoDup S -> (forall q, q < n -> P q = true -> In q S) -> length (filter P (seq 0 n)) <= length S.
Proof.
  intros n S P N H. apply NoDup_incl_length.
  - apply NoDup_filter, seq_NoDup.
  - intros q X. apply filter_In in X as [X Y]. apply in_seq in X. apply H; auto. lia.
Qed.
Lemma filter_map_len : forall A B (h : A -> B) P l, length (filter P (map h l)) = length (filter (fun x => P (h x)) l).
Proof. intros A B h P l. induction l as [|x l IH]; cbn [map filter]; auto. destruct (P (h x)); cbn [length]; congruence. Qed.
Lemma nth_error_list_eq : forall A (l l' : list A), (forall i, nth_error l i = nth_error l' i) -> l = l'.
Proof.
  intros A l. induction l as [|x l IH]; intros [|y l'] H; auto; try (specialize (H 0); discriminate).
  f_equal; [specialize (H 0); cbn in H; congruence|]. apply IH. intros i. exact (H (S i)).
Qed.
Lemma nth_error_seq0 : forall n i, nth_error (seq 0 n) i = if i <? n then Some i else None.
Proof.
  intros n i. destruct (Nat.ltb_spec i n).
  - rewrite nth_error_nth' with (d := 0) by (rewrite seq_length; auto). rewrite seq_nth; auto.
  - apply nth_error_None. rewrite seq_length. auto.
Qed.
Lemma nth_error_combine_seq : forall A (l : list A) i, nth_error (combine (seq 0 (length l)) l) i = option_map (fun x => (i, x)) (nth_error l i).
Proof.
  intros A l i. enough (X : forall a, nth_error (combine (seq a (length l)) l) i = option_map (fun x => (a + i, x)) (nth_error l i)) by apply X.
  revert i. induction l as [|x l IH]; intros i a; cbn [length seq combine]; [destruct i; reflexivity|].
  destruct i as [|i]; cbn [nth_error option_map]; [rewrite Nat.add_0_r; auto|]. rewrite IH. rewrite Nat.add_succ_r. reflexivity.
Qed.

Lemma tag_flags : forall g d q, fsm_tag g q = 0%N ->
  negb (N.land (tag_value g d q) FinalFlag =? 0)%N = is_final g q /\ negb (N.land (tag_value g d q) DeadFlag =? 0)%N = smem q d.
Proof.
  intros g d q T. unfold tag_value. rewrite T. destruct (is_final g q), (smem q d); split; reflexivity.
Qed.

Definition row_final (r : srow) : bool := negb (N.land (r_flags r) FinalFlag =? 0)%N.
Lemma some_inj : forall A (a b : A), Some a = Some b -> a = b. Proof. congruence. Qed.
Lemma ok_inj : forall A (a b : A), Ok a = Ok b -> a = b. Proof. congruence. Qed.

Section Build.
  Variables (k : kind) (g : fsm) (s0 : scanner).
  Hypothesis Wg : wf g.
  Hypothesis Dg : det_any g.
  Hypothesis Tg : forall q, fsm_tag g q = 0%N.
  Let p := letters g.
  Let n := size g.
  Hypothesis Hs : (header_size k + 264 <= 65536)%N.
  Hypothesis E0 : forall buf, s_buf s0 = buf -> init_scanner k buf n p (length (finals g)) (initial g) 1 = Ok s0.

  Lemma build_ok : exists s d, dead_states g = Ok d /\ build_scanner k g s0 = Ok s /\ (placed k s0 -> shows k s (cls_of p) (machine_of g d)) /\
    s_buf s = s_buf s0 /\ s_regexps s = 1%N /\ s_owned s = true /\ s_null s = false /\
    s_nletters s = s_nletters s0 /\ s_fsize s = s_fsize s0 /\ s_states s = s_states s0 /\
    exists rows fin, final_table rows 0 = (fin, s_index s) /\ map row_final rows = map (is_final g) (seq 0 n) /\
      s_final s = fin ++ repeat 0%N (N.to_nat (s_fsize s0) - length fin) /\ length fin = n + length (filter (is_final g) (seq 0 n)).
  Proof.
    pose proof (wf_letters _ Wg) as Wp. fold p in Wp.
    specialize (E0 _ eq_refl). unfold init_scanner in E0.
    destruct ((two32 <=? N.of_nat n + N.of_nat (length (finals g)))%N || (two32 <=? 1)%N); [discriminate|]. apply ok_inj in E0.
    rename E0 into Es0. set (row0 := mkRow (repeat NO_SHORTCUT (4 * k_nmask k)) 0 (repeat 0%N (part_size p))) in *.
    assert (R0 : s_rows s0 = repeat row0 n) by (rewrite <- Es0; reflexivity).
    assert (Lt : s_letters s0 = fill_letters (header_size k) p) by (rewrite <- Es0; reflexivity).
    assert (Nl : s_nletters s0 = N.of_nat (part_size p)) by (rewrite <- Es0; reflexivity).
    assert (St : s_states s0 = N.of_nat n) by (rewrite <- Es0; reflexivity).
    assert (Fs : s_fsize s0 = N.of_nat (length (finals g) + n)) by (rewrite <- Es0; reflexivity).
    assert (In0 : s_initial s0 = index_to_state k s0 (N.of_nat (initial g))) by (rewrite <- Es0; reflexivity).
    assert (Rg : s_regexps s0 = 1%N) by (rewrite <- Es0; reflexivity).
    assert (Ow : s_owned s0 = true) by (rewrite <- Es0; reflexivity).
    assert (Nu : s_null s0 = false) by (rewrite <- Es0; reflexivity).
    assert (SR : s0 = set_rows s0 (repeat row0 n)) by (rewrite <- R0; destruct s0; reflexivity).
    clear Es0.
    destruct (dead_states_ok g Wg) as [d [Ed _]].
    unfold build_scanner. rewrite Ed. cbn [bind]. fold n. fold p.
    (* tags *)
    destruct (foldm_rows (fun s q => set_tag s q (tag_value g d q)) (fun q r => mkRow (r_masks r) (tag_value g d q) (r_jumps r)) s0 n) with (m := n) (a := 0) (rows := repeat row0 n)
      as (rows1 & F1 & L1 & X1).
    { intros rows q Hr Hq. unfold set_tag. cbn [s_rows set_rows]. destruct (Nat.ltb_spec q (length rows)); [reflexivity|lia]. }
    { apply repeat_length. }
    { lia. }
    rewrite <- SR in F1. rewrite F1. cbn [bind].
    (* jumps *)
    assert (PL : forall c i, In (c, i) (part_list p) -> part_rep p c = Some c /\ cls_of p c = i).
    { intros c i H. apply (part_list_in p _ _ Wp) in H as [ms H]. pose proof (wp_self _ Wp _ _ _ H) as Hm. split.
      - apply (wp_inv _ Wp). eauto.
      - eapply cls_of_in; eauto. }
    destruct (foldm_rows (fun s from => foldm (fun s '(c, _) => foldm (fun s to => set_jump k s from c to) (destinations g from c) s) (part_list p) s)
      (fun from r => mkRow (r_masks r) (r_flags r) (fold_left (put k g s0 from) (part_list p) (r_jumps r))) s0 n) with (m := n) (a := 0) (rows := rows1)
      as (rows2 & F2 & L2 & X2); auto.
    { intros rows q Hr Hq. apply row_jumps_ok; auto. }
    rewrite F2. cbn [bind].
    (* what the rows are *)
    set (js := fun q => fold_left (put k g s0 q) (part_list p) (repeat 0%N (part_size p))).
    assert (Rows : rows2 = map (fun q => mkRow (repeat NO_SHORTCUT (4 * k_nmask k)) (tag_value g d q) (js q)) (seq 0 n)).
    { apply nth_error_list_eq. intros i. rewrite X2, X1, nth_error_map, nth_error_seq0. cbn [Nat.leb andb]. rewrite !Nat.add_0_l.
      destruct (Nat.ltb_spec i n).
      - rewrite nth_error_nth' with (d := row0) by (rewrite repeat_length; auto). rewrite nth_repeat. reflexivity.
      - apply nth_error_None. rewrite repeat_length. auto. }
    clear X1 X2 F1 F2.
    (* final table *)
    unfold finish_build. cbn [s_rows set_rows s_fsize].
    destruct (final_table rows2 0) as [fin idx] eqn:Ef. destruct (final_table_ok _ _ _ _ Ef) as (I1 & I2 & I3).
    assert (Lf : length fin <= n + length (finals g)).
    { rewrite I2, L2. apply Nat.add_le_mono_l. rewrite Rows, filter_map_len. cbn [r_flags]. apply filter_seq_le.
      - pose proof (wf_fsorted _ Wg) as Hs'. clear - Hs'. induction Hs' as [|x l H IH Hf]; constructor; auto.
        intros X. rewrite Forall_forall in Hf. specialize (Hf x X). rewrite kltb_irr in Hf. discriminate.
      - intros q Hq F. destruct (tag_flags g d q (Tg q)) as [T1 _]. rewrite T1 in F. apply smem_in; auto. }
    destruct (N.leb_spec (N.of_nat (length fin)) (s_fsize s0)); [|lia].
    assert (Fin : forall q, negb (N.land (tag_value g d q) FinalFlag =? 0)%N = is_final g q) by (intros q; destruct (tag_flags g d q (Tg q)); auto).
    eexists. exists d. splits; try reflexivity; auto.
    2:{ exists rows2, fin. splits; auto.
        - rewrite Rows, map_map. apply map_ext. intros q. unfold row_final. cbn [r_flags]. apply Fin.
        - rewrite I2, L2, Rows, filter_map_len. f_equal. f_equal. apply filter_ext. intros q. cbn [r_flags]. apply Fin. }
    intros P0.
    set (s1 := set_tables (set_rows s0 rows2) _ idx).
    assert (Rs : s_rows (build_shortcuts k s1) = map (fun '(i, r) => row_shortcuts k s1 i r) (combine (seq 0 (length rows2)) rows2)) by reflexivity.
    assert (Ix : forall i, index_to_state k (build_shortcuts k s1) i = index_to_state k s0 i) by reflexivity.
    assert (AL : forall c, letter c -> exists r, part_rep p c = Some r /\ cls_of p c = cls_of p r /\ nxt g = nxt g /\ erep g c = erep g r /\ part_rep p r = Some r).
    { intros c [H1 H2]. destruct (da_all _ Dg c H1 H2) as [r Hr]. exists r. pose proof (part_rep_rep _ _ _ Wp Hr) as Hrr. splits; auto.
      - pose proof (wp_inv _ Wp c r) as [A _]. destruct (A Hr) as (i & ms & M1 & M2). rewrite (cls_of_in p c r i ms); auto.
        symmetry. eapply cls_of_in; eauto. eapply wp_self; eauto.
      - unfold erep. fold p in Hr |- *. rewrite Hr, Hrr. reflexivity. }
    split.
    - destruct P0. split; auto.
    - exact St.
    - rewrite Rs, map_length, combine_length, seq_length, L2, Nat.min_id. reflexivity.
    - exact In0.
    - change (length (s_letters s0) = 264). rewrite Lt. apply fill_letters_length.
    - intros c Hc. destruct (AL c Hc) as (r & Hr & _). change (nth_error (s_letters s0) (N.to_nat c) = Some (N.of_nat (cls_of p c) + header_size k)%N /\ (N.of_nat (cls_of p c) < s_nletters s0)%N).
      rewrite Lt, Nl. destruct (fill_letters_ok (header_size k) p Wp c r Hr Hs). split; auto. lia.
    - intros i r Hi. change (s_nletters (build_shortcuts k s1)) with (s_nletters s0).
      rewrite Rs, nth_error_map, nth_error_combine_seq in Hi. rewrite (f_equal (fun l => nth_error l i) Rows) in Hi. rewrite nth_error_map, nth_error_seq0 in Hi.
      destruct (Nat.ltb_spec i n) as [Li|]; [|discriminate]. cbn [option_map] in Hi. apply some_inj in Hi.
      assert (Ljs : length (js i) = part_size p) by (unfold js; rewrite put_length; apply repeat_length).
      assert (Hj : forall c, letter c -> nth_error (js i) (cls_of p c) = Some (diff k (index_to_state k s0 (N.of_nat i)) (index_to_state k s0 (N.of_nat (nxt g i c))))).
      { intros c Hc. destruct (AL c Hc) as (rr & Hr & Er & _ & Ee & Hrr). rewrite Er. replace (nxt g i c) with (nxt g i rr) by (unfold nxt; rewrite Ee; auto).
        unfold js. apply put_nth; auto.
        - rewrite repeat_length. apply (fill_letters_ok (header_size k) p Wp rr rr Hrr Hs).
        - right. apply in_map_iff. apply (wp_inv _ Wp) in Hrr as (j & ms & M1 & M2). exists (rr, j). split; auto.
          apply (part_list_in p _ _ Wp). eauto. }
      assert (Cov : forall l, l < part_size p -> exists c, letter c /\ cls_of p c = l).
      { intros l Hl. destruct (part_list_surj p Wp l Hl) as [c Hc]. destruct (PL c l Hc) as [Hr Hi']. exists c. split; auto.
        apply (wp_range _ Wp _ _ Hr). }
      pose proof (row_shortcuts_ok k s1 (cls_of p) (nxt g i) i (js i)) as RS.
      destruct RS with (r := mkRow (repeat NO_SHORTCUT (4 * k_nmask k)) (tag_value g d i) (js i)) as (M & Fl & Jp); auto.
      { intros c Hc. destruct (AL c Hc) as (r' & Hr & _). change (s_letters s1) with (s_letters s0). rewrite Lt. apply (fill_letters_ok (header_size k) p Wp c r' Hr Hs). }
      { intros l Hl. apply Cov. lia. }
      { intros c Hc. rewrite Ljs. destruct (AL c Hc) as (r' & Hr & _). apply (fill_letters_ok (header_size k) p Wp c r' Hr Hs). }
      { intros c t Hc Ht. rewrite Hj in Ht by auto. injection Ht as <-.
        change (index_to_state k s1 (N.of_nat i)) with (index_to_state k s0 (N.of_nat i)).
        destruct (AL c Hc) as (r' & Hr & _). destruct (nxt_ok g Wg Dg i c r' Li Hr) as [Hn _]. fold n in Hn.
        destruct P0 as [_ Q1 Q2]. rewrite St in Q1, Q2. destruct (row_size_facts k (s_nletters s0)) as (_ & _ & Pb).
        unfold index_to_state. rewrite go_diff.
        - split; intros X; [|rewrite X; auto]. assert (N.of_nat (nxt g i c) = N.of_nat i) by nia. lia.
        - nia.
        - nia.
        - intros Kr. specialize (Q2 Kr). split; nia. }
      rewrite Hi in *. cbn [r_flags r_jumps] in Fl, Jp.
      rewrite Fl, Jp. destruct (tag_flags g d i (Tg i)) as [T1 T2]. splits; auto.
      + rewrite Ljs, Nl. lia.
      + intros l Hl. apply Cov. lia.
    - intros i Hi. cbn [machine_of m_states m_accepted] in *. fold n in Hi.
      destruct (I3 [] (repeat 0%N (N.to_nat (s_fsize s0) - length fin)) eq_refl i (mkRow (repeat NO_SHORTCUT (4 * k_nmask k)) (tag_value g d i) (js i))) as [b [B1 B2]].
      { rewrite Rows, nth_error_map, nth_error_seq0. destruct (Nat.ltb_spec i n); [reflexivity|lia]. }
      exists b. split; auto. cbn [app] in B2. cbn [r_flags] in B2. destruct (tag_flags g d i (Tg i)) as [T1 T2]. rewrite T1 in B2. exact B2.
  Qed.
End Build.

Lemma built_tag : forall g, built g -> forall q, fsm_tag g q = 0%N.
Proof. intros g B q. unfold fsm_tag. rewrite (proj1 (built_bare _ B)). reflexivity. Qed.

Section Compile.
  Variables (k : kind) (buf : N) (f : fsm).
  Hypothesis B : built f.
  Hypothesis Hn : k_nmask k <= 64.

  Lemma header_small : (header_size k + 264 <= 65536)%N.
  Proof.
    unfold header_size, tsz. destruct (k_reloc k).
    - assert ((4 * N.of_nat (k_nmask k) + 1) * 8 / 4 <= 514)%N; [|lia]. apply N.div_le_upper_bound; lia.
    - assert ((4 * N.of_nat (k_nmask k) + 1) * 8 / 8 <= 257)%N; [|lia]. apply N.div_le_upper_bound; lia.
  Qed.

  Lemma compile_ok : forall s, compile k buf f = Ok s ->
    exists g d, canonize f 0 = Ok g /\ built g /\ wf g /\ det_ok g /\ all_reachable g /\ dead_states g = Ok d /\
      lang_eq (accepts g) (accepts f) /\ machine_ok (machine_of g d) /\
      (placed k s -> shows k s (cls_of (letters g)) (machine_of g d)) /\
      s_buf s = buf /\ s_regexps s = 1%N /\ s_owned s = true /\ s_null s = false /\
      s_states s = N.of_nat (size g) /\ s_nletters s = N.of_nat (part_size (letters g)) /\ s_fsize s = N.of_nat (length (finals g) + size g).
  Proof.
    intros s E. unfold compile in E. destruct (canonize f 0) as [g| | |] eqn:C; cbn [bind] in E; try discriminate.
    assert (Bg : built g) by (eapply built_canonize; eauto).
    destruct (canonize_ok f 0 (built_good _ B)) as [(g' & C' & W & D & Dt & L & _)|[C' _]]; [|congruence].
    rewrite C in C'. injection C' as <-. destruct (built_ok _ Bg) as [_ R]. destruct (R Dt) as [_ Ra].
    destruct (init_scanner k buf (size g) (letters g) (length (finals g)) (initial g) 1) as [s0| | |] eqn:I; cbn [bind] in E; try discriminate.
    assert (F : s_buf s0 = buf /\ s_states s0 = N.of_nat (size g) /\ s_nletters s0 = N.of_nat (part_size (letters g)) /\ s_fsize s0 = N.of_nat (length (finals g) + size g)).
    { clear - I. unfold init_scanner in I. destruct (_ || _); [discriminate|]. apply ok_inj in I. subst s0. splits; reflexivity. }
    destruct F as (F1 & F2 & F3 & F4).
    destruct (build_ok k g s0 W D (built_tag _ Bg) header_small) as (s' & d & Ed & Es & Sh & G1 & G2 & G3 & G4 & G5 & G6 & G7 & _).
    { intros b Hb. rewrite F1 in Hb. subst b. exact I. }
    rewrite E in Es. injection Es as <-. exists g, d. splits; auto; try congruence.
    - apply machine_of_ok; auto.
    - intros [P1 P2 P3]. apply Sh. unfold s_base in P2. rewrite G1, G5, G6, G7 in *. split; auto.
  Qed.
End Compile.

(** ** How large the table can get *)
Lemma surj_le : forall n m (cls : nat -> nat), (forall x, x < m -> exists s, s < n /\ cls s = x) -> m <= n.
Proof.
  intros n m cls H. rewrite <- (seq_length m 0), <- (seq_length n 0), <- (map_length cls (seq 0 n)). apply NoDup_incl_length; [apply seq_NoDup|].
  intros x Hx. apply in_seq in Hx. destruct (H x) as [s [Hs E]]; [lia|]. apply in_map_iff. exists s. split; auto. apply in_seq. lia.
Qed.
Lemma canonize_size : forall f m g, good f -> determined f = false -> canonize f m = Ok g -> (N.of_nat (size g) <= det_limit m + 1)%N.
Proof.
  intros f m g [W _] D E. unfold canonize in E. rewrite D in E.
  destruct (determine_ok f m W D) as (b & h & E1 & W1 & _ & _ & T & _). rewrite E1 in E. cbn [bind] in E.
  destruct b; cbn [bind] in E; [|discriminate]. destruct (T eq_refl) as (Dh & Hd & _ & Sz & _).
  destruct (minimize_ok h W1 Dh Hd) as (g' & cls & E2 & _ & _ & _ & _ & _ & Su & _). rewrite E in E2. injection E2 as <-.
  apply surj_le in Su. lia.
Qed.

Lemma row_bytes_le : forall k l, k_nmask k <= 64 -> (l <= 264)%N -> (row_bytes k l <= 8000)%N.
Proof.
  intros k l H Hl. unfold row_bytes, row_size, header_size, tsz.
  assert (X : forall t b, (0 < b)%N -> (exists p, b = 2 ^ p)%N -> (align_up t b <= t + (b - 1))%N).
  { intros t b Hb [p ->]. rewrite align_up_pow. rewrite N.mul_comm. apply N.mul_div_le. lia. }
  destruct (k_reloc k).
  - change (16 / 4)%N with 4%N. specialize (X (l + (4 * N.of_nat (k_nmask k) + 1) * 8 / 4)%N 4%N).
    assert ((4 * N.of_nat (k_nmask k) + 1) * 8 / 4 <= 514)%N by (apply N.div_le_upper_bound; lia).
    assert (Y : (align_up (l + (4 * N.of_nat (k_nmask k) + 1) * 8 / 4) 4 <= l + (4 * N.of_nat (k_nmask k) + 1) * 8 / 4 + (4 - 1))%N) by (apply X; [lia|exists 2%N; reflexivity]). lia.
  - change (16 / 8)%N with 2%N. specialize (X (l + (4 * N.of_nat (k_nmask k) + 1) * 8 / 8)%N 2%N).
    assert ((4 * N.of_nat (k_nmask k) + 1) * 8 / 8 <= 257)%N by (apply N.div_le_upper_bound; lia).
    assert (Y : (align_up (l + (4 * N.of_nat (k_nmask k) + 1) * 8 / 8) 2 <= l + (4 * N.of_nat (k_nmask k) + 1) * 8 / 8 + (2 - 1))%N) by (apply X; [lia|exists 1%N; reflexivity]). lia.
Qed.

Lemma finals_le : forall g, wf g -> length (finals g) <= size g.
Proof.
  intros g W. rewrite <- (seq_length (size g) 0). apply NoDup_incl_length.
  - pose proof (wf_fsorted _ W) as Hs'. clear - Hs'. induction Hs' as [|x l H IH Hf]; constructor; auto.
    intros X. rewrite Forall_forall in Hf. specialize (Hf x X). rewrite kltb_irr in Hf. discriminate.
  - intros x Hx. apply in_seq. pose proof (wf_fin _ W x Hx). lia.
Qed.

Section Compile2.
  Variables (k : kind) (buf : N) (f : fsm).
  Hypothesis B : built f.
  Hypothesis Hn : k_nmask k <= 64.

  Lemma compile_canon : forall g, determined f = false -> canonize f 0 = Ok g ->
    exists s, compile k buf f = Ok s /\ (s_states s <= 200001)%N /\ s_buf s = buf /\
       ((buf mod 8 = 0)%N -> (buf <= 9223372036854775808)%N -> placed k s).
  Proof.
    intros g D C. destruct (canonize_ok f 0 (built_good _ B)) as [(g' & C' & W & Dg & Dt & L & _)|[C' _]]; rewrite C in C'; [|discriminate].
    injection C' as <-.
    - pose proof (canonize_size f 0 g (built_good _ B) D C) as Sz. change (det_limit 0 + 1)%N with 200001%N in Sz.
      pose proof (finals_le g W) as Fl.
      assert (X : exists s, compile k buf f = Ok s).
      { unfold compile. rewrite C. cbn [bind]. unfold init_scanner at 1.
        destruct (N.leb_spec two32 (N.of_nat (size g) + N.of_nat (length (finals g)))%N); [unfold two32 in *; lia|].
        change ((two32 <=? 1)%N) with false. cbn [orb]. cbn [bind].
        match goal with |- context [build_scanner k g ?x] => set (s0 := x) end.
        assert (Bg : built g) by (eapply built_canonize; eauto).
        destruct (build_ok k g s0 W Dg (built_tag _ Bg) (header_small k Hn)) as (s' & d & Ed & Es & _).
        { intros b Hb. unfold init_scanner. destruct (N.leb_spec two32 (N.of_nat (size g) + N.of_nat (length (finals g)))%N); [unfold two32 in *; lia|].
          change ((two32 <=? 1)%N) with false. cbn [orb]. rewrite <- Hb. reflexivity. }
        eauto. }
      destruct X as [s E]. exists s. split; auto.
      destruct (compile_ok k buf f B Hn s E) as (g' & d & C' & _ & _ & _ & _ & _ & _ & _ & _ & Eb & _ & _ & _ & Es & El & Ef).
      rewrite C in C'. injection C' as <-. splits; auto; [lia|].
      intros A1 A2.
      assert (R : (row_bytes k (s_nletters s) <= 8000)%N).
      { apply row_bytes_le; auto. rewrite El. pose proof (part_size_le _ (wf_letters _ W)). lia. }
      assert (T : (s_states s * row_bytes k (s_nletters s) <= 200001 * 8000)%N) by (apply N.mul_le_mono; lia).
      split; [congruence| |intros _; unfold two31; lia].
      unfold s_base. rewrite Eb, Ef, Es. rewrite Es in T. unfold two64, MaxChar. lia.
  Qed.
  Lemma compile_total : determined f = false ->
    (exists s, compile k buf f = Ok s /\ (s_states s <= 200001)%N /\ s_buf s = buf /\
       ((buf mod 8 = 0)%N -> (buf <= 9223372036854775808)%N -> placed k s)) \/
    compile k buf f = Throw ETooComplicated.
  Proof.
    intros D. destruct (canonize_ok f 0 (built_good _ B)) as [(g & C & _)|[C _]]; [left; eapply compile_canon; eauto|].
    right. unfold compile. rewrite C. reflexivity.
  Qed.
End Compile2.
