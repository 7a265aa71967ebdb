(** Saving, loading and mapping SlowScanner. *)
From Coq Require Import List Bool Arith NArith Lia.
From Verif Require Import Util Spec PartitionModel FsmModel DetermineModel MinimizeModel FsmSem FsmBasics Api ApiProofs RunModel RunSpec ScannerModel ScannerSpec ScannerProofs ScannerBuild ScannerCompile
  ScannerFits SimpleModel SimpleProofs SlowProofs IoModel IoBytes SimpleIo.
Import ListNotations.
Local Open Scope N_scope.
Local Opaque all_letters all_bytes.

(** What the members of a scanner hold fits into their types. *)
Record slow_fits (s : slow) : Prop := {
  lf_letters : length (w_letters s) = N.to_nat MaxChar /\ Forall (fun x => x < two64) (w_letters s);
  lf_finals : N.of_nat (length (w_finals s)) = w_states s;
  lf_vec : forall v, w_jumps s = InVec v -> N.of_nat (length v) = w_states s * w_lcount s /\ Forall (Forall (fun x => x < two32)) v
}.

Lemma slow_set_jump_fits : forall lc ls v from c to v', slow_set_jump lc ls v from c to = Ok v' ->
  Forall (Forall (fun x => x < two32)) v -> length v' = length v /\ Forall (Forall (fun x => x < two32)) v'.
Proof.
  intros lc ls v from c to v' E H. unfold slow_set_jump in E. destruct (nth_error ls (N.to_nat c)); [|discriminate]. cbv zeta in E.
  destruct (_ <? _)%nat; [|discriminate]. apply ok_inj in E. subst v'. split; [apply upd_length|]. apply upd_Forall; auto.
  intros x Hx. apply Forall_app. split; auto. constructor; [apply N.mod_lt; discriminate|constructor].
Qed.
Lemma slow_table_fits : forall g lc ls n m v,
  foldm (fun v from => foldm (fun v '(c, _) => foldm (fun v to => slow_set_jump lc ls v from c to) (destinations g from c) v) (part_list (letters g)) v)
    (seq 0 n) (repeat [] m) = Ok v -> length v = m /\ Forall (Forall (fun x => x < two32)) v.
Proof.
  intros g lc ls n m v E. set (P := fun v : list (list N) => length v = m /\ Forall (Forall (fun x => x < two32)) v).
  change (P v). eapply (foldm_inv _ _ P); [| |exact E].
  - cbn beta. intros wa q wb _ Fa Ea. eapply (foldm_inv _ _ P); [|exact Fa|exact Ea]. cbn beta. intros wc [c i] wd _ Fc Ec.
    eapply (foldm_inv _ _ P); [|exact Fc|exact Ec]. cbn beta. intros we to wf _ [L Fe] Ee. destruct (slow_set_jump_fits _ _ _ _ _ _ _ Ee Fe). split; auto. congruence.
  - split; [apply repeat_length|]. apply Forall_repeat. constructor.
Qed.
Lemma slow_compile_shape : forall g n lc ls v b, length ls = N.to_nat MaxChar -> Forall (fun x => x < two64) ls ->
  foldm (fun v from => foldm (fun v '(c, _) => foldm (fun v to => slow_set_jump lc ls v from c to) (destinations g from c) v) (part_list (letters g)) v)
    (seq 0 n) (repeat [] (n * N.to_nat lc)) = Ok v ->
  slow_fits (mkSlow (N.of_nat n) lc (N.of_nat (initial g)) ls
    (map (fun q => negb (N.lor (fsm_tag g q) (if is_final g q then 1 else 0) mod 256 =? 0)) (seq 0 n)) (InVec v) b).
Proof.
  intros g n lc ls v b L Fl E. split; cbn [w_letters w_finals w_states w_lcount w_jumps].
  - auto.
  - rewrite map_length, seq_length. reflexivity.
  - intros v' H. injection H as <-. destruct (slow_table_fits _ _ _ _ _ _ E) as [A B]. split; auto. rewrite A. lia.
Qed.
Lemma slow_compile_fits : forall f s, built f -> slow_compile f = Ok s -> slow_fits s /\ w_start s < w_states s.
Proof.
  intros f s B. destruct (g_wf f B) as (W & _ & _ & _). unfold slow_compile. rewrite sparse_remove_epsilons. revert W.
  generalize (remove_epsilons f). intros g W. cbv zeta. intros E. pose proof (wf_letters _ W) as Wp. pose proof (wf_init _ W) as Wi.
  destruct (foldm _ _ _) as [v| | |] eqn:Ev in E; cbn [bind] in E; try discriminate. apply ok_inj in E. subst s. split.
  - apply slow_compile_shape; [| |exact Ev]; rewrite slow_letters_fill by auto.
    + rewrite fill_letters_length. reflexivity.
    + eapply Forall_impl; [|apply fill_letters_fits]. cbn beta. intros x Hx. unfold two64. lia.
  - clear - Wi. cbn [w_start w_states]. lia.
Qed.

(** ** The positions of the lists *)
Notation lenN x := (N.of_nat (length x)).
Fixpoint ends (c : N) (v : list (list N)) : list N := match v with [] => [] | x :: v' => (c + lenN x) :: ends (c + lenN x) v' end.
Lemma jump_pos_ends : forall v c, jump_pos c v = c :: ends c v.
Proof. induction v as [|x v IH]; intros c; cbn [jump_pos ends]; auto. rewrite IH. reflexivity. Qed.
Lemma ends_length : forall v c, length (ends c v) = length v.
Proof. induction v as [|x v IH]; intros c; cbn [ends length]; auto. Qed.
Lemma jump_pos_length : forall v c, length (jump_pos c v) = S (length v).
Proof. intros. rewrite jump_pos_ends. cbn [length]. rewrite ends_length. reflexivity. Qed.
Lemma jump_pos_nth : forall v c i, (i <= length v)%nat -> nth_error (jump_pos c v) i = Some (c + lenN (concat (firstn i v))).
Proof.
  induction v as [|x v IH]; intros c i H; cbn [length] in H.
  - replace i with O by lia. cbn. f_equal. lia.
  - destruct i as [|i]; cbn [jump_pos nth_error firstn concat]; [cbn; f_equal; lia|].
    rewrite IH by lia. rewrite app_length. f_equal. lia.
Qed.
Lemma jump_pos_bound : forall v c x, In x (jump_pos c v) -> x <= c + lenN (concat v).
Proof.
  induction v as [|y v IH]; intros c x H; cbn [jump_pos concat] in *.
  - destruct H as [<- |[]]. lia.
  - rewrite app_length. destruct H as [<- |H]; [lia|]. apply IH in H. lia.
Qed.
Lemma concat_at : forall (v : list (list N)) i d, nth_error v i = Some d -> concat v = concat (firstn i v) ++ d ++ concat (skipn (S i) v).
Proof.
  induction v as [|x v IH]; intros [|i] d H; cbn [nth_error] in H; try discriminate.
  - apply some_inj in H. subst. reflexivity.
  - cbn [concat firstn skipn]. rewrite <- app_assoc. f_equal. apply IH. exact H.
Qed.

(** ** The mapped scanner *)
Definition slow_mapped (s : slow) (v : list (list N)) : slow :=
  mkSlow (w_states s) (w_lcount s) (w_start s) (w_letters s) (w_finals s) (Mapped (jump_pos 0 v) (concat v)) false.
Lemma mapped_dests : forall s v q l ds, w_jumps s = InVec v -> slow_dests s q l = Ok ds -> slow_dests (slow_mapped s v) q l = Ok ds.
Proof.
  intros s v q l ds J. unfold slow_dests, slow_mapped. rewrite J. cbn [w_jumps w_lcount].
  generalize (N.to_nat (q * w_lcount s + l)). intros i. destruct (nth_error v i) as [d|] eqn:E; [|discriminate]. intros H. apply ok_inj in H. subst d.
  assert (L : (i < length v)%nat) by (apply nth_error_Some; congruence).
  rewrite (jump_pos_nth v 0 i), (jump_pos_nth v 0 (S i)) by lia.
  assert (F : concat (firstn (S i) v) = concat (firstn i v) ++ ds).
  { clear J. revert i E L. induction v as [|x v IH]; intros [|i] E L; cbn [nth_error length] in *; try discriminate.
    - apply some_inj in E. subst. cbn [firstn concat]. apply app_nil_r.
    - change (concat (firstn (S (S i)) (x :: v))) with (x ++ concat (firstn (S i) v)). change (concat (firstn (S i) (x :: v))) with (x ++ concat (firstn i v)).
      rewrite (IH i) by (auto; lia). rewrite app_assoc. reflexivity. }
  pose proof (concat_at v i ds E) as C. rewrite F, !app_length. set (a := concat (firstn i v)) in *. set (z := concat (skipn (S i) v)) in *.
  assert (B : (0 + lenN a <=? 0 + N.of_nat (length a + length ds)) && (0 + N.of_nat (length a + length ds) <=? lenN (concat v)) = true).
  { apply andb_true_iff. rewrite !N.leb_le, C, !app_length. lia. }
  rewrite B. f_equal. rewrite C. replace (N.to_nat (0 + lenN a)) with (length a) by lia. rewrite skipn_here by reflexivity. apply firstn_here. lia.
Qed.
Lemma mapped_shows : forall s v n E i F, w_jumps s = InVec v -> slow_shows s n E i F -> slow_shows (slow_mapped s v) n E i F.
Proof.
  intros s v n E i F J [A1 A2 A3 A4 A5 A6]. split; auto. intros q c Hq Hc. destruct (A5 q c Hq Hc) as (l & ds & X & Y & Z).
  exists l, ds. splits; auto. apply mapped_dests; auto.
Qed.

(** ** Reading the lists *)
Lemma load_sizes_ok : forall v c th r, c + lenN (concat v) < two64 ->
  load_sizes (length v) c (mkStream th (array 8 (ends c v) ++ r)) = Ok (map (fun x => lenN x) v, mkStream th r).
Proof.
  induction v as [|x v IH]; intros c th r H; cbn [load_sizes length ends array flat_map map]; auto.
  cbn [concat] in H. rewrite app_length in H. rewrite <- app_assoc. rewrite read_ok by (rewrite le_length; reflexivity). cbn [bind].
  rewrite unle_le by (change (256 ^ N.of_nat 8) with two64; lia). destruct (N.ltb_spec (c + lenN x) c); [lia|].
  fold (array 8 (ends (c + lenN x) v)). rewrite IH by lia. cbn [bind]. do 3 f_equal. lia.
Qed.
Lemma array_app : forall n x y, array n (x ++ y) = array n x ++ array n y.
Proof. intros. unfold array. apply flat_map_app. Qed.
Lemma load_lists_ok : forall v th r, Forall (Forall (fun x => x < two32)) v ->
  load_lists (map (fun x : list N => lenN x) v) (mkStream th (array 4 (concat v) ++ r)) = Ok (v, mkStream th r).
Proof.
  induction v as [|x v IH]; intros th r H; cbn [load_lists map concat]; auto.
  apply Forall_cons_iff in H as [Hx Hv]. rewrite array_app, <- app_assoc.
  assert (W : forall r', words 4 (lenN x) (array 4 x ++ r') = x) by (intros; apply words_array; [reflexivity|exact Hx]).
  destruct (N.eqb_spec (lenN x) 0) as [E|E].
  - destruct x; [|discriminate]. cbn [bind array flat_map app]. rewrite IH by auto. reflexivity.
  - rewrite read_ok by (rewrite array_length; lia). cbn [bind]. rewrite IH by auto. cbn [bind]. rewrite <- (app_nil_r (array 4 x)), W. reflexivity.
Qed.
Lemma lists_total : forall v, fold_right (fun n a => 4 * n + a) 0 (map (fun x : list N => lenN x) v) = 4 * lenN (concat v).
Proof. induction v as [|x v IH]; cbn [map fold_right concat]; [reflexivity|]. rewrite IH, app_length. lia. Qed.
Lemma array_bools : forall fs, array 1 (map (fun b : bool => if b then 1 else 0) fs) = map (fun b : bool => if b then 1 else 0) fs.
Proof. induction fs as [|b fs IH]; cbn [map array flat_map]; auto. unfold array in IH. rewrite IH. destruct b; reflexivity. Qed.
Lemma bools_bytes : forall fs, bools (array 1 (map (fun b : bool => if b then 1 else 0) fs)) = fs.
Proof.
  intros fs. rewrite array_bools. unfold bools. rewrite map_map. rewrite <- (map_id fs) at 2. apply map_ext. intros []; reflexivity.
Qed.
Lemma align_load_words : forall k st, align_load (k * 8) st = Ok st.
Proof. intros. unfold align_load. rewrite padding_0 by (apply N.mod_mul; lia). reflexivity. Qed.

(** Mapping a field when the pointer is aligned. *)
Lemma map_ptr_case : forall sz count p rem, p mod 8 = 0 -> count * sz < two64 -> p + 8 * rem < two64 -> p + rem < two64 ->
  map_ptr sz count (p, rem) =
  if (rem <? count * sz) || (negb (padding (count * sz) =? 0) && (rem =? count * sz)) then Throw EImage
  else Ok (p + (count * sz + padding (count * sz)), rem - count * sz).
Proof.
  intros sz count p rem A B C D. unfold map_ptr. rewrite N.mod_small by auto. cbn [snd]. set (d := count * sz) in *.
  destruct (N.ltb_spec rem d); cbn [orb]; auto. rewrite advance_ok by lia.
  assert (P : padding (p + d) = padding d).
  { unfold padding. rewrite !align_up_8. apply N.mod_divide in A; [|lia]. destruct A as [z ->].
    replace (z * 8 + d + 7) with (d + 7 + z * 8) by lia. rewrite N.div_add by lia. lia. }
  destruct (N.eqb_spec rem d) as [->|E].
  - rewrite N.sub_diag. destruct (N.eqb_spec (padding d) 0) as [E|E]; cbn [negb andb].
    + destruct (padding_facts (p + d)) as [_ X]. rewrite P, E, N.add_0_r in X. rewrite align_ptr_0 by exact X. rewrite E, N.add_0_r. reflexivity.
    + apply align_ptr_end; [|lia]. intros X. apply E. rewrite <- P. apply padding_0. exact X.
  - rewrite andb_false_r. rewrite align_ptr_ok by lia. rewrite P. do 2 f_equal. lia.
Qed.

Section Image.
  Variables (s : slow) (v : list (list N)).
  Hypothesis F : slow_fits s.
  Hypothesis J : w_jumps s = InVec v.
  Hypothesis St : w_start s < w_states s.

  Definition slow_front (e : bool) : list N := header_bytes ty_slow 24 ++ align_save 24 ++ slow_locals s ++ align_save 24 ++ bool_byte e ++ align_save 1.
  Definition slow_body : list N := aligned_save_array 8 (w_letters s) ++ aligned_save_array 1 (map (fun b : bool => if b then 1 else 0) (w_finals s)) ++
    aligned_save_array 8 (jump_pos 0 v) ++ aligned_save_array 4 (concat v).
  Lemma slow_save_ok : save_slow s = Ok (if w_null s then slow_front true else slow_front false ++ slow_body).
  Proof. unfold save_slow, slow_front, slow_body. rewrite J. destruct (w_null s); reflexivity. Qed.
  Lemma slow_locals_length : length (slow_locals s) = 24%nat.
  Proof. unfold slow_locals. rewrite !app_length, !le_length. reflexivity. Qed.
  Lemma slow_front_length : forall e, length (slow_front e) = 56%nat.
  Proof. intros e. unfold slow_front. rewrite !app_length, header_length, slow_locals_length, !align_save_length. destruct e; reflexivity. Qed.
  Definition total : N := lenN (concat v).
  Definition count : N := w_states s * w_lcount s + 1.
  Lemma aligned_length : forall n xs, lenN (aligned_save_array n xs) = N.of_nat n * lenN xs + padding (N.of_nat n * lenN xs).
  Proof. intros. unfold aligned_save_array. rewrite app_length, array_length, align_save_length. lia. Qed.
  Lemma body_length : lenN slow_body = 2112 + (w_states s + padding (w_states s)) + 8 * count + (4 * total + padding (4 * total)).
  Proof.
    unfold slow_body. rewrite !app_length, !Nat2N.inj_add, !aligned_length, jump_pos_length, map_length, (lf_finals _ F).
    rewrite (proj1 (lf_letters _ F)). change (N.of_nat 8 * N.of_nat (N.to_nat MaxChar) + padding (N.of_nat 8 * N.of_nat (N.to_nat MaxChar))) with 2112.
    destruct (lf_vec _ F v J) as [L _]. change (N.of_nat 8) with 8. change (N.of_nat 1) with 1. change (N.of_nat 4) with 4. rewrite (Nat2N.inj_succ (length v)), L. fold total.
    unfold count. rewrite (padding_0 (8 * N.succ _)) by (rewrite N.mul_comm; apply N.mod_mul; lia). rewrite !N.mul_1_l. lia.
  Qed.

  Hypothesis Z : lenN slow_body < two64.
  Lemma slow_small : w_states s < two64 /\ w_lcount s < two64 /\ w_start s < two64 /\ count * 8 < two64 /\ total < two64.
  Proof.
    rewrite body_length in Z. unfold two64 in *. splits; try lia. unfold count in Z. destruct (N.eqb_spec (w_states s) 0); [lia|]. nia.
  Qed.
  Lemma slow_fields : field 0 8 (slow_locals s) = w_states s /\ field 8 8 (slow_locals s) = w_lcount s /\ field 16 8 (slow_locals s) = w_start s.
  Proof.
    destruct slow_small as (A & B & C & _). unfold slow_locals. rewrite <- (app_nil_r (le 8 (w_start s))). splits; fields; [exact A|exact B|exact C].
  Qed.
  Lemma slow_eta : w_null s = false -> mkSlow (w_states s) (w_lcount s) (w_start s) (w_letters s) (w_finals s) (InVec v) false = s.
  Proof. intros Nu. rewrite <- J, <- Nu. destruct s; reflexivity. Qed.
  Lemma slow_load_front : forall e old null th r, load_slow old null (mkStream th (slow_front e ++ r)) =
    if e then Ok (null, mkStream th r)
    else
      let* (ls, st4) := aligned_load (8 * MaxChar) (Some (zeros (8 * MaxChar))) (mkStream th r) in
      let* (fs, st5) := aligned_load (w_states s) (Some (zeros (w_states s))) st4 in
      let* (c, st6) := read 8 None st5 in
      let* (ns, st7) := load_sizes (N.to_nat ((w_lcount s * w_states s) mod two64)) (unle c) st6 in
      let* st8 := align_load ((old + 1) * 8) st7 in
      let* (vs, st9) := load_lists ns st8 in
      let* st10 := align_load (fold_right (fun n a => 4 * n + a) 0 ns) st9 in
      Ok (mkSlow (w_states s) (w_lcount s) (w_start s) (words 8 MaxChar ls) (bools fs) (InVec vs) false, st10).
  Proof.
    intros e old null th r. unfold slow_front, load_slow. rewrite <- !app_assoc.
    rewrite load_header_ok by (repeat split; reflexivity). cbn [bind].
    rewrite aligned_load_ok by (rewrite slow_locals_length; reflexivity). cbn [bind].
    rewrite (aligned_load_ok 1) by reflexivity. cbn [bind]. assert (TB : to_bool (bool_byte e) = Ok e) by (destruct e; reflexivity). rewrite TB. cbn [bind].
    destruct slow_fields as (-> & -> & ->). reflexivity.
  Qed.
  Lemma letters_words : forall r, words 8 MaxChar (array 8 (w_letters s) ++ r) = w_letters s.
  Proof. intros. destruct (lf_letters _ F) as [A B]. apply words_array; [rewrite A; reflexivity|exact B]. Qed.
  Lemma slow_load_image : forall old null th r, w_null s = false -> load_slow old null (mkStream th ((slow_front false ++ slow_body) ++ r)) = Ok (s, mkStream th r).
  Proof.
    intros old null th r Nu. rewrite <- app_assoc, slow_load_front. unfold slow_body, aligned_save_array. rewrite <- !app_assoc.
    destruct slow_small as (S1 & S2 & S3 & S4 & S5). destruct (lf_letters _ F) as [LL LF]. destruct (lf_vec _ F v J) as [LV FV].
    replace (N.of_nat 8 * lenN (w_letters s)) with (8 * MaxChar) by (rewrite LL; reflexivity).
    rewrite aligned_load_ok by (rewrite array_length, LL; reflexivity). cbn [bind].
    replace (N.of_nat 1 * lenN (map (fun b : bool => if b then 1 else 0) (w_finals s))) with (w_states s) by (rewrite map_length, <- (lf_finals _ F); lia).
    rewrite aligned_load_ok by (rewrite array_length, map_length, <- (lf_finals _ F); lia). cbn [bind].
    rewrite jump_pos_ends. change (array 8 (0 :: ends 0 v)) with (le 8 0 ++ array 8 (ends 0 v)). rewrite <- app_assoc.
    rewrite read_ok by reflexivity. cbn [bind]. rewrite unle_le by reflexivity.
    replace (N.to_nat ((w_lcount s * w_states s) mod two64)) with (length v). 2:{ unfold count in S4. rewrite N.mod_small by lia. lia. }
    rewrite load_sizes_ok by exact S5. cbn [bind]. rewrite align_load_words. cbn [bind].
    rewrite (align_save_0 (N.of_nat 8 * _)) by (rewrite N.mul_comm; apply (N.mod_mul _ 8); lia). cbn [app].
    rewrite load_lists_ok by exact FV. cbn [bind]. rewrite lists_total. change (N.of_nat 4) with 4. rewrite align_load_ok. cbn [bind].
    rewrite bools_bytes. rewrite <- (app_nil_r (array 8 (w_letters s))), letters_words. rewrite slow_eta by auto. reflexivity.
  Qed.

  (** The least size Mmap accepts. *)
  Definition need : N := 2161 + w_states s + 8 * count + 4 * total + (if padding (4 * total) =? 0 then 0 else 1).
  Lemma need_length : need <= lenN (slow_front false ++ slow_body) <= need + 18.
  Proof.
    rewrite app_length, Nat2N.inj_add, slow_front_length, body_length. unfold need. change (N.of_nat 56) with 56.
    destruct (padding_facts (w_states s)) as [A _]. destruct (padding_facts (4 * total)) as [B C].
    assert (D : padding (4 * total) = 0 \/ padding (4 * total) = 4).
    { assert (E : (4 * total + padding (4 * total)) mod 4 = 0).
      { apply N.mod_divide in C; [|lia]. destruct C as [z ->]. replace (z * 8) with (2 * z * 4) by lia. apply N.mod_mul. lia. }
      rewrite N.add_comm, N.mul_comm, N.mod_add in E by lia. rewrite (N.mul_comm total 4) in E. set (x := padding (4 * total)) in *. clearbody x.
      assert (X : x = 0 \/ x = 1 \/ x = 2 \/ x = 3 \/ x = 4 \/ x = 5 \/ x = 6 \/ x = 7) by lia.
      destruct X as [-> |[-> |[-> |[-> |[-> |[-> |[-> | ->]]]]]]]; auto; discriminate. }
    destruct D as [-> | ->]; cbn [N.eqb]; lia.
  Qed.
  Lemma slow_words : words 8 count (array 8 (jump_pos 0 v)) = jump_pos 0 v /\ words 4 total (array 4 (concat v)) = concat v.
  Proof.
    destruct slow_small as (S1 & S2 & S3 & S4 & S5). destruct (lf_vec _ F v J) as [LV FV]. split.
    - rewrite <- (app_nil_r (array 8 (jump_pos 0 v))). apply words_array; [rewrite jump_pos_length; unfold count; lia|].
      apply Forall_forall. intros x Hx. apply jump_pos_bound in Hx. change (256 ^ N.of_nat 8) with two64. fold total in Hx. lia.
    - rewrite <- (app_nil_r (array 4 (concat v))). apply words_array; [reflexivity|]. change (256 ^ N.of_nat 4) with two32.
      apply Forall_concat. exact FV.
  Qed.
  Lemma slow_mmap_front : forall m ptr size e y this, holds m ptr (slow_front e ++ y) -> ptr mod 8 = 0 -> ptr + 8 * size < two64 -> ptr + 80 < two64 -> 8 <= ptr ->
    mmap_slow this m ptr size =
    if size <? 50 then Throw EImage
    else if e then Ok (this, ptr + 56)
    else
      let* c4 := map_ptr 8 MaxChar (ptr + 56, size - 49) in
      let* c5 := map_ptr 1 (w_states s) c4 in
      let* c6 := map_ptr 8 count c5 in
      let* pos := peek m (N.to_nat (8 * count)) (fst c5) in
      match nth_error (words 8 count pos) (N.to_nat (w_states s * w_lcount s)) with
      | None => UB
      | Some total =>
          let* c7 := map_ptr 4 total c6 in
          let* ls := peek m (N.to_nat (8 * MaxChar)) (ptr + 56) in
          let* fs := peek m (N.to_nat (w_states s)) (fst c4) in
          let* js := peek m (N.to_nat (4 * total)) (fst c6) in
          Ok (mkSlow (w_states s) (w_lcount s) (w_start s) (words 8 MaxChar ls) (bools fs) (Mapped (words 8 count pos) (words 4 total js)) false, fst c7)
      end.
  Proof.
    intros m ptr size e y this H A B B1 B2. unfold slow_front in H. rewrite <- !app_assoc in H. pose proof slow_locals_length as LL. destruct slow_fields as (X1 & X2 & X3).
    assert (H1 := H). rewrite (align_save_0 24) in H by reflexivity. cbn [app] in H.
    destruct (holds_split _ _ _ _ H) as [_ H2]. rewrite header_length in H2. change (N.of_nat 24) with 24 in H2.
    destruct (holds_split _ _ _ _ H2) as [_ H3]. rewrite LL in H3. change (N.of_nat 24) with 24 in H3.
    assert (A24 : (ptr + 24) mod 8 = 0) by (rewrite N.add_mod, A by lia; reflexivity).
    assert (A40 : (ptr + 24 + 24) mod 8 = 0) by (rewrite N.add_mod, A24 by lia; reflexivity).
    unfold mmap_slow, check_align. rewrite A. cbn [N.eqb bind].
    destruct (N.ltb_spec size 24) as [S24|S24].
    { rewrite map_header_short by auto. destruct (N.ltb_spec size 50); [reflexivity|lia]. }
    rewrite (map_header_ok m ty_slow 24 ptr size _ ltac:(split; reflexivity) ltac:(reflexivity) H1) by (auto; lia). cbn [bind snd fst].
    unfold map_ptr at 1. cbn [snd]. change ((1 * 24) mod two64) with 24.
    destruct (N.ltb_spec (size - 24) 24) as [S40|S40].
    { destruct (N.ltb_spec size 50); [reflexivity|lia]. }
    rewrite advance_ok by lia. rewrite align_ptr_0 by auto. cbn [bind].
    rewrite (peek_here m 24 _ _ _ H2) by exact LL. cbn [bind].
    destruct (N.ltb_spec size 50) as [S42|S42].
    { rewrite (map_empty_short _ _ _ _ _ H3) by (auto; lia). reflexivity. }
    rewrite (map_empty_ok _ _ _ _ _ H3) by (auto; lia). cbn [bind]. replace (ptr + 24 + 24 + 8) with (ptr + 56) by lia. replace (size - 24 - 24 - 1) with (size - 49) by lia.
    destruct e; [reflexivity|]. rewrite X1, X2, X3. fold count. rewrite N.mod_small by (destruct slow_small as (_ & _ & _ & S4 & _); lia).
    cbn [fst]. reflexivity.
  Qed.
  Lemma slow_mmap_case : forall m ptr size y this, holds m ptr ((slow_front false ++ slow_body) ++ y) -> ptr mod 8 = 0 -> 8 <= ptr -> ptr + 80 < two64 -> ptr + 8 * size < two64 ->
    mmap_slow this m ptr size = if size <? need then Throw EImage else Ok (slow_mapped s v, ptr + lenN (slow_front false ++ slow_body)).
  Proof.
    intros m ptr size y this H A A8 B1 B. rewrite <- app_assoc in H. rewrite (slow_mmap_front m ptr size false _ this H A B B1 A8).
    pose proof body_length as BL. destruct slow_small as (S1 & S2 & S3 & S4 & S5). destruct (lf_letters _ F) as [LL LF]. destruct (lf_vec _ F v J) as [LV FV].
    destruct slow_words as [W8 W4].
    destruct (holds_split _ _ _ _ H) as [_ H2]. rewrite slow_front_length in H2. change (N.of_nat 56) with 56 in H2.
    assert (T4 : total * 4 < two64). { rewrite BL in Z. lia. }
    assert (Nd : need = 2161 + w_states s + 8 * count + 4 * total + (if padding (4 * total) =? 0 then 0 else 1)) by reflexivity.
    rewrite app_length, slow_front_length, Nat2N.inj_add, BL. change (N.of_nat 56) with 56.
    unfold slow_body in H2. rewrite <- !app_assoc in H2. clear BL H.
    destruct (N.ltb_spec size 50) as [C1|C1]. { destruct (N.ltb_spec size need); [reflexivity|lia]. }
    assert (A56 : (ptr + 56) mod 8 = 0) by (rewrite N.add_mod, A by lia; reflexivity).
    rewrite map_ptr_case by (auto; unfold MaxChar, two64 in *; lia). change (MaxChar * 8) with 2112. change (padding 2112) with 0. cbn [N.eqb negb andb]. rewrite orb_false_r.
    destruct (N.ltb_spec (size - 49) 2112) as [C2|C2]. { destruct (N.ltb_spec size need); [reflexivity|lia]. }
    cbn [bind fst]. set (p4 := ptr + 56 + (2112 + 0)). assert (A4 : p4 mod 8 = 0) by (unfold p4; rewrite N.add_mod, A56 by lia; reflexivity).
    destruct (holds_split _ _ _ _ H2) as [HL H4]. rewrite aligned_length, LL in H4. change (ptr + 56 + (N.of_nat 8 * N.of_nat (N.to_nat MaxChar) + padding (N.of_nat 8 * N.of_nat (N.to_nat MaxChar)))) with p4 in H4.
    destruct (holds_split _ _ _ _ H4) as [HF H5]. rewrite aligned_length, map_length, (lf_finals _ F) in H5. change (N.of_nat 1) with 1 in H5. rewrite N.mul_1_l in H5.
    destruct (holds_split _ _ _ _ H5) as [HP H6]. rewrite aligned_length, jump_pos_length in H6. change (N.of_nat 8) with 8 in H6.
    replace (N.of_nat (S (length v))) with count in H6 by (unfold count; lia). rewrite (padding_0 (8 * count)) in H6 by (rewrite N.mul_comm; apply N.mod_mul; lia).
    destruct (holds_split _ _ _ _ H6) as [HJ _]. clear H2 H4 H5 H6.
    rewrite (map_ptr_case 1) by (auto; unfold p4; lia). rewrite N.mul_1_r.
    destruct (N.ltb_spec (size - 49 - 2112) (w_states s)) as [C3|C3]; cbn [orb]. { destruct (N.ltb_spec size need); [reflexivity|lia]. }
    destruct (negb (padding (w_states s) =? 0) && (size - 49 - 2112 =? w_states s)) eqn:C3'.
    { apply andb_true_iff in C3' as [_ C3']. apply N.eqb_eq in C3'. destruct (N.ltb_spec size need); [reflexivity|unfold count in Nd; lia]. }
    cbn [bind fst]. set (p5 := p4 + (w_states s + padding (w_states s))) in *. destruct (padding_facts (w_states s)) as [Pd Pm].
    assert (A5 : p5 mod 8 = 0) by (unfold p5; rewrite N.add_mod, A4, Pm by lia; reflexivity).
    destruct (N.ltb_spec (size - 49 - 2112 - w_states s) (count * 8)) as [C4|C4].
    { rewrite (map_ptr_case 8) by (auto; unfold p5, p4; lia). destruct (N.ltb_spec (size - 49 - 2112 - w_states s) (count * 8)); [|lia]. cbn [orb bind].
      destruct (N.ltb_spec size need); [reflexivity|lia]. }
    rewrite (map_ptr_case 8) by (auto; unfold p5, p4; lia). rewrite (padding_0 (count * 8)) by (apply N.mod_mul; lia). cbn [N.eqb negb andb]. rewrite orb_false_r.
    destruct (N.ltb_spec (size - 49 - 2112 - w_states s) (count * 8)); [lia|]. cbn [bind fst].
    unfold aligned_save_array in HP. rewrite (peek_here m _ _ _ _ HP) by (rewrite array_length, jump_pos_length; unfold count; lia). cbn [bind]. rewrite W8.
    rewrite jump_pos_nth by lia. replace (N.to_nat (w_states s * w_lcount s)) with (length v) by lia. rewrite firstn_all, N.add_0_l. fold total.
    set (p6 := p5 + (count * 8 + 0)). assert (A6 : p6 mod 8 = 0) by (unfold p6; rewrite N.add_0_r, N.add_mod, A5, N.mod_mul by lia; reflexivity).
    replace (p5 + (8 * count + 0)) with p6 in HJ by (unfold p6; lia).
    rewrite (map_ptr_case 4) by (auto; unfold p6, p5, p4; lia). rewrite (N.mul_comm total 4).
    destruct (N.ltb_spec (size - 49 - 2112 - w_states s - count * 8) (4 * total)) as [C5|C5]; cbn [orb]. { destruct (N.ltb_spec size need); [reflexivity|lia]. }
    destruct (negb (padding (4 * total) =? 0) && (size - 49 - 2112 - w_states s - count * 8 =? 4 * total)) eqn:C5'.
    { apply andb_true_iff in C5' as [C6 C5']. apply N.eqb_eq in C5'. apply negb_true_iff in C6. rewrite C6 in Nd. destruct (N.ltb_spec size need); [reflexivity|lia]. }
    cbn [bind fst].
    unfold aligned_save_array in HL, HF, HJ.
    rewrite (peek_here m _ _ _ _ HL) by (rewrite array_length, LL; reflexivity). cbn [bind].
    rewrite (peek_here m _ _ _ _ HF) by (rewrite array_length, map_length, <- (lf_finals _ F); lia). cbn [bind].
    rewrite (peek_here m _ _ _ _ HJ) by (rewrite array_length; unfold total; lia). cbn [bind].
    rewrite W4, bools_bytes, <- (app_nil_r (array 8 (w_letters s))), letters_words.
    destruct (N.ltb_spec size need) as [C7|C7].
    { exfalso. apply andb_false_iff in C5'. rewrite negb_false_iff, N.eqb_neq in C5'. destruct C5' as [E|E]; [rewrite E in Nd; lia|]. destruct (padding (4 * total) =? 0); lia. }
    unfold slow_mapped. do 2 f_equal. unfold p6, p5, p4. lia.
  Qed.
End Image.

Lemma slow_load_inv : forall s v img old null th r s' st', slow_fits s -> w_jumps s = InVec v -> w_start s < w_states s -> lenN img < two64 ->
  save_slow s = Ok img -> load_slow old null (mkStream th (img ++ r)) = Ok (s', st') ->
  st' = mkStream th r /\ ((w_null s = true /\ s' = null) \/ (w_null s = false /\ s' = s)).
Proof.
  intros s v img old null th r s' st' F J St Z E L. rewrite (slow_save_ok s v J) in E. apply ok_inj in E. subst img.
  destruct (w_null s) eqn:Nu.
  - unfold load_slow, slow_front in L. rewrite <- !app_assoc in L. rewrite load_header_ok in L by (repeat split; reflexivity). cbn [bind] in L.
    rewrite aligned_load_ok in L by (rewrite slow_locals_length; reflexivity). cbn [bind] in L.
    rewrite (aligned_load_ok 1) in L by reflexivity. cbn [bind to_bool bool_byte] in L. apply ok_pair in L. destruct L as [<- <-]. auto.
  - rewrite app_length in Z. rewrite (slow_load_image s v F J St) in L by (auto; lia). apply ok_pair in L. destruct L as [<- <-]. auto.
Qed.
Lemma slow_mmap_inv : forall s v img m ptr size this s' p', slow_fits s -> w_jumps s = InVec v -> w_start s < w_states s -> lenN img < two64 -> w_null s = false ->
  save_slow s = Ok img -> holds m ptr img -> 8 <= ptr -> ptr + 80 < two64 -> ptr + 8 * size < two64 ->
  mmap_slow this m ptr size = Ok (s', p') -> p' = ptr + lenN img /\ s' = slow_mapped s v.
Proof.
  intros s v img m ptr size this s' p' F J St Z Nu E H A B C L. rewrite (slow_save_ok s v J), Nu in E. apply ok_inj in E. subst img.
  assert (A0 : ptr mod 8 = 0). { unfold mmap_slow, check_align in L. destruct (N.eqb_spec (ptr mod 8) 0); auto. discriminate. }
  rewrite <- (app_nil_r (slow_front s false ++ slow_body s v)) in H. rewrite app_length in Z. assert (Z' : lenN (slow_body s v) < two64) by lia.
  rewrite (slow_mmap_case s v F J St Z' m ptr size [] this H A0 A B C) in L. destruct (size <? need s v); [discriminate|].
  apply ok_pair in L. destruct L as [<- <-]. auto.
Qed.
Lemma mapped_fits : forall s v, slow_fits s -> slow_fits (slow_mapped s v).
Proof. intros s v [A B C]. split; auto. cbn [slow_mapped w_jumps]. discriminate. Qed.
