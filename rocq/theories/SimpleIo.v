(** Saving, loading and mapping SimpleScanner. *)
From Coq Require Import List Bool Arith NArith Lia.
From Verif Require Import Util Spec PartitionModel FsmModel DetermineModel MinimizeModel Api ApiProofs TagFacts RunModel RunSpec ScannerModel ScannerSpec ScannerProofs ScannerCompile
  ScannerFits SimpleModel SimpleProofs IoModel IoBytes.
Import ListNotations.
Local Open Scope N_scope.

Definition simple_fits (s : simple) : Prop := Forall (fun x => x < two64) (p_words s).
Lemma simple_write_fits : forall ws i v ws', v < two64 -> Forall (fun x => x < two64) ws -> simple_write ws i v = Ok ws' -> Forall (fun x => x < two64) ws'.
Proof.
  intros ws i v ws' V F E. unfold simple_write in E. destruct (i <? _); [|discriminate]. apply ok_inj in E. subst. apply upd_Forall; auto.
Qed.
Lemma simple_compile_fits : forall buf f s, built f -> simple_compile buf f = Ok s -> simple_fits s.
Proof.
  intros buf f s B E. unfold simple_compile in E. destruct (canonize f 0) as [g| | |] eqn:C; cbn [bind] in E; try discriminate.
  assert (Bg : built g) by (eapply built_canonize; eauto). pose proof (proj1 (built_bare _ Bg)) as T. clear C Bg. revert E.
  generalize (seq 0 (size g)) (pset (letters g)). intros qs ls E.
  destruct (foldm _ qs (repeat 0 (size g * N.to_nat simple_row))) as [w1| | |] eqn:E1; cbn [bind] in E; try discriminate.
  assert (F1 : Forall (fun x => x < two64) w1).
  { eapply (foldm_inv _ _ (Forall (fun x => x < two64))); [| |exact E1]; [|apply Forall_repeat; reflexivity]. cbn beta. intros ws q ws' _ F Ew.
    eapply simple_write_fits; [|exact F|exact Ew]. unfold fsm_tag. rewrite T. cbn [mfind]. destruct (is_final g q); reflexivity. }
  clear E1. destruct (foldm _ qs w1) as [w2| | |] eqn:E2; cbn [bind] in E; try discriminate. apply ok_inj in E. subst s. unfold simple_fits. cbn [p_words].
  eapply (foldm_inv _ _ (Forall (fun x => x < two64))); [|exact F1|exact E2]. cbn beta. intros wa q wb _ Fa Ea.
  eapply (foldm_inv _ _ (Forall (fun x => x < two64))); [|exact Fa|exact Ea]. cbn beta. intros wc [c [i ms]] wd _ Fc Ec.
  eapply (foldm_inv _ _ (Forall (fun x => x < two64))); [|exact Fc|exact Ec]. cbn beta. intros we l wf _ Fe Ee.
  eapply (foldm_inv _ _ (Forall (fun x => x < two64))); [|exact Fe|exact Ee]. cbn beta. intros wg to wh _ Fg Eg.
  eapply simple_write_fits; [|exact Fg|exact Eg]. apply N.mod_lt. discriminate.
Qed.
Lemma simple_default_fits : forall buf s, simple_default buf = Ok s -> simple_fits s.
Proof.
  intros buf s. unfold simple_default. pose proof (simple_compile_fits buf make_false) as C. destruct (simple_compile buf make_false) as [s0| | |]; cbn [bind]; intros E; try discriminate.
  apply ok_inj in E. subst. apply (C s0); auto. apply built_false.
Qed.
Lemma simple_copy_fits : forall buf s, simple_fits s -> simple_fits (simple_copy buf s).
Proof. intros buf s F. unfold simple_copy. destruct (p_owned s); auto. Qed.

(** The same table at another address. *)
Definition simple_rebase (buf : N) (owned : bool) (s : simple) : simple :=
  mkSimple (p_states s) (p_initial s - p_buf s + buf) buf (p_words s) owned false.
Lemma simple_shows_rebase : forall s t buf owned, simple_shows s t -> buf + p_states s * 265 * 8 <= two64 -> simple_shows (simple_rebase buf owned s) t.
Proof.
  intros s t buf owned [A1 A2 A3 A4 A5] P. split; auto.
  - cbn [simple_rebase p_initial]. unfold simple_addr in *. cbn [simple_rebase p_buf]. rewrite A4. lia.
  - cbn [simple_rebase p_buf]. rewrite <- A3. exact P.
Qed.

Lemma ok_pair : forall A B (a c : A) (b d : B), Ok (a, b) = Ok (c, d) -> a = c /\ b = d.
Proof. intros A B a c b d H. split; congruence. Qed.

Section Image.
  Variables (s : simple) (t : machine).
  Hypothesis S : simple_shows s t.
  Hypothesis F : simple_fits s.

  Lemma simple_size : simple_buf_size (p_states s) = p_states s * 265 * 8 /\ simple_buf_size (p_states s) mod 8 = 0 /\ p_states s < two64.
  Proof.
    pose proof (ss_space _ _ S) as P. rewrite <- (ss_states _ _ S) in P. unfold two64 in *.
    assert (E : simple_buf_size (p_states s) = p_states s * 265 * 8).
    { unfold simple_buf_size. change simple_row with 265. rewrite N.mod_small by (unfold two64; lia). lia. }
    rewrite E. splits; [auto|apply N.mod_mul; lia|lia].
  Qed.
  Lemma words_length : N.of_nat (length (p_words s)) = p_states s * 265.
  Proof. destruct (ss_table _ _ S) as [L _]. rewrite L, (ss_states _ _ S). lia. Qed.
  Lemma table_length : N.of_nat (length (array 8 (p_words s))) = simple_buf_size (p_states s).
  Proof. destruct simple_size as [-> _]. rewrite array_length. pose proof words_length. lia. Qed.
  Definition simple_rel : N := (p_initial s + two64 - p_buf s) mod two64.
  Lemma simple_rel_eq : simple_rel = p_initial s - p_buf s /\ simple_rel < p_states s * 265 * 8 /\ simple_rel < two64.
  Proof.
    unfold simple_rel. rewrite (ss_init _ _ S). unfold simple_addr. pose proof (ss_space _ _ S) as P. pose proof (mo_start _ (ss_ok _ _ S)).
    rewrite (ss_states _ _ S). replace (p_buf s + (N.of_nat (m_start t) * 265 + 1) * 8 + two64 - p_buf s) with ((N.of_nat (m_start t) * 265 + 1) * 8 + 1 * two64) by lia.
    rewrite N.mod_add by discriminate. unfold two64 in *. rewrite N.mod_small by lia. splits; lia.
  Qed.
  Lemma simple_locals_fields : let l := simple_locals s simple_rel in length l = 16%nat /\ field 0 8 l = p_states s /\ field 8 8 l = simple_rel.
  Proof.
    intros l. unfold l, simple_locals. destruct simple_size as (_ & _ & A). destruct simple_rel_eq as (_ & _ & B).
    splits; [rewrite app_length, !le_length; reflexivity| |]; try rewrite <- (app_nil_r (le 8 simple_rel)); fields; assumption.
  Qed.
  Lemma simple_at_table : forall buf owned, buf + p_states s * 265 * 8 <= two64 ->
    simple_at (simple_locals s simple_rel) buf owned (array 8 (p_words s)) = simple_rebase buf owned s.
  Proof.
    intros buf owned P. destruct simple_locals_fields as (_ & A & B). destruct simple_rel_eq as (C & D & _). unfold simple_at, simple_rebase. rewrite A, B.
    rewrite N.mod_small by lia. rewrite C. f_equal. rewrite <- (app_nil_r (array 8 (p_words s))) at 2. apply words_array; [|exact F].
    rewrite table_length. destruct simple_size as (-> & _ & _). rewrite N.div_mul by lia. symmetry. apply words_length.
  Qed.
  Definition simple_front (e : bool) : list N := header_bytes ty_simple 16 ++ align_save 24 ++ simple_locals s simple_rel ++ align_save 16 ++ bool_byte e ++ align_save 1.
  Lemma simple_front_length : forall e, length (simple_front e) = 48%nat.
  Proof. intros e. unfold simple_front. destruct simple_locals_fields as (L & _). rewrite !app_length, header_length, L, !align_save_length. destruct e; reflexivity. Qed.
  Lemma simple_save_ok : save_simple s = if p_null s then Ok (simple_front true) else if p_owned s then Ok (simple_front false ++ array 8 (p_words s)) else UB.
  Proof.
    unfold save_simple. fold simple_rel. unfold simple_front. destruct (p_null s); auto. destruct (p_owned s); auto.
    rewrite (align_save_0 (simple_buf_size (p_states s))) by apply simple_size. rewrite app_nil_r. reflexivity.
  Qed.
  Lemma simple_load_front : forall e th buf null r, load_simple buf null (mkStream th (simple_front e ++ r)) =
    if e then Ok (null, mkStream th r)
    else let* (bs, st4) := aligned_load (simple_buf_size (p_states s)) None (mkStream th r) in Ok (simple_at (simple_locals s simple_rel) buf true bs, st4).
  Proof.
    intros e th buf null r. unfold simple_front, load_simple. rewrite <- !app_assoc.
    rewrite load_header_ok by (repeat split; reflexivity). cbn [bind]. destruct simple_locals_fields as (L & A & B).
    rewrite aligned_load_ok by (rewrite L; reflexivity). cbn [bind].
    rewrite (aligned_load_ok 1) by reflexivity. cbn [bind]. assert (TB : to_bool (bool_byte e) = Ok e) by (destruct e; reflexivity). rewrite TB. cbn [bind].
    rewrite A. reflexivity.
  Qed.
  Lemma simple_load_image : forall th r buf null, buf + p_states s * 265 * 8 <= two64 ->
    load_simple buf null (mkStream th ((simple_front false ++ array 8 (p_words s)) ++ r)) = Ok (simple_rebase buf true s, mkStream th r).
  Proof.
    intros th r buf null P. rewrite <- app_assoc, simple_load_front.
    pose proof (aligned_load_ok _ None th (array 8 (p_words s)) r table_length) as L. rewrite align_save_0 in L by apply simple_size. cbn [app] in L.
    rewrite L. cbn [bind]. rewrite simple_at_table by auto. reflexivity.
  Qed.
  Lemma simple_mmap_front : forall m ptr size e y this, holds m ptr (simple_front e ++ y) -> ptr mod 8 = 0 -> ptr + 8 * size < two64 -> ptr + 80 < two64 -> 8 <= ptr ->
    mmap_simple this m ptr size =
    if size <? 42 then Throw EImage
    else if e then Ok (this, ptr + 48)
    else if size - 41 <? simple_buf_size (p_states s) then Throw EImage
    else let* bs := peek m (N.to_nat (simple_buf_size (p_states s))) (ptr + 48) in
         let* c4 := align_ptr (advance (simple_buf_size (p_states s)) (ptr + 48, size - 41)) in
         Ok (simple_at (simple_locals s simple_rel) (ptr + 48) false bs, fst c4).
  Proof.
    intros m ptr size e y this H A B B1 B2. unfold simple_front in H. rewrite <- !app_assoc in H. destruct simple_locals_fields as (LL & X1 & X2).
    assert (H1 := H). rewrite (align_save_0 24), (align_save_0 16) in H by reflexivity. cbn [app] in H.
    destruct (holds_split _ _ _ _ H) as [_ H2]. rewrite header_length in H2. change (N.of_nat 24) with 24 in H2.
    destruct (holds_split _ _ _ _ H2) as [_ H3]. rewrite LL in H3. change (N.of_nat 16) with 16 in H3.
    assert (A24 : (ptr + 24) mod 8 = 0) by (rewrite N.add_mod, A by lia; reflexivity).
    assert (A40 : (ptr + 24 + 16) mod 8 = 0) by (rewrite N.add_mod, A24 by lia; reflexivity).
    unfold mmap_simple, check_align. rewrite A. cbn [N.eqb bind].
    destruct (N.ltb_spec size 24) as [S24|S24].
    { rewrite map_header_short by auto. destruct (N.ltb_spec size 42); [reflexivity|lia]. }
    rewrite (map_header_ok m ty_simple 16 ptr size _ ltac:(split; reflexivity) ltac:(reflexivity) H1) by (auto; lia). cbn [bind snd fst].
    destruct (N.ltb_spec (size - 24) 16) as [S40|S40].
    { destruct (N.ltb_spec size 42); [reflexivity|lia]. }
    rewrite (peek_here m 16 _ _ _ H2) by exact LL. cbn [bind].
    rewrite advance_ok by lia. rewrite align_ptr_0 by auto. cbn [bind].
    destruct (N.ltb_spec size 42) as [S42|S42].
    { rewrite (map_empty_short _ _ _ _ _ H3) by (auto; lia). reflexivity. }
    rewrite (map_empty_ok _ _ _ _ _ H3) by (auto; lia). cbn [bind]. replace (ptr + 24 + 16 + 8) with (ptr + 48) by lia. replace (size - 24 - 16 - 1) with (size - 41) by lia.
    destruct e.
    { rewrite align_ptr_0 by (rewrite N.add_mod, A by lia; reflexivity). reflexivity. }
    cbn [fst snd]. rewrite X1. reflexivity.
  Qed.
  Lemma simple_mmap_image : forall m ptr size y this, holds m ptr ((simple_front false ++ array 8 (p_words s)) ++ y) -> ptr mod 8 = 0 -> 8 <= ptr -> ptr + 8 * size < two64 ->
    48 + simple_buf_size (p_states s) <= size + 7 ->
    mmap_simple this m ptr size = Ok (simple_rebase (ptr + 48) false s, ptr + N.of_nat (length (simple_front false ++ array 8 (p_words s)))).
  Proof.
    intros m ptr size y this H A A8 B C. rewrite <- app_assoc in H. destruct simple_size as (Sz & Al & _).
    assert (T : 2120 <= simple_buf_size (p_states s)). { rewrite Sz, (ss_states _ _ S). pose proof (mo_start _ (ss_ok _ _ S)). lia. }
    rewrite (simple_mmap_front m ptr size false _ this H) by (auto; lia).
    destruct (N.ltb_spec size 42); [lia|]. destruct (N.ltb_spec (size - 41) (simple_buf_size (p_states s))); [lia|].
    destruct (holds_split _ _ _ _ H) as [_ H2]. rewrite simple_front_length in H2. change (N.of_nat 48) with 48 in H2.
    rewrite (peek_here m _ _ _ _ H2) by (rewrite <- table_length; rewrite Nat2N.id; reflexivity). cbn [bind].
    rewrite advance_ok by lia.
    rewrite align_ptr_0. 2:{ rewrite N.add_mod, Al, (N.add_mod ptr 48 8), A by lia. reflexivity. }
    cbn [bind fst]. rewrite simple_at_table by lia. rewrite app_length, simple_front_length, Nat2N.inj_add, table_length. do 2 f_equal. lia.
  Qed.
  Lemma simple_mmap_short : forall m ptr size e y this, holds m ptr (simple_front e ++ y) -> ptr mod 8 = 0 -> 8 <= ptr -> ptr + 80 < two64 -> ptr + 8 * size < two64 ->
    size + 7 < 48 + (if e then 0 else simple_buf_size (p_states s)) -> mmap_simple this m ptr size = Throw EImage.
  Proof.
    intros m ptr size e y this H A A8 B C D. rewrite (simple_mmap_front m ptr size e _ this H) by auto.
    destruct (N.ltb_spec size 42); auto. destruct e; [lia|]. destruct (N.ltb_spec (size - 41) (simple_buf_size (p_states s))); [auto|lia].
  Qed.
  (** What a successful load or map gives. *)
  Lemma simple_load_inv : forall img th r buf null s' st', save_simple s = Ok img -> load_simple buf null (mkStream th (img ++ r)) = Ok (s', st') ->
    p_buf s' + p_states s' * 265 * 8 <= two64 ->
    st' = mkStream th r /\ ((p_null s = true /\ s' = null) \/ (p_null s = false /\ p_owned s = true /\ s' = simple_rebase buf true s)).
  Proof.
    intros img th r buf null s' st' E L P. rewrite simple_save_ok in E. destruct (p_null s).
    - apply ok_inj in E. subst img. rewrite simple_load_front in L. inversion L; subst. auto.
    - destruct (p_owned s); [|discriminate]. apply ok_inj in E. subst img. rewrite <- app_assoc, simple_load_front in L.
      pose proof (aligned_load_ok _ None th (array 8 (p_words s)) r table_length) as AL. rewrite align_save_0 in AL by apply simple_size. cbn [app] in AL.
      rewrite AL in L. cbn [bind] in L. inversion L; subst s' st'. split; auto. right. splits; auto.
      destruct simple_locals_fields as (_ & X1 & _). apply simple_at_table. unfold simple_at in P. cbn [p_buf p_states] in P. rewrite X1 in P. exact P.
  Qed.
  Lemma simple_mmap_inv : forall img m ptr size this s' p', save_simple s = Ok img -> holds m ptr img -> 8 <= ptr -> ptr + 80 < two64 -> ptr + 8 * size < two64 ->
    mmap_simple this m ptr size = Ok (s', p') ->
    p' = ptr + N.of_nat (length img) /\ ((p_null s = true /\ s' = this) \/ (p_null s = false /\ s' = simple_rebase (ptr + 48) false s /\ p_buf s' + p_states s' * 265 * 8 <= two64)).
  Proof.
    intros img m ptr size this s' p' E H A8 B1 B L. rewrite simple_save_ok in E.
    assert (A : ptr mod 8 = 0). { unfold mmap_simple, check_align in L. destruct (N.eqb_spec (ptr mod 8) 0); auto. discriminate. }
    destruct (p_null s).
    - apply ok_inj in E. subst img. rewrite <- (app_nil_r (simple_front true)) in H. rewrite (simple_mmap_front m ptr size true _ this H) in L by auto. rewrite simple_front_length.
      destruct (N.ltb_spec size 42); [discriminate|]. inversion L; subst. auto.
    - destruct (p_owned s); [|discriminate]. apply ok_inj in E. subst img. pose proof L as L0. rewrite (simple_mmap_front m ptr size false _ this H) in L0 by auto.
      destruct (N.ltb_spec size 42); [discriminate|]. destruct (N.ltb_spec (size - 41) (simple_buf_size (p_states s))); [discriminate|]. clear L0.
      destruct simple_size as (Sz & _). rewrite <- (app_nil_r (simple_front false ++ array 8 (p_words s))) in H.
      assert (K : 48 + simple_buf_size (p_states s) <= size + 7) by lia.
      rewrite (simple_mmap_image m ptr size [] this H A A8 B K) in L. apply ok_pair in L. destruct L as [L1 L2]. split; [symmetry; exact L2|]. right. split; [reflexivity|].
      rewrite <- L1. split; [reflexivity|]. cbn [simple_rebase p_buf p_states]. rewrite <- Sz. lia.
  Qed.
End Image.
