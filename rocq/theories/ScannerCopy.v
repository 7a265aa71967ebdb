(** Copying a scanner, also to the other relocation type. *)
From Coq Require Import List Bool Arith NArith Lia.
From Verif Require Import Util Spec PartitionModel FsmModel DetermineModel MinimizeModel RunModel RunSpec RunProofs PrefixProofs
  ScannerModel ScannerSpec ScannerProofs ScannerBuild ScannerCompile.
Import ListNotations.

Lemma copy_masks : forall (g : nat -> N) m xs ys, length ys = m ->
  fold_left (fun a j => set_mask j (g j) a) (seq (length xs) m) (quad (xs ++ ys)) = quad (xs ++ map g (seq (length xs) m)).
Proof.
  intros g. induction m as [|m IH]; intros xs ys L.
  - destruct ys; [|discriminate]. reflexivity.
  - destruct ys as [|y ys]; [discriminate|]. cbn [seq fold_left map]. rewrite set_mask_quad, upd_app_r. cbn [upd].
    specialize (IH (xs ++ [g (length xs)]) ys). rewrite <- !app_assoc in IH. cbn [app] in IH.
    rewrite app_length in IH. cbn [length] in IH. rewrite Nat.add_1_r in IH. apply IH. cbn [length] in L. lia.
Qed.
Lemma copy_masks_0 : forall (g : nat -> N) n v,
  fold_left (fun a j => set_mask j (g j) a) (seq 0 n) (repeat v (4 * n)) = quad (map g (seq 0 n)).
Proof. intros g n v. rewrite <- quad_repeat. apply (copy_masks g n [] (repeat v n)). apply repeat_length. Qed.
Lemma map_nth_seq : forall (vs : list N), map (fun j => nth j vs 0%N) (seq 0 (length vs)) = vs.
Proof.
  intros vs. apply nth_ext with (d := 0%N) (d' := 0%N); [rewrite map_length, seq_length; auto|].
  rewrite map_length, seq_length. intros i Hi. rewrite nth_indep with (d' := nth 0 vs 0%N) by (rewrite map_length, seq_length; auto).
  rewrite (map_nth (fun j => nth j vs 0%N) (seq 0 (length vs)) 0), seq_nth by auto. reflexivity.
Qed.

Section Copy.
  Variables (k k' : kind) (s : scanner) (cls : N -> nat) (t : machine).
  Hypothesis S : shows k s cls t.
  Hypothesis M : machine_ok t.
  Hypothesis Hn : k_nmask k = k_nmask k'.
  Hypothesis Hh : (header_size k + 264 <= 65536)%N.
  Hypothesis Hh' : (header_size k' + 264 <= 65536)%N.
  Variable buf : N.
  Let s' := deep_copy k k' buf s.

  Lemma shows_nl : (s_nletters s <= 264)%N.
  Proof.
    destruct (row_exists k s cls t S (m_start t) (mo_start _ M)) as [r [Er _]].
    destruct (sh_row _ _ _ _ S _ _ Er) as (_ & Su & _).
    assert (X : N.to_nat (s_nletters s) <= 264).
    { apply surj_le with (cls := fun n => cls (N.of_nat n)). intros x Hx. destruct (Su x Hx) as [c [[Hc _] E]].
      exists (N.to_nat c). rewrite N2Nat.id. split; auto. unfold MaxChar in Hc. lia. }
    lia.
  Qed.

  Lemma copied_masks : forall loops ms, masks_ok (k_nmask k) loops ms ->
    masks_ok (k_nmask k') loops (fold_left (fun a j => set_mask j (get_mask j ms) a) (seq 0 (k_nmask k')) (repeat NO_SHORTCUT (4 * k_nmask k'))).
  Proof.
    intros loops ms Mk. rewrite copy_masks_0. rewrite <- Hn. clear Hn. set (n := k_nmask k) in *. clearbody n.
    destruct Mk as [Z|ms Z L G|ms Z L G Lo|b bs Lb By Nd Lo].
    - rewrite Z. cbn [seq map]. apply masks_none. auto.
    - apply masks_no_shortcut; auto; [rewrite quad_length, map_length, seq_length; auto|]. rewrite get_mask_quad.
      destruct n; [lia|]. exact G.
    - apply masks_no_exit; auto; [rewrite quad_length, map_length, seq_length; auto|]. rewrite get_mask_quad.
      destruct n; [lia|]. exact G.
    - set (es := (b :: bs) ++ repeat (last (b :: bs) 0%N) (n - Datatypes.S (length bs))).
      assert (E : flat_map (fun c => repeat (fill_size_t c) 4) es = quad (map fill_size_t es)) by (unfold quad; rewrite flat_map_concat_map, (flat_map_concat_map _ (map _ _)), map_map; reflexivity).
      rewrite E.
      assert (Le : length (map fill_size_t es) = n) by (rewrite map_length; unfold es; rewrite app_length, repeat_length; cbn [length]; lia).
      assert (X : map (fun j => get_mask j (quad (map fill_size_t es))) (seq 0 n) = map fill_size_t es).
      { rewrite <- Le at 1. etransitivity; [|apply map_nth_seq]. apply map_ext. intros j. apply get_mask_quad. }
      rewrite X, <- E. apply masks_exits; auto.
  Qed.

  Lemma deep_copy_ok : placed k' s' -> shows k' s' cls t.
  Proof.
    intros P. pose proof shows_nl as NL.
    assert (Base : forall x, index_to_state k' s' x = index_to_state k' (mkScanner (s_states s) (s_nletters s) (s_regexps s) 0 (s_fsize s) buf
         (map (fun l => (l + 65536 - header_size k + header_size k') mod 65536)%N (s_letters s)) (s_final s) (s_index s) [] true false) x) by reflexivity.
    split; auto.
    - apply (sh_states _ _ _ _ S).
    - unfold s', deep_copy. cbn [s_rows]. rewrite map_length, combine_length, seq_length. rewrite (sh_rows _ _ _ _ S). lia.
    - unfold s', deep_copy at 1. cbn [s_initial]. rewrite <- Base. f_equal. rewrite (sh_init _ _ _ _ S). apply (state_index_addr k s).
    - unfold s', deep_copy. cbn [s_letters]. rewrite map_length. apply (sh_lettab _ _ _ _ S).
    - intros c Hc. destruct (sh_letters _ _ _ _ S c Hc) as [E L]. split; [|exact L].
      unfold s', deep_copy. cbn [s_letters]. rewrite nth_error_map, E. cbn [option_map]. f_equal.
      replace (N.of_nat (cls c) + header_size k + 65536 - header_size k + header_size k')%N with ((N.of_nat (cls c) + header_size k') + 1 * 65536)%N by lia.
      rewrite N.mod_add by lia. apply N.mod_small. lia.
    - intros i r' E'. unfold s', deep_copy in E'. cbn [s_rows] in E'. rewrite nth_error_map, nth_error_combine_seq in E'.
      destruct (nth_error (s_rows s) i) as [r|] eqn:Er; cbn [option_map] in E'; [|discriminate]. apply some_inj in E'. subst r'.
      assert (Hi : i < m_states t) by (rewrite <- (sh_rows _ _ _ _ S); apply nth_error_Some; congruence).
      destruct (sh_row _ _ _ _ S i r Er) as (J1 & J2 & J3 & J4 & J5 & J6). cbn [deep_copy_row r_masks r_flags r_jumps].
      splits; auto.
      + rewrite map_length. exact J1.
      + intros c Hc. rewrite nth_error_map, (J3 c Hc). cbn [option_map]. f_equal.
        change (index_to_state k s (N.of_nat i)) with (addr k s i). change (index_to_state k s (N.of_nat (m_next t i c))) with (addr k s (m_next t i c)).
        rewrite (go_addr k s cls t S) by (auto; apply (mo_next _ M); auto). rewrite state_index_addr. reflexivity.
      + apply copied_masks. auto.
    - apply (sh_acc _ _ _ _ S).
  Qed.
  (** A copy of the same kind fits whenever the buffer is not too high. *)
  Lemma copy_placed : k = k' -> (buf mod 8 = 0)%N -> (s_base s' + s_states s * row_bytes k (s_nletters s) <= two64)%N -> placed k' s'.
  Proof.
    intros E B1 B2. split; auto; rewrite <- E; [exact B2|]. intros R. apply (pl_reloc _ _ (sh_placed _ _ _ _ S) R).
  Qed.
End Copy.
