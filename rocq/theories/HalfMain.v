(** The statements about half-final scanners, put together. *)
From Coq Require Import List Bool Arith NArith Lia Sorted.
From Verif Require Import Util Spec FsmModel DetermineModel FsmSem Nfa NfaOps FsmOps FsmOps2 Api ApiProofs RunModel RunSpec RunProofs ScannerModel ScannerSpec ScannerProofs ScannerCompile ScannerApi ScannerClosure
  ApproxModel ApproxSpec HalfModel HalfSpec HalfTable HalfMake HalfRun HalfUser.
Import ListNotations.

Lemma is_word_end : forall w, is_word w -> is_word (w ++ [EndMark]).
Proof. intros w H. apply Forall_app. split; auto. constructor; auto. split; [reflexivity|discriminate]. Qed.

Lemma half_matches : forall k s Ls i (L : lang) w, obtained k s Ls -> nth_error Ls (N.to_nat i) = Some (half_lang L) -> (right_closed L -> left_closed L) ->
  is_word w -> ~ In EndMark w -> (N.of_nat (length w) + 2 < two64)%N ->
  exists st, half_reads k s (w ++ [EndMark]) st /\ (In i (h_accepted st) <-> L (w ++ [EndMark])).
Proof.
  intros k s Ls i L w O Hi RL Hw NE Hl.
  destruct (obtained_counts k s Ls O (w ++ [EndMark]) (is_word_end w Hw)) as (st0 & st & E0 & E & _ & _ & A & _); [rewrite app_length; cbn [length]; lia|].
  exists st. split; [exists st0; auto|]. split.
  - intros H. apply A in H as (L' & u & v & X & Y & Z). rewrite X in Hi. injection Hi as ->. eapply half_only; eauto.
  - intros H. destruct (in_dec N.eq_dec i (h_accepted st)) as [|N]; [assumption|exfalso]. apply (half_some L w H). intros (u & v & X & Y). apply N, A. eauto 7.
Qed.

Lemma counted : forall k s Ls i (L : lang) w, obtained k s Ls -> nth_error Ls (N.to_nat i) = Some L -> is_word w -> (N.of_nat (length w) + 1 < two64)%N ->
  exists st n, half_reads k s w st /\ h_result st i = Ok (N.of_nat n) /\ prefixes_in L w n.
Proof.
  intros k s Ls i L w O Hi Hw Hl. destruct (obtained_counts k s Ls O w Hw Hl) as (st0 & st & E0 & E & R & _). destruct (R i L Hi) as (n & X & Y).
  exists st, n. split; [exists st0; auto|]. auto.
Qed.

Lemma counts_ends : forall k s Ls i (L : lang) w, obtained k s Ls -> nth_error Ls (N.to_nat i) = Some (counter_lang true false L) -> is_word w -> (N.of_nat (length w) + 1 < two64)%N ->
  exists st js, half_reads k s w st /\ h_result st i = Ok (N.of_nat (length js)) /\ NoDup js /\ forall j, In j js <-> ends_at L w j.
Proof.
  intros k s Ls i L w O Hi Hw Hl. destruct (counted k s Ls i _ w O Hi Hw Hl) as (st & n & R & E & (js & ND & I & <-)).
  exists st, js. split; [exact R|]. split; [exact E|]. split; [exact ND|]. intros j. rewrite I, (ends_prefix L w j Hw). reflexivity.
Qed.
Lemma counts_tight : forall k s Ls i (L : lang) w, obtained k s Ls -> nth_error Ls (N.to_nat i) = Some (counter_lang true true L) -> is_word w -> (N.of_nat (length w) + 1 < two64)%N ->
  exists st js, half_reads k s w st /\ h_result st i = Ok (N.of_nat (length js)) /\ NoDup js /\ forall j, In j js <-> ends_at (tight L) w j.
Proof.
  intros k s Ls i L w O Hi Hw Hl. destruct (counted k s Ls i _ w O Hi Hw Hl) as (st & n & R & E & (js & ND & I & <-)).
  exists st, js. split; [exact R|]. split; [exact E|]. split; [exact ND|]. intros j. rewrite I, (ends_prefix (tight L) w j Hw).
  unfold counter_lang. assert (P : is_word (firstn j w)) by (unfold is_word in *; rewrite <- (firstn_skipn j w) in Hw; apply Forall_app in Hw; apply Hw).
  rewrite (simplified_prefix L (firstn j w) P). reflexivity.
Qed.
Lemma counts_disjoint : forall k s Ls i sm (L : lang) w, obtained k s Ls -> nth_error Ls (N.to_nat i) = Some (counter_lang false sm L) -> ~ L [] -> is_word w -> (N.of_nat (length w) + 1 < two64)%N ->
  exists st n, half_reads k s w st /\ h_result st i = Ok (N.of_nat n) /\ disjoint_matches L w n /\ forall m, disjoint_matches L w m -> m <= n.
Proof.
  intros k s Ls i sm L w O Hi NE Hw Hl. destruct (counted k s Ls i _ w O Hi Hw Hl) as (st & n & R & E & P).
  exists st, n. split; [exact R|]. split; [exact E|]. apply disjoint_count; auto.
Qed.
Lemma counts_empty : forall k s Ls i sm (L : lang) w, obtained k s Ls -> nth_error Ls (N.to_nat i) = Some (counter_lang false sm L) -> L [] -> is_word w -> (N.of_nat (length w) + 1 < two64)%N ->
  exists st, half_reads k s w st /\ h_result st i = Ok 1%N.
Proof.
  intros k s Ls i sm L w O Hi E0 Hw Hl. destruct (counted k s Ls i _ w O Hi Hw Hl) as (st & n & R & E & P).
  exists st. split; [exact R|]. rewrite E. apply empty_count in P; [subst n; reflexivity|exact E0].
Qed.

(** ** The constructors *)
Lemma half_total : forall k buf f, k_nmask k <= 64 -> built f -> determined f = false -> user_address buf ->
  half_compile k buf f 0 = Throw ETooComplicated \/ exists s, half_compile k buf f 0 = Ok s /\ obtained k s [half_lang (accepts f)].
Proof.
  intros k buf f Hn B Df [U1 U2]. destruct (make_scanner_ok f B) as [(g & Eg & M & Sz)|X].
  - right. pose proof M as [W D Z _]. destruct (table_total k buf g Hn W D (zt_tag g Z)) as (s & Es & _ & _ & P); [specialize (Sz Df); lia|].
    assert (E : half_compile k buf f 0 = Ok s) by (unfold half_compile; rewrite Eg; exact Es). exists s. split; [exact E|]. eapply ob_half; eauto.
  - left. unfold half_compile. rewrite X. reflexivity.
Qed.
Lemma counter_total : forall k buf i sm f, k_nmask k <= 64 -> built f -> user_address buf ->
  make_non_greedy i sm f = Throw ETooComplicated \/
  exists g s, make_non_greedy i sm f = Ok g /\ half_compile_counter k buf g = Ok s /\ obtained k s [counter_lang i sm (accepts f)].
Proof.
  intros k buf i sm f Hn B [U1 U2]. destruct (make_non_greedy_ok i sm f B) as [(g & Eg & M & Sz)|X]; [right|left; exact X].
  pose proof M as [W D Z _]. destruct (table_total k buf g Hn W D (zt_tag g Z)) as (s & Es & _ & _ & P); [lia|].
  rewrite <- (counter_table k buf g Hn W D (zt_tag g Z)) in Es. exists g, s. split; [exact Eg|]. split; [exact Es|]. eapply ob_half_fsm; eauto. apply hm_counter. exact Eg.
Qed.
Lemma half_distance : forall k buf f d, half_compile k buf f d = half_compile k buf (create_approx f d) 0.
Proof. intros k buf f [|d]; reflexivity. Qed.

(** ** Searching *)
Lemma surround_determined : forall f, determined (surround f) = false.
Proof. reflexivity. Qed.
Lemma surround_closed : forall f, built f -> left_closed (accepts (surround f)).
Proof.
  intros f B u w Hu H. destruct (surround_ok f (built_wf f B)) as (_ & _ & E). apply E. apply E in H as (a & b & -> & Ha & Hb).
  exists (u ++ a), b. split; [rewrite app_assoc; reflexivity|]. split; [apply Forall_app; split; auto|exact Hb].
Qed.
Lemma half_search : forall k buf f, k_nmask k <= 64 -> built f -> user_address buf ->
  half_compile k buf (surround f) 0 = Throw ETooComplicated \/
  exists s, half_compile k buf (surround f) 0 = Ok s /\ forall w, is_word w -> ~ In EndMark w -> (N.of_nat (length w) + 2 < two64)%N ->
    exists st, half_reads k s (w ++ [EndMark]) st /\ (In 0%N (h_accepted st) <-> contains (accepts f) (w ++ [EndMark])).
Proof.
  intros k buf f Hn B U. destruct (half_total k buf (surround f) Hn (built_surround f B) (surround_determined f) U) as [X|(s & E & O)]; [left; exact X|].
  right. exists s. split; [exact E|]. intros w Hw NE Hl.
  destruct (half_matches k s _ 0 (accepts (surround f)) w O eq_refl (fun _ => surround_closed f B) Hw NE Hl) as (st & R & A). exists st. split; [exact R|]. rewrite A.
  destruct (surround_ok f (built_wf f B)) as (_ & _ & LE). rewrite (LE (w ++ [EndMark])). apply is_word_end in Hw. revert Hw. generalize (w ++ [EndMark]). clear. intros w Hw. split.
  - intros (a & r & -> & _ & v & b & -> & H & _). exists a, v, b. auto.
  - intros (a & v & b & -> & H). unfold is_word in Hw. rewrite !Forall_app in Hw. destruct Hw as (Ha & _ & Hb). exists a, (v ++ b). split; [reflexivity|]. split; [exact Ha|]. exists v, b. auto.
Qed.
