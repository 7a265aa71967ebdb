(** From the text of a pattern to the automaton. *)
From Coq Require Import List Bool Arith NArith ZArith Lia.
From Verif Require Import Util Spec PartitionModel FsmModel FsmSem Api NfaOps EncModel EncSpec EncProofs RegexModel RegexSpec RegexParse RegexUser
  LexModel LexSpec LexItems LexTotal.
Import ListNotations.
Local Open Scope N_scope.

Lemma lexed_language : forall added icase andnot is e D, options added icase andnot -> Forall (item_ok andnot) is -> shipped e D ->
  exists ts, Forall2 (stands_for icase) is ts /\
    (forall r, derives Alternative ts r -> regular r ->
      (exists f, parse_pattern (features added) e (pattern_text is) = Ok f /\ built f /\ determined f = false /\
         forall x, accepts f x <-> re_den (e_to e) D r x) \/
      (parse_pattern (features added) e (pattern_text is) = Throw ETooComplicated /\ negates r)) /\
    ((forall r, ~ derives Alternative ts r) -> parse_pattern (features added) e (pattern_text is) = Throw ESyntax).
Proof.
  intros added icase andnot is e D O F S. destruct (lex_all_ok added icase andnot is O F) as (ts & E & M). exists ts. split; auto.
  unfold parse_pattern. rewrite E. cbn [bind]. split.
  - intros r H R. apply (pattern_ok e D ts r S H R).
  - intros H. apply pattern_syntax, H.
Qed.
Lemma local_utf8 : forall added cs, Forall (fun c => c < 2097152) cs ->
  parse_local added utf8 (flat_map (e_to utf8) cs) = parse_pattern (features added) utf8 cs.
Proof. intros added cs H. unfold parse_local. change (e_to utf8) with utf8_to_local. rewrite (utf8_text_round_trip cs H). reflexivity. Qed.
Lemma latin1_loop : forall cs fuel, Forall (fun c => c < 128) cs -> (length cs <= fuel)%nat -> from_local_loop latin1 fuel cs = Ok cs.
Proof.
  induction cs as [|c cs IH]; intros [|k] F L; cbn in L; try reflexivity; [lia|].
  pose proof (latin1_round_trip c cs (Forall_inv F)) as H. pose proof (Forall_inv F) as C.
  assert (latin1_to_local c = [c]) as T.
  { unfold latin1_to_local. rewrite (proj2 (N.ltb_lt _ _)) by exact C. rewrite uchar_small by (cbv beta in C; lia). reflexivity. }
  rewrite T in H. cbn [app] in H. cbn [from_local_loop latin1 e_from]. rewrite H. cbn [bind]. rewrite IH by (try lia; exact (Forall_inv_tail F)). reflexivity.
Qed.
Lemma local_latin1 : forall added cs, Forall (fun c => c < 128) cs -> parse_local added latin1 cs = parse_pattern (features added) latin1 cs.
Proof. intros added cs H. unfold parse_local, from_local_all. rewrite (latin1_loop cs _ H (le_n _)). reflexivity. Qed.

(** ** Literal patterns *)
Definition row_re (ts : list token) : re :=
  fold_left (fun r t => match t with KLetters ss n => RCat r (RLetters ss n) | _ => r end) ts REps.
Lemma literal_letters : forall icase i c t, literal i c -> stands_for icase i t -> letters_of t false (lit icase c).
Proof. intros icase i c t H S. destruct i; cbn in H; try contradiction; subst; exact S. Qed.
Lemma letters_derives : forall ts acc r, derives Concatenation acc r -> Forall (fun t => exists ss, t = KLetters ss false) ts ->
  derives Concatenation (acc ++ ts) (fold_left (fun r t => match t with KLetters ss n => RCat r (RLetters ss n) | _ => r end) ts r).
Proof.
  induction ts as [|t ts IH]; intros acc r H F; [rewrite app_nil_r; exact H|]. destruct (Forall_inv F) as (ss & ->). cbn [fold_left].
  change (acc ++ KLetters ss false :: ts) with (acc ++ [KLetters ss false] ++ ts). rewrite app_assoc. apply IH; [|exact (Forall_inv_tail F)].
  apply g_cat; auto. apply g_iter_term, g_letters.
Qed.
Lemma letters_regular : forall ts r, regular r -> ~ negates r -> Forall (fun t => exists ss, t = KLetters ss false) ts ->
  regular (fold_left (fun r t => match t with KLetters ss n => RCat r (RLetters ss n) | _ => r end) ts r) /\
  ~ negates (fold_left (fun r t => match t with KLetters ss n => RCat r (RLetters ss n) | _ => r end) ts r).
Proof.
  induction ts as [|t ts IH]; intros r R N F; [auto|]. destruct (Forall_inv F) as (ss & ->). cbn [fold_left]. apply IH; [| |exact (Forall_inv_tail F)].
  - cbn. tauto.
  - cbn. intros [X|X]; [auto|discriminate].
Qed.
Lemma encodes_app : forall T a b x y, encodes T a x -> encodes T b y -> encodes T (a ++ b) (x ++ y).
Proof. intros T a b x y H K. induction H; cbn; auto. rewrite <- app_assoc. constructor; auto. Qed.
Lemma letters_den : forall T D icase is cs ts, Forall2 literal is cs -> Forall2 (stands_for icase) is ts -> forall r x,
  re_den T D (fold_left (fun r t => match t with KLetters ss n => RCat r (RLetters ss n) | _ => r end) ts r) x <->
  exists u v ds, x = u ++ v /\ re_den T D r u /\ Forall2 (lit icase) cs ds /\ encodes T ds v.
Proof.
  intros T D icase is cs ts H. revert ts. induction H as [|i c is cs Hl H IH]; intros ts M r x.
  - inversion M; subst. cbn [fold_left]. split.
    + intros A. exists x, [], []. rewrite app_nil_r. repeat split; auto; constructor.
    + intros (u & v & ds & -> & A & B & C). inversion B; subst. inversion C; subst. rewrite app_nil_r. exact A.
  - inversion M as [|? t ? ts' M1 M2]; subst. destruct (literal_letters icase i c t Hl M1) as (l & -> & Hc). cbn [fold_left]. rewrite (IH ts' M2). split.
    + intros (u & v & ds & -> & (u1 & u2 & -> & A & s & Is & _ & E) & B & C).
      apply in_map_iff in Is as (d & <- & Id). apply Hc in Id. exists u1, (u2 ++ v), (d :: ds). rewrite app_assoc. repeat split; auto.
      change (d :: ds) with ([d] ++ ds). apply encodes_app; auto.
    + intros (u & v & ds & -> & A & B & C). inversion B as [|? d ? ds' B1 B2]; subst. inversion C as [|? ? w K1 K2]; subst.
      exists (u ++ T d), w, ds'. rewrite app_assoc. repeat split; auto. exists u, (T d). repeat split; auto. exists [d]. split.
      * apply in_map_iff. exists d. split; auto. apply Hc, B1.
      * split; [discriminate|]. rewrite <- (app_nil_r (T d)). constructor; auto. constructor.
Qed.
Lemma literal_pattern : forall added icase andnot is cs e D, options added icase andnot -> Forall (item_ok andnot) is -> Forall2 literal is cs -> shipped e D ->
  exists f, parse_pattern (features added) e (pattern_text is) = Ok f /\ built f /\ determined f = false /\
    forall x, accepts f x <-> exists ds, Forall2 (lit icase) cs ds /\ encodes (e_to e) ds x.
Proof.
  intros added icase andnot is cs e D O F H S. destruct (lexed_language added icase andnot is e D O F S) as (ts & M & P & _).
  assert (K : Forall (fun t => exists ss, t = KLetters ss false) ts).
  { clear - H M. revert ts M. induction H as [|i c is cs L H IH]; intros ts M; inversion M; subst; constructor; auto.
    destruct (literal_letters icase i c y L H2) as (l & -> & _). eauto. }
  assert (G : derives Alternative ts (row_re ts)).
  { apply g_alt_conj, g_conj_neg, g_neg_cat. apply (letters_derives ts [] REps); auto. constructor. }
  destruct (letters_regular ts REps I (fun x => x) K) as [R N].
  destruct (P _ G R) as [(f & E & B & Df & L)|[_ X]]; [|contradiction]. exists f. split; [exact E|]. split; [exact B|]. split; [exact Df|].
  intros x. rewrite (L x). unfold row_re. rewrite (letters_den (e_to e) D icase is cs ts H M REps x). split.
  - intros (u & v & ds & -> & A & C). cbn in A. unfold L_eps in A. subst u. eauto.
  - intros (ds & A & C). exists [], x, ds. repeat split; auto; apply C || apply A.
Qed.
