(** What Run, prefix search and Runner answer on every scanner the interface gives, in terms
    of the languages of its regexps. *)
From Coq Require Import List Bool Arith NArith Lia Sorted.
From Verif Require Import Util Spec RunModel RunSpec RunProofs PrefixProofs ScannerModel ScannerSpec ScannerProofs JumpProofs MultiRun
  GlueModel GlueProofs ScannerApi ScannerClosure ScannerRun.
Import ListNotations.

Lemma obtained_reports : forall k s Ls, obtained k s Ls -> reports k s Ls.
Proof. intros. apply faithful_reports, obtained_faithful. auto. Qed.
Lemma obtained_count : forall k s Ls, obtained k s Ls -> s_count s = N.of_nat (length Ls).
Proof. intros k s Ls O. apply (fa_count _ _ _ (obtained_faithful _ _ _ O)). Qed.

Lemma reports_accepts : forall k s Ls, reports k s Ls -> forall w, is_word w -> (Accepts (scanner_ops k s) w <-> any_of Ls w).
Proof.
  intros k s Ls R w Hw. destruct (R w Hw) as (a & E & (fin & F & I) & _). unfold Accepts, any_of. cbn [scanner_ops o_init o_final]. rewrite <- I. split.
  - intros (a' & E' & F'). change (steps (scanner_ops k s) (s_initial s) w = Ok a') in E'. congruence.
  - intros ->. eauto.
Qed.

Lemma firstn_word : forall n bs, Forall byte bs -> is_word (firstn n bs).
Proof. intros n bs H. apply bytes_word. apply Forall_forall. intros x X. rewrite Forall_forall in H. apply H. rewrite <- (firstn_skipn n bs). apply in_or_app. auto. Qed.
Lemma mark_word : forall b c, letter c -> is_word (mark_if b c).
Proof. intros [|] c H; [constructor; [exact H|]|]; constructor. Qed.

Section Ext.
  Variables (A B : list N -> Prop) (bs : list N).
  Hypothesis E : forall k, k <= length bs -> (A (firstn k bs) <-> B (firstn k bs)).
  Hypothesis Em : A (bs ++ [EndMark]) <-> B (bs ++ [EndMark]).
  Lemma no_prefix_ext : no_prefix A bs -> no_prefix B bs.
  Proof. intros H k Hk X. apply (H k Hk). apply E; auto. Qed.
  Lemma shortest_ext : forall em b r, shortest_result A em b bs r -> shortest_result B em b bs r.
  Proof.
    intros em b [p|] H; cbn [shortest_result] in *.
    - destruct H as [(k & Hk & -> & X & Y)|(X & -> & Y & Z)].
      + left. exists k. repeat apply conj; auto; [apply E; auto|]. intros j Hj. rewrite <- E by lia. auto.
      + right. repeat apply conj; auto; [apply no_prefix_ext; auto|apply Em; auto].
    - destruct H as [X Y]. split; [apply no_prefix_ext; auto|]. rewrite <- Em. auto.
  Qed.
  Lemma longest_ext : forall em b r, longest_result A em b bs r -> longest_result B em b bs r.
  Proof.
    intros em b [p|] H; cbn [longest_result] in *.
    - destruct H as [(X & -> & Y)|(X & k & Hk & -> & Y & Z)].
      + left. repeat apply conj; auto. apply Em; auto.
      + right. split; [rewrite <- Em; auto|]. exists k. repeat apply conj; auto; [apply E; auto|]. intros j J1 J2. rewrite <- E by lia. auto.
    - destruct H as [X Y]. split; [apply no_prefix_ext; auto|]. rewrite <- Em. auto.
  Qed.
  Lemma up_to_ext : forall Same em b r, longest_up_to Same A em b bs r -> longest_up_to Same B em b bs r.
  Proof.
    intros Same em b [p|] H; cbn [longest_up_to] in *.
    - destruct H as [(X & -> & Y)|(X & k & Hk & -> & Y & Z)].
      + left. repeat apply conj; auto. apply Em; auto.
      + right. split; [rewrite <- Em; auto|]. exists k. repeat apply conj; auto; [apply E; auto|]. intros j J1 J2 J3. apply Z; auto. apply E; auto.
    - destruct H as [X Y]. split; [apply no_prefix_ext; auto|]. rewrite <- Em. auto.
  Qed.
End Ext.

Section User.
  Variables (k : kind) (s : scanner) (Ls : list lang).
  Hypothesis O : obtained k s Ls.
  Variables (i : isa) (m : mem).
  Let o := scanner_ops k s.

  Lemma ob_ext : forall bm bs, Forall byte bs ->
    (forall n, n <= length bs -> (Accepts o (mark_if bm BeginMark ++ firstn n bs) <-> any_of Ls (mark_if bm BeginMark ++ firstn n bs))) /\
    (Accepts o (mark_if bm BeginMark ++ bs ++ [EndMark]) <-> any_of Ls (mark_if bm BeginMark ++ bs ++ [EndMark])).
  Proof.
    intros bm bs H. split; intros; apply reports_accepts; auto using obtained_reports; apply Forall_app; split; try (apply mark_word, BeginMark_letter).
    - apply firstn_word; auto.
    - apply Forall_app. split; [apply bytes_word; auto|]. constructor; [apply EndMark_letter|constructor].
  Qed.
  Lemma ob_run : forall w a b bs, is_word w -> steps o (s_initial s) w = Ok a -> text_at m b bs ->
    exists r, run_with o m (multi_run_aligned k s i m (@run_pred N)) b (b + N.of_nat (length bs)) a = Ok r /\ steps o (s_initial s) (w ++ bs) = Ok r.
  Proof.
    intros w a b bs Hw E T. destruct (fa_shows _ _ _ (obtained_faithful _ _ _ O)) as (cls & t & M & S & _).
    destruct (live_word k s cls t S M w Hw) as (a' & E' & V'). change (steps o (s_initial s) w = Ok a') in E'. assert (a' = a) by congruence. subst a'.
    pose proof (sc_run k s cls t S M i m b bs a T V') as X. fold o in X. rewrite X. clear X. rewrite steps_app, E. cbn [bind].
    destruct (@steps_V _ o (visited k s t) (scanner_works k s cls t S M) bs a V') as (r & X & _); [apply bytes_word, T|]. eauto.
  Qed.
  Lemma ob_shortest : forall bm em b bs, text_at m b bs ->
    exists r, shortest_prefix_with o m (multi_run_aligned k s i m (shortest_pred o)) bm em b (b + N.of_nat (length bs)) = Ok r /\
      shortest_result (fun u => any_of Ls (mark_if bm BeginMark ++ u)) em b bs r.
  Proof.
    intros bm em b bs T. destruct (fa_shows _ _ _ (obtained_faithful _ _ _ O)) as (cls & t & M & S & _).
    destruct (sc_shortest k s cls t S M i m bm em b bs T) as (r & E & H). exists r. split; auto.
    destruct (ob_ext bm bs (proj1 (proj1 (proj2 T)))) as [X Y]. revert H. apply shortest_ext; auto.
  Qed.
  Lemma ob_longest : forall bm em b bs, text_at m b bs ->
    exists r, longest_prefix_with o m (multi_run_aligned k s i m (longest_pred o)) bm em b (b + N.of_nat (length bs)) = Ok r /\
      longest_up_to (fun u v => same_state o (mark_if bm BeginMark ++ u) (mark_if bm BeginMark ++ v))
        (fun u => any_of Ls (mark_if bm BeginMark ++ u)) em b bs r.
  Proof.
    intros bm em b bs T. destruct (fa_shows _ _ _ (obtained_faithful _ _ _ O)) as (cls & t & M & S & _).
    destruct (sc_longest k s cls t S M i m bm em b bs T) as (r & E & H). exists r. split; auto.
    destruct (ob_ext bm bs (proj1 (proj1 (proj2 T)))) as [X Y]. revert H. apply up_to_ext; auto.
  Qed.
  Lemma ob_longest_plain : k_nmask k = 0 -> forall bm em b bs, text_at m b bs ->
    exists r, longest_prefix_with o m (multi_run_aligned k s i m (longest_pred o)) bm em b (b + N.of_nat (length bs)) = Ok r /\
      longest_result (fun u => any_of Ls (mark_if bm BeginMark ++ u)) em b bs r.
  Proof.
    intros Z bm em b bs T. destruct (fa_shows _ _ _ (obtained_faithful _ _ _ O)) as (cls & t & M & S & _).
    destruct (sc_longest_plain k s cls t S M i m Z bm em b bs T) as (r & E & H). exists r. split; auto.
    destruct (ob_ext bm bs (proj1 (proj1 (proj2 T)))) as [X Y]. revert H. apply longest_ext; auto.
  Qed.
  Lemma ob_matches : forall bm em b bs, text_at m b bs ->
    exists r, matches_with o m (multi_run_aligned k s i m (@run_pred N)) bm em b (b + N.of_nat (length bs)) = Ok r /\
      (r = true <-> any_of Ls (mark_if bm BeginMark ++ bs ++ mark_if em EndMark)).
  Proof.
    intros bm em b bs T. destruct (fa_shows _ _ _ (obtained_faithful _ _ _ O)) as (cls & t & M & S & _).
    destruct (sc_matches k s cls t S M i m bm em b bs T) as (r & E & H). exists r. split; auto. rewrite H. apply reports_accepts; auto using obtained_reports.
    apply Forall_app; split; [apply mark_word, BeginMark_letter|]. apply Forall_app. split; [apply bytes_word, T|apply mark_word, EndMark_letter].
  Qed.
End User.

(** ** Glue *)
Lemma ssorted_ext : forall xs ys : list N, StronglySorted N.lt xs -> StronglySorted N.lt ys -> (forall i, In i xs <-> In i ys) -> xs = ys.
Proof.
  induction xs as [|x xs IH]; intros [|y ys] Sx Sy H; auto.
  - destruct (proj2 (H y) (or_introl eq_refl)).
  - destruct (proj1 (H x) (or_introl eq_refl)).
  - inversion Sx as [|? ? Sx' Fx]; inversion Sy as [|? ? Sy' Fy]; subst. rewrite Forall_forall in Fx, Fy.
    assert (x = y).
    { destruct (proj1 (H x) (or_introl eq_refl)) as [|Hx]; auto. destruct (proj2 (H y) (or_introl eq_refl)) as [|Hy]; auto.
      specialize (Fx _ Hy). specialize (Fy _ Hx). lia. }
    subst y. f_equal. apply IH; auto. intros i. split; intros I.
    + destruct (proj1 (H i) (or_intror I)) as [<-|]; auto. specialize (Fx _ I). lia.
    + destruct (proj2 (H i) (or_intror I)) as [<-|]; auto. specialize (Fy _ I). lia.
Qed.
Lemma ssorted_shift : forall xs ys n, StronglySorted N.lt xs -> (forall i, In i xs -> (i < n)%N) -> StronglySorted N.lt ys ->
  StronglySorted N.lt (xs ++ map (fun i => (i + n)%N) ys).
Proof.
  intros xs ys n Sx B Sy. induction Sx as [|x xs Sx IH Fx]; cbn [app].
  - clear B. induction Sy as [|y ys Sy IH Fy]; cbn [map]; constructor; auto. apply Forall_forall. intros z Z. apply in_map_iff in Z as (i & <- & I).
    rewrite Forall_forall in Fy. specialize (Fy _ I). lia.
  - constructor; [apply IH; intros; apply B; right; auto|]. apply Forall_app. split; auto. apply Forall_forall. intros z Z. apply in_map_iff in Z as (i & <- & I).
    specialize (B x (or_introl eq_refl)). lia.
Qed.
Lemma bool_ext : forall a b, (a = true <-> b = true) -> a = b.
Proof. intros [|] [|] [H1 H2]; auto; symmetry; auto. Qed.

(** What Glue(l, r) answers, next to what l and r answer. *)
Record glued_from (k : kind) (l r s : scanner) : Prop := {
  gf_count : s_count s = (s_count l + s_count r)%N;
  gf_answers : forall w, is_word w -> exists al ar a, exists idl idr, exists finl finr deadl deadr,
    steps (scanner_ops k l) (s_initial l) w = Ok al /\ steps (scanner_ops k r) (s_initial r) w = Ok ar /\
    steps (scanner_ops k s) (s_initial s) w = Ok a /\
    s_accepted k l al = Ok idl /\ s_accepted k r ar = Ok idr /\ s_accepted k s a = Ok (idl ++ map (fun i => (i + s_count l)%N) idr) /\
    s_isfinal k l al = Ok finl /\ s_isfinal k r ar = Ok finr /\ s_isfinal k s a = Ok (finl || finr) /\
    s_isdead k l al = Ok deadl /\ s_isdead k r ar = Ok deadr /\ s_isdead k s a = Ok (deadl && deadr)
}.
Lemma reports_glued : forall k l r s La Lb, s_count l = N.of_nat (length La) -> s_count r = N.of_nat (length Lb) ->
  s_count s = N.of_nat (length (La ++ Lb)) -> reports k l La -> reports k r Lb -> reports k s (La ++ Lb) -> glued_from k l r s.
Proof.
  intros k l r s La Lb Cl Cr Cs Rl Rr Rs. split.
  { rewrite Cs, Cl, Cr, app_length. lia. }
  intros w Hw. destruct (Rl w Hw) as (al & El & (fl & Fl & Fl') & (dl & Dl & Dl') & (il & Il & Sl & Il')).
  destruct (Rr w Hw) as (ar & Er & (fr & Fr & Fr') & (dr & Dr & Dr') & (ir & Ir & Sr & Ir')).
  destruct (Rs w Hw) as (a & E & (f & F & F') & (d & D & D') & (ids & I & S & I')).
  exists al, ar, a, il, ir, fl, fr, dl, dr. splits; auto.
  - rewrite I. f_equal. apply ssorted_ext; auto.
    + apply ssorted_shift; auto. intros i X. apply Il' in X as (L & X & _). assert (N.to_nat i < length La) by (apply nth_error_Some; congruence). lia.
    + intros i. rewrite I', in_app_iff, in_map_iff, Il'. split.
      * intros (L & A & B). destruct (Nat.lt_ge_cases (N.to_nat i) (length La)).
        -- left. rewrite nth_error_app1 in A by auto. eauto.
        -- right. rewrite nth_error_app2 in A by auto. exists (i - s_count l)%N. split; [lia|]. apply Ir'. exists L. split; auto.
           replace (N.to_nat (i - s_count l)) with (N.to_nat i - length La) by lia. auto.
      * intros [(L & A & B)|(j & <- & X)].
        -- exists L. split; auto. rewrite nth_error_app1; auto. apply nth_error_Some. congruence.
        -- apply Ir' in X as (L & A & B). exists L. split; auto. rewrite nth_error_app2 by lia.
           replace (N.to_nat (j + s_count l) - length La) with (N.to_nat j) by lia. auto.
  - rewrite F. f_equal. apply bool_ext. rewrite F', orb_true_iff, Fl', Fr'. unfold any_of. split.
    + intros (L & A & B). apply in_app_or in A as [A|A]; [left|right]; eauto.
    + intros [(L & A & B)|(L & A & B)]; exists L; split; auto; apply in_or_app; auto.
  - rewrite D. f_equal. apply bool_ext. rewrite D', andb_true_iff, Dl', Dr'. split.
    + intros A. split; intros L v X; apply A; apply in_or_app; auto.
    + intros [A B] L v X. apply in_app_or in X as [X|X]; eauto.
Qed.
Lemma obtained_glued : forall k b0 b1 b2 null l r maxSize s La Lb, obtained k l La -> obtained k r Lb -> default_scanner k b0 = Ok null ->
  glue k b1 b2 null l r maxSize = Ok s -> (s_null s = true -> s_null l = true \/ s_null r = true) -> (maxSize <= 262141)%N ->
  room k b1 s -> placed k s -> glued_from k l r s.
Proof.
  intros k b0 b1 b2 null l r maxSize s La Lb Ol Or D E N0 L R P.
  assert (Os : obtained k s (La ++ Lb)) by (eapply ob_glue; eauto).
  eapply reports_glued; eauto using obtained_reports, obtained_count.
Qed.

(** The limits *)
Lemma glue_empty_left : forall k b1 b2 null l r maxSize Lb, s_null l = true -> obtained k r Lb ->
  exists s, glue k b1 b2 null l r maxSize = Ok s /\ (placed k s -> obtained k s Lb).
Proof.
  intros k b1 b2 null l r maxSize Lb N0 O. unfold glue. rewrite N0. eexists. split; [reflexivity|]. intros P. apply ob_copy; auto.
Qed.
Lemma glue_empty_right : forall k b1 b2 null l r maxSize La, s_null r = true -> obtained k l La -> obtained k r [] ->
  exists s, glue k b1 b2 null l r maxSize = Ok s /\ (placed k s -> obtained k s La).
Proof.
  intros k b1 b2 null l r maxSize La N0 O Or. unfold glue. rewrite N0. destruct (s_null l) eqn:NL.
  - eexists. split; [reflexivity|]. intros P. destruct (fa_null _ _ _ (obtained_faithful _ _ _ O) NL) as [_ ->]. apply ob_copy; auto.
  - eexists. split; [reflexivity|]. intros P. apply ob_copy; auto.
Qed.
Section Limits.
  Variables (k : kind) (b0 b1 b2 : N) (null l r : scanner) (La Lb : list lang) (maxSize : N).
  Hypothesis Ol : obtained k l La.
  Hypothesis Or : obtained k r Lb.
  Hypothesis Nl : s_null l = false.
  Hypothesis Nr : s_null r = false.
  Lemma glue_limit_empty : (glue_limit maxSize <= 262141)%N -> at_least k l r (glue_limit maxSize + 2) -> glue k b1 b2 null l r maxSize = Ok null.
  Proof.
    intros L TM. destruct (obtained_faithful _ _ _ Ol) as [Hn Rgl _ Col (cl & tl & Ml & Sl & Tl)]. destruct (obtained_faithful _ _ _ Or) as [_ Rgr _ Cor (cr & tr & Mr & Sr & Tr)].
    exact (glue_too_many k l r cl cr tl tr Sl Ml Sr Mr (ScannerCompile.header_small k Hn) Nl Nr Rgl Rgr b1 b2 null maxSize L TM).
  Qed.
  Hypothesis Dn : default_scanner k b0 = Ok null.
  Lemma glue_limit_fits : (glue_limit maxSize <= 262141)%N -> ~ at_least k l r (glue_limit maxSize + 2) -> (s_count l + s_count r <= 16000)%N ->
    exists s, glue k b1 b2 null l r maxSize = Ok s /\ s_null s = false /\ (s_states s <= glue_limit maxSize + 1)%N /\
      (user_address b1 -> user_address b2 -> obtained k s (La ++ Lb)).
  Proof.
    intros L NTM Hc. destruct (obtained_faithful _ _ _ Ol) as [Hn Rgl _ Col (cl & tl & Ml & Sl & Tl)]. destruct (obtained_faithful _ _ _ Or) as [_ Rgr _ Cor (cr & tr & Mr & Sr & Tr)].
    assert (Cl : s_regexps l = s_count l) by (unfold s_count; rewrite Nl; auto).
    assert (Cr : s_regexps r = s_count r) by (unfold s_count; rewrite Nr; auto).
    destruct (glue_fits k l r cl cr tl tr Sl Ml Sr Mr (ScannerCompile.header_small k Hn) Nl Nr Rgl Rgr (te_ids _ _ _ Tl) (te_ids _ _ _ Tr) b1 b2 null maxSize L NTM) as
      (s' & t & E' & M & Sh & O & I & F1 & F2 & F3 & F4 & F5 & F6 & F7 & F8); [left; lia|].
    exists s'. splits; auto. intros [U1 U2] [U3 U4].
    pose proof (ScannerCompile.row_bytes_le k (s_nletters s') Hn F6) as Rb.
    fold (glue_limit maxSize) in F5. assert (Sz : (s_states s' <= 262142)%N) by lia.
    assert (T : (s_states s' * row_bytes k (s_nletters s') <= 262142 * 8000)%N) by (apply N.mul_le_mono; lia).
    apply (ob_glue k b0 b1 b2 null l r maxSize); auto.
    - congruence.
    - unfold glue_limit in L. destruct (N.eqb_spec maxSize 0); lia.
    - split; auto. unfold two64, two32, MaxChar in *. lia.
    - split; [congruence| |intros _; unfold two31; lia]. unfold s_base. rewrite F1. unfold two64, two32, MaxChar in *. lia.
  Qed.
  Lemma glue_past_capacity : (262144 <= glue_limit maxSize)%N -> at_least k l r 262145 -> glue k b1 b2 null l r maxSize = UB.
  Proof.
    intros L TM. destruct (obtained_faithful _ _ _ Ol) as [Hn Rgl _ Col (cl & tl & Ml & Sl & Tl)]. destruct (obtained_faithful _ _ _ Or) as [_ Rgr _ Cor (cr & tr & Mr & Sr & Tr)].
    exact (glue_overflow k l r cl cr tl tr Sl Ml Sr Mr Nl Nr b1 b2 null maxSize L TM).
  Qed.
End Limits.
