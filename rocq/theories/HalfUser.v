(** What the counts mean: matching, ends of matches, matches that do not overlap. *)
From Coq Require Import List Bool Arith NArith Lia Sorted.
From Verif Require Import Util Spec HalfSpec.
Import ListNotations.

(** ** Shortest words *)
Lemma no_shortest : forall (L : lang) u, (forall s t, u = s ++ t -> ~ L_shortest L s) -> forall s t, u = s ++ t -> ~ L s.
Proof.
  intros L u N s. remember (length s) as n eqn:En. revert s En. induction n as [n IH] using lt_wf_ind. intros s -> t E H.
  apply (N s t E). split; [exact H|]. intros a b Eab Nb. apply (IH (length a)) with (t := b ++ t); auto.
  - rewrite Eab, app_length. destruct b; [congruence|cbn [length]; lia].
  - rewrite E, Eab, app_assoc. reflexivity.
Qed.
Lemma shortest_exists : forall (L : lang) u, L u -> ~ ~ exists s t, u = s ++ t /\ L_shortest L s.
Proof.
  intros L u H N. apply (no_shortest L u) with (s := u) (t := []); auto; [|rewrite app_nil_r; reflexivity]. intros s t E X. apply N. eauto.
Qed.
Lemma app_cut : forall (a b c d : word), a ++ b = c ++ d -> length a <= length c -> exists e, c = a ++ e /\ b = e ++ d.
Proof.
  induction a as [|x a IH]; intros b [|y c] d E H; cbn [length app] in *; try lia.
  - exists []. auto.
  - exists (y :: c). auto.
  - injection E as -> E. destruct (IH b c d E) as (e & -> & ->); [lia|]. exists e. auto.
Qed.
Lemma shortest_unique : forall (L : lang) s t s' t', L_shortest L s -> L_shortest L s' -> s ++ t = s' ++ t' -> s = s' /\ t = t'.
Proof.
  intros L s t s' t' [A B] [A' B'] E. destruct (Nat.le_ge_cases (length s) (length s')) as [H|H].
  - destruct (app_cut s t s' t' E H) as (e & -> & ->). destruct e; [rewrite app_nil_r; auto|]. destruct (B' s (n :: e)); auto. discriminate.
  - symmetry in E. destruct (app_cut s' t' s t E H) as (e & -> & ->). destruct e; [rewrite app_nil_r; auto|]. destruct (B s' (n :: e)); auto. discriminate.
Qed.

(** ** Matching a whole text that ends in EndMark *)
Lemma end_once : forall w u v b, ~ In EndMark w -> w ++ [EndMark] = (u ++ EndMark :: v) ++ b -> u = w /\ v = [] /\ b = [].
Proof.
  induction w as [|c w IH]; intros [|d u] v b H E; cbn [app] in E.
  - injection E as E. destruct v; [|discriminate E]. cbn [app] in E. subst b. auto.
  - injection E as _ E. destruct u; discriminate E.
  - injection E as -> E. destruct H. left. reflexivity.
  - injection E as -> E. destruct (IH u v b) as (-> & -> & ->); auto. intros X. apply H. right. exact X.
Qed.
Lemma right_more : forall (L : lang) w v, right_closed L -> L w -> is_word v -> L (w ++ v).
Proof.
  intros L w v R. revert w. induction v as [|c v IH]; intros w H V; [rewrite app_nil_r; exact H|].
  inversion V; subst. replace (w ++ c :: v) with ((w ++ [c]) ++ v) by (rewrite <- app_assoc; reflexivity). apply IH; auto.
Qed.
(** Some prefix counted only if the text matches. *)
Lemma half_only : forall (L : lang) w u v, (right_closed L -> left_closed L) -> is_word w -> ~ In EndMark w ->
  w ++ [EndMark] = u ++ v -> half_lang L u -> L (w ++ [EndMark]).
Proof.
  intros L w u v RL Hw NE E [[R (x & y & -> & Hx & Hy & _)]|[_ (a & b & -> & _ & X)]].
  - rewrite E. apply right_more; auto.
    + apply RL; auto.
    + assert (W : is_word (w ++ [EndMark])) by (apply Forall_app; split; auto; constructor; auto; split; [reflexivity|discriminate]).
      rewrite E in W. apply Forall_app in W. apply W.
  - destruct (end_once w a b v NE E) as (-> & _). exact X.
Qed.
Lemma half_some : forall (L : lang) w, L (w ++ [EndMark]) -> ~ ~ exists u v, w ++ [EndMark] = u ++ v /\ half_lang L u.
Proof.
  intros L w H N. apply (shortest_exists L _ H). intros (s & t & E & S).
  assert (NR : ~ right_closed L).
  { intros R. apply N. exists s, t. split; [exact E|]. left. split; [exact R|]. exists [], s. split; [reflexivity|]. split; [constructor|exact S]. }
  apply N. exists (w ++ [EndMark]), []. rewrite app_nil_r. split; [reflexivity|]. right. split; [exact NR|].
  exists w, []. split; [reflexivity|]. split; [constructor|exact H].
Qed.

(** ** Ends of matches *)
Lemma ends_prefix : forall (L : lang) w j, is_word w -> (ends_at L w j <-> j <= length w /\ L_cat L_any L (firstn j w)).
Proof.
  intros L w j Hw. split.
  - intros (x & y & z & -> & H & ->). rewrite app_assoc in *. split; [rewrite (app_length (x ++ y)); lia|].
    rewrite firstn_app, Nat.sub_diag, firstn_all. cbn [firstn]. rewrite app_nil_r. exists x, y. split; [reflexivity|]. split; [|exact H].
    unfold is_word in Hw. rewrite !Forall_app in Hw. apply Hw.
  - intros (Hj & x & y & E & _ & H). exists x, y, (skipn j w). rewrite app_assoc, <- E. split; [symmetry; apply firstn_skipn|]. split; [exact H|].
    rewrite firstn_length. lia.
Qed.
(** ... of matches inside which no match ends earlier *)
Lemma simplified_prefix : forall (L : lang) w, is_word w -> (L_cat L_any (L_shortest (L_cat L_any L)) w <-> L_cat L_any (tight L) w).
Proof.
  intros L w Hw. split.
  - intros (x & s & -> & Hx & (a & l & -> & Ha & Hl) & S). exists (x ++ a), l. split; [rewrite app_assoc; reflexivity|].
    split; [apply Forall_app; split; auto|]. split; [exact Hl|]. intros p b c -> Nc Hb.
    apply (S (a ++ p ++ b) c); [rewrite !app_assoc; reflexivity|exact Nc|]. exists (a ++ p), b. split; [rewrite app_assoc; reflexivity|]. split; [|exact Hb].
    unfold is_word in Hw. rewrite !Forall_app in Hw. apply Forall_app. split; apply Hw.
  - intros (x & y & -> & Hx & Hy & T). exists x, y. split; [reflexivity|]. split; [exact Hx|]. split.
    + exists [], y. split; [reflexivity|]. split; [constructor|exact Hy].
    + intros u v -> Nv (a & b & -> & _ & Hb). apply (T a b v); [rewrite app_assoc; reflexivity|exact Nv|exact Hb].
Qed.

Lemma prefixes_ext : forall (L M : lang) w n, (forall j, j <= length w -> (L (firstn j w) <-> M (firstn j w))) -> prefixes_in L w n -> prefixes_in M w n.
Proof.
  intros L M w n E (js & ND & I & Ln). exists js. split; [exact ND|]. split; [|exact Ln]. intros j. rewrite I. split; intros [A B]; split; auto; apply E; auto.
Qed.

(** ** Matches that do not overlap *)
Section Disjoint.
  Variable L : lang.
  Let M := L_cat L_any L.
  Let Sh := L_shortest M.

  Lemma dm_left : forall x w n, disjoint_matches L w n -> disjoint_matches L (x ++ w) n.
  Proof.
    intros x w n H. destruct H as [w|x' y z n Hy H]; [constructor|]. rewrite app_assoc. constructor; auto.
  Qed.

  Hypothesis NE : ~ L [].
  Lemma shortest_nonempty : forall s, Sh s -> s <> [].
  Proof. intros s [(a & b & E & _ & Hb) _] ->. apply NE. destruct a; [|discriminate E]. cbn [app] in E. subst b. exact Hb. Qed.

  Lemma plus_shortest : forall s, Sh s -> L_plus Sh s.
  Proof. intros s H. exists s, []. split; [rewrite app_nil_r; reflexivity|]. split; [exact H|constructor]. Qed.
  Lemma plus_nonempty : ~ L_plus Sh [].
  Proof. intros (a & b & E & Ha & _). apply (shortest_nonempty a Ha). destruct a; [reflexivity|discriminate E]. Qed.

  (** The prefixes counted after the first one are those of the rest. *)
  Lemma first_prefix : forall s t j, Sh s -> j <= length s -> (L_plus Sh (firstn j (s ++ t)) <-> j = length s).
  Proof.
    intros s t j Hs Hj. rewrite firstn_app. replace (j - length s) with 0 by lia. cbn [firstn]. rewrite app_nil_r. split.
    - intros (a & b & E & Ha & _). assert (X : s ++ [] = a ++ (b ++ skipn j s)) by (rewrite app_nil_r, app_assoc, <- E; symmetry; apply firstn_skipn).
      destruct (shortest_unique M _ _ _ _ Hs Ha X) as [_ Y]. apply (f_equal (@length N)) in Y. cbn [length] in Y. rewrite app_length, skipn_length in Y. lia.
    - intros ->. rewrite firstn_all. apply plus_shortest, Hs.
  Qed.
  Lemma rest_prefix : forall s t i, Sh s -> 0 < i -> i <= length t -> (L_plus Sh (firstn (length s + i) (s ++ t)) <-> L_plus Sh (firstn i t)).
  Proof.
    intros s t i Hs Hi Ht. rewrite firstn_app_2. split.
    - intros (a & b & E & Ha & Hb). destruct (shortest_unique M _ _ _ _ Hs Ha E) as [<- <-].
      inversion Hb as [E0|u v Hu Hv E0].
      + assert (N0 : length (firstn i t) = 0) by (rewrite <- E0; reflexivity). rewrite firstn_length in N0. lia.
      + exists u, v. auto.
    - intros (a & b & E & Ha & Hb). exists s, (firstn i t). split; [reflexivity|]. split; [exact Hs|]. rewrite E. constructor; auto.
  Qed.
  Lemma rest_count : forall s t n, Sh s -> prefixes_in (L_plus Sh) (s ++ t) n -> exists n', n = S n' /\ prefixes_in (L_plus Sh) t n'.
  Proof.
    intros s t n Hs (js & ND & I & <-). set (hi := filter (Nat.ltb (length s)) js).
    assert (NDh : NoDup hi) by (apply NoDup_filter, ND).
    assert (Ih : forall j, In j hi <-> In j js /\ length s < j) by (intros j; unfold hi; rewrite filter_In, Nat.ltb_lt; reflexivity).
    assert (Is : In (length s) js).
    { apply I. split; [rewrite app_length; lia|]. apply first_prefix; auto. }
    exists (length hi). split.
    - assert (ND' : NoDup (length s :: hi)) by (constructor; [rewrite Ih; lia|exact NDh]).
      change (S (length hi)) with (length (length s :: hi)). apply Nat.le_antisymm; apply NoDup_incl_length; auto.
      + intros j Hj. destruct (Nat.lt_ge_cases (length s) j) as [X|X]; [right; apply Ih; auto|]. left. symmetry. apply (first_prefix s t j Hs X). apply I in Hj. apply Hj.
      + intros j [<-|Hj]; [exact Is|]. apply Ih, Hj.
    - exists (map (fun j => j - length s) hi). split; [|split; [|apply map_length]].
      + assert (G : forall j, In j hi -> length s < j) by (intros j X; apply Ih, X). clear Ih. induction NDh as [|x l Nx ND' IH]; cbn [map]; constructor.
        * intros X. apply in_map_iff in X as (y & E & Hy). apply Nx. replace x with y; [exact Hy|]. pose proof (G y (or_intror Hy)). pose proof (G x (or_introl eq_refl)). lia.
        * apply IH. intros j X. apply G. right. exact X.
      + intros i. rewrite in_map_iff. split.
        * intros (j & <- & Hj). apply Ih in Hj as [Hj X]. apply I in Hj as [A B]. rewrite app_length in A. split; [lia|].
          apply (rest_prefix s t); [exact Hs|lia|lia|]. replace (length s + (j - length s)) with j by lia. exact B.
        * intros [A B]. assert (0 < i) as P by (destruct i; [destruct (plus_nonempty B)|lia]). exists (length s + i). split; [lia|]. apply Ih. split; [|lia].
          apply I. split; [rewrite app_length; lia|]. apply rest_prefix; auto.
  Qed.

  Lemma disjoint_count : forall n w, is_word w -> prefixes_in (L_plus Sh) w n ->
    disjoint_matches L w n /\ forall m, disjoint_matches L w m -> m <= n.
  Proof.
    assert (First : forall x y z, is_word (x ++ y ++ z) -> L y -> ~ ~ exists s t', x ++ y = s ++ t' /\ Sh s).
    { intros x y z Hw Hy. apply shortest_exists. exists x, y. split; [reflexivity|]. split; [|exact Hy]. unfold is_word in Hw. rewrite !Forall_app in Hw. apply Hw. }
    induction n as [|n IH]; intros w Hw P.
    - split; [constructor|]. intros m H. destruct H as [|x y z m Hy H]; [lia|]. exfalso. apply (First x y z Hw Hy). intros (s & t & E & Hs).
      rewrite app_assoc, E, <- app_assoc in P. destruct (rest_count s _ _ Hs P) as (n' & X & _). discriminate X.
    - pose proof P as (js & _ & I & Lj). destruct js as [|j js]; [discriminate Lj|]. destruct (proj1 (I j) (or_introl eq_refl)) as [Hj (a & b & E & Ha & _)].
      assert (Ew : w = a ++ (b ++ skipn j w)) by (rewrite app_assoc, <- E; symmetry; apply firstn_skipn). set (t := b ++ skipn j w) in *. clearbody t. subst w.
      destruct (rest_count a t _ Ha P) as (n' & X & P'). injection X as <-.
      assert (Ht : is_word t) by (apply Forall_app in Hw; apply Hw). destruct (IH t Ht P') as [D U]. split.
      + pose proof Ha as [(x & y & -> & _ & Hy) _]. rewrite <- app_assoc. constructor; auto.
      + intros m H. remember (a ++ t) as w eqn:Ew. destruct H as [|x y z m Hy H]; [lia|].
        destruct (Nat.le_gt_cases (S m) (S n)) as [|G]; [assumption|exfalso]. apply (First x y z Hw Hy). intros (s & t' & E' & Hs).
        rewrite app_assoc, E', <- app_assoc in Ew. destruct (shortest_unique M _ _ _ _ Hs Ha Ew) as [_ <-].
        pose proof (U m (dm_left t' z m H)). lia.
  Qed.
End Disjoint.

Lemma empty_count : forall (L : lang) w n, L [] -> prefixes_in (L_plus (L_shortest (L_cat L_any L))) w n -> n = 1.
Proof.
  intros L w n H (js & ND & I & <-). set (S := L_shortest (L_cat L_any L)) in *.
  assert (M0 : L_cat L_any L []) by (exists [], []; split; [reflexivity|split; [constructor|exact H]]).
  assert (S0 : S []) by (split; [exact M0|intros u v E N; destruct u, v; try discriminate E; congruence]).
  assert (SE : forall s, S s -> s = []) by (intros [|c s] [_ X]; [reflexivity|]; destruct (X [] (c :: s) eq_refl); [discriminate|exact M0]).
  assert (PE : forall u, L_plus S u -> u = []).
  { intros u (a & b & -> & Ha & Hb). rewrite (SE a Ha). cbn [app]. clear a Ha. induction Hb as [|a b Ha Hb IH]; [reflexivity|]. rewrite (SE a Ha), IH. reflexivity. }
  assert (In 0 js) as H0 by (apply I; split; [lia|]; cbn [firstn]; exists [], []; split; [reflexivity|split; [exact S0|constructor]]).
  assert (A : forall j, In j js -> j = 0).
  { intros j Hj. apply I in Hj as [A B]. apply PE in B. apply (f_equal (@length N)) in B. rewrite firstn_length in B. cbn [length] in B. lia. }
  destruct js as [|x [|y js]]; [destruct H0|reflexivity|]. exfalso. apply NoDup_cons_iff in ND as [ND _]. apply ND. left. rewrite (A x), (A y); auto; cbn; auto.
Qed.
