(** Well-formedness of automata and the effect of the basic mutators. *)
From Coq Require Import List Bool Arith NArith Lia.
From Verif Require Import Util Spec PartitionModel PartitionProofs FsmModel Nfa FsmSem.
Import ListNotations.

Definition raw (f : fsm) (p : nat) (c : N) (q : nat) : Prop := In q (row_get (row_at f p) c).
Definition pres (f : fsm) (p : nat) (c : N) : Prop := mfind c (row_at f p) <> None.

Lemma raw_pres : forall f p c q, raw f p c q -> pres f p c.
Proof. unfold raw, pres, row_get. intros f p c q. destruct (mfind c (row_at f p)); cbn; [congruence|tauto]. Qed.

Lemma edge_raw : forall f p c q, edge f p c q <-> raw f p (erep f c) q.
Proof. intros; reflexivity. Qed.

Definition row_ok (n : nat) (r : row) : Prop :=
  msorted r /\ forall c s, mfind c r = Some s -> (c < MaxChar)%N /\ ssorted s /\ forall q, In q s -> q < n.

Definition rows_ok (f : fsm) : Prop := forall p, row_ok (size f) (row_at f p).

Definition coherent (f : fsm) : Prop := forall p c r, part_rep (letters f) c = Some r ->
  pres f p c -> forall q, raw f p c q <-> raw f p r q.

(** The mirror image of [coherent], needed to reverse an automaton. *)
Definition bcoherent (f : fsm) : Prop := forall q c r, part_rep (letters f) c = Some r ->
  (exists p, raw f p c q) -> forall p, raw f p c q <-> raw f p r q.

Definition alt_ok (f : fsm) : Prop := isAlt f = true ->
  (forall p c, ~ raw f p c (initial f)) /\ ~ In (initial f) (finals f) /\
  (forall c q, raw f (initial f) c q -> c = Epsilon).

Record wf (f : fsm) : Prop := {
  wf_init : initial f < size f;
  wf_fin : forall q, In q (finals f) -> q < size f;
  wf_fsorted : ssorted (finals f);
  wf_rows : rows_ok f;
  wf_letters : wf_part (letters f);
  wf_coh : coherent f;
  wf_bcoh : bcoherent f;
  wf_alt : alt_ok f
}.

Lemma row_ok_nil : forall n, row_ok n [].
Proof. intros n; split; [constructor|cbn; discriminate]. Qed.

Lemma row_ok_mono : forall n m r, n <= m -> row_ok n r -> row_ok m r.
Proof.
  intros n m r H [A B]; split; auto. intros c s F. destruct (B c s F) as [C [D E]].
  repeat split; auto. intros q Hq; specialize (E q Hq); lia.
Qed.

Lemma row_at_out : forall f p, size f <= p -> row_at f p = [].
Proof. intros f p H. unfold row_at. apply nth_overflow; auto. Qed.

Lemma nth_upd : forall A (l : list A) i g j d,
  nth j (upd i g l) d = if Nat.eqb j i && (i <? length l) then g (nth j l d) else nth j l d.
Proof.
  induction l as [|x l IH]; intros [|i] g [|j] d; cbn; auto.
  - rewrite andb_false_r; auto.
  - rewrite IH. reflexivity.
Qed.

Lemma raw_bound : forall f p c q, rows_ok f -> raw f p c q -> p < size f /\ q < size f /\ (c < MaxChar)%N.
Proof.
  unfold raw, row_get. intros f p c q W H. destruct (lt_dec p (size f)) as [Hp|Hp].
  - destruct (mfind c (row_at f p)) eqn:F; [|destruct H]. destruct (W p) as [_ X].
    destruct (X _ _ F) as [A [B C]]. auto.
  - rewrite row_at_out in H by lia. destruct H.
Qed.

Lemma pres_bound : forall f p c, rows_ok f -> pres f p c -> p < size f /\ (c < MaxChar)%N.
Proof.
  unfold pres. intros f p c W H. destruct (lt_dec p (size f)) as [Hp|Hp].
  - destruct (mfind c (row_at f p)) eqn:F; [|congruence]. destruct (W p) as [_ X].
    destruct (X _ _ F) as [A [B C]]. auto.
  - rewrite row_at_out in H by lia. destruct (H eq_refl).
Qed.

Lemma row_get_sorted : forall f p c, rows_ok f -> ssorted (row_get (row_at f p) c).
Proof.
  intros f p c W. unfold row_get. destruct (mfind c (row_at f p)) eqn:F; [|constructor].
  destruct (W p) as [_ X]. apply X in F. tauto.
Qed.

(** ** Adding edges *)
Record adds (f g : fsm) (S : nat -> N -> nat -> Prop) : Prop := {
  ad_size : size g = size f;
  ad_init : initial g = initial f;
  ad_fin : finals g = finals f;
  ad_let : letters g = letters f;
  ad_sp : sparsed g = sparsed f;
  ad_det : determined g = determined f;
  ad_out : outputs g = outputs f;
  ad_tags : tags g = tags f;
  ad_alt : isAlt g = true -> isAlt f = true;
  ad_raw : forall p c q, raw g p c q <-> raw f p c q \/ S p c q;
  ad_pres : forall p c, pres g p c <-> pres f p c \/ exists q, S p c q;
  ad_rows : rows_ok f -> rows_ok g
}.

Lemma adds_refl : forall f, adds f f (fun _ _ _ => False).
Proof.
  intros f; constructor; auto; intros; [tauto|]. split; [auto|]. intros [H|[q []]]; auto.
Qed.

Lemma adds_trans : forall f g h S T, adds f g S -> adds g h T -> adds f h (fun p c q => S p c q \/ T p c q).
Proof.
  intros f g h S T A B. destruct A, B. constructor; try congruence; auto.
  - intros p c q. rewrite ad_raw1, ad_raw0. tauto.
  - intros p c. rewrite ad_pres1, ad_pres0. split.
    + intros [[H|[q H]]|[q H]]; eauto.
    + intros [H|[q [H|H]]]; eauto.
Qed.

Lemma adds_ext : forall f g S T, adds f g S -> (forall p c q, S p c q <-> T p c q) -> adds f g T.
Proof.
  intros f g S T A E. destruct A. constructor; auto.
  - intros p c q. rewrite ad_raw0, E. tauto.
  - intros p c. rewrite ad_pres0. split; intros [H|[q H]]; auto; right; exists q; apply E; auto.
Qed.

Lemma adds_fold : forall X (step : fsm -> X -> fsm) (S : X -> nat -> N -> nat -> Prop) l f,
  (forall g x T, In x l -> adds f g T -> adds g (step g x) (S x)) ->
  adds f (fold_left step l f) (fun p c q => exists x, In x l /\ S x p c q).
Proof.
  intros X step S l f H.
  assert (G : forall l' g T, (forall x, In x l' -> In x l) -> adds f g T ->
             adds f (fold_left step l' g) (fun p c q => T p c q \/ exists x, In x l' /\ S x p c q)).
  { induction l' as [|x l' IH]; intros g T Hl A; cbn [fold_left].
    - eapply adds_ext; [exact A|]. intros; split; auto. intros [|[x [[] _]]]; auto.
    - eapply adds_ext.
      + apply IH with (T := fun p c q => T p c q \/ S x p c q).
        * intros y Hy; apply Hl; right; auto.
        * eapply adds_trans; [exact A|]. eapply H; [apply Hl; left; auto|exact A].
      + intros p c q; cbn. split.
        * intros [[|]|[y [Hy HS]]]; eauto 6.
        * intros [|[y [[<-|Hy] HS]]]; eauto 6. }
  eapply adds_ext; [apply (G l f (fun _ _ _ => False)); auto using adds_refl|].
  cbn; tauto.
Qed.

Lemma raw_row : forall f p c q, raw f p c q <-> In q (row_get (row_at f p) c).
Proof. intros; reflexivity. Qed.

Lemma row_get_mset : forall c s r c', row_get (mset c s r) c' = if keqb c' c then s else row_get r c'.
Proof. intros. unfold row_get. rewrite mfind_mset. destruct (keqb c' c); auto. Qed.

Lemma row_connect_ok : forall n to c r, row_ok n r -> to < n -> (c < MaxChar)%N -> row_ok n (row_connect to c r).
Proof.
  intros n to c r [A B] Ht Hc. split; [apply mset_sorted; auto|]. intros c' s.
  unfold row_connect. rewrite mfind_mset. destruct (keqb_spec c' c) as [->|].
  - intros [= <-]. split; auto. unfold row_get. destruct (mfind c r) as [s|] eqn:F.
    + destruct (B _ _ F) as [_ [D E]]. split; [apply sadd_sorted; auto|].
      intros q Hq. apply sadd_in in Hq as [->|]; auto.
    + split; [apply sadd_sorted; constructor|]. intros q Hq. apply sadd_in in Hq as [->|[]]; auto.
  - apply B.
Qed.

Lemma row_at_connect : forall f a b c p, row_at (connect f a b c) p =
  if Nat.eqb p a && (a <? size f) then row_connect b c (row_at f p) else row_at f p.
Proof. intros. unfold row_at, connect, clear_hints; cbn [trans set_trans set_isAlt]. rewrite nth_upd. reflexivity. Qed.

Lemma connect_adds : forall f a b c, a < size f -> b < size f -> (c < MaxChar)%N ->
  adds f (connect f a b c) (fun p c' q => p = a /\ c' = c /\ q = b).
Proof.
  intros f a b c Ha Hb Hc. apply Nat.ltb_lt in Ha as Ha'. constructor; try reflexivity.
  - unfold size, connect; cbn. apply upd_length.
  - cbn. discriminate.
  - intros p c' q. unfold raw. rewrite row_at_connect, Ha', andb_true_r.
    destruct (Nat.eqb_spec p a) as [->|Hne].
    + unfold row_connect. rewrite row_get_mset. destruct (keqb_spec c' c) as [->|].
      * rewrite sadd_in. intuition.
      * intuition.
    + intuition.
  - intros p c'. unfold pres. rewrite row_at_connect, Ha', andb_true_r.
    destruct (Nat.eqb_spec p a) as [->|Hne].
    + unfold row_connect. rewrite mfind_mset. destruct (keqb_spec c' c) as [->|].
      * split; [intros _; right; exists b; auto|congruence].
      * split; [auto|]. intros [H|[q [_ [-> _]]]]; congruence.
    + split; [auto|]. intros [H|[q [-> _]]]; congruence.
  - intros W p. assert (Es : size (connect f a b c) = size f) by (unfold size, connect; cbn; apply upd_length).
    rewrite Es, row_at_connect. destruct (_ && _); auto. apply row_connect_ok; auto.
Qed.

Lemma clear_hints_adds : forall f g S, adds f g S -> adds f (clear_hints g) S.
Proof. intros f g S []. constructor; auto. cbn. discriminate. Qed.

Lemma connect_final_adds : forall f to c, (forall q, In q (finals f) -> q < size f) ->
  to < size f -> (c < MaxChar)%N ->
  adds f (connect_final f to c) (fun p c' q => In p (finals f) /\ c' = c /\ q = to).
Proof.
  intros f to c Hf Ht Hc. apply clear_hints_adds. eapply adds_ext.
  - apply adds_fold with (S := fun x p c' q => p = x /\ c' = c /\ q = to).
    intros g x T Hx A. apply connect_adds; rewrite ?(ad_size _ _ _ A); auto.
  - cbn. intros p c' q. split.
    + intros [x [Hx [-> [-> ->]]]]; auto.
    + intros [H [-> ->]]; eauto.
Qed.

(** ** Resize *)
Lemma size_resize : forall f n, size (resize_fsm f n) = n.
Proof. intros. unfold size, resize_fsm; cbn. apply resize_length. Qed.

Lemma row_at_resize : forall f n p, size f <= n -> row_at (resize_fsm f n) p = row_at f p.
Proof.
  intros f n p H. unfold row_at, resize_fsm, size in *; cbn. rewrite resize_grow by auto.
  destruct (lt_dec p (length (trans f))).
  - rewrite app_nth1; auto.
  - apply Nat.nlt_ge in n0. rewrite app_nth2 by exact n0. rewrite (nth_overflow (trans f)) by exact n0.
    apply nth_repeat.
Qed.

Lemma raw_resize : forall f n p c q, size f <= n -> raw (resize_fsm f n) p c q <-> raw f p c q.
Proof. intros. unfold raw. rewrite row_at_resize; tauto. Qed.
Lemma pres_resize : forall f n p c, size f <= n -> pres (resize_fsm f n) p c <-> pres f p c.
Proof. intros. unfold pres. rewrite row_at_resize; tauto. Qed.
Lemma rows_ok_resize : forall f n, size f <= n -> rows_ok f -> rows_ok (resize_fsm f n).
Proof. intros f n H W p. rewrite size_resize, row_at_resize by auto. eapply row_ok_mono; eauto. Qed.

(** ** Edges and coherence *)
Lemma erep_empty : forall f c, uncompressed f -> erep f c = c.
Proof. unfold uncompressed, erep. intros f c ->. reflexivity. Qed.

Lemma erep_let : forall f g c, letters f = letters g -> erep f c = erep g c.
Proof. unfold erep. intros f g c ->. reflexivity. Qed.

Lemma erep_Epsilon : forall f, wf_part (letters f) -> erep f Epsilon = Epsilon.
Proof.
  intros f W. unfold erep, part_rep. destruct (mfind Epsilon (pinv (letters f))) eqn:F; auto.
  apply (wp_range _ W) in F as [_ F]. congruence.
Qed.

Lemma edge_Epsilon : forall f p q, wf_part (letters f) -> edge f p Epsilon q <-> raw f p Epsilon q.
Proof. intros f p q W. rewrite edge_raw, erep_Epsilon; tauto. Qed.

Lemma uncompressed_coherent : forall f, uncompressed f -> coherent f.
Proof. unfold uncompressed, coherent, part_rep. intros f -> p c r H. discriminate. Qed.

Lemma uncompressed_bcoherent : forall f, uncompressed f -> bcoherent f.
Proof. unfold uncompressed, bcoherent, part_rep. intros f -> p c r H. discriminate. Qed.

Lemma uncompressed_letters : forall f, uncompressed f -> wf_part (letters f).
Proof. intros f ->. apply wf_part_empty. Qed.

Lemma edge_bound : forall f p c q, wf f -> edge f p c q -> p < size f /\ q < size f.
Proof. intros f p c q W H. apply edge_raw, raw_bound in H; [tauto|apply W]. Qed.

(** When the row has an entry for c, edges can be read off it directly. *)
Lemma coherent_raw : forall f p c q, coherent f -> raw f p c q -> edge f p c q.
Proof.
  intros f p c q C H. unfold edge, erep. destruct (part_rep (letters f) c) eqn:E; auto.
  apply (C p c n E); auto. eapply raw_pres; eauto.
Qed.

Lemma edge_letter : forall f p c q, wf f -> edge f p c q -> (c < MaxChar)%N.
Proof.
  intros f p c q W H. unfold edge, erep in H. destruct (part_rep (letters f) c) eqn:E.
  - apply (wp_range _ (wf_letters _ W)) in E; tauto.
  - apply (raw_bound f p c q) in H; [tauto|apply W].
Qed.

Lemma accepts_is_word : forall f w, wf f -> accepts f w -> is_word w.
Proof.
  intros f w W [q [H _]]. unfold is_word. induction H; auto. constructor; auto.
  split; auto. eapply edge_letter; eauto.
Qed.

(** Adding edges on Epsilon only, or to rows that had no entry, keeps coherence. *)
Lemma adds_coherent : forall f g S, adds f g S -> coherent f ->
  (forall p c r q, part_rep (letters f) c = Some r -> S p c q ->
     (forall q', ~ raw f p r q') /\ (forall q', ~ raw f p c q')) ->
  (forall p c r q, part_rep (letters f) c = Some r -> (S p c q <-> S p r q)) ->
  coherent g.
Proof.
  intros f g S A C H1 H2 p c r Hr Hp q. rewrite (ad_let _ _ _ A) in Hr.
  rewrite !(ad_raw _ _ _ A). apply (ad_pres _ _ _ A) in Hp as [Hp|[q0 Hp]].
  - rewrite (C p c r Hr Hp q), (H2 p c r q Hr). tauto.
  - destruct (H1 _ _ _ _ Hr Hp) as [X Y]. rewrite (H2 p c r q Hr). split; intros [H|H]; auto; exfalso; [eapply Y|eapply X]; eauto.
Qed.

Lemma adds_eps_coherent : forall f g S, adds f g S -> wf_part (letters f) -> coherent f ->
  (forall p c q, S p c q -> c = Epsilon) -> coherent g.
Proof.
  intros f g S A W C HS. eapply adds_coherent; eauto.
  - intros p c r q Hr Hs. apply HS in Hs. subst c. apply (wp_range _ W) in Hr. tauto.
  - intros p c r q Hr. split; intros Hs; apply HS in Hs; subst.
    + apply (wp_range _ W) in Hr. tauto.
    + apply part_rep_rep in Hr; auto. apply (wp_range _ W) in Hr. tauto.
Qed.

Lemma part_rep_not_eps : forall p c r, wf_part p -> part_rep p c = Some r -> c <> Epsilon /\ r <> Epsilon.
Proof.
  intros p c r W H. pose proof (part_rep_rep _ _ _ W H) as H'.
  apply (wp_range _ W) in H, H'. tauto.
Qed.

Lemma adds_eps_bcoherent : forall f g S, adds f g S -> wf_part (letters f) -> bcoherent f ->
  (forall p c q, S p c q -> c = Epsilon) -> bcoherent g.
Proof.
  intros f g S A W C HS q c r Hr [p0 Hp] p. rewrite (ad_let _ _ _ A) in Hr.
  destruct (part_rep_not_eps _ _ _ W Hr) as [N1 N2].
  rewrite !(ad_raw _ _ _ A). apply (ad_raw _ _ _ A) in Hp as [Hp|Hp]; [|apply HS in Hp; congruence].
  rewrite (C q c r Hr (ex_intro _ p0 Hp) p). split; intros [H|H]; auto; apply HS in H; congruence.
Qed.

Lemma adds_edge : forall f g S, adds f g S ->
  forall p c q, edge g p c q <-> edge f p c q \/ S p (erep f c) q.
Proof.
  intros f g S A p c q. rewrite !edge_raw, (erep_let g f) by apply (ad_let _ _ _ A). apply (ad_raw _ _ _ A).
Qed.
