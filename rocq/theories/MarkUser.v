(** What SlowCapturingScanner finds for a pattern parsed with the feature Capture. *)
From Coq Require Import List Bool Arith NArith ZArith Lia.
From Verif Require Import Util Spec PartitionModel FsmModel Nfa FsmSem FsmBasics ApproxSpec Api ApiProofs EncModel EncSpec EncProofs EncDot ScannerModel
  RegexModel RegexSpec RegexParse RegexProofs CapModel CapSpec CapApi CapMarks CapUser MarkModel MarkSpec MarkProofs MarkLang.
Import ListNotations.

(** ** Encodings *)
Lemma byte_small : forall w, Forall byte w -> Forall (fun c => (c < MaxChar)%N) w.
Proof. intros w H. eapply Forall_impl; [|exact H]. unfold byte, MaxChar. intros; lia. Qed.
Lemma shipped_good : forall e D, shipped e D -> good_encoding e D /\ (e_dot e = append_dot -> D = L_anybyte) /\ forall w, D w -> Forall byte w.
Proof.
  intros e D [|].
  - splits; [apply good_latin1|auto|]. intros w (c & Hc & ->). auto.
  - splits; [apply good_utf8| |].
    + intros E. exfalso. apply (f_equal (fun h => size (h fsm_new))) in E. vm_compute in E. discriminate E.
    + intros w (c & v & -> & A & F). constructor; [eapply announces_byte, A|]. eapply Forall_impl; [|exact F]. unfold continuation, byte. intros; lia.
Qed.

Section ENC.
  Variable e : encoding.
  Variable D : lang.
  Hypothesis G : good_encoding e D.
  Hypothesis HB : forall w, D w -> Forall byte w.
  Notation den := (re_den (e_to e) D).
  Notation mlang := (mden (e_to e) D).

  (** ** Marked words and words *)
  Lemma range_bytes : forall ss w, L_range (e_to e) ss w -> Forall byte w.
  Proof. intros ss w (s & _ & _ & X). induction X as [|c s w N X IH]; [constructor|]. apply Forall_app. split; auto. apply (ge_to e D G). Qed.
  Lemma word_strip : forall w, Forall byte w -> strip w = w.
  Proof. intros w H. apply strip_word, byte_small, H. Qed.
  Lemma mden_den : forall r pos gs m, mlang r pos gs m -> den r (strip m).
  Proof.
    induction r; intros pos gs m H; cbn [mden re_den] in *; try contradiction.
    - destruct negated.
      + destruct H as [H1 H2]. rewrite word_strip by (apply HB; auto). auto.
      + rewrite word_strip; auto. eapply range_bytes; eauto.
    - rewrite word_strip; auto.
    - unfold L_letter in *. subst m. reflexivity.
    - unfold L_letter in *. subst m. reflexivity.
    - destruct (pos =? 1); [|eapply IHr; eauto]. destruct H as (x & -> & X). rewrite !strip_app, !strip_mark, app_nil_r. eapply IHr; eauto.
    - destruct H as (x & -> & n & H1 & H2 & X). rewrite strip_app, strip_mark, app_nil_r. exists n. splits; auto. clear H1 H2. revert x X. induction n as [|n IH]; intros x X.
      + cbn in X. unfold L_eps in X. subst x. reflexivity.
      + destruct X as (u & v & -> & X & Y). rewrite strip_app. exists (strip u), (strip v). splits; auto. eapply IHr; eauto.
    - unfold L_eps in *. subst m. reflexivity.
    - destruct H as (u & v & -> & X & Y). rewrite strip_app. exists (strip u), (strip v). splits; eauto.
    - destruct H as [H|H]; [left|right]; eauto.
  Qed.
  Lemma den_mden : forall r pos gs w, capturable e r -> den r w -> exists m, mlang r pos gs m /\ strip m = w.
  Proof.
    induction r; intros pos gs w C H; cbn [mden re_den capturable] in *; try contradiction.
    - exists w. split; auto. apply word_strip. destruct negated; [apply HB; tauto|eapply range_bytes; eauto].
    - exists w. split; auto. apply word_strip. auto.
    - destruct (pos =? 1); [|apply IHr; auto]. destruct (IHr 0 gs w C H) as (x & X & <-). exists ([mark 1] ++ x ++ [mark 2]). split; [eauto|]. rewrite !strip_app, !strip_mark, app_nil_r. reflexivity.
    - destruct C as [C _]. destruct H as (n & H1 & H2 & X).
      assert (Y : exists x, L_pow (mlang r pos gs) n x /\ strip x = w).
      { clear H1 H2. revert w X. induction n as [|n IH]; intros w X; [exists []; split; [reflexivity|symmetry; exact X]|].
        destruct X as (u & v & -> & X & Y). destruct (IH u X) as (x & X' & <-). destruct (IHr pos gs v C Y) as (y & Y' & <-). exists (x ++ y). rewrite strip_app. split; auto. exists x, y. auto. }
      destruct Y as (x & Y & <-). eexists. split; [exists x; split; [reflexivity|exists n; auto]|]. rewrite strip_app, strip_mark, app_nil_r. reflexivity.
    - exists []. split; [reflexivity|symmetry; exact H].
    - destruct C as [C1 C2]. destruct H as (u & v & -> & X & Y). destruct (IHr1 pos gs u C1 X) as (x & X' & <-). destruct (IHr2 (pos - groups r1) (skipn (ncounts r1) gs) v C2 Y) as (y & Y' & <-).
      exists (x ++ y). rewrite strip_app. split; auto. exists x, y. auto.
    - destruct C as [C1 C2]. destruct H as [H|H].
      + destruct (IHr1 pos gs w C1 H) as (x & X & E). exists x. split; auto. left. auto.
      + destruct (IHr2 (pos - groups r1) (skipn (ncounts r1) gs) w C2 H) as (x & X & E). exists x. split; auto. right. auto.
  Qed.

  (** ** The group *)
  Definition clean (m : list N) : Prop := first_mark 0 m = None /\ first_mark 1 m = None.
  Lemma clean_app : forall x y, clean x -> clean y -> clean (x ++ y).
  Proof. intros x y [A B] [C E]. split; rewrite first_mark_app; [rewrite A, C|rewrite B, E]; reflexivity. Qed.
  Lemma clean_word : forall w, Forall byte w -> clean w.
  Proof. intros w H. split; apply first_mark_word, byte_small, H. Qed.
  Definition bracketed (B : option re) (m : list N) : Prop :=
    clean m \/ exists b x y z, B = Some b /\ m = x ++ [mark 1] ++ y ++ [mark 2] ++ z /\ clean x /\ clean y /\ den b (strip y).
  Lemma bracketed_app : forall B x y, bracketed B x -> bracketed B y -> bracketed B (x ++ y).
  Proof.
    intros B x y [H|(b & x1 & y1 & z1 & E & -> & C1 & C2 & H)] H2.
    - destruct H2 as [H2|(b & x1 & y1 & z1 & E & -> & C1 & C2 & H2)]; [left; apply clean_app; auto|]. right. exists b, (x ++ x1), y1, z1. rewrite <- !app_assoc. splits; auto. apply clean_app; auto.
    - right. exists b, x1, y1, (z1 ++ y). rewrite <- !app_assoc. splits; auto.
  Qed.
  Lemma group_of_0 : forall r, group_of r 0 = None.
  Proof. induction r; cbn; auto; rewrite IHr1; destruct (groups r1); auto. Qed.
  Lemma group_of_out : forall r pos, groups r < pos -> group_of r pos = None.
  Proof.
    induction r; intros pos H; cbn [groups group_of] in *; auto.
    - destruct (Nat.eqb_spec pos 1); [lia|]. apply IHr. lia.
    - destruct (Nat.leb_spec pos (groups r1)); [lia|]. apply IHr2. lia.
    - destruct (Nat.leb_spec pos (groups r1)); [lia|]. apply IHr2. lia.
    - destruct (Nat.leb_spec pos (groups r1)); [lia|]. apply IHr2. lia.
  Qed.
  Lemma bracketed_none : forall B m, bracketed None m -> bracketed B m.
  Proof. intros B m [H|(b & _ & _ & _ & E & _)]; [left; auto|discriminate E]. Qed.
  Lemma left_group : forall r1 r2 pos m, bracketed (group_of r1 pos) m -> bracketed (if pos <=? groups r1 then group_of r1 pos else group_of r2 (pos - groups r1)) m.
  Proof. intros r1 r2 pos m H. destruct (Nat.leb_spec pos (groups r1)); auto. rewrite group_of_out in H by auto. apply bracketed_none. auto. Qed.
  Lemma right_group : forall r1 r2 pos m, bracketed (group_of r2 (pos - groups r1)) m -> bracketed (if pos <=? groups r1 then group_of r1 pos else group_of r2 (pos - groups r1)) m.
  Proof. intros r1 r2 pos m H. destruct (Nat.leb_spec pos (groups r1)) as [L|L]; auto. replace (pos - groups r1) with 0 in H by lia. rewrite group_of_0 in H. apply bracketed_none. auto. Qed.
  Lemma mden_group : forall r pos gs m, mlang r pos gs m -> bracketed (group_of r pos) m.
  Proof.
    induction r; intros pos gs m H; cbn [mden group_of] in *; try contradiction.
    - left. apply clean_word. destruct negated; [apply HB; tauto|eapply range_bytes; eauto].
    - left. apply clean_word. auto.
    - left. unfold L_letter in H. subst m. split; reflexivity.
    - left. unfold L_letter in H. subst m. split; reflexivity.
    - destruct (pos =? 1); [|eapply IHr; eauto]. destruct H as (x & -> & X). right. pose proof (IHr _ _ _ X) as Y. rewrite group_of_0 in Y.
      exists r, [], x, []. rewrite app_nil_r. splits; auto; [split; reflexivity|destruct Y as [Y|(b & _ & _ & _ & E & _)]; [auto|discriminate E]|eapply mden_den; eauto].
    - destruct H as (x & -> & n & _ & _ & X). apply bracketed_app; [|left; destruct (nth _ gs true); split; reflexivity].
      revert x X. induction n as [|n IH]; intros x X; [unfold L_pow, L_eps in X; subst x; left; split; reflexivity|]. destruct X as (u & v & -> & X & Y). apply bracketed_app; auto. eapply IHr; eauto.
    - left. unfold L_eps in H. subst m. split; reflexivity.
    - destruct H as (u & v & -> & X & Y). apply bracketed_app; [apply left_group; eauto|apply right_group; eauto].
    - destruct H as [H|H]; [apply left_group; eauto|apply right_group; eauto].
  Qed.
End ENC.

Lemma contains_ext : forall L M t, lang_eq L M -> (contains L t <-> contains M t).
Proof. intros L M t H. split; intros (u & x & v & E & X); exists u, x, v; split; auto; apply H; auto. Qed.

Theorem pattern_captured : forall e D w r pos gs, shipped e D -> derives Alternative w r -> capturable e r -> regular r ->
  (exists f, compile_m e pos gs r = Ok f /\ (forall x, accepts f x <-> re_den (e_to e) D r x) /\
    ((N.of_nat (size f) + 2 <= two32)%N -> exists s, cap_compile (surround f) = Ok s /\ forall t, is_word t -> (N.of_nat (length t) < nowhere)%N ->
      exists cl ans o, cap_run s t = Ok cl /\ get_capture s cl = Ok (ans, o) /\
        (cs_match cl <> None <-> contains (re_den (e_to e) D r) t) /\ (o <> None <-> contains (re_den (e_to e) D r) t) /\ (o = None -> ans = false) /\
        forall st, o = Some st -> exists u m v, t = u ++ strip m ++ v /\ mden (e_to e) D r pos gs m /\ g_begin st = mark_at u 0 m /\ g_end st = mark_at u 1 m /\ (ans = true <-> g_begin st <> nowhere))) \/
  (compile_m e pos gs r = Throw ETooComplicated /\ negates r).
Proof.
  intros e D w r pos gs Sh Dr Cr R. destruct (shipped_good e D Sh) as (G & HD & HB). apply derives_fits in Dr as [_ F].
  destruct (compile_m_ok e D G HD HB r pos gs F Cr) as [(f & E & (L & C & S) & U)|X]; [left|right; exact X]. pose proof (compile_m_lang e D G HD HB r pos gs f F Cr R E) as Lf.
  exists f. split; [exact E|]. split; [exact Lf|]. intros Sz. destruct (captures_found f L C U Sz) as (s & Es & H). exists s. split; [exact Es|]. intros t Ht Lt.
  destruct (H t Ht Lt) as (cl & E1 & M1 & ans & o & E2 & M2 & N2 & D2). exists cl, ans, o. rewrite <- !(contains_ext _ _ t Lf). splits; auto.
  intros st Es'. destruct (D2 st Es') as (u & m & v & X1 & X2 & X3). exists u, m, v. splits; auto; apply X3.
Qed.

Theorem group_captured : forall e D w r pos gs f s t cl st, shipped e D -> derives Alternative w r -> capturable e r -> regular r ->
  compile_m e pos gs r = Ok f -> (N.of_nat (size f) + 2 <= two32)%N -> cap_compile (surround f) = Ok s -> is_word t -> (N.of_nat (length t) < nowhere)%N ->
  cap_run s t = Ok cl -> get_capture s cl = Ok (true, Some st) ->
  exists b u y v, group_of r pos = Some b /\ t = u ++ y ++ v /\ re_den (e_to e) D b y /\ g_begin st = N.of_nat (length u) /\ g_end st = N.of_nat (length (u ++ y)).
Proof.
  intros e D w r pos gs f s t cl st Sh Dr Cr R E Sz Es Ht Lt E1 E2. destruct (shipped_good e D Sh) as (G & HD & HB).
  destruct (pattern_captured e D w r pos gs Sh Dr Cr R) as [(f' & E' & _ & H)|[X _]]; [|rewrite E in X; discriminate X]. rewrite E in E'. injection E' as <-.
  destruct (H Sz) as (s' & Es' & H'). rewrite Es in Es'. injection Es' as <-. destruct (H' t Ht Lt) as (cl' & ans & o & E1' & E2' & _ & _ & _ & D2). rewrite E1 in E1'. injection E1' as <-. rewrite E2 in E2'. injection E2' as <- <-.
  destruct (D2 st eq_refl) as (u & m & v & -> & Hm & Eb & Ee & A). pose proof (proj1 A eq_refl) as Nb. clear A.
  destruct (mden_group e D G HB r pos gs m Hm) as [[Cl _]|(b & x & y & z & Eg & -> & [X0 X1] & [Y0 Y1] & Hy)].
  - exfalso. apply Nb. rewrite Eb. unfold mark_at. rewrite Cl. reflexivity.
  - exists b, (u ++ strip x), (strip y), (strip z ++ v). rewrite !strip_app, !strip_mark. splits; auto.
    + cbn [app]. rewrite <- !app_assoc. reflexivity.
    + rewrite Eb. unfold mark_at. rewrite !first_mark_app, !first_mark_mark, X0. cbn. rewrite app_length. f_equal. lia.
    + rewrite Ee. unfold mark_at. rewrite !first_mark_app, !first_mark_mark, !strip_mark, X1, Y1. cbn. rewrite !app_length. f_equal. lia.
Qed.
Theorem none_captured : forall e D w r pos gs f s t cl ans o, shipped e D -> derives Alternative w r -> capturable e r -> regular r -> pos = 0 \/ groups r < pos ->
  compile_m e pos gs r = Ok f -> (N.of_nat (size f) + 2 <= two32)%N -> cap_compile (surround f) = Ok s -> is_word t -> (N.of_nat (length t) < nowhere)%N ->
  cap_run s t = Ok cl -> get_capture s cl = Ok (ans, o) -> ans = false.
Proof.
  intros e D w r pos gs f s t cl ans o Sh Dr Cr R Out E Sz Es Ht Lt E1 E2. destruct ans; auto. exfalso.
  destruct o as [st|].
  - destruct (group_captured e D w r pos gs f s t cl st Sh Dr Cr R E Sz Es Ht Lt E1 E2) as (b & _ & _ & _ & Eg & _). destruct Out as [->|Out]; [rewrite group_of_0 in Eg|rewrite group_of_out in Eg by auto]; discriminate Eg.
  - destruct (pattern_captured e D w r pos gs Sh Dr Cr R) as [(f' & E' & _ & H)|[X _]]; [|rewrite E in X; discriminate X]. rewrite E in E'. injection E' as <-.
    destruct (H Sz) as (s' & Es' & H'). rewrite Es in Es'. injection Es' as <-. destruct (H' t Ht Lt) as (cl' & ans & o & E1' & E2' & _ & _ & N & _). rewrite E1 in E1'. injection E1' as <-. rewrite E2 in E2'. injection E2' as <- <-. discriminate (N eq_refl).
Qed.
Theorem marked_words : forall e D r pos gs w, shipped e D -> capturable e r -> (re_den (e_to e) D r w <-> exists m, mden (e_to e) D r pos gs m /\ strip m = w).
Proof.
  intros e D r pos gs w Sh C. destruct (shipped_good e D Sh) as (G & _ & HB). split; [apply den_mden; auto|]. intros (m & H & <-). eapply mden_den; eauto.
Qed.
