(** ScannerPair (scanners/pair.h). *)
From Coq Require Import List Bool Arith NArith Lia.
From Verif Require Import Util Spec FsmModel RunModel RunSpec RunProofs.
Import ListNotations.

(** A pair of working scanners works: it accepts what either accepts, and is dead when both are. *)
Lemma pair_works : forall A B (o1 : ops A) (o2 : ops B) V1 V2, works o1 V1 -> works o2 V2 ->
  works (pair_ops o1 o2) (fun s => V1 (fst s) /\ V2 (snd s)).
Proof.
  intros A B o1 o2 V1 V2 W1 W2. split.
  - split; [apply W1|apply W2].
  - intros [a b] c [Ha Hb] Hc. cbn [fst snd] in *. destruct (@wk_step _ _ _ W1 a c Ha Hc) as (a' & Ea & Va). destruct (@wk_step _ _ _ W2 b c Hb Hc) as (b' & Eb & Vb).
    exists (a', b'). cbn [pair_ops o_step]. rewrite Ea. cbn [bind]. rewrite Eb. auto.
  - intros [a b] c [Ha Hb] Hc. cbn [fst snd] in *. cbn [pair_ops o_step o_next]. rewrite (@wk_next _ _ _ W1 a c Ha Hc), (@wk_next _ _ _ W2 b c Hb Hc). reflexivity.
  - intros [a b] [Ha Hb]. cbn [fst snd] in *. cbn [pair_ops o_final]. destruct (@wk_final _ _ _ W1 a Ha) as [x ->]. cbn [bind]. destruct x; [eauto|]. apply (@wk_final _ _ _ W2 b Hb).
  - intros [a b] [Ha Hb]. cbn [fst snd] in *. cbn [pair_ops o_dead]. destruct (@wk_dead _ _ _ W1 a Ha) as [x ->]. cbn [bind]. destruct x; [|eauto]. apply (@wk_dead _ _ _ W2 b Hb).
  - intros [a b] [Ha Hb] D w [a' b'] Hw E. cbn [fst snd] in *. apply steps_pair in E. destruct E as [E1 E2]. cbn [pair_ops o_dead] in D. destruct (@wk_dead _ _ _ W1 a Ha) as [x X]. rewrite X in D. cbn [bind] in D.
    destruct x; [|discriminate]. cbn [pair_ops o_final]. rewrite (@wk_sound _ _ _ W1 a Ha X w a' Hw E1). cbn [bind]. apply (@wk_sound _ _ _ W2 b Hb D w b' Hw E2).
Qed.
Lemma pair_dead : forall A B (o1 : ops A) (o2 : ops B) a b x y, o_dead o1 a = Ok x -> o_dead o2 b = Ok y -> o_dead (pair_ops o1 o2) (a, b) = Ok (x && y).
Proof. intros A B o1 o2 a b x y E1 E2. cbn [pair_ops o_dead]. rewrite E1. cbn [bind]. destruct x; auto. Qed.
Lemma works_steps : forall A (o : ops A) V, works o V -> forall w s, V s -> is_word w -> exists s', steps o s w = Ok s' /\ V s'.
Proof.
  intros A o V W w. induction w as [|c w IH]; intros s Hs Hw; cbn [steps]; [eauto|]. inversion Hw; subst.
  destruct (@wk_step _ _ _ W s c Hs H1) as (s1 & -> & V1). cbn [bind]. apply IH; auto.
Qed.
Lemma pair_accepts : forall A B (o1 : ops A) (o2 : ops B) V1 V2, works o1 V1 -> works o2 V2 -> forall w, is_word w ->
  (Accepts (pair_ops o1 o2) w <-> Accepts o1 w \/ Accepts o2 w).
Proof.
  intros A B o1 o2 V1 V2 W1 W2 w Hw.
  destruct (works_steps _ _ _ W1 w _ (@wk_init _ _ _ W1) Hw) as (a & Ea & Va). destruct (works_steps _ _ _ W2 w _ (@wk_init _ _ _ W2) Hw) as (b & Eb & Vb).
  destruct (@wk_final _ _ _ W1 a Va) as [x X]. destruct (@wk_final _ _ _ W2 b Vb) as [y Y].
  assert (E : steps (pair_ops o1 o2) (o_init (pair_ops o1 o2)) w = Ok (a, b)) by (apply steps_pair; auto).
  assert (F : o_final (pair_ops o1 o2) (a, b) = Ok (x || y)) by (cbn [pair_ops o_final]; rewrite X; cbn [bind]; destruct x; auto).
  unfold Accepts. split.
  - intros (s & Es & Fs). rewrite E in Es. injection Es as <-. rewrite F in Fs. destruct x; [left|right]; [exists a|exists b]; split; auto; try congruence.
    rewrite Y. exact Fs.
  - intros [(s & Es & Fs)|(s & Es & Fs)]; exists (a, b); split; auto; rewrite F.
    + rewrite Ea in Es. injection Es as <-. rewrite X in Fs. injection Fs as ->. reflexivity.
    + rewrite Eb in Es. injection Es as <-. rewrite Y in Fs. injection Fs as ->. destruct x; reflexivity.
Qed.
Lemma pair_ok : forall A B (o1 : ops A) (o2 : ops B) V1 V2, works o1 V1 -> works o2 V2 ->
  works (pair_ops o1 o2) (fun s => V1 (fst s) /\ V2 (snd s)) /\
  (forall w, is_word w -> (Accepts (pair_ops o1 o2) w <-> Accepts o1 w \/ Accepts o2 w)) /\
  (forall a b, V1 a -> V2 b -> (o_dead (pair_ops o1 o2) (a, b) = Ok true <-> o_dead o1 a = Ok true /\ o_dead o2 b = Ok true)).
Proof.
  intros A B o1 o2 V1 V2 W1 W2. split; [apply pair_works; auto|]. split; [intros w Hw; eapply pair_accepts; eauto|].
  intros a b Ha Hb. destruct (@wk_dead _ _ _ W1 a Ha) as [x X]. destruct (@wk_dead _ _ _ W2 b Hb) as [y Y]. rewrite (pair_dead _ _ _ _ _ _ _ _ X Y), X, Y.
  destruct x, y; cbn; split; intros; try destruct H; auto; try discriminate.
Qed.
