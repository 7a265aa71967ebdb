(** Approximate search with the scanners. *)
From Coq Require Import List Bool Arith NArith Lia.
From Verif Require Import Util Spec PartitionModel FsmModel DetermineModel MinimizeModel Nfa FsmSem FsmBasics FsmOps Api ApiProofs BuildFacts
  RunModel RunSpec ScannerModel ScannerSpec ScannerApi ScannerCompile ScannerUser SimpleModel SimpleUser
  ApproxModel ApproxSpec ApproxProofs ApproxMain ApproxUser ApproxScan.
Import ListNotations.

Lemma sparsed_special : forall f c, sparsed (append_special f c) = sparsed f.
Proof.
  intros f c. unfold append_special. cbv zeta. rewrite sparsed_last, sparsed_connect_final. reflexivity.
Qed.
Lemma noeps_special : forall f c, wf f -> plain f -> no_epsilons f -> letter c -> no_epsilons (append_special f c).
Proof.
  intros f c W P H [Hc He] p q E. apply (appended_edge _ _ _ _ (append_special_appended f c W Hc)) in E as [E|[(_ & E & _)|(_ & _ & [])]].
  - exact (H p q E).
  - rewrite erep_empty in E by apply P. congruence.
Qed.
Lemma string_plain : forall s f, wf f -> plain f -> no_epsilons f -> Forall letter s -> plain (append_string f s) /\ no_epsilons (append_string f s).
Proof.
  unfold append_string. induction s as [|c s IH]; intros f W P H Hs; cbn [fold_left]; auto.
  inversion Hs as [|? ? Hc Hs']; subst. destruct (append_special_wf f c W (proj1 P) (proj1 Hc)) as [W' U']. apply IH; auto.
  - split; auto. rewrite sparsed_special. apply P.
  - apply noeps_special; auto.
Qed.
Lemma new_noeps : no_epsilons fsm_new.
Proof. intros p q E. unfold edge in E. destruct p as [|[|p]]; destruct E. Qed.
Lemma new_plain : plain fsm_new.
Proof. split; reflexivity. Qed.

Lemma accepts_word : forall s, Forall letter s -> forall u, accepts (append_string fsm_new s) u <-> u = s.
Proof.
  intros s Hs u. destruct (append_string_ok s fsm_new fsm_new_wf eq_refl Hs) as (_ & _ & L). rewrite (L u). split.
  - intros (x & y & -> & Hx & Hy). apply fsm_new_lang in Hx. unfold L_eps in Hx. subst x. exact Hy.
  - intros ->. exists [], s. split; [reflexivity|]. split; [apply fsm_new_lang; reflexivity|reflexivity].
Qed.

Lemma built_input : forall f d, built f -> plain f -> built (approx_input f d).
Proof. intros f d B [U S]. unfold approx_input. destruct (Nat.eqb d 0); auto. apply built_approx; auto. Qed.
Lemma undet_input : forall f d, built f -> plain f -> determined (approx_input f d) = false.
Proof.
  intros f d B P. pose proof (uncompressed_undet f (built_ok f B) (proj1 P)) as D. unfold approx_input. destruct (Nat.eqb d 0); auto.
  rewrite approx_undet; auto. apply built_wf; auto.
Qed.
Lemma approx_0 : forall f, create_approx f 0 = f.
Proof. reflexivity. Qed.
Lemma input_approx : forall f d, approx_input f d = create_approx f d.
Proof. intros f d. unfold approx_input. destruct (Nat.eqb_spec d 0) as [->|]; auto. Qed.
