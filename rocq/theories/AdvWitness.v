(** Scanners for the examples and the refutations about AdvancedCountingScanner. *)
From Coq Require Import List Bool Arith NArith Lia.
From Verif Require Import Util Spec PartitionModel FsmModel DetermineModel MinimizeModel FsmSem FsmOps FsmBasics Api ApiProofs BuildFacts RunModel RunSpec ScannerModel GlueModel CountModel CountSpec CountApi CountWitness AdvModel AdvSpec.
Import ListNotations.
Local Open Scope N_scope.

Definition adv_of (s : loaded) (w : list N) (i : nat) : res N := let* st := steps (count_ops true s) (c_init s) w in c_result st i.
Lemma adv_of_ok : forall s w i n, adv_of s w i = Ok n -> counts true s w i n.
Proof.
  intros s w i n E. unfold adv_of in E. destruct (steps (count_ops true s) (c_init s) w) as [st| | |] eqn:E1; cbn [bind] in E; try discriminate E. exists st. auto.
Qed.
Definition okp (x : res (loaded * bool)) : loaded := match x with Ok (s, _) => s | _ => mkLoaded 0 0 0 0 0 [] [] [] false false end.
Definition any_letterb (c : N) : bool := (c <? 256) || (c =? 258) || (c =? 259).
Lemma any_lettersb : forall w, forallb any_letterb w = true -> Forall any_letter w.
Proof.
  intros w H. rewrite forallb_forall in H. apply Forall_forall. intros c Hc. specialize (H c Hc). unfold any_letterb in H. apply orb_true_iff in H as [H|H].
  - apply orb_true_iff in H as [H|H]; [left; apply N.ltb_lt; auto|right; left; apply N.eqb_eq; auto].
  - right. right. apply N.eqb_eq. auto.
Qed.

(** a, separated by a comma *)
Definition exa_s : loaded := Eval vm_compute in okp (advanced_scanner 65536 (str [97]) (str [44])).
Lemma exa_eq : advanced_scanner 65536 (str [97]) (str [44]) = Ok (exa_s, false). Proof. vm_compute. reflexivity. Qed.
Lemma exa_placed : dplaced exa_s. Proof. apply placedb_ok. vm_compute. reflexivity. Qed.
(** "b,a,a,ab" between the marks *)
Definition exa_w : list N := [258; 98; 44; 97; 44; 97; 44; 97; 98; 259].
Lemma exa_repeats : repeats (accepts (str [97])) (accepts (str [44])) exa_w 3.
Proof.
  right. exists [258; 98; 44], ([97] ++ [44] ++ [97] ++ [44] ++ [97]), [98; 259]. split; [reflexivity|].
  change ([97] ++ [44] ++ [97] ++ [44] ++ [97]) with (([97] ++ [44] ++ [97]) ++ [44] ++ [97]).
  apply alt_more; [apply alt_more; [apply alt_one| |]| |]; apply str_word; reflexivity.
Qed.

(** a or aab, separated by b *)
Definition exb_re : fsm := fsm_or (str [97]) (str [97; 97; 98]).
Lemma exb_built : built exb_re. Proof. apply built_or; apply str_built; reflexivity. Qed.
Definition exb_s : loaded := Eval vm_compute in okp (advanced_scanner 65536 exb_re (str [98])).
Lemma exb_eq : advanced_scanner 65536 exb_re (str [98]) = Ok (exb_s, false). Proof. vm_compute. reflexivity. Qed.
Lemma adv_under_counted : exists buf re sep s w n m, built re /\ built sep /\ advanced_scanner buf re sep = Ok (s, false) /\ dplaced s /\ Forall any_letter w /\
  counts true s w 0 (N.of_nat n) /\ repeats (accepts re) (accepts sep) w m /\ (n < m)%nat.
Proof.
  exists 65536, exb_re, (str [98]), exb_s, [97; 97; 98; 97], 1%nat, 2%nat. split; [exact exb_built|]. split; [apply str_built; reflexivity|]. split; [exact exb_eq|].
  split; [apply placedb_ok; vm_compute; reflexivity|]. split; [apply any_lettersb; reflexivity|]. split; [apply adv_of_ok; vm_compute; reflexivity|]. split; [|lia].
  right. exists [97], ([97] ++ [98] ++ [97]), []. split; [reflexivity|]. apply alt_more; [apply alt_one| |apply f_or]; try (apply str_built; reflexivity).
  - apply f_or; try (apply str_built; reflexivity). left. apply str_word; reflexivity.
  - apply str_word; reflexivity.
  - left. apply str_word; reflexivity.
Qed.

(** a, separated by what does not exist *)
Definition exn_s : loaded := Eval vm_compute in okp (advanced_scanner 65536 (str [97]) make_false).
Lemma exn_eq : advanced_scanner 65536 (str [97]) make_false = Ok (exn_s, false). Proof. vm_compute. reflexivity. Qed.
Lemma adv_not_found : exists buf re sep s w, built re /\ built sep /\ advanced_scanner buf re sep = Ok (s, false) /\ dplaced s /\ Forall any_letter w /\
  counts true s w 0 0 /\ exists x r y, w = x ++ r ++ y /\ r <> [] /\ accepts re r.
Proof.
  exists 65536, (str [97]), make_false, exn_s, [97]. split; [apply str_built; reflexivity|]. split; [apply built_false|]. split; [exact exn_eq|].
  split; [apply placedb_ok; vm_compute; reflexivity|]. split; [apply any_lettersb; reflexivity|]. split; [apply adv_of_ok; vm_compute; reflexivity|].
  exists [], [97], []. split; [reflexivity|]. split; [discriminate|]. apply str_word; reflexivity.
Qed.
