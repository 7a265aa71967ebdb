(** Properties C29 and C30: gluing scanners. *)
From Coq Require Import List Bool Arith NArith Lia Sorted.
From Verif Require Import Util Spec PartitionModel FsmModel DetermineModel MinimizeModel FsmSem Api
  RunModel RunSpec ScannerModel ScannerSpec GlueModel ScannerApi ScannerCompile ScannerUser GlueTable GlueWitness Prop_Scanner.
Import ListNotations.
Local Open Scope N_scope.

(** ** C29 *)
(** [b1] and [b2] are the addresses of the buffers, [null] the empty scanner that a failed
    Glue returns.  If Glue succeeds (an operand is empty or the result is not): *)
Theorem C29_glue : forall k b0 b1 b2 null l r maxSize s La Lb, obtained k l La -> obtained k r Lb -> default_scanner k b0 = Ok null ->
  glue k b1 b2 null l r maxSize = Ok s -> (s_null s = true -> s_null l = true \/ s_null r = true) -> maxSize <= 262141 ->
  room k b1 s -> placed k s ->
  s_count s = s_count l + s_count r /\
  forall w, is_word w -> exists al ar a, exists idl idr, exists finl finr deadl deadr,
    steps (scanner_ops k l) (s_initial l) w = Ok al /\ steps (scanner_ops k r) (s_initial r) w = Ok ar /\
    steps (scanner_ops k s) (s_initial s) w = Ok a /\
    s_accepted k l al = Ok idl /\ s_accepted k r ar = Ok idr /\ s_accepted k s a = Ok (idl ++ map (fun i => i + s_count l) idr) /\
    s_isfinal k l al = Ok finl /\ s_isfinal k r ar = Ok finr /\ s_isfinal k s a = Ok (finl || finr) /\
    s_isdead k l al = Ok deadl /\ s_isdead k r ar = Ok deadr /\ s_isdead k s a = Ok (deadl && deadr).
Proof.
  intros k b0 b1 b2 null l r maxSize s La Lb Ol Or D E N0 L R P.
  destruct (obtained_glued k b0 b1 b2 null l r maxSize s La Lb Ol Or D E N0 L R P) as [C A]. split; auto.
Qed.
Print Assumptions C29_glue.

(** ** C30 *)
Theorem C30_empty_left : forall k b1 b2 null l r maxSize Lb, s_null l = true -> obtained k r Lb ->
  exists s, glue k b1 b2 null l r maxSize = Ok s /\ (placed k s -> obtained k s Lb).
Proof. exact glue_empty_left. Qed.
Print Assumptions C30_empty_left.
Theorem C30_empty_right : forall k b1 b2 null l r maxSize La, s_null r = true -> obtained k l La -> obtained k r [] ->
  exists s, glue k b1 b2 null l r maxSize = Ok s /\ (placed k s -> obtained k s La).
Proof. exact glue_empty_right. Qed.
Print Assumptions C30_empty_right.

(** [at_least k l r n]: running both scanners over all texts reaches [n] different pairs of
    states.  More than limit + 1 pairs: the result is empty. *)
Theorem C30_limit_exceeded : forall k b1 b2 null l r La Lb maxSize, obtained k l La -> obtained k r Lb -> s_null l = false -> s_null r = false ->
  glue_limit maxSize <= 262141 -> at_least k l r (glue_limit maxSize + 2) -> glue k b1 b2 null l r maxSize = Ok null.
Proof. exact glue_limit_empty. Qed.
Print Assumptions C30_limit_exceeded.

(** Otherwise it is a scanner for both lists of regexps, not empty, within the limit, and
    its table fits.  (Counts beyond 16000 could overflow the 32-bit size of the final
    table; Glue has an overflow check for it that the code turns into an exception.) *)
Theorem C30_within_limit : forall k b0 b1 b2 null l r La Lb maxSize, obtained k l La -> obtained k r Lb -> s_null l = false -> s_null r = false ->
  default_scanner k b0 = Ok null ->
  glue_limit maxSize <= 262141 -> ~ at_least k l r (glue_limit maxSize + 2) -> s_count l + s_count r <= 16000 ->
  exists s, glue k b1 b2 null l r maxSize = Ok s /\ s_null s = false /\ s_states s <= glue_limit maxSize + 1 /\
    (user_address b1 -> user_address b2 -> obtained k s (La ++ Lb)).
Proof. exact glue_limit_fits. Qed.
Print Assumptions C30_within_limit.

(** The limit given by the caller is not checked against the capacity of the hash table: if
    the product has more states than the table has slots, the lookup leaves the table. *)
Theorem C30_table_capacity : forall k b1 b2 null l r La Lb maxSize, obtained k l La -> obtained k r Lb -> s_null l = false -> s_null r = false ->
  262144 <= glue_limit maxSize -> at_least k l r 262145 -> glue k b1 b2 null l r maxSize = UB.
Proof. exact glue_past_capacity. Qed.
Print Assumptions C30_table_capacity.
(** Such scanners exist: (a^64)* and (a^63)* glued, with (a^67)*. *)
Theorem C30_table_capacity_refuted : exists k b0 null l r La Lb, default_scanner k b0 = Ok null /\ obtained k l La /\ obtained k r Lb /\
  forall b1 b2 maxSize, 262144 <= maxSize -> glue k b1 b2 null l r maxSize = UB.
Proof. exists wit_kind, 4096. exact overflow_witness. Qed.
Print Assumptions C30_table_capacity_refuted.

(** ** Examples *)
Definition exg_null : scanner := Eval vm_compute in match default_scanner exs_kind 4096 with Ok s => s | _ => exs_s end.
Example exg_null_ok : default_scanner exs_kind 4096 = Ok exg_null. Proof. vm_compute. reflexivity. Qed.
Example exg_null_obtained : obtained exs_kind exg_null [].
Proof. apply (ob_default exs_kind 4096); [cbn; lia|apply exg_null_ok|apply placed_b_ok; vm_compute; reflexivity]. Qed.
(** [^a]* and .*a.* *)
Example exg_r_obtained : obtained exs_kind exs_s2 [accepts (surround (append_special fsm_new 97))].
Proof.
  apply (ob_compile exs_kind 4096); [cbn; lia| |vm_compute; reflexivity|apply placed_b_ok; vm_compute; reflexivity].
  apply built_surround, built_append; [apply built_new|reflexivity|split; [reflexivity|discriminate]].
Qed.
Definition exg_s : scanner := Eval vm_compute in match glue exs_kind 65536 131072 exg_null exs_s exs_s2 0 with Ok s => s | _ => exs_s end.
Example C29_example : obtained exs_kind exs_s [accepts exs_f] /\ obtained exs_kind exs_s2 [accepts (surround (append_special fsm_new 97))] /\
  default_scanner exs_kind 4096 = Ok exg_null /\ glue exs_kind 65536 131072 exg_null exs_s exs_s2 0 = Ok exg_s /\ s_null exg_s = false /\
  room exs_kind 65536 exg_s /\ placed exs_kind exg_s /\ s_count exg_s = 2 /\
  (exists a, steps (scanner_ops exs_kind exg_s) (s_initial exg_s) [120; 97] = Ok a /\ s_accepted exs_kind exg_s a = Ok [1]) /\
  (exists a, steps (scanner_ops exs_kind exg_s) (s_initial exg_s) [120; 120] = Ok a /\ s_accepted exs_kind exg_s a = Ok [0]).
Proof.
  split; [apply exs_obtained|]. split; [apply exg_r_obtained|]. split; [apply exg_null_ok|]. split; [vm_compute; reflexivity|]. split; [vm_compute; reflexivity|].
  split; [split; vm_compute; [reflexivity|discriminate]|]. split; [apply placed_b_ok; vm_compute; reflexivity|]. split; [vm_compute; reflexivity|].
  split; eexists; vm_compute; auto.
Qed.
(** [^a]* and .*b.* run through more than two pairs of states: too many for limit 1. *)
Definition exg_b : fsm := surround (append_special fsm_new 98).
Definition exg_s3 : scanner := Eval vm_compute in match compile exs_kind 4096 exg_b with Ok s => s | _ => exs_s end.
Example exg_s3_obtained : obtained exs_kind exg_s3 [accepts exg_b].
Proof.
  apply (ob_compile exs_kind 4096); [cbn; lia| |vm_compute; reflexivity|apply placed_b_ok; vm_compute; reflexivity].
  apply built_surround, built_append; [apply built_new|reflexivity|split; [reflexivity|discriminate]].
Qed.
Definition exg_state (s : scanner) (w : word) : N := match steps (scanner_ops exs_kind s) (s_initial s) w with Ok a => a | _ => 0 end.
Example C30_limit_example : glue_limit 1 <= 262141 /\ at_least exs_kind exs_s exg_s3 (glue_limit 1 + 2) /\ s_null exg_s3 = false /\
  glue exs_kind 65536 131072 exg_null exs_s exg_s3 1 = Ok exg_null.
Proof.
  split; [vm_compute; discriminate|]. split; [|split; vm_compute; reflexivity].
  exists (map (fun w => (exg_state exs_s w, exg_state exg_s3 w)) [[]; [97]; [98]]). split; [|split; [reflexivity|]].
  - vm_compute. repeat constructor; cbn [In]; intuition discriminate.
  - assert (W : forall c, c = 97 \/ c = 98 -> is_word [c]) by (intros c [-> | ->]; (constructor; [split; [reflexivity|discriminate]|constructor])).
    intros st [<-|[<-|[<-|[]]]].
    + exists []. split; [constructor|]. split; vm_compute; reflexivity.
    + exists [97]. split; [auto|]. split; vm_compute; reflexivity.
    + exists [98]. split; [auto|]. split; vm_compute; reflexivity.
Qed.
Example C30_example : obtained exs_kind exs_s [accepts exs_f] /\ obtained exs_kind exs_s2 [accepts (surround (append_special fsm_new 97))] /\
  s_null exs_s = false /\ s_null exs_s2 = false /\ s_count exs_s + s_count exs_s2 <= 16000 /\ user_address 65536 /\ user_address 131072 /\
  glue_limit 0 = 80000 /\ ~ at_least exs_kind exs_s exs_s2 80002 /\
  s_null exg_null = true /\ obtained exs_kind exg_null [].
Proof.
  split; [apply exs_obtained|]. split; [apply exg_r_obtained|]. split; [vm_compute; reflexivity|]. split; [vm_compute; reflexivity|].
  split; [vm_compute; discriminate|]. split; [split; vm_compute; [reflexivity|discriminate]|]. split; [split; vm_compute; [reflexivity|discriminate]|].
  split; [reflexivity|]. split.
  - intros H. apply (at_least_le _ _ _ _ _ _ exs_obtained exg_r_obtained) in H. revert H. vm_compute. intros H. apply H. reflexivity.
  - split; [vm_compute; reflexivity|apply exg_null_obtained].
Qed.
