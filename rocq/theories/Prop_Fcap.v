(** C52: what CapturingScanner finds. *)
From Coq Require Import List Bool Arith NArith Lia.
From Verif Require Import Util Spec PartitionModel FsmModel DetermineModel MinimizeModel Nfa FsmSem FsmBasics ApproxSpec Api ApiProofs ScannerModel RunModel RunSpec CountModel CountSpec
  CapModel CapSpec CapApi CapMain CapWitness FcapModel FcapSpec FcapUser FcapWitness.
Import ListNotations.
Local Open Scope N_scope.

(** A surrounded regexp with captures.  Either it is too complicated, or the scanner can be
    compiled and run over every text; Final is true exactly when the text contains a match; and
    Begin and End are the places noted along the outputs of the minimal automaton: the last
    beginning and the last end up to the first letter where both are there. *)
Theorem C52_final : forall f L, captures f L -> uncompressed f ->
  (exists g, canonize (surround f) 0 = Ok g /\ forall buf, N.of_nat (size g) < two32 -> (part_size (letters g) <= 256)%nat ->
    exists s, fc_compile buf (surround f) = Ok s /\ d_states s = N.of_nat (size g) /\ d_nletters s = N.of_nat (part_size (letters g)) /\ d_buf s = buf /\
    (dplaced s -> forall w, is_word w -> N.of_nat (length w) < fc_npos -> exists st fin acts, steps (fc_ops s) (fc_init s) w = Ok st /\ fc_final s st = Ok fin /\
      (fin = true <-> contains (accepts f) w) /\ fc_actions (d_next s) (d_initial s) w = Ok acts /\ length acts = length w /\ spells g (initial g) w acts /\ noted acts (fc_begin st) (fc_end st))) \/
  (canonize (surround f) 0 = Throw ETooComplicated /\ forall buf, fc_compile buf (surround f) = Throw ETooComplicated).
Proof. exact fcap_user. Qed.
Print Assumptions C52_final.
(** x(a)y on zxayz *)
Example C52_final_ex : (exists L, captures exf_xay L) /\ uncompressed exf_xay /\ (exists g, canonize (surround exf_xay) 0 = Ok g /\ N.of_nat (size g) < two32 /\ (part_size (letters g) <= 256)%nat) /\
  exf_placed (surround exf_xay) = true /\ exf_go (surround exf_xay) [122; 120; 97; 121; 122] = Ok (true, true, 2, 3) /\ exf_go (surround exf_xay) [122; 120; 97; 122] = Ok (false, false, 2, fc_npos).
Proof.
  split; [eexists; apply cp_cat; [apply cp_cat; [|apply cp_group]|]; (apply exf_cap; [apply exf_letter; reflexivity|vm_compute; reflexivity])|].
  split; [reflexivity|]. split; [eexists; split; [vm_compute; reflexivity|split; [reflexivity|vm_compute; lia]]|]. split; [vm_compute; reflexivity|]. split; vm_compute; reflexivity.
Qed.

(** Once there is a capture, no further letter changes it. *)
Theorem C52_kept : forall s st w st', fc_captured st = true -> steps (fc_ops s) st w = Ok st' -> fc_begin st' = fc_begin st /\ fc_end st' = fc_end st.
Proof. exact fc_kept. Qed.
Print Assumptions C52_kept.
Example C52_kept_ex : exists s st st', fc_compile 4096 (surround exf_xay) = Ok s /\ steps (fc_ops s) (fc_init s) [120; 97; 121] = Ok st /\ fc_captured st = true /\
  steps (fc_ops s) st [120; 97; 121] = Ok st' /\ fc_begin st' = 1 /\ fc_end st' = 2.
Proof. eexists; eexists; eexists. split; [vm_compute; reflexivity|]. split; [vm_compute; reflexivity|]. split; [vm_compute; reflexivity|]. split; [vm_compute; reflexivity|]. split; reflexivity. Qed.

(** Without a capture in the regexp nothing is ever captured, and Final tells the matches of the
    automaton itself. *)
Theorem C52_bare : forall f g buf s w, built f -> canonize f 0 = Ok g -> N.of_nat (size g) < two32 -> (part_size (letters g) <= 256)%nat -> fc_compile buf f = Ok s -> dplaced s ->
  is_word w -> N.of_nat (length w) < fc_npos -> exists st fin, steps (fc_ops s) (fc_init s) w = Ok st /\ fc_final s st = Ok fin /\ (fin = true <-> accepts f w) /\ fc_begin st = fc_npos /\ fc_end st = fc_npos.
Proof. exact fcap_bare. Qed.
Print Assumptions C52_bare.
Example C52_bare_ex : built exf_bc /\ (exists g, canonize exf_bc 0 = Ok g /\ N.of_nat (size g) < two32 /\ (part_size (letters g) <= 256)%nat) /\ exf_placed exf_bc = true /\
  exf_go exf_bc [98; 99] = Ok (true, false, fc_npos, fc_npos) /\ exf_go exf_bc [98; 98] = Ok (false, false, fc_npos, fc_npos).
Proof.
  split; [apply built_cat; apply exk_lit_built, exf_letter; reflexivity|]. split; [eexists; split; [vm_compute; reflexivity|split; [reflexivity|vm_compute; lia]]|]. split; [vm_compute; reflexivity|]. split; vm_compute; reflexivity.
Qed.

(** Where this ends.  What is captured need not belong to a match: (a)bc on abdabc captures the
    a at 0, though the only match begins at 3. *)
Theorem C52_attempt_refuted : exists b c s w st, built b /\ built c /\ fc_compile 4096 (surround (fsm_cat (capture_mark b) c)) = Ok s /\ dplaced s /\ is_word w /\ steps (fc_ops s) (fc_init s) w = Ok st /\
  fc_final s st = Ok true /\ fc_captured st = true /\
  ~ exists u y z v, w = u ++ y ++ z ++ v /\ accepts b y /\ accepts c z /\ fc_begin st = N.of_nat (length u).
Proof.
  destruct (exf_go_ok (surround exf_abc) [97; 98; 100; 97; 98; 99] true true 0 1) as (s & st & E1 & P & E2 & E3 & E4 & E5 & E6); [vm_compute; reflexivity..|].
  exists (exk_lit 97), exf_bc, s, [97; 98; 100; 97; 98; 99], st. split; [apply exk_lit_built, exf_letter; reflexivity|]. split; [apply built_cat; apply exk_lit_built, exf_letter; reflexivity|].
  split; [exact E1|]. split; [exact P|]. split; [repeat constructor; discriminate|]. split; [exact E2|]. split; [exact E3|]. split; [exact E4|].
  intros (u & y & z & v & Ew & A & C & Eb). rewrite E5 in Eb. destruct u; [|discriminate Eb]. apply exf_lit in A; [|apply exf_letter; reflexivity]. subst y.
  apply FsmOps2.fsm_cat_sound in C; try apply built_wf, exk_lit_built, exf_letter; try reflexivity. destruct C as (z1 & z2 & -> & Z1 & Z2). apply exf_lit in Z1; [|apply exf_letter; reflexivity]. apply exf_lit in Z2; [|apply exf_letter; reflexivity].
  subst z1 z2. discriminate Ew.
Qed.
Print Assumptions C52_attempt_refuted.
(** The group of a match may not be captured: x(a* )y on xaay is Final and not Captured. *)
Theorem C52_lost_refuted : exists a b c s x y z st, built a /\ built b /\ built c /\ fc_compile 4096 (surround (fsm_cat (fsm_cat a (capture_mark b)) c)) = Ok s /\ dplaced s /\
  accepts a x /\ accepts b y /\ accepts c z /\ is_word (x ++ y ++ z) /\ steps (fc_ops s) (fc_init s) (x ++ y ++ z) = Ok st /\ fc_final s st = Ok true /\ fc_captured st = false.
Proof.
  destruct (exf_go_ok (surround exk_f) [120; 97; 97; 121] true false 3 fc_npos) as (s & st & E1 & P & E2 & E3 & E4 & E5 & E6); [vm_compute; reflexivity..|].
  exists (exk_lit 120), exk_as, (exk_lit 121), s, [120], [97; 97], [121], st. split; [apply exk_lit_built, exf_letter; reflexivity|]. split; [apply exk_as_plain|]. split; [apply exk_lit_built, exf_letter; reflexivity|].
  split; [exact E1|]. split; [exact P|].
  assert (A : forall c, c < 256 -> accepts (exk_lit c) [c]) by (intros c H; apply exf_lit_in, exf_letter, H).
  split; [apply A; reflexivity|]. split.
  { apply FsmOps.iterate_ok; [apply built_wf, exk_lit_built, exf_letter; reflexivity|]. change [97; 97] with ([97] ++ [97] ++ []). assert (X : accepts (exk_lit 97) [97]) by (apply A; reflexivity). apply star_app; auto. apply star_app; auto. apply star_nil. }
  split; [apply A; reflexivity|]. split; [repeat constructor; discriminate|]. auto.
Qed.
Print Assumptions C52_lost_refuted.
(** A group may be captured that takes no part in the match: (x(a)|ya)z on yaz. *)
Theorem C52_other_refuted : exists f L s w st, captures f L /\ fc_compile 4096 (surround f) = Ok s /\ dplaced s /\ is_word w /\ steps (fc_ops s) (fc_init s) w = Ok st /\ fc_final s st = Ok true /\ fc_captured st = true /\
  forall u m v, w = u ++ strip m ++ v -> L m -> ~ In (mark 1) m.
Proof.
  destruct (exf_go_ok (surround exf_alt) [121; 97; 122] true true 1 2) as (s & st & E1 & P & E2 & E3 & E4 & E5 & E6); [vm_compute; reflexivity..|].
  exists exf_alt. eexists. exists s, [121; 97; 122], st.
  split; [apply cp_cat; [apply cp_or; [apply cp_cat; [|apply cp_group]|apply cp_cat]|]; (apply exf_cap; [apply exf_letter; reflexivity|vm_compute; reflexivity])|].
  split; [exact E1|]. split; [exact P|]. split; [repeat constructor; discriminate|]. split; [exact E2|]. split; [exact E3|]. split; [exact E4|].
  intros u m v Ew (m1 & m2 & -> & [H|H] & M2) I; destruct H as (p & q & -> & Hp & Hq); apply exf_lit in Hp; try (apply exf_letter; reflexivity); apply exf_lit in M2; try (apply exf_letter; reflexivity); subst p m2.
  - destruct Hq as (x & -> & Hx). apply exf_lit in Hx; [|apply exf_letter; reflexivity]. subst x. vm_compute in Ew. do 3 (destruct u as [|? u]; [discriminate Ew|injection Ew as <- Ew]). destruct u; discriminate Ew.
  - apply exf_lit in Hq; [|apply exf_letter; reflexivity]. subst q. vm_compute in I. repeat (destruct I as [I|I]; [discriminate I|]). exact I.
Qed.
Print Assumptions C52_other_refuted.
(** Under a repetition the beginning may be lost and the end noted: x(a)*y on xay. *)
Theorem C52_begin_refuted : exists f L s w st, captures f L /\ fc_compile 4096 (surround f) = Ok s /\ dplaced s /\ is_word w /\ steps (fc_ops s) (fc_init s) w = Ok st /\ fc_final s st = Ok true /\
  fc_begin st = fc_npos /\ fc_end st <> fc_npos.
Proof.
  destruct (exf_go_ok (surround exf_star) [120; 97; 121] true false fc_npos 2) as (s & st & E1 & P & E2 & E3 & E4 & E5 & E6); [vm_compute; reflexivity..|].
  exists exf_star. eexists. exists s, [120; 97; 121], st. split; [apply cp_cat; [|apply cp_cat; [apply cp_star, cp_group|]]; (apply exf_cap; [apply exf_letter; reflexivity|vm_compute; reflexivity])|].
  split; [exact E1|]. split; [exact P|]. split; [repeat constructor; discriminate|]. split; [exact E2|]. split; [exact E3|]. split; [exact E5|]. rewrite E6. discriminate.
Qed.
Print Assumptions C52_begin_refuted.
