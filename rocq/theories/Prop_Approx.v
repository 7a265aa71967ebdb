(** Property C46: approximate matching (CreateApproxFsm and the distance argument of the
    scanners' constructors).  [edits], [near], [contains], [plain], [no_epsilons] and [ends_open]
    are in ApproxSpec.v. *)
From Coq Require Import List Bool Arith NArith Lia.
From Verif Require Import Util Spec PartitionModel FsmModel DetermineModel MinimizeModel Nfa FsmSem FsmBasics FsmOps Api ApiProofs BuildFacts
  RunModel RunSpec ScannerModel ScannerSpec ScannerApi ScannerCompile ScannerUser SimpleModel SimpleUser GlueWitness
  ApproxModel ApproxSpec ApproxProofs ApproxMain ApproxUser ApproxScan ApproxApi.
Import ListNotations.
Local Open Scope N_scope.

(** ** The automaton *)
(** Nothing is accepted that is more than [d] edits away. *)
Theorem C46_only_close : forall f d w, built f -> plain f -> accepts (create_approx f d) w -> is_word w /\ near true d (accepts f) w.
Proof.
  intros f d w B P H. pose proof (built_wf f B) as W. split; [eapply accepts_is_word; [|exact H]; apply approx_wf; auto|].
  destruct (approx_only f W P d w H) as (u & k & tl & Hu & Hk & He & _). exists u, k. split; auto. split; auto. eapply edits_any_tail; eauto.
Qed.
Print Assumptions C46_only_close.

(** Whatever is close is accepted, but for letters inserted at the very end and letters
    exchanged: these only where the automaton has a way on, or no transitions that read
    nothing. *)
Theorem C46_all_close : forall f d u k sw tl w, built f -> plain f -> accepts f u -> (k <= d)%nat -> edits sw tl k u w ->
  (tl = true -> ends_open f u) -> (sw = true -> no_epsilons f) -> accepts (create_approx f d) w.
Proof. intros f d u k sw tl w B P. intros. eapply approx_all; eauto. apply built_wf; auto. Qed.
Print Assumptions C46_all_close.

(** The result can be used like any other automaton. *)
Theorem C46_still_an_automaton : forall f d, built f -> plain f -> built (create_approx f d) /\ determined (create_approx f d) = false.
Proof. intros f d B P. rewrite <- input_approx. split; [apply built_input|apply undet_input]; auto. Qed.
Print Assumptions C46_still_an_automaton.

(** ** Searching *)
Lemma surround_any : forall f d sw w, built f -> plain f -> (sw = true -> no_epsilons f) -> is_word w -> contains (near sw d (accepts f)) w ->
  accepts (create_approx (surround f) d) w.
Proof.
  intros f d sw w B P Hs Hw (a & v & b & -> & u & k & Hu & Hk & He). unfold is_word in Hw. rewrite !Forall_app in Hw. destruct Hw as (Ha & _ & Hb).
  eapply approx_search_all; eauto. apply built_wf; auto.
Qed.
Lemma surround_only : forall f d w, built f -> plain f -> accepts (create_approx (surround f) d) w -> contains (near true d (accepts f)) w.
Proof.
  intros f d w B P H. apply approx_search_only in H as (_ & a & v & b & u & k & -> & Hu & Hk & He); auto; [|apply built_wf; auto].
  exists a, v, b. split; auto. exists u, k. auto.
Qed.

(** With Surround there is always a way on, so that the end of the word is nothing special. *)
Theorem C46_search : forall f d w, built f -> plain f -> is_word w ->
  (accepts (create_approx (surround f) d) w -> contains (near true d (accepts f)) w) /\
  (contains (near false d (accepts f)) w -> accepts (create_approx (surround f) d) w) /\
  (no_epsilons f -> contains (near true d (accepts f)) w -> accepts (create_approx (surround f) d) w).
Proof.
  intros f d w B P Hw. split; [apply surround_only; auto|]. split; [|intros N]; apply surround_any; auto. discriminate.
Qed.
Print Assumptions C46_search.

(** The scanners with a distance: for every text, whether it contains a string with at most
    [d] edits. *)
Lemma string_search : forall s d w, Forall letter s -> is_word w ->
  (accepts (approx_input (surround (append_string fsm_new s)) d) w <-> contains (near true d (fun u => u = s)) w).
Proof.
  intros s d w Hs Hw. rewrite input_approx. destruct (string_plain s fsm_new fsm_new_wf new_plain new_noeps Hs) as [P N].
  assert (B : built (append_string fsm_new s)) by (apply built_string; auto using built_new; reflexivity).
  destruct (C46_search _ d w B P Hw) as (A1 & _ & A2). split.
  - intros H. apply A1 in H as (a & v & b & -> & u & k & Hu & X). apply accepts_word in Hu; auto. exists a, v, b. split; auto. exists u, k. auto.
  - intros (a & v & b & -> & u & k & Hu & X). apply A2; auto. exists a, v, b. split; auto. exists u, k. split; auto. apply accepts_word; auto.
Qed.
Lemma string_built : forall s d, Forall letter s -> built (approx_input (surround (append_string fsm_new s)) d) /\ determined (approx_input (surround (append_string fsm_new s)) d) = false.
Proof.
  intros s d Hs. destruct (string_plain s fsm_new fsm_new_wf new_plain new_noeps Hs) as [P N].
  assert (B : built (append_string fsm_new s)) by (apply built_string; auto using built_new; reflexivity).
  assert (Ps : plain (surround (append_string fsm_new s))) by (apply plain_surround; auto; apply built_wf; auto).
  split; [apply built_input|apply undet_input]; auto; apply built_surround; auto.
Qed.

Theorem C46_scanner_search : forall k buf s d, (k_nmask k <= 64)%nat -> Forall letter s -> user_address buf ->
  compile_approx k buf (surround (append_string fsm_new s)) d = Throw ETooComplicated \/
  exists sc, compile_approx k buf (surround (append_string fsm_new s)) d = Ok sc /\ forall w, is_word w -> exists a fin,
    steps (scanner_ops k sc) (s_initial sc) w = Ok a /\ s_isfinal k sc a = Ok fin /\
    (fin = true <-> contains (near true d (fun u => u = s)) w).
Proof.
  intros k buf s d Hn Hs [U1 U2]. destruct (string_built s d Hs) as [B D]. unfold compile_approx.
  destruct (compile_total k buf _ B Hn D) as [(sc & E & _ & _ & P)|E]; auto. right. exists sc. split; auto. intros w Hw.
  assert (O : obtained k sc [accepts (approx_input (surround (append_string fsm_new s)) d)]) by (eapply ob_compile; eauto).
  destruct (obtained_reports k sc _ O w Hw) as (a & E1 & (fin & F & I) & _). exists a, fin. split; auto. split; auto.
  rewrite I, <- (string_search s d w Hs Hw). split; [intros (L & [<-|[]] & X); exact X|intros X; eexists; split; [left; reflexivity|exact X]].
Qed.
Print Assumptions C46_scanner_search.

Theorem C46_simple_search : forall buf s d, Forall letter s -> user_address buf ->
  simple_compile_approx buf (surround (append_string fsm_new s)) d = Throw ETooComplicated \/
  exists sc, simple_compile_approx buf (surround (append_string fsm_new s)) d = Ok sc /\ forall w, is_word w -> exists a fin,
    steps (simple_ops sc) (p_initial sc) w = Ok a /\ simple_final sc a = Ok fin /\
    (fin = true <-> contains (near true d (fun u => u = s)) w).
Proof.
  intros buf s d Hs U. destruct (string_built s d Hs) as [B D]. unfold simple_compile_approx.
  destruct (simple_total buf _ B D U) as [(sc & E & O)|E]; auto. right. exists sc. split; auto. intros w Hw.
  destruct (obtained_simple_tells sc _ O w Hw) as (a & E1 & (fin & F & I) & _). exists a, fin. split; auto. split; auto.
  rewrite I, <- (string_search s d w Hs Hw). split; [intros (L & [<-|[]] & X); exact X|intros X; eexists; split; [left; reflexivity|exact X]].
Qed.
Print Assumptions C46_simple_search.

Theorem C46_slow_search : forall s d, Forall letter s -> N.of_nat (size (approx_input (surround (append_string fsm_new s)) d)) <= 4294967296 ->
  exists sc, slow_compile_approx (surround (append_string fsm_new s)) d = Ok sc /\ forall w, is_word w -> exists st fin,
    steps (slow_ops sc) [w_start sc] w = Ok st /\ slow_final sc st = Ok fin /\
    (fin = true <-> contains (near true d (fun u => u = s)) w).
Proof.
  intros s d Hs U. destruct (string_built s d Hs) as [B _]. unfold slow_compile_approx.
  destruct (slow_total _ B U) as (sc & E & O). exists sc. split; auto. intros w Hw.
  destruct (obtained_slow_tells sc _ O w Hw) as (a & E1 & (fin & F & I) & _). exists a, fin. split; auto. split; auto.
  rewrite I, <- (string_search s d w Hs Hw). split; [intros (L & [<-|[]] & X); exact X|intros X; eexists; split; [left; reflexivity|exact X]].
Qed.
Print Assumptions C46_slow_search.

(** "ab" with one edit: "ayb" (a letter inserted) and "ba" (letters exchanged), not "x". *)
Definition exa_kind : kind := mkKind true 2.
Definition exa_ab : fsm := append_string fsm_new [97; 98].
Definition exa_none : scanner := mkScanner 0 0 0 0 0 0 [] [] [] [] false false.
Definition exa_tells (s : scanner) (w : word) : res bool := let* a := steps (scanner_ops exa_kind s) (s_initial s) w in s_isfinal exa_kind s a.
Definition exa_s : scanner := Eval vm_compute in match compile_approx exa_kind 4096 exa_ab 1 with Ok s => s | _ => exa_none end.
Example exa_letters : Forall letter [97; 98].
Proof. repeat constructor; discriminate. Qed.
Example exa_insert : near false 1 (fun u => u = [97; 98]) [97; 121; 98].
Proof.
  exists [97; 98], 1%nat. split; [reflexivity|]. split; [lia|]. apply e_same. apply e_insert; [split; [reflexivity|discriminate]|auto|]. apply e_same, e_nil.
Qed.
Example exa_swap : near true 1 (fun u => u = [97; 98]) [98; 97].
Proof. exists [97; 98], 1%nat. split; [reflexivity|]. split; [lia|]. apply e_swap; [reflexivity|apply e_nil]. Qed.
Example exa_far : ~ contains (near true 1 (fun u => u = [97; 98])) [120; 120].
Proof.
  assert (X : forall k w, edits true true k [97; 98] w -> ~ In 97 w -> ~ In 98 w -> (2 <= k)%nat).
  { assert (Y : forall k u w, edits true true k u w -> (forall c, In c u -> ~ In c w) -> (length u <= k)%nat).
    { intros k u w H. induction H as [|k c u w H IH|k c c' u w Hc H IH|k c' u w Hc Ht H IH|k c u w H IH|k a b u w Hs H IH]; intros D; cbn [length].
      - lia.
      - exfalso. apply (D c); left; reflexivity.
      - assert (length u <= k)%nat; [|lia]. apply IH. intros x X Z. apply (D x); right; auto.
      - assert (length u <= k)%nat; [|lia]. apply IH. intros x X Z. apply (D x); [|right]; auto.
      - assert (length u <= k)%nat; [|lia]. apply IH. intros x X Z. apply (D x); [right|]; auto.
      - exfalso. apply (D a); [left|right; left]; reflexivity. }
    intros k w H Ha Hb. apply (Y k _ _ H). intros c [<-|[<-|[]]]; auto. }
  intros (a & v & b & E & u & k & -> & Hk & He). assert (V : forall c, In c v -> c = 120).
  { intros c Hc. assert (Z : In c [120; 120]) by (rewrite E; apply in_or_app; right; apply in_or_app; auto). destruct Z as [<-|[<-|[]]]; reflexivity. }
  apply X in He; [lia| |]; intros Z; apply V in Z; discriminate.
Qed.
Example C46_example : built exa_ab /\ plain exa_ab /\ no_epsilons exa_ab /\ accepts exa_ab [97; 98] /\
  compile_approx exa_kind 4096 exa_ab 1 = Ok exa_s /\ exa_tells exa_s [97; 98] = Ok true /\
  exa_tells exa_s [97; 121; 98] = Ok true /\ exa_tells exa_s [98; 97] = Ok true /\ exa_tells exa_s [120] = Ok false.
Proof.
  destruct (string_plain [97; 98] fsm_new fsm_new_wf new_plain new_noeps exa_letters) as [P N].
  split; [apply built_string; auto using built_new, exa_letters; reflexivity|]. split; [exact P|]. split; [exact N|]. split; [apply accepts_word; auto using exa_letters|].
  split; vm_compute; auto 10.
Qed.
(** A text is found by the search, another one is not. *)
Example C46_search_example : accepts (create_approx (surround exa_ab) 1) [120; 97; 121; 98; 120] /\ ~ accepts (create_approx (surround exa_ab) 1) [120; 120] /\
  user_address 4096 /\ N.of_nat (size (approx_input (surround exa_ab) 1)) <= 4294967296.
Proof.
  assert (H : forall w, is_word w -> accepts (create_approx (surround exa_ab) 1) w <-> contains (near true 1 (fun u => u = [97; 98])) w)
    by (intros w Hw; rewrite <- input_approx; exact (string_search [97; 98] 1 w exa_letters Hw)).
  split; [|split; [|split]].
  - apply H; [repeat constructor; discriminate|]. exists [120], [97; 121; 98], [120]. split; [reflexivity|].
    exists [97; 98], 1%nat. split; [reflexivity|]. split; [lia|]. apply e_same. apply e_insert; [split; [reflexivity|discriminate]|auto|]. apply e_same, e_nil.
  - rewrite H by (repeat constructor; discriminate). apply exa_far.
  - split; vm_compute; [reflexivity|discriminate].
  - rewrite input_approx. destruct C46_example as (B & P & _). pose proof (built_wf _ B) as W.
    rewrite (approx_size (surround exa_ab) (proj1 (surround_ok _ W)) (plain_surround _ W P) 1). vm_compute. discriminate.
Qed.

(** ** What the guards are for *)
(** A letter inserted at the end is not tolerated when the automaton ends there (without
    Surround). *)
Theorem C46_inserted_at_the_end_refuted : exists f u w s, built f /\ plain f /\ no_epsilons f /\ accepts f u /\ edits false true 1 u w /\
  compile_approx exa_kind 4096 f 1 = Ok s /\ exa_tells s u = Ok true /\ exa_tells s w = Ok false.
Proof.
  exists exa_ab, [97; 98], [97; 98; 120], (match compile_approx exa_kind 4096 exa_ab 1 with Ok s => s | _ => exa_none end).
  destruct C46_example as (B & P & N & A & _). split; [exact B|]. split; [exact P|]. split; [exact N|]. split; [exact A|]. split.
  - apply e_same, e_same, e_insert; [split; [reflexivity|discriminate]|auto|apply e_nil].
  - split; [|split]; vm_compute; reflexivity.
Qed.
Print Assumptions C46_inserted_at_the_end_refuted.

(** Exchanged letters are not tolerated when one of them comes from an alternative: a(b|c) on
    "ba". *)
Definition exa_alt : fsm := fsm_cat (append_special fsm_new 97) (fsm_or (append_special fsm_new 98) (append_special fsm_new 99)).
Theorem C46_exchanged_refuted : exists f u w s, built f /\ plain f /\ accepts f u /\ edits true false 1 u w /\
  compile_approx exa_kind 4096 f 1 = Ok s /\ exa_tells s u = Ok true /\ exa_tells s w = Ok false.
Proof.
  assert (L : forall c, In c [97; 98; 99] -> letter c) by (intros c [<-|[<-|[<-|[]]]]; split; (reflexivity || discriminate)).
  assert (B : forall c, In c [97; 98; 99] -> built (append_special fsm_new c)) by (intros c Hc; apply built_append; auto using built_new; reflexivity).
  assert (Bf : built exa_alt) by (apply built_cat; [|apply built_or]; apply B; cbn; auto).
  exists exa_alt, [97; 98], [98; 97], (match compile_approx exa_kind 4096 exa_alt 1 with Ok s => s | _ => exa_none end).
  split; [exact Bf|]. split; [split; vm_compute; reflexivity|]. split; [|split].
  - assert (X : forall c, In c [97; 98; 99] -> accepts (append_special fsm_new c) [c]) by (intros c Hc; apply (accepts_word [c]); auto).
    apply (f_cat_complete _ _ [97] [98]); [apply B; cbn; auto|apply built_or; apply B; cbn; auto|apply X; cbn; auto| |discriminate].
    apply f_or; [apply B; cbn; auto|apply B; cbn; auto|]. left. apply X; cbn; auto.
  - apply e_swap; [reflexivity|apply e_nil].
  - split; [|split]; vm_compute; reflexivity.
Qed.
Print Assumptions C46_exchanged_refuted.

(** Constructing a scanner canonizes the automaton it is given (Fsm& fsm).  A second scanner
    with a distance from the same object throws. *)
Theorem C46_second_scanner_refuted : exists f g s, built f /\ plain f /\ canonize f 0 = Ok g /\ compile_approx exa_kind 4096 f 0 = Ok s /\
  compile_approx exa_kind 4096 g 1 = Throw ENoSuchLetter.
Proof.
  exists exa_ab, (match canonize exa_ab 0 with Ok g => g | _ => fsm_new end), (match compile_approx exa_kind 4096 exa_ab 0 with Ok s => s | _ => exa_none end).
  destruct C46_example as (B & P & _). split; [exact B|]. split; [exact P|]. split; [|split]; vm_compute; reflexivity.
Qed.
Print Assumptions C46_second_scanner_refuted.
