(** Model of the constructor of AdvancedCountingScanner and NoGlueLimitCountingScanner:
    CountingFsm and its tasks in extra/count.cpp (no proofs). *)
From Coq Require Import List Bool Arith NArith.
From Verif Require Import Util Spec PartitionModel FsmModel DetermineModel MinimizeModel ScannerModel CountModel.
Import ListNotations.
Set Implicit Arguments.
Local Open Scope N_scope.

(** count.h:121-123 *)
Definition IncrementAction : N := 1.
Definition ResetAction : N := 2.
(** count.cpp:47-51 *)
Definition NotMatched : N := 1.
Definition Matched : N := 2.
Definition Separated : N := 4.

(** ** The automaton *)

(** fsm.h:146 SetTag *)
Definition set_tag (f : fsm) (q : nat) (t : N) : fsm := set_tags f (mset q t (tags f)).
(** count.cpp:60-62: all states of the separator are tagged *)
Definition tag_all (t : N) (f : fsm) : fsm := fold_left (fun g q => set_tag g q t) (seq 0 (size f)) f.
(** count.cpp:53-76 the constructor of CountingFsm; mReInitial is the initial state of the
    second component *)
Definition counting_nfa (re sep : fsm) : res (fsm * nat) :=
  let* a := canonize re 0 in
  let* b := canonize sep 0 in
  let f1 := fsm_cat a (tag_all Separated b) in
  let f2 := fold_left (fun g q =>
      let g1 := set_tag g q Matched in
      if is_final b (initial b) then set_final g1 q true else g1) (finals a) f1 in
  Ok (remove_epsilons (prepend_anything f2), initial f1).

(** ** Determined states *)

(** count.cpp:262-264 *)
Definition tstate : Type := nat * N.
Definition group : Type := list tstate.
(** count.cpp:266-280 *)
Record dstate := mkD { g_matched : group; g_unmatched : group; g_separated : group; g_lagging : group }.
Definition is_nil {A} (l : list A) : bool := match l with [] => true | _ => false end.
Definition group_eqb (x y : group) : bool := seqb x y.
Definition dstate_eqb (x y : dstate) : bool :=
  group_eqb (g_matched x) (g_matched y) && group_eqb (g_unmatched x) (g_unmatched y) &&
  group_eqb (g_separated x) (g_separated y) && group_eqb (g_lagging x) (g_lagging y).
Definition has_tag (p : N -> bool) (g : group) : bool := existsb (fun x => p (snd x)) g.

(** count.cpp:282-289 InvalidCharRange *)
Definition invalid_range (cs : list N) : bool := forallb (fun c => negb ((c <? 260) && negb (c =? 256))) cs.

(** Which of the three groups a state goes to *)
Inductive kind := KM | KU | KS.
Definition kind_eqb (a b : kind) : bool := match a, b with KM, KM | KU, KU | KS, KS => true | _, _ => false end.

Section Task.
  Variable f : fsm.
  Variable reInitial : nat.
  (** count.cpp:301 *)
  Variable dead : list nat.

  (** count.cpp:505-518 MakeTaggedStates for one destination *)
  Definition tagged (tag : N) (q : nat) : kind * tstate :=
    let dt := fsm_tag f q in
    if negb (tag =? Matched) && (dt =? Matched) then (KM, (q, dt))
    else if (tag =? Separated) || (dt =? Separated) then (KS, (q, Separated))
    else (KU, (q, tag)).
  (** count.cpp:505-518 MakeTaggedStates: where each destination goes *)
  Definition make_tagged (dests : list nat) (tag : N) : list (kind * tstate) :=
    map (tagged tag) (filter (fun q => negb (smem q dead)) dests).
  (** count.cpp:355-363 SplitDestinations *)
  Definition split_destinations (src : group) (c : N) : list (kind * tstate) :=
    flat_map (fun st => make_tagged (destinations f (fst st) c) (snd st) ++
      (if is_final f (fst st) then map (fun x => (KS, snd x)) (make_tagged (destinations f reInitial c) Separated) else [])) src.
  (** Inserting what goes to group k *)
  Definition into (k : kind) (items : list (kind * tstate)) (g : group) : group :=
    fold_left (fun g x => if kind_eqb k (fst x) then sadd (snd x) g else g) items g.
  (** The three groups being one and the same *)
  Definition into_all (items : list (kind * tstate)) (g : group) : group := fold_left (fun g x => sadd (snd x) g) items g.

  (** count.cpp:365-386 CalculateTransitionTagImpl *)
  Definition transition_tag (dest : dstate) : N :=
    if negb (is_nil (g_matched dest)) then IncrementAction
    else if is_nil (g_unmatched dest) then
      if negb (is_nil (g_separated dest)) then (if has_tag (fun t => t =? Matched) (g_separated dest) then IncrementAction else 0)
      else N.lor ResetAction (if has_tag (fun t => negb (t =? NotMatched)) (g_lagging dest) then IncrementAction else 0)
    else 0.
  (** count.cpp:388-394 TagsOfGroup *)
  Definition tags_of_group (g : group) : N := fold_left (fun r x => N.lor r (snd x)) g 0.
  (** count.cpp:396-407 SplitGroupByTag *)
  Definition by_tag (useFsmTag : bool) (x : tstate) : kind * tstate :=
    let t := if useFsmTag then fsm_tag f (fst x) else snd x in
    (if t =? Matched then KM else if t =? Separated then KS else KU, x).
  (** count.cpp:409-432 UpdateLaggingStates *)
  Definition update_lagging (move : bool) (d : dstate) : dstate :=
    let d1 :=
      if is_nil (g_matched d) then d
      else mkD (g_matched d) [] []
        (if move then sunion (sunion (g_lagging d) (g_unmatched d)) (g_separated d) else g_lagging d) in
    if is_nil (g_unmatched d1) && negb (is_nil (g_separated d1)) then
      let t := tags_of_group (g_separated d1) in
      if negb (N.land t Matched =? 0) && negb (t =? Matched) then
        mkD (g_matched d1) (g_unmatched d1) (filter (fun x => snd x =? Matched) (g_separated d1))
          (if move then sunion (g_lagging d1) (filter (fun x => negb (snd x =? Matched)) (g_separated d1)) else g_lagging d1)
      else d1
    else d1.
  (** count.cpp:529-539 GetRawStates *)
  Definition raw_states (groups : list group) (excluded : N) : list nat :=
    fold_left (fun s g => fold_left (fun s x => if N.land (snd x) excluded =? 0 then sadd (fst x) s else s) g s) groups [].
  (** count.cpp:434-447 RemoveDuplicateLaggingStates *)
  Definition remove_dup_lagging (d : dstate) : dstate :=
    let rm := raw_states [g_matched d; g_unmatched d; g_separated d] 0 in
    let um := raw_states [g_lagging d] NotMatched in
    mkD (g_matched d) (g_unmatched d) (g_separated d)
      (filter (fun x => negb (smem (fst x) rm) && (negb (snd x =? NotMatched) || negb (smem (fst x) um))) (g_lagging d)).
  (** count.cpp:449-455, 541-551 RemoveDuplicateSeparatedStates and RemoveRawStates *)
  Definition remove_dup_separated (d : dstate) : dstate :=
    let rm := raw_states [g_matched d; g_unmatched d] 0 in
    mkD (g_matched d) (g_unmatched d) (filter (fun x => negb (smem (fst x) rm)) (g_separated d)) (g_lagging d).
  (** count.cpp:457-482 NormalizeState *)
  Definition normalize (d : dstate) : dstate :=
    let d1 := if is_nil (g_matched d) then d else mkD (g_unmatched d) (g_matched d) (g_separated d) (g_lagging d) in
    let d2 := if is_nil (g_unmatched d1) && negb (is_nil (g_separated d1))
              then mkD (g_matched d1) (g_separated d1) (g_unmatched d1) (g_lagging d1) else d1 in
    if is_nil (g_unmatched d2) && negb (is_nil (g_lagging d2)) then
      let items := map (by_tag false) (g_lagging d2) in
      let m := into KM items [] in
      let u := into KU items [] in
      let s := into KS items [] in
      if negb (is_nil m) then mkD (g_matched d2) m s u
      else if negb (is_nil s) then mkD (g_matched d2) s (g_separated d2) u
      else mkD (g_matched d2) u (g_separated d2) m
    else d2.

  (** count.cpp:573-579 PrepareNextState of CountingFsmDetermineTask *)
  Definition full_prepare (st : dstate) (c : N) : dstate :=
    let items := split_destinations (g_unmatched st) c in
    mkD (into KM items []) (into KU items [])
      (into_all (split_destinations (g_separated st) c) (into KS items []))
      (into_all (split_destinations (g_lagging st) c) []).
  (** count.cpp:581-585 PostProcessNextState *)
  Definition full_post (d : dstate) : dstate := remove_dup_separated (remove_dup_lagging (update_lagging true d)).

  (** count.cpp:663-669 IsEmptyState *)
  Definition empty_state (d : dstate) : bool :=
    is_nil (g_matched d) && is_nil (g_unmatched d) && is_nil (g_separated d) && is_nil (g_lagging d).
  (** count.cpp:598, 705 mStartState *)
  Definition start_state : tstate := (reInitial, NotMatched).
  (** count.cpp:671-676 SplitSeparatedByFsmTag *)
  Definition split_separated (d : dstate) : dstate :=
    let items := map (by_tag true) (g_separated d) in
    mkD (into KM items (g_matched d)) (into KU items (g_unmatched d)) (into KS items []) (g_lagging d).
  (** count.cpp:678-688 ChooseOneDestState *)
  Definition choose_dest (dest src : group) (c : N) : group :=
    let items := split_destinations src c in
    if negb (is_nil (into KM items [])) then into KM items []
    else if negb (is_nil (into KS items [])) then into KS items []
    else if negb (is_nil (into KU items [])) then into KU items [] else dest.
  (** count.cpp:690-702 ChooseOneSeparatedState *)
  Definition choose_separated (d : dstate) : dstate :=
    if (length (g_separated d) <=? 1)%nat then d
    else
      let d1 := remove_dup_separated d in
      let items := map (by_tag true) (g_separated d1) in
      if negb (is_nil (into KS items [])) then mkD (g_matched d1) (g_unmatched d1) (into KS items []) (g_lagging d1)
      else if negb (is_nil (into KM items [])) then mkD (g_matched d1) (g_unmatched d1) (into KM items []) (g_lagging d1)
      else d1.
  (** count.cpp:602-641 PrepareNextState of SimpleCountingFsmDetermineTask; its Y_ASSERTs are
      taken as disabled *)
  Definition simple_prepare (st : dstate) (c : N) : dstate :=
    let emp := empty_state st in
    let from_u := if emp then sadd start_state (g_unmatched st) else g_unmatched st in
    let items := split_destinations from_u c in
    let n0 := mkD (into KM items []) (into KU items []) (into KS items []) [] in
    let n1 :=
      if is_nil (g_matched n0) && negb (is_nil (g_separated n0)) then
        if is_nil (g_unmatched n0) then
          let a := split_separated n0 in
          let b := if (1 <? length (g_separated a))%nat then remove_dup_separated a else a in
          if is_nil (g_unmatched b) then mkD (g_matched b) (g_separated b) (g_unmatched b) (g_lagging b) else b
        else choose_separated n0
      else n0 in
    let n2 :=
      if is_nil (g_matched n1) && is_nil (g_separated n1) && negb (is_nil (g_separated st)) then
        choose_separated
          (if negb (is_nil (g_unmatched n1)) then
             mkD (g_matched n1) (g_unmatched n1) (choose_dest (g_separated n1) (g_separated st) c) (g_lagging n1)
           else
             let its := split_destinations (g_separated st) c in
             let a := mkD (into KM its (g_matched n1)) (into KU its (g_unmatched n1)) (into KS its (g_separated n1)) (g_lagging n1) in
             if is_nil (g_matched a) && negb (is_nil (g_separated a)) then split_separated a else a)
      else n1 in
    if negb emp && empty_state n2 then
      mkD (g_matched n2) (g_unmatched n2) (g_separated n2) (choose_dest (g_lagging n2) [start_state] c)
    else n2.
  (** count.cpp:643-649 PostProcessNextState *)
  Definition simple_post (d : dstate) : dstate :=
    let d1 := if is_nil (g_lagging d) then d else mkD (g_matched d) (g_lagging d) (g_separated d) (g_unmatched d) in
    remove_dup_separated (update_lagging false d1).
  (** count.cpp:651-657 CalculateTransitionTag *)
  Definition simple_tag (source dest : dstate) : N :=
    let tag := transition_tag dest in
    if N.land (N.lor (tags_of_group (g_unmatched source)) (tags_of_group (g_separated source))) (N.lor Separated Matched) =? 0
    then N.land tag IncrementAction else tag.

  (** count.cpp:312-315, 493-495, 659-661 Initial *)
  Definition d_init (simple : bool) : dstate := mkD [] (if simple then [] else [(initial f, NotMatched)]) [] [].
  (** The members of the class a letter represents *)
  Definition class_of (c : N) : list N := match mfind c (pset (letters f)) with Some (_, ms) => ms | None => [] end.
  (** count.cpp:321-333 Next: the state and the action, which is recorded under the state and
      the letter (count.cpp:497-503) *)
  Definition d_step (simple : bool) (st : dstate) (c : N) : dstate * N :=
    if invalid_range (class_of c) then (d_init simple, NotMatched)
    else
      let next := if simple then simple_prepare st c else full_prepare st c in
      (normalize (if simple then simple_post next else full_post next),
       if simple then simple_tag st next else transition_tag next).
End Task.

(** ** The determined automaton *)

(** count.cpp:109-110: mDetermined and mActions.  Both are only ever read at representatives of
    letter classes, so they are tables indexed by state and number of the class; finality
    (count.cpp:344, 241-243) is not read at all.  No action is action 0 (count.cpp:86-94). *)
Record cfsm := mkCF { cf_rows : list (list nat); cf_acts : list (list N); cf_init : nat }.
Definition cf_size (t : cfsm) : nat := length (cf_rows t).
Definition cf_next (t : cfsm) (q l : nat) : nat := nth l (nth q (cf_rows t) []) 0%nat.
Definition cf_act (t : cfsm) (q l : nat) : N := nth l (nth q (cf_acts t) []) 0.

(** count.cpp:335-352 and 708-724 (for one task), determine.h:91-137 *)
Definition cf_determine (f : fsm) (reInitial : nat) (dead : list nat) (simple : bool) (maxSize : N) : res (option cfsm) :=
  let ls := part_list (letters f) in
  match det_run dstate_eqb (d_init f simple) (fun st c => fst (d_step f reInitial dead simple st c)) (fun _ => true) ls maxSize with
  | DetFuel => OutOfFuel
  | DetFail => Ok None
  | DetOk states tr =>
      Ok (Some (mkCF (map snd tr)
        (map (fun st => map (fun c => snd (d_step f reInitial dead simple st c)) (invletters ls)) states) 0%nat))
  end.
(** count.cpp:708-724 Determine; the second component tells mSimple *)
Definition counting_determine (f : fsm) (reInitial : nat) (dead : list nat) : res (cfsm * bool) :=
  let* r := cf_determine f reInitial dead false (N.of_nat (size f) * 4096) in
  match r with
  | Some t => Ok (t, false)
  | None =>
      let* r2 := cf_determine f reInitial dead true (two64 - 1) in
      match r2 with Some t => Ok (t, true) | None => Throw ETooComplicated end
  end.

(** count.cpp:153-169, 180-185: initial classes by actions, numbered in order of appearance *)
Definition acts_eqb (x y : list N) : bool := seqb x y.
Definition act_rows (t : cfsm) : list (list N) :=
  fold_left (fun l r => match index_of acts_eqb r l with Some _ => l | None => l ++ [r] end) (cf_acts t) [].
Definition act_class (t : cfsm) (q : nat) : nat :=
  match index_of acts_eqb (nth q (cf_acts t) []) (act_rows t) with Some i => i | None => 0%nat end.
(** count.cpp:189-199: the states a letter leads to a state from *)
Definition cf_prev (t : cfsm) (s l : nat) : list nat := filter (fun q => Nat.eqb (cf_next t q l) s) (seq 0 (cf_size t)).
(** count.cpp:222-247 AcceptStates.  The destinations of a class are a set, whose smallest
    element is used (count.cpp:856-858; undefined if there is none). *)
Definition cf_dests (t : cfsm) (cls : nat -> nat) (k l : nat) : list nat :=
  fold_left (fun s q => if Nat.eqb (cls q) k then sadd (cls (cf_next t q l)) s else s) (seq 0 (cf_size t)) [].
Definition cf_merged (t : cfsm) (cls : nat -> nat) (k l : nat) : N :=
  fold_left (fun a q => if Nat.eqb (cls q) k && negb (cf_act t q l =? 0) then cf_act t q l else a) (seq 0 (cf_size t)) 0.
Definition all_ok {A} (l : list (res A)) : res (list A) :=
  fold_right (fun x acc => let* a := x in let* b := acc in Ok (a :: b)) (Ok []) l.
Definition cf_accept (t : cfsm) (nl : nat) (cls : nat -> nat) (classes : nat) : res cfsm :=
  let* rows := all_ok (map (fun k => all_ok (map (fun l =>
      match cf_dests t cls k l with [] => UB | d :: _ => Ok d end) (seq 0 nl))) (seq 0 classes)) in
  Ok (mkCF rows (map (fun k => map (cf_merged t cls k) (seq 0 nl)) (seq 0 classes)) (cls (cf_init t))).
(** count.cpp:726-730 Minimize, minimize.h:60-145 *)
Definition cf_minimize (t : cfsm) (nl : nat) : res cfsm :=
  let* m := min_run (cf_size t) nl (cf_prev t) (act_class t) (length (act_rows t)) in
  cf_accept t nl (m_class m) (m_count m).

(** ** The scanner *)

(** count.h:298-308 RemapAction of AdvancedCountingScanner *)
Definition advanced_remap (a : N) : N :=
  N.lor (if N.land a ResetAction =? 0 then 0 else 65536) (if N.land a IncrementAction =? 0 then 0 else 1).
(** count.cpp:853-860: the table *)
Definition adv_fill (remap : N -> N) (p : partition) (t : cfsm) (s : loaded) : res loaded :=
  foldm (fun s from =>
      foldm (fun s '(c, l) => set_djump s from c (cf_next t from l) (remap (cf_act t from l))) (part_list p) s)
    (seq 0 (cf_size t)) s.
(** count.cpp:837-862 MakeAdvancedCountingScanner; the scanner is built at [buf].  The second
    component is what [simple] points to. *)
Definition make_advanced (remap : N -> N) (buf : N) (re sep : fsm) : res (loaded * bool) :=
  let* (f, r0) := counting_nfa re sep in
  let* dead := dead_states f in
  let* (t, simple) := counting_determine f r0 dead in
  let* t1 := cf_minimize t (part_size (letters f)) in
  let* s := init_loaded buf (cf_size t1) (letters f) (cf_init t1) 1 in
  let* s1 := adv_fill remap (letters f) t1 s in
  Ok (s1, simple).
(** count.cpp:865-868 *)
Definition advanced_scanner (buf : N) (re sep : fsm) : res (loaded * bool) := make_advanced advanced_remap buf re sep.
