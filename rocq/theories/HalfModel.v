(** Model of half_final_fsm.h, half_final_fsm.cpp and scanners/half_final.h (no proofs).  Not
    modelled: MakeGreedyCounter and what only it uses (half_final_fsm.cpp:102-317), Save and
    Load of a State (half_final.h:95-112), and HalfFinalFsm::Compile (half_final_fsm.h:44-47),
    which returns nothing. *)
From Coq Require Import List Bool Arith NArith.
From Verif Require Import Util Spec PartitionModel FsmModel DetermineModel MinimizeModel RunModel ScannerModel ApproxModel.
Import ListNotations.
Local Open Scope N_scope.

(** ** HalfFinalFsm *)

(** fsm.h:146 SetTag *)
Definition set_fsm_tag (f : fsm) (q : nat) (t : N) : fsm := set_tags f (mset q t (tags f)).

(** half_final_fsm.cpp:18-36 AllowHalfFinals, after its first line (another Canonize) *)
Definition allow_half_finals (f : fsm) : bool :=
  forallb (fun q =>
    if is_final f q then
      forallb (fun '(c, _) =>
        let ds := destinations f q c in
        match ds with [] => true | _ => existsb (is_final f) ds end) (part_list (letters f))
    else true) (seq 0 (size f)).

(** half_final_fsm.cpp:47-62, one state *)
Definition redirect (newFinal : nat) (g : fsm) (q : nat) : fsm :=
  let ds := destinations g q EndMark in
  if existsb (is_final g) ds
  then connect (fold_left (fun g to => disconnect g q to EndMark) ds g) q newFinal EndMark
  else g.
(** half_final_fsm.cpp:38-66 MakeHalfFinal *)
Definition make_half_final (f : fsm) : fsm :=
  let f1 := unsparse f in
  let newFinal := size f1 in
  let f2 := resize_fsm f1 (newFinal + 1) in
  let f3 := fold_left (fun g c => if c =? Epsilon then g else connect g newFinal newFinal c) all_letters f2 in
  let f4 := fold_left (redirect newFinal) (seq 0 (size f3)) f3 in
  sparse (set_final (clear_final f4) newFinal true).

(** half_final_fsm.cpp:70-83, one state *)
Definition detach (intersects : bool) (g : fsm) (q : nat) : fsm :=
  let g1 := set_fsm_tag g q 0 in
  if is_final g1 q then
    let g2 := fold_left (fun g c => fold_left (fun g to => disconnect g q to c) (destinations g q c) g) all_letters g1 in
    if intersects then g2 else connect g2 q (initial g2) Epsilon
  else g1.
(** half_final_fsm.cpp:68-90 DisconnectFinals *)
Definition disconnect_finals (intersects : bool) (f : fsm) : res fsm :=
  let f1 := unsparse f in
  let f2 := fold_left (detach intersects) (seq 0 (size f1)) f1 in
  let f3 := if intersects then prepend_anything f2 else f2 in
  canonize (set_determined (sparse f3) false) 0.

(** half_final_fsm.cpp:8-16 MakeScanner; the second Canonize is that of AllowHalfFinals *)
Definition make_scanner (f : fsm) : res fsm :=
  let* f1 := canonize f 0 in
  let* f2 := canonize f1 0 in
  if allow_half_finals f2 then disconnect_finals true f2 else Ok (make_half_final f2).

(** half_final_fsm.cpp:92-100 MakeNonGreedyCounter *)
Definition make_non_greedy (intersects simplify : bool) (f : fsm) : res fsm :=
  let* f1 := canonize f 0 in
  let* f2 := remove_dead_ends (prepend_anything f1) in
  let* f3 := canonize f2 0 in
  if negb intersects || simplify then disconnect_finals intersects f3 else Ok f3.

(** half_final_fsm.cpp:319-328 GetCount *)
Definition get_count (f : fsm) (q : nat) : N :=
  if is_final f q then (if fsm_tag f q =? 0 then 1 else fsm_tag f q) else 0.
(** half_final_fsm.cpp:330-336 GetTotalCount *)
Definition get_total_count (f : fsm) : N := fold_left (fun n q => n + get_count f q) (seq 0 (size f)) 0.

(** ** HalfFinalScanner *)

(** half_final.h:39-47: the constructor from an automaton *)
Definition half_compile (k : kind) (buf : N) (f : fsm) (distance : nat) : res scanner :=
  let f0 := match distance with O => f | _ => create_approx f distance end in
  let* g := make_scanner f0 in
  let* s := init_scanner k buf (size g) (letters g) (length (finals g)) (initial g) 1 in
  build_scanner k g s.

(** half_final.h:210-221 BuildFinals: the table from the counts of the states *)
Fixpoint count_table (counts : list N) (pos : N) : list N * list N :=
  match counts with
  | [] => ([], [])
  | n :: cs =>
      let here := repeat 0 (N.to_nat n) ++ [End_mark] in
      let '(fin, idx) := count_table cs (pos + N.of_nat (length here)) in
      (here ++ fin, pos :: idx)
  end.
Definition build_finals (g : fsm) (s : scanner) : res scanner :=
  let '(fin, idx) := count_table (map (get_count g) (seq 0 (size g))) 0 in
  if N.of_nat (length fin) <=? s_fsize s then Ok (set_tables s (fin ++ skipn (length fin) (s_final s)) idx) else UB.
(** half_final.h:49-53: the constructor from a HalfFinalFsm *)
Definition half_compile_counter (k : kind) (buf : N) (g : fsm) : res scanner :=
  let* s := init_scanner k buf (size g) (letters g) (N.to_nat (get_total_count g)) (initial g) 1 in
  let* s1 := build_scanner k g s in
  build_finals g s1.

(** half_final.h:114-117: ScannerState and MatchedRegexps *)
Record hstate := mkH { h_state : N; h_matched : list N }.
(** half_final.h:154-163 TakeAction; the counters are size_t.  A regexp number outside the
    vector is undefined. *)
Definition bump (ms : list N) (i : N) : res (list N) :=
  if i <? N.of_nat (length ms) then Ok (upd (N.to_nat i) (fun x => (x + 1) mod two64) ms) else UB.
Definition h_take (k : kind) (s : scanner) (st : hstate) : res hstate :=
  let* fin := s_isfinal k s (h_state st) in
  if fin : bool then
    let* ids := s_accepted k s (h_state st) in
    let* ms := foldm bump ids (h_matched st) in
    Ok (mkH (h_state st) ms)
  else Ok st.
(** half_final.h:138-143 Initialize *)
Definition h_init (k : kind) (s : scanner) : res hstate :=
  h_take k s (mkH (s_initial s) (repeat 0 (N.to_nat (s_regexps s)))).
(** half_final.h:149-152 Next *)
Definition h_next (k : kind) (s : scanner) (st : hstate) (c : N) : res hstate :=
  let* a := s_next k s (h_state st) c in Ok (mkH a (h_matched st)).
(** run.h:47-57 Step: Next, then TakeAction *)
Definition h_step (k : kind) (s : scanner) (st : hstate) (c : N) : res hstate :=
  let* st1 := h_next k s st c in h_take k s st1.
(** What run.h needs; [st0] is an initialised state.  The template AlignedRunner is
    specialised for Scanner only (multi.h:911-912), so a HalfFinalScanner is run by the
    generic one (run.h:153-184).  Final and Dead: half_final.h:123-128. *)
Definition half_ops (k : kind) (s : scanner) (st0 : hstate) : ops hstate :=
  mkOps st0 (h_step k s) (h_next k s) (fun st => s_isfinal k s (h_state st)) (fun st => s_isdead k s (h_state st)).
(** half_final.h:91-93 Result *)
Definition h_result (st : hstate) (i : N) : res N :=
  match nth_error (h_matched st) (N.to_nat i) with Some n => Ok n | None => UB end.
(** half_final.h:66-73, 132-135 AcceptedRegexps: the numbers with a nonzero counter *)
Definition h_accepted (st : hstate) : list N :=
  filter (fun i => negb (nth (N.to_nat i) (h_matched st) 0 =? 0)) (map N.of_nat (seq 0 (length (h_matched st)))).
