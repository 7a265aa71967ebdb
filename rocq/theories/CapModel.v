(** Model of SlowCapturingScanner (extra/capture.h) and of the marks the capture feature
    puts into an automaton (extra/capture.cpp); no proofs. *)
From Coq Require Import List Bool Arith NArith.
From Verif Require Import Util Spec PartitionModel FsmModel DetermineModel ScannerModel SimpleModel.
Import ListNotations.
Local Open Scope N_scope.

(** ** Building *)

(** capture.h:172-180 *)
Definition BeginCapture : N := 1.
Definition EndCapture : N := 2.
Definition EndRepetition : N := 4.
Definition EndNonGreedyRepetition : N := 8.

(** fsm.h:149 SetOutput *)
Definition set_output (f : fsm) (p q : nat) (o : N) : fsm :=
  set_outputs f (mset p (mset q o (match mfind p (outputs f) with Some m => m | None => [] end)) (outputs f)).

(** capture.cpp:110-125 SetCaptureMark.  Simplification: the loop over all states that
    tests IsFinal is a loop over the set of final states. *)
Definition capture_mark (f : fsm) : fsm :=
  let f1 := resize_fsm f (size f + 2) in
  let s := size f1 in
  let f2 := connect f1 (s - 2) (initial f1) Epsilon in
  let f3 := connect_final f2 (s - 1) Epsilon in
  let f4 := set_output f3 (s - 2) (initial f3) BeginCapture in
  let f5 := fold_left (fun g q => set_output g q (s - 1) EndCapture) (finals f4) f4 in
  let f6 := set_final (clear_final (set_initial f5 (s - 2))) (s - 1) true in
  set_determined f6 false.

(** capture.cpp:94-108 SetRepetitionMark, with the same simplification *)
Definition repetition_mark (f : fsm) (greedy : bool) : fsm :=
  let f1 := resize_fsm f (size f + 1) in
  let s := size f1 in
  let f2 := connect_final f1 (s - 1) Epsilon in
  let f3 := fold_left (fun g q => set_output g q (s - 1) (if greedy then EndRepetition else EndNonGreedyRepetition)) (finals f2) f2 in
  let f4 := set_final (clear_final f3) (s - 1) true in
  set_determined f4 false.

(** fsm.cpp:839-848 with needEpsilons = true *)
Definition sparse_eps (f : fsm) : fsm :=
  let p := fold_left (fun p c => part_append (letters_equal (trans f)) c p) all_letters part_empty in
  set_sparsed (set_letters f p) true.

(** slow.h:341-357 with need_actions; m_vec and m_actionsvec, which always have the same
    shape, are one table of pairs.  Simplification: only scanners in memory are modelled,
    not those that Mmap or Load made. *)
Record cap := mkCap { k_states : N; k_lcount : N; k_start : N; k_letters : list N; k_finals : list bool; k_jumps : list (list (N * N)) }.

(** slow.h:387-397 SetJump; state numbers and actions have 32 bits *)
Definition cap_set_jump (lcount : N) (letters : list N) (v : list (list (N * N))) (from : nat) (c : N) (to : nat) (a : N) : res (list (list (N * N))) :=
  match nth_error letters (N.to_nat c) with
  | Some l =>
      let i := N.to_nat (N.of_nat from * lcount + l) in
      if (i <? length v)%nat then Ok (upd i (fun d => d ++ [(N.of_nat to mod two32, a mod two32)]) v) else UB
  | None => UB
  end.

(** capture.h:577-580 and slow.h:252-283 with needActions = true, removeEpsilons = false and
    distance = 0, and fsm.h:251-271 BuildScanner with DeadFlag = 0, FinalFlag = 1 *)
Definition cap_compile (f : fsm) : res cap :=
  let g := sparse_eps f in
  let n := size g in
  let lc := N.of_nat (part_size (letters g)) in
  let ls := slow_letters (letters g) in
  let* v := foldm (fun v from =>
      foldm (fun v '(c, _) => foldm (fun v to => cap_set_jump lc ls v from c to (output g from to)) (destinations g from c) v)
      (part_list (letters g)) v) (seq 0 n) (repeat [] (n * N.to_nat lc)) in
  Ok (mkCap (N.of_nat n) lc (N.of_nat (initial g)) ls
        (map (fun q => negb (N.eqb (N.land (N.lor (fsm_tag g q) (if is_final g q then 1 else 0)) 1) 0)) (seq 0 n)) v).

(** ** Running *)

(** capture.h:184-250 SingleState; [npos] is 2^64 - 1 *)
Record single := mkSingle { g_num : N; g_begin : N; g_end : N }.
Definition npos : N := 18446744073709551615.
(** capture.h:186-199 *)
Definition has_begin (st : single) : bool := negb (g_begin st =? npos).
Definition has_end (st : single) : bool := negb (g_end st =? npos).
Definition g_captured (st : single) : bool := has_begin st && has_end st.
(** capture.h:201-206 *)
Definition single_new (q : N) : single := mkSingle q npos npos.
(** capture.h:208-212, 214-218 *)
Definition set_begin (st : single) (pos : N) : single := if g_begin st =? npos then mkSingle (g_num st) pos (g_end st) else st.
Definition set_end (st : single) (pos : N) : single := if g_end st =? npos then mkSingle (g_num st) (g_begin st) pos else st.

(** capture.h:252-314 State; [cs_match] is m_matched and m_match *)
Record cstate := mkState { cs_states : list single; cs_pos : N; cs_match : option single }.
Definition cstate_new : cstate := mkState [] 0 None.

(** capture.h:339-373 PriorityStates *)
Record prio := mkPrio { pr_non : list single; pr_none : list single; pr_greedy : list single }.
Definition prio_new : prio := mkPrio [] [] [].

(** slow.h:98-101 Translate *)
Definition cap_translate (s : cap) (c : N) : res N :=
  match nth_error (k_letters s) (N.to_nat c) with Some l => Ok l | None => UB end.
(** slow.h:334-337 IsFinal(size_t) *)
Definition cap_is_final (s : cap) (q : N) : res bool :=
  match nth_error (k_finals s) (N.to_nat q) with Some b => Ok b | None => UB end.

(** capture.h:385-405 GetPosition, NextStates *)
Definition cap_next_states (s : cap) (q l : N) : res (list (N * N)) :=
  match nth_error (k_jumps s) (N.to_nat (q * k_lcount s + l)) with Some d => Ok d | None => UB end.

(** capture.h:426-435: the state a transition leads to *)
Definition cap_move (cur : single) (to a pos : N) : single :=
  let st := set_end (set_begin (single_new to) (g_begin cur)) (g_end cur) in
  let st := if negb (N.land a BeginCapture =? 0) && negb (has_begin cur) then set_begin st pos else st in
  if negb (N.land a EndCapture =? 0) && negb (has_end cur) then set_end st pos else st.

(** capture.h:407-414 InsertStates, as called on 439-448 *)
Definition cap_insert (a : N) (acc inside : prio) : prio :=
  if negb (N.land a EndNonGreedyRepetition =? 0) then
    mkPrio (pr_non acc ++ pr_non inside ++ pr_none inside ++ pr_greedy inside) (pr_none acc) (pr_greedy acc)
  else if N.land a EndRepetition =? 0 then
    mkPrio (pr_non acc ++ pr_non inside) (pr_none acc ++ pr_none inside) (pr_greedy acc ++ pr_greedy inside)
  else
    mkPrio (pr_non acc) (pr_none acc) (pr_greedy acc ++ pr_non inside ++ pr_none inside ++ pr_greedy inside).

(** capture.h:416-450 NextAndGetToGroups.  [used] is the vector of flags, threaded through
    the recursion; each nested call marks a state first, so the recursion is at most
    as deep as there are states, which is the fuel. *)
Fixpoint to_groups (fuel : nat) (s : cap) (cur : single) (l pos : N) (used : list bool) (acc : prio) : res (prio * list bool) :=
  match fuel with
  | O => OutOfFuel
  | S fuel' =>
      let* ts := cap_next_states s (g_num cur) l in
      foldm (fun '(acc, used) '(to, a) =>
        match nth_error used (N.to_nat to) with
        | None => UB
        | Some true => Ok (acc, used)
        | Some false =>
            let used1 := upd (N.to_nat to) (fun _ => true) used in
            let st := cap_move cur to a pos in
            let* le := cap_translate s Epsilon in
            let* (inside, used2) := to_groups fuel' s st le pos used1 prio_new in
            Ok (cap_insert a acc (mkPrio (pr_non inside) (pr_none inside ++ [st]) (pr_greedy inside)), used2)
        end) ts (acc, used)
  end.
Definition groups_fuel (s : cap) : nat := S (N.to_nat (k_states s)).

(** capture.h:470-480: the transitions by epsilon after a transition by EndMark; stops
    when [now] makes the caller return *)
Fixpoint cap_after (s : cap) (now : bool) (ts : list (N * N)) (matched : bool) : res (bool * bool) :=
  match ts with
  | [] => Ok (false, matched)
  | (fin, _) :: ts' =>
      let* b := cap_is_final s fin in
      if b then (if now then Ok (true, true) else cap_after s now ts' true) else cap_after s now ts' matched
  end.
(** capture.h:460-482: the transitions by EndMark *)
Fixpoint cap_end (s : cap) (hb : bool) (ts : list (N * N)) (matched : bool) : res (bool * bool) :=
  match ts with
  | [] => Ok (false, matched)
  | (q, a) :: ts' =>
      let now := hb || negb (N.land a (N.lor BeginCapture EndCapture) =? 0) in
      let* b := cap_is_final s q in
      if b then (if now then Ok (true, true) else cap_end s hb ts' true)
      else
        let* le := cap_translate s Epsilon in
        let* es := cap_next_states s q le in
        let* (r, m) := cap_after s now es matched in
        if (r : bool) then Ok (true, m) else cap_end s hb ts' m
  end.
(** capture.h:452-484 Captured: the value returned, and [matched] *)
Definition captured (s : cap) (st : single) : res (bool * bool) :=
  let* b := cap_is_final s (g_num st) in
  if b && has_begin st then Ok (true, true)
  else
    let* le := cap_translate s EndMark in
    let* ts := cap_next_states s (g_num st) le in
    cap_end s (has_begin st) ts b.
(** capture.h:486-491 Matched *)
Definition cap_matched (s : cap) (st : single) : res bool := let* (_, m) := captured s st in Ok m.

(** capture.h:495-501: the loop of GetCapture *)
Fixpoint first_matched (s : cap) (l : list single) : res (option (bool * single)) :=
  match l with
  | [] => Ok None
  | st :: l' => let* (ans, m) := captured s st in if (m : bool) then Ok (Some (ans, st)) else first_matched s l'
  end.
(** capture.h:493-512 GetCapture: the value returned, and what is written to [final] if
    anything is *)
Definition get_capture (s : cap) (st : cstate) : res (bool * option single) :=
  let* r := first_matched s (cs_states st) in
  match r with
  | Some (ans, fin) => Ok (ans, Some fin)
  | None => match cs_match st with Some fin => Ok (true, Some fin) | None => Ok (false, None) end
  end.

(** capture.h:514-522 PushState and 524-533 UpdateNList for the states of all groups in
    the order of their priorities *)
Fixpoint push_states (s : cap) (l : list single) (nl : cstate) : res cstate :=
  match l with
  | [] => Ok nl
  | st :: l' =>
      let* m := cap_matched s st in
      if (m : bool) then Ok (mkState (cs_states nl ++ [st]) (cs_pos nl) (Some st))
      else push_states s l' (mkState (cs_states nl ++ [st]) (cs_pos nl) (cs_match nl))
  end.
Definition update_nlist (s : cap) (nl : cstate) (p : prio) : res cstate :=
  push_states s (pr_non p ++ pr_none p ++ pr_greedy p) nl.

(** capture.h:535-543 Initialize of a new State *)
Definition cap_initialize (s : cap) : res cstate :=
  let used := repeat false (N.to_nat (k_states s)) in
  let* lb := cap_translate s BeginMark in
  let* (p1, used1) := to_groups (groups_fuel s) s (single_new (k_start s)) lb 0 used prio_new in
  let* (p2, _) := to_groups (groups_fuel s) s (single_new 0) lb 0 used1 p1 in
  update_nlist s cstate_new p2.

(** capture.h:545-562 NextTranslated; positions are size_t *)
Definition cap_next_translated (s : cap) (cl : cstate) (l : N) : res cstate :=
  let pos := (cs_pos cl + 1) mod two64 in
  let* (nl, _) := foldm (fun '(nl, used) st =>
      let* (p, used1) := to_groups (groups_fuel s) s st l pos used prio_new in
      let* nl1 := update_nlist s nl p in
      Ok (nl1, used1))
    (cs_states cl) (mkState [] pos (cs_match cl), repeat false (N.to_nat (k_states s))) in
  Ok nl.
(** capture.h:566-569 Next *)
Definition cap_next (s : cap) (cl : cstate) (c : N) : res cstate :=
  let* l := cap_translate s c in cap_next_translated s cl l.

(** run.h:48-58 Step over the letters of a text, after Initialize *)
Definition cap_run (s : cap) (w : list N) : res cstate :=
  let* st := cap_initialize s in foldm (cap_next s) w st.
