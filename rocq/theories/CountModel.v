(** Model of scanners/loaded.h and of the counting scanners of extra/count.h and
    extra/count.cpp (no proofs). *)
From Coq Require Import List Bool Arith NArith.
From Verif Require Import Util Spec PartitionModel FsmModel DetermineModel MinimizeModel RunModel ScannerModel GlueModel.
Import ListNotations.
Set Implicit Arguments.
Local Open Scope N_scope.

(** ** LoadedScanner *)

(** loaded.h:229-241.  [d_jumps] is the table of (shift, action), row after row (60-66).
    [d_buf] is the address of the buffer; [d_owned]: m_buffer is not null; [d_null]: the
    pointers are those of Null(), which is what Empty() tests (115; the buffers of other
    scanners are at other addresses). *)
Record loaded := mkLoaded {
  d_states : N;
  d_nletters : N;
  d_regexps : N;
  d_initial : N;
  d_buf : N;
  d_letters : list N;
  d_jumps : list (N * N);
  d_tags : list N;
  d_owned : bool;
  d_null : bool
}.
Definition set_jumps s x := mkLoaded (d_states s) (d_nletters s) (d_regexps s) (d_initial s) (d_buf s)
  (d_letters s) x (d_tags s) (d_owned s) (d_null s).
Definition set_dtags s x := mkLoaded (d_states s) (d_nletters s) (d_regexps s) (d_initial s) (d_buf s)
  (d_letters s) (d_jumps s) x (d_owned s) (d_null s).

(** loaded.h:74, 224-225 *)
Definition MAX_RE_COUNT : N := 16.
Definition IncrementMask : N := 65535.
Definition ResetMask : N := 4294901760.

(** loaded.h:267-272 Markup: the address of the jumps *)
Definition d_base (s : loaded) : N := d_buf s + MaxChar.
(** loaded.h:177-180 StateSize *)
Definition state_size (s : loaded) : N := d_nletters s * 8.
(** loaded.h:168, 202: m_jumps + state * m.lettersCount *)
Definition d_state (s : loaded) (i : N) : N := d_base s + i * state_size s.
(** loaded.h:206-209 StateIdx *)
Definition state_idx (s : loaded) (a : N) : N := (a - d_base s) / 8 / d_nletters s.
(** loaded.h:117 RegexpsCount *)
Definition d_count (s : loaded) : N := if d_null s then 0 else d_regexps s.

(** loaded.h:171-174: letters are stored in 8 bits *)
Definition fill_bytes (p : partition) : list N :=
  fold_left (fun acc '(_, (idx, ms)) =>
      fold_left (fun a c => upd (N.to_nat c) (fun _ => N.of_nat idx mod 256) a) ms acc)
    (pset p) (repeat 0 (N.to_nat MaxChar)).
(** loaded.h:158-175 Init; [buf] is where the buffer is allocated.  The counters are 32-bit
    (229-234): more states than that make the code write outside the buffer. *)
Definition init_loaded (buf : N) (states : nat) (p : partition) (start : nat) (regexps : N) : res loaded :=
  if two32 <=? N.of_nat states then UB else
  let s := mkLoaded (N.of_nat states) (N.of_nat (part_size p)) (regexps mod two32) 0 buf
    (fill_bytes p) (repeat (0, 0) (states * part_size p)) (repeat 0 states) true false in
  Ok (mkLoaded (d_states s) (d_nletters s) (d_regexps s) (d_state s (N.of_nat start)) buf
    (d_letters s) (d_jumps s) (d_tags s) true false).
(** loaded.h:182-185 TransitionIndex *)
Definition transition_index (s : loaded) (state c : N) : N := state * d_nletters s + nth (N.to_nat c) (d_letters s) 0.
(** loaded.h:187-198 SetJump *)
Definition set_djump (s : loaded) (from : nat) (c : N) (to : nat) (action : N) : res loaded :=
  let i := transition_index s (N.of_nat from) c in
  if i <? N.of_nat (length (d_jumps s)) then
    let shift := ((N.of_nat to + two64 - N.of_nat from) mod two64 * state_size s) mod two64 in
    Ok (set_jumps s (upd (N.to_nat i) (fun _ => (shift mod two32, action)) (d_jumps s)))
  else UB.
(** loaded.h:203 SetTag; Tag is ui8 *)
Definition set_dtag (s : loaded) (st : nat) (v : N) : res loaded :=
  if (st <? length (d_tags s))%nat then Ok (set_dtags s (upd st (fun _ => v mod 256) (d_tags s))) else UB.

(** loaded.h:79-89: the copy constructor.  A scanner that owns nothing is aliased (274-281). *)
Definition copy_loaded (buf : N) (s : loaded) : loaded :=
  if d_owned s then
    mkLoaded (d_states s) (d_nletters s) (d_regexps s) (buf + MaxChar + (d_initial s - d_base s)) buf
      (d_letters s) (d_jumps s) (d_tags s) true false
  else s.

(** The transition a pointer to a row and a translated letter lead to; outside the table, or
    between its elements, undefined *)
Definition transition_at (s : loaded) (a l : N) : res (N * N) :=
  if (d_base s <=? a) && ((a - d_base s) mod 8 =? 0) then
    match nth_error (d_jumps s) (N.to_nat ((a - d_base s) / 8 + l)) with Some t => Ok t | None => UB end
  else UB.
(** count.h:145-160, 199-203 Translate and Next: the new state and the action *)
Definition d_next (s : loaded) (a c : N) : res (N * N) :=
  match nth_error (d_letters s) (N.to_nat c) with
  | None => UB
  | Some l => let* (shift, action) := transition_at s a l in Ok ((a + sign_extend shift) mod two64, action)
  end.

(** fsm.h:251-271 BuildScanner for a loaded scanner: [df] is Scanner::DeadFlag (FinalFlag is
    0 in all of them), [remap] its RemapAction.  FinishBuild does nothing (loaded.h:204). *)
Definition build_loaded (df : N) (remap : N -> N) (f : fsm) (s : loaded) : res loaded :=
  let* dead := (if df =? 0 then Ok [] else dead_states f) in
  let* s1 := foldm (fun s q => set_dtag s q (N.lor (fsm_tag f q) (if smem q dead then df else 0))) (seq 0 (size f)) s in
  foldm (fun s from =>
      foldm (fun s '(c, _) =>
        foldm (fun s to => set_djump s from c to (remap (output f from to))) (destinations f from c) s)
        (part_list (letters f)) s) (seq 0 (size f)) s1.

(** loaded.h:77, 246-265: a default constructed scanner aliases Null(), which is compiled
    from MakeFalse (at address [buf]) *)
Definition default_loaded (buf : N) : res loaded :=
  let* g := canonize make_false 0 in
  let* s := init_loaded buf (size g) (letters g) (initial g) 1 in
  let* s1 := build_loaded 0 (fun a => a) g s in
  Ok (mkLoaded (d_states s1) (d_nletters s1) (d_regexps s1) (d_initial s1) (d_buf s1)
    (d_letters s1) (d_jumps s1) (d_tags s1) false true).

(** ** Counting states *)

(** count.h:206-215 CountingState *)
Record cstate := mkC { c_state : N; c_current : list N; c_total : list N; c_mask : N }.
(** count.h:129-135 Initialize *)
Definition c_init (s : loaded) : cstate := mkC (d_initial s) (repeat 0 16) (repeat 0 16) 0.
(** The order in which the templates of count.h:48-111 recurse *)
Definition re_indices : list nat := rev (seq 0 16).
(** count.h:48-78 IncrementPerformer *)
Definition increments (mask : N) (cur : list N) : list N :=
  fold_left (fun cur i => if N.testbit mask (N.of_nat i) then upd i (fun x => (x + 1) mod two32) cur else cur) re_indices cur.
(** count.h:80-111 ResetPerformer *)
Definition resets (mask : N) (cur tot : list N) : list N * list N :=
  fold_left (fun '(cur, tot) i =>
      if N.testbit mask (16 + N.of_nat i) && negb (nth i cur 0 =? 0)
      then (upd i (fun _ => 0) cur, upd i (fun t => N.max t (nth i cur 0)) tot)
      else (cur, tot)) re_indices (cur, tot).
(** count.h:180-187 PerformIncrement *)
Definition perform_increment (mask : N) (st : cstate) : cstate :=
  if mask =? 0 then st
  else mkC (c_state st) (increments mask (c_current st)) (c_total st) (N.lor (c_mask st) (N.shiftl mask 16)).
(** count.h:189-197 PerformReset *)
Definition perform_reset (mask0 : N) (st : cstate) : cstate :=
  let mask := N.land mask0 (c_mask st) mod two32 in
  if mask =? 0 then st
  else let '(cur, tot) := resets mask (c_current st) (c_total st) in
       mkC (c_state st) cur tot (N.land (c_mask st) (N.lxor mask (two32 - 1))).
(** count.h:250-258, 285-295 TakeActionImpl; [adv]: of AdvancedCountingScanner *)
Definition take_action (adv : bool) (a : N) (st : cstate) : cstate :=
  let inc st := if N.land a IncrementMask =? 0 then st else perform_increment a st in
  let rst st := if N.land a ResetMask =? 0 then st else perform_reset a st in
  if adv then inc (rst st) else rst (inc st).
(** count.h:157-160 Next on a State *)
Definition c_next (s : loaded) (st : cstate) (c : N) : res (cstate * N) :=
  let* (a, action) := d_next s (c_state st) c in
  Ok (mkC a (c_current st) (c_total st) (c_mask st), action).
(** run.h:47-52 Step, and what else run.h needs; Final and Dead are always false
    (count.h:168-170) *)
Definition count_ops (adv : bool) (s : loaded) : ops cstate :=
  mkOps (c_init s)
    (fun st c => let* (st1, a) := c_next s st c in Ok (take_action adv a st1))
    (fun st c => let* (st1, _) := c_next s st c in Ok st1)
    (fun _ => Ok false) (fun _ => Ok false).
(** count.h:209 Result *)
Definition c_result (st : cstate) (i : nat) : res N :=
  match nth_error (c_current st) i, nth_error (c_total st) i with
  | Some c, Some t => Ok (N.max c t)
  | _, _ => UB
  end.

(** ** Glue *)

Section Determine.
  (** determine.h:91-137 Determine with a std::map as InvStates and a Next that can fail;
      compare det_row, det_loop and det_run in DetermineModel.v *)
  Variable State : Type.
  Variable seq_dec : State -> State -> bool.
  Variable next : State -> N -> res State.
  Variable dletters : list (N * nat).
  Fixpoint detm_row (s : State) (ls : list (N * nat)) (states : list State) (budget : N) (rw : list nat)
    : res (option (list State * N * list nat)) :=
    match ls with
    | [] => Ok (Some (states, budget, rw))
    | (c, idx) :: ls' =>
        let* ns := next s c in
        match index_of seq_dec ns states with
        | Some i => detm_row s ls' states budget (upd idx (fun _ => i) rw)
        | None =>
            if budget =? 0 then Ok None
            else detm_row s ls' (states ++ [ns]) (N.pred budget) (upd idx (fun _ => length states) rw)
        end
    end.
  Fixpoint detm_loop (fuel : nat) (idx : nat) (states : list State) (budget : N)
      (tr : list (nat * list nat)) : res (det_res State) :=
    match fuel with
    | O => Ok DetFuel
    | S f =>
        match nth_error states idx with
        | None => Ok (DetOk states tr)
        | Some s =>
            let* r := detm_row s dletters states budget (repeat 0%nat (length dletters)) in
            match r with
            | None => Ok DetFail
            | Some (states', budget', rw) => detm_loop f (S idx) states' budget' (tr ++ [(idx, rw)])
            end
        end
    end.
  Definition detm_run (init : State) (maxSize : N) : res (det_res State) :=
    detm_loop (S (S (N.to_nat maxSize))) 0 [init] maxSize [].
End Determine.

(** glue.h:137-142 Next *)
Definition dglue_next (l r : loaded) (st : N * N) (c : N) : res (N * N) :=
  let* (a, _) := d_next l (fst st) c in
  let* (b, _) := d_next r (snd st) c in Ok (a, b).
(** count.cpp:909-915 Action *)
Definition action_of (s : loaded) (a c : N) : res N :=
  match nth_error (d_jumps s) (N.to_nat (transition_index s (state_idx s a) c)) with
  | Some (_, x) => Ok x
  | None => UB
  end.
(** count.cpp:898: the tag of a glued state *)
Definition dglue_tag (l r : loaded) (st : N * N) : res N :=
  match nth_error (d_tags l) (N.to_nat (state_idx l (fst st))), nth_error (d_tags r) (N.to_nat (state_idx r (snd st))) with
  | Some x, Some y => Ok (N.lor x (N.shiftl y 3))
  | _, _ => UB
  end.
(** count.cpp:891-899 AcceptStates.  [buf] is where Init allocates. *)
Definition dglue_accept (buf : N) (l r : loaded) (p : partition) (states : list (N * N)) : res loaded :=
  let* s := init_loaded buf (length states) p 0 (d_count l + d_count r) in
  foldm (fun s '(i, st) => let* v := dglue_tag l r st in set_dtag s i v) (combine (seq 0 (length states)) states) s.
(** count.cpp:901-905 Connect *)
Definition dglue_connect (l r : loaded) (states : list (N * N)) (s : loaded) (e : nat * nat * N) : res loaded :=
  let '(from, to, c) := e in
  match nth_error states from with
  | None => UB
  | Some st =>
      let* x := action_of l (fst st) c in
      let* y := action_of r (snd st) c in
      set_djump s from c to (N.lor x (N.shiftl y (d_count l) mod two32))
  end.
(** count.cpp:980-998 Glue.  The result of the task, built at [b1], is returned by value,
    that is copied to [b2]; [null] is the default constructed scanner. *)
Definition dglue (b1 b2 : N) (null l r : loaded) (maxSize : N) : res loaded :=
  if MAX_RE_COUNT <? d_count l + d_count r then Ok null
  else
    let p := glue_letters (d_letters l) (d_letters r) in
    let* d := detm_run pair_eqb (dglue_next l r) (part_list p) (d_initial l, d_initial r)
                (if maxSize =? 0 then 250000 else maxSize) in
    match d with
    | DetFuel => OutOfFuel
    | DetFail => Ok null
    | DetOk states tr =>
        let* s := dglue_accept b1 l r p states in
        let* s1 := foldm (dglue_connect l r states) (det_connects (part_list p) tr) s in
        Ok (copy_loaded b2 s1)
    end.

(** ** The constructor of CountingScanner *)

(** count.h:125, 242 *)
Definition CDead : N := 1.
Definition CMatched : N := 2.
(** count.h:261-269 RemapAction *)
Definition counting_remap (a : N) : N :=
  if a =? N.lor CMatched CDead then 1 else if a =? CDead then 65536 else 0.
(** count.cpp:791-810: where a pair of states goes by a letter, and the output *)
Definition pair_next (f : fsm) (dead : list nat) (st : nat * nat) (c : N) : res (nat * nat * N) :=
  match destinations f (fst st) c, destinations f (snd st) c with
  | m :: _, b :: _ =>
      let '(m1, out) := if smem m dead then (b, N.lor CDead (N.land (fsm_tag f m) CMatched)) else (m, 0) in
      let b1 := if is_final f m1 || (is_final f b && (N.land (fsm_tag f m1) CMatched =? 0)) then initial f else b in
      Ok (m1, b1, out)
  | _, _ => UB
  end.
Definition nat_pair_eqb (a b : nat * nat) : bool := Nat.eqb (fst a) (fst b) && Nat.eqb (snd a) (snd b).
(** fsm.h:149 SetOutput *)
Definition set_output (f : fsm) (from to : nat) (v : N) : fsm :=
  set_outputs f (mset from (mset to v (match mfind from (outputs f) with Some m => m | None => [] end)) (outputs f)).
(** count.cpp:787-826: the loop over the letters *)
Fixpoint sq_row (f : fsm) (dead : list nat) (cur : nat) (st : nat * nat) (ls : list (N * (nat * list N)))
    (states : list (nat * nat)) (sq : fsm) : res (list (nat * nat) * fsm) :=
  match ls with
  | [] => Ok (states, sq)
  | (c, (_, ms)) :: ls' =>
      let* (m, b, out) := pair_next f dead st c in
      let '(i, states1, sq1) :=
        match index_of nat_pair_eqb (m, b) states with
        | Some i => (i, states, sq)
        | None => (length states, states ++ [(m, b)], resize_fsm sq (S (length states)))
        end in
      let sq2 := fold_left (fun g x => connect g cur i x) ms sq1 in
      let sq3 := if out =? 0 then sq2 else set_output sq2 cur i out in
      sq_row f dead cur st ls' states1 sq3
  end.
(** count.cpp:779-827: the loop over the pairs, of which there are at most size^2 *)
Fixpoint sq_loop (f : fsm) (dead : list nat) (fuel cur : nat) (states : list (nat * nat)) (sq : fsm)
    : res (list (nat * nat) * fsm) :=
  match fuel with
  | O => OutOfFuel
  | S fuel' =>
      match nth_error states cur with
      | None => Ok (states, sq)
      | Some st =>
          let t := fsm_tag f (fst st) in
          let sq1 := if t =? 0 then sq else set_tags sq (mset cur t (tags sq)) in
          let sq2 := set_final sq1 cur (is_final f (fst st)) in
          let* (states1, sq3) := sq_row f dead cur st (pset (letters f)) states sq2 in
          sq_loop f dead fuel' (S cur) states1 sq3
      end
  end.
(** count.cpp:769-827 *)
Definition sq_run (f : fsm) (dead : list nat) : res (list (nat * nat) * fsm) :=
  sq_loop f dead (S (size f * size f)) 0 [(initial f, initial f)] fsm_new.
(** count.cpp:751-758: a second copy of the automaton, tagged, entered from the final
    states *)
Definition with_dup (f : fsm) : fsm :=
  let dup := fold_left (fun g i => set_tags g (mset i CMatched (tags g))) (seq 0 (size f)) f in
  let g := import_fsm f dup in
  fold_left (fun g i => if (i <? size f)%nat then connect g i (size f + i)%nat Epsilon else g) (finals g) g.
(** count.cpp:739-742, 760 *)
Definition any_char : fsm :=
  fsm_or (fsm_or (append_dot fsm_new) (append_special fsm_new BeginMark)) (append_special fsm_new EndMark).
(** count.cpp:746-765: the automaton the pairs are made of *)
Definition counting_fsm (re sep : fsm) : res fsm :=
  let* not_re := complement (surround re) in
  let* a := fsm_and sep not_re in
  let* (_, f) := determine (fsm_cat a re) 0 in
  let* (_, g) := determine (fsm_or (with_dup f) any_char) 0 in
  Ok (unsparse g).
(** count.cpp:744-834.  The scanner is built at [buf]. *)
Definition counting_scanner (buf : N) (re sep : fsm) : res loaded :=
  let* f := counting_fsm re sep in
  let* dead := dead_states f in
  let* (_, sq) := sq_run f dead in
  let* (_, g) := determine sq 0 in
  let* s := init_loaded buf (size g) (letters g) (initial g) 1 in
  build_loaded CDead counting_remap g s.
