(** Model of run.h: feeding memory to a scanner (no proofs).  The non-debug build on a
    64-bit little-endian machine: sizeof(size_t) = sizeof(void* ) = 8 and ToLittleEndian is
    the identity (defs.h:77-78). *)
From Coq Require Import List Bool Arith NArith.
From Verif Require Import Util Spec.
Import ListNotations.
Set Implicit Arguments.
Local Open Scope N_scope.

(** The process memory: the bytes that may be read, by address.  Reading any other address
    is undefined. *)
Definition mem := N -> option N.
Definition load8 (m : mem) (a : N) : res N := match m a with Some b => Ok b | None => UB end.
(** A little-endian load of n bytes ([*p] for a pointer to an n-byte word). *)
Fixpoint load_le (m : mem) (n : nat) (a : N) : res N :=
  match n with
  | O => Ok 0
  | S k => let* b := load8 m a in let* r := load_le m k (a + 1) in Ok (b + 256 * r)
  end.

(** What run.h uses of a scanner: Initialize, Step (run.h:50-57: Next then TakeAction),
    Next alone, Final and Dead.  Each may be undefined (for instance when a state pointer
    is wild), hence the [res]. *)
Record ops (St : Type) := mkOps {
  o_init : St;
  o_step : St -> N -> res St;
  o_next : St -> N -> res St;
  o_final : St -> res bool;
  o_dead : St -> res bool
}.

Section Run.
  Variables (St P : Type).
  Variable o : ops St.
  Variable m : mem.

  (** run.h:61 Action: true is Stop.  A predicate may update what it points to (the
      accumulator P, run.h:79, 96). *)
  Definition pred := P -> St -> N -> res (P * bool).
  Variable pr : pred.
  Definition outcome : Type := St * P * bool.

  (** run.h:118-124 *)
  Fixpoint safe_loop (n : nat) (ptr : N) (st : St) (acc : P) : res outcome :=
    match n with
    | O => Ok (st, acc, false)
    | S k =>
        let* b := load8 m ptr in
        let* st1 := o_step o st b in
        let* (acc1, stop) := pr acc st1 (ptr + 1) in
        if stop : bool then Ok (st1, acc1, true) else safe_loop k (ptr + 1) st1 acc1
    end.
  (** run.h:108-126 SafeRunChunk *)
  Definition safe_run_chunk (p pos : N) (sz : N) (st : St) (acc : P) : res outcome :=
    safe_loop (N.to_nat sz) (p + pos) st acc.

  (** run.h:143-148; [ptr] is the value of ptr - i *)
  Fixpoint chunk_loop (n : nat) (chunk ptr : N) (st : St) (acc : P) : res outcome :=
    match n with
    | O => Ok (st, acc, false)
    | S k =>
        let* st1 := o_step o st (N.land chunk 255) in
        let* (acc1, stop) := pr acc st1 ptr in
        if stop : bool then Ok (st1, acc1, true)
        else chunk_loop k (N.shiftr chunk 8) (ptr + 1) st1 acc1
    end.
  (** run.h:129-151 RunChunk *)
  Definition run_chunk (p pos sz : N) (st : St) (acc : P) : res outcome :=
    if N.eqb sz 0 then Ok (st, acc, false)
    else let* w := load_le m 8 p in
         chunk_loop (N.to_nat sz) (N.shiftr w (8 * pos)) (p + pos + 1) st acc.

  (** The number of size_t words in [b, e), plus one: enough iterations for a loop
      [for (; b != e; ++b)] that terminates. *)
  Definition words_fuel (b e : N) : nat := S (N.to_nat ((e - b) / 8)).

  (** run.h:159-167, the generic AlignedRunner *)
  Fixpoint aligned_loop (fuel : nat) (b e : N) (st : St) (acc : P) : res outcome :=
    match fuel with
    | O => OutOfFuel
    | S k =>
        if N.eqb b e then Ok (st, acc, false)
        else let* (st1, acc1, stop) := run_chunk b 0 8 st acc in
             if stop : bool then Ok (st1, acc1, true) else aligned_loop k (b + 8) e st1 acc1
    end.
  Definition run_aligned (b e : N) (st : St) (acc : P) : res outcome :=
    aligned_loop (words_fuel b e) b e st acc.

  (** run.h:187-226 DoRun.  [al] is the RunAligned selected by the scanner type. *)
  Definition do_run (al : N -> N -> St -> P -> res outcome) (b e : N) (st : St) (acc : P) : res (St * P) :=
    let head := N.ldiff b 7 in
    let tail := N.ldiff e 7 in
    let headSize := head + 8 - b in
    let tailSize := e - tail in
    if N.eqb head tail then
      let* (st1, acc1, _) := safe_run_chunk head (8 - headSize) (e - b) st acc in Ok (st1, acc1)
    else
      let* (st1, acc1, stop) :=
        (if N.eqb b head then Ok (st, acc, false) else run_chunk head (8 - headSize) headSize st acc) in
      if stop : bool then Ok (st1, acc1) else
      let* (st2, acc2, stop2) := al (if N.eqb b head then head else head + 8) tail st1 acc1 in
      if stop2 : bool then Ok (st2, acc2) else
      if N.eqb tailSize 0 then Ok (st2, acc2)
      else let* (st3, acc3, _) := safe_run_chunk tail 0 tailSize st2 acc2 in Ok (st3, acc3).
End Run.

Section RunPred.
  Variable St : Type.
  Variable o : ops St.
  Variable m : mem.

  (** run.h:63-67 RunPred *)
  Definition run_pred : pred St unit := fun acc _ _ => Ok (acc, false).

  (** run.h:170-183, RunAligned for RunPred: no predicate calls *)
  Fixpoint word_loop (n : nat) (chunk : N) (st : St) : res St :=
    match n with
    | O => Ok st
    | S k => let* st1 := o_step o st (N.land chunk 255) in word_loop k (N.shiftr chunk 8) st1
    end.
  Fixpoint aligned_run_loop (fuel : nat) (b e : N) (st : St) : res St :=
    match fuel with
    | O => OutOfFuel
    | S k =>
        if N.eqb b e then Ok st
        else let* w := load_le m 8 b in
             let* st1 := word_loop 8 w st in aligned_run_loop k (b + 8) e st1
    end.
  Definition run_aligned_run (b e : N) (st : St) (acc : unit) : res (outcome St unit) :=
    let* st1 := aligned_run_loop (words_fuel b e) b e st in Ok (st1, acc, false).

  (** run.h:271-275 Run, for a given RunAligned *)
  Definition run_with (al : N -> N -> St -> unit -> res (outcome St unit)) (b e : N) (st : St) : res St :=
    let* (st1, _) := do_run o m run_pred al b e st tt in Ok st1.
  (** ... and for a scanner type without its own AlignedRunner *)
  Definition run (b e : N) (st : St) : res St := run_with run_aligned_run b e st.

  (** run.h:69-84 ShortestPrefixPred; None is the null pointer *)
  Definition shortest_pred : pred St (option N) := fun acc st pos =>
    let* f := o_final o st in
    if f : bool then Ok (Some pos, true) else let* d := o_dead o st in Ok (acc, d).
  (** run.h:86-99 LongestPrefixPred *)
  Definition longest_pred : pred St (option N) := fun acc st pos =>
    let* f := o_final o st in
    let* d := o_dead o st in Ok (if f : bool then Some pos else acc, d).

  (** The start of LongestPrefix and ShortestPrefix: run.h:280-283, 297-300 *)
  Definition start_state (through : bool) (mark : N) : res St :=
    if through then o_step o (o_init o) mark else Ok (o_init o).

  (** run.h:277-292 LongestPrefix *)
  Definition longest_prefix_with (al : N -> N -> St -> option N -> res (outcome St (option N)))
      (bm em : bool) (b e : N) : res (option N) :=
    let* st := start_state bm BeginMark in
    let* f := o_final o st in
    let* (st1, pos) := do_run o m longest_pred al b e st (if f : bool then Some b else None) in
    if em then
      let* st2 := o_step o st1 EndMark in
      let* f2 := o_final o st2 in Ok (if f2 : bool then Some e else pos)
    else Ok pos.
  (** run.h:294-311 ShortestPrefix *)
  Definition shortest_prefix_with (al : N -> N -> St -> option N -> res (outcome St (option N)))
      (bm em : bool) (b e : N) : res (option N) :=
    let* st := start_state bm BeginMark in
    let* f := o_final o st in
    if f : bool then Ok (Some b) else
    let* (st1, pos) := do_run o m shortest_pred al b e st None in
    if em then
      let* st2 := o_step o st1 EndMark in
      let* f2 := o_final o st2 in
      Ok (match pos with None => if f2 : bool then Some e else None | Some _ => pos end)
    else Ok pos.
  Definition longest_prefix := longest_prefix_with (run_aligned o m longest_pred).
  Definition shortest_prefix := shortest_prefix_with (run_aligned o m shortest_pred).

  (** run.h:325-335, the loop of LongestSuffix; [n] bounds the iterations by the distance *)
  Fixpoint longest_suffix_loop (fuel : nat) (rb re : N) (st : St) (pos : option N) : res (St * N * option N) :=
    match fuel with
    | O => OutOfFuel
    | S k =>
        let* d := (if N.eqb rb re then Ok true else o_dead o st) in
        if d : bool then Ok (st, rb, pos)
        else
          let* f := o_final o st in
          let* b := load8 m rb in
          let* st1 := o_step o st b in
          longest_suffix_loop k (rb - 1) re st1 (if f : bool then Some rb else pos)
    end.
  (** run.h:316-342 LongestSuffix.  rend is the address before the first byte. *)
  Definition longest_suffix (em bm : bool) (rb re : N) : res (option N) :=
    let* st := start_state em EndMark in
    let* (st1, rb1, pos) := longest_suffix_loop (S (N.to_nat (rb - re))) rb re st None in
    let* f := o_final o st1 in
    let pos1 := if f : bool then Some rb1 else pos in
    if bm then
      let* st2 := o_step o st1 BeginMark in
      let* f2 := o_final o st2 in Ok (if f2 : bool then Some rb1 else pos1)
    else Ok pos1.

  (** run.h:355-358, the loop of ShortestSuffix (it calls Next, not Step) *)
  Fixpoint shortest_suffix_loop (fuel : nat) (rb re : N) (st : St) : res (St * N) :=
    match fuel with
    | O => OutOfFuel
    | S k =>
        let* stop := (if N.eqb rb re then Ok true
                      else let* f := o_final o st in if f : bool then Ok true else o_dead o st) in
        if stop : bool then Ok (st, rb)
        else
          let* b := load8 m rb in
          let* st1 := o_next o st b in
          shortest_suffix_loop k (rb - 1) re st1
    end.
  (** run.h:345-362 ShortestSuffix *)
  Definition shortest_suffix (em bm : bool) (rb re : N) : res (option N) :=
    let* st := start_state em EndMark in
    let* (st1, rb1) := shortest_suffix_loop (S (N.to_nat (rb - re))) rb re st in
    let* st2 := (if bm then o_step o st1 BeginMark else Ok st1) in
    let* f := o_final o st2 in Ok (if f : bool then Some rb1 else None).

  (** run.h:365-400: Runner(sc).Begin().Run(b, e).End() tested as a boolean *)
  Definition matches_with (al : N -> N -> St -> unit -> res (outcome St unit)) (bm em : bool) (b e : N) : res bool :=
    let* st := start_state bm BeginMark in
    let* st1 := run_with al b e st in
    let* st2 := (if em then o_step o st1 EndMark else Ok st1) in
    o_final o st2.
End RunPred.

(** scanners/pair.h:33-93 ScannerPair *)
Definition pair_ops {A B} (o1 : ops A) (o2 : ops B) : ops (A * B) :=
  mkOps (o_init o1, o_init o2)
    (fun '(a, b) c => let* a1 := o_step o1 a c in let* b1 := o_step o2 b c in Ok (a1, b1))
    (fun '(a, b) c => let* a1 := o_next o1 a c in let* b1 := o_next o2 b c in Ok (a1, b1))
    (fun '(a, b) => let* x := o_final o1 a in if x : bool then Ok true else o_final o2 b)
    (fun '(a, b) => let* x := o_dead o1 a in if x : bool then o_dead o2 b else Ok false).
(** run.h:232-241: Run of two scanners; ScannerPair has no AlignedRunner of its own *)
Definition run_pair {A B} (o1 : ops A) (o2 : ops B) (m : mem) (b e : N) (st : A * B) : res (A * B) :=
  run (pair_ops o1 o2) m b e st.
