(** Model of minimize.h and of the FSM minimisation task in fsm.cpp, and of the operations
    built on Determine + Minimize (no proofs). *)
From Coq Require Import List Bool Arith NArith.
From Verif Require Import Util Spec PartitionModel FsmModel DetermineModel.
Import ListNotations.
Set Implicit Arguments.

(** Vectors indexed by state or class numbers are total functions with pointwise update;
    every index used is below the vector's size (proved in MinProofs.v). *)
Definition fupd {A} (g : nat -> A) (i : nat) (v : A) : nat -> A :=
  fun j => if Nat.eqb j i then v else g j.

(** minimize.h:68-90, the working state of Minimize *)
Record mstate := mkM {
  m_class : nat -> nat;             (* stateClass *)
  m_count : nat;                    (* task.GetClassesNumber() *)
  m_states : nat -> list nat;       (* classStates *)
  m_queued : nat -> nat -> bool;    (* queuedClasses *)
  m_queue : list (nat * nat);       (* classesToProcess *)
  m_change : nat -> nat;            (* classChange *)
  m_removed : nat -> list nat       (* removedStates *)
}.

Section Minimize.
  (** minimize.h:20-56, the task: number of states and letter classes, Previous *)
  Variable n : nat.
  Variable nl : nat.
  Variable prev : nat -> nat -> list nat.

  (** minimize.h:78-87 *)
  Definition min_init (cls : nat -> nat) (classes : nat) : mstate :=
    let cs := fold_left (fun g s => fupd g (cls s) (g (cls s) ++ [s])) (seq 0 n) (fun _ => []) in
    let pairs := flat_map (fun c => map (fun l => (c, l)) (seq 0 nl)) (seq 0 classes) in
    mkM cls classes cs
        (fun c l => (c <? classes) && (l <? nl)) pairs (fun _ => 0) (fun _ => []).

  (** minimize.h:99-107: collect the predecessors of the current class by class *)
  Definition min_mark (acc : mstate * list nat) (s : nat) : mstate * list nat :=
    let '(m, split) := acc in
    let c := m_class m s in
    let '(ch, split') :=
      if Nat.eqb (m_change m c) (m_count m) then (m_change m, split)
      else (fupd (m_change m) c (m_count m), split ++ [c]) in
    (mkM (m_class m) (m_count m) (m_states m) (m_queued m) (m_queue m) ch
         (fupd (m_removed m) c (m_removed m c ++ [s])), split').

  (** minimize.h:133-143: enqueue one half for every letter *)
  Definition min_push (c newc : nat) (m : mstate) (l : nat) : mstate :=
    let t := if m_queued m c l || (length (m_states m newc) <? length (m_states m c))
             then newc else c in
    mkM (m_class m) (m_count m) (m_states m)
        (fun c' l' => if Nat.eqb c' t && Nat.eqb l' l then true else m_queued m c' l')
        (m_queue m ++ [(t, l)]) (m_change m) (m_removed m).

  (** minimize.h:110-144: split one class *)
  Definition min_split (m : mstate) (c : nat) : mstate :=
    if Nat.eqb (length (m_removed m c)) (length (m_states m c)) then
      mkM (m_class m) (m_count m) (m_states m) (m_queued m) (m_queue m)
          (fupd (m_change m) c 0) (fupd (m_removed m) c [])
    else
      let newc := m_count m in
      let rem := m_removed m c in
      let cls' := fold_left (fun g s => fupd g s newc) rem (m_class m) in
      let removed' := fupd (m_removed m) c (m_states m newc) in
      let st1 := fupd (m_states m) newc rem in
      let st2 := fupd st1 c (filter (fun s => Nat.eqb (cls' s) c) (st1 c)) in
      let m1 := mkM cls' (S (m_count m)) st2 (m_queued m) (m_queue m)
                    (fupd (m_change m) c newc) removed' in
      fold_left (min_push c newc) (seq 0 nl) m1.

  (** minimize.h:92-145: one iteration of the main loop *)
  Definition min_step (m : mstate) (c l : nat) (rest : list (nat * nat)) : mstate :=
    let m0 := mkM (m_class m) (m_count m) (m_states m)
                  (fun c' l' => if Nat.eqb c' c && Nat.eqb l' l then false else m_queued m c' l')
                  rest (m_change m) (m_removed m) in
    let preds := flat_map (fun s => prev s l) (m_states m0 c) in
    let '(m1, split) := fold_left min_mark preds (m0, []) in
    fold_left min_split split m1.

  Fixpoint min_loop (fuel : nat) (m : mstate) : res mstate :=
    match fuel with
    | O => OutOfFuel
    | S fuel' =>
        match m_queue m with
        | [] => Ok m
        | (c, l) :: rest => min_loop fuel' (min_step m c l rest)
        end
    end.

  (** Loop bound of the model: the queue starts with one pair per initial class and letter,
      each split adds one pair per letter, and there are never more than n classes.
      Exhaustion is proved unreachable (MinProofs.v). *)
  Definition min_fuel : nat := n * nl + 1.

  Definition min_run (cls : nat -> nat) (classes : nat) : res mstate :=
    min_loop min_fuel (min_init cls classes).
End Minimize.

(** fsm.cpp:1047-1055: initial classes by finality, numbered in order of appearance, so
    class 0 is the finality of state 0. *)
Definition min_init_class (f : fsm) (q : nat) : nat :=
  if Bool.eqb (is_final f q) (is_final f 0) then 0 else 1.
Definition min_init_count (f : fsm) : nat :=
  match size f with
  | O => 0
  | _ => if existsb (fun q => negb (Bool.eqb (is_final f q) (is_final f 0))) (seq 0 (size f)) then 2 else 1
  end.

(** fsm.cpp:1057-1068: the entries (destination, letter index, state) pushed into
    reversedTransitions for one state, in order.  Dereferencing begin() of an empty set is
    undefined behaviour; Index throws for a letter outside the partition.  The Y_ASSERTs
    (lines 1045, 1060) are taken as disabled. *)
Fixpoint rev_row (p : partition) (state : nat) (r : row) (used : list (nat * nat))
  : res (list (nat * nat * nat)) :=
  match r with
  | [] => Ok []
  | (c, tos) :: r' =>
      match tos with
      | [] => UB
      | d :: _ =>
          let* l := part_index p c in
          if smem (l, d) used then rev_row p state r' used
          else let* rest := rev_row p state r' (sadd (l, d) used) in Ok ((d, l, state) :: rest)
      end
  end.
Fixpoint rev_rows (p : partition) (state : nat) (rs : list row) : res (list (nat * nat * nat)) :=
  match rs with
  | [] => Ok []
  | r :: rs' => let* a := rev_row p state r [] in
                let* b := rev_rows p (S state) rs' in Ok (a ++ b)
  end.

(** fsm.cpp:1087-1089: reversedTransitions[state][letter] *)
Definition rev_prev (t : list (nat * nat * nat)) (s l : nat) : list nat :=
  map snd (filter (fun x => Nat.eqb (fst (fst x)) s && Nat.eqb (snd (fst x)) l) t).

(** fsm.cpp:1091-1125 *)
Definition min_accept_row (cls : nat -> nat) (dest : nat) (r : row) (g : fsm) : fsm :=
  fold_left (fun g '(c, tos) => connect g dest (cls (hd 0 tos)) c) r g.
Definition min_accept_state (f : fsm) (cls : nat -> nat) (g : fsm) (from : nat) : fsm :=
  let dest := cls from in
  let g1 := min_accept_row cls dest (row_at f from) g in
  let g2 := if is_final f from then set_final g1 dest true else g1 in
  match mfind from (tags f) with
  | None => g2
  | Some t => set_tags g2 (mset dest (N.lor (match mfind dest (tags g2) with Some x => x | None => 0%N end) t) (tags g2))
  end.
Definition min_outputs (f : fsm) (cls : nat -> nat) : smap nat (smap nat N) :=
  fold_left (fun o '(i, m) =>
    fold_left (fun o '(j, v) =>
      let cur := match mfind (cls i) o with Some x => x | None => [] end in
      mset (cls i) (minsert (cls j) v cur) o) m o) (outputs f) [].
Definition min_accept (f : fsm) (cls : nat -> nat) (classes : nat) : fsm :=
  let g0 := resize_fsm fsm_new classes in
  let g1 := set_final (set_sparsed (set_determined (set_letters g0 (letters f)) (determined f)) (sparsed f)) 0 false in
  let g2 := fold_left (min_accept_state f cls) (seq 0 (size f)) g1 in
  set_outputs (set_initial g2 (cls (initial f))) (min_outputs f cls).

(** fsm.cpp:1150-1159 and minimize.h:60-66.  The task is constructed even when the
    automaton is not determined.  The swap keeps m_sparsed, which is equal anyway. *)
Definition minimize (f : fsm) : res fsm :=
  let* t := rev_rows (letters f) 0 (trans f) in
  if negb (determined f) then Ok f
  else
    let* m := min_run (size f) (part_size (letters f)) (rev_prev t) (min_init_class f) (min_init_count f) in
    Ok (min_accept f (m_class m) (m_count m)).

(** fsm.cpp:1161-1169 *)
Definition canonize (f : fsm) (maxsize : N) : res fsm :=
  let* f1 := (if determined f then Ok f
              else let* r := determine f maxsize in
                   let '(ok, g) := r in if ok then Ok g else Throw ETooComplicated) in
  minimize f1.

(** fsm.cpp:560-574 *)
Definition complement (f : fsm) : res fsm :=
  let* r := determine f 0 in
  let '(ok, f1) := r in
  if negb ok then Throw ETooComplicated
  else
    let* f2 := minimize f1 in
    let f3 := resize_fsm f2 (size f2 + 1) in
    let e := size f3 - 1 in
    let f4 := fold_left (fun g i => if is_final g i then g else connect g i e Epsilon)
                        (seq 0 (size f3)) f3 in
    Ok (set_determined (set_final (clear_final f4) e true) false).

(** fsm.cpp:530-538.  [a &= a] aliasing is harmless there: rhs is copied first. *)
Definition fsm_and (f rhs : fsm) : res fsm :=
  let* f1 := complement f in
  let* rhs2 := complement rhs in
  complement (fsm_or f1 rhs2).
