(** Model of determine.h and of the FSM determination task in fsm.cpp (no proofs). *)
From Coq Require Import List Bool Arith NArith.
From Verif Require Import Util Spec PartitionModel FsmModel.
Import ListNotations.
Set Implicit Arguments.

Section Determine.
  (** determine.h:37-73, the Task interface. [dletters] is the list of (representative,
      class index) in the iteration order of task.Letters(). *)
  Variable State : Type.
  Variable seq_dec : State -> State -> bool.
  Variable dinitial : State.
  Variable dnext : State -> N -> State.
  Variable drequired : State -> bool.
  Variable dletters : list (N * nat).

  (** invstates.find (determine.h:112).  InvStates always maps states[i] to i, so the model
      looks the state up in the vector itself. *)
  Fixpoint index_of (s : State) (l : list State) : option nat :=
    match l with
    | [] => None
    | x :: l' => if seq_dec s x then Some 0 else option_map S (index_of s l')
    end.

  (** determine.h:110-120: the loop over letters for one state; None is Failure *)
  Fixpoint det_row (s : State) (ls : list (N * nat)) (states : list State) (budget : N) (rw : list nat)
    : option (list State * N * list nat) :=
    match ls with
    | [] => Some (states, budget, rw)
    | (c, idx) :: ls' =>
        let ns := dnext s c in
        match index_of ns states with
        | Some i => det_row s ls' states budget (upd idx (fun _ => i) rw)
        | None =>
            if N.eqb budget 0 then None
            else det_row s ls' (states ++ [ns]) (N.pred budget) (upd idx (fun _ => length states) rw)
        end
    end.

  Inductive det_res :=
  | DetOk (states : list State) (transitions : list (nat * list nat))
  | DetFail
  | DetFuel.

  (** determine.h:106-123; transitions and stateIndices are kept paired *)
  Fixpoint det_loop (fuel : nat) (idx : nat) (states : list State) (budget : N)
           (tr : list (nat * list nat)) : det_res :=
    match fuel with
    | O => DetFuel
    | S fuel' =>
        match nth_error states idx with
        | None => DetOk states tr
        | Some s =>
            if drequired s then
              match det_row s dletters states budget (repeat 0 (length dletters)) with
              | None => DetFail
              | Some (states', budget', rw) => det_loop fuel' (S idx) states' budget' (tr ++ [(idx, rw)])
              end
            else det_loop fuel' (S idx) states budget tr
        end
    end.

  Definition det_run (maxSize : N) : det_res :=
    det_loop (S (S (N.to_nat maxSize))) 0 [dinitial] maxSize [].

  (** determine.h:125-127 *)
  Definition invletters : list N :=
    fold_left (fun v '(c, idx) => upd idx (fun _ => c) v) dletters (repeat 0%N (length dletters)).

  (** determine.h:130-135: the calls task.Connect(from, to, letter) in order *)
  Definition det_connects (tr : list (nat * list nat)) : list (nat * nat * N) :=
    flat_map (fun '(from, rw) => map (fun '(to, l) => (from, to, l)) (combine rw invletters)) tr.
End Determine.
Arguments DetFail {State}.
Arguments DetFuel {State}.

(** Iteration over a letters table: representative and index (partition.h:56-67) *)
Definition part_list (p : partition) : list (N * nat) := map (fun '(r, (i, _)) => (r, i)) (pset p).

(** fsm.cpp:900-914 *)
Definition fsm_next (f : fsm) (s : list nat) (c : N) : list nat :=
  fold_left (fun acc q => sunion acc (destinations f q c)) s [].

(** fsm.cpp:892-898 *)
Definition fsm_required (term : list nat) (s : list nat) : bool :=
  negb (existsb (fun q => smem q term) s).

(** fsm.cpp:935-952: the finality and tag loop for one new state, with its early break *)
Fixpoint accept_members (f : fsm) (ns : nat) (s : list nat) (g : fsm) : fsm :=
  match s with
  | [] => g
  | j :: s' =>
      let g1 := if is_final f j then set_final g ns true else g in
      if is_final f j && (match tags f with [] => true | _ => false end) then g1
      else
        let g2 := match mfind j (tags f) with
                  | None => g1
                  | Some t => set_tags g1 (mset ns (N.lor (match mfind ns (tags g1) with Some x => x | None => 0%N end) t) (tags g1))
                  end in
        accept_members f ns s' g2
  end.

(** fsm.cpp:925-934: a state containing a terminal gets self-loops on all letters *)
Definition accept_terminal (f : fsm) (term : list nat) (ns : nat) (s : list nat) (g : fsm) : fsm :=
  fold_left (fun g j => if smem j term
                        then fold_left (fun g '(c, _) => connect g ns ns c) (pset (letters f)) g
                        else g) s g.

(** fsm.cpp:954-972 *)
Definition accept_outputs (f : fsm) (states : list (list nat)) (o : smap nat (smap nat N)) :=
  let holders q := filter (fun ns => smem q (nth ns states [])) (seq 0 (length states)) in
  fold_left (fun o '(i, m) =>
    fold_left (fun o '(j, v) =>
      fold_left (fun o k => fold_left (fun o l => out_or k l v o) (holders j) o) (holders i) o)
      m o) (outputs f) o.

(** fsm.cpp:916-974 *)
Definition accept_states (f : fsm) (term : list nat) (states : list (list nat)) : fsm :=
  let g0 := resize_fsm fsm_new (length states) in
  let g1 := clear_final (set_letters (set_determined (set_initial g0 0) true) (letters f)) in
  let g2 := fold_left (fun g ns => let s := nth ns states [] in
                         accept_members f ns s (accept_terminal f term ns s g))
                      (seq 0 (length states)) g1 in
  set_outputs g2 (accept_outputs f states (outputs g2)).

(** fsm.cpp:984-1003: keep only outputs of existing transitions *)
Definition prune_outputs (g : fsm) : smap nat (smap nat N) :=
  let old := outputs g in
  fold_left (fun o from =>
    match mfind from old with
    | None => o
    | Some m =>
        fold_left (fun o '(_, tos) =>
          fold_left (fun o q =>
            match mfind q m with
            | None => o
            | Some v => let cur := match mfind from o with Some x => x | None => [] end in
                        mset from (minsert q v cur) o
            end) tos o) (row_at g from) o
    end) (seq 0 (size g)) [].

(** fsm.cpp:1016-1034.  Returns whether it succeeded and the new value of the automaton
    (epsilons are removed even when it fails).  The final swap keeps m_sparsed. *)
Definition determine (f : fsm) (maxsize : N) : res (bool * fsm) :=
  if determined f then Ok (true, f)
  else
    let f1 := remove_epsilons f in
    let term := terminal_states f1 in
    let limit := if N.eqb maxsize 0 then 200000%N else maxsize in
    match det_run (@seqb nat _) [initial f1] (fsm_next f1) (fsm_required term)
                  (part_list (letters f1)) limit with
    | DetFuel => OutOfFuel
    | DetFail => Ok (false, f1)
    | DetOk states tr =>
        let g := accept_states f1 term states in
        let g1 := fold_left (fun g '(from, to, c) => connect g from to c)
                            (det_connects (part_list (letters f1)) tr) g in
        let g2 := set_outputs g1 (prune_outputs g1) in
        Ok (true, set_sparsed g2 (sparsed f1))
    end.
