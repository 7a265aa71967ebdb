(** Model of fsm.h / fsm.cpp: the automaton and its building operations (no proofs).
    Determine and Minimize are in DetermineModel.v and MinimizeModel.v. *)
From Coq Require Import List Bool Arith NArith.
From Verif Require Import Util Spec PartitionModel.
Import ListNotations.
Set Implicit Arguments.

(** fsm.h:124-126 TransitionRow: letter -> set of states *)
Definition row := smap N (list nat).

(** fsm.h:208-235, the data members of Fsm.  [unsigned long] flags are N. *)
Record fsm := mkFsm {
  trans : list row;                       (* m_transitions *)
  initial : nat;                          (* initial *)
  finals : list nat;                      (* m_final *)
  letters : partition;                    (* letters *)
  sparsed : bool;                         (* m_sparsed *)
  determined : bool;                      (* determined *)
  outputs : smap nat (smap nat N);        (* outputs *)
  tags : smap nat N;                      (* tags *)
  isAlt : bool                            (* isAlternative *)
}.

(** Field updates (assignments to data members). *)
Definition set_trans (f : fsm) x := mkFsm x (initial f) (finals f) (letters f) (sparsed f) (determined f) (outputs f) (tags f) (isAlt f).
Definition set_initial (f : fsm) x := mkFsm (trans f) x (finals f) (letters f) (sparsed f) (determined f) (outputs f) (tags f) (isAlt f).
Definition set_finals (f : fsm) x := mkFsm (trans f) (initial f) x (letters f) (sparsed f) (determined f) (outputs f) (tags f) (isAlt f).
Definition set_letters (f : fsm) x := mkFsm (trans f) (initial f) (finals f) x (sparsed f) (determined f) (outputs f) (tags f) (isAlt f).
Definition set_sparsed (f : fsm) x := mkFsm (trans f) (initial f) (finals f) (letters f) x (determined f) (outputs f) (tags f) (isAlt f).
Definition set_determined (f : fsm) x := mkFsm (trans f) (initial f) (finals f) (letters f) (sparsed f) x (outputs f) (tags f) (isAlt f).
Definition set_outputs (f : fsm) x := mkFsm (trans f) (initial f) (finals f) (letters f) (sparsed f) (determined f) x (tags f) (isAlt f).
Definition set_tags (f : fsm) x := mkFsm (trans f) (initial f) (finals f) (letters f) (sparsed f) (determined f) (outputs f) x (isAlt f).
Definition set_isAlt (f : fsm) x := mkFsm (trans f) (initial f) (finals f) (letters f) (sparsed f) (determined f) (outputs f) (tags f) x.

(** fsm.h:51 *)
Definition size (f : fsm) : nat := length (trans f).

(** m_transitions[q].  The C++ access is undefined out of range; every caller below is
    in range for well-formed automata (FsmBasics.v, [wf]). *)
Definition row_at (f : fsm) (q : nat) : row := nth q (trans f) [].

(** row[c] read without inserting: the empty set when absent *)
Definition row_get (r : row) (c : N) : list nat :=
  match mfind c r with Some s => s | None => [] end.

(** fsm.cpp:192-201 *)
Definition fsm_new : fsm := mkFsm [[]] 0 [0] part_empty false false [] [] false.

(** fsm.h:244 *)
Definition clear_hints (f : fsm) : fsm := set_isAlt f false.

(** fsm.cpp:265-271 *)
Definition set_final (f : fsm) (q : nat) (b : bool) : fsm :=
  set_finals f (if b then sadd q (finals f) else sremove q (finals f)).

(** fsm.h:153 *)
Definition is_final (f : fsm) (q : nat) : bool := smem q (finals f).

(** fsm.h:155 *)
Definition clear_final (f : fsm) : fsm := set_finals f [].

(** fsm.cpp:203-208 *)
Definition make_false : fsm := set_final fsm_new 0 false.

(** fsm.cpp:210-216.  For a letter outside the partition, Representative returns a
    default-constructed Char ([new unsigned short], whose value is unspecified); the
    model uses 0. *)
Definition translate (f : fsm) (c : N) : N :=
  if negb (sparsed f) || N.eqb c Epsilon then c
  else match part_rep (letters f) c with Some r => r | None => 0%N end.

(** fsm.cpp:232-236 *)
Definition destinations (f : fsm) (q : nat) (c : N) : list nat :=
  row_get (row_at f q) (translate f c).

(** fsm.cpp:218-222 *)
Definition connected (f : fsm) (p q : nat) (c : N) : bool := smem q (destinations f p c).

(** fsm.cpp:238-244 *)
Definition outgoing_letters (f : fsm) (q : nat) : list N := mkeys (row_at f q).

(** fsm.cpp:246-251; the old size is [size f] *)
Definition resize_fsm (f : fsm) (n : nat) : fsm := set_trans f (resize n [] (trans f)).

(** fsm.cpp:430-434 *)
Definition row_connect (to : nat) (c : N) (r : row) : row := mset c (sadd to (row_get r c)) r.
Definition connect (f : fsm) (from to : nat) (c : N) : fsm :=
  clear_hints (set_trans f (upd from (row_connect to c) (trans f))).

(** fsm.cpp:436-441 *)
Definition connect_final (f : fsm) (to : nat) (c : N) : fsm :=
  clear_hints (fold_left (fun g q => connect g q to c) (finals f) f).

(** fsm.cpp:443-449 *)
Definition row_disconnect (to : nat) (c : N) (r : row) : row :=
  match mfind c r with Some s => mset c (sremove to s) r | None => r end.
Definition disconnect (f : fsm) (from to : nat) (c : N) : fsm :=
  clear_hints (set_trans f (upd from (row_disconnect to c) (trans f))).

(** The byte values 0..255 and the letters 0..MaxChar-1, ascending. *)
Definition all_bytes : list N := map N.of_nat (seq 0 256).
Definition all_letters : list N := map N.of_nat (seq 0 264).

(** fsm.cpp:301-309 AppendSpecial; fsm.cpp:284-292 Append(char) is the same with c < 256 *)
Definition append_special (f : fsm) (c : N) : fsm :=
  let f1 := resize_fsm f (size f + 1) in
  let f2 := connect_final f1 (size f1 - 1) c in
  let f3 := set_final (clear_final f2) (size f2 - 1) true in
  set_determined f3 false.

(** fsm.cpp:294-299 *)
Definition append_string (f : fsm) (s : list N) : fsm := fold_left append_special s f.

(** fsm.cpp:273-282 *)
Definition append_dot (f : fsm) : fsm :=
  let f1 := resize_fsm f (size f + 1) in
  let f2 := fold_left (fun g c => connect_final g (size g - 1) c) all_bytes f1 in
  let f3 := set_final (clear_final f2) (size f2 - 1) true in
  set_determined f3 false.

(** fsm.cpp:349-359: the inner letters of one string.  [ltr] maps (state, char) to the
    state created for it; 0 means "not created", as in the C++ code.  The 'determined'
    updates on lines 346, 356, 364, 369 test sets that are never filled, so they always
    clear the flag. *)
Fixpoint as_inner (f : fsm) (ltr : smap (nat * N) nat) (state : nat) (cs : list N)
  : fsm * smap (nat * N) nat * nat :=
  match cs with
  | [] => (f, ltr, state)
  | c :: cs' =>
      match mfind (state, c) ltr with
      | Some n => as_inner f ltr n cs'
      | None =>
          let n := size f in
          let f1 := connect (resize_fsm f (size f + 1)) state n c in
          as_inner (set_determined f1 false) (mset (state, c) n ltr) n cs'
      end
  end.

(** fsm.cpp:338-371: one string *)
Definition as_one (e : nat) (acc : fsm * smap N nat * smap (nat * N) nat) (str : list N)
  : fsm * smap N nat * smap (nat * N) nat :=
  let '(f, startLtr, ltr) := acc in
  match str with
  | [] => acc
  | [c] => (set_determined (connect_final f e c) false, startLtr, ltr)
  | c :: rest =>
      let '(f1, startLtr1, firstJump) :=
        match mfind c startLtr with
        | Some n => (f, startLtr, n)
        | None =>
            let n := size f in
            (set_determined (connect_final (resize_fsm f (size f + 1)) n c) false, mset c n startLtr, n)
        end in
      let '(f2, ltr1, state) := as_inner f1 ltr firstJump (removelast rest) in
      let f3 := connect f2 state e (last rest 0%N) in
      (set_determined f3 false, startLtr1, ltr1)
  end.

(** fsm.cpp:311-376 *)
Definition append_strings (f : fsm) (strs : list (list N)) : res fsm :=
  if existsb (fun s => match s with [] => true | _ => false end) strs then Throw EEmptyString
  else
    let f1 := resize_fsm f (size f + 1) in
    let e := size f1 - 1 in
    let '(f2, _, _) := fold_left (as_one e) strs (f1, [], []) in
    Ok (set_final (clear_final f2) e true).

(** fsm.cpp:387-394 / 406-413: copy the targets of each representative to the other
    members of its class, without overwriting *)
Definition expand_row (p : partition) (r : row) : row :=
  fold_left (fun r '(rep, (_, ms)) =>
    match mfind rep r with
    | None => r
    | Some tg => fold_left (fun r c => if N.eqb c rep then r else minsert c tg r) ms r
    end) (pset p) r.

(** fsm.cpp:399-404 *)
Definition shift_row (k : nat) (r : row) : row := mmap (map (fun q => q + k)) r.

(** fsm.cpp:378-428 *)
Definition import_outputs (k : nat) (src dst : smap nat (smap nat N)) : smap nat (smap nat N) :=
  fold_left (fun d '(from, m) =>
    let cur := match mfind (from + k) d with Some x => x | None => [] end in
    mset (from + k) (fold_left (fun x '(to, o) => minsert (to + k) o x) m cur) d) src dst.
Definition import_tags (k : nat) (src dst : smap nat N) : smap nat N :=
  fold_left (fun d '(q, t) => minsert (q + k) t d) src dst.
Definition import_fsm (f rhs : fsm) : fsm :=
  let oldsize := size f in
  let own := map (expand_row (letters f)) (trans f) in
  let foreign := map (fun r => expand_row (letters rhs) (shift_row oldsize r)) (trans rhs) in
  mkFsm (own ++ foreign) (initial f) (finals f) part_empty (sparsed f) (determined f)
        (import_outputs oldsize (outputs rhs) (outputs f))
        (import_tags oldsize (tags rhs) (tags f)) (isAlt f).

(** fsm.cpp:470-497.  [a += a] (self-aliasing) is not modelled. *)
Definition cat_outputs (k : nat) (rhs : fsm) (fin : list nat) (d : smap nat (smap nat N)) :=
  match mfind (initial rhs) (outputs rhs) with
  | None => d
  | Some m =>
      fold_left (fun d '(to, o) =>
        fold_left (fun d q =>
          let cur := match mfind q d with Some x => x | None => [] end in
          mset q (minsert (to + k) o cur) d) fin d) m d
  end.
Definition fsm_cat (f rhs : fsm) : fsm :=
  let n := size f in
  let f1 := import_fsm f rhs in
  let r := row_at f1 (n + initial rhs) in
  let f2 := fold_left (fun g '(c, tos) => fold_left (fun g to => connect_final g to c) tos g) r f1 in
  let f3 := set_outputs f2 (cat_outputs n rhs (finals f2) (outputs f2)) in
  let f4 := fold_left (fun g q => set_final g (q + n) true) (finals rhs) (clear_final f3) in
  clear_hints (set_determined f4 false).

(** fsm.cpp:499-528 *)
Definition fsm_or (f rhs : fsm) : fsm :=
  let n := size f in
  let f1 := import_fsm f rhs in
  let f2 := set_finals f1 (fold_left (fun s q => sadd (q + n) s) (finals rhs) (finals f1)) in
  let f3 :=
    if negb (isAlt f) && negb (isAlt rhs) then
      let g := resize_fsm f2 (size f2 + 1) in
      let s := size g - 1 in
      set_initial (connect (connect g s (initial g) Epsilon) s (n + initial rhs) Epsilon) s
    else if isAlt f && negb (isAlt rhs) then
      connect f2 (initial f2) (n + initial rhs) Epsilon
    else if negb (isAlt f) && isAlt rhs then
      set_initial (connect f2 (n + initial rhs) (initial f2) Epsilon) (initial rhs + n)
    else
      fold_left (fun g to =>
        disconnect (connect g (initial g) (to + n) Epsilon) (initial rhs + n) (to + n) Epsilon)
        (destinations rhs (initial rhs) Epsilon) f2 in
  set_isAlt (set_determined f3 false) true.

(** fsm.cpp:540-558 *)
Definition iterate (f : fsm) : fsm :=
  let f1 := resize_fsm f (size f + 2) in
  let s := size f1 in
  let f2 := connect f1 (s - 2) (s - 1) Epsilon in
  let f3 := connect f2 (s - 2) (initial f2) Epsilon in
  let f4 := connect_final f3 (initial f3) Epsilon in
  let f5 := connect_final f4 (s - 1) Epsilon in
  let f6 := set_final (clear_final f5) (s - 1) true in
  set_determined (set_initial f6 (s - 2)) false.

(** fsm.cpp:576-582 *)
Fixpoint fsm_times_loop (f : fsm) (n : nat) (ret : fsm) : fsm :=
  match n with O => ret | S m => fsm_times_loop f m (fsm_cat ret f) end.
Definition fsm_times (f : fsm) (n : nat) : fsm := fsm_times_loop f n fsm_new.

(** fsm.cpp:1171-1182 *)
Definition prepend_anything (f : fsm) : fsm :=
  let s := size f in
  let f1 := resize_fsm f (size f + 1) in
  let f2 := fold_left (fun g c => connect g s s c) all_letters f1 in
  let f3 := connect f2 s (initial f2) Epsilon in
  set_determined (set_initial f3 s) false.

(** fsm.cpp:1184-1196 *)
Definition append_anything (f : fsm) : fsm :=
  let s := size f in
  let f1 := resize_fsm f (size f + 1) in
  let f2 := fold_left (fun g c => connect g s s c) all_letters f1 in
  let f3 := connect_final f2 s Epsilon in
  set_determined (set_final (clear_final f3) s true) false.

(** fsm.cpp:1198-1203 *)
Definition surround (f : fsm) : fsm := append_anything (prepend_anything f).

(** fsm.cpp:601-631.  The swap on line 629 leaves m_sparsed of [*this] as it was. *)
Definition reverse_trans (f : fsm) (out : fsm) : fsm :=
  fold_left (fun g from =>
    fold_left (fun g '(c, tos) => fold_left (fun g to => connect g to from c) tos g)
              (row_at f from) g)
    (seq 0 (size f)) out.
Definition reverse_outputs (o : smap nat (smap nat N)) : smap nat (smap nat N) :=
  fold_left (fun d '(i, m) =>
    fold_left (fun d '(j, v) =>
      let cur := match mfind j d with Some x => x | None => [] end in
      mset j (mset i v cur) d) m d) o [].
Definition fsm_reverse (f : fsm) : fsm :=
  let out0 := set_letters (resize_fsm fsm_new (size f + 1)) (letters f) in
  let out1 := reverse_trans f out0 in
  let out2 := set_final (clear_final out1) (initial f) true in
  let out3 := fold_left (fun g i => connect g (size f) i Epsilon) (finals f) out2 in
  let out4 := set_initial out3 (size f) in
  let out5 := set_outputs out4 (reverse_outputs (outputs f)) in
  set_sparsed (set_tags out5 (tags f)) (sparsed f).

(** fsm.cpp:638-652: the letter-blind digraph, as a vector of sets *)
Definition digraph (f : fsm) (invert : bool) : list (list nat) :=
  fold_left (fun g from =>
    fold_left (fun g '(_, tos) =>
      fold_left (fun g to =>
        if invert then upd to (sadd from) g else upd from (sadd to) g) tos g)
      (row_at f from) g)
    (seq 0 (size f)) (repeat [] (size f)).

(** fsm.cpp:667-683: breadth-first search; vectors of bool are lists of bool *)
Fixpoint bfs (fuel : nat) (g : list (list nat)) (unchecked useless : list bool) (queue : list nat)
  : res (list bool) :=
  match fuel with
  | O => OutOfFuel
  | S fuel' =>
      match queue with
      | [] => Ok useless
      | to :: queue1 =>
          let '(useless2, queue2) :=
            fold_left (fun '(us, qu) fr =>
              if nth fr unchecked false && nth fr us false
              then (upd fr (fun _ => false) us, qu ++ [fr]) else (us, qu))
              (nth to g []) (useless, queue1) in
          bfs fuel' g (upd to (fun _ => false) unchecked) useless2 queue2
      end
  end.

(** fsm.cpp:654-689 for one direction: the useless flags *)
Definition useless_states (f : fsm) (invert : bool) : res (list bool) :=
  let start := filter (fun i => if invert then is_final f i else Nat.eqb (initial f) i)
                      (seq 0 (size f)) in
  let useless0 := fold_left (fun us i => upd i (fun _ => false) us) start (repeat true (size f)) in
  bfs (size f + 1) (digraph f invert) (repeat true (size f)) useless0 start.

(** fsm.cpp:633-693 *)
Definition dead_states (f : fsm) : res (list nat) :=
  let* u0 := useless_states f false in
  let* u1 := useless_states f true in
  let ins u s := fold_left (fun s i => if nth i u false then sadd i s else s) (seq 0 (size f)) s in
  Ok (ins u1 (ins u0 [])).

(** fsm.cpp:695-711 *)
Definition remove_dead_ends (f : fsm) : res fsm :=
  let* dead := dead_states f in
  Ok (clear_hints (fold_left (fun g i =>
        set_trans g (map (mmap (sremove i)) (upd i (fun _ => []) (trans g)))) dead f)).

(** fsm.cpp:584-591 *)
Definition make_prefix (f : fsm) : res fsm :=
  let* f1 := remove_dead_ends f in
  let f2 := fold_left (fun g i => match row_at g i with
                                  | [] => g
                                  | _ => set_finals g (sadd i (finals g)) end)
              (seq 0 (size f1)) f1 in
  Ok (clear_hints f2).

(** fsm.cpp:593-599 *)
Definition make_suffix (f : fsm) : fsm :=
  clear_hints (fold_left (fun g i => if Nat.eqb i (initial g) then g else connect g (initial g) i Epsilon)
                         (seq 0 (size f)) f).

(** fsm.cpp:825-837 *)
Definition letters_equal (t : list row) (a b : N) : bool :=
  forallb (fun r => match mfind a r, mfind b r with
                    | None, None => true
                    | Some s, Some s' => seqb s s'
                    | _, _ => false
                    end) t.

(** fsm.cpp:839-848 with needEpsilons = false *)
Definition sparse (f : fsm) : fsm :=
  let p := fold_left (fun p c => if N.eqb c Epsilon then p
                                 else part_append (letters_equal (trans f)) c p)
                     all_letters part_empty in
  set_sparsed (set_letters f p) true.

(** fsm.cpp:850-857.  i[j] = i[rep] also creates the entry for the representative. *)
Definition unsparse_row (p : partition) (r : row) : row :=
  fold_left (fun r '(rep, (_, ms)) =>
    fold_left (fun r j => let s := row_get r rep in
                          mset j s (match mfind rep r with Some _ => r | None => mset rep [] r end)) ms r)
    (pset p) r.
Definition unsparse (f : fsm) : fsm :=
  set_sparsed (set_trans f (map (unsparse_row (letters f)) (trans f))) false.

(** Bitwise or into outputs[p][q] *)
Definition out_or (p q : nat) (v : N) (o : smap nat (smap nat N)) : smap nat (smap nat N) :=
  let m := match mfind p o with Some m => m | None => [] end in
  let old := match mfind q m with Some x => x | None => 0%N end in
  mset p (mset q (N.lor old v) m) o.

(** fsm.cpp:458-468 *)
Definition output (f : fsm) (p q : nat) : N :=
  match mfind p (outputs f) with
  | None => 0%N
  | Some m => match mfind q m with None => 0%N | Some x => x end
  end.

(** fsm.cpp:768-781.  [inveps] is a vector of sets.  Line 778 uses the outputs iterator of
    'from' obtained before the loop: outputs are or-ed only if 'from' already had some. *)
Definition shortcut_epsilon (from thru : nat) (acc : fsm * list (list nat)) : fsm * list (list nat) :=
  let '(f, inveps) := acc in
  let has := match mfind from (outputs f) with Some _ => true | None => false end in
  let fto := output f from thru in
  fold_left (fun '(g, inv) to =>
    let g1 := connect g from to Epsilon in
    let g2 := if has then set_outputs g1 (out_or from to (N.lor fto (output g1 thru to)) (outputs g1)) else g1 in
    (g2, upd to (sadd from) inv))
    (destinations f thru Epsilon) (f, inveps).

(** fsm.cpp:715-762 *)
Definition merge_epsilon (from : nat) (f : fsm) (to : nat) : fsm :=
  let eo := match mfind from (outputs f) with Some m => mfind to m | None => None end in
  let f1 := fold_left (fun g '(c, tos) =>
      let g1 := set_trans g (upd from (fun r => mset c (sunion (row_get r c) tos) r) (trans g)) in
      match eo with
      | None => g1
      | Some v => set_outputs g1 (fold_left (fun o q => out_or from q v o) tos (outputs g1))
      end) (row_at f to) f in
  let f2 := if is_final f1 to then set_final f1 from true else f1 in
  let f3 := match mfind to (tags f2) with
            | None => f2
            | Some t => set_tags f2 (mset from (N.lor (match mfind from (tags f2) with Some x => x | None => 0%N end) t) (tags f2))
            end in
  match mfind to (outputs f3) with
  | None => f3
  | Some m => set_outputs f3 (fold_left (fun o '(q, v) =>
      out_or from q (N.lor (match eo with Some x => x | None => 0%N end) v) o) m (outputs f3))
  end.

(** fsm.cpp:789-795 *)
Definition inverse_eps (f : fsm) : list (list nat) :=
  fold_left (fun inv from =>
    fold_left (fun inv to => upd to (sadd from) inv) (destinations f from Epsilon) inv)
    (seq 0 (size f)) (repeat [] (size f)).

(** fsm.cpp:797-803.  The loop over inveps[thru] iterates over a snapshot: the body only
    inserts [from], already a member, into inveps[thru]. *)
Definition close_eps (f : fsm) : fsm :=
  fst (fold_left (fun '(g, inv) thru =>
         fold_left (fun acc from => if Nat.eqb from thru then acc else shortcut_epsilon from thru acc)
                   (nth thru inv []) (g, inv))
       (seq 0 (size f)) (f, inverse_eps f)).

(** fsm.cpp:807-813.  The loop over the epsilon successors iterates over a snapshot: after
    the closure, merging inserts no new epsilon successor. *)
Definition merge_all_eps (f : fsm) : fsm :=
  fold_left (fun g from =>
    fold_left (fun g to => if Nat.eqb to from then g else merge_epsilon from g to)
              (destinations g from Epsilon) g)
    (seq 0 (size f)) f.

(** fsm.cpp:785-823 *)
Definition remove_epsilons (f : fsm) : fsm :=
  let f1 := unsparse f in
  let f2 := close_eps f1 in
  let f3 := merge_all_eps f2 in
  let f4 := set_trans f3 (map (merase Epsilon) (trans f3)) in
  clear_hints (sparse f4).

(** fsm.cpp:861-874 *)
Definition terminal_states (f : fsm) : list nat :=
  filter (fun q => forallb (fun '(rep, _) => match mfind rep (row_at f q) with
                                             | Some s => smem q s
                                             | None => false end) (pset (letters f)))
         (finals f).
