(** Model of glue.h and of Scanner::Glue in scanners/multi.h (no proofs). *)
From Coq Require Import List Bool Arith NArith.
From Verif Require Import Util Spec PartitionModel FsmModel DetermineModel MinimizeModel RunModel ScannerModel.
Import ListNotations.
Set Implicit Arguments.
Local Open Scope N_scope.

(** ** glue.h:50-111 GluedStateLookupTable *)
Section Lookup.
  (** The template parameter N *)
  Variable cap : N.

  (** mMap and mFilled: the filled slots *)
  Definition slots := smap N ((N * N) * nat).
  Definition pair_eqb (a b : N * N) : bool := (fst a =? fst b) && (snd a =? snd b).
  (** glue.h:101-103 Hash, in 64-bit arithmetic *)
  Definition glue_hash (st : N * N) : N :=
    N.lxor (N.lxor (N.shiftr (fst st) 2) (N.shiftr (snd st) 4)) ((N.shiftl (snd st) 10) mod two64).
  (** glue.h:91-99 Search; None is the -1 returned at the end *)
  Fixpoint search_loop (fuel : nat) (t : slots) (ind stop : N) (st : N * N) : res (option N) :=
    match fuel with
    | O => OutOfFuel
    | S f =>
        if ind =? stop then Ok None
        else match mfind ind t with
             | None => Ok (Some ind)
             | Some (key, _) => if pair_eqb key st then Ok (Some ind) else search_loop f t ((ind + 1) mod cap) stop st
             end
    end.
  Definition search (t : slots) (st : N * N) : res (option N) :=
    let start := glue_hash st mod cap in
    search_loop (N.to_nat cap) t start ((start + cap - 1) mod cap) st.
  (** glue.h:75-78 find; None is end().  mFilled[-1] is undefined. *)
  Definition tab_find (t : slots) (st : N * N) : res (option nat) :=
    let* i := search t st in
    match i with
    | None => UB
    | Some ind => Ok (match mfind ind t with Some (_, v) => Some v | None => None end)
    end.
  (** glue.h:80-88 insert *)
  Definition tab_insert (t : slots) (st : N * N) (v : nat) : res slots :=
    let* i := search t st in
    match i with
    | None => UB
    | Some ind => Ok (match mfind ind t with Some _ => t | None => mset ind (st, v) t end)
    end.

  (** determine.h:91-137 Determine, with this table as InvStates and a Next that can fail;
      compare det_row, det_loop and det_run in DetermineModel.v *)
  Variable next : (N * N) -> N -> res (N * N).
  Variable dletters : list (N * nat).
  Fixpoint glue_row (s : N * N) (ls : list (N * nat)) (states : list (N * N)) (t : slots) (budget : N) (rw : list nat)
    : res (option (list (N * N) * slots * N * list nat)) :=
    match ls with
    | [] => Ok (Some (states, t, budget, rw))
    | (c, idx) :: ls' =>
        let* ns := next s c in
        let* found := tab_find t ns in
        match found with
        | Some i => glue_row s ls' states t budget (upd idx (fun _ => i) rw)
        | None =>
            if budget =? 0 then Ok None
            else
              let* t1 := tab_insert t ns (length states) in
              glue_row s ls' (states ++ [ns]) t1 (N.pred budget) (upd idx (fun _ => length states) rw)
        end
    end.
  Fixpoint glue_loop (fuel : nat) (idx : nat) (states : list (N * N)) (t : slots) (budget : N)
      (tr : list (nat * list nat)) : res (det_res (N * N)) :=
    match fuel with
    | O => OutOfFuel
    | S f =>
        match nth_error states idx with
        | None => Ok (DetOk states tr)
        | Some s =>
            let* r := glue_row s dletters states t budget (repeat 0%nat (length dletters)) in
            match r with
            | None => Ok DetFail
            | Some (states', t', budget', rw) => glue_loop f (S idx) states' t' budget' (tr ++ [(idx, rw)])
            end
        end
    end.
  Definition glue_run (init : N * N) (maxSize : N) : res (det_res (N * N)) :=
    let* t := tab_insert [] init 0%nat in
    glue_loop (S (S (N.to_nat maxSize))) 0 [init] t maxSize [].
End Lookup.

(** ** ScannerGlueCommon and ScannerGlueTask *)

(** multi.h:1015 *)
Definition table_capacity : N := 262144.
(** glue.h:35-43 LettersEquality *)
Definition letters_eq (l r : list N) (a b : N) : bool :=
  (nth (N.to_nat a) l 0 =? nth (N.to_nat b) l 0) && (nth (N.to_nat a) r 0 =? nth (N.to_nat b) r 0).
(** glue.h:125-127: the letters the loop appends *)
Definition glue_chars : list N := filter (fun c => negb (c =? Epsilon)) (map N.of_nat (seq 0 (N.to_nat MaxChar))).
(** glue.h:124-127 *)
Definition glue_letters (l r : list N) : partition :=
  fold_left (fun p c => part_append (letters_eq l r) c p) glue_chars part_empty.
(** glue.h:137-142 Next *)
Definition glue_next (k : kind) (l r : scanner) (st : N * N) (c : N) : res (N * N) :=
  let* a := s_next k l (fst st) c in
  let* b := s_next k r (snd st) c in Ok (a, b).

Fixpoint mapm {A B} (f : A -> res B) (l : list A) : res (list B) :=
  match l with
  | [] => Ok []
  | x :: l' => let* y := f x in let* ys := mapm f l' in Ok (y :: ys)
  end.

(** multi.h:1034-1041: what the loop over the states writes for one of them: the final
    table entries and the flags *)
Definition glue_entry (k : kind) (l r : scanner) (st : N * N) : res (list N * N) :=
  let* x := s_accepted k l (fst st) in
  let* y := s_accepted k r (snd st) in
  let* fl := s_isfinal k l (fst st) in
  let* fr := (if fl then Ok true else s_isfinal k r (snd st)) in
  let* dl := s_isdead k l (fst st) in
  let* dr := (if dl then s_isdead k r (snd st) else Ok false) in
  Ok (x ++ map (fun i => (i + s_count l) mod two64) y, N.lor (if fr then FinalFlag else 0) (if dr then DeadFlag else 0)).
(** The final table and its index: m_final, m_finalIndex *)
Fixpoint glue_tables (es : list (list N * N)) (pos : N) : list N * list N :=
  match es with
  | [] => ([], [])
  | (ids, _) :: es' =>
      let here := ids ++ [End_mark] in
      let '(fin, idx) := glue_tables es' (pos + N.of_nat (length here)) in (here ++ fin, pos :: idx)
  end.
(** multi.h:1022-1042 AcceptStates.  [buf] is where Init allocates. *)
Definition glue_accept (k : kind) (buf : N) (l r : scanner) (p : partition) (states : list (N * N)) : res scanner :=
  let* es := mapm (glue_entry k l r) states in
  let total := fold_right (fun e n => (length (fst e) + n)%nat) 0%nat es in
  let* s := init_scanner k buf (length states) p total 0 (s_count l + s_count r) in
  let '(fin, idx) := glue_tables es 0 in
  foldm (fun s '(i, e) => set_tag s i (snd e)) (combine (seq 0 (length es)) es) (set_tables s fin idx).
(** multi.h:121, 339-344: a default constructed scanner aliases Null(), which is compiled
    from MakeFalse (at address [buf]) *)
Definition default_scanner (k : kind) (buf : N) : res scanner :=
  let* s := compile k buf make_false in
  Ok (mkScanner (s_states s) (s_nletters s) (s_regexps s) (s_initial s) (s_fsize s) (s_buf s)
    (s_letters s) (s_final s) (s_index s) (s_rows s) false true).
(** multi.h:1092-1103 Glue.  The result of the task, built at [b1], is returned by value,
    that is copied to [b2]; [null] is the default constructed scanner. *)
Definition glue (k : kind) (b1 b2 : N) (null l r : scanner) (maxSize : N) : res scanner :=
  if s_null l then Ok (copy_scanner k b2 r)
  else if s_null r then Ok (copy_scanner k b2 l)
  else
    let p := glue_letters (s_letters l) (s_letters r) in
    let* d := glue_run table_capacity (glue_next k l r) (part_list p) (s_initial l, s_initial r)
                (if maxSize =? 0 then 80000 else maxSize) in
    match d with
    | DetFuel => OutOfFuel
    | DetFail => Ok null
    | DetOk states tr =>
        let* s := glue_accept k b1 l r p states in
        let* s1 := foldm (fun s '(from, to, c) => set_jump k s from c to) (det_connects (part_list p) tr) s in
        Ok (copy_scanner k b2 (build_shortcuts k s1))
    end.
