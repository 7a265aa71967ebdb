(** Model of scanners/simple.h and scanners/slow.h. *)
From Coq Require Import List Bool Arith NArith.
From Verif Require Import Util Spec PartitionModel FsmModel DetermineModel MinimizeModel RunModel ScannerModel.
Import ListNotations.
Local Open Scope N_scope.

(** ** SimpleScanner *)

(** simple.h:41 STATE_ROW_SIZE *)
Definition simple_row : N := MaxChar + 1.
(** simple.h:168-177.  [p_buf] is the address of the table (m_transitions), [p_words] its
    contents; [p_owned] says that m_buffer is set.  [p_null]: m_transitions is the table of
    Null() (simple.h:54 Empty). *)
Record simple := mkSimple { p_states : N; p_initial : N; p_buf : N; p_words : list N; p_owned : bool; p_null : bool }.
Definition set_words (s : simple) (x : list N) := mkSimple (p_states s) (p_initial s) (p_buf s) x (p_owned s) (p_null s).

(** Reading the 64-bit word at address [a]; anything but an aligned address inside the table
    is undefined. *)
Definition simple_read (s : simple) (a : N) : res N :=
  if (a <? p_buf s) || negb ((a - p_buf s) mod 8 =? 0) then UB
  else match nth_error (p_words s) (N.to_nat ((a - p_buf s) / 8)) with Some x => Ok x | None => UB end.
(** simple.h:74-79 Next; pointers are 64-bit *)
Definition simple_next (s : simple) (a c : N) : res N :=
  let* shift := simple_read s (a + 8 * c) in Ok ((a + shift) mod two64).
(** simple.h:62 Final *)
Definition simple_final (s : simple) (a : N) : res bool := let* x := simple_read s (a - 8) in Ok (negb (x =? 0)).
(** simple.h:66-68, 190-200 AcceptedRegexps *)
Definition simple_accepted (s : simple) (a : N) : res (list N) := let* f := simple_final s a in Ok (if f : bool then [0] else []).
(** simple.h:58 RegexpsCount *)
Definition simple_count (s : simple) : N := if p_null s then 0 else 1.
(** simple.h:154-157 StateIndex *)
Definition simple_index (s : simple) (a : N) : N := (a - p_buf s) / (simple_row * 8).
(** simple.h:64, 71, 81: Dead is always false, TakeAction does nothing *)
Definition simple_ops (s : simple) : ops N :=
  mkOps (p_initial s) (simple_next s) (simple_next s) (simple_final s) (fun _ => Ok false).

(** A store into the table *)
Definition simple_write (ws : list N) (i : N) (v : N) : res (list N) :=
  if i <? N.of_nat (length ws) then Ok (upd (N.to_nat i) (fun _ => v) ws) else UB.
(** simple.h:227-231 SetTag *)
Definition simple_set_tag (ws : list N) (q : nat) (tag : N) : res (list N) := simple_write ws (N.of_nat q * simple_row) tag.
(** simple.h:210-217 SetJump *)
Definition simple_set_jump (ws : list N) (from : nat) (c : N) (to : nat) : res (list N) :=
  simple_write ws (N.of_nat from * simple_row + 1 + c)
    (((N.of_nat to + two64 - N.of_nat from) mod two64 * simple_row * 8) mod two64).
(** simple.h:234-260, with distance 0; the buffer is allocated at [buf] *)
Definition simple_compile (buf : N) (f : fsm) : res simple :=
  let* g := canonize f 0 in
  let* w1 := foldm (fun ws q => simple_set_tag ws q (N.lor (fsm_tag g q) (if is_final g q then 1 else 0)))
    (seq 0 (size g)) (repeat 0 (size g * N.to_nat simple_row)) in
  let* w2 := foldm (fun ws from =>
      foldm (fun ws '(c, (_, ms)) =>
        foldm (fun ws l => foldm (fun ws to => simple_set_jump ws from l to) (destinations g from c) ws) ms ws)
      (pset (letters g)) ws) (seq 0 (size g)) w1 in
  Ok (mkSimple (N.of_nat (size g)) (buf + (N.of_nat (initial g) * simple_row + 1) * 8) buf w2 true false).
(** simple.h:49, 100-107, 184-188: the default constructor aliases Null() *)
Definition simple_default (buf : N) : res simple :=
  let* s := simple_compile buf make_false in
  Ok (mkSimple (p_states s) (p_initial s) (p_buf s) (p_words s) false true).
(** simple.h:83-97: the copy constructor; a scanner without a buffer is aliased *)
Definition simple_copy (buf : N) (s : simple) : simple :=
  if p_owned s then mkSimple (p_states s) ((p_initial s + (buf + two64 - p_buf s)) mod two64) buf (p_words s) true false else s.

(** ** SlowScanner *)

(** slow.h:341-357.  m_vec while the scanner is in memory, m_jumpPos and m_jumps when it is
    mapped; states are numbered in 32 bits.  need_actions is false. *)
Inductive jump_table := InVec (v : list (list N)) | Mapped (pos jumps : list N).
Record slow := mkSlow { w_states : N; w_lcount : N; w_start : N; w_letters : list N; w_finals : list bool; w_jumps : jump_table; w_null : bool }.

(** slow.h:107-121: the destinations of a state for a translated letter.  The elements
    between two positions of m_jumps; undefined if they are not inside the table. *)
Definition slow_dests (s : slow) (q l : N) : res (list N) :=
  let i := N.to_nat (q * w_lcount s + l) in
  match w_jumps s with
  | InVec v => match nth_error v i with Some d => Ok d | None => UB end
  | Mapped pos jumps =>
      match nth_error pos i, nth_error pos (S i) with
      | Some b, Some e => if (b <=? e) && (e <=? N.of_nat (length jumps)) then Ok (firstn (N.to_nat (e - b)) (skipn (N.to_nat b) jumps)) else UB
      | _, _ => UB
      end
  end.
(** slow.h:123-127.  Simplification: the bit set is the list of the states pushed so far;
    setting a bit outside it is undefined. *)
Fixpoint slow_push (n : N) (ds acc : list N) : res (list N) :=
  match ds with
  | [] => Ok acc
  | d :: ds' => if d <? n then slow_push n ds' (if existsb (N.eqb d) acc then acc else acc ++ [d]) else UB
  end.
(** slow.h:103-131 NextTranslated *)
Definition slow_next_translated (s : slow) (cur : list N) (l : N) : res (list N) :=
  foldm (fun acc q => let* ds := slow_dests s q l in slow_push (w_states s) ds acc) cur [].
(** slow.h:98-101, 133-136 *)
Definition slow_next (s : slow) (cur : list N) (c : N) : res (list N) :=
  match nth_error (w_letters s) (N.to_nat c) with Some l => slow_next_translated s cur l | None => UB end.
(** slow.h:152-158 Final *)
Fixpoint slow_final (s : slow) (cur : list N) : res bool :=
  match cur with
  | [] => Ok false
  | q :: cur' => match nth_error (w_finals s) (N.to_nat q) with Some true => Ok true | Some false => slow_final s cur' | None => UB end
  end.
Definition slow_accepted (s : slow) (cur : list N) : res (list N) := let* f := slow_final s cur in Ok (if f : bool then [0] else []).
(** slow.h:88 *)
Definition slow_count (s : slow) : N := if w_null s then 0 else 1.
(** slow.h:90-96 Initialize, 160-163 Dead *)
Definition slow_ops (s : slow) : ops (list N) :=
  mkOps [w_start s] (slow_next s) (slow_next s) (slow_final s) (fun _ => Ok false).

(** slow.h:437-452: Run keeps two states and exchanges pointers to them; [src] is the
    current one, [dest] is overwritten by every step *)
Fixpoint slow_run_loop (s : slow) (m : mem) (n : nat) (b : N) (src dest : list N) : res (list N) :=
  match n with
  | O => Ok src
  | S j => let* c := load8 m b in let* d := slow_next s src c in slow_run_loop s m j (b + 1) d src
  end.
Definition slow_run (s : slow) (m : mem) (b e : N) (st : list N) : res (list N) :=
  slow_run_loop s m (N.to_nat (e - b)) b st [w_start s].

(** slow.h:387-397 SetJump; [letters] is m_letters *)
Definition slow_set_jump (lcount : N) (letters : list N) (v : list (list N)) (from : nat) (c : N) (to : nat) : res (list (list N)) :=
  match nth_error letters (N.to_nat c) with
  | Some l =>
      let i := N.to_nat (N.of_nat from * lcount + l) in
      if (i <? length v)%nat then Ok (upd i (fun d => d ++ [N.of_nat to mod two32]) v) else UB
  | None => UB
  end.
(** slow.h:275-279: the letter table; later classes overwrite earlier ones *)
Definition slow_letters (p : partition) : list N :=
  fold_left (fun acc '(_, (idx, ms)) => fold_left (fun a c => upd (N.to_nat c) (fun _ => N.of_nat idx) a) ms acc)
    (pset p) (repeat 0 (N.to_nat MaxChar)).
(** slow.h:252-283 with needActions = false, removeEpsilons = true, distance = 0, and
    fsm.h:251-271 BuildScanner with DeadFlag = 0, FinalFlag = 1; slow.h:402 SetTag. *)
Definition slow_compile (f : fsm) : res slow :=
  let g := sparse (remove_epsilons f) in
  let n := size g in
  let lc := N.of_nat (part_size (letters g)) in
  let ls := slow_letters (letters g) in
  let* v := foldm (fun v from =>
      foldm (fun v '(c, _) => foldm (fun v to => slow_set_jump lc ls v from c to) (destinations g from c) v)
      (part_list (letters g)) v) (seq 0 n) (repeat [] (n * N.to_nat lc)) in
  Ok (mkSlow (N.of_nat n) lc (N.of_nat (initial g)) ls
    (map (fun q => negb (N.lor (fsm_tag g q) (if is_final g q then 1 else 0) mod 256 =? 0)) (seq 0 n)) (InVec v) false).
(** slow.h:76-79, 372-385: the default constructor aliases Null() *)
Definition slow_default : res slow :=
  let* s := slow_compile make_false in
  Ok (mkSlow (w_states s) (w_lcount s) (w_start s) (w_letters s) (w_finals s) (w_jumps s) true).
(** slow.h:225-250: the copy constructor.  If m_vec is empty the pointers are copied and
    m_vecptr becomes null (so a copy of an alias of Null(), which has m_vec empty and
    m_jumpPos null, has no table at all: [Mapped [] []]). *)
Definition slow_copy (s : slow) : slow :=
  match w_jumps s with
  | InVec v => if w_null s then mkSlow (w_states s) (w_lcount s) (w_start s) (w_letters s) (w_finals s) (Mapped [] []) true else s
  | Mapped _ _ => s
  end.
