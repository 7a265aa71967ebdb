(** Model of NoGlueLimitCountingScanner (extra/count.h, extra/count.cpp) (no proofs).
    The array Actions points to is a list; that a copy may share it with the scanner it was
    copied from (count.h:384) makes no difference, since it is never written to. *)
From Coq Require Import List Bool Arith NArith.
From Verif Require Import Util Spec PartitionModel FsmModel DetermineModel RunModel ScannerModel GlueModel CountModel AdvModel.
Import ListNotations.
Local Open Scope N_scope.

(** count.h:361-368: the tables, Actions (None: null) and AdvancedScannerCompatibilityMode *)
Record nscanner := mkNG { n_base : loaded; n_acts : option (list N); n_compat : bool }.
(** count.h:339-342 NoGlueLimitCountingState *)
Record nstate := mkNS { ns_state : N; ns_cur : list N; ns_tot : list N }.
(** loaded.h:117 RegexpsCount *)
Definition n_count (s : nscanner) : N := d_count (n_base s).

(** count.h:318-322, 403-406 Initialize *)
Definition n_init (s : nscanner) : nstate :=
  mkNS (d_initial (n_base s)) (repeat 0 (N.to_nat (n_count s))) (repeat 0 (N.to_nat (n_count s))).
(** count.h:323-326 Reset *)
Definition n_reset (i : N) (st : nstate) : res nstate :=
  if i <? N.of_nat (length (ns_cur st)) then Ok (mkNS (ns_state st) (upd (N.to_nat i) (fun _ => 0) (ns_cur st)) (ns_tot st)) else UB.
(** count.h:327-331 Increment; the counters are 32-bit *)
Definition n_incr (i : N) (st : nstate) : res nstate :=
  if (i <? N.of_nat (length (ns_cur st))) && (i <? N.of_nat (length (ns_tot st))) then
    let x := (nth (N.to_nat i) (ns_cur st) 0 + 1) mod two32 in
    Ok (mkNS (ns_state st) (upd (N.to_nat i) (fun _ => x) (ns_cur st)) (upd (N.to_nat i) (fun t => N.max t x) (ns_tot st)))
  else UB.
(** count.h:317 Result *)
Definition n_result (st : nstate) (i : nat) : res N :=
  match nth_error (ns_cur st) i, nth_error (ns_tot st) i with
  | Some c, Some t => Ok (N.max c t)
  | _, _ => UB
  end.

(** count.h:422-428, 468-473: a number and as many indices, from position [pos] on; the position
    after them *)
Definition ids_at (acts : list N) (pos : N) : res (list N * N) :=
  match nth_error acts (N.to_nat pos) with
  | None => UB
  | Some k =>
      let ids := firstn (N.to_nat k) (skipn (S (N.to_nat pos)) acts) in
      if N.of_nat (length ids) =? k then Ok (ids, pos + 1 + k) else UB
  end.
(** count.h:80-111 ResetPerformer on this State; the index is checked only if the bit is set *)
Definition n_resets (mask : N) (st : nstate) : res nstate :=
  foldm (fun st i =>
      if N.testbit mask (16 + N.of_nat i) then
        match nth_error (ns_cur st) i, nth_error (ns_tot st) i with
        | Some c, Some t => Ok (if c =? 0 then st else mkNS (ns_state st) (upd i (fun _ => 0) (ns_cur st)) (upd i (fun _ => N.max t c) (ns_tot st)))
        | _, _ => UB
        end
      else Ok st) re_indices st.
(** count.h:48-78 IncrementPerformer on this State *)
Definition n_increments (mask : N) (st : nstate) : res nstate :=
  foldm (fun st i =>
      if N.testbit mask (N.of_nat i) then
        match nth_error (ns_cur st) i with
        | Some c => Ok (mkNS (ns_state st) (upd i (fun _ => (c + 1) mod two32) (ns_cur st)) (ns_tot st))
        | None => UB
        end
      else Ok st) re_indices st.
(** count.h:486-494 AdvancedScannerTakeActionImpl *)
Definition n_take_compat (a : N) (st : nstate) : res nstate :=
  let* st1 := (if N.land a ResetMask =? 0 then Ok st else n_resets a st) in
  if N.land a IncrementMask =? 0 then Ok st1 else n_increments a st1.
(** count.h:408-438 TakeActionImpl *)
Definition n_take (s : nscanner) (a : N) (st : nstate) : res nstate :=
  if a =? 0 then Ok st
  else if n_compat s then n_take_compat a st
  else match n_acts s with
  | Some acts =>
      let* (rs, p) := ids_at acts a in
      let* st1 := foldm (fun st i => n_reset i st) rs st in
      let* (is, _) := ids_at acts p in
      foldm (fun st i => n_incr i st) is st1
  | None =>
      let* st1 := (if N.land a ResetAction =? 0 then Ok st else n_reset 0 st) in
      if N.land a IncrementAction =? 0 then Ok st1 else n_incr 0 st1
  end.
(** count.h:150-160 Next on a State *)
Definition n_next (s : nscanner) (st : nstate) (c : N) : res (nstate * N) :=
  let* (a, action) := d_next (n_base s) (ns_state st) c in
  Ok (mkNS a (ns_cur st) (ns_tot st), action).
(** run.h:47-52 Step, and what else run.h needs (count.h:168-170) *)
Definition n_ops (s : nscanner) : ops nstate :=
  mkOps (n_init s)
    (fun st c => let* (st1, a) := n_next s st c in n_take s a st1)
    (fun st c => let* (st1, _) := n_next s st c in Ok st1)
    (fun _ => Ok false) (fun _ => Ok false).

(** count.h:371 *)
Definition n_default (buf : N) : res nscanner := let* b := default_loaded buf in Ok (mkNG b None false).
(** count.h:372, 449-452, count.cpp:870-873 *)
Definition n_scanner (buf : N) (re sep : fsm) : res (nscanner * bool) :=
  let* (b, simple) := make_advanced (fun a => a) buf re sep in Ok (mkNG b None false, simple).
(** count.h:373-385: the copy constructor *)
Definition n_copy (buf : N) (s : nscanner) : nscanner :=
  mkNG (copy_loaded buf (n_base s)) (option_map (fun a => firstn (N.to_nat (hd 0 a)) a) (n_acts s)) (n_compat s).

(** count.h:454-474 GetActions *)
Definition get_actions (s : nscanner) (a shift : N) : res (list N * list N) :=
  if a =? 0 then Ok ([], [])
  else match n_acts s with
  | None => Ok (if N.land a ResetAction =? 0 then [] else [shift], if N.land a IncrementAction =? 0 then [] else [shift])
  | Some acts =>
      let* (rs, p) := ids_at acts a in
      let* (is, _) := ids_at acts p in
      Ok (map (fun i => (i + shift) mod two32) rs, map (fun i => (i + shift) mod two32) is)
  end.
(** count.cpp:937-941: what the two scanners do on leaving a pair of rows by a letter *)
Definition glue_key (l r : nscanner) (st : N * N) (c : N) : res (list N * list N) :=
  let* x := action_of (n_base l) (fst st) c in
  let* (r1, i1) := get_actions l x 0 in
  let* y := action_of (n_base r) (snd st) c in
  let* (r2, i2) := get_actions r y (n_count l mod two32) in
  Ok (r1 ++ r2, i1 ++ i2).
(** count.cpp:921-928, 974-975: the scanner that is built, glue_map_ and glue_actions_ *)
Record gstate := mkG { g_sc : loaded; g_map : list (list N * list N * N); g_acts : list N }.
(** count.cpp:924-926: keys neither of which is less are equal *)
Fixpoint ids_eqb (a b : list N) : bool :=
  match a, b with
  | [], [] => true
  | x :: a', y :: b' => (x =? y) && ids_eqb a' b'
  | _, _ => false
  end.
Fixpoint glue_find (k : list N * list N) (m : list (list N * list N * N)) : option N :=
  match m with
  | [] => None
  | (k', v) :: m' => if ids_eqb (fst k) (fst k') && ids_eqb (snd k) (snd k') then Some v else glue_find k m'
  end.
(** count.cpp:935-962 Connect *)
Definition n_connect (l r : nscanner) (states : list (N * N)) (g : gstate) (e : nat * nat * N) : res gstate :=
  let '(from, to, c) := e in
  match nth_error states from with
  | None => UB
  | Some st =>
      let* (rs, is) := glue_key l r st c in
      match rs ++ is with
      | [] => let* s1 := set_djump (g_sc g) from c to 0 in Ok (mkG s1 (g_map g) (g_acts g))
      | _ =>
          match glue_find (rs, is) (g_map g) with
          | Some v => let* s1 := set_djump (g_sc g) from c to v in Ok (mkG s1 (g_map g) (g_acts g))
          | None =>
              let v := N.of_nat (length (g_acts g)) mod two32 in
              let acts := g_acts g ++ (N.of_nat (length rs) mod two32 :: rs) ++ (N.of_nat (length is) mod two32 :: is) in
              let* s1 := set_djump (g_sc g) from c to v in Ok (mkG s1 ((rs, is, v) :: g_map g) acts)
          end
      end
  end.
(** count.cpp:966-971, count.h:476-484 Success and AcceptActions *)
Definition n_success (g : gstate) : nscanner :=
  mkNG (g_sc g) (Some (upd 0 (fun _ => N.of_nat (length (g_acts g)) mod two32) (g_acts g))) false.
(** count.cpp:1000-1005 Glue.  The result of the task, built at [b1], is returned by value, that
    is copied to [b2]; [null] is the default constructed scanner. *)
Definition n_glue (b1 b2 : N) (null l r : nscanner) (maxSize : N) : res nscanner :=
  let p := glue_letters (d_letters (n_base l)) (d_letters (n_base r)) in
  let* d := detm_run pair_eqb (dglue_next (n_base l) (n_base r)) (part_list p) (d_initial (n_base l), d_initial (n_base r))
              (if maxSize =? 0 then 250000 else maxSize) in
  match d with
  | DetFuel => OutOfFuel
  | DetFail => Ok null
  | DetOk states tr =>
      let* s := dglue_accept b1 (n_base l) (n_base r) p states in
      let* g := foldm (n_connect l r states) (det_connects (part_list p) tr) (mkG s [] [1]) in
      Ok (n_copy b2 (n_success g))
  end.
