(** Model of saving, loading and mapping LoadedScanner, which is what CountingScanner and
    AdvancedCountingScanner inherit, and NoGlueLimitCountingScanner (no proofs). *)
From Coq Require Import List Bool Arith NArith.
From Verif Require Import Util Spec PartitionModel FsmModel DetermineModel RunModel ScannerModel GlueModel IoModel CountModel AdvModel NgModel.
Import ListNotations.
Local Open Scope N_scope.

(** ** LoadedScanner *)

(** loaded.h:229-234 Locals, 24 bytes.  The four bytes before [initial] are padding, which
    nothing sets: [pad] is whatever is there. *)
Definition loaded_locals (pad : list N) (s : loaded) (initial : N) : list N :=
  le 4 (d_states s) ++ le 4 (d_nletters s) ++ le 4 (d_regexps s) ++ pad ++ le 8 initial.
(** loaded.h:60-66 Transition *)
Definition jump_word (j : N * N) : N := fst j + two32 * snd j.
Definition word_jump (x : N) : N * N := (x mod two32, x / two32).
(** scanner_io.cpp:172-189 Save.  m.statesCount * m.lettersCount is a product of 32-bit numbers;
    that it overflows is taken to be undefined. *)
Definition save_loaded (pad : list N) (ty : N) (s : loaded) : res (list N) :=
  if two32 <=? d_states s * d_nletters s then UB
  else Ok (header_bytes ty 24 ++ align_save 24 ++
    loaded_locals pad s ((d_initial s + two64 - d_base s) mod two64) ++ align_save 24 ++
    aligned_save_array 1 (d_letters s) ++ aligned_save_array 8 (map jump_word (d_jumps s)) ++ aligned_save_array 1 (d_tags s)).
(** The scanner whose Locals are [l] (the initial state relative to the table), with the tables
    given; the letters are at [buf] and the transitions right behind them (loaded.h:267-272;
    MaxChar is a multiple of 8, so in an image they are, too). *)
Definition loaded_at (l : list N) (buf : N) (owned : bool) (ls js ts : list N) : loaded :=
  let cells := field 0 4 l * field 4 4 l in
  mkLoaded (field 0 4 l) (field 4 4 l) (field 8 4 l) ((field 16 8 l + (buf + MaxChar)) mod two64) buf
    (words 1 MaxChar ls) (map word_jump (words 8 cells js)) (words 1 (field 0 4 l) ts) owned false.
(** scanner_io.cpp:191-215 Load; the buffer is allocated at [buf], [null] is Null().  The type
    the header says, the new contents of the object and the rest of the stream; the object is
    unchanged when this throws. *)
Definition load_loaded (buf : N) (null : loaded) (st : stream) : res (N * loaded * stream) :=
  let* (h, st1) := load_header ty_loaded 24 st in
  let* (l, st2) := aligned_load 24 (Some (loaded_locals (zeros 4) null (d_initial null))) st1 in
  let cells := field 0 4 l * field 4 4 l in
  if two32 <=? cells then UB
  else
    let* (ls, st3) := aligned_load MaxChar None st2 in
    let* (js, st4) := aligned_load (8 * cells) None st3 in
    let* st5 := (if h_version h =? RE_VERSION_WITH_MACTIONS
                 then let* (_, st') := aligned_load (4 * cells) (Some (zeros (4 * cells))) st4 in Ok st'
                 else Ok st4) in
    let* (ts, st6) := aligned_load (field 0 4 l) None st5 in
    Ok (h_type h, loaded_at l buf true ls js ts, st6).
(** loaded.h:121-151 Mmap: the type, the new contents of the object, and the pointer returned
    with the size left *)
Definition mmap_loaded (m : mem) (ptr size : N) : res (N * loaded * cursor) :=
  let* _ := check_align ptr in
  let* (h, c1) := map_header m ty_loaded 24 (ptr, size) in
  let* c2 := map_ptr 24 1 c1 in
  let* l := peek m 24 (fst c1) in
  let cells := field 0 4 l * field 4 4 l in
  if two32 <=? cells then UB
  else
    let* c3 := map_ptr 1 MaxChar c2 in
    let* c4 := map_ptr 8 cells c3 in
    let* c5 := (if h_version h =? RE_VERSION_WITH_MACTIONS then map_ptr 4 cells c4 else Ok c4) in
    let* c6 := map_ptr 1 (field 0 4 l) c5 in
    let* ls := peek m (N.to_nat MaxChar) (fst c2) in
    let* js := peek m (N.to_nat (8 * cells)) (fst c3) in
    let* ts := peek m (N.to_nat (field 0 4 l)) (fst c5) in
    Ok (h_type h, loaded_at l (fst c2) false ls js ts, c6).
(** scanner_io.cpp:172-174, 191-193, loaded.h:121-123: Save, Load and Mmap of CountingScanner and
    AdvancedCountingScanner *)
Definition d_save (pad : list N) (s : loaded) : res (list N) := save_loaded pad ty_loaded s.
Definition d_load (buf : N) (null : loaded) (st : stream) : res (loaded * stream) :=
  let* (x, st1) := load_loaded buf null st in Ok (snd x, st1).
Definition d_mmap (m : mem) (ptr size : N) : res (loaded * N) :=
  let* (x, c) := mmap_loaded m ptr size in Ok (snd x, fst c).

(** ** NoGlueLimitCountingScanner *)

(** count.cpp:1009-1018 Save; the assertion that the scanner is not in compatibility mode is
    disabled.  Reading behind the array is undefined. *)
Definition n_save (pad : list N) (s : nscanner) : res (list N) :=
  let* a := save_loaded pad ty_no_glue_limit (n_base s) in
  match n_acts s with
  | Some t => if N.of_nat (length t) <? hd 0 t then UB else Ok (a ++ array 4 (firstn (N.to_nat (hd 0 t)) t))
  | None => Ok (a ++ le 4 0)
  end.
(** count.cpp:1020-1040 Load into the object [this].  When this throws the tables may have been
    replaced already; what the object then is, is not modelled. *)
Definition n_load (this : nscanner) (buf : N) (null : loaded) (st : stream) : res (nscanner * stream) :=
  let* (x, st1) := load_loaded buf null st in
  if fst x =? ty_no_glue_limit then
    let* (k, st2) := read 4 None st1 in
    let n := unle k in
    if n =? 0 then Ok (mkNG (snd x) None (n_compat this), st2)
    else let* (b, st3) := read (4 * (n - 1)) None st2 in
         Ok (mkNG (snd x) (Some (n :: words 4 (n - 1) b)) (n_compat this), st3)
  else Ok (mkNG (snd x) (n_acts this) true, st1).
(** count.cpp:1042-1061 Mmap.  Whether the array of actions is within the size given is not
    checked.  It is read here, while the code only keeps a pointer to it. *)
Definition n_mmap (m : mem) (ptr size : N) : res (nscanner * N) :=
  let* (x, c) := mmap_loaded m ptr size in
  if fst x =? ty_no_glue_limit then
    let* k := peek m 4 (fst c) in
    let n := unle k in
    if n =? 0 then Ok (mkNG (snd x) None false, fst (advance 4 c))
    else let* b := peek m (N.to_nat (4 * n)) (fst c) in
         Ok (mkNG (snd x) (Some (words 4 n b)) false, fst (advance (4 * n) c))
  else Ok (mkNG (snd x) None true, fst c).
