(** Model of stub/saveload.h, align.h and scanners/common.h, and of saving, loading and
    mapping Scanner, SimpleScanner and SlowScanner (no proofs).  64-bit little-endian build,
    sizeof(MaxSizeWord) = 16. *)
From Coq Require Import List Bool Arith NArith.
From Verif Require Import Util Spec PartitionModel FsmModel DetermineModel MinimizeModel RunModel ScannerModel GlueModel SimpleModel.
Import ListNotations.
Local Open Scope N_scope.

(** ** Bytes *)

(** The object representation of an unsigned integer of [n] bytes. *)
Fixpoint le (n : nat) (x : N) : list N :=
  match n with O => [] | S j => x mod 256 :: le j (x / 256) end.
Fixpoint unle (l : list N) : N :=
  match l with [] => 0 | b :: l' => b + 256 * unle l' end.
Definition zeros (n : N) : list N := repeat 0 (N.to_nat n).
(** The member of [n] bytes at offset [off]. *)
Definition field (off n : nat) (bs : list N) : N := unle (firstn n (skipn off bs)).
(** The elements of an array of [count] elements of [n] bytes. *)
Fixpoint chunks (n : nat) (count : nat) (bs : list N) : list (list N) :=
  match count with O => [] | S j => firstn n bs :: chunks n j (skipn n bs) end.
Definition words (n : nat) (count : N) (bs : list N) : list N := map unle (chunks n (N.to_nat count) bs).
Definition array (n : nat) (xs : list N) : list N := flat_map (le n) xs.

(** ** Streams *)

(** What is left of an input stream, and whether reading past its end throws.  The streams of
    stub/memstreams.h:119 do (exceptions(badbit | eofbit)); a std::istream left as
    constructed does not. *)
Record stream := mkStream { st_throws : bool; st_left : list N }.
(** stub/saveload.h:149-153, 166-170 LoadPodType, LoadPodArray: [n] bytes are read into storage that
    holds [old].  When the stream ends early and does not throw, the rest of the storage
    stays as it was; [None] says that it was not initialised, its use is undefined. *)
Definition read (n : N) (old : option (list N)) (st : stream) : res (list N * stream) :=
  if n <=? N.of_nat (length (st_left st)) then
    Ok (firstn (N.to_nat n) (st_left st), mkStream (st_throws st) (skipn (N.to_nat n) (st_left st)))
  else if st_throws st then Throw EStream
  else match old with
       | None => UB
       | Some o => Ok (st_left st ++ skipn (length (st_left st)) o, mkStream false [])
       end.

(** align.h:48-55 AlignSave and 57-64 AlignLoad: the padding after [size] bytes *)
Definition padding (size : N) : N := align_up size 8 - size.
Definition align_save (size : N) : list N := zeros (padding size).
Definition align_load (size : N) (st : stream) : res stream :=
  if padding size =? 0 then Ok st
  else let* (_, st1) := read (padding size) (Some (zeros (padding size))) st in Ok st1.
(** align.h:66-78 *)
Definition aligned_save_array (n : nat) (xs : list N) : list N :=
  array n xs ++ align_save (N.of_nat n * N.of_nat (length xs)).
Definition aligned_load (size : N) (old : option (list N)) (st : stream) : res (list N * stream) :=
  let* (b, st1) := read size old st in
  let* st2 := align_load size st1 in Ok (b, st2).

(** A bool is one byte, 0 or 1; any other value is undefined. *)
Definition bool_byte (b : bool) : list N := [if b then 1 else 0].
Definition to_bool (bs : list N) : res bool :=
  match bs with [0] => Ok false | [1] => Ok true | _ => UB end.

(** ** Header *)

(** common.h:34-41 ScannerIOTypes *)
Definition ty_scanner : N := 1.
Definition ty_simple : N := 2.
Definition ty_slow : N := 3.
Definition ty_loaded : N := 4.
Definition ty_no_glue_limit : N := 5.
(** common.h:52-54 *)
Definition MAGIC : N := 1163020624.
Definition RE_VERSION : N := 7.
Definition RE_VERSION_WITH_MACTIONS : N := 6.
(** common.h:44-63 *)
Definition header_bytes (ty hdrsize : N) : list N :=
  le 4 MAGIC ++ le 4 RE_VERSION ++ le 4 8 ++ le 4 16 ++ le 4 ty ++ le 4 hdrsize.
Definition h_magic (h : list N) : N := field 0 4 h.
Definition h_version (h : list N) : N := field 4 4 h.
Definition h_ptr_size (h : list N) : N := field 8 4 h.
Definition h_word_size (h : list N) : N := field 12 4 h.
Definition h_type (h : list N) : N := field 16 4 h.
Definition h_hdr_size (h : list N) : N := field 20 4 h.
(** common.h:65-77 Validate *)
Definition validate (ty hdrsize : N) (h : list N) : res unit :=
  if negb (h_magic h =? MAGIC) || negb (h_ptr_size h =? 8) || negb (h_word_size h =? 16) then Throw EImage
  else if negb (h_version h =? RE_VERSION) && negb (h_version h =? RE_VERSION_WITH_MACTIONS) then Throw EImage
  else if negb (ty =? 0) && negb (ty =? h_type h) && negb ((ty =? ty_loaded) && (h_type h =? ty_no_glue_limit)) then Throw EImage
  else if negb (hdrsize =? 0) && negb (h_hdr_size h =? hdrsize) then Throw EImage
  else Ok tt.
(** common.h:112-119 ValidateHeader of a stream *)
Definition load_header (ty hdrsize : N) (st : stream) : res (list N * stream) :=
  let* (h, st1) := aligned_load 24 (Some (header_bytes 0 0)) st in
  let* _ := validate ty hdrsize h in Ok (h, st1).

(** ** Mapped memory *)

(** The bytes [a, a + n); touching memory that is not there is undefined. *)
Fixpoint peek (m : mem) (n : nat) (a : N) : res (list N) :=
  match n with
  | O => Ok []
  | S j => let* b := load8 m a in let* bs := peek m j (a + 1) in Ok (b :: bs)
  end.
(** The pointer and the size the mapping functions carry along. *)
Definition cursor := (N * N)%type.
(** common.h:81-86 AdvancePtr, in 64-bit arithmetic *)
Definition advance (d : N) (c : cursor) : cursor :=
  (((fst c) + d) mod two64, (snd c + two64 - d mod two64) mod two64).
(** align.h:86-97 AlignPtr.  [p+size] and [next - p] are arithmetic on pointers to size_t:
    the limit is 8 times as far as the size says, and the distance is counted in words,
    rounded down, so nothing is deducted from the size. *)
Definition align_ptr (c : cursor) : res cursor :=
  let '(p, size) := c in
  if p mod 8 =? 0 then Ok c
  else let next := align_up p 8 in
       if (p + 8 * size) mod two64 <? next then Throw EImage
       else Ok (next, size - (next - p) / 8).
(** common.h:88-96 MapPtr: the field is at the old pointer *)
Definition map_ptr (sz count : N) (c : cursor) : res cursor :=
  if snd c <? (count * sz) mod two64 then Throw EImage
  else align_ptr (advance ((count * sz) mod two64) c).
(** common.h:104-110 ValidateHeader of memory *)
Definition map_header (m : mem) (ty hdrsize : N) (c : cursor) : res (list N * cursor) :=
  let* c1 := map_ptr 24 1 c in
  let* h := peek m 24 (fst c) in
  let* _ := validate ty hdrsize h in Ok (h, c1).
(** common.h:98-102 CheckAlign *)
Definition check_align (p : N) : res unit := if p mod 8 =? 0 then Ok tt else Throw EImage.
(** multi.h:263-265, simple.h:136-138, slow.h:184-186: the flag is read whatever the size *)
Definition map_empty (m : mem) (c : cursor) : res (bool * cursor) :=
  let* e := peek m 1 (fst c) in
  let* e := to_bool e in
  let* c1 := align_ptr (advance 1 c) in Ok (e, c1).

(** ** Scanner *)

(** multi.h:56, 72 *)
Definition reloc_sig (k : kind) : N := if k_reloc k then 1 else 2.
(** multi.h:701, 828 *)
Definition short_sig (n : nat) : N := match n with O => 4096 | _ => 8192 + N.of_nat n end.
(** multi.h:315-323 Locals, 48 bytes.  The padding after regexpsCount and finalTableSize is
    zero (memset, multi.h:355); copying the structure is taken to copy it too. *)
Definition scanner_locals (k : kind) (s : scanner) (initial : N) : list N :=
  le 4 (s_states s) ++ le 4 (s_nletters s) ++ le 4 (s_regexps s) ++ zeros 4 ++ le 8 initial ++
  le 4 (s_fsize s) ++ zeros 4 ++ le 8 (reloc_sig k) ++ le 8 (short_sig (k_nmask k)).
(** The bytes of a row: the header (multi.h:109-121, 766-768), the transitions and the
    padding up to RowSize. *)
Definition row_image (k : kind) (nletters : N) (r : srow) : list N :=
  let b := array 8 (r_masks r) ++ le 8 (r_flags r) ++ array (N.to_nat (tsz k)) (r_jumps r) in
  b ++ zeros (row_bytes k nletters - N.of_nat (length b)).
(** multi.h:381-388 Markup: the parts of the buffer *)
Definition scanner_buffer (k : kind) (s : scanner) : list N :=
  array 2 (s_letters s) ++ array 8 (s_final s) ++ array 8 (s_index s) ++ flat_map (row_image k (s_nletters s)) (s_rows s).
(** multi.h:558-573 SaveScanner of a relocatable scanner.  The buffer is m_buffer.get(),
    which is null in a mapped scanner; it is taken to be aligned as it is (operator new[]
    returns aligned memory), so the tables begin where it does. *)
Definition save_reloc (n : nat) (s : scanner) : res (list N) :=
  let k := mkKind true n in
  let front := header_bytes ty_scanner 48 ++ align_save 24 ++
    scanner_locals k s ((s_initial s + two64 - s_base s) mod two64) ++ align_save 48 ++ bool_byte (s_null s) ++ align_save 1 in
  if s_null s then Ok front
  else if s_owned s then Ok (front ++ scanner_buffer k s ++ align_save (buf_size k s))
  else UB.
(** multi.h:604-608: a nonrelocatable scanner is converted first; [b] is where the copy is
    built, [rnull] the Null() of the relocatable type *)
Definition save_scanner (k : kind) (b : N) (rnull s : scanner) : res (list N) :=
  if k_reloc k then save_reloc (k_nmask k) s
  else save_reloc (k_nmask k) (convert_scanner k (mkKind true (k_nmask k)) b rnull s).

(** A row of the table. *)
Definition row_at (k : kind) (nletters : N) (bs : list N) : srow :=
  mkRow (words 8 (4 * N.of_nat (k_nmask k)) bs) (field (32 * k_nmask k) 8 bs)
    (words (N.to_nat (tsz k)) nletters (skipn (N.to_nat (header_size k * tsz k)) bs)).
(** The scanner whose Locals are [l] (the initial state relative to the table) and whose
    tables are the bytes [bs] at [buf]. *)
Definition scanner_head (l : list N) (buf : N) (owned : bool) : scanner :=
  mkScanner (field 0 4 l) (field 4 4 l) (field 8 4 l) (field 16 8 l) (field 24 4 l) buf [] [] [] [] owned false.
Definition scanner_at (k : kind) (l : list N) (buf : N) (owned : bool) (bs : list N) : scanner :=
  let s := scanner_head l buf owned in
  let fin := skipn (N.to_nat (2 * MaxChar)) bs in
  let idx := skipn (N.to_nat (8 * s_fsize s)) fin in
  let rows := skipn (N.to_nat (8 * s_states s)) idx in
  mkScanner (s_states s) (s_nletters s) (s_regexps s) ((s_initial s + s_base s) mod two64) (s_fsize s) buf
    (words 2 MaxChar bs) (words 8 (s_fsize s) fin) (words 8 (s_states s) idx)
    (map (row_at k (s_nletters s)) (chunks (N.to_nat (row_bytes k (s_nletters s))) (N.to_nat (s_states s)) rows)) owned false.
(** multi.h:575-599 LoadScanner of a relocatable scanner; [null] is Null() and the buffer is
    allocated at [buf].  The new contents of the object; it is unchanged when this throws.
    Note that the relocation signature is not looked at.  Simplification: a BufSize that
    overflows is undefined. *)
Definition load_reloc (n : nat) (buf : N) (null : scanner) (st : stream) : res (scanner * stream) :=
  let k := mkKind true n in
  let* (_, st1) := load_header ty_scanner 48 st in
  let* (l, st2) := aligned_load 48 (Some (scanner_locals k null (s_initial null))) st1 in
  if negb (field 40 8 l =? short_sig n) then Throw EImage
  else
    let* (e, st3) := aligned_load 1 None st2 in
    let* empty := to_bool e in
    if empty : bool then Ok (null, st3)
    else
      let size := buf_size k (scanner_head l buf true) in
      if two64 <=? size then UB
      else let* (bs, st4) := aligned_load size None st3 in
           let* _ := check_align buf in
           Ok (scanner_at k l buf true bs, st4).
(** multi.h:610-616: a nonrelocatable scanner is loaded as a relocatable one at [b] and
    converted *)
Definition load_scanner (k : kind) (b buf : N) (rnull null : scanner) (st : stream) : res (scanner * stream) :=
  if k_reloc k then load_reloc (k_nmask k) buf null st
  else let* (s, st1) := load_reloc (k_nmask k) b rnull st in
       Ok (convert_scanner (mkKind true (k_nmask k)) k buf null s, st1).
(** multi.h:240-280 Mmap (relocatable scanners only, multi.h:75-77): the new contents of
    the object and the pointer returned *)
Definition mmap_scanner (n : nat) (null : scanner) (m : mem) (ptr size : N) : res (scanner * N) :=
  let k := mkKind true n in
  let* _ := check_align ptr in
  let* (_, c1) := map_header m ty_scanner 48 (ptr, size) in
  if snd c1 <? 48 then Throw EImage
  else
    let* l := peek m 48 (fst c1) in
    if negb (field 32 8 l =? reloc_sig k) then Throw EImage
    else
      let* c2 := align_ptr (advance 48 c1) in
      if negb (field 40 8 l =? short_sig n) then Throw EImage
      else
        let* (empty, c3) := map_empty m c2 in
        if empty : bool then let* c4 := align_ptr c3 in Ok (null, fst c4)
        else
          let bsize := buf_size k (scanner_head l (fst c3) false) in
          if two64 <=? bsize then UB
          else if snd c3 <? bsize then Throw EImage
          else
            let* _ := check_align (fst c3) in
            let* bs := peek m (N.to_nat bsize) (fst c3) in
            let* c4 := align_ptr (advance bsize c3) in
            Ok (scanner_at k l (fst c3) false bs, fst c4).

(** ** SimpleScanner *)

(** simple.h:160-163 BufSize *)
Definition simple_buf_size (states : N) : N := (simple_row * states * 8) mod two64.
(** simple.h:169-172 Locals *)
Definition simple_locals (s : simple) (initial : N) : list N := le 8 (p_states s) ++ le 8 initial.
(** scanner_io.cpp:35-49.  Saving a mapped scanner fails the assertion (or, without
    assertions, reads through a null pointer). *)
Definition save_simple (s : simple) : res (list N) :=
  let front := header_bytes ty_simple 16 ++ align_save 24 ++
    simple_locals s ((p_initial s + two64 - p_buf s) mod two64) ++ align_save 16 ++ bool_byte (p_null s) ++ align_save 1 in
  if p_null s then Ok front
  else if p_owned s then Ok (front ++ array 8 (p_words s) ++ align_save (simple_buf_size (p_states s)))
  else UB.
(** The scanner with the given Locals and table; the table takes whole words. *)
Definition simple_at (l : list N) (buf : N) (owned : bool) (bs : list N) : simple :=
  mkSimple (field 0 8 l) ((field 8 8 l + buf) mod two64) buf (words 8 (N.of_nat (length bs) / 8) bs) owned false.
(** scanner_io.cpp:51-69 *)
Definition load_simple (buf : N) (null : simple) (st : stream) : res (simple * stream) :=
  let* (_, st1) := load_header ty_simple 16 st in
  let* (l, st2) := aligned_load 16 (Some (simple_locals null (p_initial null))) st1 in
  let* (e, st3) := aligned_load 1 None st2 in
  let* empty := to_bool e in
  if empty : bool then Ok (null, st3)
  else let* (bs, st4) := aligned_load (simple_buf_size (field 0 8 l)) None st3 in
       Ok (simple_at l buf true bs, st4).
(** simple.h:122-152 Mmap.  [this] is the object before: it is only replaced when the image
    is not empty. *)
Definition mmap_simple (this : simple) (m : mem) (ptr size : N) : res (simple * N) :=
  let* _ := check_align ptr in
  let* (_, c1) := map_header m ty_simple 16 (ptr, size) in
  if snd c1 <? 16 then Throw EImage
  else
    let* l := peek m 16 (fst c1) in
    let* c2 := align_ptr (advance 16 c1) in
    let* (empty, c3) := map_empty m c2 in
    if empty : bool then let* c4 := align_ptr c3 in Ok (this, fst c4)
    else
      let bsize := simple_buf_size (field 0 8 l) in
      if snd c3 <? bsize then Throw EImage
      else
        let* bs := peek m (N.to_nat bsize) (fst c3) in
        let* c4 := align_ptr (advance bsize c3) in
        Ok (simple_at l (fst c3) false bs, fst c4).

(** ** SlowScanner (need_actions is false) *)

(** slow.h:341-345 Locals *)
Definition slow_locals (s : slow) : list N := le 8 (w_states s) ++ le 8 (w_lcount s) ++ le 8 (w_start s).
(** scanner_io.cpp:84-91: where each list begins, and the end *)
Fixpoint jump_pos (c : N) (v : list (list N)) : list N :=
  match v with [] => [c] | x :: v' => c :: jump_pos (c + N.of_nat (length x)) v' end.
(** scanner_io.cpp:71-110.  Saving a mapped scanner fails the assertion (without
    assertions it writes an image without transitions). *)
Definition save_slow (s : slow) : res (list N) :=
  let front := header_bytes ty_slow 24 ++ align_save 24 ++ slow_locals s ++ align_save 24 ++ bool_byte (w_null s) ++ align_save 1 in
  if w_null s then Ok front
  else match w_jumps s with
       | Mapped _ _ => UB
       | InVec v =>
           Ok (front ++ aligned_save_array 8 (w_letters s) ++
             aligned_save_array 1 (map (fun b : bool => if b then 1 else 0) (w_finals s)) ++
             aligned_save_array 8 (jump_pos 0 v) ++ aligned_save_array 4 (concat v))
       end.
(** Bytes taken as bool (simplification: any nonzero byte is true). *)
Definition bools (bs : list N) : list bool := map (fun b => negb (b =? 0)) bs.
(** scanner_io.cpp:136-148: reading the positions; the sizes of the lists.  A list that would
    end before it begins has an impossible size: std::vector throws. *)
Fixpoint load_sizes (count : nat) (c : N) (st : stream) : res (list N * stream) :=
  match count with
  | O => Ok ([], st)
  | S j =>
      let* (b, st1) := read 8 None st in
      let n := unle b in
      if n <? c then Throw EStream
      else let* (ns, st2) := load_sizes j n st1 in Ok ((n - c) :: ns, st2)
  end.
(** scanner_io.cpp:151-156: reading the lists (empty ones are skipped) *)
Fixpoint load_lists (ns : list N) (st : stream) : res (list (list N) * stream) :=
  match ns with
  | [] => Ok ([], st)
  | n :: ns' =>
      let* (b, st1) := (if n =? 0 then Ok ([], st) else read (4 * n) (Some (zeros (4 * n))) st) in
      let* (vs, st2) := load_lists ns' st1 in Ok (words 4 n b :: vs, st2)
  end.
(** scanner_io.cpp:112-171.  [old] is the size of m_vec of the object loaded into, which
    line 149 takes for that of the new one; the padding of whole words is none anyway. *)
Definition load_slow (old : N) (null : slow) (st : stream) : res (slow * stream) :=
  let* (_, st1) := load_header ty_slow 24 st in
  let* (l, st2) := aligned_load 24 (Some (slow_locals null)) st1 in
  let* (e, st3) := aligned_load 1 None st2 in
  let* empty := to_bool e in
  if empty : bool then Ok (null, st3)
  else
    let states := field 0 8 l in
    let lcount := field 8 8 l in
    let* (ls, st4) := aligned_load (8 * MaxChar) (Some (zeros (8 * MaxChar))) st3 in
    let* (fs, st5) := aligned_load states (Some (zeros states)) st4 in
    let* (c, st6) := read 8 None st5 in
    let* (ns, st7) := load_sizes (N.to_nat ((lcount * states) mod two64)) (unle c) st6 in
    let* st8 := align_load ((old + 1) * 8) st7 in
    let* (vs, st9) := load_lists ns st8 in
    let* st10 := align_load (fold_right (fun n a => 4 * n + a) 0 ns) st9 in
    Ok (mkSlow states lcount (field 16 8 l) (words 8 MaxChar ls) (bools fs) (InVec vs) false, st10).
(** slow.h:173-201 Mmap.  [this] is the object before: it is only replaced when the image
    is not empty. *)
Definition mmap_slow (this : slow) (m : mem) (ptr size : N) : res (slow * N) :=
  let* _ := check_align ptr in
  let* (_, c1) := map_header m ty_slow 24 (ptr, size) in
  let* c2 := map_ptr 24 1 c1 in
  let* l := peek m 24 (fst c1) in
  let* (empty, c3) := map_empty m c2 in
  if empty : bool then Ok (this, fst c3)
  else
    let states := field 0 8 l in
    let lcount := field 8 8 l in
    let count := (states * lcount + 1) mod two64 in
    let* c4 := map_ptr 8 MaxChar c3 in
    let* c5 := map_ptr 1 states c4 in
    let* c6 := map_ptr 8 count c5 in
    let* pos := peek m (N.to_nat (8 * count)) (fst c5) in
    match nth_error (words 8 count pos) (N.to_nat (states * lcount)) with
    | None => UB
    | Some total =>
        let* c7 := map_ptr 4 total c6 in
        let* ls := peek m (N.to_nat (8 * MaxChar)) (fst c3) in
        let* fs := peek m (N.to_nat states) (fst c4) in
        let* js := peek m (N.to_nat (4 * total)) (fst c6) in
        Ok (mkSlow states lcount (field 16 8 l) (words 8 MaxChar ls) (bools fs) (Mapped (words 8 count pos) (words 4 total js)) false, fst c7)
    end.
