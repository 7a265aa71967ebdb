(** Model of scanners/multi.h: Scanner and NonrelocScanner, with and without exit masks,
    and of the word operations of platform.h and align.h it uses (no proofs).  64-bit
    little-endian build: sizeof(size_t) = 8, sizeof(MaxSizeWord) = 16. *)
From Coq Require Import List Bool Arith NArith.
From Verif Require Import Util Spec PartitionModel FsmModel DetermineModel MinimizeModel RunModel.
Import ListNotations.
Set Implicit Arguments.
Local Open Scope N_scope.

Definition two64 : N := 18446744073709551616.
Definition two32 : N := 4294967296.
Definition two31 : N := 2147483648.
(** multi.h:96 End *)
Definition End_mark : N := 18446744073709551615.

(** A loop whose body may fail. *)
Fixpoint foldm {S A} (f : S -> A -> res S) (l : list A) (s : S) : res S :=
  match l with
  | [] => Ok s
  | x :: l' => let* s1 := f s x in foldm f l' s1
  end.

(** align.h:36-46 (bound a power of two) *)
Definition align_up (t bound : N) : N := N.ldiff (t + (bound - 1)) (bound - 1).
Definition align_down (t bound : N) : N := N.ldiff t (bound - 1).

(** The template parameters: Relocation (multi.h:53-81) and Shortcutting, ExitMasks<n>
    (multi.h:636-821) as n > 0 and NoShortcuts (825-878) as 0. *)
Record kind := mkKind { k_reloc : bool; k_nmask : nat }.
(** sizeof(Transition): multi.h:61, 73 *)
Definition tsz (k : kind) : N := if k_reloc k then 4 else 8.
(** multi.h:349: sizeof(ScannerRowHeader) / sizeof(Transition); the header is four words
    per mask (multi.h:709-712, 763) and the flags word (106-117). *)
Definition header_size (k : kind) : N := (4 * N.of_nat (k_nmask k) + 1) * 8 / tsz k.
(** multi.h:347 *)
Definition row_size (k : kind) (lettersCount : N) : N := align_up (lettersCount + header_size k) (16 / tsz k).
Definition row_bytes (k : kind) (lettersCount : N) : N := row_size k lettersCount * tsz k.

(** multi.h:46: sign extension of a 32-bit value to 64 bits *)
Definition sign_extend (i : N) : N := if i <? two31 then i else i + (two64 - two32).
(** multi.h:65, 79 Go *)
Definition go (k : kind) (st t : N) : N := if k_reloc k then (st + sign_extend t) mod two64 else t.
(** multi.h:66, 80 Diff *)
Definition diff (k : kind) (from to : N) : N :=
  if k_reloc k then ((to + two64 - from) mod two64) mod two32 else to.

(** One row of the transition table: the words of the exit masks, CommonRowHeader::Flags,
    and the transitions.  Simplification: the row is kept structured; the padding up to
    RowSize is zero (memset, multi.h:364) and only appears in saved images (IoModel.v). *)
Record srow := mkRow { r_masks : list N; r_flags : N; r_jumps : list N }.

(** multi.h:315-332.  [s_buf] is the address of the (aligned) buffer.  The signatures in
    Locals are those of the kind.  [s_owned]: m_buffer is not null.  [s_null]: the pointers
    are those of Null(), which is what Empty() tests (multi.h:135; buffers of other
    scanners are at other addresses). *)
Record scanner := mkScanner {
  s_states : N;
  s_nletters : N;
  s_regexps : N;
  s_initial : N;
  s_fsize : N;
  s_buf : N;
  s_letters : list N;
  s_final : list N;
  s_index : list N;
  s_rows : list srow;
  s_owned : bool;
  s_null : bool
}.
Definition set_rows s x := mkScanner (s_states s) (s_nletters s) (s_regexps s) (s_initial s) (s_fsize s) (s_buf s)
  (s_letters s) (s_final s) (s_index s) x (s_owned s) (s_null s).
Definition set_tables s fin idx := mkScanner (s_states s) (s_nletters s) (s_regexps s) (s_initial s) (s_fsize s) (s_buf s)
  (s_letters s) fin idx (s_rows s) (s_owned s) (s_null s).

(** multi.h:381-388 Markup: the address of the transition table *)
Definition s_base (s : scanner) : N := s_buf s + 2 * MaxChar + 8 * s_fsize s + 8 * s_states s.
(** multi.h:447-450 IndexToState *)
Definition index_to_state (k : kind) (s : scanner) (i : N) : N := s_base s + i * row_bytes k (s_nletters s).
(** multi.h:281-284 StateIndex *)
Definition state_index (k : kind) (s : scanner) (a : N) : N := (a - s_base s) / row_bytes k (s_nletters s).
(** multi.h:297-305 BufSize *)
Definition buf_size (k : kind) (s : scanner) : N :=
  align_up (2 * MaxChar + 8 * s_fsize s + 8 * s_states s + row_size k (s_nletters s) * s_states s * tsz k) 8.

(** multi.h:310-311: the row a state points to.  A pointer that is not the beginning of a
    row of the table is wild: undefined. *)
Definition header_at (k : kind) (s : scanner) (a : N) : res srow :=
  if (s_base s <=? a) && ((a - s_base s) mod row_bytes k (s_nletters s) =? 0) then
    match nth_error (s_rows s) (N.to_nat (state_index k s a)) with Some r => Ok r | None => UB end
  else UB.

(** multi.h:163-192 Next and NextTranslated.  Simplification: translated letters that point
    into the header or the padding of the row (only Epsilon's does) are undefined. *)
Definition s_next (k : kind) (s : scanner) (a : N) (c : N) : res N :=
  match nth_error (s_letters s) (N.to_nat c) with
  | None => UB
  | Some l =>
      let* r := header_at k s a in
      if l <? header_size k then UB
      else match nth_error (r_jumps r) (N.to_nat (l - header_size k)) with
           | None => UB
           | Some t => Ok (go k a t)
           end
  end.
(** multi.h:143, 147, 90-94 *)
Definition FinalFlag : N := 1.
Definition DeadFlag : N := 2.
Definition s_isfinal (k : kind) (s : scanner) (a : N) : res bool :=
  let* r := header_at k s a in Ok (negb (N.land (r_flags r) FinalFlag =? 0)).
Definition s_isdead (k : kind) (s : scanner) (a : N) : res bool :=
  let* r := header_at k s a in Ok (negb (N.land (r_flags r) DeadFlag =? 0)).

(** multi.h:155-156: up to the End marker; running off the table is undefined *)
Fixpoint until_end (l : list N) : res (list N) :=
  match l with
  | [] => UB
  | x :: l' => if x =? End_mark then Ok [] else let* r := until_end l' in Ok (x :: r)
  end.
(** multi.h:149-158 AcceptedRegexps *)
Definition s_accepted (k : kind) (s : scanner) (a : N) : res (list N) :=
  match nth_error (s_index s) (N.to_nat (state_index k s a)) with
  | None => UB
  | Some b => until_end (skipn (N.to_nat b) (s_final s))
  end.
(** multi.h:139 RegexpsCount *)
Definition s_count (s : scanner) : N := if s_null s then 0 else s_regexps s.

(** What run.h needs; TakeAction does nothing (multi.h:194). *)
Definition scanner_ops (k : kind) (s : scanner) : ops N :=
  mkOps (s_initial s) (s_next k s) (s_next k s) (s_isfinal k s) (s_isdead k s).

(** ** Building *)

(** multi.h:734-738 SetMask: four copies *)
Definition set_mask (i : nat) (v : N) (ms : list N) : list N :=
  fold_left (fun a j => upd (4 * i + j)%nat (fun _ => v) a) (seq 0 4) ms.
(** multi.h:727-732 *)
Definition get_mask (i : nat) (ms : list N) : N := nth (4 * i) ms 0.
(** multi.h:639-642 *)
Definition NO_SHORTCUT : N := 1.
Definition NO_EXIT : N := 2.

(** multi.h:373-376: letters are stored in 16 bits *)
Definition fill_letters (hs : N) (p : partition) : list N :=
  fold_left (fun acc '(_, (idx, ms)) =>
      fold_left (fun a c => upd (N.to_nat c) (fun _ => (N.of_nat idx + hs) mod 65536) a) ms acc)
    (pset p) (repeat 0 (N.to_nat MaxChar)).

(** multi.h:352-377 Init; [buf] is where the buffer is allocated.  The counters are 32-bit
    (multi.h:315-323): more states than that make the code write outside the buffer. *)
Definition init_scanner (k : kind) (buf : N) (states : nat) (p : partition) (nfinals start : nat) (regexps : N) : res scanner :=
  if (two32 <=? N.of_nat states + N.of_nat nfinals) || (two32 <=? regexps) then UB else
  let nl := N.of_nat (part_size p) in
  let s := mkScanner (N.of_nat states) nl regexps 0 (N.of_nat (nfinals + states)) buf
    (fill_letters (header_size k) p) (repeat 0 (nfinals + states)) (repeat 0 states)
    (repeat (mkRow (repeat NO_SHORTCUT (4 * k_nmask k)) 0 (repeat 0 (part_size p))) states) true false in
  Ok (mkScanner (s_states s) nl regexps (index_to_state k s (N.of_nat start)) (s_fsize s) buf
    (s_letters s) (s_final s) (s_index s) (s_rows s) true false).

(** multi.h:452-460 SetJump *)
Definition set_jump (k : kind) (s : scanner) (from : nat) (c : N) (to : nat) : res scanner :=
  let l := nth (N.to_nat c) (s_letters s) 0 in
  if (l <? header_size k) || negb (l - header_size k <? s_nletters s) || negb (from <? length (s_rows s))%nat then UB
  else Ok (set_rows s (upd from (fun r => mkRow (r_masks r) (r_flags r)
      (upd (N.to_nat (l - header_size k)) (fun _ => diff k (index_to_state k s (N.of_nat from)) (index_to_state k s (N.of_nat to))) (r_jumps r)))
    (s_rows s))).
(** multi.h:470-474 SetTag *)
Definition set_tag (s : scanner) (st : nat) (v : N) : res scanner :=
  if (st <? length (s_rows s))%nat then Ok (set_rows s (upd st (fun r => mkRow (r_masks r) v (r_jumps r)) (s_rows s)))
  else UB.

(** platform.h:246-254 FillSizeT *)
Definition fill_size_t (c : N) : N :=
  let w := N.land c 255 in
  let w := N.lor ((N.shiftl w 8) mod two64) w in
  let w := N.lor ((N.shiftl w 16) mod two64) w in
  N.lor ((N.shiftl w 32) mod two64) w.

(** multi.h:481-484: the bytes translated to l, in increasing order *)
Definition letter_bytes (s : scanner) (l : N) : list N :=
  filter (fun ch => nth (N.to_nat ch) (s_letters s) 0 =? l) all_bytes.

(** multi.h:494-505: the loop over the letters; returns whether it broke off *)
Fixpoint masks_loop (k : kind) (s : scanner) (st : N) (jumps : list N) (l : N) (ind : nat) (ms : list N) : bool * nat * list N :=
  match jumps with
  | [] => (false, ind, ms)
  | t :: js =>
      if go k st t =? st then masks_loop k s st js (l + 1) ind ms
      else
        let cs := letter_bytes s (l + header_size k) in
        if (k_nmask k <? ind + length cs)%nat then (true, ind, ms)
        else
          let '(ind1, ms1) := fold_left (fun '(i, a) c => (S i, set_mask i (fill_size_t c) a)) cs (ind, ms) in
          masks_loop k s st js (l + 1) ind1 ms1
  end.
(** multi.h:787-798 FinishMasks *)
Definition finish_masks (n ind : nat) (ms : list N) : list N :=
  let i := match ind with O => 1%nat | _ => ind end in
  let last := get_mask (i - 1) ms in
  fold_left (fun a j => set_mask j last a) (seq i (n - i)) ms.
(** multi.h:489-512, one state.  For NoShortcuts there are no masks and the calls do
    nothing. *)
Definition row_shortcuts (k : kind) (s : scanner) (i : nat) (r : srow) : srow :=
  let '(broke, ind, ms) := masks_loop k s (index_to_state k s (N.of_nat i)) (r_jumps r) 0 0 (set_mask 0 NO_EXIT (r_masks r)) in
  let ms1 := if broke : bool then set_mask 0 NO_SHORTCUT ms else ms in
  mkRow (finish_masks (k_nmask k) ind ms1) (r_flags r) (r_jumps r).
(** multi.h:476-514 BuildShortcuts *)
Definition build_shortcuts (k : kind) (s : scanner) : scanner :=
  set_rows s (map (fun '(i, r) => row_shortcuts k s i r) (combine (seq 0 (length (s_rows s))) (s_rows s))).

(** multi.h:520-526: the final table *)
Fixpoint final_table (rows : list srow) (pos : N) : list N * list N :=
  match rows with
  | [] => ([], [])
  | r :: rs =>
      let here := if negb (N.land (r_flags r) FinalFlag =? 0) then [0; End_mark] else [End_mark] in
      let '(fin, idx) := final_table rs (pos + N.of_nat (length here)) in
      (here ++ fin, pos :: idx)
  end.
(** multi.h:516-528 FinishBuild.  More entries than Init made room for are undefined; the
    table has exactly that many. *)
Definition finish_build (k : kind) (s : scanner) : res scanner :=
  let '(fin, idx) := final_table (s_rows s) 0 in
  if N.of_nat (length fin) <=? s_fsize s then Ok (build_shortcuts k (set_tables s (fin ++ repeat 0 (N.to_nat (s_fsize s) - length fin)) idx))
  else UB.

(** fsm.h:145 *)
Definition fsm_tag (f : fsm) (q : nat) : N := match mfind q (tags f) with Some t => t | None => 0 end.
(** fsm.h:251-271 BuildScanner; Tag is ui8 (multi.h:103) *)
Definition tag_value (f : fsm) (dead : list nat) (q : nat) : N :=
  (N.lor (N.lor (fsm_tag f q) (if is_final f q then FinalFlag else 0)) (if smem q dead then DeadFlag else 0)) mod 256.
Definition build_scanner (k : kind) (f : fsm) (s : scanner) : res scanner :=
  let* dead := dead_states f in
  let* s1 := foldm (fun s q => set_tag s q (tag_value f dead q)) (seq 0 (size f)) s in
  let* s2 := foldm (fun s from =>
      foldm (fun s '(c, _) =>
        foldm (fun s to => set_jump k s from c to) (destinations f from c) s) (part_list (letters f)) s) (seq 0 (size f)) s1 in
  finish_build k s2.

(** multi.h:123-131, with distance 0.  Canonize is called with its default limit. *)
Definition compile (k : kind) (buf : N) (f : fsm) : res scanner :=
  let* g := canonize f 0 in
  let* s := init_scanner k buf (size g) (letters g) (length (finals g)) (initial g) 1 in
  build_scanner k g s.

(** multi.h:402-444 DeepCopy to a (possibly) different relocation type *)
Definition deep_copy_row (k k' : kind) (s s' : scanner) (i : nat) (r : srow) : srow :=
  let old := index_to_state k s (N.of_nat i) in
  let new := index_to_state k' s' (N.of_nat i) in
  mkRow (fold_left (fun a j => set_mask j (get_mask j (r_masks r)) a) (seq 0 (k_nmask k')) (repeat NO_SHORTCUT (4 * k_nmask k')))
    (r_flags r)
    (map (fun t => diff k' new (index_to_state k' s' (state_index k s (go k old t)))) (r_jumps r)).
Definition deep_copy (k k' : kind) (buf : N) (s : scanner) : scanner :=
  let s0 := mkScanner (s_states s) (s_nletters s) (s_regexps s) 0 (s_fsize s) buf
    (map (fun l => (l + 65536 - header_size k + header_size k') mod 65536) (s_letters s)) (s_final s) (s_index s) [] true false in
  mkScanner (s_states s) (s_nletters s) (s_regexps s) (index_to_state k' s0 (state_index k s (s_initial s))) (s_fsize s) buf
    (s_letters s0) (s_final s) (s_index s)
    (map (fun '(i, r) => deep_copy_row k k' s s0 i r) (combine (seq 0 (length (s_rows s))) (s_rows s))) true false.
(** multi.h:196-205, 213-220: the copy constructor (same kind: aliases a scanner that owns
    nothing) and the conversion from the other relocation type ([null'] is the Null() of the
    new type). *)
Definition copy_scanner (k : kind) (buf : N) (s : scanner) : scanner :=
  if s_owned s then deep_copy k k buf s else s.
Definition convert_scanner (k k' : kind) (buf : N) (null' s : scanner) : scanner :=
  if s_null s then null' else deep_copy k k' buf s.

(** ** Running *)

(** The instruction sets of platform.h: BasicInstructionSet (114-129), AvailMMX (171-194),
    AvailSSE2 (139-157). *)
Inductive isa := Basic | MMX | SSE2.
(** sizeof(Word) *)
Definition word_size (i : isa) : N := match i with SSE2 => 16 | _ => 8 end.

(** platform.h:96-111: 0x0101010101010101 and 0x8080808080808080 *)
Definition mask01 : N := 72340172838076673.
Definition mask80 : N := 9259542123273814144.
(** platform.h:119-124 *)
Definition check_bytes_basic (mask chunk : N) : N :=
  let mc := N.lxor chunk mask in
  N.land (N.land ((mc + two64 - mask01) mod two64) (N.lxor mc (two64 - 1))) mask80.
(** _mm_cmpeq_epi8, _mm_cmpeq_pi8: 255 in every byte where the two are equal, 0 elsewhere *)
Fixpoint cmpeq (n : nat) (a b : N) : N :=
  match n with
  | O => 0
  | S j => (if N.land a 255 =? N.land b 255 then 255 else 0) + 256 * cmpeq j (N.shiftr a 8) (N.shiftr b 8)
  end.
(** _mm_movemask_epi8: the top bits of the bytes *)
Fixpoint movemask (n : nat) (a : N) : N :=
  match n with
  | O => 0
  | S j => (if N.testbit a 7 then 1 else 0) + 2 * movemask j (N.shiftr a 8)
  end.
Definition check_bytes (i : isa) (mask chunk : N) : N :=
  match i with Basic => check_bytes_basic mask chunk | MMX => cmpeq 8 mask chunk | SSE2 => cmpeq 16 mask chunk end.
Definition is_any_set (i : isa) (x : N) : bool :=
  match i with SSE2 => negb (movemask 16 x =? 0) | _ => negb (x =? 0) end.

(** multi.h:717-725: the mask as a Word, read at an aligned address *)
Definition mask_word (i : isa) (a : N) (ms : list N) (j : nat) (off : N) : res N :=
  let p := (N.to_nat off + 4 * j)%nat in
  if negb ((a + 8 * N.of_nat p) mod word_size i =? 0) then UB
  else match i with
       | SSE2 => match nth_error ms p, nth_error ms (S p) with Some x, Some y => Ok (x + two64 * y) | _, _ => UB end
       | _ => match nth_error ms p with Some x => Ok x | None => UB end
       end.

Section Aligned.
  Variables (k : kind) (s : scanner) (i : isa) (m : mem).

  (** multi.h:646-654 MaskCheckerBase::Check with masks 0..n *)
  Fixpoint or_checks (a : N) (ms : list N) (off : N) (chunk : N) (n : nat) (acc : N) : res N :=
    match n with
    | O => Ok acc
    | S j => let* w := mask_word i a ms j off in or_checks a ms off chunk j (N.lor acc (check_bytes i w chunk))
    end.
  Definition check_masks (a : N) (ms : list N) (off chunk : N) (n : nat) : res bool :=
    let* w := mask_word i a ms n off in
    let* x := or_checks a ms off chunk n (check_bytes i w chunk) in
    Ok (negb (is_any_set i x)).
  (** multi.h:656-661 DoRun *)
  Fixpoint skip_loop (fuel : nat) (a : N) (ms : list N) (off : N) (n : nat) (b e : N) : res N :=
    match fuel with
    | O => OutOfFuel
    | S f =>
        if b =? e then Ok b
        else let* chunk := load_le m (N.to_nat (word_size i)) b in
             let* go_on := check_masks a ms off chunk n in
             if go_on : bool then skip_loop f a ms off n (b + word_size i) e else Ok b
    end.
  (** multi.h:664-688 MaskChecker::Run: how many masks to check (from n on, [left] more
      are available) *)
  Fixpoint masks_used (ms : list N) (n left : nat) : nat :=
    match left with
    | O => n
    | S l => if get_mask n ms =? get_mask (S n) ms then n else masks_used ms (S n) l
    end.
  (** multi.h:814-819 and, for NoShortcuts, 871-877 *)
  Definition shortcut_run (a off b e : N) : res N :=
    match k_nmask k with
    | O => Ok b
    | S l =>
        let* r := header_at k s a in
        skip_loop (S (N.to_nat ((e - b) / word_size i))) a (r_masks r) off (masks_used (r_masks r) 0 l) b e
    end.
  (** multi.h:690-696, 800-812; 855-869 *)
  Definition no_exit (a : N) : res bool :=
    match k_nmask k with O => Ok false | _ => let* r := header_at k s a in Ok (get_mask 0 (r_masks r) =? NO_EXIT) end.
  Definition no_shortcut (a : N) : res bool :=
    match k_nmask k with O => Ok true | _ => let* r := header_at k s a in Ok (get_mask 0 (r_masks r) =? NO_SHORTCUT) end.

  Variable P : Type.
  Variable pr : pred N P.
  Let o := scanner_ops k s.

  (** multi.h:885-908 MultiChunk *)
  Fixpoint multi_chunk (n : nat) (p : N) (st : N) (acc : P) : res (outcome N P) :=
    match n with
    | O => Ok (st, acc, false)
    | S j => let* (st1, acc1, stop) := run_chunk o m pr p 0 8 st acc in
             if stop : bool then Ok (st1, acc1, true) else multi_chunk j (p + 8) st1 acc1
    end.

  (** multi.h:945-949, 991-996: [for (; b != stop_at && b != e; ++b) RunChunk], returning
      where it got *)
  Fixpoint chunks_until (fuel : nat) (b h e : N) (st : N) (acc : P) : res (N * outcome N P) :=
    match fuel with
    | O => OutOfFuel
    | S f =>
        if (b =? h) || (b =? e) then Ok (b, (st, acc, false))
        else let* (st1, acc1, stop) := run_chunk o m pr b 0 8 st acc in
             if stop : bool then Ok (b, (st1, acc1, true)) else chunks_until f (b + 8) h e st1 acc1
    end.

  (** What the main loop ends with: RunAligned returned, or the loop was left with the
      whole Words done. *)
  Inductive main_result := Returned (r : outcome N P) | Left (st : N) (acc : P).

  (** multi.h:966-989, both loops; [ns] is noShortcut *)
  Fixpoint main_loop (fuel : nat) (off head tail e : N) (ns : bool) (st : N) (acc : P) : res main_result :=
    match fuel with
    | O => OutOfFuel
    | S f =>
        if ns && negb (head =? tail) then
          let* (st1, acc1, stop) := multi_chunk (N.to_nat (word_size i / 8)) head st acc in
          if stop : bool then Ok (Returned (st1, acc1, true))
          else let* ns1 := no_shortcut st1 in main_loop f off (head + word_size i) tail e ns1 st1 acc1
        else if head =? tail then Ok (Left st acc)
        else
          let* ne := no_exit st in
          if ne : bool then let* (acc1, stop) := pr acc st e in Ok (Returned (st, acc1, stop))
          else let* head1 := shortcut_run st off head tail in main_loop f off head1 tail e true st acc
    end.

  (** multi.h:938-1000 RunAligned *)
  Definition multi_run_aligned (b e : N) (st : N) (acc : P) : res (outcome N P) :=
    let head := align_up b (word_size i) in
    let tail := align_down e (word_size i) in
    let* (b1, (st1, acc1, stop)) := chunks_until (words_fuel b e) b head e st acc in
    if stop : bool then Ok (st1, acc1, true)
    else if b1 =? e then Ok (st1, acc1, false)
    else
      let* ne := no_exit st1 in
      if ne : bool then let* (acc2, stop2) := pr acc1 st1 e in Ok (st1, acc2, stop2)
      else
        let off := (align_up (s_base s) (word_size i) - s_base s) / 8 in
        let* ns := no_shortcut st1 in
        let* r := main_loop (2 + 2 * N.to_nat ((tail - head) / word_size i)) off head tail e ns st1 acc1 in
        match r with
        | Returned x => Ok x
        | Left st2 acc2 =>
            let* (_, x) := chunks_until (words_fuel tail e) tail e e st2 acc2 in Ok x
        end.
End Aligned.
