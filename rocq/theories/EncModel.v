(** Model of the encodings (pire/encoding.cpp, pire/encoding.h) and of the UTF-8 routines they
    call (pire/stub/codepage_h.h).  A string is a list of bytes, a character an N (wchar32 is
    ui32, stub/defaults.h:34). *)
From Coq Require Import List Bool Arith NArith.
From Verif Require Import Util Spec PartitionModel FsmModel.
Import ListNotations.
Local Open Scope N_scope.

(** codepage_h.h:231-234, utf8_leadbyte_mask: "\0\0\037\017\007"[len] *)
Definition utf8_leadbyte_mask (len : nat) : N := nth len [0; 0; 31; 15; 7] 0.

(** codepage_h.h:236-239, utf8_rune_len: the length announced by a lead byte, 0 when it is not
    one; a table indexed by the top five bits *)
Definition utf8_rune_len (p : N) : nat :=
  nth (N.to_nat (N.shiftr p 3))
      [1; 1; 1; 1; 1; 1; 1; 1; 1; 1; 1; 1; 1; 1; 1; 1; 0; 0; 0; 0; 0; 0; 0; 0; 2; 2; 2; 2; 3; 3; 4; 0]%nat 0%nat.

(** codepage_h.h:241-255, utf8_rune_len_by_ucs *)
Definition utf8_rune_len_by_ucs (rune : N) : nat :=
  if rune <? 128 then 1%nat
  else if rune <? 2048 then 2%nat
  else if rune <? 65536 then 3%nat
  else if rune <? 2097152 then 4%nat
  else if rune <? 67108864 then 5%nat
  else 6%nat.

(** codepage_h.h, RECODE_RESULT: the values utf8_read_rune returns *)
Inductive recode := RecodeOk (rune : N) (len : nat) | RecodeEoInput | RecodeBroken.

(** codepage_h.h:268-291: one continuation byte: (ch & 0xC0) != 0x80 is broken, otherwise
    rune = (rune << 6) | (ch & 0x3F) *)
Definition utf8_continue (rune ch : N) : option N :=
  if N.land ch 192 =? 128 then Some (N.lor (N.shiftl rune 6) (N.land ch 63)) else None.
(** the nested ifs of codepage_h.h:268-291 as a loop over the continuation bytes *)
Fixpoint utf8_continues (rune : N) (chs : list N) : option N :=
  match chs with
  | [] => Some rune
  | ch :: chs => match utf8_continue rune ch with Some r => utf8_continues r chs | None => None end
  end.

(** codepage_h.h:259-295, utf8_read_rune.  [s] is the text between s and end.  The lead byte
    is read before the end is looked at, so empty text is a read out of bounds. *)
Definition utf8_read_rune (s : list N) : res recode :=
  match s with
  | [] => UB
  | b :: rest =>
      let len := utf8_rune_len b in
      if (length s <? len)%nat then Ok RecodeEoInput
      else if (len =? 0)%nat then Ok RecodeBroken
      else
        let rune := if (1 <? len)%nat then N.land b (utf8_leadbyte_mask len) else b in
        match utf8_continues rune (firstn (len - 1) rest) with
        | Some r => Ok (RecodeOk r len)
        | None => Ok RecodeBroken
        end
  end.

(** codepage_h.h:297-329, utf8_put_rune: the bytes written when there is room for them
    ([tail] bytes); None is RECODE_EOOUTPUT.  The casts to unsigned char are explicit. *)
Definition uchar (x : N) : N := x mod 256.
Definition utf8_put_rune (rune : N) (tail : nat) : option (list N) :=
  if rune <? 128 then
    if (tail <=? 0)%nat then None else Some [uchar rune]
  else if rune <? 2048 then
    if (tail <=? 1)%nat then None
    else Some [uchar (N.lor 192 (N.shiftr rune 6)); uchar (N.lor 128 (N.land rune 63))]
  else if rune <? 65536 then
    if (tail <=? 2)%nat then None
    else Some [uchar (N.lor 224 (N.shiftr rune 12)); uchar (N.lor 128 (N.land (N.shiftr rune 6) 63));
               uchar (N.lor 128 (N.land rune 63))]
  else
    if (tail <=? 3)%nat then None
    else Some [uchar (N.lor 240 (N.land (N.shiftr rune 18) 7)); uchar (N.lor 128 (N.land (N.shiftr rune 12) 63));
               uchar (N.lor 128 (N.land (N.shiftr rune 6) 63)); uchar (N.lor 128 (N.land rune 63))].

(** encoding.cpp:89-97, Utf8::ToLocal: a string of blanks with the encoded bytes written over
    its beginning.  (A failing utf8_put_rune only trips a debug assertion.) *)
Definition utf8_to_local (c : N) : list N :=
  let ret := repeat 32 (utf8_rune_len_by_ucs c) in
  match utf8_put_rune c (length ret) with
  | Some bs => bs ++ skipn (length bs) ret
  | None => ret
  end.

(** encoding.cpp:79-87, Utf8::FromLocal: the character and the text after it *)
Definition utf8_from_local (s : list N) : res (N * list N) :=
  let* r := utf8_read_rune s in
  match r with
  | RecodeOk rune len => Ok (rune, skipn len s)
  | _ => Throw EEncoding
  end.

(** encoding.cpp:41-49, Latin1::FromLocal *)
Definition latin1_from_local (s : list N) : res (N * list N) :=
  match s with
  | [] => Throw EEncoding
  | b :: rest => if 128 <=? b then Throw EEncoding else Ok (b, rest)
  end.
(** encoding.cpp:51-57, Latin1::ToLocal: the empty string for what it cannot represent *)
Definition latin1_to_local (c : N) : list N := if c <? 128 then [uchar c] else [].

(** encoding.cpp:62-72, UtfRanges *)
Definition utf_max_len : nat := 4.
Definition utf_first : list (nat * nat) := [(0, 128); (192, 224); (224, 240); (240, 248)]%nat.
Definition utf_next : nat * nat := (128, 192)%nat.
(** the letters of a half-open range *)
Definition range_letters (r : nat * nat) : list N := map N.of_nat (seq (fst r) (snd r - fst r)).

(** encoding.cpp:102-104: for every length, connect the final states to the state that still
    has to read that many continuation bytes *)
Definition utf_leads (f : fsm) : fsm :=
  fold_left (fun g i => fold_left (fun h l => connect_final h (size h - i - 1)%nat l) (range_letters (nth i utf_first (0, 0)%nat)) g)
            (seq 0 utf_max_len) f.
(** encoding.cpp:105-107: the chain of continuation bytes *)
Definition utf_tails (last : nat) (f : fsm) : fsm :=
  fold_left (fun g i => fold_left (fun h l => connect h (last + i)%nat (last + i + 1)%nat l) (range_letters utf_next) g)
            (seq 0 (utf_max_len - 1)) f.
(** encoding.cpp:99-111, Utf8::AppendDot (Fsm::Resize returns the old size, fsm.cpp:246-251) *)
Definition utf8_append_dot (f : fsm) : fsm :=
  let last := size f in
  let f1 := resize_fsm f (size f + utf_max_len)%nat in
  let f2 := utf_leads f1 in
  let f3 := utf_tails last f2 in
  let f4 := set_final (clear_final f3) (size f3 - 1)%nat true in
  set_determined f4 false.

(** encoding.h:38-52, the interface Encoding, with the two encodings shipped
    (encoding.cpp:37-60, 75-112) *)
Record encoding := mkEnc {
  e_from : list N -> res (N * list N);
  e_to : N -> list N;
  e_dot : fsm -> fsm
}.
Definition latin1 : encoding := mkEnc latin1_from_local latin1_to_local append_dot.
Definition utf8 : encoding := mkEnc utf8_from_local utf8_to_local utf8_append_dot.

(** encoding.h:54-62, the FromLocal that reads a whole text.  The fuel is its length: every
    step consumes a byte. *)
Fixpoint from_local_loop (e : encoding) (fuel : nat) (s : list N) : res (list N) :=
  match s with
  | [] => Ok []
  | _ =>
      match fuel with
      | O => OutOfFuel
      | S k => let* (c, rest) := e_from e s in let* cs := from_local_loop e k rest in Ok (c :: cs)
      end
  end.
Definition from_local_all (e : encoding) (s : list N) : res (list N) := from_local_loop e (length s) s.
