(** The documented syntax of patterns, item by item: how an item is written and which token it
    stands for.  Characters are code points; 92 is the backslash. *)
From Coq Require Import List Bool Arith NArith ZArith.
From Verif Require Import Util RegexModel UniModel LexModel.
Import ListNotations.
Local Open Scope N_scope.

(** Characters the lexer keeps for itself: those whose second lowest byte is F0 (U+F000 to
    U+F0FF, U+1F000 to U+1F0FF, ...). *)
Definition reserved (c : N) : Prop := (c / 256) mod 256 = 240.
(** a character value: wchar32 *)
Definition wide (c : N) : Prop := c < 4294967296.

(** ** Numbers *)
Definition hexdigit (c : N) : Prop := 48 <= c <= 57 \/ 65 <= c <= 70 \/ 97 <= c <= 102.
Definition hex_digit_value (c : N) : N := if c <=? 57 then c - 48 else if c <=? 70 then c - 55 else c - 87.
Definition hex_number (ds : list N) : N := fold_left (fun a c => 16 * a + hex_digit_value c) ds 0.
Definition decdigit (c : N) : Prop := 48 <= c <= 57.
Definition dec_number (ds : list N) : Z := fold_left (fun a c => 10 * a + (Z.of_N c - 48))%Z ds 0%Z.
Definition ascii_lower (c : N) : N := if ((65 <=? c) && (c <=? 90))%bool then c + 32 else c.
Definition ascii_upper (c : N) : N := if ((97 <=? c) && (c <=? 122))%bool then c - 32 else c.

(** ** Character classes: \l \c \w \d \s \n \r \t, and in upper case their complements *)
Definition latin_letter (x : N) : Prop := 65 <= x <= 90 \/ 97 <= x <= 122.
Definition cyrillic_letter (x : N) : Prop := 1040 <= x <= 1103 \/ x = 1025 \/ x = 1105.
Inductive cls := Letters | Cyrillic | Word | Digits | Spaces | Newline | Return | Tab.
Definition cls_name (k : cls) : N :=
  match k with Letters => 108 | Cyrillic => 99 | Word => 119 | Digits => 100 | Spaces => 115 | Newline => 110 | Return => 114 | Tab => 116 end.
Definition cls_has (k : cls) (x : N) : Prop :=
  match k with
  | Letters => latin_letter x
  | Cyrillic => cyrillic_letter x
  | Word => latin_letter x \/ cyrillic_letter x
  | Digits => 48 <= x <= 57
  | Spaces => x = 32 \/ x = 9 \/ x = 13 \/ x = 10 \/ x = 160
  | Newline => x = 10
  | Return => x = 13
  | Tab => x = 9
  end.

(** ** Between brackets *)
(** A character that may begin or end a range: itself, an escaped one of ^[]-\, \xHH, \x{H...} *)
Inductive single := SChar (c : N) | SEsc (c : N) | SHex2 (a b : N) | SHex (ds : list N).
Definition single_text (b : single) : list N :=
  match b with SChar c => [c] | SEsc c => [92; c] | SHex2 a b => [92; 120; a; b] | SHex ds => [92; 120; 123] ++ ds ++ [125] end.
Definition single_value (b : single) : N :=
  match b with SChar c | SEsc c => c | SHex2 a b => hex_number [a; b] | SHex ds => hex_number ds end.
Definition hex_ok (ds : list N) : Prop := ds <> [] /\ Forall hexdigit ds /\ hex_number ds <= 1114111 /\ ~ reserved (hex_number ds).
Definition single_ok (b : single) : Prop :=
  match b with
  | SChar c => ~ In c [94; 91; 93; 45; 92; 0] /\ ~ reserved c /\ wide c
  | SEsc c => In c [94; 91; 93; 45; 92]
  | SHex2 a b => hexdigit a /\ hexdigit b
  | SHex ds => hex_ok ds
  end.
(** A member: a character, an escaped one of *+{}()$?.&~ (which may not begin a range), a
    range, a class, a dash that follows no character, a raw ^ or [. *)
Inductive member := MSingle (b : single) | MEsc (c : N) | MRange (b e : single) | MClass (k : cls) | MDash | MRaw (c : N).
Definition member_text (m : member) : list N :=
  match m with
  | MSingle b => single_text b
  | MEsc c => [92; c]
  | MRange b e => single_text b ++ [45] ++ single_text e
  | MClass k => [92; cls_name k]
  | MDash => [45]
  | MRaw c => [c]
  end.
Definition member_ok (m : member) : Prop :=
  match m with
  | MSingle b => single_ok b
  | MEsc c => In c [42; 43; 123; 125; 40; 41; 36; 63; 46; 38; 126]
  | MRange b e => single_ok b /\ single_ok e /\ forall x, single_value b <= x <= single_value e -> ~ reserved x
  | MClass k => True
  | MDash => True
  | MRaw c => c = 94 \/ c = 91
  end.
(** [after] says whether a character comes just before. *)
Fixpoint members_ok (after : bool) (ms : list member) : Prop :=
  match ms with
  | [] => True
  | m :: ms =>
      member_ok m /\ (m = MDash -> after = false) /\ members_ok (match m with MSingle _ => true | _ => false end) ms
  end.
Definition members_text (ms : list member) : list N := flat_map member_text ms.

(** ** Items *)
Inductive item :=
| IChar (c : N) | IEsc (c : N) | IHex2 (a b : N) | IHex (ds : list N) | IClass (k : cls) (neg : bool)
| ISet (neg : bool) (ms : list member)
| IDot | IBegin | IEnd | IOpen | IClose | IOr | IStar | IPlus | IOpt
| ICount (ds : list N) | ICountFrom (ds : list N) | ICountTo (ds es : list N)
| IAnd | INot.
Definition item_text (i : item) : list N :=
  match i with
  | IChar c => [c]
  | IEsc c => [92; c]
  | IHex2 a b => [92; 120; a; b]
  | IHex ds => [92; 120; 123] ++ ds ++ [125]
  | IClass k neg => [92; if neg then ascii_upper (cls_name k) else cls_name k]
  | ISet neg ms => [91] ++ (if neg then [94] else []) ++ members_text ms ++ [93]
  | IDot => [46] | IBegin => [94] | IEnd => [36] | IOpen => [40] | IClose => [41] | IOr => [124]
  | IStar => [42] | IPlus => [43] | IOpt => [63]
  | ICount ds => [123] ++ ds ++ [125]
  | ICountFrom ds => [123] ++ ds ++ [44; 125]
  | ICountTo ds es => [123] ++ ds ++ [44] ++ es ++ [125]
  | IAnd => [38] | INot => [126]
  end.
Definition pattern_text (is : list item) : list N := flat_map item_text is.
(** \|().*+?^$[{, and with ANDNOT also & and ~ *)
Definition special (andnot : bool) : list N := [92; 124; 40; 41; 46; 42; 43; 63; 94; 36; 91; 123] ++ if andnot then [38; 126] else [].
Definition number_ok (ds : list N) : Prop := ds <> [] /\ Forall decdigit ds /\ (dec_number ds < 2147483648)%Z.
Definition item_ok (andnot : bool) (i : item) : Prop :=
  match i with
  | IChar c => ~ In c (special andnot) /\ ~ reserved c /\ wide c
  | IEsc c => In c ([93; 125] ++ special andnot)
  | IHex2 a b => hexdigit a /\ hexdigit b
  | IHex ds => hex_ok ds
  | ISet neg ms => members_ok false ms /\ (neg = false -> forall r, ms <> MRaw 94 :: r)
  | ICount ds | ICountFrom ds => number_ok ds
  | ICountTo ds es => number_ok ds /\ number_ok es
  | IAnd | INot => andnot = true
  | _ => True
  end.

(** ** The token an item stands for *)
(** A letter stands for itself; under the option I for its two cases. *)
Definition lit (icase : bool) (c x : N) : Prop := if icase then x = to_upper c \/ x = to_lower c else x = c.
Definition in_member (icase : bool) (m : member) (x : N) : Prop :=
  match m with
  | MSingle b => lit icase (single_value b) x
  | MEsc c | MRaw c => lit icase c x
  | MRange b e => exists y, single_value b <= y <= single_value e /\ lit icase y x
  | MClass k => cls_has k x
  | MDash => lit icase 45 x
  end.
(** A token for the characters in [P], or for the others. *)
Definition letters_of (t : token) (neg : bool) (P : N -> Prop) : Prop :=
  exists cs, t = KLetters (map (fun c => [c]) cs) neg /\ forall x, In x cs <-> P x.
Definition stands_for (icase : bool) (i : item) (t : token) : Prop :=
  match i with
  | IChar c | IEsc c => letters_of t false (lit icase c)
  | IHex2 a b => letters_of t false (lit icase (hex_number [a; b]))
  | IHex ds => letters_of t false (lit icase (hex_number ds))
  | IClass k neg => letters_of t neg (cls_has k)
  | ISet neg ms => letters_of t neg (fun x => exists m, In m ms /\ in_member icase m x)
  | IDot => t = KDot
  | IBegin => t = KBegin
  | IEnd => t = KEnd
  | IOpen => t = KOpen
  | IClose => t = KClose
  | IOr => t = KOr
  | IStar => t = KCount 0 Inf
  | IPlus => t = KCount 1 Inf
  | IOpt => t = KCount 0 1
  | ICount ds => t = KCount (dec_number ds) (dec_number ds)
  | ICountFrom ds => t = KCount (dec_number ds) Inf
  | ICountTo ds es => t = KCount (dec_number ds) (dec_number es)
  | IAnd => t = KAnd
  | INot => t = KNot
  end.
(** The options of easy.h: I (case-insensitive) and ANDNOT, in any order. *)
Definition options (added : list feature) (icase andnot : bool) : Prop :=
  NoDup added /\ (forall f, In f added -> f = FCase \/ f = FAndNot) /\
  (icase = true <-> In FCase added) /\ (andnot = true <-> In FAndNot added).
Definition features (added : list feature) : list feature := fold_left (fun fs f => add_feature f fs) added default_features.

(** The character that a literal item spells. *)
Definition literal (i : item) (c : N) : Prop :=
  match i with
  | IChar d | IEsc d => c = d
  | IHex2 a b => c = hex_number [a; b]
  | IHex ds => c = hex_number ds
  | _ => False
  end.
(** The characters that may follow a backslash outside a set: x (and NUL), the special
    characters and ] }, the names of the classes in both cases. *)
Definition escapable (andnot : bool) : list N :=
  [120; 0; 93; 125] ++ special andnot ++ [108; 99; 119; 100; 115; 110; 114; 116] ++ [76; 67; 87; 68; 83; 78; 82; 84].
