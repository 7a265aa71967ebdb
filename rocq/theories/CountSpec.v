(** What a counting scanner counts, stated without its counters (no proofs). *)
From Coq Require Import List Bool Arith NArith.
From Verif Require Import Util Spec RunModel RunSpec ScannerModel CountModel.
Import ListNotations.

(** ** Events *)
(** One thing that can happen to the count of one regexp. *)
Inductive event := Inc | Rst.
Fixpoint incs (l : list event) : nat :=
  match l with [] => 0 | Inc :: l' => S (incs l') | Rst :: l' => incs l' end.
(** n increments with no reset in between *)
Definition is_run (evs : list event) (n : nat) : Prop :=
  exists x y z, evs = x ++ y ++ z /\ ~ In Rst y /\ incs y = n.
Definition longest_run (evs : list event) (n : nat) : Prop :=
  is_run evs n /\ forall m, is_run evs m -> m <= n.
(** What an action does to regexp i (count.h:55, 87): bit i increments, bit 16 + i resets;
    CountingScanner increments first, AdvancedCountingScanner resets first. *)
Definition events_of (adv : bool) (i : nat) (a : N) : list event :=
  let inc := if N.testbit a (N.of_nat i) then [Inc] else [] in
  let rst := if N.testbit a (16 + N.of_nat i) then [Rst] else [] in
  if adv then rst ++ inc else inc ++ rst.
(** The actions the transitions of a text give (count.h:157-160). *)
Fixpoint actions (s : loaded) (a : N) (w : list N) : res (list N) :=
  match w with
  | [] => Ok []
  | c :: w' => let* (a1, x) := d_next s a c in let* xs := actions s a1 w' in Ok (x :: xs)
  end.

(** The buffer is in memory, and the table is small enough for 32-bit differences. *)
Definition dplaced (s : loaded) : Prop :=
  (d_base s + d_states s * state_size s <= two64)%N /\ (d_states s * state_size s <= two31)%N.
(** Address [buf] has room for the tables of a scanner. *)
Definition droom (buf : N) (s : loaded) : Prop :=
  (buf + MaxChar + d_states s * state_size s <= two64)%N.
(** Result(i) after a text *)
Definition counts (adv : bool) (s : loaded) (w : list N) (i : nat) (n : N) : Prop :=
  exists st, steps (count_ops adv s) (c_init s) w = Ok st /\ c_result st i = Ok n.

(** The row a text leads to (count.h:157-160). *)
Fixpoint d_run (s : loaded) (a : N) (w : list N) : res N :=
  match w with [] => Ok a | c :: w' => let* (a1, _) := d_next s a c in d_run s a1 w' end.
(** Running two scanners over all texts reaches [n] different pairs of rows. *)
Definition many (l r : loaded) (n : N) : Prop := exists sts, NoDup sts /\ N.of_nat (length sts) = n /\
  forall a b, In (a, b) sts -> exists w, is_word w /\ d_run l (d_initial l) w = Ok a /\ d_run r (d_initial r) w = Ok b.

(** ** What the constructor of CountingScanner is for *)
(** [n] pieces of the language [M], one after another, somewhere in the text. *)
Definition chain (M : lang) (w : list N) (n : nat) : Prop :=
  exists x ms y, w = x ++ concat ms ++ y /\ length ms = n /\ Forall M ms.

(** A piece: a separator in which no word of [re] occurs, then a word of [re]
    (count.cpp:746-750). *)
Definition piece (re sep : lang) : lang := fun w =>
  exists a b, w = a ++ b /\ sep a /\ re b /\ ~ exists x y z, a = x ++ y ++ z /\ re y.
(** The letters of texts (count.cpp:739-742): bytes, and the marks of their ends. *)
Definition any_letter (c : N) : Prop := (c < 256)%N \/ c = BeginMark \/ c = EndMark.
(** Some word of [M] starts with [u]. *)
Definition begins (M : lang) (u : list N) : Prop := exists y, M (u ++ y).
(** Whatever a piece can be continued by on the way to a longer piece makes a piece. *)
Definition steady (M : lang) : Prop := forall u v, M u -> begins M (u ++ v) -> M (u ++ v).
(** If two pieces in a row start a longer one, it goes through a piece before its second is over. *)
Definition resumable (M : lang) : Prop := forall u v, M u -> M v -> begins M (u ++ v) ->
  exists v1 v2, v = v1 ++ v2 /\ v1 <> [] /\ M (u ++ v1).
Definition prefix_free (M : lang) : Prop := forall u v, M u -> M (u ++ v) -> v = [].

(** Reading a text greedily, [u] being the piece read so far: it is continued as long as some
    piece starts so; when no piece does, it counts if it is a piece and ends the run if not, and
    the next one starts at the letter. *)
Inductive greedy (M : lang) : list N -> list N -> list event -> Prop :=
| greedy_end u : greedy M u [] []
| greedy_first c w evs : greedy M [c] w evs -> greedy M [] (c :: w) evs
| greedy_more u c w evs : u <> [] -> begins M (u ++ [c]) -> greedy M (u ++ [c]) w evs -> greedy M u (c :: w) evs
| greedy_piece u c w evs : u <> [] -> ~ begins M (u ++ [c]) -> M u -> greedy M [c] w evs -> greedy M u (c :: w) (Inc :: evs)
| greedy_miss u c w evs : u <> [] -> ~ begins M (u ++ [c]) -> ~ M u -> greedy M [c] w evs -> greedy M u (c :: w) (Rst :: evs).
(** Words of [M] occur neither in one another nor across one another. *)
Definition apart (M : lang) : Prop :=
  (forall x u y, M u -> M (x ++ u ++ y) -> x = [] /\ y = []) /\ (forall p q r, q <> [] -> M (p ++ q) -> M (q ++ r) -> r = []).
Definition bytes (w : list N) : Prop := Forall (fun c => (c < 256)%N) w.
