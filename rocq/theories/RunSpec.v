(** Specification vocabulary for scanning: texts in memory and stepping byte by byte. *)
From Coq Require Import List Bool Arith NArith.
From Verif Require Import Util Spec RunModel.
Import ListNotations.
Set Implicit Arguments.
Unset Strict Implicit.

(** The bytes [bs] are stored from address [a] on. *)
Definition holds (m : mem) (a : N) (bs : list N) : Prop :=
  Forall byte bs /\ forall i, i < length bs -> m (a + N.of_nat i)%N = Some (nth i bs 0%N).

(** Every mapped address holds a byte. *)
Definition bytes_mem (m : mem) : Prop := forall a x, m a = Some x -> byte x.

(** [m] holds the text [bs] at address [b], and the bytes before [b] in the same 8-byte
    word may be read (nothing is assumed about the bytes after the text). *)
Definition text_at (m : mem) (b : N) (bs : list N) : Prop :=
  bytes_mem m /\ holds m b bs /\ forall a, (b / 8 * 8 <= a < b)%N -> m a <> None.

(** Feeding letters one by one. *)
Fixpoint steps {St} (o : ops St) (st : St) (w : list N) : res St :=
  match w with
  | [] => Ok st
  | c :: w' => let* st1 := o_step o st c in steps o st1 w'
  end.

(** The scanner accepts the word [w] from its initial state. *)
Definition Accepts {St} (o : ops St) (w : list N) : Prop :=
  exists s, steps o (o_init o) w = Ok s /\ o_final o s = Ok true.

(** A scanner that works: on a set V of states containing the initial one, every letter
    leads to a state in V, Final and Dead are defined, Dead is sound, and Next is Step
    (TakeAction does nothing). *)
Record works {St} (o : ops St) (V : St -> Prop) : Prop := {
  wk_init : V (o_init o);
  wk_step : forall s c, V s -> letter c -> exists s', o_step o s c = Ok s' /\ V s';
  wk_next : forall s c, V s -> letter c -> o_next o s c = o_step o s c;
  wk_final : forall s, V s -> exists b, o_final o s = Ok b;
  wk_dead : forall s, V s -> exists b, o_dead o s = Ok b;
  wk_sound : forall s, V s -> o_dead o s = Ok true ->
    forall w s', is_word w -> steps o s w = Ok s' -> o_final o s' = Ok false
}.

Definition mark_if (b : bool) (mark : N) : list N := if b then [mark] else [].

(** The results a prefix search may give for the text [bs] at address [b], when A says
    which texts are accepted (begin mark already accounted for). *)
Definition no_prefix (A : list N -> Prop) (bs : list N) : Prop := forall k, k <= length bs -> ~ A (firstn k bs).
Definition shortest_result (A : list N -> Prop) (em : bool) (b : N) (bs : list N) (r : option N) : Prop :=
  match r with
  | Some p =>
      (exists k, k <= length bs /\ p = (b + N.of_nat k)%N /\ A (firstn k bs) /\ forall j, j < k -> ~ A (firstn j bs)) \/
      (em = true /\ p = (b + N.of_nat (length bs))%N /\ no_prefix A bs /\ A (bs ++ [EndMark]))
  | None => no_prefix A bs /\ (em = true -> ~ A (bs ++ [EndMark]))
  end.
Definition longest_result (A : list N -> Prop) (em : bool) (b : N) (bs : list N) (r : option N) : Prop :=
  match r with
  | Some p =>
      (em = true /\ p = (b + N.of_nat (length bs))%N /\ A (bs ++ [EndMark])) \/
      ((em = true -> ~ A (bs ++ [EndMark])) /\
       exists k, k <= length bs /\ p = (b + N.of_nat k)%N /\ A (firstn k bs) /\
                 forall j, k < j -> j <= length bs -> ~ A (firstn j bs))
  | None => no_prefix A bs /\ (em = true -> ~ A (bs ++ [EndMark]))
  end.

(** A weaker answer: an accepted prefix such that every longer accepted prefix leads to the
    same state ([Same u v]). *)
Definition longest_up_to (Same : list N -> list N -> Prop) (A : list N -> Prop) (em : bool) (b : N) (bs : list N) (r : option N) : Prop :=
  match r with
  | Some p =>
      (em = true /\ p = (b + N.of_nat (length bs))%N /\ A (bs ++ [EndMark])) \/
      ((em = true -> ~ A (bs ++ [EndMark])) /\
       exists k, k <= length bs /\ p = (b + N.of_nat k)%N /\ A (firstn k bs) /\
                 forall j, k < j -> j <= length bs -> A (firstn j bs) -> Same (firstn k bs) (firstn j bs))
  | None => no_prefix A bs /\ (em = true -> ~ A (bs ++ [EndMark]))
  end.
(** The two words lead to the same state. *)
Definition same_state {St} (o : ops St) (u v : list N) : Prop :=
  exists s, steps o (o_init o) u = Ok s /\ steps o (o_init o) v = Ok s.

(** ... and for the suffix searches: [rb] is the address of the last byte, the text is read
    from right to left, the result is the address before the suffix. *)
Definition shortest_suffix_result (A : list N -> Prop) (rb : N) (bs : list N) (r : option N) : Prop :=
  match r with
  | Some p => exists k, k <= length bs /\ p = (rb - N.of_nat k)%N /\ A (firstn k (rev bs)) /\
                        forall j, j < k -> ~ A (firstn j (rev bs))
  | None => no_prefix A (rev bs)
  end.
Definition longest_suffix_result (A : list N -> Prop) (bm : bool) (rb : N) (bs : list N) (r : option N) : Prop :=
  match r with
  | Some p =>
      (bm = true /\ p = (rb - N.of_nat (length bs))%N /\ A (rev bs ++ [BeginMark])) \/
      ((bm = true -> ~ A (rev bs ++ [BeginMark])) /\
       exists k, k <= length bs /\ p = (rb - N.of_nat k)%N /\ A (firstn k (rev bs)) /\
                 forall j, k < j -> j <= length bs -> ~ A (firstn j (rev bs)))
  | None => no_prefix A (rev bs) /\ (bm = true -> ~ A (rev bs ++ [BeginMark]))
  end.
