(** How a pattern is written when the lexer has the feature Capture: a question mark behind
    *, + or ? makes it non-greedy. *)
From Coq Require Import List Bool Arith NArith ZArith.
From Verif Require Import Util RegexModel UniModel LexModel LexSpec.
Import ListNotations.
Local Open Scope N_scope.

(** *, + and ?; with the counts in braces *)
Definition quick (i : item) : bool := match i with IStar | IPlus | IOpt => true | _ => false end.
Definition counts (i : item) : bool := match i with ICount _ | ICountFrom _ | ICountTo _ _ => true | _ => quick i end.
(** An item, and whether it is followed by a question mark that makes it non-greedy. *)
Definition piece : Type := (item * bool)%type.
Definition piece_text (p : piece) : list N := item_text (fst p) ++ (if snd p then [63] else []).
Definition pieces_text (ps : list piece) : list N := flat_map piece_text ps.
(** A greedy *, + or ? is not followed by a further ?, which would make it non-greedy. *)
Fixpoint pieces_ok (andnot : bool) (ps : list piece) : Prop :=
  match ps with
  | [] => True
  | (i, lazy) :: r =>
      item_ok andnot i /\ (lazy = true -> quick i = true) /\
      (quick i = true -> lazy = false -> forall b r', r <> (IOpt, b) :: r') /\ pieces_ok andnot r
  end.
(** For each count, whether it is greedy. *)
Definition pieces_greedy (ps : list piece) : list bool := flat_map (fun p => if counts (fst p) then [negb (snd p)] else []) ps.
