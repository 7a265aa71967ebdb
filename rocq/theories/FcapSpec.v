(** What a sequence of actions of a capturing scanner notes, read independently of the code. *)
From Coq Require Import List Bool Arith NArith.
From Verif Require Import Util Spec FsmModel FsmSem ScannerModel FcapModel.
Import ListNotations.

(** The [i]-th letter begins a capture; or ends one and does not begin one. *)
Definition begins (acts : list N) (i : nat) : Prop := exists a, nth_error acts i = Some a /\ N.testbit a 0 = true.
Definition finishes (acts : list N) (i : nat) : Prop := exists a, nth_error acts i = Some a /\ N.testbit a 0 = false /\ N.testbit a 1 = true.
(** [x] is the last place below [k] where [P] holds, or npos if there is none. *)
Definition last_below (P : nat -> Prop) (k : nat) (x : N) : Prop :=
  (x = fc_npos /\ forall i, i < k -> ~ P i) \/ exists i, i < k /\ P i /\ (forall j, i < j < k -> ~ P j) /\ x = N.of_nat i.
(** The places are noted up to the letter [k] where there are both, and from there on kept. *)
Definition noted (acts : list N) (b e : N) : Prop :=
  exists k, k <= length acts /\ last_below (begins acts) k b /\ last_below (finishes acts) k e /\
    (k = length acts \/ (b <> fc_npos /\ e <> fc_npos)) /\
    forall i j, i < k -> j < k -> begins acts i -> finishes acts j -> i = k - 1 \/ j = k - 1.
(** The actions Next returns along a word. *)
Fixpoint fc_actions (next : N -> N -> res (N * N)) (a : N) (w : list N) : res (list N) :=
  match w with
  | [] => Ok []
  | c :: w' => let* (a', x) := next a c in let* r := fc_actions next a' w' in Ok (x :: r)
  end.
(** The outputs of the transitions that an automaton without epsilons takes along a word, as
    far as they fit into an action. *)
Inductive spells (f : fsm) : nat -> word -> list N -> Prop :=
| spells_nil : forall p, spells f p [] []
| spells_cons : forall p c q w acts, edge f p c q -> spells f q w acts -> spells f p (c :: w) (output f p q mod two32 :: acts)%N.
