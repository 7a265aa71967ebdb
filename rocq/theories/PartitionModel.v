(** Model of partition.h (no proofs). *)
From Coq Require Import List Bool Arith NArith.
From Verif Require Import Util.
Import ListNotations.
Set Implicit Arguments.

(** partition.h:37-41, 143-147: m_set (representative -> (index, members)), m_inv
    (member -> representative), m_maxidx.  The equivalence m_eq is passed to [part_append]. *)
Record partition := mkPart {
  pset : smap N (nat * list N);
  pinv : smap N N;
  pmax : nat
}.

(** partition.h:43-47 *)
Definition part_empty : partition := mkPart [] [] 0.

(** partition.h:153-158: the scan for the first equivalent class; appends to its members
    (push_back); returns None when no class is equivalent (it == end). *)
Fixpoint part_join (eq : N -> N -> bool) (t : N) (s : smap N (nat * list N))
  : option (N * smap N (nat * list N)) :=
  match s with
  | [] => None
  | (r, (idx, ms)) :: s' =>
      if eq r t then Some (r, (r, (idx, ms ++ [t])) :: s')
      else match part_join eq t s' with
           | Some (r', s'') => Some (r', (r, (idx, ms)) :: s'')
           | None => None
           end
  end.

(** partition.h:149-166 DoAppend, as called by Append (50-52) *)
Definition part_append (eq : N -> N -> bool) (t : N) (p : partition) : partition :=
  match part_join eq t (pset p) with
  | Some (r, s) => mkPart s (mset t r (pinv p)) (pmax p)
  | None => mkPart (minsert t (pmax p, [t]) (pset p)) (mset t t (pinv p)) (S (pmax p))
  end.

(** partition.h:68-70 *)
Definition part_size (p : partition) : nat := length (pset p).

(** partition.h:78-85.  For an absent letter the C++ code returns a default-constructed
    value (stub/singleton.h); the model returns None and callers say what they do. *)
Definition part_rep (p : partition) (t : N) : option N := mfind t (pinv p).

(** partition.h:87-90 *)
Definition part_contains (p : partition) (t : N) : bool :=
  match mfind t (pinv p) with Some _ => true | None => false end.

(** partition.h:95-103; throws for an absent item.  The assertion on line 101 (the
    representative is a key) is an invariant proved in PartitionProofs.v; its failure
    would be undefined behaviour. *)
Definition part_index (p : partition) (t : N) : res nat :=
  match mfind t (pinv p) with
  | None => Throw ENoSuchLetter
  | Some r => match mfind r (pset p) with Some (idx, _) => Ok idx | None => UB end
  end.
