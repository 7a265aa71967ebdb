(** Model of easy.h: the class Regexp. *)
From Coq Require Import List Bool Arith NArith.
From Verif Require Import Util Spec PartitionModel FsmModel DetermineModel MinimizeModel EncModel RunModel ScannerModel GlueModel SimpleModel LexModel.
Import ListNotations.

(** easy.h:225-231, the inner loop of BeginsWithCircumflex: [handled] and the queue *)
Definition circ_push (hq : list nat * list nat) (i : nat) : list nat * list nat :=
  let '(h, q) := hq in if smem i h then hq else (sadd i h, q ++ [i]).
(** easy.h:224-241.  The fuel is the number of states, plus one: no state is queued twice. *)
Fixpoint circ_loop (fuel : nat) (f : fsm) (handled queue : list nat) : res bool :=
  match fuel with
  | O => OutOfFuel
  | S k =>
      match queue with
      | [] => Ok true
      | p :: _ =>
          let '(h, q) := fold_left circ_push (destinations f p Epsilon) (handled, queue) in
          if existsb (fun c => negb (N.eqb c Epsilon) && negb (N.eqb c BeginMark)) (outgoing_letters f p) then Ok false
          else circ_loop k f h (tl q)
      end
  end.
(** easy.h:217-242 *)
Definition begins_with_circumflex (f : fsm) : res bool := circ_loop (S (size f)) f [initial f] [initial f].

(** easy.h:184-185: m_scanner and m_slow *)
Record regexp := mkRegexp { x_fast : scanner; x_slow : slow }.
(** easy.h:207-214, from the parsed automaton on.  [x] holds the default-constructed members;
    [b1] and [b2] are the buffers of the compiled scanner and of its copy made by the
    assignment (multi.h:238, slow.h:285). *)
Definition regexp_of_fsm (k : kind) (b1 b2 : N) (x : regexp) (f : fsm) : res regexp :=
  let* c := begins_with_circumflex f in
  let f1 := append_anything (if c : bool then f else prepend_anything f) in
  let* (ok, g) := determine f1 0 in
  if ok : bool then let* s := compile k b1 g in Ok (mkRegexp (copy_scanner k b2 s) (x_slow x))
  else let* s := slow_compile g in Ok (mkRegexp (x_fast x) (slow_copy s)).
(** easy.h:198-215, Regexp::Init, on default-constructed members ([b0] is the buffer of the
    empty Scanner).  [added] are the options that are features, [e] the encoding. *)
Definition regexp_init (k : kind) (b0 b1 b2 : N) (added : list feature) (e : encoding) (pattern : list N) : res regexp :=
  let* s0 := default_scanner k b0 in
  let* w0 := slow_default in
  let* f := parse_local added e pattern in
  regexp_of_fsm k b1 b2 (mkRegexp s0 w0) f.

(** run.h:365-400 with the Run of slow.h: Runner(m_slow).Begin().Run(b, e).End() *)
Definition slow_matches (s : slow) (m : mem) (b e : N) : res bool :=
  let o := slow_ops s in
  let* st := start_state o true BeginMark in
  let* st1 := slow_run s m b e st in
  let* st2 := o_step o st1 EndMark in
  o_final o st2.
(** easy.h:153-159, Regexp::Matches; Empty() is the flag [s_null] *)
Definition regexp_matches (k : kind) (x : regexp) (i : isa) (m : mem) (b e : N) : res bool :=
  if negb (s_null (x_fast x))
  then matches_with (scanner_ops k (x_fast x)) m (multi_run_aligned k (x_fast x) i m (@run_pred N)) true true b e
  else slow_matches (x_slow x) m b e.
