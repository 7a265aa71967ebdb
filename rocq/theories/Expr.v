(** Expressions made of the documented building calls, what they denote, and the sequence of
    calls that builds the automaton.  [den] is the specification. *)
From Coq Require Import List Bool Arith NArith.
From Verif Require Import Util Spec PartitionModel FsmModel DetermineModel MinimizeModel.
Import ListNotations.

Inductive expr :=
| XEmpty                                (* Fsm() *)
| XFalse                                (* Fsm::MakeFalse() *)
| XAppend (e : expr) (c : N)            (* Append(char), AppendSpecial(Char) *)
| XString (e : expr) (s : word)         (* Append(const ystring&) *)
| XDot (e : expr)                       (* AppendDot() *)
| XStrings (e : expr) (ss : list word)  (* AppendStrings(const TVector<ystring>&) *)
| XCat (a b : expr)                     (* operator + *)
| XOr (a b : expr)                      (* operator | *)
| XAnd (a b : expr)                     (* operator & *)
| XNot (e : expr)                       (* operator ~ *)
| XStar (e : expr)                      (* operator * *)
| XTimes (e : expr) (n : nat)           (* operator * (size_t) *)
| XPrepend (e : expr)                   (* PrependAnything() *)
| XAppendAny (e : expr)                 (* AppendAnything() *)
| XSurround (e : expr)                  (* Surround() *)
| XReverse (e : expr)                   (* Reverse() *).

(** The language an expression stands for. *)
Fixpoint den (e : expr) : lang :=
  match e with
  | XEmpty => L_eps
  | XFalse => L_none
  | XAppend e c => L_cat (den e) (L_letter c)
  | XString e s => L_cat (den e) (L_word s)
  | XDot e => L_cat (den e) L_anybyte
  | XStrings e ss => L_cat (den e) (L_oneof ss)
  | XCat a b => L_cat (den a) (den b)
  | XOr a b => L_or (den a) (den b)
  | XAnd a b => L_and (den a) (den b)
  | XNot e => L_not (den e)
  | XStar e => L_star (den e)
  | XTimes e n => L_pow (den e) n
  | XPrepend e => L_cat L_any (den e)
  | XAppendAny e => L_cat (den e) L_any
  | XSurround e => L_cat L_any (L_cat (den e) L_any)
  | XReverse e => L_rev (den e)
  end.

(** fsm.h:40-140: the calls *)
Fixpoint build (e : expr) : res fsm :=
  match e with
  | XEmpty => Ok fsm_new
  | XFalse => Ok make_false
  | XAppend e c => let* f := build e in Ok (append_special f c)
  | XString e s => let* f := build e in Ok (append_string f s)
  | XDot e => let* f := build e in Ok (append_dot f)
  | XStrings e ss => let* f := build e in append_strings f ss
  | XCat a b => let* f := build a in let* g := build b in Ok (fsm_cat f g)
  | XOr a b => let* f := build a in let* g := build b in Ok (fsm_or f g)
  | XAnd a b => let* f := build a in let* g := build b in fsm_and f g
  | XNot e => let* f := build e in complement f
  | XStar e => let* f := build e in Ok (iterate f)
  | XTimes e n => let* f := build e in Ok (fsm_times f n)
  | XPrepend e => let* f := build e in Ok (prepend_anything f)
  | XAppendAny e => let* f := build e in Ok (append_anything f)
  | XSurround e => let* f := build e in Ok (surround f)
  | XReverse e => let* f := build e in Ok (fsm_reverse f)
  end.

(** The result still has its letters apart: no & or ~ since the last + or |. *)
Fixpoint apart (e : expr) : Prop :=
  match e with
  | XEmpty | XFalse | XCat _ _ | XOr _ _ | XTimes _ _ => True
  | XAnd _ _ | XNot _ => False
  | XAppend e _ | XString e _ | XDot e | XStrings e _ | XStar e | XPrepend e | XAppendAny e | XSurround e | XReverse e => apart e
  end.
(** The operands + and * (n) lose the empty word of: Fsm() and x * 0 (with nothing but empty
    strings appended). *)
Fixpoint loses_empty (e : expr) : Prop :=
  match e with
  | XEmpty | XTimes _ 0 => True
  | XString e [] => loses_empty e
  | _ => False
  end.
(** The documented subset. *)
Fixpoint sane (e : expr) : Prop :=
  match e with
  | XEmpty | XFalse => True
  | XAppend e c => sane e /\ apart e /\ letter c
  | XString e s => sane e /\ apart e /\ is_word s
  | XDot e => sane e /\ apart e
  | XStrings e ss => sane e /\ apart e /\ forall s, In s ss -> s <> [] /\ Forall byte s
  | XCat a b => sane a /\ sane b /\ ~ loses_empty b
  | XTimes e n => sane e /\ ~ loses_empty e
  | XOr a b | XAnd a b => sane a /\ sane b
  | XNot e | XStar e | XPrepend e | XAppendAny e | XSurround e | XReverse e => sane e
  end.
(** Building determinizes. *)
Fixpoint has_not (e : expr) : Prop :=
  match e with
  | XEmpty | XFalse => False
  | XAnd _ _ | XNot _ => True
  | XCat a b | XOr a b => has_not a \/ has_not b
  | XAppend e _ | XString e _ | XDot e | XStrings e _ | XStar e | XTimes e _ | XPrepend e | XAppendAny e | XSurround e | XReverse e => has_not e
  end.
