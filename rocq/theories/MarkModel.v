(** Model of the lexer feature Capture (pire/extra/capture.cpp:30-128) and of the parser with it:
    CaptureImpl counts the parentheses it reads, and Parenthesized puts the marks on the
    automaton of the group or of the repetition that has just been reduced.

    The characters read by CaptureImpl::Lex are in MarkLexModel.v; what is modelled here is what
    they do to its members.  Bison reduces '(' alternative ')' and
    term YRE_COUNT without looking at a further token, so that Lex and Parenthesized are called in
    the order in which the parentheses and counts stand in the pattern, which is the order in
    which [eval_m] visits them. *)
From Coq Require Import List Bool Arith NArith ZArith.
From Verif Require Import Util Spec PartitionModel FsmModel DetermineModel MinimizeModel EncModel RegexModel CapModel.
Import ListNotations.

(** extra/capture.cpp:89-92, the members of CaptureImpl.  [cm_flags] stands for the part of the
    pattern still to be read: for each count, whether it is greedy, that is, whether no question
    mark follows its first character (extra/capture.cpp:46-52).  NoRepetition is None. *)
Record cmark := mkCm { cm_state : nat; cm_pos : nat; cm_level : nat; cm_rep : option bool; cm_flags : list bool }.
(** extra/capture.cpp:32-37, the constructor *)
Definition cm_new (pos : nat) (flags : list bool) : cmark := mkCm 0 pos 0 None flags.
(** extra/capture.cpp:54-61, Lex: an open parenthesis *)
Definition cm_open (s : cmark) : cmark :=
  if ((cm_state s =? 0) && (1 <? cm_pos s))%bool then mkCm (cm_state s) (cm_pos s - 1) (cm_level s) (cm_rep s) (cm_flags s)
  else if ((cm_state s =? 0) && (cm_pos s =? 1))%bool then mkCm 1 (cm_pos s) 0 (cm_rep s) (cm_flags s)
  else if cm_state s =? 1 then mkCm (cm_state s) (cm_pos s) (cm_level s + 1) (cm_rep s) (cm_flags s)
  else s.
(** extra/capture.cpp:45-53, Lex: a count.  (When the flags have run out it is greedy.) *)
Definition cm_count (s : cmark) : cmark :=
  mkCm (cm_state s) (cm_pos s) (cm_level s) (Some (hd true (cm_flags s))) (tl (cm_flags s)).
(** extra/capture.cpp:76-87, Parenthesized *)
Definition cm_paren (s : cmark) (f : fsm) : fsm * cmark :=
  match cm_rep s with
  | Some greedy => (repetition_mark f greedy, mkCm (cm_state s) (cm_pos s) (cm_level s) None (cm_flags s))
  | None =>
      if ((cm_state s =? 1) && (cm_level s =? 0))%bool then (capture_mark f, mkCm 2 (cm_pos s) (cm_level s) None (cm_flags s))
      else if ((cm_state s =? 1) && (0 <? cm_level s))%bool then (f, mkCm (cm_state s) (cm_pos s) (cm_level s - 1) None (cm_flags s))
      else (f, s)
  end.

(** re_parser.y:92-159, the actions, with the feature Capture among the features.  What stands
    between parentheses is an alternative, whose value is always an automaton; As (any.h:66-72)
    would throw otherwise. *)
Fixpoint eval_m (e : encoding) (r : re) (s : cmark) : res (value * cmark) :=
  match r with
  | RLetters ss n => Ok (VRange ss n, s)
  | RDot => Ok (VDot, s)
  | RBegin => Ok (VBegin, s)
  | REnd => Ok (VEnd, s)
  | RGroup a =>
      let* (v, s) := eval_m e a (cm_open s) in
      match v with VFsm f => let (f, s) := cm_paren s f in Ok (VFsm f, s) | _ => Throw ESyntax end
  | RCount t lo hi =>
      let* (v, s) := eval_m e t s in
      let* orig := convert e v in
      let (f, s) := cm_paren (cm_count s) (repeat_action orig lo hi) in
      Ok (VFsm f, s)
  | REps => Ok (VFsm fsm_new, s)
  | RCat c i =>
      let* (vc, s) := eval_m e c s in
      let* a := convert e vc in
      let* (v, s) := eval_m e i s in
      match v with
      | VRange ss false => let* f := append_range e a ss in Ok (VFsm f, s)
      | VDot => Ok (VFsm (e_dot e a), s)
      | _ => let* b := convert e v in Ok (VFsm (fsm_cat a b), s)
      end
  | RNot c => let* (v, s) := eval_m e c s in let* f := convert e v in let* g := complement f in Ok (VFsm g, s)
  | RAnd j n =>
      let* (vj, s) := eval_m e j s in let* f := convert e vj in
      let* (vn, s) := eval_m e n s in let* g := convert e vn in
      let* h := fsm_and f g in Ok (VFsm h, s)
  | ROr a j =>
      let* (va, s) := eval_m e a s in let* f := convert e va in
      let* (vj, s) := eval_m e j s in let* g := convert e vj in
      Ok (VFsm (fsm_or f g), s)
  end.
(** re_parser.y:82-90, regexp : alternative; extra/capture.cpp:132, Capture(pos) *)
Definition compile_m (e : encoding) (pos : nat) (flags : list bool) (r : re) : res fsm :=
  let* (v, _) := eval_m e r (cm_new pos flags) in convert e v.
