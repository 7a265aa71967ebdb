(** Model of the regexp parser (pire/re_parser.y): the tokens, the grammar, and the actions
    that build the automaton.  Bison itself is not modelled: [derives] is the grammar of the
    file, rule by rule, and [parse] is a shift-reduce parser for it (proved to accept exactly
    what the grammar derives, RegexParse.v); Feature::Parenthesized (re_lexer.h:208) does
    nothing in every feature of the library proper and is left out here (extra/capture.cpp
    overrides it; see MarkModel.v). *)
From Coq Require Import List Bool Arith NArith ZArith.
From Verif Require Import Util Spec PartitionModel FsmModel DetermineModel MinimizeModel EncModel.
Import ListNotations.

(** re_lexer.h:74-101, Term, and re_parser.y:72-76: what Lexer::Lex hands to the parser.
    A count is a pair of int, Inf = -1 (re_lexer.h:43). *)
Inductive token :=
| KLetters (ss : list (list N)) (negated : bool)   (* Term::CharacterRange *)
| KCount (lo hi : Z)                               (* Term::RepetitionCount *)
| KDot | KAnd | KNot | KOr | KOpen | KClose | KBegin | KEnd.
Definition Inf : Z := -1.

(** The parse tree: one constructor per rule that is not a mere [x : y]. *)
Inductive re :=
| RLetters (ss : list (list N)) (negated : bool)   (* re_parser.y:154 *)
| RDot | RBegin | REnd                             (* re_parser.y:155-157 *)
| RGroup (a : re)                                  (* re_parser.y:158 *)
| RCount (t : re) (lo hi : Z)                      (* re_parser.y:124 *)
| REps                                             (* re_parser.y:108 *)
| RCat (c i : re)                                  (* re_parser.y:109 *)
| RNot (c : re)                                    (* re_parser.y:104 *)
| RAnd (j n : re)                                  (* re_parser.y:99 *)
| ROr (a j : re).                                  (* re_parser.y:94 *)

(** re_parser.y:82-159, the grammar *)
Inductive sort := Alternative | Conjunction | Negation | Concatenation | Iteration | Termn.
Inductive derives : sort -> list token -> re -> Prop :=
| g_alt_conj : forall w r, derives Conjunction w r -> derives Alternative w r
| g_alt : forall u v a j, derives Alternative u a -> derives Conjunction v j -> derives Alternative (u ++ KOr :: v) (ROr a j)
| g_conj_neg : forall w r, derives Negation w r -> derives Conjunction w r
| g_conj : forall u v j n, derives Conjunction u j -> derives Negation v n -> derives Conjunction (u ++ KAnd :: v) (RAnd j n)
| g_neg_cat : forall w r, derives Concatenation w r -> derives Negation w r
| g_neg : forall w c, derives Concatenation w c -> derives Negation (KNot :: w) (RNot c)
| g_cat_empty : derives Concatenation [] REps
| g_cat : forall u v c i, derives Concatenation u c -> derives Iteration v i -> derives Concatenation (u ++ v) (RCat c i)
| g_iter_term : forall w r, derives Termn w r -> derives Iteration w r
| g_iter : forall w t lo hi, derives Termn w t -> derives Iteration (w ++ [KCount lo hi]) (RCount t lo hi)
| g_letters : forall ss n, derives Termn [KLetters ss n] (RLetters ss n)
| g_dot : derives Termn [KDot] RDot
| g_begin : derives Termn [KBegin] RBegin
| g_end : derives Termn [KEnd] REnd
| g_group : forall w a, derives Alternative w a -> derives Termn (KOpen :: w ++ [KClose]) (RGroup a).

(** ** The parser: the reductions bison makes, one token at a time.  A frame holds what has
    been read since the last open parenthesis. *)
Record frame := mkFrame {
  r_alt : option re;    (* alternative '|' so far *)
  r_conj : option re;   (* conjunction YRE_AND so far *)
  r_not : bool;         (* YRE_NOT has been read *)
  r_cat : re;           (* the concatenation so far *)
  r_term : option re    (* a term that may still get a count *)
}.
Definition fresh : frame := mkFrame None None false REps None.
(** reduce iteration : term and concatenation : concatenation iteration *)
Definition flush (f : frame) : re := match r_term f with Some t => RCat (r_cat f) t | None => r_cat f end.
Definition close_neg (f : frame) : re := if r_not f then RNot (flush f) else flush f.
Definition close_conj (f : frame) : re := match r_conj f with Some j => RAnd j (close_neg f) | None => close_neg f end.
Definition close_alt (f : frame) : re := match r_alt f with Some a => ROr a (close_conj f) | None => close_conj f end.
Definition with_term (f : frame) (t : re) : frame := mkFrame (r_alt f) (r_conj f) (r_not f) (flush f) (Some t).
Fixpoint parse_loop (w : list token) (f : frame) (stack : list frame) : option re :=
  match w with
  | [] => match stack with [] => Some (close_alt f) | _ => None end
  | k :: w =>
      match k with
      | KLetters ss n => parse_loop w (with_term f (RLetters ss n)) stack
      | KDot => parse_loop w (with_term f RDot) stack
      | KBegin => parse_loop w (with_term f RBegin) stack
      | KEnd => parse_loop w (with_term f REnd) stack
      | KCount lo hi =>
          match r_term f with
          | Some t => parse_loop w (mkFrame (r_alt f) (r_conj f) (r_not f) (RCat (r_cat f) (RCount t lo hi)) None) stack
          | None => None
          end
      | KNot =>
          match r_not f, r_cat f, r_term f with
          | false, REps, None => parse_loop w (mkFrame (r_alt f) (r_conj f) true REps None) stack
          | _, _, _ => None
          end
      | KAnd => parse_loop w (mkFrame (r_alt f) (Some (close_conj f)) false REps None) stack
      | KOr => parse_loop w (mkFrame (Some (close_alt f)) None false REps None) stack
      | KOpen => parse_loop w fresh (f :: stack)
      | KClose => match stack with [] => None | g :: stack => parse_loop w (with_term g (RGroup (close_alt f))) stack end
      end
  end.
Definition parse (w : list token) : option re := parse_loop w fresh [].

(** ** The actions *)
(** re_parser.y:44, YYSTYPE Any*: what an Any holds *)
Inductive value := VFsm (f : fsm) | VRange (ss : list (list N)) (negated : bool) | VDot | VBegin | VEnd.

(** re_parser.y:196-203: a string in the encoding, empty when one of its characters has no
    representation *)
Fixpoint encode (e : encoding) (s : list N) : list N :=
  match s with
  | [] => []
  | c :: s => match e_to e c with [] => [] | b => match s with [] => b | _ => match encode e s with [] => [] | r => b ++ r end end end
  end.
(** re_parser.y:190-213, AppendRange *)
Definition append_range (e : encoding) (a : fsm) (ss : list (list N)) : res fsm :=
  let strings := filter (fun s => match s with [] => false | _ => true end) (map (encode e) ss) in
  match strings with
  | [] => Ok make_false
  | _ => append_strings a strings
  end.
(** re_parser.y:215-243, ConvertToFSM *)
Definition convert (e : encoding) (v : value) : res fsm :=
  match v with
  | VFsm f => Ok f
  | VDot => Ok (e_dot e fsm_new)
  | VBegin => Ok (append_special fsm_new BeginMark)
  | VEnd => Ok (append_special fsm_new EndMark)
  | VRange ss negated =>
      let* a := append_range e fsm_new ss in
      if negated then
        let* x := complement (e_dot e fsm_new) in
        let* b := complement (fsm_or a x) in
        remove_dead_ends b
      else Ok a
  end.
(** int to size_t *)
Definition to_size (z : Z) : nat := Z.to_nat (z mod 18446744073709551616)%Z.
(** re_parser.y:124-147, the action of term YRE_COUNT.  (The difference of the two counts is
    taken in int; it cannot overflow, the counts read by the lexer not being negative.) *)
Definition repeat_action (orig : fsm) (lo hi : Z) : fsm :=
  if (Z.eqb lo 0 && Z.eqb hi 1)%bool then fsm_or orig fsm_new
  else if (Z.eqb lo 0 && Z.eqb hi Inf)%bool then iterate orig
  else if (Z.eqb lo 1 && Z.eqb hi Inf)%bool then fsm_cat orig (iterate orig)
  else
    let cur := fsm_times orig (to_size lo) in
    if Z.eqb hi Inf then fsm_cat cur (iterate orig)
    else if negb (Z.eqb hi lo) then fsm_cat cur (fsm_times (fsm_or orig fsm_new) (to_size (hi - lo)))
    else cur.

(** re_parser.y:92-159, the actions *)
Fixpoint eval (e : encoding) (r : re) : res value :=
  match r with
  | RLetters ss n => Ok (VRange ss n)
  | RDot => Ok VDot
  | RBegin => Ok VBegin
  | REnd => Ok VEnd
  | RGroup a => eval e a
  | RCount t lo hi =>
      let* v := eval e t in
      let* orig := convert e v in
      Ok (VFsm (repeat_action orig lo hi))
  | REps => Ok (VFsm fsm_new)
  | RCat c i =>
      let* vc := eval e c in
      let* a := convert e vc in
      let* v := eval e i in
      match v with
      | VRange ss false => let* f := append_range e a ss in Ok (VFsm f)
      | VDot => Ok (VFsm (e_dot e a))
      | _ => let* b := convert e v in Ok (VFsm (fsm_cat a b))
      end
  | RNot c => let* v := eval e c in let* f := convert e v in let* g := complement f in Ok (VFsm g)
  | RAnd j n =>
      let* vj := eval e j in let* f := convert e vj in
      let* vn := eval e n in let* g := convert e vn in
      let* h := fsm_and f g in Ok (VFsm h)
  | ROr a j =>
      let* va := eval e a in let* f := convert e va in
      let* vj := eval e j in let* g := convert e vj in
      Ok (VFsm (fsm_or f g))
  end.
(** re_parser.y:82-90, regexp : alternative *)
Definition compile_re (e : encoding) (r : re) : res fsm := let* v := eval e r in convert e v.
(** re_lexer.cpp:379-387, Lexer::Parse (on the tokens) *)
Definition parse_tokens (e : encoding) (w : list token) : res fsm :=
  match parse w with Some r => compile_re e r | None => Throw ESyntax end.
