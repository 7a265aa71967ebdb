(** Model of the characters that the lexer feature Capture reads (pire/extra/capture.cpp:38-74)
    and of the lexer with it.  What Lex does to the members of CaptureImpl is in MarkModel.v;
    here it gives the term and, for a count, whether it is greedy.

    Every other feature that accepts a character Capture accepts is RepetitionCountReader, at '{'.
    The constructor of Lexer adds that one first (re_lexer.cpp:371-377), and AddFeature inserts at
    the lower bound, so Capture stands before it. *)
From Coq Require Import List Bool Arith NArith ZArith.
From Verif Require Import Util Spec PartitionModel FsmModel EncModel RegexModel UniModel LexModel.
Import ListNotations.
Local Open Scope N_scope.

(** extra/capture.cpp:39, Accepts: ( + * ? { *)
Definition capture_accepts (c : N) : bool := ((c =? 40) || (c =? 43) || (c =? 42) || (c =? 63) || (c =? 123))%bool.
(** extra/capture.cpp:40-74, Lex.  None stands for Term(0). *)
Definition capture_lex (s : list N) : res (option term * option bool * list N) :=
  let* (c, s) := get_char s in
  if negb (capture_accepts c) then Throw ESyntax
  else
    let* (greedy, s) :=
      if c =? 40 then Ok (None, s)
      else if peek_char s =? 63 then let* (_, s) := get_char s in Ok (Some false, s)
      else Ok (Some true, s) in
    if c =? 40 then Ok (Some TOpen, greedy, s)
    else if c =? 43 then Ok (Some (TCount 1 Inf), greedy, s)
    else if c =? 42 then Ok (Some (TCount 0 Inf), greedy, s)
    else if c =? 63 then Ok (Some (TCount 0 1), greedy, s)
    else Ok (None, greedy, unget_char c s).
(** re_lexer.cpp:104-144, DoLex, with Capture besides the features [fs] *)
Definition do_lex_m (fs : list feature) (s : list N) : res (term * option bool * list N) :=
  let* (c, s) := get_char s in
  let s := unget_char c s in
  let c := peek_char s in
  if c =? End then Ok (TFinish, None, s)
  else
    let* (t, greedy, s) := if capture_accepts c then capture_lex s else Ok (None, None, s) in
    match t with
    | Some t => Ok (t, greedy, s)
    | None =>
        match find (fun f => feature_accepts f c) fs with
        | Some f => let* (t, s) := feature_lex f s in Ok (t, greedy, s)
        | None => let* (c, s) := get_char s in Ok (lex_plain c, greedy, s)
        end
    end.
(** re_lexer.cpp:146-186, Lexer::Lex.  (Capture has no Alter.) *)
Definition lex_m (fs : list feature) (s : list N) : res (option token * option bool * list N) :=
  let* (t, greedy, s) := do_lex_m fs s in
  let* t := alter_all fs t in
  let* t := check_term t in
  Ok (to_token t, greedy, s).
(** The tokens of a pattern, as the parser asks for them (re_parser.y:163-176, yylex), and for each
    count whether it is greedy.  The fuel is one more than the length of the input. *)
Fixpoint lex_loop_m (fs : list feature) (fuel : nat) (s : list N) : res (list token * list bool) :=
  match fuel with
  | O => OutOfFuel
  | S k =>
      let* (t, greedy, s) := lex_m fs s in
      match t with
      | None => Ok ([], [])
      | Some t =>
          let* (ts, gs) := lex_loop_m fs k s in
          Ok (t :: ts, match greedy with Some g => g :: gs | None => gs end)
      end
  end.
Definition lex_all_m (fs : list feature) (s : list N) : res (list token * list bool) := lex_loop_m fs (S (length s)) s.
