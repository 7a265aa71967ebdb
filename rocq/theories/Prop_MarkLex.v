(** C54: what the text of a pattern means to a lexer with the feature Capture.  MarkLexSpec.v says how
    a pattern is written: the items of LexSpec.v, where *, + and ? may be followed by a question mark. *)
From Coq Require Import List Bool Arith NArith ZArith Lia.
From Verif Require Import Util Spec PartitionModel FsmModel Nfa FsmSem EncModel EncSpec ScannerModel
  RegexModel RegexSpec RegexParse UniModel LexModel LexSpec CapModel CapSpec MarkModel MarkSpec MarkCalm MarkLexModel MarkLexSpec MarkLex MarkLexTotal.
Import ListNotations.
Local Open Scope N_scope.

(** Every item is read as without the feature, the question mark behind *, + or ? is read as part of
    it, and the counts are greedy or not as written; there are as many flags as the parser meets counts. *)
Theorem C54_lex : forall added icase andnot ps, options added icase andnot -> pieces_ok andnot ps ->
  exists ts, lex_all_m (features added) (pieces_text ps) = Ok (ts, pieces_greedy ps) /\ Forall2 (stands_for icase) (map fst ps) ts /\
    forall r, derives Alternative ts r -> ncounts r = length (pieces_greedy ps).
Proof. exact pattern_lexed. Qed.
Print Assumptions C54_lex.

(** On every text whatever the lexer stops, with tokens, with an exception, or at a number that is too
    large (C42_count_overflow_refuted). *)
Theorem C54_total : forall fs s, (exists ts gs, lex_all_m fs s = Ok (ts, gs)) \/ lex_all_m fs s = Throw ESyntax \/ lex_all_m fs s = UB.
Proof. exact lex_all_m_total. Qed.
Print Assumptions C54_total.

(** And on every text it reads, also one not written as documented, there is one flag for each count
    that the parser meets. *)
Theorem C54_flags : forall added icase andnot s ts gs r, options added icase andnot -> lex_all_m (features added) s = Ok (ts, gs) -> derives Alternative ts r -> ncounts r = length gs.
Proof. exact flags_counts. Qed.
Print Assumptions C54_flags.
Example C54_flags_ex : options [] false false /\ lex_all_m (features []) [97; 42; 63; 97; 123; 63; 50; 125] = Ok ([KLetters [[97]] false; KCount 0 Inf; KLetters [[97]] false; KCount 2 2], [false; false]) /\
  derives Alternative [KLetters [[97]] false; KCount 0 Inf; KLetters [[97]] false; KCount 2 2] (RCat (RCat REps (RCount (RLetters [[97]] false) 0 Inf)) (RCount (RLetters [[97]] false) 2 2)).
Proof.
  split; [|split; [vm_compute; reflexivity|]].
  - split; [constructor|]. split; [intros f []|]. split; split; intros H; try discriminate; destruct H.
  - apply g_alt_conj, g_conj_neg, g_neg_cat.
    exact (g_cat _ _ _ _ (g_cat _ _ _ _ g_cat_empty (g_iter _ _ 0 Inf (g_letters [[97]] false))) (g_iter _ _ 2 2 (g_letters [[97]] false))).
Qed.

(** With a question mark behind every count, what is captured belongs to a leftmost match. *)
Theorem C54_lazy : forall added icase andnot ps, options added icase andnot -> pieces_ok andnot ps -> Forall (fun p => counts (fst p) = true -> snd p = true) ps ->
  exists ts gs, lex_all_m (features added) (pieces_text ps) = Ok (ts, gs) /\ Forall2 (stands_for icase) (map fst ps) ts /\
    forall e D r pos f s t cl ans st, shipped e D -> derives Alternative ts r -> capturable e r -> regular r ->
      compile_m e pos gs r = Ok f -> N.of_nat (size f) + 2 <= two32 -> cap_compile (surround f) = Ok s -> is_word t -> N.of_nat (length t) < nowhere ->
      cap_run s t = Ok cl -> get_capture s cl = Ok (ans, Some st) ->
      exists u m v, t = u ++ strip m ++ v /\ mden (e_to e) D r pos gs m /\ g_begin st = mark_at u 0 m /\ g_end st = mark_at u 1 m /\
        forall u' x v', t = u' ++ x ++ v' -> re_den (e_to e) D r x -> (length u <= length u')%nat.
Proof.
  intros added icase andnot ps O F Z. destruct (pattern_lexed added icase andnot ps O F) as (ts & E & M & C). exists ts, (pieces_greedy ps).
  split; [exact E|]. split; [exact M|]. intros e D r pos f s t cl ans st Sh Dr Cr R. apply (lazy_leftmost e D ts r pos _ f s t cl ans st Sh Dr Cr R (lazy_flags ps Z)).
  rewrite (C r Dr). apply le_n.
Qed.
Print Assumptions C54_lazy.

(** (a)x([b-d]*?)y+ without options, and the same with every count non-greedy *)
Definition exl (last : bool) : list piece :=
  [(IOpen, false); (IChar 97, false); (IClose, false); (IChar 120, false); (IOpen, false); (ISet false [MRange (SChar 98) (SChar 100)], false); (IStar, true); (IClose, false); (IChar 121, false); (IPlus, last)].
Example C54_ex : options [] false false /\ pieces_ok false (exl false) /\ pieces_ok false (exl true) /\ pieces_text (exl false) = [40; 97; 41; 120; 40; 91; 98; 45; 100; 93; 42; 63; 41; 121; 43] /\
  pieces_greedy (exl false) = [false; true] /\ Forall (fun p => counts (fst p) = true -> snd p = true) (exl true) /\
  lex_all_m (features []) (pieces_text (exl false)) =
    Ok ([KOpen; KLetters [[97]] false; KClose; KLetters [[120]] false; KOpen; KLetters [[98]; [99]; [100]] false; KCount 0 Inf; KClose; KLetters [[121]] false; KCount 1 Inf], [false; true]).
Proof.
  assert (P : forall c, c < 61440 -> ~ reserved c) by (intros c H E; unfold reserved in E; rewrite N.mod_small in E by (apply N.div_lt_upper_bound; lia); assert (c / 256 < 240) by (apply N.div_lt_upper_bound; lia); lia).
  split; [|split; [|split; [|split; [reflexivity|split; [reflexivity|split; [|vm_compute; reflexivity]]]]]].
  - split; [constructor|]. split; [intros f []|]. split; split; intros H; try discriminate; destruct H.
  - cbn. unfold wide. repeat split; try discriminate; try (apply P; lia); try lia; intros; apply P; lia.
  - cbn. unfold wide. repeat split; try discriminate; try (apply P; lia); try lia; intros; apply P; lia.
  - repeat constructor; cbn; auto; discriminate.
Qed.

(** ** Where this ends: a question mark behind a count in braces does not make it non-greedy but is a
    further count; and it is looked for behind the open brace. *)
Theorem C54_braces_refuted : exists ds es, number_ok ds /\ number_ok es /\
  lex_all_m (features []) ([97] ++ item_text (ICountTo ds es) ++ [63]) = Ok ([KLetters [[97]] false; KCount (dec_number ds) (dec_number es); KCount 0 1], [true; true]) /\
  lex_all_m (features []) ([97; 123; 63] ++ ds ++ [44] ++ es ++ [125]) = Ok ([KLetters [[97]] false; KCount (dec_number ds) (dec_number es)], [false]).
Proof.
  exists [50], [51]. assert (H : number_ok [50] /\ number_ok [51]).
  { unfold number_ok, decdigit. repeat split; try discriminate; constructor; try lia; constructor. }
  destruct H as [H1 H2]. split; [exact H1|]. split; [exact H2|]. split; vm_compute; reflexivity.
Qed.
Print Assumptions C54_braces_refuted.
