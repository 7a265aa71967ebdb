(** Properties C40, C41 and C45: counting scanners. *)
From Coq Require Import List Bool Arith NArith Lia.
From Verif Require Import Util Spec PartitionModel FsmModel DetermineModel MinimizeModel FsmSem Api
  RunModel RunSpec ScannerModel GlueModel CountModel CountSpec CountApi CountUser CountWitness CountMain.
Import ListNotations.
Local Open Scope N_scope.

(** ** C40 *)
(** A counting scanner placed in memory runs over every text, and Result(i) is the longest
    run of increments of regexp i without a reset in between.  The counters are 32-bit, so
    texts of 2^32 letters are left out.  [adv] tells AdvancedCountingScanner, which resets
    before it increments, from CountingScanner, which resets after. *)
Theorem C40_counts_longest_run : forall adv s w i, counting s -> dplaced s -> is_word w -> N.of_nat (length w) < two32 -> (i < 16)%nat ->
  exists acts n, actions s (d_initial s) w = Ok acts /\ longest_run (flat_map (events_of adv i) acts) n /\ counts adv s w i (N.of_nat n).
Proof. exact counting_result. Qed.
Print Assumptions C40_counts_longest_run.

(** Whatever the table of the scanner is (for instance, one that was loaded): if the run goes
    through, the counters are right. *)
Theorem C40_counts_any_table : forall adv s w st i, (i < 16)%nat -> N.of_nat (length w) < two32 ->
  steps (count_ops adv s) (c_init s) w = Ok st ->
  exists acts n, actions s (d_initial s) w = Ok acts /\ longest_run (flat_map (events_of adv i) acts) n /\ c_result st i = Ok (N.of_nat n).
Proof. exact CountProofs.count_longest. Qed.
Print Assumptions C40_counts_any_table.

Example C40_example : counting exc_s /\ dplaced exc_s /\ is_word exc_w /\ N.of_nat (length exc_w) < two32 /\
  counts false exc_s exc_w 1 3 /\ d_count exc_s = 2.
Proof.
  split; [exact (counting_glue 131072 262144 524288 exc_null exc_l exc_r 0 exc_s exc_l_counting exc_r_counting exc_l_placed exc_r_placed exc_null_eq eq_refl exc_s_eq)|].
  split; [exact exc_s_placed|]. split; [apply is_wordb_ok; reflexivity|]. split; [reflexivity|]. split; [|reflexivity].
  apply count_of_ok. vm_compute. reflexivity.
Qed.

(** ** C41 *)
(** Glue of scanners with at most 16 regexps and at most 256 classes of letters. *)
Theorem C41_glued_counters : forall b0 b1 b2 null l r maxSize s, counting l -> counting r -> dplaced l -> dplaced r ->
  default_loaded b0 = Ok null -> dlimit maxSize + 1 < two32 -> d_count l + d_count r <= 16 ->
  dglue b1 b2 null l r maxSize = Ok s -> d_null s = false -> dplaced s -> d_nletters s <= 256 ->
  d_count s = d_count l + d_count r /\ forall adv w, is_word w ->
    (forall i n, (N.of_nat i < d_count l) -> (counts adv s w i n <-> counts adv l w i n)) /\
    (forall i n, (N.of_nat i < d_count r) -> (counts adv s w (N.to_nat (d_count l) + i) n <-> counts adv r w i n)).
Proof. exact counting_glued. Qed.
Print Assumptions C41_glued_counters.

(** Glue always returns, and returns an empty scanner exactly if more pairs of states than
    allowed can be reached. *)
Theorem C41_glue_limit : forall b0 b1 b2 null l r maxSize, counting l -> counting r -> dplaced l -> dplaced r ->
  default_loaded b0 = Ok null -> dlimit maxSize + 1 < two32 -> d_count l + d_count r <= 16 ->
  exists s, dglue b1 b2 null l r maxSize = Ok s /\ (d_null s = true <-> many l r (dlimit maxSize + 2)).
Proof. exact counting_glue_total. Qed.
Print Assumptions C41_glue_limit.
Theorem C41_too_many_regexps : forall b1 b2 null l r maxSize, 16 < d_count l + d_count r -> dglue b1 b2 null l r maxSize = Ok null.
Proof. exact dglue_full. Qed.
Print Assumptions C41_too_many_regexps.

(** With more than 256 classes the claim fails: classes are numbered by bytes, so two letters
    that an operand tells apart are one and the same to the result. *)
Theorem C41_many_classes : forall b0 b1 b2 null l r maxSize s, counting l -> counting r -> dplaced l -> dplaced r ->
  default_loaded b0 = Ok null -> dlimit maxSize + 1 < two32 -> d_count l + d_count r <= 16 ->
  dglue b1 b2 null l r maxSize = Ok s -> d_null s = false -> 256 < d_nletters s ->
  exists c c', letter c /\ letter c' /\ letters_eq (d_letters l) (d_letters r) c c' = false /\
    forall adv x y i n, counts adv s (x ++ c :: y) i n <-> counts adv s (x ++ c' :: y) i n.
Proof. exact counting_glued_classes. Qed.
Print Assumptions C41_many_classes.

Example C41_example : counting exc_l /\ counting exc_r /\ dplaced exc_l /\ dplaced exc_r /\ default_loaded 131072 = Ok exc_null /\
  dlimit 0 + 1 < two32 /\ d_count exc_l + d_count exc_r = 2 /\ dglue 262144 524288 exc_null exc_l exc_r 0 = Ok exc_s /\ d_null exc_s = false /\
  dplaced exc_s /\ d_nletters exc_s = 7 /\ counts false exc_l exc_w 0 4 /\ counts false exc_s exc_w 0 4 /\ counts false exc_r exc_w 0 3 /\ counts false exc_s exc_w 1 3.
Proof.
  split; [exact exc_l_counting|]. split; [exact exc_r_counting|]. split; [exact exc_l_placed|]. split; [exact exc_r_placed|]. split; [exact exc_null_eq|].
  split; [reflexivity|]. split; [reflexivity|]. split; [exact exc_s_eq|]. split; [reflexivity|]. split; [exact exc_s_placed|]. split; [reflexivity|].
  repeat split; apply count_of_ok; vm_compute; reflexivity.
Qed.

(** ** C45 *)
(** The documented meaning, the length of the longest chain of pieces sep re, fails both
    ways.  Too many: 4 for "aabbbb" with re = a|aaa and an empty separator. *)
Theorem C45_never_too_many_refuted : exists buf re sep s w n, built re /\ built sep /\ counting_scanner buf re sep = Ok s /\ dplaced s /\ is_word w /\
  counts false s w 0 (N.of_nat n) /\ forall m, chain (L_cat (accepts sep) (accepts re)) w m -> (m < n)%nat.
Proof. exact over_counted. Qed.
Print Assumptions C45_never_too_many_refuted.
(** Too few: 2 for "abaaaaX", although four a's follow one another. *)
Theorem C45_never_too_few_refuted : exists buf re sep s w n m, built re /\ built sep /\ counting_scanner buf re sep = Ok s /\ dplaced s /\ is_word w /\
  counts false s w 0 (N.of_nat n) /\ chain (L_cat (accepts sep) (accepts re)) w m /\ (n < m)%nat.
Proof. exact under_counted. Qed.
Print Assumptions C45_never_too_few_refuted.

(** What holds.  Pieces are what the constructor makes of re and sep: a separator in which re
    does not occur, then a word of re.  The determinizations of the constructor are to succeed
    (it does not check), and there are to be at most 256 classes of letters.
    No more is counted than can be found, provided that a longer piece that starts with two
    pieces goes through a piece before the second is over. *)
Theorem C45_never_too_many : forall buf re sep s w n, built re -> built sep -> counting_scanner buf re sep = Ok s ->
  determinable re sep -> dplaced s -> d_nletters s <= 256 ->
  (forall u, piece (accepts re) (accepts sep) u -> Forall any_letter u) -> resumable (piece (accepts re) (accepts sep)) ->
  is_word w -> N.of_nat (length w) < two32 ->
  counts false s w 0 (N.of_nat n) -> chain (piece (accepts re) (accepts sep)) w n.
Proof. exact counts_no_more. Qed.
Print Assumptions C45_never_too_many.

(** If a piece can only be continued by pieces, the text is read greedily. *)
Theorem C45_counts_greedily : forall buf re sep s w, built re -> built sep -> counting_scanner buf re sep = Ok s ->
  determinable re sep -> dplaced s -> d_nletters s <= 256 ->
  (forall u, piece (accepts re) (accepts sep) u -> Forall any_letter u) -> steady (piece (accepts re) (accepts sep)) ->
  Forall any_letter w -> N.of_nat (length w) < two32 ->
  exists evs n, greedy (piece (accepts re) (accepts sep)) [] w evs /\ (forall evs', greedy (piece (accepts re) (accepts sep)) [] w evs' -> evs' = evs) /\
    longest_run evs n /\ counts false s w 0 (N.of_nat n).
Proof. exact counts_greedily_unique. Qed.
Print Assumptions C45_counts_greedily.

Example C45_example : built (str [99]) /\ built (str [44]) /\ counting_scanner 65536 (str [99]) (str [44]) = Ok exc_r /\
  determinable (str [99]) (str [44]) /\ dplaced exc_r /\ d_nletters exc_r <= 256 /\
  (forall u, piece (accepts (str [99])) (accepts (str [44])) u -> Forall any_letter u) /\
  resumable (piece (accepts (str [99])) (accepts (str [44]))) /\ steady (piece (accepts (str [99])) (accepts (str [44]))) /\
  counts false exc_r exc_w 0 3 /\ chain (piece (accepts (str [99])) (accepts (str [44]))) exc_w 3.
Proof.
  split; [apply str_built; reflexivity|]. split; [apply str_built; reflexivity|]. split; [exact exc_r_eq|]. split; [exact exc_r_det|]. split; [exact exc_r_placed|].
  split; [discriminate|]. split; [exact exc_r_any|]. split; [exact exc_r_resumable|]. split; [exact exc_r_steady|].
  split; [apply count_of_ok; vm_compute; reflexivity|].
  exists [258; 98; 97], [[44; 99]; [44; 99]; [44; 99]], [97; 97; 88; 44; 99; 259]. split; [reflexivity|]. split; [reflexivity|].
  repeat (apply Forall_cons; [apply exc_r_pieces; reflexivity|]). apply Forall_nil.
Qed.

(** With anything as the separator and pieces none of which starts another, the longest chain
    of pieces in the text between the marks of its ends. *)
Theorem C45_counts_pieces : forall buf re sep s w n, built re -> built sep -> counting_scanner buf re sep = Ok s ->
  determinable re sep -> dplaced s -> d_nletters s <= 256 ->
  (forall u, accepts re u -> bytes u) -> (forall u, accepts sep u <-> bytes u) -> prefix_free (piece (accepts re) (accepts sep)) ->
  bytes w -> N.of_nat (length w) + 2 < two32 ->
  (counts false s (BeginMark :: w ++ [EndMark]) 0 (N.of_nat n) <->
   chain (piece (accepts re) (accepts sep)) w n /\ forall m, chain (piece (accepts re) (accepts sep)) w m -> (m <= n)%nat).
Proof. exact counts_all. Qed.
Print Assumptions C45_counts_pieces.

(** So the documented meaning holds if words of re neither contain nor overlap one another: the
    greatest number of words of re that follow one another. *)
Theorem C45_counts_occurrences : forall buf re sep s w n, built re -> built sep -> counting_scanner buf re sep = Ok s ->
  determinable re sep -> dplaced s -> d_nletters s <= 256 ->
  (forall u, accepts re u -> bytes u /\ u <> []) -> apart (accepts re) -> (forall u, accepts sep u <-> bytes u) ->
  bytes w -> N.of_nat (length w) + 2 < two32 ->
  (counts false s (BeginMark :: w ++ [EndMark]) 0 (N.of_nat n) <->
   chain (L_cat (accepts sep) (accepts re)) w n /\ forall m, chain (L_cat (accepts sep) (accepts re)) w m -> (m <= n)%nat).
Proof. exact counts_occurrences. Qed.
Print Assumptions C45_counts_occurrences.

Example C45_example_occurrences : built (str [97; 98]) /\ built exc_dots /\ counting_scanner 65536 (str [97; 98]) exc_dots = Ok exc_o /\
  determinable (str [97; 98]) exc_dots /\ dplaced exc_o /\ d_nletters exc_o <= 256 /\ (forall u, accepts (str [97; 98]) u -> bytes u /\ u <> []) /\
  apart (accepts (str [97; 98])) /\ (forall u, accepts exc_dots u <-> bytes u) /\ bytes [97; 98; 97; 97; 98; 98; 99; 97; 98] /\
  counts false exc_o (BeginMark :: [97; 98; 97; 97; 98; 98; 99; 97; 98] ++ [EndMark]) 0 3.
Proof.
  split; [apply str_built; reflexivity|]. split; [exact exc_dots_built|]. split; [exact exc_o_eq|]. split; [exact exc_o_det|]. split; [exact exc_o_placed|].
  split; [discriminate|]. split; [exact exc_o_re|]. split; [exact exc_o_apart|]. split; [exact exc_dots_bytes|]. split; [repeat constructor|].
  apply count_of_ok. vm_compute. reflexivity.
Qed.
