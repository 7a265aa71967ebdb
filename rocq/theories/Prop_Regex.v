(** Properties C38, C43, C44: what a pattern parsed by the grammar of re_parser.y denotes.
    [derives] (RegexModel.v) is the grammar, [re_den], [regular], [negates], [shipped]
    (RegexSpec.v) the meaning of a tree, the documented subset, the trees whose construction
    determinizes, and the two encodings with the language of one character. *)
From Coq Require Import List Bool Arith NArith ZArith Lia.
From Verif Require Import Util Spec PartitionModel FsmModel DetermineModel MinimizeModel FsmSem Api Check EncModel EncSpec
  RunModel RunSpec ScannerModel ScannerSpec ScannerApi SimpleModel SimpleApi ScannerUser SimpleUser RegexModel RegexSpec RegexUser ExprProofs.
Import ListNotations.

(** ** C38: counted repetition *)
Theorem C38_repeat : forall f lo hi, built f -> count_ok lo hi -> (In (initial f) (finals f) -> lo = 0%Z \/ lo = 1%Z /\ hi = Inf) ->
  forall w, accepts (repeat_action f lo hi) w <-> exists n, (lo <= Z.of_nat n)%Z /\ (hi = Inf \/ (Z.of_nat n <= hi)%Z) /\ L_pow (accepts f) n w.
Proof. exact repeat_lang. Qed.
Print Assumptions C38_repeat.
Example ex38 : let f := append_special fsm_new 97%N in
  built f /\ count_ok 2 3 /\ ~ In (initial f) (finals f) /\ accepts (repeat_action f 2 3) [97; 97; 97]%N /\ ~ accepts (repeat_action f 2 3) [97]%N.
Proof.
  cbn zeta. split; [apply built_append; [apply built_new|reflexivity|split; [reflexivity|discriminate]]|].
  split; [unfold count_ok, Inf; lia|]. split; [intros [X|[]]; discriminate X|].
  split; [apply (accepts_b_true _ _ 100)|apply (accepts_b_false _ _ 100)]; vm_compute; reflexivity.
Qed.
(** Counts out of order: x{5,2} asks for 2^64 - 3 copies. *)
Theorem C38_order_refuted : forall f lo hi, built f -> (0 <= hi < lo)%Z -> (lo < 2147483648)%Z ->
  (forall w, ~ L_repeat (accepts f) lo hi w) /\
  (Z.of_nat (size (repeat_action f lo hi)) >= 18446744073709551616 - (lo - hi))%Z.
Proof.
  intros f lo hi B H1 H2. split; [|exact (repeat_backwards f lo hi B H1 H2)].
  intros w (n & A & [C|C] & _); unfold Inf in *; lia.
Qed.
Print Assumptions C38_order_refuted.

(** ** C43: the parser follows the grammar, which is not ambiguous *)
Theorem C43_parse : forall w r, parse w = Some r <-> derives Alternative w r.
Proof. exact parse_iff. Qed.
Print Assumptions C43_parse.
Theorem C43_unambiguous : forall w r r', derives Alternative w r -> derives Alternative w r' -> r = r'.
Proof. exact derives_unique. Qed.
Print Assumptions C43_unambiguous.
Theorem C43_rejects : forall e w, (forall r, ~ derives Alternative w r) -> parse_tokens e w = Throw ESyntax.
Proof. exact pattern_syntax. Qed.
Print Assumptions C43_rejects.
Definition la (c : N) : token := KLetters [[c]] false.
(** In a|b&~cd+ the count binds tightest, then concatenation, ~, &, |. *)
Example ex43 : derives Alternative [la 97; KOr; la 98; KAnd; KNot; la 99; la 100; KCount 1 Inf]%N
  (ROr (RCat REps (RLetters [[97%N]] false))
       (RAnd (RCat REps (RLetters [[98%N]] false))
             (RNot (RCat (RCat REps (RLetters [[99%N]] false)) (RCount (RLetters [[100%N]] false) 1 Inf))))).
Proof. apply C43_parse. reflexivity. Qed.
Example ex43_bad : forall r, ~ derives Alternative [la 97; KClose]%N r.
Proof. intros r H. apply C43_parse in H. discriminate H. Qed.

(** ** C44: a regular pattern matches exactly what it denotes *)
Theorem C44_pattern : forall e D w r, shipped e D -> derives Alternative w r -> regular r ->
  (exists f, parse_tokens e w = Ok f /\ built f /\ determined f = false /\ forall x, accepts f x <-> re_den (e_to e) D r x) \/
  (parse_tokens e w = Throw ETooComplicated /\ negates r).
Proof. exact pattern_ok. Qed.
Print Assumptions C44_pattern.

Theorem C44_scanner : forall e D w r f k buf, shipped e D -> derives Alternative w r -> regular r -> parse_tokens e w = Ok f ->
  (k_nmask k <= 64)%nat -> user_address buf ->
  compile k buf f = Throw ETooComplicated \/
  exists s, compile k buf f = Ok s /\ forall x, is_word x -> exists a fin,
    steps (scanner_ops k s) (s_initial s) x = Ok a /\ s_isfinal k s a = Ok fin /\ (fin = true <-> re_den (e_to e) D r x).
Proof.
  intros e D w r f k buf E H R P Hn Hu. destruct (pattern_ok e D w r E H R) as [(f' & P' & B & Df & L)|[P' _]]; [|congruence].
  assert (f' = f) by congruence. subst f'. destruct Hu as [U1 U2].
  destruct (ScannerCompile.compile_total k buf f B Hn Df) as [(s & C & _ & _ & X)|C]; auto.
  pose proof (ob_compile k buf f s Hn B C (X U1 U2)) as O.
  right. exists s. split; auto. intros x Hx. destruct (obtained_reports k s _ O x Hx) as (a & Y & (fin & F & I) & _). exists a, fin.
  split; auto. split; auto. rewrite I, any_of_one. apply L.
Qed.
Print Assumptions C44_scanner.

Theorem C44_slow_scanner : forall e D w r f, shipped e D -> derives Alternative w r -> regular r -> parse_tokens e w = Ok f ->
  (N.of_nat (size f) <= 4294967296)%N ->
  exists s, slow_compile f = Ok s /\ forall x, is_word x -> exists a fin,
    steps (slow_ops s) [w_start s] x = Ok a /\ slow_final s a = Ok fin /\ (fin = true <-> re_den (e_to e) D r x).
Proof.
  intros e D w r f E H R P Hs. destruct (pattern_ok e D w r E H R) as [(f' & P' & B & Df & L)|[P' _]]; [|congruence].
  assert (f' = f) by congruence. subst f'. destruct (slow_total f B Hs) as (s & C & O).
  exists s. split; auto. intros x Hx. destruct (obtained_slow_tells s _ O x Hx) as (a & X & (fin & F & I) & _). exists a, fin.
  split; auto. split; auto. rewrite I, any_of_one. apply L.
Qed.
Print Assumptions C44_slow_scanner.

(** (a|bc){1,}$ in UTF-8, and [^a] in Latin-1 *)
Definition pat1 : list token := [KOpen; la 97; KOr; la 98; la 99; KClose; KCount 1 Inf; KEnd]%N.
Definition tree1 : re := Eval vm_compute in match parse pat1 with Some r => r | None => REps end.
Definition pat1_f : fsm := Eval vm_compute in got fsm_new (parse_tokens utf8 pat1).
Example ex44_tree : derives Alternative pat1 tree1 /\ regular tree1.
Proof. split; [apply C43_parse; reflexivity|]. cbn. unfold count_ok, Inf. repeat split; auto; try lia; intros []. Qed.
Example ex44_build : parse_tokens utf8 pat1 = Ok pat1_f.
Proof. vm_compute. reflexivity. Qed.
Example ex44_in : re_den utf8_to_local L_utf8char tree1 [97; 98; 99; EndMark]%N.
Proof.
  destruct (C44_pattern utf8 L_utf8char pat1 tree1 ships_utf8 (proj1 ex44_tree) (proj2 ex44_tree)) as [(f & E & _ & _ & L)|[E _]]; rewrite ex44_build in E; [|discriminate].
  apply ok_inj' in E. subst f. apply L. apply (accepts_b_true _ _ 100). vm_compute. reflexivity.
Qed.
Example ex44_out : ~ re_den utf8_to_local L_utf8char tree1 [97; 98; EndMark]%N.
Proof.
  destruct (C44_pattern utf8 L_utf8char pat1 tree1 ships_utf8 (proj1 ex44_tree) (proj2 ex44_tree)) as [(f & E & _ & _ & L)|[E _]]; rewrite ex44_build in E; [|discriminate].
  apply ok_inj' in E. subst f. intros X. apply L in X. revert X. apply (accepts_b_false _ _ 100). vm_compute. reflexivity.
Qed.

(** Outside the subset: a()b denotes the word ab, and its automaton does not accept it; so
    does (a{0})b for b. *)
Theorem C44_void_refuted : exists w r f x, derives Alternative w r /\ parse_tokens latin1 w = Ok f /\
  re_den latin1_to_local L_anybyte r x /\ ~ accepts f x.
Proof.
  exists [la 97; KOpen; KClose; la 98]%N, (RCat (RCat (RCat REps (RLetters [[97%N]] false)) (RGroup REps)) (RLetters [[98%N]] false)).
  eexists. exists [97; 98]%N. split; [apply C43_parse; reflexivity|]. split; [vm_compute; reflexivity|]. split.
  - exists [97%N], [98%N]. split; auto. split.
    + exists [97%N], []. split; auto. split; [|reflexivity]. exists [], [97%N]. split; auto. split; [reflexivity|].
      exists [97%N]. split; [left; auto|]. split; [discriminate|]. apply (enc_cons latin1_to_local 97 [] []); [discriminate|constructor].
    + exists [98%N]. split; [left; auto|]. split; [discriminate|]. apply (enc_cons latin1_to_local 98 [] []); [discriminate|constructor].
  - apply (accepts_b_false _ _ 100). vm_compute. reflexivity.
Qed.
Print Assumptions C44_void_refuted.
