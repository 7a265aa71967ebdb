(** Scanners for the examples and the refutations about counting. *)
From Coq Require Import List Bool Arith NArith Lia.
From Verif Require Import Util Spec PartitionModel FsmModel DetermineModel MinimizeModel FsmSem FsmOps FsmBasics Api ApiProofs BuildFacts RunModel RunSpec ScannerModel GlueModel CountModel CountSpec CountApi.
Import ListNotations.
Local Open Scope N_scope.

Definition okl (x : res loaded) : loaded := match x with Ok s => s | _ => mkLoaded 0 0 0 0 0 [] [] [] false false end.
Definition okf (x : res fsm) : fsm := match x with Ok s => s | _ => fsm_new end.
Definition str (s : list N) : fsm := append_string fsm_new s.
Lemma str_built : forall s, forallb (fun c => c <? 256) s = true -> built (str s).
Proof.
  intros s H. apply built_string; [apply built_new|reflexivity|]. apply Forall_forall. intros c Hc. rewrite forallb_forall in H. specialize (H c Hc).
  apply N.ltb_lt in H. split; [unfold MaxChar|unfold Epsilon]; lia.
Qed.
Definition count_of (s : loaded) (w : list N) (i : nat) : res N := let* st := steps (count_ops false s) (c_init s) w in c_result st i.
Lemma count_of_ok : forall s w i n, count_of s w i = Ok n -> counts false s w i n.
Proof.
  intros s w i n E. unfold count_of in E. destruct (steps (count_ops false s) (c_init s) w) as [st| | |] eqn:E1; cbn [bind] in E; try discriminate E. exists st. auto.
Qed.
Lemma counts_fun : forall adv s w i n m, counts adv s w i n -> counts adv s w i m -> n = m.
Proof. intros adv s w i n m (st & A & B) (st' & C & D). congruence. Qed.
Definition is_wordb (w : list N) : bool := forallb (fun c => (c <? 264) && negb (c =? 257)) w.
Lemma is_wordb_ok : forall w, is_wordb w = true -> is_word w.
Proof.
  intros w H. apply Forall_forall. intros c Hc. unfold is_wordb in H. rewrite forallb_forall in H. specialize (H c Hc). apply andb_true_iff in H as [H1 H2].
  apply N.ltb_lt in H1. split; [exact H1|]. intros ->. discriminate H2.
Qed.
Definition placedb (s : loaded) : bool := (d_base s + d_states s * state_size s <=? two64) && (d_states s * state_size s <=? two31).
Lemma placedb_ok : forall s, placedb s = true -> dplaced s.
Proof. intros s H. apply andb_true_iff in H as [H1 H2]. split; apply N.leb_le; auto. Qed.

(** a or aaa, separated by nothing; c, separated by a comma *)
Definition exc_re : fsm := fsm_or (str [97]) (str [97; 97; 97]).
Lemma exc_re_built : built exc_re.
Proof. apply built_or; apply str_built; reflexivity. Qed.
Definition exc_l : loaded := Eval vm_compute in okl (counting_scanner 4096 exc_re fsm_new).
Definition exc_r : loaded := Eval vm_compute in okl (counting_scanner 65536 (str [99]) (str [44])).
Definition exc_null : loaded := Eval vm_compute in okl (default_loaded 131072).
Definition exc_s : loaded := Eval vm_compute in okl (dglue 262144 524288 exc_null exc_l exc_r 0).
Lemma exc_l_eq : counting_scanner 4096 exc_re fsm_new = Ok exc_l. Proof. vm_compute. reflexivity. Qed.
Lemma exc_r_eq : counting_scanner 65536 (str [99]) (str [44]) = Ok exc_r. Proof. vm_compute. reflexivity. Qed.
Lemma exc_null_eq : default_loaded 131072 = Ok exc_null. Proof. vm_compute. reflexivity. Qed.
Lemma exc_s_eq : dglue 262144 524288 exc_null exc_l exc_r 0 = Ok exc_s. Proof. vm_compute. reflexivity. Qed.
Lemma exc_l_counting : counting exc_l.
Proof. eapply counting_new; [exact exc_re_built|apply built_new|exact exc_l_eq]. Qed.
Lemma exc_r_counting : counting exc_r.
Proof. eapply counting_new; [| |exact exc_r_eq]; apply str_built; reflexivity. Qed.
Lemma exc_l_placed : dplaced exc_l. Proof. apply placedb_ok. vm_compute. reflexivity. Qed.
Lemma exc_r_placed : dplaced exc_r. Proof. apply placedb_ok. vm_compute. reflexivity. Qed.
Lemma exc_s_placed : dplaced exc_s. Proof. apply placedb_ok. vm_compute. reflexivity. Qed.
(** "ba,c,c,caaX,c" between the marks *)
Definition exc_w : list N := [258; 98; 97; 44; 99; 44; 99; 44; 99; 97; 97; 88; 44; 99; 259].

Lemma str_word : forall s w, forallb (fun c => c <? 256) s = true -> (accepts (str s) w <-> w = s).
Proof.
  intros s w H. assert (Hs : is_word s).
  { apply Forall_forall. intros c Hc. rewrite forallb_forall in H. specialize (H c Hc). apply N.ltb_lt in H. split; [unfold MaxChar|unfold Epsilon]; lia. }
  pose proof (f_append_string fsm_new s built_new eq_refl Hs w) as L. unfold str. rewrite L. split.
  - intros (u & v & -> & A1 & A2). apply fsm_new_lang in A1. unfold L_eps in A1. subst u. exact A2.
  - intros ->. exists [], s. splits; [reflexivity|apply fsm_new_lang; reflexivity|reflexivity].
Qed.
Lemma exc_pieces : forall w, L_cat (accepts fsm_new) (accepts exc_re) w <-> w = [97] \/ w = [97; 97; 97].
Proof.
  intros w. split.
  - intros (u & v & -> & A & B). apply fsm_new_lang in A. unfold L_eps in A. subst u. apply f_or in B; try (apply str_built; reflexivity).
    destruct B as [B|B]; apply str_word in B; try reflexivity; auto.
  - intros H. exists [], w. splits; [reflexivity|apply fsm_new_lang; reflexivity|]. apply f_or; try (apply str_built; reflexivity).
    destruct H as [E|E]; subst w; [left|right]; apply str_word; reflexivity.
Qed.
Lemma chain_short : forall w m, chain (L_cat (accepts fsm_new) (accepts exc_re)) w m -> (m <= count_occ N.eq_dec w 97%N)%nat.
Proof.
  intros w m (x & ms & y & -> & <- & F). rewrite !count_occ_app. assert (length ms <= count_occ N.eq_dec (concat ms) 97%N)%nat; [|lia].
  induction F as [|u ms Hu F IH]; cbn [concat length]; [lia|]. rewrite count_occ_app. apply exc_pieces in Hu.
  assert (1 <= count_occ N.eq_dec u 97%N)%nat; [|lia]. destruct Hu as [->| ->]; vm_compute; lia.
Qed.
Lemma over_counted : exists buf re sep s w n, built re /\ built sep /\ counting_scanner buf re sep = Ok s /\ dplaced s /\ is_word w /\
  counts false s w 0 (N.of_nat n) /\ forall m, chain (L_cat (accepts sep) (accepts re)) w m -> (m < n)%nat.
Proof.
  exists 4096, exc_re, fsm_new, exc_l, [97; 97; 98; 98; 98; 98], 4%nat.
  split; [exact exc_re_built|]. split; [apply built_new|]. split; [exact exc_l_eq|]. split; [exact exc_l_placed|]. split; [apply is_wordb_ok; reflexivity|].
  split; [apply count_of_ok; vm_compute; reflexivity|]. intros m H. apply chain_short in H. vm_compute in H. lia.
Qed.
Lemma under_counted : exists buf re sep s w n m, built re /\ built sep /\ counting_scanner buf re sep = Ok s /\ dplaced s /\ is_word w /\
  counts false s w 0 (N.of_nat n) /\ chain (L_cat (accepts sep) (accepts re)) w m /\ (n < m)%nat.
Proof.
  exists 4096, exc_re, fsm_new, exc_l, [97; 98; 97; 97; 97; 97; 88], 2%nat, 4%nat.
  split; [exact exc_re_built|]. split; [apply built_new|]. split; [exact exc_l_eq|]. split; [exact exc_l_placed|]. split; [apply is_wordb_ok; reflexivity|].
  split; [apply count_of_ok; vm_compute; reflexivity|]. split; [|lia].
  exists [97; 98], [[97]; [97]; [97]; [97]], [88]. splits; [reflexivity|reflexivity|]. repeat constructor; apply exc_pieces; auto.
Qed.

(** ** What is counted rightly *)
Definition determinableb (re sep : fsm) : bool :=
  match (let* nr := complement (surround re) in let* a := fsm_and sep nr in let* (b, f) := determine (fsm_cat a re) 0 in
         let* (b', _) := determine (fsm_or (with_dup f) any_char) 0 in Ok (b && b')) with Ok b => b | _ => false end.
Lemma four_steps : forall (X1 : res fsm) (X2 : fsm -> res fsm) (X3 X4 : fsm -> res (bool * fsm)),
  match (let* nr := X1 in let* a := X2 nr in let* (b, f) := X3 a in let* (b', _) := X4 f in Ok (b && b')) with Ok b => b | _ => false end = true ->
  exists nr a f g, X1 = Ok nr /\ X2 nr = Ok a /\ X3 a = Ok (true, f) /\ X4 f = Ok (true, g).
Proof.
  intros X1 X2 X3 X4 H. destruct X1 as [nr| | |]; cbn [bind] in H; try discriminate H.
  destruct (X2 nr) as [a| | |] eqn:E2; cbn [bind] in H; try discriminate H.
  destruct (X3 a) as [[b f]| | |] eqn:E3; cbn [bind] in H; try discriminate H.
  destruct (X4 f) as [[b' g]| | |] eqn:E4; cbn [bind] in H; try discriminate H.
  apply andb_true_iff in H as [-> ->]. exists nr, a, f, g. auto.
Qed.
Lemma determinableb_ok : forall re sep, determinableb re sep = true -> determinable re sep.
Proof. intros re sep. exact (four_steps _ (fsm_and sep) (fun a => determine (fsm_cat a re) 0) (fun f => determine (fsm_or (with_dup f) any_char) 0)). Qed.
Lemma exc_r_det : determinable (str [99]) (str [44]).
Proof. apply determinableb_ok. vm_compute. reflexivity. Qed.
Lemma exc_r_pieces : forall w, piece (accepts (str [99])) (accepts (str [44])) w <-> w = [44; 99].
Proof.
  intros w. split.
  - intros (a & b & -> & A & B & _). apply str_word in A; [|reflexivity]. apply str_word in B; [|reflexivity]. subst. reflexivity.
  - intros ->. exists [44], [99]. splits; [reflexivity|apply str_word; reflexivity|apply str_word; reflexivity|].
    intros (x & y & z & E & H). apply str_word in H; [|reflexivity]. subst y. destruct x as [|c x]; [discriminate E|]. injection E as _ E. destruct x; discriminate E.
Qed.
Lemma exc_r_any : forall u, piece (accepts (str [99])) (accepts (str [44])) u -> Forall any_letter u.
Proof. intros u H. apply exc_r_pieces in H. subst u. repeat constructor; left; reflexivity. Qed.
Lemma exc_r_steady : steady (piece (accepts (str [99])) (accepts (str [44]))).
Proof.
  intros u v H (y & B). apply exc_r_pieces in H. apply exc_r_pieces in B. subst u. destruct v; [apply exc_r_pieces; reflexivity|discriminate B].
Qed.
Lemma exc_r_resumable : resumable (piece (accepts (str [99])) (accepts (str [44]))).
Proof.
  intros u v H H' (y & B). apply exc_r_pieces in H, H', B. subst u v. discriminate B.
Qed.
(** ab with anything in between *)
Definition exc_dots : fsm := iterate (append_dot fsm_new).
Lemma exc_dots_built : built exc_dots.
Proof. apply built_iterate. apply built_dot; [apply built_new|reflexivity]. Qed.
Lemma exc_dots_bytes : forall w, accepts exc_dots w <-> bytes w.
Proof.
  intros w. assert (Bd : built (append_dot fsm_new)) by (apply built_dot; [apply built_new|reflexivity]).
  assert (D : forall v, accepts (append_dot fsm_new) v <-> exists c, (c < 256) /\ v = [c]).
  { intros v. rewrite (f_append_dot fsm_new built_new eq_refl v). split.
    - intros (a & b & -> & H1 & H2). apply fsm_new_lang in H1. unfold L_eps in H1. subst a. exact H2.
    - intros H2. exists [], v. splits; [reflexivity|apply fsm_new_lang; reflexivity|exact H2]. }
  unfold exc_dots. rewrite (f_iterate _ Bd w). split.
  - intros H. induction H as [|a b H1 H2 IH]; [constructor|]. apply Forall_app. split; [|exact IH]. apply D in H1 as (c & Hc & ->). repeat constructor. exact Hc.
  - intros H. induction H as [|c w Hc H IH]; [constructor|]. change (c :: w) with ([c] ++ w). constructor; [apply D; eauto|exact IH].
Qed.
Definition exc_o : loaded := Eval vm_compute in okl (counting_scanner 65536 (str [97; 98]) exc_dots).
Lemma exc_o_eq : counting_scanner 65536 (str [97; 98]) exc_dots = Ok exc_o. Proof. vm_compute. reflexivity. Qed.
Lemma exc_o_placed : dplaced exc_o. Proof. apply placedb_ok. vm_compute. reflexivity. Qed.
Lemma exc_o_det : determinable (str [97; 98]) exc_dots.
Proof. apply determinableb_ok. vm_compute. reflexivity. Qed.
Lemma exc_o_apart : apart (accepts (str [97; 98])).
Proof.
  split.
  - intros x u y H1 H2. apply str_word in H1; [|reflexivity]. apply str_word in H2; [|reflexivity]. subst u.
    apply (f_equal (@length N)) in H2. rewrite !app_length in H2. cbn in H2. destruct x; [|cbn in H2; lia]. destruct y; [auto|cbn in H2; lia].
  - intros p q r Hq H1 H2. apply str_word in H1; [|reflexivity]. apply str_word in H2; [|reflexivity].
    destruct q as [|a q]; [destruct (Hq eq_refl)|]. injection H2 as -> H2. destruct p as [|b p].
    + injection H1 as ->. injection H2 as ->. reflexivity.
    + injection H1 as -> H1. destruct p as [|b p]; [discriminate H1|]. injection H1 as _ H1. destruct p; discriminate H1.
Qed.
Lemma exc_o_re : forall u, accepts (str [97; 98]) u -> bytes u /\ u <> [].
Proof. intros u H. apply str_word in H; [|reflexivity]. subst u. split; [repeat constructor|discriminate]. Qed.
