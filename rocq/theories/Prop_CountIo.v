(** Property C50: saving, loading and mapping counting scanners. *)
From Coq Require Import List Bool Arith NArith Lia.
From Verif Require Import Util Spec PartitionModel FsmModel DetermineModel MinimizeModel FsmSem Api ApiProofs
  RunModel RunSpec ScannerModel GlueModel IoModel IoSpec IoUser ScannerApi CountModel CountSpec CountApi CountUser CountWitness AdvModel AdvSpec AdvWitness NgModel NgApi NgRun NgWitness CountIoModel CountIoUser CountIoWitness.
Import ListNotations.
Local Open Scope N_scope.

(** CountingScanner and AdvancedCountingScanner: Load of what Save wrote takes exactly that from
    the stream, and every Result is what it was, whatever the padding was and wherever the tables
    are put. *)
Theorem C50_load : forall buf pad s null throws rest, counting s -> dplaced s -> d_nletters s <= 256 -> d_null s = false -> length pad = 4%nat -> droom buf s ->
  exists x s', d_save pad s = Ok x /\ N.of_nat (length x) mod 8 = 0 /\ d_load buf null (mkStream throws (x ++ rest)) = Ok (s', mkStream throws rest) /\
    counting s' /\ dplaced s' /\ d_count s' = d_count s /\ forall adv w i n, is_word w -> (counts adv s' w i n <-> counts adv s w i n).
Proof. exact load_counts. Qed.
Print Assumptions C50_load.

(** Mmap of what Save wrote; the pointer returned is behind it. *)
Theorem C50_mmap : forall m pad s x ptr size, counting s -> dplaced s -> d_nletters s <= 256 -> d_null s = false -> length pad = 4%nat -> d_save pad s = Ok x ->
  holds m ptr x -> ptr mod 8 = 0 -> mappable ptr size -> N.of_nat (length x) <= size ->
  exists s', d_mmap m ptr size = Ok (s', ptr + N.of_nat (length x)) /\
    counting s' /\ dplaced s' /\ d_count s' = d_count s /\ forall adv w i n, is_word w -> (counts adv s' w i n <-> counts adv s w i n).
Proof. exact mmap_counts. Qed.
Print Assumptions C50_mmap.

(** The same image with the old version's array in it loads the same. *)
Theorem C50_version6 : forall buf pad s null throws rest old x, counting s -> dplaced s -> d_nletters s <= 256 -> d_null s = false -> length pad = 4%nat -> droom buf s ->
  d_save pad s = Ok x -> N.of_nat (length old) = 4 * (d_states s * d_nletters s) ->
  d_load buf null (mkStream throws (version6 s old x ++ rest)) = d_load buf null (mkStream throws (x ++ rest)).
Proof. exact load_version6. Qed.
Print Assumptions C50_version6.

(** NoGlueLimitCountingScanner, loaded into an object that is not in compatibility mode *)
Theorem C50_no_glue_limit_load : forall this buf pad s Rs null throws rest, nobtained s Rs -> nplaced s -> d_null (n_base s) = false -> n_compat this = false -> length pad = 4%nat -> droom buf (n_base s) ->
  exists x s', n_save pad s = Ok x /\ n_load this buf null (mkStream throws (x ++ rest)) = Ok (s', mkStream throws rest) /\
    nobtained s' Rs /\ nplaced s' /\ forall w i n, is_word w -> (ncounts s' w i n <-> ncounts s w i n).
Proof. exact n_load_counts. Qed.
Print Assumptions C50_no_glue_limit_load.

Theorem C50_no_glue_limit_mmap : forall m pad s Rs x ptr size, nobtained s Rs -> nplaced s -> d_null (n_base s) = false -> length pad = 4%nat -> n_save pad s = Ok x ->
  holds m ptr x -> ptr mod 8 = 0 -> mappable ptr size -> N.of_nat (length x) <= size ->
  exists s', n_mmap m ptr size = Ok (s', ptr + N.of_nat (length x)) /\
    nobtained s' Rs /\ nplaced s' /\ forall w i n, is_word w -> (ncounts s' w i n <-> ncounts s w i n).
Proof. exact n_mmap_counts. Qed.
Print Assumptions C50_no_glue_limit_mmap.

(** What an AdvancedCountingScanner saved, loaded into a NoGlueLimitCountingScanner: it counts
    the same. *)
Theorem C50_compatibility : forall this buf pad s null throws rest, counting s -> dplaced s -> d_nletters s <= 256 -> d_null s = false -> length pad = 4%nat -> droom buf s ->
  exists x s', d_save pad s = Ok x /\ n_load this buf null (mkStream throws (x ++ rest)) = Ok (s', mkStream throws rest) /\ n_count s' = d_count s /\
    forall w i n, is_word w -> N.of_nat i < d_count s -> (ncounts s' w i n <-> counts true s w i n).
Proof. exact compat_counts. Qed.
Print Assumptions C50_compatibility.
Theorem C50_compatibility_mmap : forall m pad s x ptr size, counting s -> dplaced s -> d_nletters s <= 256 -> d_null s = false -> length pad = 4%nat -> d_save pad s = Ok x ->
  holds m ptr x -> ptr mod 8 = 0 -> mappable ptr size -> N.of_nat (length x) <= size ->
  exists s', n_mmap m ptr size = Ok (s', ptr + N.of_nat (length x)) /\ n_count s' = d_count s /\
    forall w i n, is_word w -> N.of_nat i < d_count s -> (ncounts s' w i n <-> counts true s w i n).
Proof. exact compat_mmap_counts. Qed.
Print Assumptions C50_compatibility_mmap.

Lemma exc_counting : counting exa_s.
Proof. apply (counting_advanced 65536 (str [97]) (str [44]) exa_s false); [apply str_built; reflexivity|apply str_built; reflexivity|exact exa_eq]. Qed.
Example C50_example : counting exa_s /\ dplaced exa_s /\ d_nletters exa_s <= 256 /\ d_null exa_s = false /\ droom 327680 exa_s /\ d_count exa_s = 1 /\
  d_save exc_pad exa_s = Ok exc_img /\ length exc_img = 392%nat /\ holds (only 4096 exc_img) 4096 exc_img /\ mappable 4096 392 /\
  counts true exa_s exa_w 0 3 /\ n_load exn_null 327680 exc_null (mkStream false exc_img) = Ok (exc_compat, nothing_more) /\ ncounts exc_compat exa_w 0 3.
Proof.
  split; [exact exc_counting|]. split; [exact exa_placed|]. split; [vm_compute; discriminate|]. split; [reflexivity|]. split; [vm_compute; discriminate|]. split; [reflexivity|].
  split; [exact exc_img_eq|]. split; [reflexivity|]. split; [apply only_holds, bytes_check; vm_compute; reflexivity|]. split; [vm_compute; repeat split; discriminate|].
  split; [apply adv_of_ok; vm_compute; reflexivity|]. split; [exact exc_compat_eq|]. apply ng_of_ok. vm_compute. reflexivity.
Qed.
Example C50_no_glue_limit_example : nobtained exn_ab [exn_R 97; exn_R 98] /\ nplaced exn_ab /\ d_null (n_base exn_ab) = false /\ n_compat exn_null = false /\ droom 327680 (n_base exn_ab) /\
  n_save exc_pad exn_ab = Ok exc_gimg /\ length exc_gimg = 596%nat /\ holds (only 4096 exc_gimg) 4096 exc_gimg /\ mappable 4096 596 /\ ncounts exn_ab exn_w 1 3.
Proof.
  split; [exact exn_ab_got|]. split; [apply nplacedb_ok; vm_compute; reflexivity|]. split; [reflexivity|]. split; [reflexivity|]. split; [vm_compute; discriminate|].
  split; [exact exc_gimg_eq|]. split; [reflexivity|]. split; [apply only_holds, bytes_check; vm_compute; reflexivity|]. split; [vm_compute; repeat split; discriminate|].
  apply ng_of_ok. vm_compute. reflexivity.
Qed.

(** An empty scanner does not come back empty: it has no regexps, and what is loaded has one. *)
Theorem C50_empty_refuted : exists buf pad s x s', counting s /\ dplaced s /\ length pad = 4%nat /\ droom buf s /\ d_count s = 0 /\
  d_save pad s = Ok x /\ d_load buf s (mkStream false x) = Ok (s', mkStream false []) /\ d_count s' = 1.
Proof.
  exists 131072, exc_pad, exc_null. eexists. eexists. split; [apply (counting_default 65536); vm_compute; reflexivity|]. split; [apply placedb_ok; vm_compute; reflexivity|]. split; [reflexivity|].
  split; [vm_compute; discriminate|]. split; [reflexivity|]. split; [vm_compute; reflexivity|]. split; [vm_compute; reflexivity|]. reflexivity.
Qed.
Print Assumptions C50_empty_refuted.

(** AdvancedCountingScanner loads what a NoGlueLimitCountingScanner saved, without complaint, and
    counts wrongly (scanner_io.cpp:191-193 ignores the type). *)
Theorem C50_other_type_refuted : exists buf pad s Rs null x s' w n n' rest, nobtained s Rs /\ nplaced s /\ is_word w /\ n_save pad s = Ok x /\
  d_load buf null (mkStream false x) = Ok (s', mkStream false rest) /\ rest <> [] /\ ncounts s w 0 n /\ counts true s' w 0 n' /\ n <> n'.
Proof.
  exists 65536, exc_pad, exn_ab, [exn_R 97; exn_R 98], exc_null, exc_gimg. eexists. exists [97; 44; 97; 44; 98; 97], 2, 3. eexists.
  split; [exact exn_ab_got|]. split; [apply nplacedb_ok; vm_compute; reflexivity|]. split; [repeat constructor; discriminate|]. split; [exact exc_gimg_eq|].
  split; [vm_compute; reflexivity|]. split; [discriminate|]. split; [apply ng_of_ok; vm_compute; reflexivity|]. split; [apply adv_of_ok; vm_compute; reflexivity|discriminate].
Qed.
Print Assumptions C50_other_type_refuted.

(** Load does not leave the compatibility mode: an object that had loaded an AdvancedCountingScanner
    and then loads a NoGlueLimitCountingScanner writes out of bounds. *)
Theorem C50_stale_mode_refuted : exists this buf pad s Rs null x s' w, nobtained s Rs /\ nplaced s /\ n_save pad s = Ok x /\
  n_load exn_null 327680 null (mkStream false exc_img) = Ok (this, nothing_more) /\
  n_load this buf null (mkStream false x) = Ok (s', mkStream false []) /\ is_word w /\ ncounts s w 0 2 /\ steps (n_ops s') (n_init s') w = UB.
Proof.
  exists exc_compat, 65536, exc_pad, exn_ab, [exn_R 97; exn_R 98], exc_null, exc_gimg. eexists. exists [97; 44; 97; 44; 98; 97].
  split; [exact exn_ab_got|]. split; [apply nplacedb_ok; vm_compute; reflexivity|]. split; [exact exc_gimg_eq|]. split; [exact exc_compat_eq|].
  split; [vm_compute; reflexivity|]. split; [repeat constructor; discriminate|]. split; [apply ng_of_ok; vm_compute; reflexivity|]. vm_compute. reflexivity.
Qed.
Print Assumptions C50_stale_mode_refuted.

(** Once in compatibility mode a NoGlueLimitCountingScanner can be neither saved nor glued: the
    mode is lost and the masks are taken for something else.  (Save has an assertion, which is
    disabled in release builds; Glue has none.) *)
Theorem C50_compatibility_save_refuted : exists buf pad s x s' w, n_load exn_null 327680 exc_null (mkStream false exc_img) = Ok (s, nothing_more) /\
  n_save pad s = Ok x /\ n_load exn_null buf exc_null (mkStream false x) = Ok (s', mkStream false []) /\ is_word w /\ ncounts s w 0 1 /\ ncounts s' w 0 2.
Proof.
  exists 65536, exc_pad, exc_compat. eexists. eexists. exists [97; 98; 97]. split; [exact exc_compat_eq|]. split; [vm_compute; reflexivity|]. split; [vm_compute; reflexivity|].
  split; [repeat constructor; discriminate|]. split; apply ng_of_ok; vm_compute; reflexivity.
Qed.
Print Assumptions C50_compatibility_save_refuted.
Theorem C50_compatibility_glue_refuted : exists s g w, n_load exn_null 327680 exc_null (mkStream false exc_img) = Ok (s, nothing_more) /\
  n_glue 196608 262144 exn_null s exn_b 0 = Ok g /\ is_word w /\ ncounts s w 0 1 /\ ncounts g w 0 2.
Proof.
  exists exc_compat. eexists. exists [97; 98; 97]. split; [exact exc_compat_eq|]. split; [vm_compute; reflexivity|].
  split; [repeat constructor; discriminate|]. split; apply ng_of_ok; vm_compute; reflexivity.
Qed.
Print Assumptions C50_compatibility_glue_refuted.

(** What NoGlueLimitCountingScanner writes is not in whole words: of two saved one behind the
    other, the first can be mapped and then the second cannot. *)
Theorem C50_sequence_refuted : exists m ptr size pad s Rs x s' p, nobtained s Rs /\ n_save pad s = Ok x /\ holds m ptr (x ++ x) /\ ptr mod 8 = 0 /\ size = N.of_nat (length (x ++ x)) /\ mappable ptr size /\
  n_mmap m ptr size = Ok (s', p) /\ p = ptr + N.of_nat (length x) /\ n_mmap m p (size - N.of_nat (length x)) = Throw EImage.
Proof.
  exists (only 4096 (exc_nimg ++ exc_nimg)), 4096, 792, exc_pad, exn_a, [exn_R 97], exc_nimg. eexists. eexists. split; [exact exn_a_got|]. split; [exact exc_nimg_eq|].
  split; [apply only_holds, bytes_check; vm_compute; reflexivity|]. split; [reflexivity|]. split; [reflexivity|]. split; [vm_compute; repeat split; discriminate|].
  split; [vm_compute; reflexivity|]. split; vm_compute; reflexivity.
Qed.
Print Assumptions C50_sequence_refuted.

(** Mmap of a NoGlueLimitCountingScanner reads beyond the size it is given when the image is cut
    short, rather than throwing. *)
Theorem C50_short_refuted : exists ptr k pad s Rs x, nobtained s Rs /\ n_save pad s = Ok x /\ (k < length x)%nat /\ ptr mod 8 = 0 /\ mappable ptr (N.of_nat k) /\
  n_mmap (only ptr (firstn k x)) ptr (N.of_nat k) = UB.
Proof.
  exists 4096, 592%nat, exc_pad, exn_ab, [exn_R 97; exn_R 98], exc_gimg. split; [exact exn_ab_got|]. split; [exact exc_gimg_eq|]. split; [vm_compute; lia|]. split; [reflexivity|].
  split; [vm_compute; repeat split; discriminate|]. vm_compute. reflexivity.
Qed.
Print Assumptions C50_short_refuted.
