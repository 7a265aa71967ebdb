(** Saved counting scanners for the examples and the refutations. *)
From Coq Require Import List Bool Arith NArith Lia.
From Verif Require Import Util Spec PartitionModel FsmModel DetermineModel MinimizeModel FsmSem FsmOps FsmBasics Api ApiProofs BuildFacts RunModel RunSpec ScannerModel GlueModel IoModel IoSpec ScannerApi CountModel CountSpec CountApi CountWitness AdvModel AdvSpec AdvWitness NgModel NgApi NgWitness CountIoModel.
Import ListNotations.
Local Open Scope N_scope.

Definition exc_pad : list N := [0; 0; 0; 0].
Definition bytes_of (x : res (list N)) : list N := match x with Ok l => l | _ => [] end.
Definition loaded_of (x : res (loaded * stream)) : loaded := match x with Ok (s, _) => s | _ => mkLoaded 0 0 0 0 0 [] [] [] false false end.
Definition ng_loaded (x : res (nscanner * stream)) : nscanner := match x with Ok (s, _) => s | _ => ng0 end.
Definition nothing_more : stream := mkStream false [].
(** Null() of LoadedScanner, whose contents Load starts from *)
Definition exc_null : loaded := n_base exn_null.
(** The regexp a with the separator , *)
Definition exc_img : list N := Eval vm_compute in bytes_of (d_save exc_pad exa_s).
Lemma exc_img_eq : d_save exc_pad exa_s = Ok exc_img. Proof. vm_compute. reflexivity. Qed.
Definition exc_compat : nscanner := Eval vm_compute in ng_loaded (n_load exn_null 327680 exc_null (mkStream false exc_img)).
Lemma exc_compat_eq : n_load exn_null 327680 exc_null (mkStream false exc_img) = Ok (exc_compat, nothing_more). Proof. vm_compute. reflexivity. Qed.
(** NoGlueLimitCountingScanner: a, and a glued with b *)
Definition exc_nimg : list N := Eval vm_compute in bytes_of (n_save exc_pad exn_a).
Lemma exc_nimg_eq : n_save exc_pad exn_a = Ok exc_nimg. Proof. vm_compute. reflexivity. Qed.
Definition exc_gimg : list N := Eval vm_compute in bytes_of (n_save exc_pad exn_ab).
Lemma exc_gimg_eq : n_save exc_pad exn_ab = Ok exc_gimg. Proof. vm_compute. reflexivity. Qed.
