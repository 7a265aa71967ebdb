(** Model of CapturingScanner, extra/capture.h:42-158, on top of scanners/loaded.h (no proofs). *)
From Coq Require Import List Bool Arith NArith.
From Verif Require Import Util Spec PartitionModel FsmModel DetermineModel MinimizeModel RunModel ScannerModel CountModel.
Import ListNotations.
Local Open Scope N_scope.

(** extra/capture.h:51-57 *)
Definition fc_begin_bit : N := 1.
Definition fc_end_bit : N := 2.
(** extra/capture.h:65, State::npos *)
Definition fc_npos : N := two64 - 1.
(** extra/capture.h:59-70 State; m_state is an address *)
Record fcstate := mkFc { fc_state : N; fc_begin : N; fc_end : N; fc_counter : N }.
(** extra/capture.h:61 Captured *)
Definition fc_captured (st : fcstate) : bool := negb (fc_begin st =? fc_npos) && negb (fc_end st =? fc_npos).
(** extra/capture.h:89-94 Initialize *)
Definition fc_init (s : loaded) : fcstate := mkFc (d_initial s) fc_npos fc_npos 0.
(** extra/capture.h:96-102 TakeAction; size_t wraps around *)
Definition fc_take (a : N) (st : fcstate) : fcstate :=
  let here := (fc_counter st + two64 - 1) mod two64 in
  if negb (N.land a fc_begin_bit =? 0) && negb (fc_captured st) then mkFc (fc_state st) here (fc_end st) (fc_counter st)
  else if negb (N.land a fc_end_bit =? 0) && negb (fc_captured st) then mkFc (fc_state st) (fc_begin st) here (fc_counter st)
  else st.
(** extra/capture.h:104-121 Translate, NextTranslated, Next: the new state and the action *)
Definition fc_next (s : loaded) (st : fcstate) (c : N) : res (fcstate * N) :=
  let* (q, a) := d_next s (fc_state st) c in Ok (mkFc q (fc_begin st) (fc_end st) ((fc_counter st + 1) mod two64), a).
(** extra/capture.h:134 Final: the tag of the state; StateIdx is loaded.h:206-209 *)
Definition fc_final (s : loaded) (st : fcstate) : res bool :=
  match nth_error (d_tags s) (N.to_nat (state_idx s (fc_state st))) with
  | Some t => Ok (negb (N.land t 1 =? 0))
  | None => UB
  end.
(** run.h:50-57 Step, and what else run.h needs; extra/capture.h:136: Dead is always false *)
Definition fc_ops (s : loaded) : ops fcstate :=
  mkOps (fc_init s)
    (fun st c => let* (st1, a) := fc_next s st c in Ok (fc_take a st1))
    (fun st c => let* (st1, _) := fc_next s st c in Ok st1)
    (fc_final s) (fun _ => Ok false).
(** fsm.h:251-271 BuildScanner with DeadFlag = 0, FinalFlag = 1 and the RemapAction of
    loaded.h:200; Action is ui32 *)
Definition fc_build (f : fsm) (s : loaded) : res loaded :=
  let* s1 := foldm (fun s q => set_dtag s q (N.lor (fsm_tag f q) (if is_final f q then 1 else 0))) (seq 0 (size f)) s in
  foldm (fun s from =>
      foldm (fun s '(c, _) =>
        foldm (fun s to => set_djump s from c to (output f from to mod two32)) (destinations f from c) s)
        (part_list (letters f)) s) (seq 0 (size f)) s1.
(** extra/capture.h:140-148: the constructor with distance = 0; [buf] is the address of the
    buffer *)
Definition fc_compile (buf : N) (f : fsm) : res loaded :=
  let* g := canonize f 0 in
  let* s := init_loaded buf (size g) (letters g) (initial g) 1 in
  fc_build g s.
