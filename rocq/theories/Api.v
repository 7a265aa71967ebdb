(** The automata a user can build: the closure of the two constructors under the public
    calls of Fsm (fsm.h:40-140), Utf8::AppendDot (encoding.cpp:99-111) and CreateApproxFsm
    (approx_matching.h:27).  Two side conditions are kept as premises:
    Append, AppendSpecial, AppendDot, AppendStrings and CreateApproxFsm are applied to an
    automaton whose letters are not compressed, and the calls that leave the [determined] flag alone
    (RemoveDeadEnds, MakePrefix, MakeSuffix, RemoveEpsilons, Minimize) are applied to an
    automaton that Determine has not processed yet (to one that it has, for Minimize). *)
From Coq Require Import List NArith.
From Verif Require Import Util Spec PartitionModel FsmModel DetermineModel MinimizeModel EncModel FsmSem ApproxModel.
Import ListNotations.

Inductive built : fsm -> Prop :=
| built_new : built fsm_new
| built_false : built make_false
| built_append : forall f c, built f -> uncompressed f -> letter c -> built (append_special f c)
| built_string : forall f s, built f -> uncompressed f -> Forall letter s -> built (append_string f s)
| built_dot : forall f, built f -> uncompressed f -> built (append_dot f)
| built_utf8_dot : forall f, built f -> uncompressed f -> built (utf8_append_dot f)
| built_strings : forall f g strs, built f -> uncompressed f -> (forall s, In s strs -> Forall byte s) ->
    append_strings f strs = Ok g -> built g
| built_cat : forall f g, built f -> built g -> built (fsm_cat f g)
| built_or : forall f g, built f -> built g -> built (fsm_or f g)
| built_and : forall f g h, built f -> built g -> fsm_and f g = Ok h -> built h
| built_iterate : forall f, built f -> built (iterate f)
| built_complement : forall f g, built f -> complement f = Ok g -> built g
| built_times : forall f n, built f -> built (fsm_times f n)
| built_prepend : forall f, built f -> built (prepend_anything f)
| built_append_any : forall f, built f -> built (append_anything f)
| built_surround : forall f, built f -> built (surround f)
| built_reverse : forall f, built f -> built (fsm_reverse f)
| built_prefix : forall f g, built f -> determined f = false -> make_prefix f = Ok g -> built g
| built_suffix : forall f, built f -> determined f = false -> built (make_suffix f)
| built_dead : forall f g, built f -> determined f = false -> remove_dead_ends f = Ok g -> built g
| built_noeps : forall f, built f -> determined f = false -> built (remove_epsilons f)
| built_determine : forall f g b maxsize, built f -> determine f maxsize = Ok (b, g) -> built g
| built_minimize : forall f g, built f -> determined f = true -> minimize f = Ok g -> built g
| built_canonize : forall f g maxsize, built f -> canonize f maxsize = Ok g -> built g
| built_approx : forall f distance, built f -> uncompressed f -> sparsed f = false -> built (create_approx f distance).
