(** C17: handles. *)
From Verif Require Import Base M_PointerTable S_PointerTable L_PointerTable M_PtConc S_PtConc L_PtConc.

(** C17.  In every history of calls (by any threads: the calls are atomic) and for every sequence of random draws, each
    answer is the one the history prescribes: Add returns a non-zero handle that is not live, Get of a live handle returns
    the pointer it was created for, and Get or Remove of any other handle throws. *)
Theorem C17_handles : forall ops outs t', Forall op_draws_ok ops -> pt_run [] ops = Some (t', outs) ->
  length outs = length ops /\
  forall i o x, nth_error ops i = Some o -> nth_error outs i = Some x ->
    answer_ok (live (combine (firstn i ops) (firstn i outs))) o x.
Proof. exact pt_all_histories. Qed.
Print Assumptions C17_handles.

(** Add returns once the random engine yields an unused handle. *)
Theorem C17_add_returns : forall t p draws d, In d draws -> pt_find t d = None ->
  exists t' x, pt_step t (PAdd p draws) = Some (t', x).
Proof. exact pt_add_returns. Qed.
Print Assumptions C17_add_returns.

Example C17_case :
  let ops := [PAdd 100 [7]; PAdd 200 [7;7;9]; PGet 7; PRemove 7; PGet 7; PAdd 0 [4]; PAdd 300 [7]; PGet 7; PGet 9; PRemove 0; PRemove 8] in
  Forall op_draws_ok ops /\
  option_map snd (pt_run [] ops) = Some [PHandle 7; PHandle 9; PPtr 100; PDone; PThrow InvalidArgument; PThrow InvalidArgument;
     PHandle 7; PPtr 300; PPtr 200; PThrow InvalidArgument; PThrow InvalidArgument].
Proof. split; [repeat constructor; lia|reflexivity]. Qed.

(** The methods may be called by any number of threads at the same time, statement by statement in any order: whatever is observed,
    the calls behave as if they had been made one after the other, each at some moment between its call and its return; so C17_handles
    holds for them. *)
Theorem C17_concurrent : forall hist c, truns tc_start hist c -> one_after_the_other hist (tc_table c).
Proof. exact linearizable. Qed.
(** The table is never used by two threads at once. *)
Theorem C17_exclusive : forall hist c i j q q', truns tc_start hist c -> tc_threads c i = Some q -> tc_threads c j = Some q' ->
  section q = true -> section q' = true -> i = j.
Proof. exact exclusive. Qed.
(** No deadlock: whatever has happened, every call that has begun can come to its end without any new call, as long as there are unused handles. *)
Theorem C17_no_deadlock : forall hist c i q, truns tc_start hist c -> tc_threads c i = Some q -> Z.of_nat (length (tc_table c)) < 18446744073709551614 ->
  exists c' r, truns c [] c' /\ tc_threads c' i = Some (Left r).
Proof. exact no_deadlock. Qed.
Print Assumptions C17_concurrent.
Print Assumptions C17_exclusive.
Print Assumptions C17_no_deadlock.
(** Thread 1 looks for handle 7 while thread 0 is about to enter it, and waits for the mutex. *)
Example C17_concurrent_case : exists c, truns tc_start [Call 0 (TAdd 100); Call 1 (TGet 7); Return 1 (Ok 100); Return 0 (Ok 7)] c /\ tc_table c = [(7, 100)].
Proof.
  eexists. split.
  - eapply (truns_more _ [Call 0 (TAdd 100); Call 1 (TGet 7); Return 1 (Ok 100)] [Return 0 (Ok 7)]); [
    eapply (truns_more _ [Call 0 (TAdd 100); Call 1 (TGet 7)] [Return 1 (Ok 100)]); [
    eapply (truns_more _ [Call 0 (TAdd 100); Call 1 (TGet 7)] []); [
    eapply (truns_more _ [Call 0 (TAdd 100); Call 1 (TGet 7)] []); [
    eapply (truns_more _ [Call 0 (TAdd 100); Call 1 (TGet 7)] []); [
    eapply (truns_more _ [Call 0 (TAdd 100); Call 1 (TGet 7)] []); [
    eapply (truns_more _ [Call 0 (TAdd 100); Call 1 (TGet 7)] []); [
    eapply (truns_more _ [Call 0 (TAdd 100); Call 1 (TGet 7)] []); [
    eapply (truns_more _ [Call 0 (TAdd 100)] [Call 1 (TGet 7)]); [
    eapply (truns_more _ [Call 0 (TAdd 100)] []); [
    eapply (truns_more _ [Call 0 (TAdd 100)] []); [
    eapply (truns_more _ [Call 0 (TAdd 100)] []); [
    eapply (truns_more _ [] [Call 0 (TAdd 100)]); [
    apply truns_none
    |apply (t_call _ 0); reflexivity]
    |eapply (t_inner _ 0); [reflexivity|apply move_enter; reflexivity]]
    |eapply (t_inner _ 0); [reflexivity|apply move_lock]]
    |eapply (t_inner _ 0); [reflexivity|apply (move_draw _ _ _ _ 7); [lia|reflexivity]]]
    |apply (t_call _ 1); reflexivity]
    |eapply (t_inner _ 1); [reflexivity|apply move_enter; reflexivity]]
    |eapply (t_inner _ 0); [reflexivity|apply move_insert]]
    |eapply (t_inner _ 0); [reflexivity|apply move_unlock]]
    |eapply (t_inner _ 1); [reflexivity|apply move_lock]]
    |eapply (t_inner _ 1); [reflexivity|apply move_get]]
    |eapply (t_inner _ 1); [reflexivity|apply move_unlock]]
    |apply (t_return _ 1); reflexivity]
    |apply (t_return _ 0); reflexivity].
  - reflexivity.
Qed.
