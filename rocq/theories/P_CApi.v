(** C65: the C interface. *)
From Verif Require Import Base M_PointerTable M_Estimator M_CApi S_CApi L_CApi2 L_CApi3 L_CApi4.
Open Scope Z_scope.

Section C65.
  (** Any featurizer, any allocator, any random engine. *)
  Context {S In Tr Arg Val : Type}.
  Variable I : impl S In Tr.
  Variable construct : res S.
  Variable value_of : Arg -> res In.
  Variable save_tr : Tr -> res (list Z).
  Variable load_tr : list Z -> res Tr.
  Variable exec_one : Tr -> In -> Tr * res Val.
  Variable exec_many : Tr -> In -> Tr * res (list (list Z)).
  Variable flush_many : Tr -> Tr * res (list (list Z)).
  Variable what : exn -> list Z.
  Variable allocate : nat -> list Z -> Z.
  Variable draws : nat -> list Z.
  Notation run := (@run S In Tr Arg Val I construct value_of save_tr load_tr exec_one exec_many flush_many what allocate draws).
  Notation meets := (@meets S In Tr Arg Val I construct value_of save_tr load_tr exec_one exec_many flush_many what).
  Notation holds_after := (@holds_after S In Tr Arg Val I construct value_of save_tr load_tr exec_one exec_many flush_many what).
  Notation careful := (@careful S In Tr Arg Val I construct value_of save_tr load_tr exec_one exec_many flush_many what).

  (** Whatever the history, every call is answered and changes what the caller holds as the ledger says. *)
  Theorem C65_calls : forall l xs w, allocator_ok allocate -> draws_ok draws -> run start l = Some (xs, w) -> meets nothing l xs.
  Proof. intros l xs w Ha Hd. exact (c_calls I construct value_of save_tr load_tr exec_one exec_many flush_many what allocate draws Ha Hd l xs w). Qed.

  (** Every history comes to its end when unused handles are found. *)
  Theorem C65_returns : forall l, draws_enough (4 * length l) draws -> exists xs w, run start l = Some (xs, w).
  Proof.
    intros l H. exact (run_total I construct value_of save_tr load_tr exec_one exec_many flush_many what allocate draws _ H l start (le_n 0) (le_n _)).
  Qed.

  (** When everything was given back, no memory is held - if begin_training does not throw. *)
  Theorem C65_no_leak : forall l xs w, allocator_ok allocate -> draws_ok draws ->
    (forall s e, construct = Ok s -> snd (begin_training I (est_new s)) <> Throw e) ->
    run start l = Some (xs, w) -> Forall returned xs -> empty (holds_after nothing l xs) ->
    w_heap w = [] /\ w_table w = [].
  Proof. intros l xs w Ha Hd. exact (c_no_leak I construct value_of save_tr load_tr exec_one exec_many flush_many what allocate draws Ha Hd l xs w). Qed.

  (** Careful use of defined methods: every function returns, with true or false. *)
  Theorem C65_careful : forall l xs w, allocator_ok allocate -> draws_ok draws ->
    methods_defined I construct value_of save_tr load_tr exec_one exec_many flush_many ->
    run start l = Some (xs, w) -> careful nothing l xs -> Forall returned xs /\ length xs = length l.
  Proof.
    intros l xs w Ha Hd Hm E. exact (careful_returned I construct value_of save_tr load_tr exec_one exec_many flush_many what Hm l nothing xs
      (C65_calls l xs w Ha Hd E)).
  Qed.

  (** The estimator that RobustScalerFeaturizer_*_CreateEstimatorWithDefault creates was never started, and the C interface has no
      function to start it: whatever is called, it is never fitted, never completed, and never gives a transformer. *)
  Theorem C65_default_estimator_refuted : forall l xs w s h, allocator_ok allocate -> draws_ok draws -> construct = Ok s ->
    run start ((true, CreateEstimatorDefault true) :: l) = Some (CTrue (AHandle h) :: xs, w) ->
    (forall errors, ~ List.In (errors, DestroyEstimator h) l) ->
    forall i errors c x a, nth_error l i = Some (errors, c) -> nth_error xs i = Some x -> trains h c -> x <> CTrue a.
  Proof.
    intros l xs w s h Ha Hd Hc E. exact (default_never_trained I construct value_of save_tr load_tr exec_one exec_many flush_many what l xs s h Hc
      (C65_calls _ _ w Ha Hd E)).
  Qed.
End C65.

(** *** A featurizer that adds the sum of what it was trained with: integers or null pointers in, ... *)
Definition sum_impl (throws : bool) : impl (list Z) Z Z :=
  mkImpl (fun s => (s, if throws then Throw RuntimeError else Ok true)) (fun s l => (s ++ l, Ok FitContinue)) (fun s => (s, Ok true)) (fun s => (s, Ok tt))
         (fun s => (s, Ok (Some (fold_right Z.add 0 s)))).
Definition sum_value (x : option Z) : res Z := match x with None => Throw InvalidArgument | Some v => Ok v end.
Definition sum_save (t : Z) : res (list Z) := Ok [7; t].
Definition sum_load (b : list Z) : res Z := match b with [7; t] => Ok t | _ => Throw RuntimeError end.
Definition sum_handles (n : nat) : list Z := map (fun k => 5 + Z.of_nat k) (seq 0 (Nat.min 1000 (Datatypes.S n))).
Definition sum_run (throws : bool) (l : list (bool * @call (option Z))) :=
  run (sum_impl throws) (Ok []) sum_value sum_save sum_load (fun t v => (t, Ok (t + v))) (fun t v => (t, Ok [[v]; []])) (fun t => (t, Ok []))
      (fun _ => [33]) (fun n l => 1 + fold_right Z.max 1000 l) sum_handles start l.

Lemma sum_alloc : allocator_ok (fun _ l => 1 + fold_right Z.max 1000 l).
Proof.
  intros _ l. assert (H : forall x, List.In x l -> x <= fold_right Z.max 1000 l).
  { induction l as [|y l IH]; intros x []; cbn [fold_right]; [subst; lia|specialize (IH x H); lia]. }
  assert (G : 1000 <= fold_right Z.max 1000 l) by (clear; induction l as [|y l IH]; cbn [fold_right]; lia).
  split; [|lia]. intros Q. specialize (H _ Q). lia.
Qed.
Lemma sum_draws : draws_ok sum_handles /\ draws_enough 100 sum_handles.
Proof.
  split.
  - intros n. apply Forall_forall. intros x Hx. apply in_map_iff in Hx as [k [<- Hk]]. apply in_seq in Hk. lia.
  - intros n Hn. unfold sum_handles. rewrite Nat.min_r by lia. split.
    + apply FinFun.Injective_map_NoDup; [intros a b E; lia|apply seq_NoDup].
    + rewrite map_length, seq_length. lia.
Qed.

(** Train, save, load, transform, make errors and read one, give everything back: nothing is left. *)
Definition sum_history : list (bool * @call (option Z)) :=
  [(true, CreateEstimator true); (true, GetState 5 true); (true, Fit 5 (Some 30) true); (true, FitBuffer 5 (Some [Some 1; Some 2]) true);
   (true, Fit 5 None true); (false, GetErrorString 6 true); (true, OnDataCompleted 5); (true, CompleteTraining 5); (true, CreateTransformer 5 true);
   (true, DestroyEstimator 5); (true, SaveTransformer 7 true); (true, LoadTransformer (Some [7; 33]) true); (true, Transform 5 (Some 9) true);
   (true, TransformMany 7 (Some 66) true); (true, Flush 7 true); (true, DestroyTransformer 9); (false, DestroyError 6); (false, DestroyError 8);
   (true, DestroyTransformer 7); (true, DestroyTransformer 5); (true, DestroySaveData 1005 2); (true, DestroyTransformed 1007 2);
   (false, DestroyErrorString 1003)].
Definition sum_answers : list (cres (@answer Z)) :=
  [CTrue (AHandle 5); CTrue (ACode 2); CTrue (ACode 2); CTrue (ACode 2); CFalse (Some 6); CTrue (ABlock 1003 0);
   CTrue ADone; CTrue ADone; CTrue (AHandle 7); CTrue ADone; CTrue (ABlock 1005 2); CTrue (AHandle 5);
   CTrue (AValue 42); CTrue (ABlock 1007 2); CTrue (ABlock 0 0); CFalse (Some 8); CTrue ADone; CTrue ADone;
   CTrue ADone; CTrue ADone; CTrue ADone; CTrue ADone; CTrue ADone].
Example C65_case : sum_run false sum_history = Some (sum_answers, mkWorld [] [] 13) /\
  careful (sum_impl false) (Ok []) sum_value sum_save sum_load (fun t v => (t, Ok (t + v))) (fun t v => (t, Ok [[v]; []])) (fun t => (t, Ok []))
    (fun _ => [33]) nothing sum_history sum_answers /\
  allocator_ok (fun _ l => 1 + fold_right Z.max 1000 l) /\ draws_ok sum_handles /\ draws_enough 100 sum_handles.
Proof.
  split; [vm_compute; reflexivity|]. split; [|split; [exact sum_alloc|exact sum_draws]].
  vm_compute. repeat split; try (right; right; eexists; reflexivity); try (right; eexists; reflexivity).
  right. right. eexists. split; reflexivity.
Qed.

(** *** Uses that are not careful, and what they do. *)
(** A handle of another kind is not detected: the object is cast and deleted as if it were a transformer. *)
Theorem C65_wrong_kind_refuted : exists w, sum_run false [(true, CreateEstimator true); (true, DestroyTransformer 5)] = Some ([CTrue (AHandle 5); CUB], w).
Proof. eexists. vm_compute. reflexivity. Qed.
(** An error handle destroyed twice, or read after it was destroyed: the exception of the pointer table leaves the C function. *)
Theorem C65_dead_error_refuted : exists w1 w2,
  sum_run false [(true, Fit 9 (Some 1) true); (false, DestroyError 5); (false, DestroyError 5)] =
    Some ([CFalse (Some 5); CTrue ADone; CEscape InvalidArgument], w1) /\
  sum_run false [(true, Fit 9 (Some 1) true); (false, DestroyError 5); (false, GetErrorString 5 true)] =
    Some ([CFalse (Some 5); CTrue ADone; CEscape InvalidArgument], w2).
Proof. eexists. eexists. split; vm_compute; reflexivity. Qed.
(** The place for the handle of a new estimator is not checked. *)
Theorem C65_null_place_refuted : exists w, sum_run false [(true, CreateEstimator false)] = Some ([CUB], w).
Proof. eexists. vm_compute. reflexivity. Qed.
(** When begin_training throws, the estimator is lost: the caller holds nothing but the error, gives it back, and memory is still held. *)
Theorem C65_lost_refuted : exists w, sum_run true [(true, CreateEstimator true); (false, DestroyError 5)] = Some ([CFalse (Some 5); CTrue ADone], w) /\
  w_table w = [] /\ length (w_heap w) = 1%nat.
Proof. eexists. split; [vm_compute; reflexivity|]. split; reflexivity. Qed.

Print Assumptions C65_calls.
Print Assumptions C65_returns.
Print Assumptions C65_no_leak.
Print Assumptions C65_careful.
Print Assumptions C65_default_estimator_refuted.
Print Assumptions C65_wrong_kind_refuted.
Print Assumptions C65_dead_error_refuted.
Print Assumptions C65_null_place_refuted.
Print Assumptions C65_lost_refuted.
