(** C75: threads that call the C interface at the same time. *)
From Verif Require Import Base M_PointerTable M_PtConc M_Estimator M_CApi S_CApi M_Conc S_PtConc S_Conc L_Conc L_Conc4 L_Conc5 L_Conc6 P_CApi.
Open Scope Z_scope.

Section C75.
  (** Any featurizer whose C++ methods are defined, any number of threads, any interleaving, any addresses and any handles. *)
  Context {S In Tr Arg Val : Type}.
  Variable I : impl S In Tr.
  Variable construct : res S.
  Variable value_of : Arg -> res In.
  Variable save_tr : Tr -> res (list Z).
  Variable load_tr : list Z -> res Tr.
  Variable exec_one : Tr -> In -> Tr * res Val.
  Variable exec_many : Tr -> In -> Tr * res (list (list Z)).
  Variable flush_many : Tr -> Tr * res (list (list Z)).
  Variable what : exn -> list Z.
  Notation cruns := (@cruns S In Tr Arg Val I construct value_of save_tr load_tr exec_one exec_many flush_many what).
  Notation disciplined := (@disciplined S In Tr Arg Val I construct value_of save_tr load_tr exec_one exec_many flush_many what).
  Notation answered := (@answered S In Tr Arg Val I construct value_of save_tr load_tr exec_one exec_many flush_many what).
  Notation book_after := (@book_after S In Tr Arg Val I construct value_of save_tr load_tr exec_one exec_many flush_many what).
  Notation methods_defined := (@methods_defined S In Tr Arg Val I construct value_of save_tr load_tr exec_one exec_many flush_many).

  (** If no two threads use one object at the same time, every call gets the answer it would get if it were alone. *)
  Theorem C75_answers : forall hist c, methods_defined -> cruns c_start hist c -> disciplined new_book hist -> answered new_book hist.
  Proof. intros hist c Hd R D. exact (proj1 (runs_J I construct value_of save_tr load_tr exec_one exec_many flush_many what Hd hist c R D)). Qed.
  (** Nothing undefined happens and no exception leaves a C function. *)
  Theorem C75_returned : forall hist c i x, methods_defined -> cruns c_start hist c -> disciplined new_book hist -> List.In (Returns i x) hist -> returned x.
  Proof. intros hist c i x Hd R D. exact (proj1 (proj2 (runs_J I construct value_of save_tr load_tr exec_one exec_many flush_many what Hd hist c R D)) i x). Qed.
  (** No race: the object that a thread is about to use is allocated, and no other thread is about to use it; at most one thread is about to
      use the pointer table. *)
  Theorem C75_no_race : forall hist c i a, methods_defined -> cruns c_start hist c -> disciplined new_book hist -> touches (c_threads c i) = Some a ->
    h_find (c_heap c) a <> None /\ forall j, touches (c_threads c j) = Some a -> j = i.
  Proof. intros hist c i a Hd. exact (no_race I construct value_of save_tr load_tr exec_one exec_many flush_many what Hd hist c i a). Qed.
  Theorem C75_table_exclusive : forall hist c i j q q' k k', cruns c_start hist c -> c_threads c i = In_table q k -> c_threads c j = In_table q' k' ->
    section q = true -> section q' = true -> i = j.
  Proof.
    intros hist c i j q q' k k' R Hi Hj Si Sj. destruct (table_facts I construct value_of save_tr load_tr exec_one exec_many flush_many what hist c R) as [V _].
    assert (A : c_lock c = Some i) by (apply V; eauto). assert (B : c_lock c = Some j) by (apply V; eauto). congruence.
  Qed.
  (** When all calls have returned and everything was given back, no memory is held - if begin_training does not throw. *)
  Theorem C75_no_leak : forall hist c, methods_defined -> (forall s e, construct = Ok s -> snd (begin_training I (est_new s)) <> Throw e) ->
    cruns c_start hist c -> disciplined new_book hist -> (forall i, c_threads c i = Idle) -> empty (unused (book_after new_book hist)) ->
    c_heap c = [] /\ c_table c = [].
  Proof. intros hist c Hd NL R D. exact (conc_no_leak I construct value_of save_tr load_tr exec_one exec_many flush_many what Hd hist c R D NL). Qed.
  (** No deadlock, whatever is called: every call can come to its end without any new call, as long as the table is not full. *)
  Theorem C75_no_deadlock : forall hist c i, cruns c_start hist c -> c_threads c i <> Idle -> Z.of_nat (length (c_table c)) < 18446744073709551611 ->
    exists c' x, cruns c [Returns i x] c'.
  Proof. exact (conc_no_deadlock I construct value_of save_tr load_tr exec_one exec_many flush_many what). Qed.
End C75.

(** *** The featurizer of C65_case *)
Notation sum_carry := (@carry_out _ _ _ _ _ (sum_impl false) (Ok []) sum_value sum_save sum_load (fun t v => (t, Ok (t + v))) (fun t v => (t, Ok [[v]; []])) (fun t => (t, Ok [])) (fun _ => [33])).
Notation sum_runs := (@cruns _ _ _ _ _ (sum_impl false) (Ok []) sum_value sum_save sum_load (fun t v => (t, Ok (t + v))) (fun t v => (t, Ok [[v]; []])) (fun t => (t, Ok [])) (fun _ => [33])).
Notation sum_disciplined := (@disciplined _ _ _ _ _ (sum_impl false) (Ok []) sum_value sum_save sum_load (fun t v => (t, Ok (t + v))) (fun t v => (t, Ok [[v]; []])) (fun t => (t, Ok [])) (fun _ => [33])).
Notation sum_book := (@book_after _ _ _ _ _ (sum_impl false) (Ok []) sum_value sum_save sum_load (fun t v => (t, Ok (t + v))) (fun t v => (t, Ok [[v]; []])) (fun t => (t, Ok [])) (fun _ => [33])).
Definition turns (i k : nat) (n : Z) : list (@turn (option Z)) := repeat (Turn i n) k.

(** Two threads load, transform and destroy at the same time; thread 1 makes an error and reads it. *)
Definition sum_schedule : list (@turn (option Z)) :=
  [Start 0 true (LoadTransformer (Some [7; 33]) true); Start 1 true (LoadTransformer (Some [7; 40]) true)] ++
  turns 0 4 1000 ++ turns 1 3 2000 ++ [Turn 0 5; Turn 0 0; Turn 0 0] ++ turns 1 1 0 ++ [Turn 1 5; Turn 1 6] ++ turns 1 4 0 ++ turns 0 2 0 ++
  [Start 0 true (Transform 5 (Some 9) true); Start 1 true (Transform 6 (Some 1) true)] ++
  turns 0 3 0 ++ turns 1 2 0 ++ turns 0 3 0 ++ turns 1 4 0 ++ turns 0 3 0 ++ turns 1 3 0 ++
  [Start 1 true (Transform 6 None true); Start 0 true (DestroyTransformer 5)] ++
  turns 0 6 0 ++ turns 1 3 3000 ++ turns 0 7 0 ++ [Turn 1 0; Turn 1 5] ++ turns 0 3 0 ++ turns 1 4 0 ++
  [Start 0 false (GetErrorString 5 true)] ++ turns 0 7 0 ++ [Turn 0 1000; Turn 0 0] ++
  [Start 0 false (DestroyError 5); Start 1 true (DestroyTransformer 6)] ++ turns 0 6 0 ++ turns 1 6 0 ++ turns 0 7 0 ++ turns 1 7 0 ++ turns 0 3 0 ++ turns 1 3 0 ++
  [Start 2 false (DestroyErrorString 1000)] ++ turns 2 3 0.
Definition sum_events : list (@event (option Z) Z) :=
  [Begins 0 true (LoadTransformer (Some [7; 33]) true); Begins 1 true (LoadTransformer (Some [7; 40]) true); Returns 1 (CTrue (AHandle 6)); Returns 0 (CTrue (AHandle 5));
   Begins 0 true (Transform 5 (Some 9) true); Begins 1 true (Transform 6 (Some 1) true); Returns 0 (CTrue (AValue 42)); Returns 1 (CTrue (AValue 41));
   Begins 1 true (Transform 6 None true); Begins 0 true (DestroyTransformer 5); Returns 0 (CTrue ADone); Returns 1 (CFalse (Some 5));
   Begins 0 false (GetErrorString 5 true); Returns 0 (CTrue (ABlock 1000 0)); Begins 0 false (DestroyError 5); Begins 1 true (DestroyTransformer 6);
   Returns 0 (CTrue ADone); Returns 1 (CTrue ADone); Begins 2 false (DestroyErrorString 1000); Returns 2 (CTrue ADone)].
Example C75_case : exists c, sum_runs c_start sum_events c /\ (c_heap c = [] /\ c_table c = [] /\ forall i, c_threads c i = Idle) /\
  sum_disciplined new_book sum_events /\ empty (unused (sum_book new_book sum_events)) /\
  methods_defined (sum_impl false) (Ok []) sum_value sum_save sum_load (fun t v => (t, Ok (t + v))) (fun t v => (t, Ok [[v]; []])) (fun t => (t, Ok [])).
Proof.
  assert (E : exists c, sum_carry c_start sum_schedule = Some (c, sum_events) /\ (c_heap c = [] /\ c_table c = [] /\ forall i, c_threads c i = Idle)).
  { eexists. split; [vm_compute; reflexivity|]. split; [reflexivity|]. split; [reflexivity|]. intros [|[|[|i]]]; reflexivity. }
  destruct E as (c & E & Q). exists c. split; [eapply carry_out_ok; exact E|]. split; [exact Q|]. clear E Q c. split; [|split].
  - cbn [disciplined sum_events]. repeat (split; [cbn; first [exact Logic.I|right; eexists; reflexivity]|]). exact Logic.I.
  - split; intros h; cbn; unfold assign; destruct (Z.eqb_spec h 5) as [->|_]; try reflexivity; destruct (Z.eqb_spec h 6) as [->|_]; try reflexivity;
      destruct (Z.eqb_spec h 1000) as [->|_]; reflexivity.
  - repeat split; try discriminate; try (intros; discriminate).
    + intros [v|]; discriminate.
    + intros b. unfold sum_load. repeat (match goal with |- context [match ?x with _ => _ end] => destruct x end); discriminate.
Qed.

(** *** What is not safe *)
(** Two threads transform with one transformer: one is about to write the object that the other is about to read. *)
Theorem C75_shared_transformer_refuted : exists c a o k,
  sum_runs c_start [Begins 0 true (LoadTransformer (Some [7; 33]) true); Returns 0 (CTrue (AHandle 5));
                    Begins 0 true (Transform 5 (Some 9) true); Begins 1 true (Transform 5 (Some 1) true)] c /\
  c_threads c 0%nat = At (Write a o k) /\ touches (c_threads c 1%nat) = Some a.
Proof.
  assert (E : exists c a o k, sum_carry c_start ([Start 0 true (LoadTransformer (Some [7; 33]) true)] ++ turns 0 4 1000 ++ [Turn 0 5] ++ turns 0 4 0 ++
      [Start 0 true (Transform 5 (Some 9) true); Start 1 true (Transform 5 (Some 1) true)] ++ turns 0 7 0 ++ turns 1 6 0)
    = Some (c, [Begins 0 true (LoadTransformer (Some [7; 33]) true); Returns 0 (CTrue (AHandle 5)); Begins 0 true (Transform 5 (Some 9) true); Begins 1 true (Transform 5 (Some 1) true)]) /\
    c_threads c 0%nat = At (Write a o k) /\ touches (c_threads c 1%nat) = Some a).
  { do 4 eexists. split; [vm_compute; reflexivity|]. split; reflexivity. }
  destruct E as (c & a & o & k & E & Q). exists c, a, o, k. split; [eapply carry_out_ok; exact E|exact Q].
Qed.
(** A transformer is destroyed while another thread transforms with it: the memory is used after it was freed. *)
Theorem C75_destroyed_in_use_refuted : exists c,
  sum_runs c_start [Begins 0 true (LoadTransformer (Some [7; 33]) true); Returns 0 (CTrue (AHandle 5));
                    Begins 0 true (Transform 5 (Some 9) true); Begins 1 true (DestroyTransformer 5); Returns 1 (CTrue ADone); Returns 0 CUB] c.
Proof.
  assert (E : exists c, sum_carry c_start ([Start 0 true (LoadTransformer (Some [7; 33]) true)] ++ turns 0 4 1000 ++ [Turn 0 5] ++ turns 0 4 0 ++
      [Start 0 true (Transform 5 (Some 9) true); Start 1 true (DestroyTransformer 5)] ++ turns 0 6 0 ++ turns 1 16 0 ++ turns 0 2 0)
    = Some (c, [Begins 0 true (LoadTransformer (Some [7; 33]) true); Returns 0 (CTrue (AHandle 5));
                Begins 0 true (Transform 5 (Some 9) true); Begins 1 true (DestroyTransformer 5); Returns 1 (CTrue ADone); Returns 0 CUB])).
  { eexists. vm_compute. reflexivity. }
  destruct E as (c & E). exists c. eapply carry_out_ok. exact E.
Qed.
(** Two threads destroy one transformer: the second has found the object when the first removes the handle, but is told so by Remove and
    deletes nothing. *)
Example C75_destroyed_twice_case : exists c,
  sum_runs c_start [Begins 0 true (LoadTransformer (Some [7; 33]) true); Returns 0 (CTrue (AHandle 5));
                    Begins 0 true (DestroyTransformer 5); Begins 1 true (DestroyTransformer 5); Returns 0 (CTrue ADone); Returns 1 (CFalse (Some 6))] c.
Proof.
  assert (E : exists c, sum_carry c_start ([Start 0 true (LoadTransformer (Some [7; 33]) true)] ++ turns 0 4 1000 ++ [Turn 0 5] ++ turns 0 4 0 ++
      [Start 0 true (DestroyTransformer 5); Start 1 true (DestroyTransformer 5)] ++ turns 1 6 0 ++ turns 0 16 0 ++ turns 1 6 0 ++ [Turn 1 2000] ++ turns 1 3 0 ++ [Turn 1 6] ++ turns 1 4 0)
    = Some (c, [Begins 0 true (LoadTransformer (Some [7; 33]) true); Returns 0 (CTrue (AHandle 5));
                Begins 0 true (DestroyTransformer 5); Begins 1 true (DestroyTransformer 5); Returns 0 (CTrue ADone); Returns 1 (CFalse (Some 6))])).
  { eexists. vm_compute. reflexivity. }
  destruct E as (c & E). exists c. eapply carry_out_ok. exact E.
Qed.

Print Assumptions C75_answers.
Print Assumptions C75_returned.
Print Assumptions C75_no_race.
Print Assumptions C75_table_exclusive.
Print Assumptions C75_no_leak.
Print Assumptions C75_no_deadlock.
Print Assumptions C75_shared_transformer_refuted.
Print Assumptions C75_destroyed_in_use_refuted.
