(** C10-C13: estimator life cycle, annotations, batching. *)
From Verif Require Import Base M_Estimator M_Pipeline S_Grain S_Estimator L_Estimator L_OnePass.

(** C10.  [I] is any implementation; [ops] any history of calls (failures caught). *)
Theorem C10_never_backwards : forall (S In Tr : Type) (I : impl S In Tr) (s : S) (ops : list (eop In)),
  StronglySorted (fun a b => (rank a <= rank b)%nat)
    (e_state (est_new s) :: map (fun p => e_state (fst p)) (erun I (est_new s) ops)).
Proof. exact (fun S In Tr I s ops => run_monotone I ops (est_new s)). Qed.
Print Assumptions C10_never_backwards.

Theorem C10_wrong_state_refused : forall (S In Tr : Type) (I : impl S In Tr) (e : est S) (o : eop In),
  allowed o (e_state e) = false -> estep I e o = (e, EThrow RuntimeError).
Proof. exact @wrong_state_refused. Qed.
Print Assumptions C10_wrong_state_refused.

(** The training loop (TestHelpers.h:43-75) with an implementation that wants the data once: training begins, the batches are fitted in order as long as the
    estimator is training, the end of the data is told and training completes; what fails ends the loop. *)
Theorem C10_training_loop : forall (S In Tr : Type) (I : impl S In Tr), (forall s, snd (i_on_data I s) = Ok true) -> (forall s xs, snd (i_fit I s xs) <> Ok FitReset) ->
  forall (bs : list (list In)) (fuel : nat) (e : est S), bs <> [] -> (length bs < fuel)%nat -> M_Pipeline.train I bs fuel e = Some (S_Grain.train I e bs).
Proof. exact @one_pass. Qed.
Print Assumptions C10_training_loop.

Example C10_training_loop_case :
  let I := mkImpl (fun d : Z => (d, Ok true)) (fun d (xs : list Z) => (fold_left Z.add xs d, Ok FitContinue)) (fun d => (d, Ok true)) (fun d => (d, Ok tt)) (fun d => (d, Ok (Some d))) in
  (forall s, snd (i_on_data I s) = Ok true) /\ (forall s xs, snd (i_fit I s xs) <> Ok FitReset) /\
  M_Pipeline.train I [[1; 2]; [3]] 3 (est_new 0) = Some (Ok (mkEst Completed false 6)) /\ M_Pipeline.train I [[1; 2]; []; [3]] 4 (est_new 0) = Some (Throw InvalidArgument).
Proof. repeat split. discriminate. Qed.

(** In an allowed state a call either fails, leaving the training state alone, or makes one of the documented moves. *)
Theorem C10_allowed_moves : forall (S In Tr : Type) (I : impl S In Tr) (e : est S) (o : eop In),
  allowed o (e_state e) = true ->
  (failed (snd (estep I e o)) /\ e_state (fst (estep I e o)) = e_state e /\ e_created (fst (estep I e o)) = e_created e) \/
  (~ failed (snd (estep I e o)) /\ may_move o (e_state e) (e_state (fst (estep I e o))) = true
     /\ e_created (fst (estep I e o)) = match o with OCreate => true | _ => e_created e end).
Proof. exact @step_state. Qed.
Print Assumptions C10_allowed_moves.

(** Which of the documented moves is made is decided by the concrete estimator's answer: training goes on if it wants (more) data, and is
    finished if it does not. *)
Theorem C10_decided : forall (S In Tr : Type) (I : impl S In Tr) (s : S) (created : bool),
  (forall s' wants, i_begin I s = (s', Ok wants) ->
     estep I (mkEst Pending created s) OBegin = (mkEst (if wants : bool then Training else Finished) created s', EUnit)) /\
  (forall x xs s' f, i_fit I s (x :: xs) = (s', Ok f) ->
     estep I (mkEst Training created s) (OFit (Some (x :: xs))) = (mkEst (match f with FitComplete => Finished | _ => Training end) created s', EFit f)) /\
  (forall s' enough, i_on_data I s = (s', Ok enough) ->
     estep I (mkEst Training created s) OOnData = (mkEst (if enough : bool then Finished else Training) created s', EUnit)) /\
  estep I (mkEst Finished created s) OOnData = (mkEst Finished created s, EUnit) /\
  (forall st s', st = Training \/ st = Finished -> i_complete I s = (s', Ok tt) -> estep I (mkEst st created s) OComplete = (mkEst Completed created s', EUnit)).
Proof.
  intros S In Tr I s created. cbn [estep]. unfold begin_training, fit, on_data_completed, complete_training. cbn [e_state e_impl e_created].
  split; [intros s' [|] E; rewrite E; reflexivity|]. split; [intros x xs s' [| |] E; rewrite E; reflexivity|].
  split; [intros s' [|] E; rewrite E; reflexivity|]. split; [reflexivity|]. intros st s' [->| ->] E; rewrite E; reflexivity.
Qed.
Print Assumptions C10_decided.

(** C11. *)
Theorem C11_at_most_one_transformer : forall (S In Tr : Type) (I : impl S In Tr) (s : S) (ops : list (eop In)),
  (length (filter (fun p => match snd p with ETransformer _ => true | _ => false end) (erun I (est_new s) ops)) <= 1)%nat.
Proof. exact (fun S In Tr I s ops => n_created_le1 I ops (est_new s)). Qed.
Print Assumptions C11_at_most_one_transformer.

Theorem C11_only_after_training : forall (S In Tr : Type) (I : impl S In Tr) (s : S) (ops : list (eop In)) e t,
  List.In (e, ETransformer t) (erun I (est_new s) ops) -> e_state e = Completed.
Proof. exact (fun S In Tr I s ops e t H => created_only_completed I ops (est_new s) (e, ETransformer t) H eq_refl). Qed.
Print Assumptions C11_only_after_training.

(** A non-trivial implementation and history for C10 and C11: it wants three items. *)
Definition C10_impl : impl nat Z Z :=
  mkImpl (fun s => (s, Ok true))
         (fun s xs => let n := (s + length xs)%nat in (n, Ok (if Nat.leb 3 n then FitComplete else FitContinue)))
         (fun s => (s, Ok true)) (fun s => (s, Ok tt)) (fun s => (s, Ok (Some (Z.of_nat s)))).
Example C10_case :
  map (fun p => (e_state (fst p), snd p))
    (erun C10_impl (est_new 0%nat) [OFit (Some [1]); OBegin; OFit None; OFit (Some [1;2]); OBegin; OFit (Some [5]); OFit (Some [5]);
       OOnData; OCreate; OComplete; OComplete; OCreate; OCreate])
  = [(Pending, EThrow RuntimeError); (Training, EUnit); (Training, EThrow InvalidArgument); (Training, EFit FitContinue);
     (Training, EThrow RuntimeError); (Finished, EFit FitComplete); (Finished, EThrow RuntimeError); (Finished, EUnit);
     (Finished, EThrow RuntimeError); (Completed, EUnit); (Completed, EThrow RuntimeError);
     (Completed, ETransformer 3); (Completed, EThrow RuntimeError)].
Proof. reflexivity. Qed.

(** C12.  The annotations of a column under a name after any history of additions are those before it followed by the
    added ones, in order; every other column and name is unaffected. *)
Theorem C12_append_only : forall (Ann : Type) (ops : list (option Ann * nat * name)) (m : ann_maps Ann) col n,
  anns (add_run m ops) col n =
  anns m col n ++
  flat_map (fun o => match o with
                     | (Some a, c, n') => if Nat.ltb c (length m) && Nat.eqb c col && name_eqb n' n then [a] else []
                     | (None, _, _) => []
                     end) ops.
Proof. exact @add_run_anns. Qed.
Print Assumptions C12_append_only.

(** Looking up returns the earliest added one of the type, or throws. *)
Theorem C12_first_wins : forall (Ann : Type) (is_t : Ann -> bool) (m : ann_maps Ann) ops col n,
  n <> [] -> (col < length m)%nat ->
  get_annotation_data is_t (add_run m ops) col n =
  match find is_t (anns m col n ++ added (length m) ops col n) with Some a => Ok a | None => Throw RuntimeError end.
Proof. exact @get_after_adds. Qed.
Print Assumptions C12_first_wins.

(** ... hence an answer once given never changes. *)
Theorem C12_answers_are_stable : forall (Ann : Type) (is_t : Ann -> bool) (m : ann_maps Ann) ops col n a,
  get_annotation_data is_t m col n = Ok a -> get_annotation_data is_t (add_run m ops) col n = Ok a.
Proof. exact @get_keeps_answer. Qed.
Print Assumptions C12_answers_are_stable.
Example C12_case :
  let m := add_run [[]; []] [(Some 10, 1%nat, [65]); (Some 21, 1%nat, [65]); (None, 1%nat, [65]); (Some 3, 7%nat, [65]); (Some 31, 1%nat, [65]); (Some 41, 1%nat, [66])] in
  anns m 1 [65] = [10; 21; 31] /\ get_annotation_data Z.odd m 1 [65] = Ok 21 /\ get_annotation_data Z.even m 1 [66] = Throw RuntimeError.
Proof. repeat split. Qed.

(** C13.  For any policy and any split into non-empty batches, the annotation is the one computed from the first
    [max_items] training items, one after the other. *)
Theorem C13_trained_on_first_items : forall (P In A : Type) (pol : policy P In A) (max_items : nat),
  (1 <= max_items)%nat -> forall batches, Forall (fun b => b <> []) batches ->
  trained pol max_items batches =
  do pb <- p_begin pol (p_init pol);
  do p' <- (if snd pb then foldM (p_fit pol) (fst pb) (firstn max_items (concat batches)) else Ok (fst pb));
  do a <- p_complete pol p'; Ok (Some a).
Proof. exact @trained_eq. Qed.
Print Assumptions C13_trained_on_first_items.

Theorem C13_batching_irrelevant : forall (P In A : Type) (pol : policy P In A) (max_items : nat),
  (1 <= max_items)%nat -> forall b1 b2, Forall (fun b => b <> []) b1 -> Forall (fun b => b <> []) b2 ->
  firstn max_items (concat b1) = firstn max_items (concat b2) ->
  trained pol max_items b1 = trained pol max_items b2.
Proof. exact @trained_batching. Qed.
Print Assumptions C13_batching_irrelevant.

(** Complete is reported by exactly the fit call that provides the last wanted item. *)
Theorem C13_complete_reported : forall (P In A : Type) (pol : policy P In A) p rem xs cr,
  xs <> [] -> (1 <= rem)%nat ->
  foldM (p_fit pol) p (firstn rem xs) <> UB ->
  (forall e, foldM (p_fit pol) p (firstn rem xs) <> Throw e) ->
  snd (fit (tonly_impl pol) (mkEst Training cr (mkT p true false rem None)) (Some xs))
  = Ok (if Nat.leb rem (length xs) then FitComplete else FitContinue).
Proof. exact @fit_reports_complete. Qed.
Print Assumptions C13_complete_reported.
(** One pass over the data is enough: told that there is no more, every such estimator is finished. *)
Theorem C13_one_pass : forall (P In A : Type) (pol : policy P In A) (e : est (@tonly P A)),
  e_state e = Training \/ e_state e = Finished -> on_data_completed (tonly_impl pol) e = (mkEst Finished (e_created e) (e_impl e), Ok tt).
Proof. intros P In A pol [st cr s] [H|H]; cbn in H; rewrite H; reflexivity. Qed.
Print Assumptions C13_one_pass.
Example C13_case :
  let sum := simple_policy 0 (fun s x => if x <? 0 then Throw InvalidArgument else Ok (s + x)) (fun s => Ok s) in
  trained sum 4 [[1;2];[3];[4;5];[-6]] = Ok (Some 10) /\ trained sum 4 [[1];[2;3;4]] = Ok (Some 10)
  /\ trained sum 9 [[1];[-2;3;4]] = Throw InvalidArgument.
Proof. repeat split. Qed.

(** When the annotation exists already: no history of calls replaces it, and a training run uses no data at all (the policy
    object is the untouched initial one). *)
Theorem C13_existing_annotation_kept : forall (P In A : Type) (pol : policy P In A) (max_items : nat) (required : bool) (a : A) (ops : list (eop In)),
  Forall (fun p => t_ann (e_impl (fst p)) = Some a) (erun (tonly_impl pol) (est_new (tonly_new pol max_items required (Some a))) ops).
Proof. exact (fun P In A pol mx r a ops => ann_kept pol a ops (est_new (tonly_new pol mx r (Some a))) eq_refl). Qed.
Print Assumptions C13_existing_annotation_kept.
Theorem C13_existing_annotation_skips_training : forall (P In A : Type) (pol : policy P In A) (max_items : nat) (a : A) (batches : list (list In)),
  train_batches pol (est_new (tonly_new pol max_items true (Some a))) batches =
  Ok (mkEst Completed false (mkT (p_init pol) true true max_items (Some a))).
Proof. exact @existing_skips. Qed.
Print Assumptions C13_existing_annotation_skips_training.
