(** C76: windows and lags per grain, from the estimator to the results, over any use of the transformer. *)
From Verif Require Import Base M_Archive M_Codec M_Save M_Estimator M_Pipeline M_Keyed S_Keyed M_Grain S_Grain M_Window S_Window.
From Verif Require Import M_GrainWindow S_GrainWindow L_GrainWindow L_GrainWindow2 L_GrainWindow3.

(** Any sequence of rows, ends of the data and reloads, the rows of any number of grains interleaved: nothing fails; a row is answered by
    the row of windows over the values its own grain has had since the data last ended or the transformer was last reloaded; nothing else
    delivers anything. *)
Theorem C76_rolling_window : forall (I O : Type) (calcs : Z -> list I -> res O) (null : O) (f : list I -> O) (c : Z) (h mx mn : nat),
  0 <= c < 256 -> (1 <= h)%nat -> (1 <= mn <= mx)%nat -> Z.of_nat (h + mx) < 2 ^ 32 ->
  forall us : list (use (names * I)), Z.of_nat (length us) < 2 ^ 64 -> (forall k x, In (Row (k, x)) us -> storable k) ->
  (forall w, w <> [] -> consecutive names_eqb us w -> calcs c w = Ok (f w)) ->
  exists os g, row_by_row (used (window_exec calcs null) (window_flush calcs null) (reloaded (window_save (I := I)) (window_load (I := I))))
                 (mkGrain false [] (Some (rw_new c h mx mn))) us = (os, Ok g) /\ length os = length us /\
    forall p u q, us = p ++ u :: q ->
      nth_error os (length p) = Some (match u with
                                      | Row (k, x) => [window_row f null h mx mn (of_key names_eqb k (since p) ++ [x])]
                                      | Flush | Reload => []
                                      end).
Proof. exact @window_uses. Qed.
Print Assumptions C76_rolling_window.

(** Lags: a row delivers the matrix of the row of its grain whose last offset it is, if there is one; the end of the data delivers the
    others, grain after grain in the order of the grains. *)
Theorem C76_lag_lead : forall (T : Type) (null : T) (horizon : Z) (deltas : list Z), 1 <= horizon -> deltas <> [] ->
  horizon + Z.max 0 (- zmin deltas) + Z.max 0 (zmax deltas) < 2 ^ 32 -> Z.of_nat (length deltas) < 2 ^ 32 ->
  forall us : list (use (names * T)), Z.of_nat (length us) < 2 ^ 64 -> (forall k x, In (Row (k, x)) us -> storable k) ->
  exists os g, row_by_row (used (lag_exec null) (lag_end null) (reloaded (lag_grain_save (T := T)) (lag_grain_load null)))
                 (mkGrain false [] (Some (lag_new null horizon deltas))) us = (os, Ok g) /\ length os = length us /\
    forall p u q, us = p ++ u :: q -> exists o, nth_error os (length p) = Some o /\
      match u with
      | Row (k, x) => o = map (pair k) (lag_due null horizon deltas (of_key names_eqb k (since p) ++ [x]))
      | Flush => exists ks, StronglySorted (fun a b => names_lt a b = true) ks /\ (forall k, In k ks <-> of_key names_eqb k (since p) <> []) /\
                   o = flat_map (fun k => map (pair k) (lag_left null horizon deltas (of_key names_eqb k (since p)))) ks
      | Reload => o = []
      end.
Proof. exact @lag_uses. Qed.
Print Assumptions C76_lag_lead.

(** The estimators want no data and give the transformers of the theorems above. *)
Theorem C76_no_training : forall (I T : Type) (null : T) c (h mx mn : nat) (horizon : Z) (deltas : list Z) (max_items : nat),
  (exists e1 e2 e3, begin_training (window_stage (I := I) c h mx mn) (est_new (gest_new max_items true)) = (e1, Ok tt) /\ e_state e1 = Finished /\
    (forall xs, fit (window_stage (I := I) c h mx mn) e1 xs = (e1, Throw RuntimeError)) /\ on_data_completed (window_stage (I := I) c h mx mn) e1 = (e1, Ok tt) /\
    complete_training (window_stage (I := I) c h mx mn) e1 = (e2, Ok tt) /\
    create_transformer (window_stage (I := I) c h mx mn) e2 = (e3, Ok (mkGrain false [] (Some (rw_new c h mx mn))))) /\
  (exists e1 e2 e3, begin_training (lag_stage null horizon deltas) (est_new (gest_new max_items true)) = (e1, Ok tt) /\ e_state e1 = Finished /\
    (forall xs, fit (lag_stage null horizon deltas) e1 xs = (e1, Throw RuntimeError)) /\ on_data_completed (lag_stage null horizon deltas) e1 = (e1, Ok tt) /\
    complete_training (lag_stage null horizon deltas) e1 = (e2, Ok tt) /\
    create_transformer (lag_stage null horizon deltas) e2 = (e3, Ok (mkGrain false [] (Some (lag_new null horizon deltas))))).
Proof. intros. split; apply untrained. Qed.
Print Assumptions C76_no_training.

Theorem C76_parameters : forall (I : Type) c (h mx mn : nat),
  ((h = 0 \/ mx = 0 \/ mn = 0 \/ mx < mn)%nat -> rw_estimator h mx mn = Throw InvalidArgument /\ rw_new (I := I) c h mx mn = Throw InvalidArgument) /\
  ((1 <= h /\ 1 <= mn /\ mn <= mx)%nat -> rw_estimator h mx mn = Ok tt /\ (Z.of_nat (h + mx) < 2 ^ 32 -> exists r, rw_new (I := I) c h mx mn = Ok r)).
Proof. exact rw_params. Qed.
Print Assumptions C76_parameters.
Theorem C76_lag_parameters : forall (T : Type) (null : T) (horizon : Z) (deltas : list Z),
  (horizon = 0 \/ deltas = [] -> lag_estimator horizon deltas = Throw InvalidArgument /\ lag_new null horizon deltas = Throw InvalidArgument) /\
  (horizon <> 0 -> deltas <> [] -> lag_estimator horizon deltas = Ok tt).
Proof. exact lag_params. Qed.
Print Assumptions C76_lag_parameters.
(** The estimator accepts a horizon and a window size that add up to 2^32; the transformer it gives refuses every row. *)
Theorem C76_huge_windows_refuted : forall (I O : Type) (calcs : Z -> list I -> res O) (null : O) c (h mx mn : nat) k x,
  (1 <= h /\ 1 <= mn /\ mn <= mx)%nat -> Z.of_nat (h + mx) = 2 ^ 32 ->
  rw_estimator h mx mn = Ok tt /\ window_exec calcs null (mkGrain false [] (Some (rw_new c h mx mn))) (k, x) = ([], Throw InvalidArgument).
Proof. exact @huge_window. Qed.
Print Assumptions C76_huge_windows_refuted.

(** The tables of the documentation (src/Tools/CodeGenerator/Featurizers.yaml:19-43, 1446-1470): means, horizon 1, windows of at most 2 rows, and minima,
    horizon 2; two grains interleaved, with a reload and an end of the data in between.  -1 stands for the missing value. *)
Definition mean2 (w : list Z) : Z := fold_left Z.add w 0 / Z.of_nat (length w).
Definition calc2 (c : Z) (w : list Z) : res Z := Ok (if c =? 1 then mean2 w else match w with [] => 0 | x :: r => fold_left Z.min r x end).
Example C76_case :
  let A := [[65]] in let B := [[66]; []] in
  fst (row_by_row (used (window_exec calc2 (-1)) (window_flush calc2 (-1)) (reloaded (window_save (I := Z)) (window_load (I := Z))))
         (mkGrain false [] (Some (rw_new 1 1 2 1))) [Row (A, 10); Row (A, 4); Row (B, 100); Row (A, 6); Row (B, 7); Row (A, 11); Reload; Row (A, 8); Row (A, 9); Flush; Row (A, 1)])
    = [[[-1]]; [[10]]; [[-1]]; [[7]]; [[100]]; [[5]]; []; [[-1]]; [[8]]; []; [[-1]]] /\
  fst (row_by_row (used (window_exec calc2 (-1)) (window_flush calc2 (-1)) (reloaded (window_save (I := Z)) (window_load (I := Z))))
         (mkGrain false [] (Some (rw_new 2 2 2 2))) [Row (A, 10); Row (B, 1); Row (A, 4); Row (A, 6); Row (A, 11)])
    = [[[-1; -1]]; [[-1; -1]]; [[-1; -1]]; [[-1; 4]]; [[4; 4]]] /\
  fst (row_by_row (used (lag_exec (-1)) (lag_end (-1)) (reloaded (lag_grain_save (T := Z)) (lag_grain_load (-1))))
         (mkGrain false [] (Some (lag_new (-1) 1 [-1; 1]))) [Row (B, 5); Row (A, 1); Row (A, 2); Row (B, 6); Flush; Row (B, 7)])
    = [[]; []; [(A, [[-1]; [2]])]; [(B, [[-1]; [6]])]; [(A, [[1]; [-1]]); (B, [[5]; [-1]])]; []].
Proof. vm_compute. repeat split. Qed.
(** The hypotheses of the first theorem hold there. *)
Example C76_case_hypotheses :
  let us := [Row ([[65]], 10); Row ([[65]], 4); Reload; Row ([[65]], 6)] : list (use (names * Z)) in
  (forall k x, In (Row (k, x)) us -> storable k) /\ (forall w, w <> [] -> consecutive names_eqb us w -> calc2 1 w = Ok (mean2 w)).
Proof.
  split; [|reflexivity]. intros k x H. cbn [In] in H. destruct H as [H|[H|[H|[H|[]]]]]; try discriminate; injection H as <- _;
    (split; [reflexivity|]); intros s [<-|[]]; (split; [reflexivity|]); intros c [<-|[]]; lia.
Qed.
