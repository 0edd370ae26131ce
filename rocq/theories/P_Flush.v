(** C90: flushing.  [reached t x]: some calls of execute and flush, none of which threw, bring the transformer [t] to [x] (S_Flush);
    [same_behaviour]: whatever is called from now on, both deliver the same and throw the same (S_CompareTr). *)
From Verif Require Import Base M_Pipeline M_Impute M_Window M_Keyed S_Keyed M_Grain S_Grain M_TsImpute M_TsSave M_Filter L_Keyed S_Order S_CompareTr L_CompareTr S_Flush L_Flush L_Flush2 M_GrainWindow L_Flush3.

(** A pipeline whose transformers are reset by a flush is reset by a flush: no row before it has an influence on what is delivered after it. *)
Theorem C90_pipelines : forall A B (c : chain A B), each_stage (@resets) c -> resets (compile c).
Proof. exact @pipeline_resets. Qed.
Print Assumptions C90_pipelines.
(** In terms of rows: after the flush it delivers what a new one delivers. *)
Theorem C90_rows : forall A B (t : transformer A B), resets t -> forall x o y, reached t x -> t_flush t x = (o, Ok y) ->
  forall rows, delivered (at_state t y) rows = delivered t rows.
Proof. exact (fun A B t H x o y I E => same_delivered _ _ (H x o y I E)). Qed.
Print Assumptions C90_rows.
(** Two transformers that do the same when new do the same after a flush, whatever was done with either before. *)
Theorem C90_alike : forall A B (t t' : transformer A B), same_behaviour t t' -> resets t -> resets t' -> forall x o y x' o' y',
  reached t x -> t_flush t x = (o, Ok y) -> reached t' x' -> t_flush t' x' = (o', Ok y') -> same_behaviour (at_state t y) (at_state t' y').
Proof. exact @equal_again. Qed.
Print Assumptions C90_alike.

(** Transformers without a state, backward fill, rolling windows, lags and leads, the time series imputer, filters. *)
Theorem C90_stateless : forall A B (exec : unit -> A -> list B * res unit) flush, resets (mkTr unit tt exec flush).
Proof. exact @stateless_resets. Qed.
Print Assumptions C90_stateless.
Theorem C90_backward_fill : forall T (default : option T), resets (bfill default).
Proof. exact @bfill_resets. Qed.
Print Assumptions C90_backward_fill.
Theorem C90_rolling_windows : forall I O (calc : list I -> res O) (null : O) horizon mx mn t, rolling_window calc null horizon mx mn = Ok t -> resets t.
Proof. exact @rolling_resets. Qed.
Print Assumptions C90_rolling_windows.
Theorem C90_lags : forall T (null : T) horizon deltas t, lag_lead null horizon deltas = Ok t -> resets t.
Proof. exact @lag_resets. Qed.
Print Assumptions C90_lags.
Theorem C90_time_series_imputer : forall settings, resets (ts_machine settings).
Proof. exact (fun s => ts_resets key_eqb key_ltb (config_of s)). Qed.
Print Assumptions C90_time_series_imputer.
Theorem C90_filters : forall V indexes (d : V) (t : transformer (list V) (list V)), resets t -> resets (filter_tr indexes d t).
Proof. exact @filter_resets. Qed.
Print Assumptions C90_filters.
(** Grained transformers: those of the grains must be reset by a flush, and one that is created on demand delivers nothing when it is flushed at
    once.  (A grain that was seen before the flush has a transformer after it, a new grain has none: this makes no difference.) *)
Theorem C90_grains : forall K S A B (keqb klt : K -> K -> bool), key_order keqb klt -> forall (exec : S -> A -> list B * res S) (flush : S -> list B * res S) (g : grain K S),
  map_ordered klt (g_map g) -> (forall k s, In (k, s) (g_map g) -> resets (mkTr S s exec flush)) ->
  (forall s, g_create g = Some (Ok s) -> resets (mkTr S s exec flush) /\ quiet (mkTr S s exec flush)) -> resets (grain_tr keqb klt exec flush g).
Proof. exact @grain_resets. Qed.
Print Assumptions C90_grains.

(** So the transformers of grained rolling windows and of grained lags and leads. *)
Theorem C90_windows_of_grains : forall I O (calcs : Z -> list I -> res O) (null : O) c h mx mn,
  resets (window_tr calcs null (mkGrain false [] (Some (rw_new c h mx mn)))).
Proof. exact @windows_reset. Qed.
Print Assumptions C90_windows_of_grains.
Theorem C90_lags_of_grains : forall T (null : T) horizon deltas, 1 <= horizon -> deltas <> [] -> horizon + Z.max 0 (- zmin deltas) + Z.max 0 (zmax deltas) < 2 ^ 32 ->
  resets (lag_tr null (mkGrain false [] (Some (lag_new null horizon deltas)))).
Proof. exact @lags_reset. Qed.
Print Assumptions C90_lags_of_grains.

(** Not promised, and shown: forward fill keeps the last value, so rows after a flush may be filled with one from before it. *)
Theorem C90_forward_fill_refuted : ~ (forall T (default : option T), resets (ffill default)).
Proof. exact ffill_not. Qed.
Print Assumptions C90_forward_fill_refuted.

(** Examples: a pipeline of backward fill and lags meets the hypotheses; after two rows and a flush it is in another state than ... *)
Example C90_pipeline_case : forall t, lag_lead 0 1 [-1; 1] = Ok t -> resets (compile (InnerTr (bfill (Some 5)) (TerminalTr t))).
Proof. intros t E. apply C90_pipelines. split; [exact (C90_backward_fill Z (Some 5))|exact (C90_lags Z 0 1 [-1; 1] t E)]. Qed.
(** ... before the flush, and the rows that come then get what they get from a new one: nothing of 10 and 20. *)
Example C90_lag_case : exists t, lag_lead 0 1 [-1; 1] = Ok t /\ quiet t /\ delivered t [10; 20] = ([[[0]; [20]]; [[10]; [0]]], Ok tt) /\ delivered t [7; 8] = ([[[0]; [8]]; [[7]; [0]]], Ok tt) /\
  (do x <- snd (feed (t_exec t) (t_cur t) [10; 20]); do y <- snd (t_flush t x); Ok (delivered (at_state t y) [7; 8])) = Ok (delivered t [7; 8]) /\
  (do x <- snd (feed (t_exec t) (t_cur t) [10; 20]); Ok (delivered (at_state t x) [7; 8])) <> Ok (delivered t [7; 8]).
Proof.
  eexists. split; [vm_compute; reflexivity|]. split; [eexists; vm_compute; reflexivity|]. split; [vm_compute; reflexivity|]. split; [vm_compute; reflexivity|].
  split; [vm_compute; reflexivity|vm_compute; discriminate].
Qed.
