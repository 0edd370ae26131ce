(** Model of training the time series imputer: Featurizers/TimeSeriesImputerFeaturizer.h:23-62 (the pipeline of three estimators),
    Components/TimeSeriesFrequencyEstimator.h, Components/TimeSeriesMedianEstimator.h, the estimator of
    Components/TimeSeriesImputerTransformer.h:160-237 (its constructor: M_TsImpute [ts_estimator]), and Fit and FitBuffer of the C interface
    (SharedLibrary/SharedLibrary_TimeSeriesImputerFeaturizer.cpp:251-313).  The pipeline itself is M_Pipeline. *)
From Flocq Require Import IEEE754.BinarySingleNaN.
From Verif Require Import Base M_Archive M_Codec M_Estimator M_Stats M_Pipeline M_Keyed M_Scale M_TsImpute M_FloatText M_TsSave M_TsRows.
Open Scope Z_scope.

Section Train.
  Notation key := (list (list Z)).
  Notation text_row := (list (list Z) * (Z * list (option (list Z))))%type.        (* InputTuple, written (key, (time, cells)) *)
  Notation double := (binary_float 53 1024).
  Variable underflow : list Z -> bool.                                            (* M_FloatText *)
  Variable types : list Z.                                                        (* colsToImputeDataTypes *)
  Variable how : strategy.
  Variable suppress : bool.

  (** What a method leaves behind when it throws is not used: an exception ends the training (M_Pipeline). *)
  Definition or_else {P A} (s : P) (r : res (P * A)) : P * res A :=
    match r with Ok (s', a) => (s', Ok a) | Throw e => (s, Throw e) | UB => (s, UB) end.

  (** TimeSeriesFrequencyEstimator: 135-175, one item M_Stats [tsfreq_fit]; the annotation is the second component. *)
  Notation freq_state := ((Z * list (list (list Z) * Z)) * option Z)%type.
  Definition freq_impl : impl freq_state text_row Empty_set :=
    mkImpl (fun s => (s, Ok true))
      (fun s rows => or_else s (do p <- foldM (fun p (r : text_row) => tsfreq_fit key_eqb p (fst r, fst (snd r))) (fst s) rows; Ok ((p, snd s), FitContinue)))
      (fun s => (s, Ok true))
      (fun s => ((fst s, Some (fst (fst s))), Ok tt))
      (fun s => (s, Ok None)).

  (** TimeSeriesMedianEstimator.h:157-163: one row.  The cells are texts; M_TsImpute [med_row] is this loop on doubles. *)
  Fixpoint med_text_row (ts : list Z) (s : list (double * Z)) (row : list (option (list Z))) {struct row} : res (list (double * Z)) :=
    match row with
    | [] => Ok s
    | x :: xs =>
        match x with
        | None => match s with [] => do r <- med_text_row (tl ts) [] xs; Ok [] | e :: es => do r <- med_text_row (tl ts) es xs; Ok (e :: r) end
        | Some c =>
            match ts with
            | [] => UB
            | t :: _ =>
                if supports_median t then
                  do v <- float_from_string underflow c;
                  match s with
                  | [] => UB
                  | (a, n) :: es => do r <- med_text_row (tl ts) es xs; Ok ((fadd a v, n + 1) :: r)
                  end
                else match s with [] => do r <- med_text_row (tl ts) [] xs; Ok [] | e :: es => do r <- med_text_row (tl ts) es xs; Ok (e :: r) end
            end
        end
    end.
  (** 147-164 *)
  Definition med_text_fit (m : list (key * list (double * Z))) (x : text_row) : res (list (key * list (double * Z))) :=
    let s := match k_find key_eqb m (fst x) with Some s => s | None => repeat (fzero, 0) (length (snd (snd x))) end in
    do s' <- med_text_row types s (snd (snd x)); Ok (k_set key_eqb key_ltb m (fst x) s').
  (** 140-187; the annotation is the second component. *)
  Notation med_text_state := (list (list (list Z) * list (binary_float 53 1024 * Z)) * option (list (list (list Z) * list (binary_float 53 1024))))%type.
  Definition med_impl : impl med_text_state text_row Empty_set :=
    mkImpl (fun s => (s, Ok true))
      (fun s rows => or_else s (do p <- foldM med_text_fit (fst s) rows; Ok ((p, snd s), FitContinue)))
      (fun s => (s, Ok true))
      (fun s => or_else s (do m <- mapM (fun e => do v <- med_finish types (snd e); Ok (fst e, v)) (fst s); Ok ((fst s, Some m), tt)))
      (fun s => (s, Ok None)).

  (** Components::TimeSeriesImputerEstimator: begin_training_impl returns false (232-234), fit_impl throws (163-165),
      create_transformer_impl (170-188) reads the two annotations of column 0, here [ann]. *)
  Definition ann_settings (ann : Z * list (key * list double)) : settings :=
    mkSettings (fst ann) types how (map (fun e => (fst e, map double_bits (snd e))) (snd ann)) suppress.
  Definition imp_impl (ann : Z * list (key * list double)) : impl unit text_row settings :=
    mkImpl (fun s => (s, Ok false)) (fun s _ => (s, Throw RuntimeError)) (fun s => (s, Ok true)) (fun s => (s, Ok tt))
      (fun s => or_else s (do t <- se_construct (ann_settings ann); Ok (s, Some t))).

  (** The pipeline (TimeSeriesImputerFeaturizer.h:54-61).  The transformer of the last stage is not run during training. *)
  Definition freq_stage : pstage text_row := mkStage freq_state Empty_set freq_impl false (fun t => match t with end) (fun t => match t with end).
  Definition med_stage : pstage text_row := mkStage med_text_state Empty_set med_impl false (fun t => match t with end) (fun t => match t with end).
  Definition imp_stage (ann : Z * list (key * list double)) : pstage text_row :=
    mkStage unit settings (imp_impl ann) true (fun t _ => ([], Ok t)) (fun t => ([], Ok t)).
  Definition ts_chain (ann : Z * list (key * list double)) : list (elem text_row) :=
    [el_new freq_stage ((i64_max, []), None); el_new med_stage ([], None); el_new (imp_stage ann) tt].

  (** Fit (251-273) and FitBuffer (275-313): the rows are converted first.  (In the code also before the estimator is asked whether it is in
      training and whether there are rows.) *)
  Variable places : nat.
  Variable duration_text : Z -> list Z.
  Variable m : memory.                                                            (* only the key and data types *)
  Definition api_impl : impl (list (elem text_row)) (list Z) (list (elem text_row)) :=
    mkImpl (i_begin pipeline_impl)
      (fun c data => match mapM (load_row places duration_text m) data with
                     | Ok rows => i_fit pipeline_impl c rows
                     | Throw e => (c, Throw e)
                     | UB => (c, UB)
                     end)
      (i_on_data pipeline_impl) (i_complete pipeline_impl) (i_create pipeline_impl).
End Train.
