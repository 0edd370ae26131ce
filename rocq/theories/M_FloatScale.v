(** Models of the training of StandardScaleWrapperFeaturizer.h (Components/StatisticalMetricsEstimator.h, then
    Components/StandardDeviationEstimator.h, then the scaler) and of VectorNormsEstimator.h over rows of float and double. *)
From Coq Require Import ZArith.
From Flocq Require Import Core.Core IEEE754.BinarySingleNaN.
From Verif Require Import Base M_Estimator M_Stats M_Pipeline M_Impute M_Scale M_FloatStats.

Section Deviation.
  Context {lp le : Z} {HLp : Prec_gt_0 lp} {HLm : Prec_lt_emax lp le}.      (* long double *)
  Notation L := (binary_float lp le).
  (** Components/NormUpdaters.h:262-318 [L2NormUpdater<double>]: the sum of squares so far, and whether there was an input.
      [std::pow(x, 2)] is taken to be x * x rounded. *)
  Definition l2_update (s : L * bool) (d : double) : res (L * bool) :=
    if is_nan d then Ok s
    else let x := Babs (convert d : L) in do n <- add_checked (fst s) (fmul x x); Ok (n, true).
  Definition l2_commit (s : L * bool) : res L := if snd s then Ok (fsqrt (fst s)) else Throw RuntimeError.
  (** Components/StandardDeviationEstimator.h:241-268.  [avg] is the average of the annotation (205-218); the state is that of
      the updater with the count. *)
  Definition dev_state : Type := (L * bool) * Z.
  Definition dev_fit {I} (t : numty 53 1024 I) (avg : double) (s : dev_state) (x : I) : res dev_state :=
    if n_null t x then Ok s
    else do u <- l2_update (fst s) (fsub (n_cv t x) avg);
         if (snd s =? 18446744073709551615)%Z then Throw RuntimeError else Ok (u, (snd s + 1)%Z).
  (** 225-236, 172-181: the annotation's deviation, a long double.  The assertion of line 234 is left out (release builds). *)
  Definition dev_commit (s : dev_state) : res L :=
    do n <- l2_commit (fst s);
    if (snd s =? 0)%Z then Throw RuntimeError
    else let d := fdiv n (fsqrt (of_int (snd s))) in
         if Bltb d fzero then Throw InvalidArgument else Ok d.
  (** 198-203, 220-223. *)
  Definition dev_policy {I} (t : numty 53 1024 I) (avg : double) : policy dev_state I L :=
    simple_policy ((fzero, false), 0%Z) (dev_fit t avg) dev_commit.

  (** StandardScaleWrapperFeaturizer.h:163-196, 125-153: the three stages of the pipeline on the same batches (C16), whatever
      [with_mean] and [with_std]; [stats] trains the first and gives its average. *)
  Definition standard_trained {I} (t : numty 53 1024 I) (stats : nat -> list (list I) -> res (option double)) (with_mean with_std : bool)
    (mx : nat) (bs : list (list I)) : res (option (double * double)) :=
    do a <- stats mx bs;
    match a with
    | None => Ok None
    | Some avg =>
      do d <- trained (dev_policy t avg) mx bs;
      match d with
      | None => Ok None
      | Some dev => do s <- standard_create with_mean with_std avg (convert dev : double); Ok (Some s)
      end
    end.
End Deviation.

(** The average of an integer column: StatisticalMetricsEstimator.h:435-454 and the check of 400-408. *)
Definition int_average {lp le : Z} {HLp : Prec_gt_0 lp} {HLm : Prec_lt_emax lp le} (mx : nat) (bs : list (list Z)) : res (option double) :=
  do r <- trained std_stats_policy mx (map (map Some) bs);
  match r with
  | None => Ok None
  | Some (mn, mxv, count, sum) =>
    let avg := average (lp := lp) (le := le) sum count in if average_accepted avg mn mxv then Ok (Some avg) else Throw InvalidArgument
  end.

Section FloatRows.
  Context {p e : Z} {Hp : Prec_gt_0 p} {Hm : Prec_lt_emax p e}.             (* the type of the cells: float or double *)
  Context {lp le : Z} {HLp : Prec_gt_0 lp} {HLm : Prec_lt_emax lp le}.      (* long double *)
  Notation F := (binary_float p e).
  Notation L := (binary_float lp le).
  (** The average of a float or double column (StatisticalMetricsEstimator.h). *)
  Definition float_average (mx : nat) (bs : list (list F)) : res (option double) :=
    do r <- trained (fstats_policy (lp := lp) (le := le)) mx bs; Ok (option_map fr_average r).
  (** VectorNormsEstimator.h:150-167 with NormUpdaters.h: NaN cells are null, the others are converted to long double; the norm
      as double. *)
  Definition float_cells (row : list F) : list (option L) := map (fun x => if is_nan x then None else Some (convert x : L)) row.
  Definition float_norm (norm : list (option L) -> res L) (row : list F) : res double := do n <- norm (float_cells row); Ok (convert n).
  (** Base/NormalizeFeaturizer.h:292-318 on such a row. *)
  Definition float_normalized (norm : double) (row : list F) : list double := normalize_row (fun x : L => x) norm (float_cells row).
End FloatRows.
(** The input types of the scaler: float and double (NaN is null). *)
Definition double_column : numty 53 1024 double := same_ty.
Definition float_column : numty 53 1024 float32 := float_to_double.
