(** Models of src/Featurizers/Components/StatisticalMetricsEstimator.h for float and double columns, of
    MeanImputerFeaturizer.h over them, and of Calculators/SumCalculator.h and MeanCalculator.h for float and double. *)
From Coq Require Import ZArith.
From Flocq Require Import Core.Core IEEE754.BinarySingleNaN.
From Verif Require Import Base M_Estimator M_Stats M_Pipeline M_Impute M_Scale.

Section FloatStats.
  Context {p e : Z} {Hp : Prec_gt_0 p} {Hm : Prec_lt_emax p e}.             (* the column's type: float or double *)
  Context {lp le : Z} {HLp : Prec_gt_0 lp} {HLm : Prec_lt_emax lp le}.      (* long double *)
  Notation F := (binary_float p e).
  Notation L := (binary_float lp le).
  (** StatisticalMetricsEstimator.h:411-424 [StandardStatsUpdater::update]: SumTypeSelector<T>::IsNumeric (lines 29-39) holds.  The
      test of line 415 comes after BasicStatsUpdater::update. *)
  Definition fstats_state : Type := stats_state (T := F) * L.
  Definition fstats_update (s : fstats_state) (x : F) : res fstats_state :=
    do b <- basic_update Bltb (fst s) x;
    let y := convert x : L in
    let sum := fadd (snd s) y in
    if Beqb sum (snd s) && negb (Beqb x fzero) then Throw RuntimeError
    else if is_inf sum then Throw RuntimeError else Ok (b, sum).
  (** What get_annotation_data gives: lines 55-80, 130-152. *)
  Record fresult := mkFR { fr_min : F; fr_max : F; fr_count : Z; fr_sum : L; fr_average : double }.
  (** numeric_limits<double>::max(). *)
  Definition double_max : double := Bmax_float.
  (** Lines 435-454, then the constructor, lines 400-408.  basics.Count is never 0: line 382-383 has thrown.  The assertions of
      lines 448-449 are left out (release builds). *)
  Definition fstats_commit (s : fstats_state) : res fresult :=
    do b <- basic_commit Bltb (fst s);
    let '(mn, mx, count) := b in
    let q := fdiv (snd s) (of_int count : L) in
    if Bltb (convert double_max : L) q then Throw RuntimeError
    else let avg := convert q : double in
         if Bltb (convert mx : double) avg || Bltb avg (convert mn : double) then Throw InvalidArgument
         else Ok (mkFR mn mx count (snd s) avg).
  (** Lines 478-501; NaN is the null value (Traits.h). *)
  Definition fstats_policy : policy fstats_state F fresult :=
    simple_policy ((None, 0%Z), fzero) (fun s x => if is_nan x then Ok s else fstats_update s x) fstats_commit.

  (** MeanImputerFeaturizer.h:68-94 with ImputerTransformer.h: null (NaN) becomes the average, the rest is converted. *)
  Definition fmean_imputer (r : fresult) : transformer F double :=
    per_value (fun x => if is_nan x then fr_average r else convert x).
End FloatStats.

Section FloatMean.
  Context {p e : Z} {Hp : Prec_gt_0 p} {Hm : Prec_lt_emax p e}.
  Notation F := (binary_float p e).
  (** SumCalculator.h:30-44 (from 0; commit adds the initial value, 0) and MeanCalculator.h:35-45: the sum as double over the count. *)
  Definition fsum_calc (l : list F) : F := fadd fzero (fold_left fadd l fzero).
  Definition fmean_calc (l : list F) : double :=
    match l with [] => fzero | _ => fdiv (convert (fsum_calc l) : double) (of_int (Z.of_nat (length l))) end.
End FloatMean.

Section FloatMedian.
  Context {p e : Z} {Hp : Prec_gt_0 p} {Hm : Prec_lt_emax p e}.
  Notation F := (binary_float p e).
  (** MedianEstimator.h:245-261: added and halved as double, then converted to the type of the median. *)
  Definition midpoint (x y : F) : F := convert (fdiv (fadd (convert x : double) (convert y)) (of_int 2)).
  (** 195-206 with 207-243: NaN is the null value. *)
  Definition fmedian_policy (interpolate : bool) : policy (median_state (T := F)) F F :=
    simple_policy ([], []) (fun s x => if is_nan x then Ok s else median_fit Bltb s x) (median_complete interpolate midpoint fzero).
  (** MedianImputerFeaturizer.h:69-78 with ImputerTransformer.h. *)
  Definition fmedian_imputer (m : F) : transformer F F := per_value (fun x => if is_nan x then m else x).
End FloatMedian.
