(** The library's featurizers as chains of estimators with shared annotations (M_Featurizer): which annotations they learn, which ones they
    derive, and what they make their transformer of.  Features of the types are passed as parameters (equality, order, conversions). *)
From Coq Require Import String Ascii.
From Flocq Require Import Core.Core IEEE754.BinarySingleNaN.
From Verif Require Import Base M_Archive M_Estimator M_Stats M_Encoders M_Impute M_Scale M_FloatStats M_FloatScale M_Pipeline M_Featurizer.
Local Open Scope list_scope.

Definition ascii_name (s : string) : name := map (fun c => Z.of_nat (nat_of_ascii c)) (list_ascii_of_string s).
(** The names of the estimators: HistogramEstimator.h:16, IndexMapEstimator.h:16, OrderEstimator.h:16, ModeEstimator.h:15,
    StatisticalMetricsEstimator.h:17, MinMaxEstimator.h:18, MedianEstimator.h:16, MaxAbsValueEstimator.h:14, StandardDeviationEstimator.h:24. *)
Definition histogram_name := ascii_name "HistogramEstimator".
Definition index_name := ascii_name "IndexMapEstimator".
Definition order_name := ascii_name "OrderEstimator".
Definition mode_name := ascii_name "ModeEstimator".
Definition stats_name := ascii_name "StatisticalMetricsEstimator".
Definition minmax_name := ascii_name "MinMaxEstimator".
Definition median_name := ascii_name "MedianEstimator".
Definition maxabs_name := ascii_name "MaxAbsValueEstimator".
Definition deviation_name := ascii_name "StandardDeviationEstimator".

(** The annotations: [T] the type of the column, [U] its type without null, [F] the type of other statistics
    (averages are doubles). *)
Inductive fnote (T U F : Type) :=
| NHist (h : list (T * Z)) | NIndex (m : list (T * Z)) | NOrder (o : list (T * Z)) | NMode (v : T)
| NStats (mn mx : U) (count : Z) (average : double) | NMinMax (mn mx : U) | NMedian (m : F) | NMaxAbs (m : F) | NDeviation (d : F).
Arguments NHist {T U F}. Arguments NIndex {T U F}. Arguments NOrder {T U F}. Arguments NMode {T U F}. Arguments NStats {T U F}.
Arguments NMinMax {T U F}. Arguments NMedian {T U F}. Arguments NMaxAbs {T U F}. Arguments NDeviation {T U F}.

Section Recipes.
  Context {T U F : Type}.
  Notation ann := (fnote T U F).
  Notation store := (ann_maps ann).
  (** [dynamic_cast] to the annotation type of an estimator. *)
  Definition as_hist (n : ann) : option (list (T * Z)) := match n with NHist h => Some h | _ => None end.
  Definition as_index (n : ann) : option (list (T * Z)) := match n with NIndex m => Some m | _ => None end.
  Definition as_order (n : ann) : option (list (T * Z)) := match n with NOrder o => Some o | _ => None end.
  Definition as_mode (n : ann) : option T := match n with NMode v => Some v | _ => None end.
  Definition as_stats (n : ann) : option (U * U * Z * double) := match n with NStats a b c d => Some (a, b, c, d) | _ => None end.
  Definition as_minmax (n : ann) : option (U * U) := match n with NMinMax a b => Some (a, b) | _ => None end.
  Definition as_median (n : ann) : option F := match n with NMedian m => Some m | _ => None end.
  Definition as_maxabs (n : ann) : option F := match n with NMaxAbs m => Some m | _ => None end.
  Definition as_deviation (n : ann) : option F := match n with NDeviation d => Some d | _ => None end.
  Definition is_kind {X} (pick : ann -> option X) (n : ann) : bool := match pick n with Some _ => true | None => false end.
  (** TrainingOnlyEstimatorImpl.h:304-320 [get_annotation_data]: throws if there is none. *)
  Definition read {X} (pick : ann -> option X) (col : nat) (nm : name) (a : store) : res X :=
    do n <- get_annotation_data (is_kind pick) a col nm;
    match pick n with Some x => Ok x | None => UB end.

  Section Steps.
    Context {V Tr : Type}.
    (** An estimator that learns from the data and reads nothing. *)
    Definition learn {P A X} (nm : name) (pick : ann -> option X) (tag : A -> res ann) (mx : nat) (pol : policy P V A) : fstep V ann Tr :=
      Note true nm (is_kind pick) mx
        (mkSP (p_init pol) (fun _ => p_begin pol) (p_fit pol) (fun _ p => do x <- p_complete pol p; tag x)).
    (** One constructed with requiresTraining = false: IndexMapEstimator.h:207-210, ModeEstimator.h:152-154. *)
    Definition derive {X} (nm : name) (pick : ann -> option X) (f : store -> res ann) : fstep V ann Tr :=
      Note false nm (is_kind pick) 1 (mkSP tt (fun _ s => Ok (s, true)) (fun _ _ => Throw RuntimeError) (fun a _ => f a)).
  End Steps.

  Variables (eqb ltb : T -> T -> bool).
  (** The order in which an unordered_map is iterated. *)
  Variable order : list (T * Z) -> list (T * Z).
  Variable col : nat.

  (** ** Encoders. *)
  Section Encoders.
    Context {Tr : Type}.
    (** HistogramEstimator, IndexMapEstimator: LabelEncoderFeaturizer.h:156-160, OneHotEncoderFeaturizer.h:164-168,
        NumericalizeFeaturizer.h:145-149; the map is made at IndexMapEstimator.h:235-246. *)
    Definition index_steps (mx : nat) (existing : list (T * Z)) : list (fstep T ann Tr) :=
      [learn histogram_name as_hist (fun h => Ok (NHist h)) mx (hist_policy eqb);
       derive index_name as_index (fun a => do h <- read as_hist col histogram_name a; Ok (NIndex (create_index_map eqb ltb (order h) existing)))].
  End Encoders.
  (** LabelEncoderFeaturizer.h:133-142. *)
  Definition label_recipe (mx : nat) (existing : list (T * Z)) (missing : bool) : list (fstep T ann (encoder (T := T))) :=
    index_steps mx existing ++ [Make (fun a => do m <- read as_index col index_name a; label_make m missing)].
  (** OneHotEncoderFeaturizer.h:141-150. *)
  Definition onehot_recipe (mx : nat) (existing : list (T * Z)) (missing : bool) : list (fstep T ann (encoder (T := T))) :=
    index_steps mx existing ++ [Make (fun a => do m <- read as_index col index_name a; onehot_make m missing)].
  (** NumericalizeFeaturizer.h:122-131. *)
  Definition numericalize_recipe (mx : nat) : list (fstep T ann (list (T * Z))) :=
    index_steps mx [] ++ [Make (read as_index col index_name)].

  (** ** Most frequent value: Histogram, Order, Mode (ModeImputerFeaturizer.h:111-115, CatImputerFeaturizer.h:143-148); the mode is made at
      ModeEstimator.h:187-240.  [supported] and [finish] as in M_Stats.mode_complete and M_Impute. *)
  Definition mode_recipe {Tr} (supported : T -> bool) (finish : T -> res Tr) (mx : nat) : list (fstep T ann Tr) :=
    [learn histogram_name as_hist (fun h => Ok (NHist h)) mx (hist_policy eqb);
     learn order_name as_order (fun o => Ok (NOrder o)) mx (order_policy eqb []);
     derive mode_name as_mode (fun a => do h <- read as_hist col histogram_name a; do o <- read as_order col order_name a;
                                        do v <- mode_complete eqb supported (order h) o; Ok (NMode v));
     Make (fun a => do v <- read as_mode col mode_name a; finish v)].
End Recipes.

(** ** Statistics of one column.
    A policy that converts what it is given. *)
Definition via {P V W A} (f : V -> W) (pol : policy P W A) : policy P V A :=
  mkPolicy (p_init pol) (p_begin pol) (fun p x => p_fit pol p (f x)) (p_complete pol).
(** NaN is the null value of floating point types (Traits.h:697-699, 775-777). *)
Definition as_null {p e} (x : binary_float p e) : option (binary_float p e) := if is_nan x then None else Some x.
Section Numbers.
  Context {T U F : Type}.
  Notation ann := (fnote T U F).
  Variable col : nat.
  (** MinMaxImputerFeaturizer.h:108-122 and 69-93, for the types whose statistics are minimum, maximum and count
      (no average). *)
  Definition min_max_recipe (ltb : U -> U -> bool) (use_min : bool) (mx : nat) : list (fstep (option U) ann (transformer (option U) U)) :=
    [learn stats_name as_stats (fun s => Ok (NStats (fst (fst s)) (snd (fst s)) (snd s) fzero)) mx (basic_stats_policy ltb);
     Make (fun a => do s <- read as_stats col stats_name a; Ok (min_max_imputer use_min (fst (fst (fst s))) (snd (fst (fst s)))))].
  (** MedianImputerFeaturizer.h:105-122 and 69-78; MedianEstimator.h:207-222 converts to the transformed type first.  The columns of
      float and double have [I] = [F] and nulls for NaN. *)
  Definition median_recipe {I} (cast : I -> F) (ltb : F -> F -> bool) (interpolate : bool) (avg : F -> F -> F) (zero : F) (mx : nat)
    : list (fstep (option I) ann (transformer (option I) F)) :=
    [learn median_name as_median (fun m => Ok (NMedian m)) mx (via (option_map cast) (median_policy ltb interpolate avg zero));
     Make (fun a => do m <- read as_median col median_name a; Ok (median_imputer cast m))].
End Numbers.

(** Means and scalers; [lp], [le]: long double. *)
Section Scalers.
  Context {lp le : Z} {HLp : Prec_gt_0 lp} {HLm : Prec_lt_emax lp le}.
  Notation L := (binary_float lp le).
  Variable col : nat.
  (** StatisticalMetricsEstimator for integers, with the average and the check of the result: StatisticalMetricsEstimator.h:400-408, 435-454. *)
  Definition with_average {T F} (r : Z * Z * Z * Z) : res (fnote T Z F) :=
    let mn := fst (fst (fst r)) in let mx := snd (fst (fst r)) in let count := snd (fst r) in let sum := snd r in
    let avg := average (lp := lp) (le := le) sum count in
    if average_accepted avg mn mx then Ok (NStats mn mx count avg) else Throw InvalidArgument.
  (** The same for float and double: the checks are those of M_FloatStats.fstats_commit. *)
  Definition float_stats {p e : Z} {T F} (r : fresult (p := p) (e := e) (lp := lp) (le := le)) : res (fnote T (binary_float p e) F) :=
    Ok (NStats (fr_min r) (fr_max r) (fr_count r) (fr_average r)).
  (** MeanImputerFeaturizer.h:109-125 and 68-94: integers, then float and double. *)
  Definition mean_recipe (mx : nat) : list (fstep (option Z) (fnote (option Z) Z double) (transformer (option Z) double)) :=
    [learn stats_name as_stats with_average mx std_stats_policy;
     Make (fun a => do s <- read as_stats col stats_name a; Ok (imputer (of_int : Z -> double) (snd s)))].
  Definition float_mean_recipe {p e : Z} {Hp : Prec_gt_0 p} {Hm : Prec_lt_emax p e} (mx : nat)
    : list (fstep (binary_float p e) (fnote (binary_float p e) (binary_float p e) double) (transformer (binary_float p e) double)) :=
    [learn stats_name as_stats float_stats mx (fstats_policy (lp := lp) (le := le));
     Make (fun a => do s <- read as_stats col stats_name a; Ok (per_value (fun x => if is_nan x then snd s else convert x)))].
  (** StandardDeviationEstimator.h:198-268: the average is read when training begins. *)
  Definition deviation_step {I U Tr} (t : numty 53 1024 I) (mx : nat) : fstep I (fnote I U L) Tr :=
    Note true deviation_name (is_kind as_deviation) mx
      (mkSP (fzero, ((fzero, false), 0) : dev_state (lp := lp) (le := le))
         (fun a s => do st <- read as_stats col stats_name a; Ok ((snd st, snd s), true))
         (fun s x => do d <- dev_fit t (fst s) (snd s) x; Ok (fst s, d))
         (fun _ s => do d <- dev_commit (snd s); Ok (NDeviation d))).
  (** StandardScaleWrapperFeaturizer.h:169-185 and 118-153: an annotation is only read if it is used. *)
  Definition standard_recipe {I U P A} (t : numty 53 1024 I) (stats : policy P I A) (tag : A -> res (fnote I U L)) (mx : nat) (with_mean with_std : bool)
    : list (fstep I (fnote I U L) (double * double)) :=
    [learn stats_name as_stats tag mx stats; deviation_step t mx;
     Make (fun a => do avg <- (if with_mean then do s <- read as_stats col stats_name a; Ok (snd s) else Ok fzero);
                    do d <- (if with_std then do d <- read as_deviation col deviation_name a; Ok (convert d) else Ok (of_int 1));
                    standard_create with_mean with_std avg d)].
  (** RobustScalerFeaturizer.h:171-186 and 114-155: integers of [w] bytes; then float and double, where the range is multiplied in the type of
      the column. *)
  Section Robust.
    Context {prec emax : Z} {Hp : Prec_gt_0 prec} {Hm : Prec_lt_emax prec emax}.
    Notation F := (binary_float prec emax).
    Definition robust_recipe (signed : bool) (w : nat) (mx : nat) (with_centering : bool) (q : float32 * float32)
      : list (fstep Z (fnote Z Z F) (F * F)) :=
      [learn median_name as_median (fun m => Ok (NMedian m)) mx (via (fun x => Some (of_int x)) (median_policy Bltb true midpoint fzero));
       learn stats_name as_stats with_average mx (via Some std_stats_policy);
       Make (fun a => do m <- (if with_centering then read as_median col median_name a else Ok fzero);
                      if is_nan (fst q) then Ok (m, of_int 1)
                      else do s <- read as_stats col stats_name a;
                           robust_create signed w with_centering q m (fst (fst (fst s))) (snd (fst (fst s))))].
    Definition robust_float_create (with_centering : bool) (q : float32 * float32) (median mn mx : F) : F * F :=
      let centre := if with_centering then median else fzero in
      if is_nan (fst q) then (centre, of_int 1)
      else (centre, fmul (fsub mx mn) (convert (fdiv (fsub (snd q) (fst q)) (of_int 100)))).
    Definition robust_float_recipe (mx : nat) (with_centering : bool) (q : float32 * float32) : list (fstep F (fnote F F F) (F * F)) :=
      [learn median_name as_median (fun m => Ok (NMedian m)) mx (via as_null (median_policy Bltb true midpoint fzero));
       learn stats_name as_stats float_stats mx (fstats_policy (lp := lp) (le := le));
       Make (fun a => do m <- (if with_centering then read as_median col median_name a else Ok fzero);
                      if is_nan (fst q) then Ok (robust_float_create with_centering q m fzero fzero)
                      else do s <- read as_stats col stats_name a;
                           Ok (robust_float_create with_centering q m (fst (fst (fst s))) (snd (fst (fst s)))))].
  End Robust.
End Scalers.

(** ** Scalers of floating point and integer columns. *)
Section Scalers2.
  Context {prec emax : Z} {Hp : Prec_gt_0 prec} {Hm : Prec_lt_emax prec emax}.
  Notation F := (binary_float prec emax).
  Variable col : nat.
  (** MaxAbsScalerFeaturizer.h:143-156 and 118-134; [pol] is [ma_policy] for floating point columns, [maxabs_policy] for integer ones. *)
  Definition max_abs_recipe {P I} (pol : policy P I F) (mx : nat) : list (fstep I (fnote I I F) F) :=
    [learn maxabs_name as_maxabs (fun m => Ok (NMaxAbs m)) mx pol; Make (read as_maxabs col maxabs_name)].
  (** MinMaxScalerFeaturizer.h:146-160 and 122-132. *)
  Definition min_max_scaler_recipe {I} (t : numty prec emax I) (lo hi : I) (mx : nat) : list (fstep I (fnote I I F) (I * I)) :=
    [learn minmax_name as_minmax (fun s => Ok (NMinMax (fst s) (snd s))) mx (minmax_policy (n_lt t) lo hi);
     Make (fun a => do s <- read as_minmax col minmax_name a; mm_new t (fst s) (snd s))].
End Scalers2.
