(** Models of the imputers in src/Featurizers.  The nullable input type is [option T]: [None] is what Traits::IsNull
    accepts (an empty optional, or NaN for the floating point types, whose other values are the [Some]s). *)
From Verif Require Import Base M_Estimator M_Stats M_Pipeline.

(** ForwardFillImputerFeaturizer.h:76-79 (the fields; the const _defaultValue is only used by [save]), 88-115 [execute_impl],
    158-163 (a default value is the initial last value); [flush_impl] is the empty one of StandardTransformer (Featurizer.h:605-610). *)
Definition ffill_exec {T} (last : option T) (x : option T) : list T * res (option T) :=
  match x with
  | None => match last with
            | None => ([], Throw RuntimeError)
            | Some v => ([v], Ok last)
            end
  | Some v => ([v], Ok (Some v))
  end.
Definition ffill {T} (default : option T) : transformer (option T) T :=
  mkTr (option T) default ffill_exec (fun s => ([], Ok s)).

(** 219-229 [save] writes the default value only (KForwardFill in M_Save), and 165-189 constructs from it: the transformer
    that comes back after saving in the middle of a stream. *)
Definition ffill_reloaded {T} (default last : option T) : transformer (option T) T := ffill default.

(** BackwardFillImputerFeaturizer.h:76-78 (fields), 87-104 [execute_impl], 106-128 [flush_impl].  _numPending and toWrite are
    uint32_t. *)
Definition bfill_exec {T} (pending : Z) (x : option T) : list T * res Z :=
  match x with
  | None => ([], Ok (u32 (pending + 1)))
  | Some v => (repeat v (Z.to_nat (u32 (pending + 1))), Ok 0)
  end.
Definition bfill_flush {T} (default : option T) (pending : Z) : list T * res Z :=
  if pending =? 0 then ([], Ok pending)
  else match default with
       | None => ([], Throw RuntimeError)
       | Some d => (repeat d (Z.to_nat pending), Ok 0)
       end.
Definition bfill {T} (default : option T) : transformer (option T) T :=
  mkTr Z 0 bfill_exec (bfill_flush default).

(** 182-206, 219-229: likewise. *)
Definition bfill_reloaded {T} (default : option T) (pending : Z) : transformer (option T) T := bfill default.

(** A transformer without state: StandardTransformer whose [execute_impl] calls the callback once. *)
Definition per_value {A B} (f : A -> B) : transformer A B :=
  mkTr unit tt (fun s x => ([f x], Ok s)) (fun s => ([], Ok s)).

(** ImputerTransformer.h:134-144 and CatImputerFeaturizer.h:224-234; [cast] is static_cast<TransformedT>. *)
Definition imputer {I T} (cast : I -> T) (value : T) : transformer (option I) T :=
  per_value (fun x => match x with None => value | Some v => cast v end).
(** ImputationMarkerFeaturizer.h:48-51. *)
Definition imputation_marker {T} : transformer (option T) bool :=
  per_value (fun x => match x with None => true | Some _ => false end).
(** MissingDummiesFeaturizer.h:63-65. *)
Definition missing_dummies {T} : transformer (option T) Z :=
  per_value (fun x => match x with None => 1 | Some _ => 0 end).

(** The statistic becomes the imputer's value: ModeImputerFeaturizer.h:70-93 and CatImputerFeaturizer.h:117-129 (whose
    GetNullableValue throws for null, Traits.h:1517-1528). *)
Definition mode_imputer {T} (mode : option T) : res (transformer (option T) T) :=
  match mode with None => Throw RuntimeError | Some v => Ok (imputer (fun x => x) v) end.
Definition cat_imputer {T} (mode : option T) : res (transformer (option T) T) :=
  match mode with None => Throw RuntimeError | Some v => Ok (imputer (fun x => x) v) end.
(** ModeEstimator.h:164-186 on a nullable type. *)
Definition not_null {T} (x : option T) : bool := match x with Some _ => true | None => false end.
(** MedianImputerFeaturizer.h:69-78. *)
Definition median_imputer {I T} (cast : I -> T) (median : T) : transformer (option I) T := imputer cast median.
(** MinMaxImputerFeaturizer.h:69-93, with the statistics of StatisticalMetricsEstimator (min, max, count, ...); their type
    is the non-nullable one, so the null test never holds. *)
Definition min_max_imputer {T} (use_min : bool) (mn mx : T) : transformer (option T) T :=
  imputer (fun x => x) (if use_min then mn else mx).
(** MeanImputerFeaturizer.h:68-94 for integer inputs; [average sum count] is StatisticalMetricsEstimator.h:447,
    [to_double] the conversion of the input type. *)
Definition mean_imputer {D} (to_double : Z -> D) (average : Z -> Z -> D) (sum count : Z) : transformer (option Z) D :=
  imputer to_double (average sum count).
