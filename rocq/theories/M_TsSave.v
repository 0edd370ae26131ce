(** Model of saving and loading the time series imputer: Components/TimeSeriesImputerTransformer.h:240-360 and the memory of the C
    interface, SharedLibrary/SharedLibrary_TimeSeriesImputerFeaturizer.cpp:655-698 and 1088-1110.
    The pipeline around the transformer writes nothing of its own (PipelineExecutionEstimatorImpl.h:264-266, M_Pipeline [p_save]). *)
From Flocq Require Import IEEE754.BinarySingleNaN IEEE754.Binary IEEE754.Bits.
From Verif Require Import Base M_Archive M_Codec M_Save M_Stats M_Pipeline M_TsImpute M_FloatText.
Open Scope Z_scope.

(** TypeId and IsValid, Traits.h:94-160: String = 1 to Duration = 18, then Tensor, SparseTensor, Tabular, Nullable, Vector and Map.
    LastStaticValue (19) is not valid. *)
Definition valid_type (id : Z) : bool :=
  ((1 <=? id) && (id <=? 18)) || existsb (Z.eqb id) [268501012; 268501013; 268501014; 268501015; 268501016; 268566553].
(** TimeSeriesImputerTransformer.h:19-33. *)
Definition strategy_code (s : strategy) : Z := match s with Forward => 1 | Backward => 2 | Median => 3 | Interpolate => 4 end.
Definition strategy_of (c : Z) : option strategy :=
  if c =? 1 then Some Forward else if c =? 2 then Some Backward else if c =? 3 then Some Median else if c =? 4 then Some Interpolate else None.

(** 97-101: the members that the constructor sets.  _medianValues is a std::map in key order, doubles are bit patterns. *)
Record settings := mkSettings {
  se_freq : Z;                                             (* ticks *)
  se_types : list Z;
  se_strategy : strategy;
  se_medians : list (list (list Z) * list Z);
  se_suppress : bool
}.
(** 244-255 *)
Definition se_construct (s : settings) : res settings :=
  match se_types s with
  | [] => Throw RuntimeError
  | _ => if se_freq s =? i64_max then Throw RuntimeError else Ok s
  end.

(** std::map<std::vector<std::string>, std::vector<double>> as a value, and back. *)
Definition medians_ty : ty := TMap (TVector TString) (TVector (TFloat 8)).
Definition medians_val (m : list (list (list Z) * list Z)) : val :=
  VMap (map (fun e => (VList (map VStr (fst e)), VList (map VFloat (snd e)))) m).
Definition as_list (v : val) : list val := match v with VList l => l | _ => [] end.
Definition as_int (v : val) : Z := match v with VInt z => z | _ => 0 end.
Definition as_str (v : val) : list Z := match v with VStr s => s | _ => [] end.
Definition as_float (v : val) : Z := match v with VFloat b => b | _ => 0 end.
Definition as_bool (v : val) : bool := match v with VBool b => b | _ => false end.
Definition medians_of (v : val) : list (list (list Z) * list Z) :=
  match v with VMap l => map (fun e => (map as_str (as_list (fst e)), map as_float (as_list (snd e)))) l | _ => [] end.
Definition ids_ty : ty := TVector (TUInt 4).
Definition ids_val (l : list Z) : val := VList (map VInt l).
Definition ids_of (v : val) : list Z := map as_int (as_list v).

Section Save.
  Variable p : Z.                                          (* clock ticks per microsecond *)
  (** 329-360; _lastRowtracker and _buffer are not written. *)
  Definition ts_save (s : settings) : list Z :=
    le_bytes 2 1 ++ le_bytes 2 0 ++ enc_sysdur p (se_freq s) ++ enc ids_ty (ids_val (se_types s)) ++
    enc (TUInt 1) (VInt (strategy_code (se_strategy s))) ++ enc medians_ty (medians_val (se_medians s)) ++ enc TBool (VBool (se_suppress s)).
  (** 259-318 *)
  Definition ts_load : parser settings := fun bs =>
    do h <- read_version bs;
    do freq <- dec_sysdur p (snd h);
    do types <- dec ids_ty (snd freq);
    if negb (forallb valid_type (ids_of (fst types))) then Throw RuntimeError else
    do code <- dec (TUInt 1) (snd types);
    match strategy_of (as_int (fst code)) with
    | None => Throw RuntimeError
    | Some strategy =>
        do medians <- dec medians_ty (snd code);
        do suppress <- dec TBool (snd medians);
        do s <- se_construct (mkSettings (fst freq) (ids_of (fst types)) strategy (medians_of (fst medians)) (as_bool (fst suppress)));
        Ok (s, snd suppress)
    end.

  (** ** TransformerMemory: KeyTypes, DataTypes and the transformer. *)
  Record memory := mkMemory { me_keys : list Z; me_data : list Z; me_settings : settings }.
  (** 800-817 ValidateTypes and the constructor of Serializer *)
  Definition serializer (keys data : list Z) : res (list Z * list Z) :=
    match keys, data with
    | [], _ | _, [] => Throw InvalidArgument
    | _, _ => if forallb valid_type keys && forallb valid_type data then Ok (keys, data) else Throw InvalidArgument
    end.
  (** 676-698, 1105-1110 *)
  Definition mem_save (m : memory) : list Z :=
    enc ids_ty (ids_val (me_keys m)) ++ enc ids_ty (ids_val (me_data m)) ++ ts_save (me_settings m).
  (** 643-674, 1100-1103 *)
  Definition mem_load : parser memory := fun bs =>
    do keys <- dec ids_ty bs;
    do data <- dec ids_ty (snd keys);
    do ids <- serializer (ids_of (fst keys)) (ids_of (fst data));
    do s <- ts_load (snd data);
    Ok (mkMemory (fst ids) (snd ids) (fst s), snd s).
End Save.

(** ** TimeSeriesImputerFeaturizer_BinaryArchive_CreateEstimator (137-205) up to begin_training: what it keeps.  A null pointer for the types is
    an empty list here.  The two arguments of EstimatorMemory are constructed in an unspecified order, [serializer_first]. *)
Definition ts_create (serializer_first : bool) (keys data : list Z) (code : Z) (suppress : bool) : res (list Z * list Z * strategy * bool) :=
  match keys, data with
  | [], _ | _, [] => Throw InvalidArgument
  | _, _ =>
      match strategy_of code with
      | None => Throw InvalidArgument
      | Some st =>
          if serializer_first then do ids <- serializer keys data; do _ <- ts_estimator data st suppress; Ok (ids, st, suppress)
          else do _ <- ts_estimator data st suppress; do ids <- serializer keys data; Ok (ids, st, suppress)
      end
  end.

(** ** The transformer with these settings: keys and cells are texts; a median is printed by Traits<double>::ToString (509). *)
Definition double_of_bits (b : Z) : BinarySingleNaN.binary_float 53 1024 := B2BSN 53 1024 (b64_of_bits b).
Definition key_eqb (a b : list (list Z)) : bool := M_Codec.list_eqb str_eqb a b.
Definition key_ltb (a b : list (list Z)) : bool := list_lt str_lt a b.
Definition config_of (s : settings) : config (K := list (list Z)) (C := list Z) :=
  mkConfig (se_freq s) (se_types s) (se_strategy s)
    (fun k => option_map (map (fun b => float_to_string (double_of_bits b))) (m_find key_eqb (se_medians s) k)) (se_suppress s).
Definition ts_machine (s : settings) := ts_transformer key_eqb key_ltb (config_of s).
