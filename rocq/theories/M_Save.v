(** Model of [save] and of the [Transformer(Archive &)] constructors of the transformers whose state is a value of the
    [ty] universe.  A transformer is represented by its constructor arguments.
    Modelled elsewhere because more than plain fields is involved: MinMaxScaler (M_Scale), LagLeadOperator (M_Window),
    TimeSeriesImputer (M_TsSave), Grain and pipeline transformers (M_Grain, M_Pipeline). *)
From Verif Require Import Base M_Archive M_Codec.

Inductive kind :=
| KHeaderOnly                  (* InferenceOnlyTransformerImpl: ImputationMarker, MissingDummies, ForecastingPivot *)
| KOneHot (t : ty)             (* t: InputT *)
| KLabelEncoder (t : ty)
| KNumericalize (t : ty)
| KHashOneHot
| KMaxAbs (t : ty)             (* t: TransformedT *)
| KRobust (t : ty)
| KStandardScale
| KNormalize
| KImputer (t : ty)            (* Mean/Median/Mode/Min/Max imputers, ImputerTransformer.h *)
| KCatImputer (t : ty)
| KForwardFill (t : ty)
| KBackwardFill (t : ty)
| KToString (nullable : bool)  (* nullable: Traits<T>::IsNullableType *)
| KFromString (nullable : bool)
| KShortGrainDropper
| KDateTime (known : list Z -> bool)   (* known: some holiday file matches the country name *)
| KRollingWindow               (* Simple- and AnalyticalRollingWindow have the same layout *)
| KMatrix (colmaj : bool) (t : ty)     (* PCA and TruncatedSVD *)
| KTfidf                       (* and CountVectorizer, which delegates (CountVectorizerFeaturizer.cpp:21-38) *)
| KSampleAdd.

(** Which [save] functions begin with the two version numbers.  StandardScaleWrapperFeaturizer.h:235-239 does not. *)
Definition k_versioned (k : kind) : bool := match k with KStandardScale => false | _ => true end.

(** What follows. *)
Definition k_ty (k : kind) : ty :=
  match k with
  | KHeaderOnly => TUnit                                        (* InferenceOnlyFeaturizerImpl.h:121-141 *)
  | KOneHot t | KLabelEncoder t => TPair (TUMap t (TUInt 4)) TBool  (* OneHotEncoderFeaturizer.h:239-240,254-255; LabelEncoderFeaturizer.h:222-223,237-238 *)
  | KNumericalize t => TUMap t (TUInt 4)                        (* NumericalizeFeaturizer.h:212,224 *)
  | KHashOneHot => TPair (TUInt 4) (TUInt 4)                    (* HashOneHotVectorizerFeaturizer.h:161-162,183-184 *)
  | KMaxAbs t => t                                              (* MaxAbsScalerFeaturizer.h:202,228 *)
  | KRobust t => TPair t t                                      (* RobustScalerFeaturizer.h:244-245,275-276 *)
  | KStandardScale => TPair (TFloat 8) (TFloat 8)               (* StandardScaleWrapperFeaturizer.h:227-228,237-238 *)
  | KNormalize => TVector (TFloat 8)                            (* NormalizeFeaturizer.h:255,269 *)
  | KImputer t | KCatImputer t => t                             (* ImputerTransformer.h:97,128; CatImputerFeaturizer.h:206,218 *)
  | KForwardFill t | KBackwardFill t => TOption t               (* ForwardFillImputerFeaturizer.h:181,226; BackwardFill...h:198,226 *)
  | KToString _ | KFromString _ => TBool                        (* StringFeaturizer.h:166,188; FromStringFeaturizer.h:166,188 *)
  | KShortGrainDropper => TUSet (TVector TString)               (* ShortGrainDropperFeaturizer.cpp:33,50 *)
  | KDateTime _ => TString                                      (* DateTimeFeaturizer.cpp:336,399 *)
  | KRollingWindow => TPair (TUInt 1) (TPair (TUInt 4) (TPair (TUInt 4) (TUInt 4)))  (* SimpleRollingWindowFeaturizer.h:226-229,253-256; Analytical...h:215-218,242-245 *)
  | KMatrix colmaj t => if colmaj then TColMaj t else TRowMaj t (* PCAFeaturizer.h:205,227; TruncatedSVDFeaturizer.h:344,366 *)
  | KTfidf => TPair (TUMap TString (TUInt 4)) (TPair (TUMap TString (TUInt 4)) (TPair (TUInt 4) (TPair (TUInt 1)
               (TPair (TUInt 4) (TPair TBool (TPair (TUInt 1) (TPair TString (TPair (TUInt 4) (TUInt 4)))))))))
                                                                (* TfidfVectorizerFeaturizer.cpp:70-79,103-112 *)
  | KSampleAdd => TUInt 4                                       (* SampleAddFeaturizer.cpp:40,55 *)
  end.

(** The checks of the constructors: [None] accepts, [Some e] throws e. *)
Definition k_refuses (k : kind) (v : val) : option exn :=
  match k, v with
  | KOneHot _, VPair (VMap []) _ => Some InvalidArgument                                  (* OneHotEncoderFeaturizer.h:217-219 *)
  | KHashOneHot, VPair _ (VInt n) => if n <=? 0 then Some RuntimeError else None          (* HashOneHotVectorizerFeaturizer.h:143-144 *)
  | KStandardScale, VPair _ (VFloat d) =>                                                 (* StandardScaleWrapperFeaturizer.h:218-220 *)
      if negb (f_nan 8 d) && (f_key 8 d <? 0) then Some InvalidArgument else None
  | KNormalize, VList [] => Some InvalidArgument                                          (* NormalizeFeaturizer.h:233-240 *)
  | KNormalize, VList l => if existsb (fun x => match x with VFloat b => negb (f_nan 8 b) && (f_key 8 b <? 0) | _ => false end) l
                           then Some InvalidArgument else None
  | KToString nullable, VBool b | KFromString nullable, VBool b =>                        (* StringFeaturizer.h:145-146, FromStringFeaturizer.h:145-146 *)
      if b && negb nullable then Some InvalidArgument else None
  | KDateTime known, VStr [] => None                                                      (* DateTimeFeaturizer.cpp:345-368 *)
  | KDateTime known, VStr s => if known s then None else Some InvalidArgument
  | KRollingWindow, VPair _ (VPair (VInt horizon) (VPair (VInt mx) (VInt mn))) =>         (* RollingWindowTransformerBase.h:140-176 *)
      if (horizon <? 1) || (mx <? 1) || (mn <? 1) || (mx <? mn) then Some InvalidArgument else None
  | KMatrix _ _, VMat r c _ => if r * c =? 0 then Some InvalidArgument else None          (* PCAFeaturizer.h:189-190, TruncatedSVDFeaturizer.h:328-329 *)
  | KTfidf, VPair (VMap labels) (VPair (VMap freqs) _) =>                                 (* TfidfVectorizerFeaturizer.cpp:31-43 *)
      match labels, freqs with [], _ | _, [] => Some InvalidArgument | _, _ => None end
  | _, _ => None
  end.

(** [save]. *)
Definition k_save (k : kind) (v : val) : list Z :=
  (if k_versioned k then le_bytes 2 1 ++ le_bytes 2 0 else []) ++ enc (k_ty k) v.

(** The version check at the head of the archive constructors, e.g. OneHotEncoderFeaturizer.h:232-236. *)
Definition read_version : parser unit := fun bs =>
  do major <- get_fixed 2 bs;
  do minor <- get_fixed 2 (snd major);
  if negb (fst major =? 1) || negb (fst minor =? 0) then Throw RuntimeError else Ok (tt, snd minor).

(** [Transformer(Archive &)]. *)
Definition k_load (k : kind) : parser val := fun bs =>
  do h <- (if k_versioned k then read_version bs else Ok (tt, bs));
  do v <- dec (k_ty k) (snd h);
  match k_refuses k (fst v) with
  | Some e => Throw e
  | None => Ok v
  end.

(** Construction by the user or by an estimator. *)
Definition k_construct (k : kind) (v : val) : res val :=
  match k_refuses k v with Some e => Throw e | None => Ok v end.
