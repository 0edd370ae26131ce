(** Model of [operator==] of the transformers and of the types of their members. *)
From Verif Require Import Base M_Archive M_Codec M_Save.

(** [==] on the types that Traits.h serializes, as the C++ standard library defines it: floating point numbers as IEEE 754 compares them, containers
    by their elements in order, unordered containers (libstdc++ bits/hashtable_policy.h [_Equality]: the same size, and for every entry of the
    first the entry of the second that is found by the container's key_equal (Traits.h:675-691) compares equal with [==], key and value).
    Matrices have no [==] here, see below. *)
Fixpoint cpp_eq (t : ty) (a b : val) {struct t} : bool :=
  match t, a, b with
  | TBool, VBool x, VBool y => Bool.eqb x y
  | (TUInt _ | TSInt _), VInt x, VInt y => x =? y
  | TFloat w, VFloat x, VFloat y => negb (f_nan w x) && negb (f_nan w y) && (f_key w x =? f_key w y)
  | TString, VStr x, VStr y => str_eqb x y
  | (TVector t' | TArray _ t'), VList x, VList y => list_eqb (cpp_eq t') x y
  | TMap k x, VMap l, VMap l' => list_eqb (fun p q => cpp_eq k (fst p) (fst q) && cpp_eq x (snd p) (snd q)) l l'
  | TUMap k x, VMap l, VMap l' =>
      Nat.eqb (length l) (length l') &&
      forallb (fun p => match find (fun q => key_eq k (fst p) (fst q)) l' with Some q => cpp_eq k (fst p) (fst q) && cpp_eq x (snd p) (snd q) | None => false end) l
  | TUSet k, VSet l, VSet l' =>
      Nat.eqb (length l) (length l') && forallb (fun p => match find (fun q => key_eq k p q) l' with Some q => cpp_eq k p q | None => false end) l
  | TUnit, VUnit, VUnit => true
  | TPair t1 t2, VPair a1 a2, VPair b1 b2 => cpp_eq t1 a1 b1 && cpp_eq t2 a2 b2
  | TOption t', VOpt None, VOpt None => true
  | TOption t', VOpt (Some x), VOpt (Some y) => cpp_eq t' x y
  | _, _, _ => false
  end.

(** [operator==] of the transformers: by their members.  OneHotEncoderFeaturizer.h:259-262, LabelEncoderFeaturizer.h:242-245,
    NumericalizeFeaturizer.h:228-230, HashOneHotVectorizerFeaturizer.h:170-174, MaxAbsScalerFeaturizer.h:208-219, RobustScalerFeaturizer.h:253-265,
    StandardScaleWrapperFeaturizer.h:242-254, NormalizeFeaturizer.h:273-284, ImputerTransformer.h:108-119, ForwardFillImputerFeaturizer.h:192-211 and
    BackwardFillImputerFeaturizer.h:232-251 (only the default value; not what the transformer remembers), StringFeaturizer.h:172-174,
    FromStringFeaturizer.h:172-174, ShortGrainDropperFeaturizer.cpp:40-42, SimpleRollingWindowFeaturizer.h:237-239 and
    AnalyticalRollingWindowFeaturizer.h:226-228, TfidfVectorizerFeaturizer.cpp:115-130, CountVectorizerFeaturizer.cpp:32-34.
    InferenceOnlyFeaturizerImpl.h:132-135: always.  DateTimeFeaturizer.cpp:389-391: the tables of holidays; [holidays]: the table that the
    constructor reads for a country.  CatImputerTransformer and SampleAddTransformer have no [==] (here: their only member). *)
Definition k_eq (holidays : list Z -> list (val * val)) (k : kind) (v v' : val) : bool :=
  match k, v, v' with
  | KHeaderOnly, _, _ => true
  | KDateTime _, VStr c, VStr c' =>
      let table s := VMap (match s with [] => [] | _ => holidays s end) in cpp_eq (TUMap (TSInt 8) TString) (table c) (table c')
  | _, _, _ => cpp_eq (k_ty k) v v'
  end.
