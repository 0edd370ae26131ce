(** C38: conversion to and from strings. *)
From Verif Require Import Base M_Codec M_String L_String.

(** [t]: bool, string or an integer type of 1, 2, 4 or 8 bytes; [wt t v]: v is a value of t. *)
Theorem C38_round_trip : forall (t : ty) (v : val), plain_ty t -> wt t v = true -> from_string t (to_string t v) = Ok v.
Proof. exact round_trip_plain. Qed.
Print Assumptions C38_round_trip.
(** Optionals; the one exception is the string "NULL". *)
Theorem C38_optional_round_trip : forall (t : ty) (v : val), plain_ty t -> wt (TOption t) v = true ->
  v <> VOpt (Some (VStr [78; 85; 76; 76])) -> from_string (TOption t) (to_string (TOption t) v) = Ok v.
Proof. exact round_trip_option. Qed.
Print Assumptions C38_optional_round_trip.
Theorem C38_null_string_refuted :
  wt (TOption TString) (VOpt (Some (VStr [78; 85; 76; 76]))) = true /\
  from_string (TOption TString) (to_string (TOption TString) (VOpt (Some (VStr [78; 85; 76; 76])))) = Ok (VOpt None).
Proof. exact (conj eq_refl eq_refl). Qed.
Print Assumptions C38_null_string_refuted.
(** The decimal text of any integer, however large, read as a signed type: the integer if it fits, an exception otherwise. *)
Theorem C38_signed_range : forall (w : nat) (z : Z), int_width w ->
  (fits_s w z = true -> from_string (TSInt w) (decimal z) = Ok (VInt z)) /\
  (fits_s w z = false -> throws (from_string (TSInt w) (decimal z))).
Proof. exact signed_range. Qed.
Print Assumptions C38_signed_range.
(** The same for unsigned types and non-negative integers ... *)
Theorem C38_unsigned_range : forall (w : nat) (z : Z), int_width w -> 0 <= z ->
  (fits_u w z = true -> from_string (TUInt w) (decimal z) = Ok (VInt z)) /\
  (fits_u w z = false -> throws (from_string (TUInt w) (decimal z))).
Proof. exact unsigned_range. Qed.
Print Assumptions C38_unsigned_range.
(** ... but negative integers are accepted modulo 2^64: uint64_t takes "-1" as its largest value, and even uint8_t takes
    "-18446744073709551615" as 1. *)
Theorem C38_negative_unsigned_refuted : forall (z : Z), - 2 ^ 64 < z < 0 ->
  from_string (TUInt 8) (decimal z) = Ok (VInt (2 ^ 64 + z)) /\
  forall w, int_width w -> fits_u w (2 ^ 64 + z) = true -> from_string (TUInt w) (decimal z) = Ok (VInt (2 ^ 64 + z)).
Proof. exact negative_unsigned. Qed.
Print Assumptions C38_negative_unsigned_refuted.
(** The String and FromString featurizers one after the other, with and without empty strings for nulls. *)
Theorem C38_featurizers : forall (empty : bool) (t : ty) (v : val), plain_ty t -> wt (TOption t) v = true ->
  v <> VOpt (Some (VStr [78; 85; 76; 76])) -> (empty = true -> v <> VOpt (Some (VStr []))) ->
  from_string_featurizer empty (TOption t) (string_featurizer empty (TOption t) v) = Ok v.
Proof. exact featurizers_round_trip. Qed.
Print Assumptions C38_featurizers.
Theorem C38_empty_string_refuted :
  from_string_featurizer true (TOption TString) (string_featurizer true (TOption TString) (VOpt (Some (VStr [])))) = Ok (VOpt None).
Proof. exact eq_refl. Qed.
Print Assumptions C38_empty_string_refuted.
(** Different values have different texts. *)
Theorem C38_injective : forall t v w, plain_ty t -> wt t v = true -> wt t w = true -> to_string t v = to_string t w -> v = w.
Proof. exact string_injective. Qed.
Print Assumptions C38_injective.
Example C38_case : to_string (TSInt 2) (VInt (-1203)) = [45;49;50;48;51] /\ from_string (TSInt 2) [45;49;50;48;51] = Ok (VInt (-1203))
  /\ from_string (TSInt 1) [49;50;56] = Throw InvalidArgument /\ from_string (TSInt 4) [51;48;48;48;48;48;48;48;48;48] = Throw OutOfRange
  /\ from_string (TUInt 1) [45;49] = Throw InvalidArgument /\ from_string (TSInt 4) [120] = Throw InvalidArgument
  /\ from_string (TSInt 4) [49;50;120] = Ok (VInt 12)     (* trailing characters are ignored *)
  /\ to_string TBool (VBool true) = [84;114;117;101].
Proof. repeat split. Qed.
