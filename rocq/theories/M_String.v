(** Model of Traits<T>::ToString / FromString (src/Traits.h) for bool, string, the integer types and optionals of them, and
    of StringFeaturizer.h and FromStringFeaturizer.h.  Types and values are those of M_Codec; strings are lists of chars. *)
From Verif Require Import Base M_Codec M_Pipeline M_Impute.

(** std::to_string: decimal digits, most significant first. *)
Fixpoint digits_fuel (fuel : nat) (n : Z) : list Z :=
  match fuel with
  | O => [48 + n mod 10]
  | S f => if n <? 10 then [48 + n] else digits_fuel f (n / 10) ++ [48 + n mod 10]
  end.
Definition digits (n : Z) : list Z := digits_fuel (Z.to_nat (Z.log2 n)) n.
Definition decimal (z : Z) : list Z := if z <? 0 then 45 :: digits (- z) else digits z.

(** std::strtol and friends as called by std::stoi, stoll, stoul, stoull (base 10, C locale): leading white space, an optional
    sign, the longest run of digits; what follows is ignored.  [c_str] ends the string at the first NUL.
    [None]: no digits (std::invalid_argument). *)
Definition is_space (c : Z) : bool := (c =? 32) || ((9 <=? c) && (c <=? 13)).
Definition is_digit (c : Z) : bool := (48 <=? c) && (c <=? 57).
Fixpoint until_nul (s : list Z) : list Z := match s with [] => [] | c :: r => if c =? 0 then [] else c :: until_nul r end.
Fixpoint skip_space (s : list Z) : list Z := match s with [] => [] | c :: r => if is_space c then skip_space r else s end.
Fixpoint read_digits (acc : Z) (s : list Z) : Z := match s with [] => acc | c :: r => if is_digit c then read_digits (acc * 10 + (c - 48)) r else acc end.
Definition read_number (s : list Z) : option (bool * Z) :=
  let s := skip_space (until_nul s) in
  let (neg, s) := match s with
                  | c :: r => if c =? 45 then (true, r) else if c =? 43 then (false, r) else (false, s)
                  | [] => (false, s)
                  end in
  match s with
  | c :: _ => if is_digit c then Some (neg, read_digits 0 s) else None
  | [] => None
  end.

(** std::stoi ([w] = 4) and std::stoll ([w] = 8). *)
Definition sto_signed (w : nat) (s : list Z) : res Z :=
  match read_number s with
  | None => Throw InvalidArgument
  | Some (neg, m) => let v := if neg then - m else m in if fits_s w v then Ok v else Throw OutOfRange
  end.
(** std::stoul and std::stoull, 64 bits: a minus sign negates modulo 2^64. *)
Definition sto_unsigned (s : list Z) : res Z :=
  match read_number s with
  | None => Throw InvalidArgument
  | Some (neg, m) => if fits_u 8 m then Ok (to_u 8 (if neg then - m else m)) else Throw OutOfRange
  end.

(** "True", "False", "NULL". *)
Definition s_true : list Z := [84; 114; 117; 101].
Definition s_false : list Z := [70; 97; 108; 115; 101].
Definition s_null : list Z := [78; 85; 76; 76].
Definition list_eqb (a b : list Z) : bool := if list_eq_dec Z.eq_dec a b then true else false.

(** Traits.h:344-361 (bool), 379-666 (integers), 824-832 (string), 1531-1543 (optional). *)
Fixpoint to_string (t : ty) (v : val) : list Z :=
  match t, v with
  | TBool, VBool b => if b then s_true else s_false
  | TString, VStr s => s
  | TSInt _, VInt z | TUInt _, VInt z => decimal z
  | TOption t', VOpt (Some v') => to_string t' v'
  | TOption _, VOpt None => s_null
  | _, _ => []
  end.
Fixpoint from_string (t : ty) (s : list Z) : res val :=
  match t with
  | TBool => Ok (VBool (list_eqb s s_true))
  | TString => Ok (VStr s)
  | TSInt w => if Nat.ltb w 4
               then do v <- sto_signed 4 s; if fits_s w v then Ok (VInt v) else Throw InvalidArgument
               else do v <- sto_signed w s; Ok (VInt v)
  | TUInt w => if Nat.ltb w 8
               then do v <- sto_unsigned s; if fits_u w v then Ok (VInt v) else Throw InvalidArgument
               else do v <- sto_unsigned s; Ok (VInt v)
  | TOption t' => if list_eqb s s_null then Ok (VOpt None) else do v <- from_string t' s; Ok (VOpt (Some v))
  | _ => UB                                 (* not modelled *)
  end.

(** StringFeaturizer.h:194-213 and FromStringFeaturizer.h:194-213; [empty]: use empty strings for null values, which the
    constructors only accept for nullable types (M_Save KToString). *)
Definition string_featurizer (empty : bool) (t : ty) (v : val) : list Z :=
  match empty, v with
  | true, VOpt None => []
  | _, _ => to_string t v
  end.
Definition from_string_featurizer (empty : bool) (t : ty) (s : list Z) : res val :=
  match empty, s with
  | true, [] => Ok (VOpt None)
  | _, _ => from_string t s
  end.
