(** Decimal numerals and the numbers they stand for. *)
From Coq Require Import Reals.
From Flocq Require Import Core.Core IEEE754.BinarySingleNaN.
From Verif Require Import Base M_String S_TimeText S_Scale.
Open Scope Z_scope.

(** 10^e, a real number. *)
Definition ten (e : Z) : R := if 0 <=? e then IZR (10 ^ e) else (/ IZR (10 ^ (- e)))%R.

(** White space, a sign, digits, maybe a point and digits, maybe the letter e and a sign and digits; and what follows. *)
Record numeral := mkNumeral {
  n_blank : list Z;
  n_sign : option bool;                                     (* Some true: a minus sign *)
  n_whole : list Z;                                         (* numbers from 0 to 9 *)
  n_point : option (list Z);
  n_exponent : option (bool * option bool * list Z);        (* capital E; sign; digits *)
  n_rest : list Z
}.
Definition sign_text (s : option bool) : list Z := match s with None => [] | Some true => [45] | Some false => [43] end.
Definition digit_chars (ds : list Z) : list Z := map (fun d => 48 + d) ds.
Definition numeral_text (n : numeral) : list Z :=
  n_blank n ++ sign_text (n_sign n) ++ digit_chars (n_whole n) ++
  match n_point n with None => [] | Some ds => 46 :: digit_chars ds end ++
  match n_exponent n with None => [] | Some (capital, s, ds) => (if capital then 69 else 101) :: sign_text s ++ digit_chars ds end ++
  n_rest n.

Definition decimals (n : numeral) : list Z := match n_point n with None => [] | Some ds => ds end.
Definition digits_0_9 (ds : list Z) : Prop := Forall (fun d => 0 <= d <= 9) ds.
(** Neither a digit nor a letter nor a point follows. *)
Definition stops (s : list Z) : Prop :=
  match s with
  | [] => True
  | c :: _ => ~ (48 <= c <= 57) /\ ~ (65 <= c <= 90) /\ ~ (97 <= c <= 122) /\ c <> 46
  end.
Definition numeral_ok (n : numeral) : Prop :=
  Forall (fun c => is_space c = true) (n_blank n) /\ digits_0_9 (n_whole n) /\ digits_0_9 (decimals n) /\ n_whole n ++ decimals n <> [] /\
  match n_exponent n with None => True | Some (_, _, ds) => digits_0_9 ds /\ ds <> [] end /\ stops (n_rest n).

Definition negative (s : option bool) : bool := match s with Some true => true | _ => false end.
Definition signed (s : option bool) (x : Z) : Z := if negative s then - x else x.
Definition exponent (n : numeral) : Z := match n_exponent n with None => 0 | Some (_, s, ds) => signed s (number ds) end.
(** The number. *)
Definition numeral_value (n : numeral) : R :=
  (IZR (signed (n_sign n) (number (n_whole n ++ decimals n))) * ten (exponent n - Z.of_nat (length (decimals n))))%R.

(** A number of millionths, written with six decimals. *)
Definition six_decimals (neg : bool) (millionths : Z) (n : numeral) : Prop :=
  n_blank n = [] /\ n_sign n = (if neg then Some true else None) /\ n_exponent n = None /\ n_rest n = [] /\
  digits_0_9 (n_whole n) /\ digits_0_9 (decimals n) /\ length (decimals n) = 6%nat /\ n_point n = Some (decimals n) /\
  (n_whole n = [0] \/ exists d ds, n_whole n = d :: ds /\ d <> 0) /\
  number (n_whole n ++ decimals n) = millionths.
