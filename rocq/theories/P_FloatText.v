(** C66: floating point numbers as text. *)
From Coq Require Import Reals String Ascii Lra.
From Flocq Require Import Core.Core IEEE754.BinarySingleNaN.
From Verif Require Import Base M_Scale S_Scale L_Float M_String S_TimeText M_Date M_FloatText S_FloatText L_FloatText2 L_FloatText3 L_FloatText4 S_HexText L_HexText.
Open Scope Z_scope.

(** A finite number is printed with its sign and six decimals: the nearest number of millionths, the even one of two. *)
Theorem C66_print : forall prec emax (x : binary_float prec emax),
  is_finite x = true ->
  exists n, float_to_string x = numeral_text n /\ six_decimals (Bsign x) (ZnearestE (Rabs (B2R x) * 1000000)) n.
Proof. exact @print_numeral. Qed.
(** Any numeral is read as the float nearest to its value, the even one of two; std::out_of_range only for values beyond the largest
    float or, if the library says so, below the normal ones. *)
Theorem C66_parse : forall prec emax (Hp : Prec_gt_0 prec) (Hm : Prec_lt_emax prec emax) underflow n, numeral_ok n ->
  match float_from_string underflow (numeral_text n) : res (binary_float prec emax) with
  | Ok y => is_finite y = true /\ B2R y = rounded prec emax (numeral_value n) /\ Bsign y = negative (n_sign n)
  | Throw e => e = OutOfRange /\
      (bpow radix2 emax <= Rabs (rounded prec emax (numeral_value n)) \/
       numeral_value n <> 0 /\ Rabs (numeral_value n) < bpow radix2 (2 - emax))%R
  | UB => False
  end.
Proof. exact @parse_numeral. Qed.
(** Hexadecimal numerals (0x, hexadecimal digits, a power of two) are read likewise. *)
Theorem C66_hexadecimal : forall prec emax (Hp : Prec_gt_0 prec) (Hm : Prec_lt_emax prec emax) underflow n, hex_ok n ->
  match float_from_string underflow (hex_text n) : res (binary_float prec emax) with
  | Ok y => is_finite y = true /\ B2R y = rounded prec emax (hex_value n) /\ Bsign y = negative (h_sign n)
  | Throw e => e = OutOfRange /\
      (bpow radix2 emax <= Rabs (rounded prec emax (hex_value n)) \/
       hex_value n <> 0 /\ Rabs (hex_value n) < bpow radix2 (2 - emax))%R
  | UB => False
  end.
Proof. exact @parse_hex. Qed.
(** Reading what was printed never fails: it gives a float of the same sign at most a millionth away, which is printed as the same text;
    large numbers (double: from 2^33, float: from 16) are read back exactly. *)
Theorem C66_round_trip : forall prec emax (Hp : Prec_gt_0 prec) (Hm : Prec_lt_emax prec emax), 20 <= prec -> 22 <= emax ->
  forall underflow (x : binary_float prec emax), is_finite x = true ->
  exists y : binary_float prec emax, float_from_string underflow (float_to_string x) = Ok y /\ is_finite y = true /\ Bsign y = Bsign x /\
    (Rabs (B2R y - B2R x) <= / 1000000)%R /\ float_to_string y = float_to_string x /\
    ((bpow radix2 (prec - 20) <= Rabs (B2R x))%R -> y = x).
Proof.
  intros prec emax Hp Hm H1 H2 underflow x Hx. destruct (float_round_trip H1 H2 underflow x Hx) as (y & A & B & C & _ & D & E & G).
  exists y. auto 10.
Qed.
(** A float that is nearest to a number of millionths is read back exactly. *)
Theorem C66_six_decimals : forall prec emax (Hp : Prec_gt_0 prec) (Hm : Prec_lt_emax prec emax), 20 <= prec -> 22 <= emax ->
  forall underflow (x : binary_float prec emax) k, is_finite x = true -> B2R x = rounded prec emax (IZR k / 1000000) ->
  float_from_string underflow (float_to_string x) = Ok x.
Proof. exact @six_decimals_kept. Qed.
(** Infinities and NaN are read back. *)
Theorem C66_special : forall prec emax (Hp : Prec_gt_0 prec) (Hm : Prec_lt_emax prec emax) underflow (x : binary_float prec emax),
  is_finite x = false -> float_from_string underflow (float_to_string x) = Ok x.
Proof. intros prec emax Hp Hm underflow [s|[|]| |s m e B] H; try discriminate H; reflexivity. Qed.
(** Any text at all gives a float, std::invalid_argument or std::out_of_range. *)
Theorem C66_any_text : forall prec emax (Hp : Prec_gt_0 prec) (Hm : Prec_lt_emax prec emax) underflow s,
  match float_from_string underflow s : res (binary_float prec emax) with
  | Ok y => True
  | Throw e => e = InvalidArgument \/ e = OutOfRange
  | UB => False
  end.
Proof. exact @float_any_text. Qed.

(** *** Examples; [read s]: the double as spec_float. *)
Definition double_of (p q : positive) : double := round_ratio false p q.
Definition read (s : string) : res SpecFloat.spec_float :=
  match float_from_string (fun _ => true) (chars s) : res double with Ok y => Ok (B2SF y) | Throw e => Throw e | UB => UB end.
(** Small numbers vanish, different numbers get one text: the text of a column cannot be turned back. *)
Theorem C66_lost_refuted :
  float_to_string (double_of 1 4000000) = chars "0.000000" /\ B2SF (double_of 1 4000000) <> B2SF (B754_zero false : double) /\
  read "0.000000" = Ok (B2SF (B754_zero false : double)) /\
  float_to_string (double_of 1 3) = chars "0.333333" /\ float_to_string (double_of 333333 1000000) = chars "0.333333" /\
  B2SF (double_of 1 3) <> B2SF (double_of 333333 1000000).
Proof. repeat split; try (vm_compute; reflexivity); vm_compute; discriminate. Qed.
Example C66_hexadecimal_case : let n := mkHex [32] (Some true) true [(true, 15); (false, 10)] (Some [(false, 8)]) (Some (false, Some true, [3])) [44] in
  hex_ok n /\ hex_text n = chars " -0XFa.8p-3,"%string /\ read " -0XFa.8p-3,"%string = Ok (B2SF (round_ratio true 501 16 : double)).
Proof. vm_compute. repeat split; try discriminate; repeat constructor; discriminate || (intros H; discriminate H) || tauto. Qed.
(** What follows a number is not looked at, and hexadecimal numbers are read too. *)
Theorem C66_trailing_refuted : read "12,5 kg" = Ok (B2SF (double_of 12 1)) /\ read "0x1p3" = Ok (B2SF (double_of 8 1)) /\ read "1e" = Ok (B2SF (double_of 1 1)).
Proof. repeat split; vm_compute; reflexivity. Qed.
Example C66_case :
  (20 <= 53 /\ 22 <= 1024) /\ (20 <= 24 /\ 22 <= 128) /\
  float_to_string (double_of 1 10) = chars "0.100000" /\ read "0.1" = Ok (B2SF (double_of 1 10)) /\ read " -2.5E-1;" = Ok (B2SF (Bopp (double_of 1 4))) /\
  numeral_text (mkNumeral [32] (Some true) [2] (Some [5]) (Some (true, Some true, [1])) [59]) = chars " -2.5E-1;" /\
  numeral_ok (mkNumeral [32] (Some true) [2] (Some [5]) (Some (true, Some true, [1])) [59]) /\
  read "1e400" = Throw OutOfRange /\ read "1e-400" = Throw OutOfRange /\ read "kg" = Throw InvalidArgument /\ read "-Infinity" = Ok (SpecFloat.S754_infinity true) /\
  float_to_string (double_of 12345678901234567890 1) = chars "12345678901234567168.000000" /\
  float_to_string (double_of 1 128) = chars "0.007812" /\ float_to_string (double_of 3 128) = chars "0.023438".
Proof.
  split; [lia|]. split; [lia|]. split; [vm_compute; reflexivity|]. split; [vm_compute; reflexivity|]. split; [vm_compute; reflexivity|].
  split; [vm_compute; reflexivity|].
  split; [unfold numeral_ok; cbn; repeat split; try (repeat constructor; lia); try discriminate; lia|].
  repeat split; vm_compute; reflexivity.
Qed.

Print Assumptions C66_print.
Print Assumptions C66_parse.
Print Assumptions C66_round_trip.
