(** C69: statistics of float and double columns; C37 and C41 over them. *)
From Coq Require Import Reals.
From Coq.Floats Require Import SpecFloat.
From Flocq Require Import Core.Core IEEE754.BinarySingleNaN.
From Verif Require Import Base M_Estimator M_Stats M_Pipeline M_Impute M_Scale M_FloatStats S_Stats S_FloatStats S_Scale L_Impute L_FloatStats L_FloatStats2 L_FloatStats3 L_FloatStats4 L_FloatStats5 L_FloatStats6.
Open Scope R_scope.

(** C69.  A column of type [p], [e] (float: 24, 128; double: 53, 1024), sums in long double [lp], [le] (64, 16384 or 53, 1024).
    What accepted training reports: count, minimum and maximum exactly; the sum up to one relative rounding error of long double per
    addition; the average between minimum and maximum and with two more roundings. *)
Theorem C69_statistics : forall {p e : Z} {Hp : Prec_gt_0 p} {Hm : Prec_lt_emax p e} {lp le : Z} {HLp : Prec_gt_0 lp} {HLm : Prec_lt_emax lp le}
  mx (bs : list (list (binary_float p e))) (r : fresult (p := p) (e := e) (lp := lp) (le := le)),
  (p <= 53)%Z -> (e <= 1024)%Z -> (53 <= lp)%Z -> (1024 <= le)%Z -> proper_training mx bs ->
  trained fstats_policy mx bs = Ok (Some r) ->
  let l := numbers (items mx bs) in let n := length l in (Z.of_nat n <= 2 ^ 53)%Z ->
  l <> [] /\ Forall (fun x => is_finite x = true) l /\ fr_count r = Z.of_nat n /\
  (In (fr_min r) l /\ In (fr_max r) l /\ forall x, In x l -> B2R (fr_min r) <= B2R x <= B2R (fr_max r)) /\
  (is_finite (fr_sum r) = true /\ Rabs (B2R (fr_sum r) - total l) <= errors lp (n - 1) * magnitude l) /\
  is_finite (fr_average r) = true /\ B2R (fr_min r) <= B2R (fr_average r) <= B2R (fr_max r) /\
  B2R (fr_average r) = r64 (rounded lp le (B2R (fr_sum r) / INR n)) /\
  Rabs (B2R (fr_average r) - total l / INR n) <= ((1 + unit_error lp) ^ n * (1 + unit_error 53) - 1) * (magnitude l / INR n) + bpow radix2 (-1073).
Proof. exact @fstats_spec. Qed.
Print Assumptions C69_statistics.
(** Training always ends in a result or one of two exceptions; without a number (all NaN, or nothing) it throws. *)
Theorem C69_defined : forall {p e : Z} {Hp : Prec_gt_0 p} {Hm : Prec_lt_emax p e} {lp le : Z} {HLp : Prec_gt_0 lp} {HLm : Prec_lt_emax lp le}
  mx (bs : list (list (binary_float p e))), (p <= lp)%Z -> (e <= le)%Z -> proper_training mx bs ->
  let t := trained (fstats_policy (p := p) (e := e) (lp := lp) (le := le)) mx bs in
  ((exists r, t = Ok (Some r)) \/ t = Throw RuntimeError \/ t = Throw InvalidArgument) /\
  (numbers (items mx bs) = [] -> t = Throw RuntimeError).
Proof. exact @fstats_defined. Qed.
Print Assumptions C69_defined.
(** Columns of multiples of one power of two (whole numbers: k = 0) whose magnitudes sum to less than 2^53 of it are always
    accepted, with the exact sum and the average rounded as long double, then as double. *)
Theorem C69_exact_columns : forall {p e : Z} {Hp : Prec_gt_0 p} {Hm : Prec_lt_emax p e} {lp le : Z} {HLp : Prec_gt_0 lp} {HLm : Prec_lt_emax lp le}
  k mx (bs : list (list (binary_float p e))), (p <= 53)%Z -> (e <= 1024)%Z -> (53 <= lp)%Z -> (1024 <= le)%Z -> proper_training mx bs ->
  let l := numbers (items mx bs) in l <> [] -> (Z.of_nat (length l) <= 2 ^ 53)%Z -> (-1074 <= k <= 971)%Z ->
  (forall x, In x l -> is_finite x = true /\ exists z, B2R x = IZR z * bpow radix2 k) -> magnitude l < bpow radix2 (53 + k) ->
  exists r : fresult (p := p) (e := e) (lp := lp) (le := le), trained fstats_policy mx bs = Ok (Some r) /\
    B2R (fr_sum r) = total l /\ B2R (fr_average r) = r64 (rounded lp le (total l / INR (length l))).
Proof. exact @fstats_exact. Qed.
Print Assumptions C69_exact_columns.
(** Other columns may be refused although all their numbers are finite and their sum is small: 0.1 three times when long double is
    double (MSVC), eight thousand times when it has 64 bits (x86) - the rounded average is not between minimum and maximum. *)
Theorem C69_constant_refuted : exists x : double, is_finite x = true /\ Rabs (B2R x - 1 / 10) <= bpow radix2 (-57) /\
  trained (fstats_policy (p := 53) (e := 1024) (lp := 53) (le := 1024)) 9 [[x; x; x]] = Throw InvalidArgument /\
  trained (fstats_policy (p := 53) (e := 1024) (lp := 64) (le := 16384)) 9000 [repeat x 8000] = Throw InvalidArgument.
Proof. exact constant_refused. Qed.
Print Assumptions C69_constant_refuted.
(** A number too small to change the sum is refused, so the order of the rows decides: 2^64 then 1 is refused, 1 then 2^64 is not. *)
Theorem C69_order_refuted : exists x y : double, B2R x = bpow radix2 64 /\ B2R y = 1 /\
  trained (fstats_policy (p := 53) (e := 1024) (lp := 64) (le := 16384)) 9 [[x; y]] = Throw RuntimeError /\
  exists r, trained (fstats_policy (p := 53) (e := 1024) (lp := 64) (le := 16384)) 9 [[y; x]] = Ok (Some r).
Proof. exact order_refused. Qed.
Print Assumptions C69_order_refuted.
(** Medians of columns with NaN, infinities and zeros of both signs.  [s]: the numbers (infinities at plus or minus 2^[e]) in ascending
    order.  Without interpolation, or for an odd count, one of the numbers, the one that stands in the middle; otherwise the midpoint of the
    two in the middle, added and halved as doubles, and between them. *)
Theorem C69_median : forall {p e : Z} {Hp : Prec_gt_0 p} {Hm : Prec_lt_emax p e} (interpolate : bool) mx (bs : list (list (binary_float p e))) (s : list R),
  (p <= 53)%Z -> (e <= 1024)%Z -> proper_training mx bs ->
  let l := numbers (items mx bs) in Permutation s (map place l) -> StronglySorted Rle s ->
  let n := length s in
  (l = [] -> trained (fmedian_policy interpolate) mx bs = Throw RuntimeError) /\
  (l <> [] -> exists m, trained (fmedian_policy interpolate) mx bs = Ok (Some m) /\
     (interpolate = false \/ Nat.odd n = true -> In m l /\ place m = nth ((n - 1) / 2) s 0) /\
     (interpolate = true -> Nat.odd n = false ->
        let a := nth (n / 2 - 1) s 0 in let b := nth (n / 2) s 0 in
        Rabs a < bpow radix2 e -> Rabs b < bpow radix2 e -> Rabs (r64 (a + b)) < bpow radix2 1024 ->
        equals m (rounded p e (r64 (r64 (a + b) / 2))) /\ a <= B2R m <= b)).
Proof. exact @fmedian_spec. Qed.
Print Assumptions C69_median.
(** The last condition is needed: the median of a finite double and itself may be infinite. *)
Theorem C69_median_refuted : exists x : double, is_finite x = true /\ trained (fmedian_policy true) 9 [[x; x]] = Ok (Some (B754_infinity false)).
Proof. exact median_huge. Qed.
Print Assumptions C69_median_refuted.
(** 2, NaN, -1, 7: the median is 2; without the 7 it is 0.5. *)
Example C69_median_case :
  match trained (fmedian_policy true) 99 [[of_int 2; B754_nan]; [of_int (-1); of_int 7 : double]], trained (fmedian_policy true) 99 [[of_int 2; B754_nan]; [of_int (-1) : double]] with
  | Ok (Some a), Ok (Some b) => (B2SF a, B2SF b) = (S754_finite false 4503599627370496 (-51), S754_finite false 4503599627370496 (-53))
  | _, _ => False
  end.
Proof. vm_compute. reflexivity. Qed.
(** 1.5, NaN, 2.25 and -0.5: multiples of 1/4. *)
Example C69_case : let l : list double := [@SF2B 53 1024 (S754_finite false 6755399441055744 (-52)) eq_refl; B754_nan; @SF2B 53 1024 (S754_finite false 5066549580791808 (-51)) eq_refl; @SF2B 53 1024 (S754_finite true 4503599627370496 (-53)) eq_refl] in
  match trained (fstats_policy (p := 53) (e := 1024) (lp := 64) (le := 16384)) 99 [l] with
  | Ok (Some r) => (fr_count r, B2SF (fr_sum r), B2SF (fr_min r), B2SF (fr_average r)) = (3%Z, S754_finite false 14987979559889010688 (-62), S754_finite true 4503599627370496 (-53), S754_finite false 4878899596318037 (-52))
  | _ => False
  end.
Proof. vm_compute. reflexivity. Qed.

(** C37.  The mean imputer over such a column: numbers are converted to double, NaN becomes the average of C69. *)
Theorem C37_mean_float : forall {p e : Z} {Hp : Prec_gt_0 p} {Hm : Prec_lt_emax p e} {lp le : Z}
  (r : fresult (p := p) (e := e) (lp := lp) (le := le)) (l : list (binary_float p e)), (p <= 53)%Z -> (e <= 1024)%Z ->
  exists out, delivered (fmean_imputer r) l = (out, Ok tt) /\ length out = length l /\
    forall i x, nth_error l i = Some x ->
      exists y, nth_error out i = Some y /\ (is_nan x = true -> y = fr_average r) /\ (is_finite x = true -> equals y (B2R x)).
Proof. exact @fmean_imputer_spec. Qed.
Print Assumptions C37_mean_float.

(** The median imputer over them: NaN becomes the median, everything else stays what it is. *)
Theorem C37_median_float : forall {p e : Z} (m : binary_float p e) (l : list (binary_float p e)),
  delivered (fmedian_imputer m) l = (map (fun x => if is_nan x then m else x) l, Ok tt).
Proof. exact (fun p e m l => per_value_spec _ _ _ l). Qed.
Print Assumptions C37_median_float.

(** C41.  Means of float and double windows whose sum (in the type of the column, 24 or 53 bits) is finite. *)
Theorem C41_mean_float : forall {p e : Z} {Hp : Prec_gt_0 p} {Hm : Prec_lt_emax p e} (l : list (binary_float p e)),
  (p <= 53)%Z -> (e <= 1024)%Z -> l <> [] -> (Z.of_nat (length l) <= 2 ^ 53)%Z -> is_finite (fsum_calc l) = true ->
  let m := fmean_calc l in
  Forall (fun x => is_finite x = true) l /\ is_finite m = true /\
  Rabs (B2R m - total l / INR (length l)) <= ((1 + unit_error p) ^ (length l - 1) * (1 + unit_error 53) - 1) * (magnitude l / INR (length l)) + bpow radix2 (-1075).
Proof. exact @fmean_spec. Qed.
Print Assumptions C41_mean_float.
(** The mean of two finite numbers may be infinite: their sum overflows. *)
Theorem C41_mean_infinite_refuted : exists x : float32, is_finite x = true /\ fmean_calc [x; x] = B754_infinity false.
Proof. exact mean_infinite. Qed.
Print Assumptions C41_mean_infinite_refuted.
