(** C77: how accurate norms, standard deviations and standard scores of floating point data are. *)
From Coq Require Import Reals.
From Coq.Floats Require Import SpecFloat.
From Flocq Require Import Core.Core IEEE754.BinarySingleNaN.
From Verif Require Import Base M_Estimator M_Stats M_Pipeline M_Impute M_Scale M_FloatStats M_FloatScale S_Stats S_FloatStats S_Scale S_FloatScale L_FloatScale4 L_FloatScale6 L_FloatScale7 L_FloatScale8.
Open Scope R_scope.

(** Rows of type [p], [e] (float: 24, 128; double: 53, 1024), long double [lp], [le] (64, 16384 or 53, 1024).  A reported L1 norm:
    no cell of the row was infinite, and it is the exact norm up to one relative rounding error per addition; NaN cells do not
    count.  There is no loss to underflow. *)
Theorem C77_l1 : forall {p e : Z} {Hp : Prec_gt_0 p} {Hm : Prec_lt_emax p e} {lp le : Z} {HLp : Prec_gt_0 lp} {HLm : Prec_lt_emax lp le}
  (row : list (binary_float p e)) (n : binary_float lp le),
  (p <= 53)%Z -> (e <= 1024)%Z -> (53 <= lp)%Z -> (1024 <= le)%Z -> l1_norm (float_cells row) = Ok n ->
  let l := real_values row in
  l <> [] /\ (forall x, In x row -> is_nan x = false -> is_finite x = true) /\ is_finite n = true /\ 0 <= B2R n /\
  near ((1 + unit_error lp) ^ (length l - 1)) 0 (B2R n) (l1 l).
Proof. exact @l1_row. Qed.
Print Assumptions C77_l1.
(** The L2 norm: two more roundings, and what the squares lose to underflow. *)
Theorem C77_l2 : forall {p e : Z} {Hp : Prec_gt_0 p} {Hm : Prec_lt_emax p e} {lp le : Z} {HLp : Prec_gt_0 lp} {HLm : Prec_lt_emax lp le}
  (row : list (binary_float p e)) (n : binary_float lp le),
  (p <= 53)%Z -> (e <= 1024)%Z -> (53 <= lp)%Z -> (1024 <= le)%Z -> (Z.of_nat (length row) <= 2 ^ 53)%Z -> l2_norm (float_cells row) = Ok n ->
  let l := real_values row in
  l <> [] /\ (forall x, In x row -> is_nan x = false -> is_finite x = true) /\ is_finite n = true /\ 0 <= B2R n /\
  near ((1 + unit_error lp) ^ (length l + 1)) (sqrt (INR (length l)) * tiny le) (B2R n) (l2 l).
Proof. exact @l2_row. Qed.
Print Assumptions C77_l2.
(** A normalized row, when its norm is a number and the true norm at least 2^-450: every cell is the exact quotient up to (k + 4)
    2^-51, so nothing overflows, and the norm of the row handed out is 1 up to (k + 5) 2^-51. *)
Theorem C77_normalized_l1 : forall {p e : Z} {Hp : Prec_gt_0 p} {Hm : Prec_lt_emax p e} {lp le : Z} {HLp : Prec_gt_0 lp} {HLm : Prec_lt_emax lp le}
  (row : list (binary_float p e)) (n : double),
  (p <= 53)%Z -> (e <= 1024)%Z -> (53 <= lp)%Z -> (1024 <= le)%Z -> float_norm (lp := lp) (le := le) l1_norm row = Ok n -> is_finite n = true ->
  let l := real_values row in let k := length l in (Z.of_nat k <= 2 ^ 48)%Z -> bpow radix2 (-450) <= l1 l ->
  let out := float_normalized (lp := lp) (le := le) n row in
  row_scaled (INR (k + 4) * bpow radix2 (-51)) (l1 l) row out /\ Rabs (l1 (real_values out) - 1) <= INR (k + 5) * bpow radix2 (-51).
Proof. exact @normalized_l1. Qed.
Print Assumptions C77_normalized_l1.
Theorem C77_normalized_l2 : forall {p e : Z} {Hp : Prec_gt_0 p} {Hm : Prec_lt_emax p e} {lp le : Z} {HLp : Prec_gt_0 lp} {HLm : Prec_lt_emax lp le}
  (row : list (binary_float p e)) (n : double),
  (p <= 53)%Z -> (e <= 1024)%Z -> (53 <= lp)%Z -> (1024 <= le)%Z -> (Z.of_nat (length row) <= 2 ^ 48)%Z ->
  float_norm (lp := lp) (le := le) l2_norm row = Ok n -> is_finite n = true ->
  let l := real_values row in let k := length l in bpow radix2 (-450) <= l2 l ->
  let out := float_normalized (lp := lp) (le := le) n row in
  row_scaled (INR (k + 4) * bpow radix2 (-51)) (l2 l) row out /\ Rabs (l2 (real_values out) - 1) <= INR (k + 5) * bpow radix2 (-51).
Proof. exact @normalized_l2. Qed.
Print Assumptions C77_normalized_l2.
(** The deviation a column is trained to, about any finite average. *)
Theorem C77_deviation : forall {lp le : Z} {HLp : Prec_gt_0 lp} {HLm : Prec_lt_emax lp le} {I} (t : numty 53 1024 I) (avg : double) mx (bs : list (list I)) (d : binary_float lp le),
  (53 <= lp)%Z -> (1024 <= le)%Z -> proper_training mx bs -> is_finite avg = true -> (forall x, n_null t x = false -> is_nan (n_cv t x) = false) ->
  trained (dev_policy t avg) mx bs = Ok (Some d) ->
  let xs := map (fun x => B2R (n_cv t x)) (filter (fun x => negb (n_null t x)) (items mx bs)) in let k := length xs in (Z.of_nat k <= 2 ^ 53)%Z ->
  xs <> [] /\ is_finite d = true /\ 0 <= B2R d /\
  near ((1 + unit_error lp) ^ (k + 3) * (1 + unit_error 53)) (tiny le) (B2R d) (spread (B2R avg) xs).
Proof. exact @deviation_row. Qed.
Print Assumptions C77_deviation.
(** The trained scaler of a double column: what it subtracts is within [ea] of the mean, what it divides by within [g] and
    [g * ea + tiny] of the standard deviation (or 1 when that came out as 0, or not asked for), and a score is exact up to two
    roundings.  [d] is the deviation as double. *)
Theorem C77_standard_double : forall {lp le : Z} {HLp : Prec_gt_0 lp} {HLm : Prec_lt_emax lp le} wm ws mx (bs : list (list double)) (s : double * double),
  (53 <= lp)%Z -> (1024 <= le)%Z -> proper_training mx bs ->
  standard_trained (lp := lp) (le := le) double_column (float_average (lp := lp) (le := le)) wm ws mx bs = Ok (Some s) ->
  let xs := real_values (items mx bs) in let n := length xs in (Z.of_nat n <= 2 ^ 53)%Z ->
  let ea := ((1 + unit_error lp) ^ n * (1 + unit_error 53) - 1) * mean_magnitude xs + bpow radix2 (-1073) in
  let g := (1 + unit_error lp) ^ (n + 3) * (1 + unit_error 53) ^ 2 in
  xs <> [] /\ Forall (fun x => is_finite x = true) (numbers (items mx bs)) /\
  is_finite (fst s) = true /\ (wm = true -> Rabs (B2R (fst s) - mean xs) <= ea) /\ (wm = false -> B2R (fst s) = 0) /\
  (ws = false -> equals (snd s) 1) /\
  (ws = true -> exists d : double, (is_finite d = true -> near g (g * ea + tiny le) (B2R d) (std_dev xs)) /\ (is_zero d = true -> equals (snd s) 1) /\ (is_zero d = false -> snd s = d)) /\
  (forall x, is_nan x = true -> standard_exec double_column s x = B754_nan) /\
  (is_finite (snd s) = true -> B2R (snd s) <> 0 /\ forall x, is_finite x = true -> let y := standard_exec double_column s x in is_finite y = true ->
     let z := (B2R x - B2R (fst s)) / B2R (snd s) in Rabs (B2R y - z) <= ((1 + unit_error 53) ^ 2 - 1) * Rabs z + bpow radix2 (-1075)).
Proof. intros lp le HLp HLm wm ws mx bs s H3 H4. apply (standard_near double_column wm ws mx bs s double_like); [apply Z.le_refl|apply Z.le_refl|exact H3|exact H4]. Qed.
Print Assumptions C77_standard_double.
(** The same for a float column. *)
Theorem C77_standard_float : forall {lp le : Z} {HLp : Prec_gt_0 lp} {HLm : Prec_lt_emax lp le} wm ws mx (bs : list (list float32)) (s : double * double),
  (53 <= lp)%Z -> (1024 <= le)%Z -> proper_training mx bs ->
  standard_trained (lp := lp) (le := le) float_column (float_average (lp := lp) (le := le)) wm ws mx bs = Ok (Some s) ->
  let xs := real_values (items mx bs) in let n := length xs in (Z.of_nat n <= 2 ^ 53)%Z ->
  let ea := ((1 + unit_error lp) ^ n * (1 + unit_error 53) - 1) * mean_magnitude xs + bpow radix2 (-1073) in
  let g := (1 + unit_error lp) ^ (n + 3) * (1 + unit_error 53) ^ 2 in
  xs <> [] /\ Forall (fun x => is_finite x = true) (numbers (items mx bs)) /\
  is_finite (fst s) = true /\ (wm = true -> Rabs (B2R (fst s) - mean xs) <= ea) /\ (wm = false -> B2R (fst s) = 0) /\
  (ws = false -> equals (snd s) 1) /\
  (ws = true -> exists d : double, (is_finite d = true -> near g (g * ea + tiny le) (B2R d) (std_dev xs)) /\ (is_zero d = true -> equals (snd s) 1) /\ (is_zero d = false -> snd s = d)) /\
  (forall x, is_nan x = true -> standard_exec float_column s x = B754_nan) /\
  (is_finite (snd s) = true -> B2R (snd s) <> 0 /\ forall x, is_finite x = true -> let y := standard_exec float_column s x in is_finite y = true ->
     let z := (B2R x - B2R (fst s)) / B2R (snd s) in Rabs (B2R y - z) <= ((1 + unit_error 53) ^ 2 - 1) * Rabs z + bpow radix2 (-1075)).
Proof. intros lp le HLp HLm wm ws mx bs s H3 H4. apply (standard_near float_column wm ws mx bs s single_like); [discriminate|discriminate|exact H3|exact H4]. Qed.
Print Assumptions C77_standard_float.
(** An integer column of values up to 2^53 in magnitude, of any signedness and width, with an x87 long double: the sum is exact,
    so the average has two roundings only. *)
Theorem C77_standard_integer : forall {lp le : Z} {HLp : Prec_gt_0 lp} {HLm : Prec_lt_emax lp le} signed w wm ws mx (bs : list (list Z)) (s : double * double),
  (64 <= lp)%Z -> (1024 <= le)%Z -> proper_training mx bs ->
  Forall (fun x => (Z.abs x <= 2 ^ 53)%Z) (items mx bs) -> (Z.of_nat (length (items mx bs)) <= 2 ^ 53)%Z ->
  standard_trained (lp := lp) (le := le) (int_ty signed w) (int_average (lp := lp) (le := le)) wm ws mx bs = Ok (Some s) ->
  let xs := map IZR (items mx bs) in let n := length xs in
  let ea := ((1 + unit_error lp) * (1 + unit_error 53) - 1) * Rabs (mean xs) + bpow radix2 (-1073) in
  let g := (1 + unit_error lp) ^ (n + 3) * (1 + unit_error 53) ^ 2 in
  xs <> [] /\ is_finite (fst s) = true /\ (wm = true -> Rabs (B2R (fst s) - mean xs) <= ea) /\ (wm = false -> B2R (fst s) = 0) /\
  (ws = false -> equals (snd s) 1) /\
  (ws = true -> exists d : double, (is_finite d = true -> near g (g * ea + tiny le) (B2R d) (std_dev xs)) /\ (is_zero d = true -> equals (snd s) 1) /\ (is_zero d = false -> snd s = d)) /\
  (is_finite (snd s) = true -> B2R (snd s) <> 0 /\ forall x, (Z.abs x <= 2 ^ 53)%Z -> let y := standard_exec (int_ty signed w) s x in is_finite y = true ->
     let z := (IZR x - B2R (fst s)) / B2R (snd s) in Rabs (B2R y - z) <= ((1 + unit_error 53) ^ 2 - 1) * Rabs z + bpow radix2 (-1075)).
Proof. exact @standard_int. Qed.
Print Assumptions C77_standard_integer.
(** Training and norms always end in a result or an exception; a row without a number throws. *)
Theorem C77_defined : forall {lp le : Z} {HLp : Prec_gt_0 lp} {HLm : Prec_lt_emax lp le} {p e : Z} {Hp : Prec_gt_0 p} {Hm : Prec_lt_emax p e}
  (t : numty 53 1024 (binary_float p e)) wm ws mx (bs : list (list (binary_float p e))),
  (p <= lp)%Z -> (e <= le)%Z -> proper_training mx bs ->
  let r := standard_trained (lp := lp) (le := le) t (float_average (lp := lp) (le := le)) wm ws mx bs in
  (exists s, r = Ok (Some s)) \/ r = Throw RuntimeError \/ r = Throw InvalidArgument.
Proof. exact @standard_defined_float. Qed.
Print Assumptions C77_defined.
Theorem C77_norms_defined : forall {lp le : Z} {HLp : Prec_gt_0 lp} {HLm : Prec_lt_emax lp le} {p e : Z} {Hp : Prec_gt_0 p} {Hm : Prec_lt_emax p e} (row : list (binary_float p e)),
  let ok (r : res double) := (exists n, r = Ok n) \/ r = Throw RuntimeError in
  ok (float_norm (lp := lp) (le := le) l1_norm row) /\ ok (float_norm (lp := lp) (le := le) l2_norm row) /\
  (numbers row = [] -> float_norm (lp := lp) (le := le) l1_norm row = Throw RuntimeError /\ float_norm (lp := lp) (le := le) l2_norm row = Throw RuntimeError).
Proof. exact @norms_defined. Qed.
Print Assumptions C77_norms_defined.

(** What a user may not expect, by computation. *)
Definition num (z : Z) : double := of_int z.
Definition shown (r : res double) : res spec_float := do n <- r; Ok (B2SF n).
Definition scaler_of (r : res (option (double * double))) : res (option (spec_float * spec_float)) := do o <- r; Ok (option_map (fun s => (B2SF (fst s), B2SF (snd s))) o).
Definition scaler64 wm ws l := scaler_of (standard_trained (lp := 64) (le := 16384) double_column (float_average (lp := 64) (le := 16384)) wm ws 9 [l]).
Definition scaler53 wm ws l := scaler_of (standard_trained (lp := 53) (le := 1024) double_column (float_average (lp := 53) (le := 1024)) wm ws 9 [l]).
Definition accepted {A} (r : res A) : bool := match r with Ok _ => true | _ => false end.
(** Training throws on a column whose spread is wide compared with one value, even when neither mean nor deviation was asked
    for; the same values in another order are accepted. *)
Theorem C77_wide_refuted :
  scaler64 true true [num (- 2 ^ 33); num (2 ^ 33); num 1] = Throw RuntimeError /\
  scaler64 false false [num (- 2 ^ 33); num (2 ^ 33); num 1] = Throw RuntimeError /\
  accepted (scaler64 true true [num 1; num (- 2 ^ 33); num (2 ^ 33)]) = true /\
  scaler53 false false [num (- 2 ^ 27); num (2 ^ 27); num 1] = Throw RuntimeError /\
  accepted (scaler53 false false [num 1; num (- 2 ^ 27); num (2 ^ 27)]) = true.
Proof. vm_compute. auto. Qed.
Print Assumptions C77_wide_refuted.
(** So does the L2 norm of a row. *)
Theorem C77_row_refuted :
  shown (float_norm (lp := 64) (le := 16384) l2_norm [num (2 ^ 33); num 1]) = Throw RuntimeError /\
  accepted (shown (float_norm (lp := 64) (le := 16384) l2_norm [num 1; num (2 ^ 33)])) = true.
Proof. vm_compute. auto. Qed.
Print Assumptions C77_row_refuted.
(** Norms above the largest double become infinite (x87 long double), and every cell 0; with a 53-bit long double training
    throws. *)
Theorem C77_overflow_refuted : let m : double := Bmax_float in
  shown (float_norm (lp := 64) (le := 16384) l1_norm [m; m]) = Ok (S754_infinity false) /\
  shown (float_norm (lp := 64) (le := 16384) l2_norm [m; m]) = Ok (S754_infinity false) /\
  map B2SF (float_normalized (lp := 64) (le := 16384) (B754_infinity false) [m; m]) = [S754_zero false; S754_zero false] /\
  shown (float_norm (lp := 53) (le := 1024) l2_norm [m; m]) = Throw RuntimeError.
Proof. vm_compute. auto. Qed.
Print Assumptions C77_overflow_refuted.
(** With a 53-bit long double the squares of small numbers are 0: the norm is 0 and the cells become infinite. *)
Theorem C77_underflow_refuted : let x : double := binary_normalize 53 1024 eq_refl eq_refl mode_NE 1 (-540) false in
  shown (float_norm (lp := 53) (le := 1024) l2_norm [x; x]) = Ok (S754_zero false) /\
  map B2SF (float_normalized (lp := 53) (le := 1024) fzero [x; x]) = [S754_infinity false; S754_infinity false].
Proof. vm_compute. auto. Qed.
Print Assumptions C77_underflow_refuted.
(** Columns and rows the theorems apply to. *)
Example C77_scaler_example : scaler64 true true [num 2; num 4; num 9] = Ok (Some (S754_finite false 5629499534213120 (-50), S754_finite false 6629119157769903 (-51))).
Proof. vm_compute. reflexivity. Qed.
Example C77_norm_example : shown (float_norm (lp := 64) (le := 16384) l2_norm [num 3; B754_nan; num (-4)]) = Ok (B2SF (num 5)) /\
  shown (float_norm (lp := 64) (le := 16384) l1_norm [num 3; B754_nan; num (-4)]) = Ok (B2SF (num 7)) /\
  map B2SF (float_normalized (lp := 64) (le := 16384) (num 5) [num 3; B754_nan; num (-4)]) = [S754_finite false 5404319552844595 (-53); S754_nan; S754_finite true 7205759403792794 (-53)].
Proof. vm_compute. auto. Qed.
Example C77_integer_example : scaler_of (standard_trained (lp := 64) (le := 16384) (int_ty true 32) (int_average (lp := 64) (le := 16384)) true true 9 [[2; 4; 9]%Z])
  = Ok (Some (S754_finite false 5629499534213120 (-50), S754_finite false 6629119157769903 (-51))).
Proof. vm_compute. reflexivity. Qed.
