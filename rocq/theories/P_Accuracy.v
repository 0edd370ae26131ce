(** C84: the scaled values are close to the values the formulas give in real arithmetic. *)
From Coq Require Import Reals.
From Flocq Require Import Core.Core IEEE754.BinarySingleNaN.
From Verif Require Import Base M_Estimator M_Stats M_Scale S_Stats S_Window S_Scale S_FloatStats S_Accuracy L_Accuracy L_Accuracy2 L_Accuracy3 L_Accuracy4.
Open Scope R_scope.

(** Min-max scalers whose columns have the type of the result: 4 units of relative error for any value, inside the trained range or not. *)
Theorem C84_min_max : forall {prec emax : Z} {Hp : Prec_gt_0 prec} {Hm : Prec_lt_emax prec emax} (mn mx : binary_float prec emax) s (x : binary_float prec emax), (3 <= prec)%Z ->
  is_finite mn = true -> is_finite mx = true -> is_finite (fsub mx mn) = true -> B2R mn <> B2R mx -> mm_new same_ty mn mx = Ok s ->
  is_finite x = true -> is_finite (mm_exec same_ty s x) = true ->
  accurate (4 * unit_error prec) (half_least prec emax) (mm_exec same_ty s x) ((B2R x - B2R mn) / (B2R mx - B2R mn)).
Proof. exact @mm_same_accurate. Qed.
Print Assumptions C84_min_max.
(** float columns with double results: no overflow whatever the value, and the error of one float. *)
Theorem C84_min_max_float : forall (mn mx : float32) s (x : float32), is_finite mn = true -> is_finite mx = true -> is_finite (fsub mx mn) = true -> B2R mn <> B2R mx ->
  mm_new float_to_double mn mx = Ok s -> is_finite x = true ->
  accurate (bpow radix2 (-23)) (half_least 53 1024) (mm_exec float_to_double s x) ((B2R x - B2R mn) / (B2R mx - B2R mn)).
Proof. exact mm_float_accurate. Qed.
Print Assumptions C84_min_max_float.
(** In the trained range: never below 0, above 1 by the error of a float at most. *)
Theorem C84_min_max_float_range : forall mn mx x : float32, is_finite mn = true -> is_finite mx = true -> is_finite (fsub mx mn) = true -> B2R mn < B2R mx -> is_finite x = true ->
  B2R mn <= B2R x <= B2R mx ->
  exists s, mm_new float_to_double mn mx = Ok s /\ within 0 (1 + bpow radix2 (-23)) (mm_exec float_to_double s x) /\
    (B2R x = B2R mn -> B2R (mm_exec float_to_double s x) = 0) /\ (B2R x = B2R mx -> within (1 - bpow radix2 (-23)) (1 + bpow radix2 (-23)) (mm_exec float_to_double s x)).
Proof. exact mm_float_range. Qed.
Print Assumptions C84_min_max_float_range.
(** Integer columns, values of at most [prec] bits. *)
Theorem C84_min_max_integer : forall {prec emax : Z} {Hp : Prec_gt_0 prec} {Hm : Prec_lt_emax prec emax} signed w (mn mx x : Z) s, (3 <= prec)%Z -> (prec + 2 < emax)%Z -> (1 <= w)%nat ->
  (Z.abs mn <= 2 ^ prec)%Z -> (Z.abs mx <= 2 ^ prec)%Z -> (Z.abs (mx - mn) <= 2 ^ prec)%Z -> fits signed w (mx - mn) = true -> mn <> mx ->
  mm_new (int_ty signed w : numty prec emax Z) mn mx = Ok s -> (Z.abs x <= 2 ^ prec)%Z ->
  accurate (4 * unit_error prec) (half_least prec emax) (mm_exec (int_ty signed w : numty prec emax Z) s x) (IZR (x - mn) / IZR (mx - mn)).
Proof. exact @mm_int_accurate. Qed.
Print Assumptions C84_min_max_integer.
(** A scaler that was saved and loaded is another scaler (C28_float_refuted), but not much less accurate. *)
Theorem C84_saved : forall {prec emax : Z} {Hp : Prec_gt_0 prec} {Hm : Prec_lt_emax prec emax} (mn mx : binary_float prec emax) s s' (x : binary_float prec emax), (7 <= prec)%Z ->
  is_finite mn = true -> is_finite mx = true -> is_finite (fsub mx mn) = true -> B2R mn <> B2R mx -> mm_new same_ty mn mx = Ok s ->
  mm_reload same_ty s = Ok s' -> is_finite (snd s') = true -> is_finite x = true -> is_finite (mm_exec same_ty s' x) = true ->
  accurate (12 * unit_error prec) (half_least prec emax) (mm_exec same_ty s' x) ((B2R x - B2R mn) / (B2R mx - B2R mn)).
Proof. exact @mm_same_saved_accurate. Qed.
Print Assumptions C84_saved.
(** Maximal magnitudes, training and scaling together; [y] is a trained value of maximal magnitude. *)
Theorem C84_max_abs : forall {prec emax : Z} {Hp : Prec_gt_0 prec} {Hm : Prec_lt_emax prec emax} mx (bs : list (list (binary_float prec emax))), proper_training mx bs -> Forall not_infinite (items mx bs) ->
  exists scale, trained ma_policy mx bs = Ok (Some scale) /\
  forall y x : binary_float prec emax, In y (items mx bs) -> is_finite y = true -> (forall z, In z (items mx bs) -> is_finite z = true -> Rabs (B2R z) <= Rabs (B2R y)) -> B2R y <> 0 ->
    is_finite x = true -> is_finite (ma_exec same_ty scale x) = true -> accurate (unit_error prec) (half_least prec emax) (ma_exec same_ty scale x) (B2R x / Rabs (B2R y)).
Proof. exact @ma_trained_accurate. Qed.
Print Assumptions C84_max_abs.
Theorem C84_max_abs_integer : forall {prec emax : Z} {Hp : Prec_gt_0 prec} {Hm : Prec_lt_emax prec emax} signed w' w mx bs, (3 <= prec)%Z -> (64 < emax)%Z -> (w <= 8)%nat -> proper_training mx bs ->
  Forall (fun x => fits_s w (Z.abs x) = true) (items mx bs) ->
  exists scale, trained (maxabs_policy w (of_int (prec := prec) (emax := emax)) Bltb fzero) mx bs = Ok (Some scale) /\
  forall y x : Z, In y (items mx bs) -> (forall z, In z (items mx bs) -> (Z.abs z <= Z.abs y)%Z) -> y <> 0%Z -> (Z.abs x <= Z.abs y)%Z ->
    accurate (4 * unit_error prec) (half_least prec emax) (ma_exec (int_ty signed w' : numty prec emax Z) scale x) (IZR x / IZR (Z.abs y)).
Proof. exact @mai_trained_accurate. Qed.
Print Assumptions C84_max_abs_integer.
(** Robust scalers, [c] and [s] being the centre and the scale. *)
Theorem C84_robust : forall {prec emax : Z} {Hp : Prec_gt_0 prec} {Hm : Prec_lt_emax prec emax} {I} (t : numty prec emax I) (c s : binary_float prec emax) (x : I), (3 <= prec)%Z ->
  is_finite c = true -> is_finite s = true -> is_finite (n_cv t x) = true -> is_finite (robust_exec t (c, s) x) = true ->
  (B2R s <> 0 -> accurate (4 * unit_error prec) (half_least prec emax) (robust_exec t (c, s) x) ((B2R (n_cv t x) - B2R c) / B2R s)) /\
  (B2R s = 0 -> accurate (unit_error prec) 0 (robust_exec t (c, s) x) (B2R (n_cv t x) - B2R c)).
Proof. exact @robust_accurate. Qed.
Print Assumptions C84_robust.

(** Integers of more than 53 bits: a trained range of width 2 whose maximum is sent to 512 instead of 1. *)
Theorem C84_wide_integer_refuted : exists s, mm_new (int_ty true 8 : numty 53 1024 Z) (2 ^ 62 + 511)%Z (2 ^ 62 + 513)%Z = Ok s /\
  Beqb (mm_exec (int_ty true 8 : numty 53 1024 Z) s (2 ^ 62 + 513)%Z) (of_int 512) = true.
Proof. eexists. split; [reflexivity|vm_compute; reflexivity]. Qed.
Print Assumptions C84_wide_integer_refuted.

Definition exact_at {A} (r : res A) (f : A -> bool) : bool := match r with Ok a => f a | _ => false end.
Example C84_case :
  exact_at (mm_new (same_ty : numty 53 1024 double) (of_int (-3)) (of_int 7)) (fun s => Beqb (mm_exec same_ty s (of_int 17)) (of_int 2) && is_finite (mm_exec same_ty s (of_int 1)) &&
    exact_at (mm_reload same_ty s) (fun s' => is_finite (snd s') && is_finite (mm_exec same_ty s' (of_int 1)))) = true /\
  exact_at (mm_new float_to_double (of_int (-1)) (of_int 3)) (fun s => Beqb (mm_exec float_to_double s (of_int 1)) (fdiv (of_int 1) (of_int 2))) = true /\
  is_finite (fsub (of_int 3 : float32) (of_int (-1))) = true /\
  exact_at (mm_new (int_ty true 4 : numty 53 1024 Z) (-3)%Z 7%Z) (fun s => Beqb (mm_exec (int_ty true 4) s 17%Z) (of_int 2)) = true /\
  exact_at (trained ma_policy 9 [[of_int (-4); B754_nan]; [of_int 3]]) (fun s => match s with Some c => Beqb (ma_exec same_ty c (of_int 2 : double)) (fdiv (of_int 1) (of_int 2)) | None => false end) = true /\
  Beqb (robust_exec (int_ty true 4) (of_int 2, of_int 4) 3%Z) (fdiv (of_int 1) (of_int 4 : double)) = true.
Proof. repeat split; vm_compute; reflexivity. Qed.
