(** C83: scaling keeps the order of the values. *)
From Coq Require Import Reals.
From Flocq Require Import Core.Core IEEE754.BinarySingleNaN.
From Verif Require Import Base M_Estimator M_Stats M_Scale S_Stats S_Window S_Scale S_FloatStats S_Keeps L_Keeps L_Keeps2 L_Keeps3.
Open Scope R_scope.

(** The column types: integers of any width, the floating point type of the result, float columns with double results. *)
Theorem C83_columns : forall {p e : Z} {Hp : Prec_gt_0 p} {Hm : Prec_lt_emax p e} (signed : bool) (w : nat),
  column_order (int_ty signed w : numty p e Z) Z.le /\ column_order (same_ty : numty p e (binary_float p e)) not_above /\ column_order float_to_double not_above.
Proof. intros. split; [apply columns_int|]. split; [exact columns_same|exact columns_float]. Qed.
Print Assumptions C83_columns.

(** Min-max scalers: double, float and integer columns; the width must not leave the type. *)
Theorem C83_min_max : forall {p e : Z} {Hp : Prec_gt_0 p} {Hm : Prec_lt_emax p e} (mn mx : binary_float p e) s,
  is_finite mn = true -> is_finite mx = true -> is_finite (fsub mx mn) = true -> mm_new same_ty mn mx = Ok s -> keeps_order not_above (mm_exec same_ty s).
Proof. exact @mm_same_keeps. Qed.
Print Assumptions C83_min_max.
Theorem C83_min_max_float : forall (mn mx : float32) s,
  is_finite mn = true -> is_finite mx = true -> is_finite (fsub mx mn) = true -> mm_new float_to_double mn mx = Ok s -> keeps_order not_above (mm_exec float_to_double s).
Proof. exact mm_float_keeps. Qed.
Print Assumptions C83_min_max_float.
Theorem C83_min_max_integer : forall {p e : Z} {Hp : Prec_gt_0 p} {Hm : Prec_lt_emax p e} signed w (mn mx : Z) s, (64 < e)%Z -> (1 <= w <= 8)%nat ->
  fits signed w mn = true -> fits signed w (mx - mn) = true -> mm_new (int_ty signed w : numty p e Z) mn mx = Ok s -> keeps_order Z.le (mm_exec (int_ty signed w : numty p e Z) s).
Proof. exact @mm_int_keeps. Qed.
Print Assumptions C83_min_max_integer.
(** Maximal magnitudes, whatever the column was trained with. *)
Theorem C83_max_abs : forall {p e : Z} {Hp : Prec_gt_0 p} {Hm : Prec_lt_emax p e} mx bs (scale : binary_float p e), proper_training mx bs ->
  trained ma_policy mx bs = Ok (Some scale) -> keeps_order not_above (ma_exec same_ty scale).
Proof. exact @ma_trained_keeps. Qed.
Print Assumptions C83_max_abs.
Theorem C83_max_abs_integer : forall {p e : Z} {Hp : Prec_gt_0 p} {Hm : Prec_lt_emax p e} signed w' w mx bs (scale : binary_float p e), (64 < e)%Z -> (w <= 8)%nat -> proper_training mx bs ->
  Forall (fun x => fits_s w (Z.abs x) = true) (items mx bs) -> trained (maxabs_policy w (of_int (prec := p) (emax := e)) Bltb fzero) mx bs = Ok (Some scale) ->
  keeps_order Z.le (ma_exec (int_ty signed w' : numty p e Z) scale).
Proof. exact @mai_trained_keeps. Qed.
Print Assumptions C83_max_abs_integer.
(** Standard scalers, with or without mean and deviation, and robust scalers. *)
Theorem C83_standard : forall {p e : Z} {Hp : Prec_gt_0 p} {Hm : Prec_lt_emax p e} {I : Type} (t : numty p e I) (le_in : I -> I -> Prop), column_order t le_in ->
  forall (wm ws : bool) (avg dev : binary_float p e) s, is_finite avg = true -> is_finite dev = true -> standard_create wm ws avg dev = Ok s -> keeps_order le_in (standard_exec t s).
Proof. exact @standard_keeps. Qed.
Print Assumptions C83_standard.
Theorem C83_robust : forall {p e : Z} {Hp : Prec_gt_0 p} {Hm : Prec_lt_emax p e} {I : Type} (t : numty p e I) (le_in : I -> I -> Prop), column_order t le_in ->
  forall c s : binary_float p e, is_finite c = true -> is_finite s = true -> 0 <= B2R s -> keeps_order le_in (robust_exec t (c, s)).
Proof. exact @robust_keeps. Qed.
Print Assumptions C83_robust.
Theorem C83_robust_integer : forall {p e : Z} {Hp : Prec_gt_0 p} {Hm : Prec_lt_emax p e} signed (w : nat) wc (qmin qmax : float32) q (median : binary_float p e) (mn mx : Z) s,
  (24 <= p)%Z -> (128 <= e)%Z -> (1 <= w <= 8)%nat -> robust_params qmin qmax = Ok q -> (mn <= mx)%Z -> fits signed w mn = true -> fits signed w mx = true ->
  (w < 4)%nat \/ fits signed w (mx - mn) = true -> is_finite median = true -> robust_create signed w wc q median mn mx = Ok s ->
  keeps_order Z.le (robust_exec (int_ty signed w : numty p e Z) s).
Proof. exact @robust_trained_keeps. Qed.
Print Assumptions C83_robust_integer.
(** Normalizers: the cells of a row keep their order. *)
Theorem C83_normalized_row : forall {lp le : Z} {HLp : Prec_gt_0 lp} {HLm : Prec_lt_emax lp le} {I : Type} (cv : I -> binary_float lp le) (n : double) (row : list (option I)) j k x y,
  (53 <= lp)%Z -> (1024 <= le)%Z -> is_finite n = true -> 0 < B2R n ->
  nth_error row j = Some (Some x) -> nth_error row k = Some (Some y) -> not_above (cv x) (cv y) ->
  exists a b, nth_error (normalize_row cv n row) j = Some a /\ nth_error (normalize_row cv n row) k = Some b /\ not_above a b.
Proof. exact @normalize_keeps. Qed.
Print Assumptions C83_normalized_row.

(** *** What is not kept *)
(** The width of an int8 column from -128 to 127 wraps to -1: the largest value is sent below the smallest. *)
Theorem C83_wrapped_refuted : exists s, mm_new (int_ty true 1 : numty 53 1024 Z) (-128)%Z 127%Z = Ok s /\
  Bltb (mm_exec (int_ty true 1 : numty 53 1024 Z) s 127%Z) (mm_exec (int_ty true 1 : numty 53 1024 Z) s (-128)%Z) = true.
Proof. eexists. split; [reflexivity|vm_compute; reflexivity]. Qed.
Print Assumptions C83_wrapped_refuted.
(** A width that overflows: the largest value is sent to NaN, which is comparable with nothing. *)
Theorem C83_overflow_refuted : exists s, mm_new (same_ty : numty 53 1024 double) (Bopp Bmax_float) Bmax_float = Ok s /\
  Bleb (Bopp Bmax_float : double) Bmax_float = true /\ Bleb (mm_exec same_ty s (Bopp Bmax_float)) (mm_exec same_ty s Bmax_float) = false.
Proof. eexists. split; [reflexivity|]. split; vm_compute; reflexivity. Qed.
Print Assumptions C83_overflow_refuted.
(** Different values may become equal. *)
Theorem C83_strict_refuted : exists (s : double * double) (y : double), mm_new same_ty (of_int (-1)) (of_int 1) = Ok s /\
  Bltb (of_int 0) y = true /\ Beqb (mm_exec same_ty s (of_int 0)) (mm_exec same_ty s y) = true.
Proof. eexists. exists (binary_normalize 53 1024 _ _ mode_NE 1 (-60) false). split; [reflexivity|]. split; vm_compute; reflexivity. Qed.
Print Assumptions C83_strict_refuted.

Definition made {A B} (r : res A) (f : A -> B) (d : B) : B := match r with Ok a => f a | _ => d end.
Example C83_case :
  made (mm_new (same_ty : numty 53 1024 double) (of_int (-3)) (of_int 7)) (fun s => Bltb (mm_exec same_ty s (of_int 1)) (mm_exec same_ty s (of_int 2))) false = true /\
  made (mm_new float_to_double (of_int (-1)) (of_int 3)) (fun s => Bltb (mm_exec float_to_double s (of_int 1)) (mm_exec float_to_double s (of_int 9))) false = true /\
  made (mm_new (int_ty false 8 : numty 53 1024 Z) 5%Z (2 ^ 63)%Z) (fun s => Bltb (mm_exec (int_ty false 8) s 6%Z) (mm_exec (int_ty false 8) s (2 ^ 62)%Z)) false = true /\
  made (trained ma_policy 9 [[of_int (-4); B754_nan]; [of_int 3]]) (fun s => match s with Some c => Bltb (ma_exec same_ty c (of_int (-5) : double)) (ma_exec same_ty c (of_int 2)) | None => false end) false = true /\
  made (standard_create true true (of_int 5 : double) (of_int 2)) (fun s => Bltb (standard_exec (int_ty true 4) s 1%Z) (standard_exec (int_ty true 4) s 2%Z)) false = true.
Proof. repeat split; vm_compute; reflexivity. Qed.
