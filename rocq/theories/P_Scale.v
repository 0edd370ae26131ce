(** C27-C30: the scalers and the normalizer under IEEE 754 arithmetic; C25: the average. *)
From Coq Require Import Reals.
From Flocq Require Import Core.Core IEEE754.BinarySingleNaN.
From Verif Require Import Base M_Estimator M_Stats M_Pipeline M_Impute M_Scale S_Stats S_Window S_Scale L_Float L_Scale L_Scale2 L_Scale3 L_Scale4 L_Scale5.
Open Scope R_scope.

(** C27.  MinMaxScaler, double columns: any finite range whose width does not overflow. *)
Theorem C27_minmax_double : forall mn mx x : double, is_finite mn = true -> is_finite mx = true -> is_finite (fsub mx mn) = true ->
  is_finite x = true -> B2R mn <= B2R x <= B2R mx ->
  exists s, mm_new same_ty mn mx = Ok s /\ within 0 1 (mm_exec same_ty s x) /\
    (B2R x = B2R mn -> B2R (mm_exec same_ty s x) = 0) /\ (B2R mn < B2R mx -> B2R x = B2R mx -> B2R (mm_exec same_ty s x) = 1).
Proof. exact c27_double. Qed.
Print Assumptions C27_minmax_double.
(** float columns: only if the width is a float (see the counterexample below). *)
Theorem C27_minmax_float_partial : forall mn mx x : float32, is_finite mn = true -> is_finite mx = true -> is_finite (fsub mx mn) = true ->
  B2R (fsub mx mn) = B2R mx - B2R mn -> is_finite x = true -> B2R mn <= B2R x <= B2R mx ->
  exists s, mm_new float_to_double mn mx = Ok s /\ within 0 1 (mm_exec float_to_double s x) /\
    (B2R x = B2R mn -> B2R (mm_exec float_to_double s x) = 0) /\ (B2R mn < B2R mx -> B2R x = B2R mx -> B2R (mm_exec float_to_double s x) = 1).
Proof. exact c27_float. Qed.
Print Assumptions C27_minmax_float_partial.
(** Integer columns of [w] bytes: only if the width fits in the type and nothing exceeds 2^53. *)
Theorem C27_minmax_integer_partial : forall (signed : bool) (w : nat) (mn mx x : Z), (1 <= w)%nat ->
  (Z.abs mn <= 2 ^ 53)%Z -> (Z.abs mx <= 2 ^ 53)%Z -> (mx - mn <= 2 ^ 53)%Z -> fits signed w (mx - mn) = true -> (mn <= x <= mx)%Z ->
  let t := int_ty signed w : numty 53 1024 Z in
  exists s, mm_new t mn mx = Ok s /\ within 0 1 (mm_exec t s x) /\ (x = mn -> B2R (mm_exec t s x) = 0) /\ ((mn < mx)%Z -> x = mx -> B2R (mm_exec t s x) = 1).
Proof. exact c27_int. Qed.
Print Assumptions C27_minmax_integer_partial.
(** Training and scaling together, for types of at most 32 bits ([lo] and [hi] are the limits of the type). *)
Theorem C27_minmax_trained_partial : forall (signed : bool) (w mx : nat) (bs : list (list Z)) (lo hi : Z), (1 <= w <= 4)%nat -> proper_training mx bs ->
  (lo < hi)%Z -> (forall v, fits signed w v = true <-> (lo <= v <= hi)%Z) ->
  Forall (fun v => fits signed w v = true) (items mx bs) -> items mx bs <> [] ->
  (forall v u, In v (items mx bs) -> In u (items mx bs) -> fits signed w (v - u) = true \/ (v < u)%Z) ->
  let t := int_ty signed w : numty 53 1024 Z in
  exists mn mxv s, trained (minmax_policy Z.ltb lo hi) mx bs = Ok (Some (mn, mxv)) /\ mm_new t mn mxv = Ok s /\
    forall x, In x (items mx bs) -> within 0 1 (mm_exec t s x).
Proof. exact c27_int_trained. Qed.
Print Assumptions C27_minmax_trained_partial.
(** The excluded ranges do go wrong: int8 -128..127 (the width wraps to -1 and the maximum is sent to -255), int32 (undefined behaviour), int64
    and float (the maximum is sent above 1), double (NaN). *)
Theorem C27_minmax_refuted :
  (exists s, mm_new (int_ty true 1 : numty 53 1024 Z) (-128)%Z 127%Z = Ok s /\ Beqb (mm_exec (int_ty true 1 : numty 53 1024 Z) s 127%Z) (of_int (-255)) = true) /\
  (mm_new (int_ty true 4 : numty 53 1024 Z) (- 2 ^ 31)%Z (2 ^ 31 - 1)%Z = UB) /\
  (exists s, mm_new (int_ty true 8 : numty 53 1024 Z) 2%Z (2 ^ 53 + 3)%Z = Ok s /\ Bltb d1 (mm_exec (int_ty true 8 : numty 53 1024 Z) s (2 ^ 53 + 3)%Z) = true) /\
  (exists s, mm_new float_to_double (of_int (-1)) (pow2_float (-30)) = Ok s /\ Bltb d1 (mm_exec float_to_double s (pow2_float (-30))) = true) /\
  (exists s, mm_new (same_ty : numty 53 1024 double) (Bopp Bmax_float) Bmax_float = Ok s /\ is_nan (mm_exec same_ty s Bmax_float) = true).
Proof. exact c27_bad. Qed.
Print Assumptions C27_minmax_refuted.
(** MaxAbsScaler, training and scaling together; NaNs in the training data are passed over.  [prec], [emax]: float or double. *)
Theorem C27_maxabs_float : forall {prec emax : Z} {Hp : Prec_gt_0 prec} {Hm : Prec_lt_emax prec emax} mx (bs : list (list (binary_float prec emax))),
  proper_training mx bs -> Forall not_infinite (items mx bs) ->
  exists scale, trained ma_policy mx bs = Ok (Some scale) /\
  forall x, In x (items mx bs) -> is_finite x = true -> within (-1) 1 (ma_exec same_ty scale x) /\
    (B2R x <> 0 -> (forall y, In y (items mx bs) -> is_finite y = true -> Rabs (B2R y) <= Rabs (B2R x)) -> Rabs (B2R (ma_exec same_ty scale x)) = 1).
Proof. exact @c27_maxabs_float. Qed.
Print Assumptions C27_maxabs_float.
(** [w] is the width of the type after promotion to int. *)
Theorem C27_maxabs_integer : forall {prec emax : Z} {Hp : Prec_gt_0 prec} {Hm : Prec_lt_emax prec emax} signed w' w mx bs, (64 < emax)%Z -> (w <= 8)%nat ->
  proper_training mx bs -> Forall (fun x => fits_s w (Z.abs x) = true) (items mx bs) ->
  let t := int_ty signed w' : numty prec emax Z in
  exists scale, trained (maxabs_policy w (of_int (prec := prec) (emax := emax)) Bltb fzero) mx bs = Ok (Some scale) /\
  forall x, In x (items mx bs) -> within (-1) 1 (ma_exec t scale x) /\
    (x <> 0%Z -> (forall y, In y (items mx bs) -> (Z.abs y <= Z.abs x)%Z) -> Rabs (B2R (ma_exec t scale x)) = 1).
Proof. exact @c27_maxabs_int. Qed.
Print Assumptions C27_maxabs_integer.
Definition scaled_to (r : res (double * double)) (x : double) (num den : Z) : bool :=
  match r with Ok s => Beqb (mm_exec same_ty s x) (fdiv (of_int num) (of_int den)) | _ => false end.
Example C27_case : scaled_to (mm_new same_ty (of_int (-3)) (of_int 7)) (of_int 1) 2 5 = true
  /\ is_finite (fsub (of_int 7 : double) (of_int (-3))) = true
  /\ (match trained (minmax_policy Z.ltb 0%Z 255%Z) 9 [[3; 7]; [5]]%Z with
      | Ok (Some (a, b)) => match mm_new (int_ty false 1 : numty 53 1024 Z) a b with Ok s => Beqb (mm_exec (int_ty false 1) s 5%Z) (fdiv (of_int 1) (of_int 2)) | _ => false end
      | _ => false end) = true
  /\ (match trained ma_policy 9 [[of_int (-4); B754_nan]; [of_int 3]] with Ok (Some s) => Beqb (ma_exec same_ty s (of_int 3)) (fdiv (of_int 3 : double) (of_int 4)) | _ => false end) = true
  /\ (match trained (maxabs_policy 4 of_int Bltb fzero) 9 [[-4; 3]]%Z with Ok (Some s) => Beqb (ma_exec (int_ty true 4 : numty 53 1024 Z) s (-4)%Z) (of_int (-1)) | _ => false end) = true.
Proof. repeat split; vm_compute; reflexivity. Qed.

(** C28.  Integer columns of every width: the loaded scaler has the same minimum and span. *)
Theorem C28_integer : forall (p e : Z) (Hp : Prec_gt_0 p) (Hm : Prec_lt_emax p e) (signed : bool) (w : nat) (mn mx : Z) s, (1 <= w)%nat ->
  fits signed w mn = true -> fits signed w mx = true ->
  mm_new (int_ty signed w : numty p e Z) mn mx = Ok s -> mm_reload (int_ty signed w : numty p e Z) s = Ok s.
Proof. exact mm_int_reload. Qed.
Print Assumptions C28_integer.
(** float and double columns: only if the difference of the bounds is exact. *)
Theorem C28_float_partial : forall (prec emax : Z) (Hp : Prec_gt_0 prec) (Hm : Prec_lt_emax prec emax) (mn mx : binary_float prec emax) s,
  is_finite mn = true -> is_finite mx = true -> is_finite (fsub mx mn) = true ->
  B2R (fsub mx mn) = B2R mx - B2R mn -> mm_new same_ty mn mx = Ok s ->
  exists s', mm_reload same_ty s = Ok s' /\ forall x, mm_exec same_ty s' x = mm_exec same_ty s x.
Proof. exact @mm_same_reload. Qed.
Print Assumptions C28_float_partial.
(** Otherwise the loaded scaler can differ: minimum 1, maximum 2^53 + 2; the maximum is scaled to 1 before and above 1 after. *)
Theorem C28_float_refuted : exists s s', mm_new (same_ty : numty 53 1024 double) (of_int 1) (of_int (2 ^ 53 + 2)) = Ok s /\ mm_reload same_ty s = Ok s' /\
  Beqb (mm_exec same_ty s (of_int (2 ^ 53 + 2))) d1 = true /\ Bltb d1 (mm_exec same_ty s' (of_int (2 ^ 53 + 2))) = true.
Proof. exact c28_bad. Qed.
Print Assumptions C28_float_refuted.
Example C28_case : mm_new (int_ty true 1 : numty 53 1024 Z) (-128)%Z 127%Z = Ok (-128, -1)%Z
  /\ mm_reload (int_ty true 1 : numty 53 1024 Z) (-128, -1)%Z = Ok (-128, -1)%Z.
Proof. split; reflexivity. Qed.

(** C29.  StandardScaleWrapper.  [difference] and quotient are correctly rounded; a zero deviation is left out. *)
Theorem C29_standard : forall {I} (t : numty 53 1024 I) (wm ws : bool) (avg dev : double), is_finite avg = true -> is_finite dev = true -> 0 <= B2R dev ->
  exists s, standard_create wm ws avg dev = Ok s /\ B2R (snd s) <> 0 /\
  (forall x, n_null t x = true -> standard_exec t s x = B754_nan) /\
  (forall x, n_null t x = false -> is_finite (n_cv t x) = true ->
     let centre := if wm then B2R avg else 0 in
     let difference := r64 (B2R (n_cv t x) - centre) in
     Rabs difference < bpow radix2 1024 ->
     (ws = false \/ B2R dev = 0 -> equals (standard_exec t s x) difference) /\
     (ws = true -> B2R dev <> 0 -> Rabs (r64 (difference / B2R dev)) < bpow radix2 1024 -> equals (standard_exec t s x) (r64 (difference / B2R dev)))).
Proof. exact @c29_standard. Qed.
Print Assumptions C29_standard.
(** RobustScaler, float or double results. *)
Theorem C29_robust : forall {prec emax : Z} {Hp : Prec_gt_0 prec} {Hm : Prec_lt_emax prec emax} {I} (t : numty prec emax I) (c s : binary_float prec emax) (x : I),
  is_finite c = true -> is_finite s = true -> is_finite (n_cv t x) = true ->
  let difference := rounded prec emax (B2R (n_cv t x) - B2R c) in
  Rabs difference < bpow radix2 emax ->
  (B2R s = 0 -> equals (robust_exec t (c, s) x) difference) /\
  (B2R s <> 0 -> Rabs (rounded prec emax (difference / B2R s)) < bpow radix2 emax -> equals (robust_exec t (c, s) x) (rounded prec emax (difference / B2R s))).
Proof. exact @robust_ok. Qed.
Print Assumptions C29_robust.
(** The scale RobustScaler is created with over integer columns: the width of the column times the width of the percentage range. *)
Theorem C29_robust_scale : forall {prec emax : Z} {Hp : Prec_gt_0 prec} {Hm : Prec_lt_emax prec emax} signed (w : nat) wc (qmin qmax : float32) q
  (median : binary_float prec emax) (mn mx : Z), (24 <= prec)%Z -> (128 <= emax)%Z -> (1 <= w <= 8)%nat ->
  robust_params qmin qmax = Ok q -> (mn <= mx)%Z -> fits signed w mn = true -> fits signed w mx = true ->
  (w < 4)%nat \/ fits signed w (mx - mn) = true ->
  exists s, robust_create signed w wc q median mn mx = Ok s /\ fst s = (if wc then median else fzero) /\ is_finite (snd s) = true /\
  (is_nan qmin = true -> B2R (snd s) = 1) /\
  (is_nan qmin = false -> 0 <= B2R (snd s) <= r32 (IZR (mx - mn)) /\
     B2R (snd s) = r32 (r32 (IZR (mx - mn)) * r32 (r32 (B2R qmax - B2R qmin) / 100))).
Proof. exact @robust_create_ok. Qed.
Print Assumptions C29_robust_scale.
(** Constant integer columns: average exact, deviation 0, every value sent to 0.  [lp], [le]: long double. *)
Theorem C29_constant_column : forall {lp le : Z} {HLp : Prec_gt_0 lp} {HLm : Prec_lt_emax lp le} (z : Z) (n : nat) (signed : bool) (w : nat),
  (53 <= lp)%Z -> (1024 <= le)%Z -> (1 <= n)%nat ->
  (Z.abs z <= 2 ^ 53)%Z -> (Z.of_nat n <= 2 ^ 53)%Z -> (Z.abs (Z.of_nat n * z) <= 2 ^ lp)%Z ->
  let avg := average (lp := lp) (le := le) (Z.of_nat n * z) (Z.of_nat n) in
  exists dev s, deviation (lp := lp) (le := le) (of_int : Z -> double) avg (repeat z n) = Ok dev /\ B2R dev = 0 /\
    standard_create true true avg dev = Ok s /\ equals (standard_exec (int_ty signed w : numty 53 1024 Z) s z) 0.
Proof. exact @constant_column. Qed.
Print Assumptions C29_constant_column.
(** A deviation of zero that comes from an archive is accepted, and then is divided by. *)
Theorem C29_loaded_zero_refuted : standard_new (fzero, fzero : double) = Ok (fzero, fzero) /\
  standard_exec (int_ty true 4 : numty 53 1024 Z) (fzero, fzero) 1%Z = B754_infinity false /\
  standard_exec (int_ty true 4 : numty 53 1024 Z) (fzero, fzero) 0%Z = B754_nan.
Proof. repeat split; vm_compute; reflexivity. Qed.
Print Assumptions C29_loaded_zero_refuted.
Example C29_case : (match standard_create true true (of_int 5) (of_int 2) with Ok s => Beqb (standard_exec (int_ty true 4 : numty 53 1024 Z) s 8%Z) (fdiv (of_int 3) (of_int 2)) | _ => false end) = true
  /\ (match standard_create true true (of_int 5) fzero with Ok s => Beqb (standard_exec (int_ty true 4 : numty 53 1024 Z) s 8%Z) (of_int 3) | _ => false end) = true
  /\ (match robust_params (of_int 25) (of_int 75) with Ok q => match robust_create true 4 true q (of_int 10 : double) 2%Z 18%Z with
        | Ok s => Beqb (robust_exec (int_ty true 4) s 14%Z) (fdiv (of_int 1 : double) (of_int 2)) | _ => false end | _ => false end) = true
  /\ (match deviation (lp := 64) (le := 16384) (of_int : Z -> double) (of_int 4) [1; 7]%Z with Ok d => Beqb d (of_int 3) | _ => false end) = true.
Proof. repeat split; vm_compute; reflexivity. Qed.

(** C25.  The average of integers is correctly rounded twice and lies between minimum and maximum, so the check of the result never refuses it. *)
Theorem C25_average : forall {lp le : Z} {HLp : Prec_gt_0 lp} {HLm : Prec_lt_emax lp le} l mn mx, (64 <= lp)%Z -> (1024 <= le)%Z ->
  l <> [] -> in_i64 (zsum l) = true -> (Z.of_nat (length l) < 2 ^ 64)%Z -> is_min Z.ltb mn l -> is_max Z.ltb mx l -> in_i64 mn = true -> in_i64 mx = true ->
  let avg := average (lp := lp) (le := le) (zsum l) (Z.of_nat (length l)) in
  average_accepted avg mn mx = true /\ equals avg (r64 (rounded lp le (IZR (zsum l) / IZR (Z.of_nat (length l))))).
Proof. exact @average_ok. Qed.
Print Assumptions C25_average.
Example C25_average_case : Beqb (average (lp := 64) (le := 16384) (zsum [1; 2; 4]%Z) 3%Z) (fdiv (of_int 7) (of_int 3)) = true.
Proof. vm_compute. reflexivity. Qed.

(** C30.  [norm] is the norm of a training row as a double; [lp], [le] are those of long double. *)
Theorem C30_normalizer : forall {lp le : Z} {HLp : Prec_gt_0 lp} {HLm : Prec_lt_emax lp le} {R} (norm : R -> res double) mx bs ns {I} (cv : I -> binary_float lp le),
  proper_training mx bs -> Forall2 (fun r n => norm r = Ok n) (items mx bs) ns -> Forall (fun n : double => Bltb n fzero = false) ns -> ns <> [] ->
  trained (norms_policy norm) mx bs = Ok (Some ns) /\
  exists t, normalizer cv ns = Ok t /\
  forall rows, let (out, r) := run_exec t (t_cur t) rows in
    out = map (fun p => normalize_row cv (fst p) (snd p)) (combine ns rows) /\
    ((length rows <= length (items mx bs))%nat -> exists s, r = Ok s) /\ ((length rows > length (items mx bs))%nat -> r = Throw RuntimeError).
Proof. exact @normalizer_spec. Qed.
Print Assumptions C30_normalizer.
(** A row, cell by cell: null stays null, a value is divided by the norm (rounded as long double, then as double). *)
Theorem C30_row : forall {lp le : Z} {HLp : Prec_gt_0 lp} {HLm : Prec_lt_emax lp le} {I} (cv : I -> binary_float lp le) (n : double) (row : list (option I)) j,
  (53 <= lp)%Z -> (1024 <= le)%Z ->
  length (normalize_row cv n row) = length row /\
  (nth_error row j = Some None -> nth_error (normalize_row cv n row) j = Some B754_nan) /\
  (forall x, nth_error row j = Some (Some x) -> is_finite (cv x) = true -> is_finite n = true -> B2R n <> 0 ->
     let q := rounded lp le (B2R (cv x) / B2R n) in
     Rabs q < bpow radix2 le -> Rabs (r64 q) < bpow radix2 1024 ->
     exists y, nth_error (normalize_row cv n row) j = Some y /\ equals y (r64 q)).
Proof. exact @normalize_cell. Qed.
Print Assumptions C30_row.
(** The norms of rows of integers, null cells left out. *)
Theorem C30_l1 : forall {lp le : Z} {HLp : Prec_gt_0 lp} {HLm : Prec_lt_emax lp le} (row : list (option Z)), somes row <> [] ->
  (zsum (map Z.abs (somes row)) <= 2 ^ lp)%Z ->
  exists n, l1_norm (map (option_map (of_int (prec := lp) (emax := le))) row) = Ok n /\ equals n (IZR (zsum (map Z.abs (somes row)))).
Proof. exact @l1_int. Qed.
Print Assumptions C30_l1.
Theorem C30_l2 : forall {lp le : Z} {HLp : Prec_gt_0 lp} {HLm : Prec_lt_emax lp le} (row : list (option Z)), somes row <> [] ->
  (zsum (map (fun z => z * z)%Z (somes row)) <= 2 ^ lp)%Z ->
  exists n, l2_norm (map (option_map (of_int (prec := lp) (emax := le))) row) = Ok n /\
    equals n (rounded lp le (sqrt (IZR (zsum (map (fun z => z * z)%Z (somes row)))))).
Proof. exact @l2_int. Qed.
Print Assumptions C30_l2.
Theorem C30_max_float : forall {lp le : Z} (row : list (option (binary_float lp le))), somes row <> [] ->
  Forall (fun x => is_finite x = true) (somes row) ->
  exists n, max_norm row = Ok n /\ is_finite n = true /\ (forall x, In x (somes row) -> Rabs (B2R x) <= B2R n) /\ (exists x, In x (somes row) /\ Rabs (B2R x) = B2R n).
Proof. exact @max_ok. Qed.
Print Assumptions C30_max_float.
Theorem C30_max_integer : forall signed w (row : list (option Z)), (1 <= w <= 8)%nat -> somes row <> [] ->
  Forall (fun x => fits signed w x = true /\ (signed = true -> fits_s w (Z.abs x) = true)) (somes row) ->
  exists n, max_norm_int signed w row = Ok n /\ (forall x, In x (somes row) -> (Z.abs x <= n)%Z) /\ (exists x, In x (somes row) /\ Z.abs x = n).
Proof. exact max_int. Qed.
Print Assumptions C30_max_integer.
(** The least value of a signed type: its magnitude becomes 2^64 - 128 for int8, undefined behaviour for int32. *)
Theorem C30_max_least_refuted : max_norm_int true 1 [Some (-128)]%Z = Ok (2 ^ 64 - 128)%Z /\ max_norm_int true 4 [Some (- 2 ^ 31)]%Z = UB.
Proof. split; reflexivity. Qed.
Print Assumptions C30_max_least_refuted.
Example C30_case :
  (match l2_norm (lp := 64) (le := 16384) (map (option_map of_int) [Some 3; None; Some (-4)]%Z) with Ok n => Beqb n (of_int 5) | _ => false end) = true
  /\ (match l1_norm (lp := 64) (le := 16384) (map (option_map of_int) [Some 3; None; Some (-4)]%Z) with Ok n => Beqb n (of_int 7) | _ => false end) = true
  /\ (match normalizer (lp := 64) (le := 16384) of_int [of_int 5; of_int 2] with
      | Ok t => match run_exec t (t_cur t) [[Some 3; None]; [Some 1]; [Some 9]]%Z with
                | ([[a; b]; [c]], Throw RuntimeError) => Beqb a (fdiv (of_int 3) (of_int 5)) && is_nan b && Beqb c (fdiv (of_int 1) (of_int 2))
                | _ => false end
      | _ => false end) = true.
Proof. repeat split; vm_compute; reflexivity. Qed.
