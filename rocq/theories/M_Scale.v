(** Models of MinMaxScalerFeaturizer.h, MaxAbsScalerFeaturizer.h, RobustScalerFeaturizer.h, StandardScaleWrapperFeaturizer.h,
    Base/NormalizeFeaturizer.h, Components/{NormUpdaters,VectorNormsEstimator,StandardDeviationEstimator,MaxAbsValueEstimator}.h
    with IEEE 754 arithmetic (Flocq's [binary_float], round to nearest even).  float_t = float and double_t = double
    (FLT_EVAL_METHOD 0, as on x86-64); one NaN. *)
From Flocq Require Import Core.Core IEEE754.BinarySingleNaN.
From Verif Require Import Base M_Estimator M_Stats M_Pipeline M_Impute.

Section Formats.
  (** [prec] bits of mantissa, exponents below [emax]: 24/128 is float, 53/1024 double, 64/16384 the x87 long double. *)
  Context {prec emax : Z} {Hp : Prec_gt_0 prec} {Hm : Prec_lt_emax prec emax}.
  Notation F := (binary_float prec emax).
  Definition fzero : F := B754_zero false.
  (** static_cast from an integer type. *)
  Definition of_int (z : Z) : F := binary_normalize prec emax Hp Hm mode_NE z 0 false.
  Definition fadd (x y : F) : F := Bplus mode_NE x y.
  Definition fsub (x y : F) : F := Bminus mode_NE x y.
  Definition fmul (x y : F) : F := Bmult mode_NE x y.
  Definition fdiv (x y : F) : F := Bdiv mode_NE x y.
  Definition fsqrt (x : F) : F := Bsqrt mode_NE x.
  Definition is_zero (x : F) : bool := Beqb x fzero.
  Definition is_inf (x : F) : bool := match x with B754_infinity _ => true | _ => false end.
  (** static_cast between floating point types. *)
  Definition convert {prec' emax' : Z} (x : binary_float prec' emax') : F :=
    match x with
    | B754_zero s => B754_zero s
    | B754_infinity s => B754_infinity s
    | B754_nan => B754_nan
    | B754_finite s m e _ => binary_normalize prec emax Hp Hm mode_NE (cond_Zopp s (Zpos m)) e s
    end.

  (** What the scalers use of an input type [I]. *)
  Record numty (I : Type) := mkNum {
    n_null : I -> bool;                 (* Traits::IsNull, false for types that are not nullable *)
    n_lt : I -> I -> bool;
    n_add : I -> I -> res I;
    n_sub : I -> I -> res I;
    n_is_zero : I -> bool;              (* == static_cast<I>(0) *)
    n_cv : I -> F }.                    (* static_cast<TransformedT> *)
  Arguments mkNum {I}. Arguments n_null {I}. Arguments n_lt {I}. Arguments n_add {I}. Arguments n_sub {I}.
  Arguments n_is_zero {I}. Arguments n_cv {I}.
  (** An integer type of [w] bytes: the operators compute in int or the type itself if wider, where signed overflow is
      undefined, and the result is converted back. *)
  Definition int_op (op : Z -> Z -> Z) (signed : bool) (w : nat) (a b : Z) : res Z :=
    if signed then (if Nat.ltb w 4 then Ok (to_s w (op a b)) else if fits_s w (op a b) then Ok (op a b) else UB)
    else Ok (to_u w (op a b)).
  Definition int_ty (signed : bool) (w : nat) : numty Z :=
    mkNum (fun _ => false) Z.ltb (int_op Z.add signed w) (int_op Z.sub signed w) (Z.eqb 0) of_int.
  (** The transformed type itself. *)
  Definition same_ty : numty F :=
    mkNum is_nan Bltb (fun a b => Ok (fadd a b)) (fun a b => Ok (fsub a b)) is_zero (fun x => x).

  (** ** MinMaxScalerFeaturizer.h *)
  Section MinMax.
    Context {I : Type}.
    Variable t : numty I.
    (** 188-199: minimum and span. *)
    Definition mm_new (mn mx : I) : res (I * I) :=
      if n_lt t mx mn then Throw InvalidArgument else do span <- n_sub t mx mn; Ok (mn, span).
    (** 256-300. *)
    Definition mm_exec (s : I * I) (x : I) : F :=
      if n_null t x then B754_nan
      else if n_is_zero t (snd s) then fzero
      else fdiv (fsub (n_cv t x) (n_cv t (fst s))) (n_cv t (snd s)).
    (** 239-251, 202-219: the two numbers in the archive and what the archive constructor makes of them. *)
    Definition mm_saved (s : I * I) : res (I * I) := do mx <- n_add t (fst s) (snd s); Ok (fst s, mx).
    Definition mm_reload (s : I * I) : res (I * I) := do a <- mm_saved s; mm_new (fst a) (snd a).
  End MinMax.

  (** ** MaxAbsScalerFeaturizer.h:235-252. *)
  Definition ma_exec {I} (t : numty I) (scale : F) (x : I) : F :=
    if is_zero scale then n_cv t x else fdiv (n_cv t x) scale.
  (** MaxAbsValueEstimator.h:118-162 for a floating point type (integers: M_Stats.maxabs_policy). *)
  Definition ma_fit (m x : F) : res F :=
    let v := if Bltb x fzero then Bopp x else x in Ok (if Bltb m v then v else m).
  (** 120-132; Flocq's [Bmax_float] is numeric_limits<TransformedT>::max(). *)
  Definition ma_policy : policy F F F :=
    simple_policy fzero ma_fit (fun m => if Bltb m fzero then Throw InvalidArgument else if Bltb Bmax_float m then Throw InvalidArgument else Ok m).

  (** ** RobustScalerFeaturizer.h:280-297 and StandardScaleWrapperFeaturizer.h:262-293. *)
  Definition robust_exec {I} (t : numty I) (s : F * F) (x : I) : F :=
    if is_zero (snd s) then fsub (n_cv t x) (fst s) else fdiv (fsub (n_cv t x) (fst s)) (snd s).
  Definition standard_exec {I} (t : numty I) (s : F * F) (x : I) : F :=
    if n_null t x then B754_nan else fdiv (fsub (n_cv t x) (fst s)) (snd s).
  (** StandardScaleWrapperFeaturizer.h:125-153 and 214-221; the average and the deviation as doubles. *)
  Definition standard_new (s : F * F) : res (F * F) := if Bltb (snd s) fzero then Throw InvalidArgument else Ok s.
  Definition standard_create (with_mean with_std : bool) (average deviation : F) : res (F * F) :=
    let a := if with_mean then average else fzero in
    let d := if with_std then deviation else of_int 1 in
    let d := if is_zero d then of_int 1 else d in
    standard_new (a, d).
End Formats.
Arguments numty : clear implicits.
Arguments mkNum {prec emax I}. Arguments n_null {prec emax I}. Arguments n_lt {prec emax I}. Arguments n_add {prec emax I}.
Arguments n_sub {prec emax I}. Arguments n_is_zero {prec emax I}. Arguments n_cv {prec emax I}.

#[global] Instance prec_float : Prec_gt_0 24 := eq_refl.
#[global] Instance emax_float : Prec_lt_emax 24 128 := eq_refl.
#[global] Instance prec_double : Prec_gt_0 53 := eq_refl.
#[global] Instance emax_double : Prec_lt_emax 53 1024 := eq_refl.
#[global] Instance prec_x87 : Prec_gt_0 64 := eq_refl.
#[global] Instance emax_x87 : Prec_lt_emax 64 16384 := eq_refl.
Notation float32 := (binary_float 24 128).
Notation double := (binary_float 53 1024).
Notation x87 := (binary_float 64 16384).

(** float inputs, double outputs. *)
Definition float_to_double : numty 53 1024 float32 :=
  mkNum is_nan Bltb (fun a b => Ok (fadd a b)) (fun a b => Ok (fsub a b)) is_zero convert.

(** ** RobustScalerFeaturizer.h:310-363: the two percentages, both NaN or both within [0, 100]. *)
Definition robust_params (qmin qmax : float32) : res (float32 * float32) :=
  let out (q : float32) := negb (is_nan q) && (Bltb q fzero || Bltb (of_int 100) q) in
  if out qmin then Throw InvalidArgument
  else if out qmax then Throw InvalidArgument
  else if negb (is_nan qmin) || negb (is_nan qmax) then
    if is_nan qmin || is_nan qmax then Throw InvalidArgument else if Bltb qmax qmin then Throw InvalidArgument else Ok (qmin, qmax)
  else Ok (qmin, qmax).
(** 116-155 for integer inputs of [w] bytes: the difference is computed in int, or the type itself if wider, and
    multiplied as a float; [median] is the trained median.  The assert of line 138 holds (proved with C29). *)
Definition robust_create {prec emax : Z} {Hp : Prec_gt_0 prec} {Hm : Prec_lt_emax prec emax} (signed : bool) (w : nat)
  (with_centering : bool) (q : float32 * float32) (median : binary_float prec emax) (mn mx : Z) : res (binary_float prec emax * binary_float prec emax) :=
  let centre := if with_centering then median else fzero in
  if is_nan (fst q) then Ok (centre, of_int 1)
  else
    let ratio := fdiv (fsub (snd q) (fst q)) (of_int 100) in
    do d <- (if Nat.ltb w 4 then Ok (mx - mn) else int_op Z.sub signed w mx mn);
    Ok (centre, convert (fmul (of_int d) ratio)).

(** ** Norms (NormUpdaters.h): [L] is long double.  A cell is [None] if it is null. *)
Section Norms.
  Context {lp le : Z} {HLp : Prec_gt_0 lp} {HLm : Prec_lt_emax lp le}.
  Notation L := (binary_float lp le).
  (** 229-247 and 292-309: add the absolute value or its square.  [std::pow(x, 2)] is taken to be x * x rounded. *)
  Definition add_checked (norm d : L) : res L :=
    let s := fadd norm d in
    if Beqb s norm && negb (is_zero d) then Throw RuntimeError
    else if is_inf s then Throw RuntimeError
    else Ok s.
  Definition cells {A} (row : list (option A)) : list A := flat_map (fun c => match c with Some x => [x] | None => [] end) row.
  (** [update] on each cell of a row, [commit] (249-256, 311-318, 387-394). *)
  Definition norm_of (step : L -> L -> res L) (finish : L -> L) (row : list (option L)) : res L :=
    match cells row with
    | [] => Throw RuntimeError
    | l => do s <- foldM step fzero l; Ok (finish s)
    end.
  Definition l1_norm : list (option L) -> res L := norm_of (fun s x => add_checked s (Babs x)) (fun s => s).
  Definition l2_norm : list (option L) -> res L := norm_of (fun s x => add_checked s (fmul (Babs x) (Babs x))) fsqrt.
  (** 369-385 for floating point types: std::max(abs(input), _max_norm). *)
  Definition max_norm : list (option L) -> res L := norm_of (fun s x => Ok (if Bltb (Babs x) s then s else Babs x)) (fun s => s).
End Norms.
(** 354-385 for integer types: the absolute value is converted back to the input type, then to uint64_t. *)
Definition abs_as (signed : bool) (w : nat) (x : Z) : res Z :=
  if signed then (if Nat.ltb w 4 then Ok (to_s w (Z.abs x)) else if fits_s w (Z.abs x) then Ok (Z.abs x) else UB) else Ok x.
Definition max_norm_int (signed : bool) (w : nat) (row : list (option Z)) : res Z :=
  match cells row with
  | [] => Throw RuntimeError
  | l => foldM (fun s x => do a <- abs_as signed w x; Ok (Z.max (u64 a) s)) 0 l
  end.

(** ** VectorNormsEstimator.h:128-172: one norm per training row, as double. *)
Section Normalize.
  Context {lp le : Z} {HLp : Prec_gt_0 lp} {HLm : Prec_lt_emax lp le}.
  Notation L := (binary_float lp le).
  Definition norms_policy {R} (norm : R -> res double) : policy (list double) R (list double) :=
    simple_policy [] (fun l r => do n <- norm r; Ok (l ++ [n]))
      (fun l => match l with
                | [] => Throw InvalidArgument
                | _ => if existsb (fun n : double => Bltb n fzero) l then Throw InvalidArgument else Ok l
                end).
  (** Base/NormalizeFeaturizer.h:229-241 and 292-318; [cv] converts a cell to long double. *)
  Definition normalize_row {I} (cv : I -> L) (norm : double) (row : list (option I)) : list double :=
    map (fun c => match c with None => B754_nan | Some x => convert (fdiv (cv x) (convert norm)) end) row.
  Definition normalize_exec {I} (cv : I -> L) (norms : list double) (row_index : nat) (row : list (option I))
    : list (list double) * res nat :=
    match nth_error norms row_index with
    | None => ([], Throw RuntimeError)
    | Some n => ([normalize_row cv n row], Ok (S row_index))
    end.
  Definition normalizer {I} (cv : I -> L) (norms : list double) : res (transformer (list (option I)) (list double)) :=
    match norms with
    | [] => Throw InvalidArgument
    | _ => if existsb (fun n : double => Bltb n fzero) norms then Throw InvalidArgument
           else Ok (mkTr nat 0%nat (normalize_exec cv norms) (fun s => ([], Ok s)))
    end.

  (** ** StatisticalMetricsEstimator.h:435-454 and 400-408 for integers: the average, and the check of the result. *)
  Definition average (sum count : Z) : double := convert (fdiv (of_int sum : L) (of_int count)).
  Definition average_accepted (avg : double) (mn mx : Z) : bool := negb (Bltb (of_int mx) avg || Bltb avg (of_int mn)).
  (** ** StandardDeviationEstimator.h:198-268: the L2 norm of the differences, over the root of the count;
      [l] are the values that are not null. *)
  Definition deviation {I} (cv : I -> double) (avg : double) (l : list I) : res double :=
    do n <- l2_norm (map (fun x => let d := fsub (cv x) avg in if is_nan d then None else Some (convert d : L)) l);
    Ok (convert (fdiv n (fsqrt (of_int (Z.of_nat (length l)))))).
End Normalize.
