(** C80: the featurizers end to end: the estimators of a featurizer learn one after the other from the same rows, share what they learn
    through the annotations of the column, and end in the transformer.  [trains_to ... r]: the training loop ends, however large its bound on
    the rounds, with the result [r]; [trains_one ... t]: with the transformer [t], and annotations in no other column; [trains_throwing ... e]:
    with the exception [e].  [bare a col]: nothing has been learnt about the column yet.  [order]: the unspecified order of an unordered_map.
    [lp], [le]: long double. *)
From Coq Require Import Reals.
From Coq Require Import Floats.SpecFloat.
From Flocq Require Import Core.Core IEEE754.BinarySingleNaN.
From Verif Require Import Base M_Archive M_Estimator M_Stats M_Encoders M_Impute M_Scale M_FloatStats M_FloatScale M_Pipeline M_Featurizer M_Recipes
  S_Stats S_Window S_Impute S_FloatStats S_FloatScale S_Scale S_Featurizer S_Keeps S_Accuracy L_Scale5 L_FloatScale4 L_Recipes L_Recipes2 L_Recipes3 L_Recipes4 L_Recipes5 L_Recipes6 L_Recipes7 L_Recipes8.

(** Any chain of estimators: what the loop of PipelineExecutionEstimatorImpl ends with is what the estimators learn one after the other,
    each from all of the data. *)
Theorem C80_training : forall {V Ann Tr : Type} (apply : Tr -> V -> list V) col (steps : list (fstep V Ann Tr)) (a : ann_maps Ann) bs,
  sound_chain steps -> (col < length a)%nat -> Forall (fun b => b <> []) bs -> bs <> [] ->
  trains_to apply col steps a bs (learnt apply col steps a bs).
Proof. exact @chain_training. Qed.
Print Assumptions C80_training.
(** The result does not depend on how the rows are cut into batches. *)
Theorem C80_batching : forall {V Ann Tr : Type} (apply : Tr -> V -> list V) col (steps : list (fstep V Ann Tr)) (a : ann_maps Ann) bs bs' r,
  sound_chain steps -> (col < length a)%nat ->
  Forall (fun b => b <> []) bs -> bs <> [] -> Forall (fun b => b <> []) bs' -> bs' <> [] -> concat bs = concat bs' ->
  trains_to apply col steps a bs r -> trains_to apply col steps a bs' r.
Proof. exact @chain_batching. Qed.
Print Assumptions C80_batching.
(** An annotation that is there already is used: its estimator is as good as not in the chain. *)
Theorem C80_existing : forall {V Ann Tr : Type} (apply : Tr -> V -> list V) col {P} nm is_t mx (pol : spolicy V Ann P) (steps : list (fstep V Ann Tr)) (a : ann_maps Ann) bs n r,
  sound_chain steps -> nm <> [] -> (1 <= mx)%nat -> (col < length a)%nat -> Forall (fun b => b <> []) bs -> bs <> [] ->
  get_annotation is_t a col nm = Ok (Some n) ->
  (trains_to apply col (Note true nm is_t mx pol :: steps) a bs r <-> trains_to apply col steps a bs r).
Proof. exact @chain_existing. Qed.
Print Assumptions C80_existing.
(** So two scalers of the same column in one pipeline scale by the same number, whatever the first one has made of the data. *)
Theorem C80_reused_annotation_refuted : forall {prec emax : Z} {Hp : Prec_gt_0 prec} {Hm : Prec_lt_emax prec emax}
  (apply : binary_float prec emax -> binary_float prec emax -> list (binary_float prec emax)) col mx mx' (bs : list (list (binary_float prec emax)))
  (a : ann_maps (fnote (binary_float prec emax) (binary_float prec emax) (binary_float prec emax))) scale,
  bare a col -> proper_training mx bs -> bs <> [] -> (1 <= mx')%nat -> trained ma_policy mx bs = Ok (Some scale) ->
  exists a', trains_to apply col (max_abs_recipe col ma_policy mx ++ max_abs_recipe col ma_policy mx') a bs (Ok (a', [scale; scale])).
Proof. exact @max_abs_twice. Qed.
Print Assumptions C80_reused_annotation_refuted.

(** ** Encoders. *)
Theorem C80_label_encoder : forall {T : Type} (eqb ltb : T -> T -> bool) (order : list (T * Z) -> list (T * Z)), total_order eqb ltb -> (forall h, Permutation h (order h)) ->
  forall (col mx : nat) (bs : list (list T)) (a : ann_maps (fnote T T T)), bare a col -> proper_training mx bs -> bs <> [] ->
  forall (n : nat) (missing : bool), distinct_count (items mx bs) n -> (Z.of_nat n < 2 ^ 32)%Z ->
  exists e, trains_one col (label_recipe eqb ltb order col mx [] missing) a bs e /\
  exists label : T -> Z,
    (forall x, In x (items mx bs) -> label_execute eqb e x = Ok (label x + (if missing then 1 else 0)) /\ 0 <= label x < Z.of_nat n)%Z /\
    (forall x y, In x (items mx bs) -> In y (items mx bs) -> label x = label y -> x = y) /\
    (forall i, (0 <= i < Z.of_nat n)%Z -> exists x, In x (items mx bs) /\ label x = i) /\
    (forall x, ~ In x (items mx bs) -> label_execute eqb e x = if missing then Ok 0%Z else Throw InvalidArgument).
Proof. exact @label_featurizer. Qed.
Print Assumptions C80_label_encoder.
Theorem C80_one_hot : forall {T : Type} (eqb ltb : T -> T -> bool) (order : list (T * Z) -> list (T * Z)), total_order eqb ltb -> (forall h, Permutation h (order h)) ->
  forall (col mx : nat) (bs : list (list T)) (a : ann_maps (fnote T T T)), bare a col -> proper_training mx bs -> bs <> [] ->
  forall (n : nat) (missing : bool), distinct_count (items mx bs) n -> (Z.of_nat n <= 2 ^ 32)%Z -> n <> 0%nat ->
  let len := (Z.of_nat n + (if missing then 1 else 0))%Z in
  exists e, trains_one col (onehot_recipe eqb ltb order col mx [] missing) a bs e /\
  exists pos : T -> Z,
    (forall x, In x (items mx bs) -> onehot_execute eqb e x = Ok (mkSingle len 1 (pos x)) /\ (if missing then 1 else 0) <= pos x < len)%Z /\
    (forall x y, In x (items mx bs) -> In y (items mx bs) -> pos x = pos y -> x = y) /\
    (forall x, ~ In x (items mx bs) -> onehot_execute eqb e x = if missing then Ok (mkSingle len 1 0)%Z else Throw InvalidArgument).
Proof. exact @onehot_featurizer. Qed.
Print Assumptions C80_one_hot.
Theorem C80_numericalize : forall {T : Type} (eqb ltb : T -> T -> bool) (order : list (T * Z) -> list (T * Z)), total_order eqb ltb -> (forall h, Permutation h (order h)) ->
  forall (col mx : nat) (bs : list (list T)) (a : ann_maps (fnote T T T)), bare a col -> proper_training mx bs -> bs <> [] ->
  forall n, distinct_count (items mx bs) n -> (Z.of_nat n <= 2 ^ 32)%Z ->
  exists m, trains_one col (numericalize_recipe eqb ltb order col mx) a bs m /\
  let numericalize := numericalize_execute eqb m in
  (forall x, In x (items mx bs) <-> exists l, numericalize x = Some l) /\
  (forall x l, numericalize x = Some l -> 0 <= l < Z.of_nat n)%Z /\
  (forall x y l, numericalize x = Some l -> numericalize y = Some l -> x = y) /\
  (forall l, (0 <= l < Z.of_nat n)%Z -> exists x, numericalize x = Some l) /\
  (forall x y lx ly, numericalize x = Some lx -> numericalize y = Some ly -> (ltb x y = true <-> (lx < ly)%Z)).
Proof. exact @numericalize_featurizer. Qed.
Print Assumptions C80_numericalize.

(** ** Imputers. *)
Theorem C80_mode_imputers : forall {T : Type} (eqb : T -> T -> bool) (order : list (option T * Z) -> list (option T * Z)),
  (forall x y, eqb x y = true <-> x = y) -> (forall h, Permutation h (order h)) ->
  forall (col mx : nat) (bs : list (list (option T))) (a : ann_maps (fnote (option T) T T)), bare a col -> proper_training mx bs -> bs <> [] ->
  let e := oeqb eqb in (Z.of_nat (length (items mx bs)) < 2 ^ 32)%Z -> somes (items mx bs) <> [] ->
  exists v, In (Some v) (items mx bs) /\
    (forall w, In (Some w) (items mx bs) -> (occ e (Some w) (items mx bs) <= occ e (Some v) (items mx bs))%Z /\
      (occ e (Some w) (items mx bs) = occ e (Some v) (items mx bs) -> w <> v -> appears_before (items mx bs) (Some v) (Some w))) /\
    exists tc tm, trains_one col (mode_recipe e order col not_null cat_imputer mx) a bs tc /\
      trains_one col (mode_recipe e order col not_null mode_imputer mx) a bs tm /\
      forall l, delivered tc l = (map (replace_null v) l, Ok tt) /\ delivered tm l = (map (replace_null v) l, Ok tt).
Proof. exact @mode_featurizer. Qed.
Print Assumptions C80_mode_imputers.
Theorem C80_mode_without_values : forall {T : Type} (eqb : T -> T -> bool) (order : list (option T * Z) -> list (option T * Z)),
  (forall x y, eqb x y = true <-> x = y) -> (forall h, Permutation h (order h)) ->
  forall (col mx : nat) (bs : list (list (option T))) (a : ann_maps (fnote (option T) T T)), bare a col -> proper_training mx bs -> bs <> [] ->
  forall {Tr : Type} (finish : option T -> res Tr), (Z.of_nat (length (items mx bs)) < 2 ^ 32)%Z -> somes (items mx bs) = [] ->
  trains_throwing col (mode_recipe (oeqb eqb) order col not_null finish mx) a bs RuntimeError.
Proof. exact @mode_none. Qed.
Print Assumptions C80_mode_without_values.
Theorem C80_min_max_imputer : forall {T : Type} (ltb : T -> T -> bool),
  (forall x, ltb x x = false) -> (forall x y z, ltb x y = true -> ltb y z = true -> ltb x z = true) -> (forall x y, ltb x y = false -> ltb y x = false -> x = y) ->
  forall (use_min : bool) (col mx : nat) (bs : list (list (option T))) (a : ann_maps (fnote (option T) T T)),
  bare a col -> proper_training mx bs -> bs <> [] -> (Z.of_nat (length (somes (items mx bs))) < 2 ^ 64)%Z ->
  (somes (items mx bs) = [] -> trains_throwing col (min_max_recipe col ltb use_min mx) a bs RuntimeError) /\
  (somes (items mx bs) <> [] -> exists v t, (if use_min then is_min ltb v (somes (items mx bs)) else is_max ltb v (somes (items mx bs))) /\
     trains_one col (min_max_recipe col ltb use_min mx) a bs t /\ forall l, delivered t l = (map (replace_null v) l, Ok tt)).
Proof. exact @min_max_featurizer. Qed.
Print Assumptions C80_min_max_imputer.
(** Medians: [cast] is the conversion to the type of the output (of_int for integers; the identity for floating point columns, whose nulls
    are the NaNs).  [s]: the converted numbers in ascending order; [middle]: as in C69_median. *)
Theorem C80_median_imputer : forall {p e : Z} {Hp : Prec_gt_0 p} {Hm : Prec_lt_emax p e} {I U : Type} (cast : I -> binary_float p e) (interpolate : bool)
  col mx (bs : list (list (option I))) (a : ann_maps (fnote (option I) U (binary_float p e))) (s : list R),
  (p <= 53)%Z -> (e <= 1024)%Z -> bare a col -> proper_training mx bs -> bs <> [] ->
  let l := map cast (somes (items mx bs)) in (forall x, In x l -> is_nan x = false) -> Permutation s (map place l) -> StronglySorted Rle s ->
  let steps := median_recipe col cast Bltb interpolate midpoint fzero mx in
  (l = [] -> trains_throwing col steps a bs RuntimeError) /\
  (l <> [] -> exists m t, middle interpolate l s m /\ trains_one col steps a bs t /\
     forall rows, delivered t rows = (map (fun x => match x with None => m | Some y => cast y end) rows, Ok tt)).
Proof. exact @median_featurizer. Qed.
Print Assumptions C80_median_imputer.
(** Means of integers: the exact mean, rounded as long double and as double; a sum that leaves 64 bits on the way throws. *)
Theorem C80_mean_imputer : forall {lp le : Z} {HLp : Prec_gt_0 lp} {HLm : Prec_lt_emax lp le} col mx (bs : list (list (option Z))) (a : ann_maps (fnote (option Z) Z double)),
  (64 <= lp)%Z -> (1024 <= le)%Z -> bare a col -> proper_training mx bs -> bs <> [] ->
  let data := somes (items mx bs) in (Z.of_nat (length data) < 2 ^ 64)%Z -> Forall (fun x => in_i64 x = true) data ->
  let steps := mean_recipe (lp := lp) (le := le) col mx in
  (data = [] -> trains_throwing col steps a bs RuntimeError) /\
  (forall pre, prefix pre data -> in_i64 (zsum pre) = false -> trains_throwing col steps a bs RuntimeError) /\
  (data <> [] -> (forall pre, prefix pre data -> in_i64 (zsum pre) = true) ->
     exists m t, equals m (r64 (rounded lp le (IZR (zsum data) / IZR (Z.of_nat (length data))))) /\ trains_one col steps a bs t /\
     forall rows, delivered t rows = (map (fun x => match x with None => m | Some y => of_int y end) rows, Ok tt)).
Proof. exact @mean_featurizer. Qed.
Print Assumptions C80_mean_imputer.
(** Means of floating point columns: [p], [e] the type of the column. *)
Theorem C80_mean_imputer_float : forall {lp le : Z} {HLp : Prec_gt_0 lp} {HLm : Prec_lt_emax lp le} {p e : Z} {Hp : Prec_gt_0 p} {Hm : Prec_lt_emax p e}
  col mx (bs : list (list (binary_float p e))) (a : ann_maps (fnote (binary_float p e) (binary_float p e) double)),
  (p <= 53)%Z -> (e <= 1024)%Z -> (53 <= lp)%Z -> (1024 <= le)%Z -> bare a col -> proper_training mx bs -> bs <> [] ->
  let steps := float_mean_recipe (lp := lp) (le := le) col mx in
  let l := numbers (items mx bs) in let n := length l in (Z.of_nat n <= 2 ^ 53)%Z ->
  (l = [] -> trains_throwing col steps a bs RuntimeError) /\
  (trains_throwing col steps a bs RuntimeError \/ trains_throwing col steps a bs InvalidArgument \/
   exists m t, is_finite m = true /\ (Rabs (B2R m - total l / INR n) <= ((1 + unit_error lp) ^ n * (1 + unit_error 53) - 1) * (magnitude l / INR n) + bpow radix2 (-1073))%R /\
     trains_one col steps a bs t /\
     forall rows, exists out, delivered t rows = (out, Ok tt) /\ length out = length rows /\
       forall i x, nth_error rows i = Some x -> exists y, nth_error out i = Some y /\ (is_nan x = true -> y = m) /\ (is_finite x = true -> equals y (B2R x))).
Proof. exact @float_mean_whole. Qed.
Print Assumptions C80_mean_imputer_float.

(** ** Scalers. *)
Open Scope R_scope.
(** Standard scores of an integer column of values up to 2^53 in magnitude: mean and deviation with the errors of C77. *)
Theorem C80_standard_scaler_integer : forall {lp le : Z} {HLp : Prec_gt_0 lp} {HLm : Prec_lt_emax lp le} signed w (wm ws : bool)
  col mx (bs : list (list Z)) (a : ann_maps (fnote Z Z (binary_float lp le))),
  (64 <= lp)%Z -> (1024 <= le)%Z -> bare a col -> proper_training mx bs -> bs <> [] ->
  Forall (fun x => (Z.abs x <= 2 ^ 53)%Z) (items mx bs) -> (Z.of_nat (length (items mx bs)) <= 2 ^ 53)%Z ->
  let t := int_ty signed w : numty 53 1024 Z in
  let steps := standard_recipe (lp := lp) (le := le) col t (via Some std_stats_policy) with_average mx wm ws in
  let xs := map IZR (items mx bs) in let n := length xs in
  let ea := ((1 + unit_error lp) * (1 + unit_error 53) - 1) * Rabs (mean xs) + bpow radix2 (-1073) in
  let g := (1 + unit_error lp) ^ (n + 3) * (1 + unit_error 53) ^ 2 in
  trains_throwing col steps a bs RuntimeError \/ trains_throwing col steps a bs InvalidArgument \/
  exists s, trains_one col steps a bs s /\ is_finite (fst s) = true /\ (wm = true -> Rabs (B2R (fst s) - mean xs) <= ea) /\ (wm = false -> B2R (fst s) = 0) /\
  (ws = false -> equals (snd s) 1) /\
  (ws = true -> exists d : double, (is_finite d = true -> near g (g * ea + tiny le) (B2R d) (std_dev xs)) /\ (is_zero d = true -> equals (snd s) 1) /\ (is_zero d = false -> snd s = d)) /\
  (is_finite (snd s) = true -> B2R (snd s) <> 0 /\ forall x, (Z.abs x <= 2 ^ 53)%Z -> let y := standard_exec t s x in is_finite y = true ->
     let z := (IZR x - B2R (fst s)) / B2R (snd s) in Rabs (B2R y - z) <= ((1 + unit_error 53) ^ 2 - 1) * Rabs z + bpow radix2 (-1075)).
Proof. exact @standard_int_whole. Qed.
Print Assumptions C80_standard_scaler_integer.
(** Double columns, then float columns. *)
Theorem C80_standard_scaler_double : forall {lp le : Z} {HLp : Prec_gt_0 lp} {HLm : Prec_lt_emax lp le} (wm ws : bool)
  col mx (bs : list (list double)) (a : ann_maps (fnote double double (binary_float lp le))),
  (53 <= lp)%Z -> (1024 <= le)%Z -> bare a col -> proper_training mx bs -> bs <> [] ->
  let steps := standard_recipe (lp := lp) (le := le) col double_column (fstats_policy (lp := lp) (le := le)) float_stats mx wm ws in
  let xs := real_values (items mx bs) in let n := length xs in (Z.of_nat n <= 2 ^ 53)%Z ->
  let ea := ((1 + unit_error lp) ^ n * (1 + unit_error 53) - 1) * mean_magnitude xs + bpow radix2 (-1073) in
  let g := (1 + unit_error lp) ^ (n + 3) * (1 + unit_error 53) ^ 2 in
  (xs = [] -> trains_throwing col steps a bs RuntimeError) /\
  (trains_throwing col steps a bs RuntimeError \/ trains_throwing col steps a bs InvalidArgument \/
  exists s, trains_one col steps a bs s /\ is_finite (fst s) = true /\ (wm = true -> Rabs (B2R (fst s) - mean xs) <= ea) /\ (wm = false -> B2R (fst s) = 0) /\
  (ws = false -> equals (snd s) 1) /\
  (ws = true -> exists d : double, (is_finite d = true -> near g (g * ea + tiny le) (B2R d) (std_dev xs)) /\ (is_zero d = true -> equals (snd s) 1) /\ (is_zero d = false -> snd s = d)) /\
  (forall x, is_nan x = true -> standard_exec double_column s x = B754_nan) /\
  (is_finite (snd s) = true -> B2R (snd s) <> 0 /\ forall x, is_finite x = true -> let y := standard_exec double_column s x in is_finite y = true ->
     let z := (B2R x - B2R (fst s)) / B2R (snd s) in Rabs (B2R y - z) <= ((1 + unit_error 53) ^ 2 - 1) * Rabs z + bpow radix2 (-1075))).
Proof. exact (fun lp le HLp HLm wm ws col mx bs a => standard_float_whole double_column wm ws col mx bs a double_like (Z.le_refl _) (Z.le_refl _)). Qed.
Print Assumptions C80_standard_scaler_double.
Theorem C80_standard_scaler_float : forall {lp le : Z} {HLp : Prec_gt_0 lp} {HLm : Prec_lt_emax lp le} (wm ws : bool)
  col mx (bs : list (list float32)) (a : ann_maps (fnote float32 float32 (binary_float lp le))),
  (53 <= lp)%Z -> (1024 <= le)%Z -> bare a col -> proper_training mx bs -> bs <> [] ->
  let steps := standard_recipe (lp := lp) (le := le) col float_column (fstats_policy (lp := lp) (le := le)) float_stats mx wm ws in
  let xs := real_values (items mx bs) in let n := length xs in (Z.of_nat n <= 2 ^ 53)%Z ->
  let ea := ((1 + unit_error lp) ^ n * (1 + unit_error 53) - 1) * mean_magnitude xs + bpow radix2 (-1073) in
  let g := (1 + unit_error lp) ^ (n + 3) * (1 + unit_error 53) ^ 2 in
  (xs = [] -> trains_throwing col steps a bs RuntimeError) /\
  (trains_throwing col steps a bs RuntimeError \/ trains_throwing col steps a bs InvalidArgument \/
  exists s, trains_one col steps a bs s /\ is_finite (fst s) = true /\ (wm = true -> Rabs (B2R (fst s) - mean xs) <= ea) /\ (wm = false -> B2R (fst s) = 0) /\
  (ws = false -> equals (snd s) 1) /\
  (ws = true -> exists d : double, (is_finite d = true -> near g (g * ea + tiny le) (B2R d) (std_dev xs)) /\ (is_zero d = true -> equals (snd s) 1) /\ (is_zero d = false -> snd s = d)) /\
  (forall x, is_nan x = true -> standard_exec float_column s x = B754_nan) /\
  (is_finite (snd s) = true -> B2R (snd s) <> 0 /\ forall x, is_finite x = true -> let y := standard_exec float_column s x in is_finite y = true ->
     let z := (B2R x - B2R (fst s)) / B2R (snd s) in Rabs (B2R y - z) <= ((1 + unit_error 53) ^ 2 - 1) * Rabs z + bpow radix2 (-1075))).
Proof. exact (fun lp le HLp HLm wm ws col mx bs a => standard_float_whole float_column wm ws col mx bs a single_like ltac:(discriminate) ltac:(discriminate)). Qed.
Print Assumptions C80_standard_scaler_float.
(** Robust scaler, integer columns of [w] bytes: the centre is the median, the scale the width of the column times the width of the
    percentage range (as C29); the sum of the statistics estimator may overflow although only minimum and maximum are used. *)
Theorem C80_robust_scaler : forall {lp le : Z} {HLp : Prec_gt_0 lp} {HLm : Prec_lt_emax lp le} {prec emax : Z} {Hp : Prec_gt_0 prec} {Hm : Prec_lt_emax prec emax}
  signed w (wc : bool) (qmin qmax : float32) q col mx (bs : list (list Z)) (a : ann_maps (fnote Z Z (binary_float prec emax))) (s : list R),
  (64 <= lp)%Z -> (1024 <= le)%Z -> (24 <= prec <= 53)%Z -> (128 <= emax <= 1024)%Z -> (1 <= w <= 8)%nat -> robust_params qmin qmax = Ok q ->
  bare a col -> proper_training mx bs -> bs <> [] ->
  let data := items mx bs in (Z.of_nat (length data) < 2 ^ 64)%Z -> Forall (fun x => fits signed w x = true /\ in_i64 x = true) data ->
  let l := map of_int data : list (binary_float prec emax) in Permutation s (map place l) -> StronglySorted Rle s ->
  let steps := robust_recipe (lp := lp) (le := le) col signed w mx wc q in
  (forall pre, prefix pre data -> in_i64 (zsum pre) = false -> trains_throwing col steps a bs RuntimeError) /\
  ((forall pre, prefix pre data -> in_i64 (zsum pre) = true) ->
   (w < 4)%nat \/ (forall x y, In x data -> In y data -> (x <= y)%Z -> fits signed w (y - x) = true) ->
   exists m mn mxv t, middle true l s m /\ is_min Z.ltb mn data /\ is_max Z.ltb mxv data /\ trains_one col steps a bs t /\
     fst t = (if wc then m else fzero) /\ is_finite (snd t) = true /\ (is_nan qmin = true -> B2R (snd t) = 1) /\
     (is_nan qmin = false -> 0 <= B2R (snd t) <= r32 (IZR (mxv - mn)) /\
        B2R (snd t) = r32 (r32 (IZR (mxv - mn)) * r32 (r32 (B2R qmax - B2R qmin) / 100)))).
Proof. exact @robust_featurizer. Qed.
Print Assumptions C80_robust_scaler.
(** Floating point columns; the width of the column must not overflow. *)
Theorem C80_robust_scaler_float : forall {lp le : Z} {HLp : Prec_gt_0 lp} {HLm : Prec_lt_emax lp le} {prec emax : Z} {Hp : Prec_gt_0 prec} {Hm : Prec_lt_emax prec emax}
  (wc : bool) (qmin qmax : float32) q col mx (bs : list (list (binary_float prec emax))) (a : ann_maps (fnote (binary_float prec emax) (binary_float prec emax) (binary_float prec emax))) (s : list R),
  (53 <= lp)%Z -> (1024 <= le)%Z -> (24 <= prec <= 53)%Z -> (128 <= emax <= 1024)%Z -> robust_params qmin qmax = Ok q ->
  bare a col -> proper_training mx bs -> bs <> [] ->
  let l := numbers (items mx bs) in (Z.of_nat (length l) <= 2 ^ 53)%Z -> Permutation s (map place l) -> StronglySorted Rle s ->
  let steps := robust_float_recipe (lp := lp) (le := le) col mx wc q in
  (l = [] -> trains_throwing col steps a bs RuntimeError) /\
  (trains_throwing col steps a bs RuntimeError \/ trains_throwing col steps a bs InvalidArgument \/
   exists m mn mxv t, middle true l s m /\ (In mn l /\ In mxv l /\ forall x, In x l -> B2R mn <= B2R x <= B2R mxv) /\ trains_one col steps a bs t /\
     fst t = (if wc then m else fzero) /\
     (rounded prec emax (B2R mxv - B2R mn) < bpow radix2 emax -> is_finite (snd t) = true /\ (is_nan qmin = true -> B2R (snd t) = 1) /\
        (is_nan qmin = false -> 0 <= B2R (snd t) <= rounded prec emax (B2R mxv - B2R mn) /\
           B2R (snd t) = rounded prec emax (rounded prec emax (B2R mxv - B2R mn) * r32 (r32 (B2R qmax - B2R qmin) / 100))))).
Proof. exact @robust_float_whole. Qed.
Print Assumptions C80_robust_scaler_float.
(** MaxAbsScaler: floating point columns, then integers ([w]: the width after promotion to int). *)
Theorem C80_max_abs_scaler : forall {prec emax : Z} {Hp : Prec_gt_0 prec} {Hm : Prec_lt_emax prec emax} col mx (bs : list (list (binary_float prec emax)))
  (a : ann_maps (fnote (binary_float prec emax) (binary_float prec emax) (binary_float prec emax))),
  bare a col -> proper_training mx bs -> bs <> [] -> Forall not_infinite (items mx bs) ->
  exists scale, trains_one col (max_abs_recipe col ma_policy mx) a bs scale /\
  forall x, In x (items mx bs) -> is_finite x = true -> within (-1) 1 (ma_exec same_ty scale x) /\
    (B2R x <> 0 -> (forall y, In y (items mx bs) -> is_finite y = true -> Rabs (B2R y) <= Rabs (B2R x)) -> Rabs (B2R (ma_exec same_ty scale x)) = 1).
Proof. exact @max_abs_float_whole. Qed.
Print Assumptions C80_max_abs_scaler.
Theorem C80_max_abs_scaler_integer : forall {prec emax : Z} {Hp : Prec_gt_0 prec} {Hm : Prec_lt_emax prec emax} signed w' w col mx (bs : list (list Z))
  (a : ann_maps (fnote Z Z (binary_float prec emax))), (64 < emax)%Z -> (w <= 8)%nat ->
  bare a col -> proper_training mx bs -> bs <> [] -> Forall (fun x => fits_s w (Z.abs x) = true) (items mx bs) ->
  let t := int_ty signed w' : numty prec emax Z in
  exists scale, trains_one col (max_abs_recipe col (maxabs_policy w (of_int (prec := prec) (emax := emax)) Bltb fzero) mx) a bs scale /\
  forall x, In x (items mx bs) -> within (-1) 1 (ma_exec t scale x) /\
    (x <> 0%Z -> (forall y, In y (items mx bs) -> (Z.abs y <= Z.abs x)%Z) -> Rabs (B2R (ma_exec t scale x)) = 1).
Proof. exact @max_abs_int_whole. Qed.
Print Assumptions C80_max_abs_scaler_integer.
(** MinMaxScaler over integers of at most 32 bits whose range fits the type (C27 shows what happens otherwise). *)
Theorem C80_min_max_scaler : forall (signed : bool) (w col mx : nat) (bs : list (list Z)) (a : ann_maps (fnote Z Z double)) (lo hi : Z), (1 <= w <= 4)%nat ->
  bare a col -> proper_training mx bs -> bs <> [] -> (lo < hi)%Z -> (forall v, fits signed w v = true <-> (lo <= v <= hi)%Z) ->
  Forall (fun v => fits signed w v = true) (items mx bs) ->
  (forall v u, In v (items mx bs) -> In u (items mx bs) -> fits signed w (v - u) = true \/ (v < u)%Z) ->
  let t := int_ty signed w : numty 53 1024 Z in
  exists s, trains_one col (min_max_scaler_recipe col t lo hi mx) a bs s /\ forall x, In x (items mx bs) -> within 0 1 (mm_exec t s x).
Proof. exact min_max_scaler_whole. Qed.
Print Assumptions C80_min_max_scaler.

(** ** Cases, by running the training loop. *)
Definition num (z : Z) : double := of_int z.
Definition nothing : ann_maps (fnote Z Z Z) := [[]; []].
Definition order_id {T} (h : list (T * Z)) : list (T * Z) := h.
(** MinMaxScaler of a floating point column (NaN: no value; [not_infinite]: no infinite value): the range is that of the numbers of the column,
    without any it refuses; no value stays NaN; if all numbers are equal, all become 0.  If the width of the range does not overflow: the
    order of the values is kept, the trained numbers end up between 0 and 1 (float32: up to 2^-23 above), the least at 0 and the greatest
    at 1, and any number is scaled as accurately as the arithmetic allows. *)
Theorem C80_min_max_scaler_double : forall col mx (bs : list (list double)) (a : ann_maps (fnote double double double)), bare a col -> proper_training mx bs -> bs <> [] -> Forall not_infinite (items mx bs) ->
  let l := numbers (items mx bs) in let steps := min_max_scaler_recipe col (same_ty : numty 53 1024 double) (Bopp Bmax_float) Bmax_float mx in
  (l = [] -> trains_throwing col steps a bs InvalidArgument) /\
  (l <> [] -> exists (mn mxv : double) s, (forall x, In x l -> B2R mn <= B2R x <= B2R mxv)%R /\ (exists x, In x l /\ B2R x = B2R mn) /\ (exists x, In x l /\ B2R x = B2R mxv) /\
     trains_one col steps a bs s /\ (forall x, is_nan x = true -> mm_exec same_ty s x = B754_nan) /\
     (B2R mn = B2R mxv -> forall x, is_nan x = false -> equals (mm_exec same_ty s x) 0) /\
     (is_finite (fsub mxv mn) = true ->
        keeps_order not_above (mm_exec same_ty s) /\
        (forall x, In x l -> within 0 1 (mm_exec same_ty s x) /\ (B2R x = B2R mn -> equals (mm_exec same_ty s x) 0) /\ (B2R mn < B2R mxv -> B2R x = B2R mxv -> equals (mm_exec same_ty s x) 1)%R) /\
        (B2R mn < B2R mxv -> forall x, is_finite x = true -> is_finite (mm_exec same_ty s x) = true ->
           accurate (4 * unit_error 53) (half_least 53 1024) (mm_exec same_ty s x) ((B2R x - B2R mn) / (B2R mxv - B2R mn)))%R)).
Proof. intros col mx bs a. exact (min_max_scaler_same (p := 53) (e := 1024) col mx bs a ltac:(lia)). Qed.
Theorem C80_min_max_scaler_float : forall col mx (bs : list (list float32)) (a : ann_maps (fnote float32 float32 double)), bare a col -> proper_training mx bs -> bs <> [] -> Forall not_infinite (items mx bs) ->
  let l := numbers (items mx bs) in let steps := min_max_scaler_recipe col float_to_double (Bopp Bmax_float) Bmax_float mx in
  (l = [] -> trains_throwing col steps a bs InvalidArgument) /\
  (l <> [] -> exists (mn mxv : float32) s, (forall x, In x l -> B2R mn <= B2R x <= B2R mxv)%R /\ (exists x, In x l /\ B2R x = B2R mn) /\ (exists x, In x l /\ B2R x = B2R mxv) /\
     trains_one col steps a bs s /\ (forall x, is_nan x = true -> mm_exec float_to_double s x = B754_nan) /\
     (B2R mn = B2R mxv -> forall x, is_nan x = false -> equals (mm_exec float_to_double s x) 0) /\
     (is_finite (fsub mxv mn) = true ->
        keeps_order not_above (mm_exec float_to_double s) /\
        ((B2R mn < B2R mxv)%R ->
           (forall x, In x l -> within 0 (1 + bpow radix2 (-23))%R (mm_exec float_to_double s x) /\ (B2R x = B2R mn -> equals (mm_exec float_to_double s x) 0) /\
              (B2R x = B2R mxv -> within (1 - bpow radix2 (-23))%R (1 + bpow radix2 (-23))%R (mm_exec float_to_double s x))) /\
           (forall x, is_finite x = true -> accurate (bpow radix2 (-23)) (half_least 53 1024) (mm_exec float_to_double s x) ((B2R x - B2R mn) / (B2R mxv - B2R mn))%R)))).
Proof. exact min_max_scaler_single. Qed.
(** Not promised: an infinite value.  A column of only +infinity trains the range [greatest finite float; +infinity], the least value of which
    never occurred, and the trained value itself is then scaled to NaN. *)
Theorem C80_infinite_range_refuted : ~ (forall mx (bs : list (list float32)) s, proper_training mx bs -> trained (minmax_policy Bltb (Bopp Bmax_float) Bmax_float) mx bs = Ok (Some s) ->
  exists x, In x (items mx bs) /\ Beqb x (fst s) = true) /\
  ~ (forall mx (bs : list (list float32)) s, proper_training mx bs -> trained (minmax_policy Bltb (Bopp Bmax_float) Bmax_float) mx bs = Ok (Some s) ->
  forall x s', In x (items mx bs) -> is_nan x = false -> mm_new float_to_double (fst s) (snd s) = Ok s' -> is_nan (mm_exec float_to_double s' x) = false).
Proof. exact infinite_range_refuted. Qed.

Example C80_label_case : match featurize (fun _ x => [x]) 9 1 (label_recipe Z.eqb Z.ltb order_id 1 9 [] true) nothing [[30; 10]; [20; 30]]%Z with
  | Some (Ok (a, [e])) => map (label_execute Z.eqb e) [10; 20; 30; 99]%Z = [Ok 1; Ok 2; Ok 3; Ok 0]%Z /\ nth 0 a [] = []
  | _ => False end.
Proof. vm_compute. auto. Qed.
Example C80_mode_case : match featurize (fun _ x => [x]) 9 0 (mode_recipe (oeqb Z.eqb) order_id 0 not_null mode_imputer 99) ([[]] : ann_maps (fnote (option Z) Z Z))
    [[Some 4; None]; [Some 7; None]; [None; Some 7]]%Z with
  | Some (Ok (_, [t])) => delivered t [None; Some 4]%Z = ([7; 4]%Z, Ok tt)
  | _ => False end.
Proof. vm_compute. reflexivity. Qed.
Example C80_mean_case : match featurize (fun _ x => [x]) 9 0 (mean_recipe (lp := 64) (le := 16384) 0 99) ([[]] : ann_maps (fnote (option Z) Z double)) [[Some 4; None]; [Some 7]]%Z with
  | Some (Ok (_, [t])) => map B2SF (fst (delivered t [None; Some 4]%Z)) = [S754_finite false 6192449487634432 (-50); B2SF (num 4)]
  | _ => False end.
Proof. vm_compute. reflexivity. Qed.
Example C80_standard_case : match featurize (fun _ x => [x]) 9 0 (standard_recipe (lp := 64) (le := 16384) 0 double_column (fstats_policy (lp := 64) (le := 16384)) float_stats 99 true true)
    ([[]] : ann_maps (fnote double double (binary_float 64 16384))) [[num 2; num 4]; [num 9]] with
  | Some (Ok (_, [s])) => (B2SF (fst s), B2SF (snd s)) = (S754_finite false 5629499534213120 (-50), S754_finite false 6629119157769903 (-51))
  | _ => False end.
Proof. vm_compute. reflexivity. Qed.
(** Two MaxAbsScalers, 2 and 4: both scale by 4, although what the second one is given is 0.5 and 1; alone it would scale by 1. *)
Example C80_reused_case :
  let recipe := max_abs_recipe 0 (ma_policy (prec := 53) (emax := 1024)) 9 in
  let apply (s x : double) := [ma_exec same_ty s x] in
  let scales r := match r : option (res (ann_maps (fnote double double double) * list double)) with Some (Ok (_, l)) => map B2SF l | _ => [] end in
  scales (featurize apply 9 0 (recipe ++ recipe) [[]] [[num 2; num 4]]) = [B2SF (num 4); B2SF (num 4)] /\
  scales (featurize apply 9 0 recipe [[]] [map (ma_exec same_ty (num 4)) [num 2; num 4]]) = [B2SF (num 1)].
Proof. vm_compute. auto. Qed.
(** The numbers 2, 4 and 5, with a NaN among them: the range is [2; 5]; 4 is scaled to 2/3. *)
Example C80_min_max_float_case : match featurize (fun _ x => [x]) 9 0 (min_max_scaler_recipe 0 (same_ty : numty 53 1024 double) (Bopp Bmax_float) Bmax_float 99)
    ([[]] : ann_maps (fnote double double double)) [[num 4; B754_nan]; [num 2; num 5]] with
  | Some (Ok (_, [s])) => map (fun x => B2SF (mm_exec same_ty s x)) [num 2; num 4; num 5; B754_nan] = [S754_zero false; S754_finite false 6004799503160661 (-53); B2SF (num 1); S754_nan]
  | _ => False end.
Proof. vm_compute. reflexivity. Qed.
