(** C89: completing the training of a featurizer without [on_data_completed].  [cut_short ... bs]: begin the training, hand over the batches [bs]
    while the estimator is Training, complete the training and ask for the transformer (M_Early); [trains_to]: the training loop to its end (C80);
    [same_early]: both end in the same (S_Early).  [one_maker xs steps]: a featurizer with a limit on the number of rows above [length xs]. *)
From Flocq Require Import Core.Core IEEE754.BinarySingleNaN.
From Verif Require Import Base M_Estimator M_Stats M_Encoders M_Impute M_Scale M_FloatStats M_FloatScale M_Pipeline M_Featurizer M_Recipes
  S_Stats S_Featurizer M_Early S_Early L_Early L_Early2.

(** Any featurizer: the first of its estimators that wants rows gets all of them, the ones behind it get none; then the transformer is made, or
    the exception of the first estimator that refuses is thrown. *)
Theorem C89_early : forall {V Ann Tr : Type} (apply : Tr -> V -> list V) col (steps : list (fstep V Ann Tr)) (a : ann_maps Ann) (bs : list (list V)),
  one_maker (concat bs) steps -> (col < length a)%nat -> Forall (fun b => b <> []) bs ->
  cut_short apply col steps a bs = one_pass col steps a (concat bs).
Proof. exact @cut_short_spec. Qed.
Print Assumptions C89_early.
(** So it makes no difference for one in which only the first estimator wants rows. *)
Theorem C89_single_pass : forall {V Ann Tr : Type} (apply : Tr -> V -> list V) col (steps : list (fstep V Ann Tr)) (a : ann_maps Ann) (bs : list (list V)),
  one_maker (concat bs) steps -> single_pass steps -> (col < length a)%nat -> Forall (fun b => b <> []) bs -> bs <> [] ->
  same_early apply col steps a bs.
Proof. exact @early_is_trained. Qed.
Print Assumptions C89_single_pass.
(** Such are the encoders, ... *)
Theorem C89_encoders : forall {T : Type} (eqb ltb : T -> T -> bool) order (col mx : nat) existing missing (bs : list (list T)) (a : ann_maps (fnote T T T)) applye applyn,
  (col < length a)%nat -> Forall (fun b => b <> []) bs -> bs <> [] -> (length (concat bs) < mx)%nat ->
  same_early applye col (label_recipe eqb ltb order col mx existing missing) a bs /\
  same_early applye col (onehot_recipe eqb ltb order col mx existing missing) a bs /\
  same_early applyn col (numericalize_recipe eqb ltb order col mx) a bs.
Proof. exact @encoders_same. Qed.
Print Assumptions C89_encoders.
(** ... the imputers of minima, maxima, medians and means, ... *)
Theorem C89_imputers : forall {lp le : Z} {HLp : Prec_gt_0 lp} {HLm : Prec_lt_emax lp le} {p e : Z} {Hp : Prec_gt_0 p} {Hm : Prec_lt_emax p e} {U I}
  (ltb : U -> U -> bool) use_min (cast : I -> binary_float p e) interpolate (avg : binary_float p e -> binary_float p e -> binary_float p e) (zero : binary_float p e) col mx
  (b1 : list (list (option U))) (b2 : list (list (option I))) (b3 : list (list (option Z))) (b4 : list (list (binary_float p e)))
  (a1 : ann_maps (fnote (option U) U (binary_float p e))) (a2 : ann_maps (fnote (option I) I (binary_float p e))) (a3 : ann_maps (fnote (option Z) Z double))
  (a4 : ann_maps (fnote (binary_float p e) (binary_float p e) double)) y1 y2 y3 y4,
  (col < length a1)%nat -> (col < length a2)%nat -> (col < length a3)%nat -> (col < length a4)%nat ->
  Forall (fun b => b <> []) b1 -> Forall (fun b => b <> []) b2 -> Forall (fun b => b <> []) b3 -> Forall (fun b => b <> []) b4 ->
  b1 <> [] -> b2 <> [] -> b3 <> [] -> b4 <> [] ->
  (length (concat b1) < mx)%nat -> (length (concat b2) < mx)%nat -> (length (concat b3) < mx)%nat -> (length (concat b4) < mx)%nat ->
  same_early y1 col (min_max_recipe col ltb use_min mx) a1 b1 /\
  same_early y2 col (median_recipe col cast Bltb interpolate avg zero mx) a2 b2 /\
  same_early y3 col (mean_recipe (lp := lp) (le := le) col mx) a3 b3 /\
  same_early y4 col (float_mean_recipe (lp := lp) (le := le) col mx) a4 b4.
Proof. exact @imputers_same. Qed.
Print Assumptions C89_imputers.
(** ... and the max-abs and min-max scalers. *)
Theorem C89_scalers : forall {p e : Z} {Hp : Prec_gt_0 p} {Hm : Prec_lt_emax p e} {I P} (pol : policy P I (binary_float p e)) (t : numty p e I) lo hi col mx
  (bs : list (list I)) (a : ann_maps (fnote I I (binary_float p e))) y1 y2,
  (col < length a)%nat -> Forall (fun b => b <> []) bs -> bs <> [] -> (length (concat bs) < mx)%nat ->
  same_early y1 col (max_abs_recipe col pol mx) a bs /\ same_early y2 col (min_max_scaler_recipe col t lo hi mx) a bs.
Proof. exact (fun p e Hp Hm => @scalers_same p e). Qed.
Print Assumptions C89_scalers.

(** The others read the rows more than once: completed early, they never make a transformer from part of what they need; they throw. *)
Theorem C89_standard_scaler : forall {lp le : Z} {HLp : Prec_gt_0 lp} {HLm : Prec_lt_emax lp le} {I U P A} (apply : double * double -> I -> list I) col
  (t : numty 53 1024 I) (stats : policy P I A) (tag : A -> res (fnote I U (binary_float lp le))) mx wm ws (a : ann_maps (fnote I U (binary_float lp le))) bs p0 x mn mxv c avg,
  bare a col -> proper_training mx bs -> (length (concat bs) < mx)%nat -> p_begin stats (p_init stats) = Ok (p0, true) ->
  trained stats mx bs = Ok (Some x) -> tag x = Ok (NStats mn mxv c avg) ->
  cut_short apply col (standard_recipe col t stats tag mx wm ws) a bs = Throw RuntimeError.
Proof. exact @standard_early. Qed.
Print Assumptions C89_standard_scaler.
Theorem C89_robust_scaler : forall {lp le : Z} {HLp : Prec_gt_0 lp} {HLm : Prec_lt_emax lp le} {p e : Z} {Hp : Prec_gt_0 p} {Hm : Prec_lt_emax p e}
  (apply : binary_float p e * binary_float p e -> Z -> list Z) col signed w mx wc q (a : ann_maps (fnote Z Z (binary_float p e))) bs x,
  bare a col -> proper_training mx bs -> (length (concat bs) < mx)%nat ->
  trained (via (fun x => Some (of_int x)) (median_policy Bltb true midpoint fzero)) mx bs = Ok (Some x) ->
  cut_short apply col (robust_recipe (lp := lp) (le := le) col signed w mx wc q) a bs = Throw RuntimeError.
Proof. exact @robust_early. Qed.
Print Assumptions C89_robust_scaler.
Theorem C89_robust_scaler_float : forall {lp le : Z} {HLp : Prec_gt_0 lp} {HLm : Prec_lt_emax lp le} {p e : Z} {Hp : Prec_gt_0 p} {Hm : Prec_lt_emax p e}
  (apply : binary_float p e * binary_float p e -> binary_float p e -> list (binary_float p e)) col mx wc q
  (a : ann_maps (fnote (binary_float p e) (binary_float p e) (binary_float p e))) bs x,
  bare a col -> proper_training mx bs -> (length (concat bs) < mx)%nat ->
  trained (via as_null (median_policy Bltb true midpoint fzero)) mx bs = Ok (Some x) ->
  cut_short apply col (robust_float_recipe (lp := lp) (le := le) col mx wc q) a bs = Throw RuntimeError.
Proof. exact @robust_float_early. Qed.
Print Assumptions C89_robust_scaler_float.
Theorem C89_mode_imputers : forall {T U F Tr : Type} (eqb : T -> T -> bool) order col (supported : T -> bool) (finish : T -> res Tr) (apply : Tr -> T -> list T) mx
  (a : ann_maps (fnote T U F)) bs h,
  bare a col -> proper_training mx bs -> (length (concat bs) < mx)%nat -> trained (hist_policy eqb) mx bs = Ok (Some h) ->
  cut_short apply col (mode_recipe eqb order col supported finish mx) a bs = Throw InvalidArgument.
Proof. exact @mode_early. Qed.
Print Assumptions C89_mode_imputers.

(** Examples: a label encoder after two batches; the hypotheses of the standard scaler hold for a column of integers. *)
Example C89_label_case : rmap snd (cut_short (fun _ x => [x]) 0 (label_recipe (U := Z) (F := Z) Z.eqb Z.ltb (fun h => h) 0 10 [] false) [[]] [[30; 10]; [30; 20]]%Z) =
  Ok [mkEncoder [(10, 0); (20, 1); (30, 2)]%Z false].
Proof. vm_compute. reflexivity. Qed.
Definition extended := binary_float 64 16384.
Example C89_standard_case : exists x, trained (via Some std_stats_policy) 10 [[3]; [5]]%Z = Ok (Some x) /\
  exists mn mx c avg, with_average (lp := 64) (le := 16384) (T := Z) (F := extended) x = Ok (NStats mn mx c avg).
Proof. eexists. split; [vm_compute; reflexivity|]. unfold with_average. replace (average_accepted _ _ _) with true by (vm_compute; reflexivity). do 4 eexists. reflexivity. Qed.
