(** C81: the order of the training rows. *)
From Coq Require Import Reals Lra SpecFloat.
From Flocq Require Import Core.Core IEEE754.BinarySingleNaN.
From Verif Require Import Base M_Archive M_Codec M_Estimator M_Stats M_Encoders M_Impute M_Scale M_FloatStats M_Pipeline M_Featurizer M_Recipes
  S_Stats S_Impute S_FloatStats S_Scale S_Featurizer S_Order L_Order L_Order2 L_Order3 L_Order4 L_Order5 L_Order6 L_Order7.
From Verif Require Import M_String M_Text S_Text M_Grain M_Docs S_Docs M_Keyed S_Keyed M_TsImpute S_TsImpute M_FloatText M_TsSave M_TsRows S_TsRows M_TsTrain S_TsTrain.
Open Scope Z_scope.

(** ** Encoders: the same transformer, whatever the order of the rows, the batches and the hash order. *)
Theorem C81_label_encoder : forall {T : Type} (eqb ltb : T -> T -> bool) (order : list (T * Z) -> list (T * Z)), total_order eqb ltb -> (forall h, Permutation h (order h)) ->
  forall (col mx : nat) (bs bs' : list (list T)) (a : ann_maps (fnote T T T)), bare a col -> shuffled mx bs bs' ->
  forall existing (missing : bool), trains_alike eq col (label_recipe eqb ltb order col mx existing missing) a bs bs'.
Proof. exact @label_alike. Qed.
Print Assumptions C81_label_encoder.
Theorem C81_one_hot : forall {T : Type} (eqb ltb : T -> T -> bool) (order : list (T * Z) -> list (T * Z)), total_order eqb ltb -> (forall h, Permutation h (order h)) ->
  forall (col mx : nat) (bs bs' : list (list T)) (a : ann_maps (fnote T T T)), bare a col -> shuffled mx bs bs' ->
  forall existing (missing : bool), trains_alike eq col (onehot_recipe eqb ltb order col mx existing missing) a bs bs'.
Proof. exact @onehot_alike. Qed.
Print Assumptions C81_one_hot.
Theorem C81_numericalize : forall {T : Type} (eqb ltb : T -> T -> bool) (order : list (T * Z) -> list (T * Z)), total_order eqb ltb -> (forall h, Permutation h (order h)) ->
  forall (col mx : nat) (bs bs' : list (list T)) (a : ann_maps (fnote T T T)), bare a col -> shuffled mx bs bs' ->
  trains_alike eq col (numericalize_recipe eqb ltb order col mx) a bs bs'.
Proof. exact @numericalize_alike. Qed.
Print Assumptions C81_numericalize.

(** ** Imputers.  The most frequent value, if there is only one ... *)
Theorem C81_mode_imputers : forall {T : Type} (eqb : T -> T -> bool) (order : list (option T * Z) -> list (option T * Z)),
  (forall x y, eqb x y = true <-> x = y) -> (forall h, Permutation h (order h)) ->
  forall (col mx : nat) (bs bs' : list (list (option T))) (a : ann_maps (fnote (option T) T T)), bare a col -> shuffled mx bs bs' ->
  Z.of_nat (length (items mx bs)) < 2 ^ 32 ->
  (forall v w, most_frequent (oeqb eqb) (items mx bs) v -> most_frequent (oeqb eqb) (items mx bs) w -> v = w) ->
  trains_alike same_output col (mode_recipe (oeqb eqb) order col not_null cat_imputer mx) a bs bs' /\
  trains_alike same_output col (mode_recipe (oeqb eqb) order col not_null mode_imputer mx) a bs bs'.
Proof. exact @mode_alike. Qed.
Print Assumptions C81_mode_imputers.
(** ... but of two that are equally frequent it is the one that came first: "the most frequent value does not depend on the order" is
    false. *)
Theorem C81_mode_tie_refuted : forall {T : Type} (eqb : T -> T -> bool) (order : list (option T * Z) -> list (option T * Z)),
  (forall x y, eqb x y = true <-> x = y) -> (forall h, Permutation h (order h)) ->
  forall (v w : T) col (a : ann_maps (fnote (option T) T T)) mx, v <> w -> (2 <= mx)%nat -> bare a col ->
  let steps := mode_recipe (oeqb eqb) order col not_null mode_imputer mx in
  exists t t', trains_one col steps a [[Some v; Some w]] t /\ trains_one col steps a [[Some w; Some v]] t' /\
    delivered t [None] = ([v], Ok tt) /\ delivered t' [None] = ([w], Ok tt).
Proof. exact @tie_order. Qed.
Print Assumptions C81_mode_tie_refuted.
Theorem C81_min_max_imputer : forall {T : Type} (ltb : T -> T -> bool),
  (forall x, ltb x x = false) -> (forall x y z, ltb x y = true -> ltb y z = true -> ltb x z = true) -> (forall x y, ltb x y = false -> ltb y x = false -> x = y) ->
  forall (use_min : bool) (col mx : nat) (bs bs' : list (list (option T))) (a : ann_maps (fnote (option T) T T)), bare a col -> shuffled mx bs bs' ->
  trains_alike eq col (min_max_recipe col ltb use_min mx) a bs bs'.
Proof. exact @min_max_alike. Qed.
Print Assumptions C81_min_max_imputer.
(** Medians: the same numbers (a zero may have the other sign); the same transformer if no value is a negative zero, as in integer
    columns. *)
Theorem C81_median_imputer : forall {p e : Z} {Hp : Prec_gt_0 p} {Hm : Prec_lt_emax p e} {I U : Type} (cast : I -> binary_float p e) (interpolate : bool)
  col mx (bs bs' : list (list (option I))) (a : ann_maps (fnote (option I) U (binary_float p e))),
  bare a col -> shuffled mx bs bs' -> (forall x, In (Some x) (items mx bs) -> is_nan (cast x) = false) ->
  let steps := median_recipe col cast Bltb interpolate midpoint fzero mx in
  trains_alike (fun t t' => forall rows, exists out out', delivered t rows = (out, Ok tt) /\ delivered t' rows = (out', Ok tt) /\ Forall2 same_number out out') col steps a bs bs' /\
  ((forall x, In (Some x) (items mx bs) -> cast x <> B754_zero true) -> trains_alike eq col steps a bs bs').
Proof. exact @median_alike. Qed.
Print Assumptions C81_median_imputer.
(** Means of integers, if the sum stays within 64 bits in both orders ... *)
Theorem C81_mean_imputer : forall {lp le : Z} {HLp : Prec_gt_0 lp} {HLm : Prec_lt_emax lp le} col mx (bs bs' : list (list (option Z))) (a : ann_maps (fnote (option Z) Z double)),
  bare a col -> shuffled mx bs bs' -> Z.of_nat (length (somes (items mx bs))) < 2 ^ 64 -> Forall (fun x => in_i64 x = true) (somes (items mx bs)) ->
  (forall pre, prefix pre (somes (items mx bs)) -> in_i64 (zsum pre) = true) -> (forall pre, prefix pre (somes (items mx bs')) -> in_i64 (zsum pre) = true) ->
  trains_alike eq col (mean_recipe (lp := lp) (le := le) col mx) a bs bs'.
Proof. exact @mean_alike. Qed.
Print Assumptions C81_mean_imputer.
(** ... which the total alone does not decide: "integer columns can be trained on in any order" is false, ... *)
Theorem C81_overflow_refuted : forall {lp le : Z} {HLp : Prec_gt_0 lp} {HLm : Prec_lt_emax lp le}, 64 <= lp -> 1024 <= le ->
  let steps := mean_recipe (lp := lp) (le := le) 0 9 in
  let bs := [[Some 9223372036854775807; Some 1; Some (-1)]] in let bs' := [[Some 9223372036854775807; Some (-1); Some 1]] in
  shuffled 9 bs bs' /\ trains_throwing 0 steps [[]] bs RuntimeError /\ exists t, trains_one 0 steps [[]] bs' t.
Proof. exact @overflow_order. Qed.
Print Assumptions C81_overflow_refuted.
(** ... and so is the same statement for floating point columns (long double with 64 bits): training on 2^64, 1 throws, on 1, 2^64 it does not. *)
Theorem C81_float_mean_refuted : exists x y : double, (B2R x = bpow radix2 64 /\ B2R y = 1)%R /\
  let steps := float_mean_recipe (lp := 64) (le := 16384) 0 9 in
  trains_throwing 0 steps [[]] [[x; y]] RuntimeError /\ exists t, trains_one 0 steps [[]] [[y; x]] t.
Proof. destruct float_order as (x & y & A & B & C). exists x, y. exact (conj (conj A B) C). Qed.
Print Assumptions C81_float_mean_refuted.

(** ** Scalers. *)
Theorem C81_min_max_scaler : forall {T : Type} (ltb : T -> T -> bool),
  (forall x, ltb x x = false) -> (forall x y z, ltb x y = true -> ltb y z = true -> ltb x z = true) -> (forall x y, ltb x y = false -> ltb y x = false -> x = y) ->
  forall {prec emax : Z} {Hp : Prec_gt_0 prec} {Hm : Prec_lt_emax prec emax} (t : numty prec emax T) lo hi (col mx : nat) (bs bs' : list (list T))
    (a : ann_maps (fnote T T (binary_float prec emax))), n_lt t = ltb -> bare a col -> shuffled mx bs bs' ->
  trains_alike eq col (min_max_scaler_recipe col t lo hi mx) a bs bs'.
Proof. exact @min_max_scaler_alike. Qed.
Print Assumptions C81_min_max_scaler.
(** Every floating point column, with NaN, infinities and zeros of both signs: the same error, or transformers giving the same number for every value;
    of one type, and single precision scaled in double precision. *)
Theorem C81_min_max_scaler_float : forall {p e : Z} {Hp : Prec_gt_0 p} {Hm : Prec_lt_emax p e} col mx (bs bs' : list (list (binary_float p e)))
  (a : ann_maps (fnote (binary_float p e) (binary_float p e) (binary_float p e))), bare a col -> shuffled mx bs bs' ->
  trains_alike (fun s s' => forall x, same_number (mm_exec same_ty s x) (mm_exec same_ty s' x)) col (min_max_scaler_recipe col same_ty (Bopp Bmax_float) Bmax_float mx) a bs bs'.
Proof. exact @min_max_scaler_same_alike. Qed.
Print Assumptions C81_min_max_scaler_float.
Theorem C81_min_max_scaler_single : forall col mx (bs bs' : list (list float32)) (a : ann_maps (fnote float32 float32 double)), bare a col -> shuffled mx bs bs' ->
  trains_alike (fun s s' => forall x, same_number (mm_exec float_to_double s x) (mm_exec float_to_double s' x)) col
    (min_max_scaler_recipe col float_to_double (Bopp Bmax_float) Bmax_float mx) a bs bs'.
Proof. exact min_max_scaler_single_alike. Qed.
Print Assumptions C81_min_max_scaler_single.
(** Every floating point column, with NaN, infinities and zeros of both signs; then integers. *)
Theorem C81_max_abs_scaler : forall {p e : Z} {Hp : Prec_gt_0 p} {Hm : Prec_lt_emax p e} col mx (bs bs' : list (list (binary_float p e)))
  (a : ann_maps (fnote (binary_float p e) (binary_float p e) (binary_float p e))), bare a col -> shuffled mx bs bs' ->
  trains_alike eq col (max_abs_recipe col ma_policy mx) a bs bs'.
Proof. exact @max_abs_alike. Qed.
Print Assumptions C81_max_abs_scaler.
Theorem C81_max_abs_scaler_integer : forall {p e : Z} {Hp : Prec_gt_0 p} {Hm : Prec_lt_emax p e} w col mx (bs bs' : list (list Z))
  (a : ann_maps (fnote Z Z (binary_float p e))), bare a col -> shuffled mx bs bs' ->
  trains_alike eq col (max_abs_recipe col (maxabs_policy w (of_int (prec := p) (emax := e)) Bltb fzero) mx) a bs bs'.
Proof. exact @max_abs_int_alike. Qed.
Print Assumptions C81_max_abs_scaler_integer.
Theorem C81_robust_scaler : forall {lp le : Z} {HLp : Prec_gt_0 lp} {HLm : Prec_lt_emax lp le} {prec emax : Z} {Hp : Prec_gt_0 prec} {Hm : Prec_lt_emax prec emax}
  signed w (wc : bool) (q : float32 * float32) col mx (bs bs' : list (list Z)) (a : ann_maps (fnote Z Z (binary_float prec emax))),
  bare a col -> shuffled mx bs bs' -> (Z.of_nat (length (items mx bs)) < 2 ^ 64)%Z -> Forall (fun x => in_i64 x = true) (items mx bs) ->
  (forall pre, prefix pre (items mx bs) -> in_i64 (zsum pre) = true) -> (forall pre, prefix pre (items mx bs') -> in_i64 (zsum pre) = true) ->
  trains_alike eq col (robust_recipe (lp := lp) (le := le) col signed w mx wc q) a bs bs'.
Proof. exact @robust_alike. Qed.
Print Assumptions C81_robust_scaler.

(** ** Documents: the same terms with the same counts and indexes. *)
Theorem C81_documents : forall (re : list Z -> list Z -> nat -> option (nat * nat)) (nthe : list Z -> nat -> list Z) (perm : list (list Z * Z) -> list (list Z * Z)),
  nth_element_ok nthe -> (forall h, Permutation (perm h) h) -> forall d : dcfg, dcfg_ok d = true -> is_finite (dc_min d) = true -> is_finite (dc_max d) = true ->
  forall mx bs bs' corpus, shuffled mx bs bs' -> documents_ok (items mx bs) -> Z.of_nat (length (items mx bs)) < 2 ^ 32 ->
  NoDup (map fst (match dc_vocabulary d with Some v => v | None => [] end)) -> mapM (train_terms re (dc_text d)) (items mx bs) = Ok corpus ->
  (train_docs re nthe perm d mx bs = Throw InvalidArgument /\ train_docs re nthe perm d mx bs' = Throw InvalidArgument) \/
  exists s s', train_docs re nthe perm d mx bs = Ok (Some s) /\ train_docs re nthe perm d mx bs' = Ok (Some s') /\
    ds_total s = ds_total s' /\ Permutation (ds_terms s) (ds_terms s').
Proof. exact documents_alike. Qed.
Print Assumptions C81_documents.

(** ** Time series imputer: the rows of a key must be in order, but rows of different keys may come in any order (and in any batches): the
    step and the means are the same. *)
Theorem C81_time_series : forall (underflow : list Z -> bool) (types : list Z) (how : strategy) (suppress : bool) (bs bs' : list (list text_row)),
  bs <> [] -> bs' <> [] -> Forall (fun b => b <> []) bs -> Forall (fun b => b <> []) bs' -> of_width types (concat bs) ->
  (forall k, of_key key_eqb k (concat bs) = of_key key_eqb k (concat bs')) ->
  types <> [] -> (forall k g, In g (steps_of k (concat bs)) -> 0 < g < i64_max) -> (exists k, steps_of k (concat bs) <> []) ->
  readable underflow types (concat bs) -> filled_columns types (concat bs) ->
  let settings_of f m := mkSettings f types how (map (fun e => (fst e, map double_bits (snd e))) m) suppress in
  exists f m m', learns underflow types how suppress (train pipeline_impl bs) f m (settings_of f m) /\
    learns underflow types how suppress (train pipeline_impl bs') f m' (settings_of f m') /\
    forall k, match m_find key_eqb m k, m_find key_eqb m' k with
              | Some v, Some v' => length v = length types /\ length v' = length types /\
                  forall c, (c < length types)%nat -> float_column (nth c types 0) = true -> nth c v fzero = nth c v' fzero
              | None, None => True
              | _, _ => False
              end.
Proof. exact interleaved. Qed.
Print Assumptions C81_time_series.

(** ** Cases. *)
Example C81_case : shuffled 9 [[3; 1]; [2; 3]] [[1]; [3; 3; 2]] /\
  match featurize (fun _ x => [x]) 9 0 (label_recipe Z.eqb Z.ltb (fun h => h) 0 9 [] false) ([[]] : ann_maps (fnote Z Z Z)) [[3; 1]; [2; 3]],
        featurize (fun _ x => [x]) 9 0 (label_recipe Z.eqb Z.ltb (fun h => rev h) 0 9 [] false) ([[]] : ann_maps (fnote Z Z Z)) [[1]; [3; 3; 2]] with
  | Some (Ok (_, [t])), Some (Ok (_, [t'])) => t = t' /\ map (label_execute Z.eqb t) [1; 2; 3] = [Ok 0; Ok 1; Ok 2]
  | _, _ => False
  end.
Proof.
  split; [|vm_compute; auto]. split; [split; [lia|repeat constructor; discriminate]|]. split; [split; [lia|repeat constructor; discriminate]|].
  split; [discriminate|]. split; [discriminate|]. cbn. apply (perm_trans (l' := [1; 3; 2; 3])); [apply perm_swap|]. do 2 constructor. apply perm_swap.
Qed.
(** Zeros of both signs: which of them is scaled to which zero depends on the order, as negative zero is not below zero. *)
Example C81_zero_case : let z : double := B754_zero false in let m : double := B754_zero true in let one : double := of_int 1 in
  let steps := min_max_scaler_recipe 0 (same_ty : numty 53 1024 double) (Bopp Bmax_float) Bmax_float 9 in
  let scaled bs := match featurize (fun _ x => [x]) 9 0 steps ([[]] : ann_maps (fnote double double double)) bs with
                   | Some (Ok (_, [s])) => map (fun x => B2SF (mm_exec same_ty s x)) [z; m; one]
                   | _ => []
                   end in
  shuffled 9 [[z; m]; [one]] [[m]; [z; one]] /\
  scaled [[z; m]; [one]] = [S754_zero false; S754_zero true; B2SF one] /\ scaled [[m]; [z; one]] = [S754_zero false; S754_zero false; B2SF one].
Proof.
  intros z m one steps scaled. split; [|vm_compute; auto]. split; [split; [lia|repeat constructor; discriminate]|]. split; [split; [lia|repeat constructor; discriminate]|].
  split; [discriminate|]. split; [discriminate|]. cbn. apply perm_swap.
Qed.
Example C81_mode_case : forall v w, most_frequent (oeqb Z.eqb) [Some 4; None; Some 7; None; None; Some 7] v ->
  most_frequent (oeqb Z.eqb) [Some 4; None; Some 7; None; None; Some 7] w -> v = w.
Proof.
  assert (G : forall v, most_frequent (oeqb Z.eqb) [Some 4; None; Some 7; None; None; Some 7] v -> v = 7).
  { intros v [I M]. specialize (M 7 ltac:(cbn; tauto)). destruct I as [E|[E|[E|[E|[E|[E|[]]]]]]]; try discriminate E; injection E as <-; [|reflexivity|reflexivity].
    vm_compute in M. exfalso. now apply M. }
  intros v w V W. rewrite (G v V), (G w W). reflexivity.
Qed.
(** Two keys, interleaved in two ways; one Float64 column (12). *)
Example C81_time_series_case : let a := [97] in let b := [98] in let v := fun c => Some [c] in
  let bs := [[([a], (10, [v 49])); ([b], (5, [v 50]))]; [([a], (13, [v 51])); ([b], (25, [None]))]] in
  let bs' := [[([b], (5, [v 50]))]; [([b], (25, [None])); ([a], (10, [v 49])); ([a], (13, [v 51]))]] in
  of_width [12] (concat bs) /\ (forall k, of_key key_eqb k (concat bs) = of_key key_eqb k (concat bs')) /\ steps_of [a] (concat bs) = [3] /\ steps_of [b] (concat bs) = [20].
Proof.
  cbv zeta. split; [repeat constructor|]. split; [|split; vm_compute; reflexivity].
  intros k. unfold of_key. cbn [concat app filter fst].
  destruct (key_eqb [[97]] k) eqn:A; destruct (key_eqb [[98]] k) eqn:B; try reflexivity.
  apply key_eqb_eq in A. apply key_eqb_eq in B. congruence.
Qed.
