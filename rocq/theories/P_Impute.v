(** C35-C37: imputers. *)
From Verif Require Import Base M_Estimator M_Stats M_Pipeline M_Impute S_Stats S_Impute L_Stats L_Stats2 L_Stats3 L_Impute L_FloatMode.

(** C35.  [d]: the optional default value.  [delivered] runs execute on every input and then flush. *)
Theorem C35_forward_fill : forall (T : Type) (d : option T) (l : list (option T)),
  (d <> None \/ forall r, l <> None :: r) ->
  exists out, delivered (ffill d) l = (out, Ok tt) /\ pointwise out l (filled_forward d l).
Proof. exact @ffill_spec. Qed.
Print Assumptions C35_forward_fill.
(** The only other case: nothing to fill the first input with. *)
Theorem C35_no_source_throws : forall (T : Type) (l : list (option T)), delivered (ffill None) (None :: l) = ([], Throw RuntimeError).
Proof. exact @ffill_no_source. Qed.
Print Assumptions C35_no_source_throws.
(** Saving in the middle of a stream keeps the default but not the last value: the loaded transformer throws (or imputes
    the default) where the original goes on. *)
Theorem C35_save_mid_stream_refuted : forall (T : Type) (v : T),
  run_exec (ffill None) None [Some v] = ([v], Ok (Some v)) /\ run_exec (ffill None) (Some v) [None] = ([v], Ok (Some v)) /\
  delivered (ffill_reloaded None (Some v)) [None] = ([], Throw RuntimeError).
Proof. exact (fun T v => conj eq_refl (conj eq_refl eq_refl)). Qed.
Print Assumptions C35_save_mid_stream_refuted.
Example C35_case : delivered (ffill None) [Some 3; None; None; Some 5; None] = ([3;3;3;5;5], Ok tt)
  /\ delivered (ffill (Some 9)) [None; Some 3; None] = ([9;3;3], Ok tt).
Proof. split; reflexivity. Qed.

(** C36.  2^32 - 1 or more nulls in a row are beyond the 32-bit counter (see below). *)
Theorem C36_backward_fill : forall (T : Type) (d : option T) (l : list (option T)),
  Z.of_nat (longest_null_run l) < 2 ^ 32 - 1 ->
  (d <> None \/ l = [] \/ exists v r, l = r ++ [Some v]) ->
  exists out, delivered (bfill d) l = (out, Ok tt) /\ pointwise out l (filled_backward d l).
Proof. exact @bfill_spec. Qed.
Print Assumptions C36_backward_fill.
(** Without a default and with nulls at the end: everything before them is delivered, then flush throws. *)
Theorem C36_pending_throws : forall (T : Type) (l : list (option T)) (k : nat),
  Z.of_nat (longest_null_run l) < 2 ^ 32 - 1 -> (l = [] \/ exists v r, l = r ++ [Some v]) -> Z.of_nat (S k) < 2 ^ 32 ->
  exists out, delivered (bfill None) (l ++ repeat None (S k)) = (out, Throw RuntimeError) /\ pointwise out l (filled_backward None l).
Proof. exact @bfill_pending. Qed.
Print Assumptions C36_pending_throws.
(** With 2^32 - 1 nulls before a value the counter wraps: 2^32 inputs, no output at all. *)
Theorem C36_long_null_run_refuted : forall (T : Type) (d : option T) (v : T) (n : nat), Z.of_nat n = 2 ^ 32 - 1 ->
  delivered (bfill d) (repeat None n ++ [Some v]) = ([], Ok tt).
Proof. exact @bfill_wrap. Qed.
Print Assumptions C36_long_null_run_refuted.
(** Saving while nulls are pending forgets them: one null, save and load, one value: one output instead of two. *)
Theorem C36_save_mid_stream_refuted : forall (T : Type) (d : option T) (v : T),
  run_exec (bfill d) 0 [None] = ([], Ok 1) /\ run_exec (bfill d) 1 [Some v] = ([v; v], Ok 0) /\
  delivered (bfill_reloaded d 1) [Some v] = ([v], Ok tt).
Proof. exact (fun T d v => conj eq_refl (conj eq_refl eq_refl)). Qed.
Print Assumptions C36_save_mid_stream_refuted.
Example C36_case : delivered (bfill (Some 9)) [None; None; Some 3; Some 5; None; Some 6; None] = ([3;3;3;5;6;6;9], Ok tt)
  /\ delivered (bfill None) [None; Some 3; None] = ([3;3], Throw RuntimeError).
Proof. split; reflexivity. Qed.

(** C37.  Any imputed value, any conversion: one output per input, in order. *)
Theorem C37_imputer : forall (I T : Type) (cast : I -> T) (v : T) (l : list (option I)),
  delivered (imputer cast v) l = (map (fun x => match x with None => v | Some y => cast y end) l, Ok tt).
Proof. exact (fun I T cast v l => per_value_spec (option I) T _ l). Qed.
Print Assumptions C37_imputer.
(** Most-frequent imputation, from the training data to the outputs.  [h'] is the histogram in any iteration order. *)
Theorem C37_mode_and_cat_imputer : forall (T : Type) (eqb : T -> T -> bool), (forall x y, eqb x y = true <-> x = y) ->
  let e := oeqb eqb in
  forall mx bs h h' o, proper_training mx bs -> Z.of_nat (length (items mx bs)) < 2 ^ 32 ->
  trained (hist_policy e) mx bs = Ok (Some h) -> Permutation h h' -> trained (order_policy e []) mx bs = Ok (Some o) ->
  somes (items mx bs) <> [] ->
  exists v, In (Some v) (items mx bs) /\
    (forall w, In (Some w) (items mx bs) -> occ e (Some w) (items mx bs) <= occ e (Some v) (items mx bs) /\
      (occ e (Some w) (items mx bs) = occ e (Some v) (items mx bs) -> w <> v -> appears_before (items mx bs) (Some v) (Some w))) /\
    exists tc tm, (do m <- mode_complete e not_null h' o; cat_imputer m) = Ok tc /\
      (do m <- mode_complete e not_null h' o; mode_imputer m) = Ok tm /\
      forall l, delivered tc l = (map (replace_null v) l, Ok tt) /\ delivered tm l = (map (replace_null v) l, Ok tt).
Proof.
  exact (fun T eqb Heq mx bs h h' o H1 H2 H3 H4 H5 H6 =>
    match cat_imputer_spec eqb Heq mx bs h h' o H1 H2 H3 H4 H5 H6 with
    | ex_intro _ v (conj A (conj B (conj C D))) =>
        ex_intro _ v (conj A (conj B (ex_intro _ _ (ex_intro _ _ (conj C (conj D (fun l =>
          conj (per_value_spec (option T) T _ l) (per_value_spec (option T) T _ l))))))))
    end).
Qed.
Print Assumptions C37_mode_and_cat_imputer.
Theorem C37_mode_without_values_throws : forall (T : Type) (eqb : T -> T -> bool), (forall x y, eqb x y = true <-> x = y) ->
  let e := oeqb eqb in
  forall mx bs h h' o, proper_training mx bs -> Z.of_nat (length (items mx bs)) < 2 ^ 32 ->
  trained (hist_policy e) mx bs = Ok (Some h) -> Permutation h h' -> trained (order_policy e []) mx bs = Ok (Some o) ->
  somes (items mx bs) = [] -> mode_complete e not_null h' o = Throw RuntimeError.
Proof. exact @cat_imputer_none. Qed.
Print Assumptions C37_mode_without_values_throws.
(** Columns of floating point numbers: NaN is the null value and equal to nothing, and equal numbers need not be identical
    (0.0 and -0.0).  [v] stands first among the numbers equal to it, after [a]. *)
Theorem C37_mode_float : forall (T : Type) (eqb : T -> T -> bool),
  (forall x, eqb x x = true) -> (forall x y, eqb x y = eqb y x) -> (forall x y z, eqb x y = true -> eqb y z = true -> eqb x z = true) ->
  let e := feqb eqb in
  forall mx bs h h' o, proper_training mx bs -> Z.of_nat (length (items mx bs)) < 2 ^ 32 ->
  trained (hist_policy e) mx bs = Ok (Some h) -> Permutation h h' -> trained (order_policy e []) mx bs = Ok (Some o) ->
  (somes (items mx bs) <> [] ->
   exists v a b, items mx bs = a ++ Some v :: b /\ (forall u, In (Some u) a -> eqb u v = false) /\
     (forall w, In (Some w) (items mx bs) -> occ e (Some w) (items mx bs) <= occ e (Some v) (items mx bs) /\
       (occ e (Some w) (items mx bs) = occ e (Some v) (items mx bs) -> eqb w v = false -> forall u, In (Some u) a -> eqb u w = false)) /\
     exists tc tm, (do m <- mode_complete e not_null h' o; cat_imputer m) = Ok tc /\
       (do m <- mode_complete e not_null h' o; mode_imputer m) = Ok tm /\
       forall l, delivered tc l = (map (replace_null v) l, Ok tt) /\ delivered tm l = (map (replace_null v) l, Ok tt)) /\
  (somes (items mx bs) = [] -> mode_complete e not_null h' o = Throw RuntimeError).
Proof. exact @float_mode_imputer. Qed.
Print Assumptions C37_mode_float.
(** Sign and magnitude: 0 and -0 are equal and occur three times together, more often than any other number or the nulls by themselves. *)
Example C37_float_case :
  let value (p : bool * Z) := if fst p then - snd p else snd p in
  let eqb (p q : bool * Z) := value p =? value q in
  let bs := [[None; Some (false, 2); Some (true, 0); None]; [Some (false, 0); Some (false, 2); None; Some (false, 0); None]] in
  proper_training 99 bs /\ exists h o t, trained (hist_policy (feqb eqb)) 99 bs = Ok (Some h) /\ trained (order_policy (feqb eqb) []) 99 bs = Ok (Some o) /\
    (do m <- mode_complete (feqb eqb) not_null h o; cat_imputer m) = Ok t /\ delivered t [None; Some (false, 0)] = ([(true, 0); (false, 0)], Ok tt).
Proof. split; [split; [lia|repeat constructor; discriminate]|]. do 3 eexists. repeat split. Qed.
(** Median imputation; [s] is the sorted non-null training data. *)
Theorem C37_median_imputer : forall (T : Type) (ltb : T -> T -> bool),
  (forall x, ltb x x = false) -> (forall x y z, ltb x y = true -> ltb y z = true -> ltb x z = true) ->
  (forall x y, ltb x y = false -> ltb y x = false -> x = y) ->
  forall (interpolate : bool) (avg : T -> T -> T) (zero : T) mx bs, proper_training mx bs ->
  forall s, Permutation s (somes (items mx bs)) -> StronglySorted (fun x y => ltb y x = false) s -> s <> [] ->
  exists t, (do m <- trained (median_policy ltb interpolate avg zero) mx bs; Ok (option_map (median_imputer (fun x => x)) m)) = Ok (Some t) /\
  forall l, delivered t l =
    (map (replace_null (if negb interpolate || Nat.odd (length s) then nth ((length s - 1) / 2) s zero
                        else avg (nth (length s / 2 - 1) s zero) (nth (length s / 2) s zero))) l, Ok tt).
Proof. exact @median_imputer_spec. Qed.
Print Assumptions C37_median_imputer.
(** Minimum and maximum imputation. *)
Theorem C37_min_max_imputer : forall (T : Type) (ltb : T -> T -> bool),
  (forall x, ltb x x = false) -> (forall x y z, ltb x y = true -> ltb y z = true -> ltb x z = true) ->
  (forall x y, ltb x y = false -> ltb y x = false -> x = y) ->
  forall (use_min : bool) mx bs, proper_training mx bs -> Z.of_nat (length (somes (items mx bs))) < 2 ^ 64 ->
  somes (items mx bs) <> [] ->
  exists v t, (if use_min then is_min ltb v (somes (items mx bs)) else is_max ltb v (somes (items mx bs))) /\
    (do r <- trained (basic_stats_policy ltb) mx bs;
     Ok (option_map (fun st => min_max_imputer use_min (fst (fst st)) (snd (fst st))) r)) = Ok (Some t) /\
    forall l, delivered t l = (map (replace_null v) l, Ok tt).
Proof. exact @min_max_imputer_spec. Qed.
Print Assumptions C37_min_max_imputer.
(** Mean imputation of integers: the sum of the non-null training values over their number. *)
Theorem C37_mean_imputer : forall (D : Type) (to_double : Z -> D) (average : Z -> Z -> D) mx bs, proper_training mx bs ->
  let data := somes (items mx bs) in
  Z.of_nat (length data) < 2 ^ 64 -> Forall (fun x => in_i64 x = true) data -> data <> [] ->
  (forall p, prefix p data -> in_i64 (zsum p) = true) ->
  exists t, (do r <- trained std_stats_policy mx bs;
     Ok (option_map (fun st => mean_imputer to_double average (snd st) (snd (fst st))) r)) = Ok (Some t) /\
    forall l, delivered t l =
      (map (fun x => match x with None => average (zsum data) (Z.of_nat (length data)) | Some y => to_double y end) l, Ok tt).
Proof. exact @mean_imputer_spec. Qed.
Print Assumptions C37_mean_imputer.
(** The markers. *)
Theorem C37_markers : forall (T : Type) (l : list (option T)),
  delivered imputation_marker l = (map (fun x => match x with None => true | Some _ => false end) l, Ok tt) /\
  delivered missing_dummies l = (map (fun x => match x with None => 1 | Some _ => 0 end) l, Ok tt).
Proof. exact (fun T l => conj (per_value_spec (option T) bool _ l) (per_value_spec (option T) Z _ l)). Qed.
Print Assumptions C37_markers.
Example C37_case :
  let bs := [[None; Some 4; Some 2]; [None; Some 2; None; Some 4; Some 5]] in
  proper_training 99 bs /\ somes (items 99 bs) = [4;2;2;4;5] /\
  (exists h o t, trained (hist_policy (oeqb Z.eqb)) 99 bs = Ok (Some h) /\ trained (order_policy (oeqb Z.eqb) []) 99 bs = Ok (Some o) /\
    (do m <- mode_complete (oeqb Z.eqb) not_null h o; cat_imputer m) = Ok t /\ delivered t [None; Some 7] = ([4;7], Ok tt)).
Proof. split; [split; [lia|repeat constructor; discriminate]|]. split; [reflexivity|]. do 3 eexists. repeat split. Qed.
