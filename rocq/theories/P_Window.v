(** C39-C44: circular buffer, rolling windows, lag/lead, pivot, short grains. *)
From Coq Require Import Floats.SpecFloat.
From Verif Require Import Base M_Archive M_Codec M_Save M_Stats M_Pipeline M_Impute M_Window S_Stats S_Window L_Window L_Window2 L_Window3.

(** C39.  Any sequence of pushes and clears; [buf_sub b k off]: reading the range of [k] elements from offset [off]. *)
Theorem C39_circular_buffer : forall (T : Type) (n : nat) (b0 : cbuf T) (ops : list (bop T)), buf_new n = Ok b0 ->
  let b := fold_left bstep ops b0 in
  buf_size b = Nat.min n (length (pushed ops)) /\
  buf_full b = Nat.leb n (length (pushed ops)) /\
  buf_elements b = Ok (lastn n (pushed ops)) /\
  forall k off, buf_sub b k off = Ok (firstn k (skipn off (lastn n (pushed ops)))).
Proof. exact @buffer_spec. Qed.
Print Assumptions C39_circular_buffer.
Theorem C39_capacity : forall (T : Type) (n : nat), (n = 0%nat -> @buf_new T n = Throw InvalidArgument) /\ (n <> 0%nat -> exists b, @buf_new T n = Ok b).
Proof. intros T n. split; [intros ->; reflexivity|]. destruct n; [congruence|]. intros _. eexists. reflexivity. Qed.
Print Assumptions C39_capacity.
Example C39_case : exists b0, buf_new 3 = Ok b0 /\
  let b := fold_left bstep [BPush 9; BClear; BPush 1; BPush 2; BPush 3; BPush 4; BPush 5] b0 in
  b_start b = 2%nat /\ buf_elements b = Ok [3; 4; 5] /\ buf_sub b 1 1 = Ok [4] /\ buf_sub b 7 2 = Ok [5] /\ buf_sub b 1 9 = Ok [].
Proof. eexists. split; [reflexivity|]. vm_compute. repeat split. Qed.

(** C40.  [f] is the window function; [calc] its implementation, which has to agree with it on the windows that are used. *)
Theorem C40_rolling_window : forall (I O : Type) (calc : list I -> res O) (null : O) (h mx mn : nat),
  (1 <= h)%nat -> (1 <= mn <= mx)%nat -> Z.of_nat (h + mx) < 2 ^ 32 -> forall f : list I -> O,
  exists tr, rolling_window calc null h mx mn = Ok tr /\
    forall l : list I,
    (forall t o, (t < length l)%nat -> (o < h)%nat -> (mn <= length (rows_up_to l h t o))%nat ->
       calc (window l h mx t o) = Ok (f (window l h mx t o))) ->
    run_all tr (t_cur tr) l =
      (map (fun t => map (window_output f null l h mx mn t) (seq 0 h)) (seq 0 (length l)), Ok (t_cur tr)).
Proof. exact @rolling_spec. Qed.
Print Assumptions C40_rolling_window.
Theorem C40_rejects : forall (I O : Type) (calc : list I -> res O) (null : O) (h mx mn : nat),
  (h = 0 \/ mx = 0 \/ mn = 0 \/ mx < mn)%nat -> rolling_window calc null h mx mn = Throw InvalidArgument.
Proof. exact @rolling_rejects. Qed.
Print Assumptions C40_rejects.
(** The bound is needed: horizon + maxWindow is computed in 32 bits. *)
Theorem C40_huge_windows_refuted : forall (I O : Type) (calc : list I -> res O) (null : O) (h mx mn : nat), Z.of_nat (h + mx) = 2 ^ 32 ->
  rolling_window calc null h mx mn = Throw InvalidArgument.
Proof. exact @rolling_wrap. Qed.
Print Assumptions C40_huge_windows_refuted.
(** Horizon 2, windows of at least 1 and at most 2 rows, sums. *)
Example C40_case : exists tr, rolling_window (fun l => Ok (zsum l)) (-1) 2 2 1 = Ok tr /\
  delivered tr [10; 20; 30; 40; 50] = ([[-1; -1]; [-1; 10]; [10; 30]; [30; 50]; [50; 70]], Ok tt).
Proof. eexists. split; reflexivity. Qed.

(** C41.  Values of an order in which not all values need to be distinguishable (0.0 and -0.0); no NaN.  The result is
    below every value and as small as one of them. *)
Theorem C41_minimum : forall (T : Type) (ltb : T -> T -> bool),
  (forall x y, ltb x y = true -> ltb y x = false) -> (forall x y z, ltb x y = false -> ltb y z = false -> ltb x z = false) ->
  forall (limit_max : T) (l : list T), l <> [] -> (forall x, In x l -> ltb limit_max x = false) ->
  let m := min_calc ltb limit_max l in
  (forall x, In x l -> ltb x m = false) /\ (exists x, In x l /\ ltb x m = false /\ ltb m x = false).
Proof. exact @min_calc_spec. Qed.
Print Assumptions C41_minimum.
(** Only for values not below numeric_limits<T>::min(): all integers. *)
Theorem C41_maximum_partial : forall (T : Type) (ltb : T -> T -> bool),
  (forall x y, ltb x y = true -> ltb y x = false) -> (forall x y z, ltb x y = false -> ltb y z = false -> ltb x z = false) ->
  forall (limit_min : T) (l : list T), l <> [] -> (forall x, In x l -> ltb x limit_min = false) ->
  let m := max_calc ltb limit_min l in
  (forall x, In x l -> ltb m x = false) /\ (exists x, In x l /\ ltb x m = false /\ ltb m x = false).
Proof. exact @max_calc_spec. Qed.
Print Assumptions C41_maximum_partial.
(** For float and double that limit is the least positive normal number: the maximum of negative values is not one of them. *)
Theorem C41_maximum_of_negatives_refuted : forall (T : Type) (ltb : T -> T -> bool),
  (forall x y, ltb x y = true -> ltb y x = false) ->
  forall (limit_min : T) (l : list T), (forall x, In x l -> ltb x limit_min = true) -> max_calc ltb limit_min l = limit_min.
Proof. exact @max_below. Qed.
Print Assumptions C41_maximum_of_negatives_refuted.
(** max [-1.0f; -2.0f] = FLT_MIN. *)
Example C41_float_maximum : max_calc SFltb (S754_finite false 8388608 (-149)) [S754_finite true 8388608 (-23); S754_finite true 8388608 (-22)]
  = S754_finite false 8388608 (-149).
Proof. reflexivity. Qed.
(** Integers; [div] is the division of the sum by the count in double. *)
Theorem C41_mean_partial : forall (D : Type) (zero : D) (div : Z -> Z -> D) (signed : bool) (w : nat) (l : list Z), (1 <= w)%nat -> l <> [] ->
  (forall p, prefix p l -> fits signed w (zsum p) = true) ->
  mean_calc zero div signed w l = Ok (div (zsum l) (Z.of_nat (length l))).
Proof. exact @mean_ok. Qed.
Print Assumptions C41_mean_partial.
(** Otherwise the sum wraps (int8_t: the mean of 100 and 100 is -28) or is undefined (int32_t). *)
Theorem C41_mean_overflow_refuted : forall (D : Type) (zero : D) (div : Z -> Z -> D),
  mean_calc zero div true 1 [100; 100] = Ok (div (-56) 2) /\ mean_calc zero div true 4 [2147483647; 1] = UB.
Proof. exact (fun D zero div => conj eq_refl eq_refl). Qed.
Print Assumptions C41_mean_overflow_refuted.
Example C41_case : min_calc Z.ltb 127 [3; -5; 7] = -5 /\ max_calc Z.ltb (-128) [-3; -5; -7] = -3 /\
  mean_calc 0 Z.div true 1 [100; -90; 20] = Ok 10.
Proof. repeat split. Qed.
Example C41_order : (forall x y, (x <? y) = true -> (y <? x) = false) /\ (forall x y z, (x <? y) = false -> (y <? z) = false -> (x <? z) = false).
Proof. split; intros; lia. Qed.

(** C42.  [run_all]: execute on each input, then flush. *)
Theorem C42_lag_lead : forall (T : Type) (null : T) (horizon : Z) (deltas : list Z), 1 <= horizon -> deltas <> [] ->
  horizon + Z.max 0 (- zmin deltas) + Z.max 0 (zmax deltas) < 2 ^ 32 ->
  exists tr, lag_lead null horizon deltas = Ok tr /\
    forall l : list T, run_all tr (t_cur tr) l = (map (lag_matrix null l horizon deltas) (seq 0 (length l)), Ok (t_cur tr)).
Proof. exact @lag_spec. Qed.
Print Assumptions C42_lag_lead.
Theorem C42_rejects : forall (T : Type) (null : T) (horizon : Z) (deltas : list Z),
  lag_new null 0 deltas = Throw InvalidArgument /\ lag_new null (Z.succ (Z.abs horizon)) [] = Throw InvalidArgument.
Proof. exact @lag_rejects. Qed.
Print Assumptions C42_rejects.
(** Saved after any inputs, it loads as new: horizon and offsets are kept, the history is not. *)
Theorem C42_save_load : forall (T : Type) (null : T) (horizon : Z) (deltas : list Z), 1 <= horizon -> deltas <> [] ->
  horizon + Z.max 0 (- zmin deltas) + Z.max 0 (zmax deltas) < 2 ^ 32 ->
  exists t0, lag_new null horizon deltas = Ok t0 /\
    forall (l : list T) o t further, feed (lag_step (T := T)) t0 l = (o, Ok t) -> Z.of_nat (length deltas) < 2 ^ 32 ->
      lag_load null (lag_save t ++ further) = Ok (t0, further).
Proof. exact @lag_save_load. Qed.
Print Assumptions C42_save_load.
(** Offsets -1 and 2, horizon 2. *)
Example C42_case : exists tr, lag_lead 0 2 [-1; 2] = Ok tr /\
  delivered tr [10; 20; 30] = ([[[0; 0]; [20; 30]]; [[0; 10]; [30; 0]]; [[10; 20]; [0; 0]]], Ok tt) /\
  lag_matrix 0 [10; 20; 30] 2 [-1; 2] 1 = [[0; 10]; [30; 0]].
Proof. eexists. split; [reflexivity|]. split; reflexivity. Qed.

(** C43.  A matrix is its number of columns and its rows. *)
Theorem C43_pivot : forall (T : Type) (ms : list (matrix T)) (cols : nat), ms <> [] -> Forall (fun m => fst m = cols) ms -> Forall matrix_ok ms ->
  pivot ms = (map (fun c => somes (whole_column ms c)) (filter (fun c => negb (has_null (whole_column ms c))) (seq 0 cols)), Ok tt).
Proof. exact @pivot_spec. Qed.
Print Assumptions C43_pivot.
(** No matrices: an exception.  Different numbers of columns: nothing is emitted, and it throws unless each column has a
    null before the first matrix that differs. *)
Theorem C43_bad_input : forall (T : Type) (cols : nat) (ms : list (matrix T)) (m : matrix T) (rest : list (matrix T)),
  @pivot T [] = ([], Throw InvalidArgument) /\
  (ms <> [] -> Forall (fun m => fst m = cols) ms -> Forall matrix_ok ms -> fst m <> cols ->
   pivot (ms ++ m :: rest) = ([], if forallb (fun c => has_null (whole_column ms c)) (seq 0 cols) then Ok tt else Throw InvalidArgument)).
Proof. exact (fun T cols ms m rest => conj eq_refl (pivot_bad cols ms m rest)). Qed.
Print Assumptions C43_bad_input.
Example C43_case : pivot [(3%nat, [[Some 1; None; Some 3]]); (3%nat, [[Some 4; Some 5; Some 6]; [Some 7; Some 8; Some 9]])] = ([[1; 4; 7]; [3; 6; 9]], Ok tt).
Proof. reflexivity. Qed.

(** C44.  [m']: the training counts in any iteration order.  Up to 2^32 - 1 training rows. *)
Theorem C44_short_grains : forall (K : Type) (eqb : K -> K -> bool), (forall x y, eqb x y = true <-> x = y) ->
  forall (batches : list (list K)) (m' : list (K * Z)) (min_points : Z) (rows : list K),
  Z.of_nat (length (concat batches)) < 2 ^ 32 -> 1 <= min_points -> Permutation (sg_train eqb batches) m' ->
  delivered (sg_drop eqb (sg_create min_points m')) rows = (map (fun g => occ eqb g (concat batches) <? min_points) rows, Ok tt).
Proof. exact @sg_spec. Qed.
Print Assumptions C44_short_grains.
Example C44_case : delivered (sg_drop Z.eqb (sg_create 2 (sg_train Z.eqb [[1; 2; 1]; [3; 2; 1]]))) [3; 2; 1; 4] = ([true; false; false; true], Ok tt).
Proof. reflexivity. Qed.
