(** C18-C26: training-only estimators. *)
From Verif Require Import Base M_Estimator M_Stats S_Stats L_Estimator L_Stats L_Stats2 L_Stats3.

(** C18. *)
Theorem C18_histogram : forall (T : Type) (eqb : T -> T -> bool), (forall x y, eqb x y = true <-> x = y) ->
  forall mx bs, proper_training mx bs ->
  exists h, trained (hist_policy eqb) mx bs = Ok (Some h) /\
    NoDup (map fst h) /\ (forall k, In k (map fst h) <-> In k (items mx bs)) /\
    (forall k c, In (k, c) h -> c = occ eqb k (items mx bs) mod 2 ^ 32).
Proof. exact @hist_spec. Qed.
Print Assumptions C18_histogram.
(** Not so for NaN: every NaN becomes an entry of its own. *)
Theorem C18_nan_refuted : forall n, exists h,
  trained (hist_policy nan_eqb) (S n) [repeat None (S n)] = Ok (Some h) /\ h = repeat (None, 1) (S n).
Proof. exact hist_nan. Qed.
Print Assumptions C18_nan_refuted.
Example C18_case : proper_training 5 [[3;1];[3;3;1];[9]] /\
  trained (hist_policy Z.eqb) 5 [[3;1];[3;3;1];[9]] = Ok (Some [(3,3);(1,2)]).
Proof. split; [split; [lia|repeat constructor; discriminate]|reflexivity]. Qed.

(** C19.  [hist] is the histogram in whatever iteration order, [existing] the map the estimator is constructed with. *)
Theorem C19_index_map : forall (T : Type) (eqb ltb : T -> T -> bool), total_order eqb ltb ->
  forall hist existing, NoDup (map fst hist) -> NoDup (map fst existing) ->
  let m := create_index_map eqb ltb hist existing in
  let is_new x := negb (existsb (eqb x) (map fst existing)) in
  NoDup (map fst m) /\
  (forall k, In k (map fst m) <-> In k (map fst existing) \/ In k (map fst hist)) /\
  (forall k i, In (k, i) existing -> In (k, i) m) /\
  (forall k, In k (map fst hist) -> ~ In k (map fst existing) ->
     In (k, Z.of_nat (length existing + length (filter (fun x => ltb x k) (filter is_new (map fst hist)))) mod 2 ^ 32) m) /\
  (Permutation (map snd existing) (map Z.of_nat (seq 0 (length existing))) -> Z.of_nat (length m) <= 2 ^ 32 ->
     Permutation (map snd m) (map Z.of_nat (seq 0 (length m)))).
Proof. exact index_map_spec. Qed.
Print Assumptions C19_index_map.
(** The composition with the histogram training, for every iteration order. *)
Theorem C19_trained_index_map : forall (T : Type) (eqb ltb : T -> T -> bool), total_order eqb ltb ->
  forall mx bs, proper_training mx bs -> forall h h', trained (hist_policy eqb) mx bs = Ok (Some h) -> Permutation h h' ->
  let m := create_index_map eqb ltb h' [] in
  NoDup (map fst m) /\ (forall k, In k (map fst m) <-> In k (items mx bs)) /\
  (forall k, In k (items mx bs) -> exists n, distinct_count (filter (fun x => ltb x k) (items mx bs)) n /\ In (k, Z.of_nat n mod 2 ^ 32) m).
Proof. exact trained_index_map. Qed.
Print Assumptions C19_trained_index_map.
(** The map itself, not only its contents, is independent of the iteration order. *)
Theorem C19_order_independent : forall (T : Type) (eqb ltb : T -> T -> bool), total_order eqb ltb ->
  forall h h' existing, NoDup (map fst h) -> Permutation h h' ->
  create_index_map eqb ltb h existing = create_index_map eqb ltb h' existing.
Proof. exact index_map_perm. Qed.
Print Assumptions C19_order_independent.
(** With pre-existing values that are not dense two values may share an index. *)
Theorem C19_sparse_existing_refuted : exists hist existing : list (Z * Z),
  NoDup (map fst hist) /\ NoDup (map fst existing) /\ NoDup (map snd existing) /\
  ~ NoDup (map snd (create_index_map Z.eqb Z.ltb hist existing)).
Proof. exact sparse_existing. Qed.
Print Assumptions C19_sparse_existing_refuted.
Example C19_case : create_index_map Z.eqb Z.ltb [(7,1);(2,4);(5,1);(9,9)] [(5,0);(1,1)] = [(5,0);(1,1);(2,2);(7,3);(9,4)].
Proof. reflexivity. Qed.

(** C20. *)
Theorem C20_order : forall (T : Type) (eqb : T -> T -> bool), (forall x y, eqb x y = true <-> x = y) ->
  forall mx bs, proper_training mx bs ->
  match items mx bs with
  | [] => trained (order_policy eqb []) mx bs = Throw InvalidArgument
  | _ => exists m, trained (order_policy eqb []) mx bs = Ok (Some m) /\ NoDup (map fst m) /\
           (forall k, In k (map fst m) <-> In k (items mx bs)) /\
           (forall a k b, items mx bs = a ++ k :: b -> ~ In k a ->
              exists n, distinct_count a n /\ In (k, Z.of_nat n mod 2 ^ 32) m)
  end.
Proof. exact @order_spec. Qed.
Print Assumptions C20_order.
Example C20_case : trained (order_policy Z.eqb []) 9 [[3;1];[3;7;1]] = Ok (Some [(3,0);(1,1);(7,2)]).
Proof. reflexivity. Qed.

(** C21.  [supported] tells non-null values; [h'] is the histogram in any iteration order. *)
Theorem C21_mode : forall (T : Type) (eqb : T -> T -> bool), (forall x y, eqb x y = true <-> x = y) ->
  forall (supported : T -> bool) mx bs h h' o,
  proper_training mx bs -> Z.of_nat (length (items mx bs)) < 2 ^ 32 ->
  trained (hist_policy eqb) mx bs = Ok (Some h) -> Permutation h h' -> trained (order_policy eqb []) mx bs = Ok (Some o) ->
  (exists v, mode_complete eqb supported h' o = Ok v /\ In v (items mx bs) /\ supported v = true /\
     forall w, In w (items mx bs) -> supported w = true ->
       occ eqb w (items mx bs) <= occ eqb v (items mx bs) /\
       (occ eqb w (items mx bs) = occ eqb v (items mx bs) -> w <> v -> appears_before (items mx bs) v w))
  \/ (mode_complete eqb supported h' o = Throw RuntimeError /\ forall w, In w (items mx bs) -> supported w = false).
Proof. exact @mode_trained. Qed.
Print Assumptions C21_mode.
Theorem C21_empty_rejected : forall (T : Type) (eqb : T -> T -> bool) supported o, mode_complete eqb supported [] o = Throw RuntimeError.
Proof. reflexivity. Qed.
Example C21_case :
  let oz_eqb a b := match a, b with Some x, Some y => x =? y | None, None => true | _, _ => false end in
  let sup o := match o with Some _ => true | None => false end in
  let bs := [[None; Some 4; Some 2]; [None; Some 2; None; Some 4; Some 5]] in
  exists h o, trained (hist_policy oz_eqb) 99 bs = Ok (Some h) /\ trained (order_policy oz_eqb []) 99 bs = Ok (Some o) /\
  mode_complete oz_eqb sup h o = Ok (Some 4) /\ mode_complete oz_eqb sup (rev h) o = Ok (Some 4).
Proof. do 2 eexists. repeat split. Qed.

(** C22.  [s] is the sorted non-null training data. *)
Theorem C22_median : forall (T : Type) (ltb : T -> T -> bool),
  (forall x, ltb x x = false) -> (forall x y z, ltb x y = true -> ltb y z = true -> ltb x z = true) ->
  (forall x y, ltb x y = false -> ltb y x = false -> x = y) ->
  forall (interpolate : bool) (avg : T -> T -> T) (zero : T) mx bs, proper_training mx bs ->
  forall s, Permutation s (somes (items mx bs)) -> StronglySorted (fun x y => ltb y x = false) s ->
  trained (median_policy ltb interpolate avg zero) mx bs =
  (let n := length s in
   if Nat.eqb n 0 then Throw RuntimeError
   else if negb interpolate || Nat.odd n then Ok (Some (nth ((n - 1) / 2) s zero))
   else Ok (Some (avg (nth (n / 2 - 1) s zero) (nth (n / 2) s zero)))).
Proof. exact @median_spec. Qed.
Print Assumptions C22_median.
Example C22_case : trained (median_policy Z.ltb true (fun a b => (a + b) / 2) 0) 99 [[Some 9; None; Some 1]; [Some 7; Some 3]] = Ok (Some 5)
  /\ trained (median_policy Z.ltb false (fun a b => (a + b) / 2) 0) 99 [[Some 9; None; Some 1]; [Some 7; Some 3]] = Ok (Some 3)
  /\ trained (median_policy Z.ltb true (fun a b => (a + b) / 2) 0) 99 [[Some 9; None; Some 1]; [Some 7]] = Ok (Some 7).
Proof. repeat split. Qed.

(** C23.  [lo] and [hi] are numeric_limits lowest() and max(). *)
Theorem C23_min_max : forall (T : Type) (ltb : T -> T -> bool),
  (forall x, ltb x x = false) -> (forall x y z, ltb x y = true -> ltb y z = true -> ltb x z = true) ->
  (forall x y, ltb x y = false -> ltb y x = false -> x = y) ->
  forall lo hi mx bs, proper_training mx bs -> ltb lo hi = true ->
  (forall x, In x (items mx bs) -> ltb x lo = false /\ ltb hi x = false) ->
  (items mx bs = [] -> trained (minmax_policy ltb lo hi) mx bs = Throw InvalidArgument) /\
  (items mx bs <> [] -> exists mn mxv, trained (minmax_policy ltb lo hi) mx bs = Ok (Some (mn, mxv)) /\
     is_min ltb mn (items mx bs) /\ is_max ltb mxv (items mx bs)).
Proof. exact @minmax_spec. Qed.
Print Assumptions C23_min_max.
(** A value above max() (+infinity): the reported minimum is max(), a value that is not in the data. *)
Theorem C23_infinity_refuted : forall (T : Type) (ltb : T -> T -> bool) lo hi x, ltb hi x = true -> ltb x hi = false -> ltb lo x = true -> ltb x lo = false -> ltb x x = false ->
  forall n, trained (minmax_policy ltb lo hi) (S n) [[x]] = Ok (Some (hi, x)).
Proof. exact minmax_infinity. Qed.
Print Assumptions C23_infinity_refuted.
Theorem C23_basic_statistics : forall (T : Type) (ltb : T -> T -> bool),
  (forall x, ltb x x = false) -> (forall x y z, ltb x y = true -> ltb y z = true -> ltb x z = true) ->
  (forall x y, ltb x y = false -> ltb y x = false -> x = y) ->
  forall mx bs, proper_training mx bs -> Z.of_nat (length (somes (items mx bs))) < 2 ^ 64 ->
  (somes (items mx bs) = [] -> trained (basic_stats_policy ltb) mx bs = Throw RuntimeError) /\
  (somes (items mx bs) <> [] ->
     exists mn mxv, trained (basic_stats_policy ltb) mx bs = Ok (Some (mn, mxv, Z.of_nat (length (somes (items mx bs))))) /\
     is_min ltb mn (somes (items mx bs)) /\ is_max ltb mxv (somes (items mx bs))).
Proof. exact @basic_stats_spec. Qed.
Print Assumptions C23_basic_statistics.
Example C23_case : trained (minmax_policy Z.ltb (-128) 127) 9 [[5;-3];[8;0]] = Ok (Some (-3, 8))
  /\ trained (basic_stats_policy Z.ltb) 9 [[Some 5;None];[Some 8;None;Some (-1)]] = Ok (Some (-1, 8, 3)).
Proof. split; reflexivity. Qed.

(** C24.  One series. *)
Theorem C24_frequency : forall mx bs, proper_training mx bs ->
  (forall g, In g (gaps (items mx bs)) -> 0 < g < i64_max) ->
  (gaps (items mx bs) = [] -> trained freq_policy mx bs = Throw RuntimeError) /\
  (gaps (items mx bs) <> [] -> exists f, trained freq_policy mx bs = Ok (Some f) /\ least f (gaps (items mx bs))).
Proof. exact freq_spec. Qed.
Print Assumptions C24_frequency.
Theorem C24_unordered_rejected : forall mx bs, proper_training mx bs ->
  (forall g, In g (gaps (items mx bs)) -> g <= i64_max) ->
  (exists g, In g (gaps (items mx bs)) /\ g <= 0) -> trained freq_policy mx bs = Throw RuntimeError.
Proof. exact freq_bad. Qed.
Print Assumptions C24_unordered_rejected.
(** Many series in one stream; i64_max is duration::max(), the "not inferable" mark. *)
Theorem C24_grained_frequency : forall (K : Type) (keqb : K -> K -> bool), (forall x y, keqb x y = true <-> x = y) ->
  forall mx bs, proper_training mx bs ->
  (forall k g, In g (gaps (grain keqb k (items mx bs))) -> 0 < g < i64_max) ->
  exists f, trained (tsfreq_policy keqb) mx bs = Ok (Some f) /\
    ((f = i64_max /\ forall k, gaps (grain keqb k (items mx bs)) = []) \/
     ((exists k, In f (gaps (grain keqb k (items mx bs)))) /\ forall k g, In g (gaps (grain keqb k (items mx bs))) -> f <= g)).
Proof. exact @tsfreq_spec. Qed.
Print Assumptions C24_grained_frequency.
Theorem C24_grained_unordered_rejected : forall (K : Type) (keqb : K -> K -> bool), (forall x y, keqb x y = true <-> x = y) ->
  forall mx bs, proper_training mx bs ->
  (forall k g, In g (gaps (grain keqb k (items mx bs))) -> g <= i64_max) ->
  (exists k g, In g (gaps (grain keqb k (items mx bs))) /\ g <= 0) ->
  trained (tsfreq_policy keqb) mx bs = Throw RuntimeError.
Proof. exact @tsfreq_bad. Qed.
Print Assumptions C24_grained_unordered_rejected.
Theorem C24_global_minimum : forall fs, (forall f, In f fs -> f < i64_max) ->
  (fs = [] /\ global_min_freq fs = i64_max) \/ least (global_min_freq fs) fs.
Proof. exact global_min_spec. Qed.
Print Assumptions C24_global_minimum.
Example C24_case : trained freq_policy 9 [[10;30];[35;60]] = Ok (Some 5) /\ trained freq_policy 9 [[10;30];[30;60]] = Throw RuntimeError
  /\ trained (tsfreq_policy Z.eqb) 9 [[(1,10);(2,3);(1,30)];[(2,8);(1,31)]] = Ok (Some 1)
  /\ trained (tsfreq_policy Z.eqb) 9 [[(1,10);(2,3);(1,30)];[(2,3)]] = Throw RuntimeError.
Proof. repeat split. Qed.

(** C25.  All integer types but uint64_t fit in int64_t. *)
Theorem C25_integer_sums : forall mx bs, proper_training mx bs -> Z.of_nat (length (somes (items mx bs))) < 2 ^ 64 ->
  Forall (fun x => in_i64 x = true) (somes (items mx bs)) ->
  let l := somes (items mx bs) in
  (l = [] -> trained std_stats_policy mx bs = Throw RuntimeError) /\
  (l <> [] -> (forall p, prefix p l -> in_i64 (zsum p) = true) ->
     exists mn mxv, trained std_stats_policy mx bs = Ok (Some (mn, mxv, Z.of_nat (length l), zsum l)) /\ is_min Z.ltb mn l /\ is_max Z.ltb mxv l) /\
  (forall p, prefix p l -> in_i64 (zsum p) = false -> trained std_stats_policy mx bs = Throw RuntimeError).
Proof. exact std_spec. Qed.
Print Assumptions C25_integer_sums.
(** uint64_t values from 2^63 on: the overflow check itself overflows. *)
Theorem C25_uint64_refuted : forall x n, 2 ^ 63 <= x < 2 ^ 64 -> trained std_stats_policy (S n) [[Some x]] = UB.
Proof. exact std_uint64. Qed.
Print Assumptions C25_uint64_refuted.
Example C25_case : trained std_stats_policy 9 [[Some i64_max; None]; [Some (-5)]] = Ok (Some (-5, i64_max, 2, i64_max - 5))
  /\ trained std_stats_policy 9 [[Some i64_max; None]; [Some 1; Some (-1)]] = Throw RuntimeError.
Proof. split; reflexivity. Qed.

(** C26.  [conv] is the conversion of the input type to the transformed type, monotone; [w] the width of the input type
    after promotion. *)
Theorem C26_max_abs : forall (F : Type) (w : nat) (conv : Z -> F) (lt : F -> F -> bool),
  (forall x y, lt x y = false -> lt y x = false -> x = y) -> (forall a b, a <= b -> lt (conv b) (conv a) = false) ->
  forall mx bs, proper_training mx bs -> Forall (fun x => fits_s w (Z.abs x) = true) (items mx bs) ->
  exists m, trained (maxabs_policy w conv lt (conv 0)) mx bs = Ok (Some (conv m)) /\
    (forall x, In x (items mx bs) -> Z.abs x <= m) /\
    (items mx bs = [] /\ m = 0 \/ exists x, In x (items mx bs) /\ m = Z.abs x).
Proof. exact @maxabs_spec. Qed.
Print Assumptions C26_max_abs.
(** The least value of int32_t and int64_t has no negation. *)
Theorem C26_int_min_refuted : forall n, trained (maxabs_policy 4 (fun z => z) Z.ltb 0) (S n) [[-2147483648]] = UB
  /\ trained (maxabs_policy 8 (fun z => z) Z.ltb 0) (S n) [[-9223372036854775808]] = UB.
Proof. exact maxabs_int_min. Qed.
Print Assumptions C26_int_min_refuted.
Example C26_case : trained (maxabs_policy 4 (fun z => z) Z.ltb 0) 9 [[3;-7];[5]] = Ok (Some 7).
Proof. reflexivity. Qed.
