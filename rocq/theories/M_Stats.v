(** Models of the training-only estimators in src/Featurizers/Components.
    [std::unordered_map] is an association list with unique keys; its order stands for the unspecified iteration order, and
    every theorem that depends on iteration quantifies over all permutations. *)
From Verif Require Import Base M_Estimator.

Section Generic.
  Context {T : Type}.
  Variable eqb : T -> T -> bool.      (* std::equal_to / Traits<T>::key_equal *)
  Variable ltb : T -> T -> bool.      (* operator< *)

  Fixpoint m_find {V} (m : list (T * V)) (k : T) : option V :=
    match m with
    | [] => None
    | (x, v) :: r => if eqb x k then Some v else m_find r k
    end.
  (** [emplace]/[insert]: does nothing when the key is there. *)
  Definition m_emplace {V} (m : list (T * V)) (k : T) (v : V) : list (T * V) :=
    match m_find m k with Some _ => m | None => m ++ [(k, v)] end.
  Fixpoint m_update {V} (m : list (T * V)) (k : T) (f : V -> V) : list (T * V) :=
    match m with
    | [] => []
    | (x, v) :: r => if eqb x k then (x, f v) :: r else (x, v) :: m_update r k f
    end.

  (** HistogramEstimator.h:136-153: find or insert (input, 0); count += 1 (uint32_t). *)
  Definition hist_fit (h : list (T * Z)) (x : T) : res (list (T * Z)) :=
    match m_find h x with
    | Some _ => Ok (m_update h x (fun c => u32 (c + 1)))
    | None => Ok (h ++ [(x, u32 (0 + 1))])
    end.
  (** HistogramEstimator.h:155-158. *)
  Definition hist_policy : policy (list (T * Z)) T (list (T * Z)) := simple_policy [] hist_fit (fun h => Ok h).

  (** std::sort: the sorted list (unique, since the order is total). *)
  Fixpoint s_insert (x : T) (l : list T) : list T :=
    match l with
    | [] => [x]
    | y :: r => if ltb y x then y :: s_insert x r else x :: l
    end.
  Definition s_sort (l : list T) : list T := fold_right s_insert [] l.

  (** IndexMapEstimator.h:157-191 [CreateIndexMap]; [hist] in iteration order. *)
  Definition new_keys (hist : list (T * Z)) (existing : list (T * Z)) : list T :=
    filter (fun k => match m_find existing k with Some _ => false | None => true end) (map fst hist).
  Definition create_index_map (hist existing : list (T * Z)) : list (T * Z) :=
    fold_left (fun m k => m_emplace m k (u32 (Z.of_nat (length m)))) (s_sort (new_keys hist existing)) existing.

  (** OrderEstimator.h:172-183: [_values.emplace(input, size)]; the annotation refuses an empty map (148-160). *)
  Definition order_fit (m : list (T * Z)) (x : T) : res (list (T * Z)) := Ok (m_emplace m x (u32 (Z.of_nat (length m)))).
  Definition order_policy (previous : list (T * Z)) : policy (list (T * Z)) T (list (T * Z)) :=
    simple_policy previous order_fit (fun m => match m with [] => Throw InvalidArgument | _ => Ok m end).

  (** ModeEstimator.h:208-240: the loop over the histogram.  [supported] is IsSupportedModeEstimatorValue (164-186).
      State: the best entry so far with its position in the order map. *)
  Definition mode_step (supported : T -> bool) (order : list (T * Z)) (best : res (option (T * Z * Z))) (e : T * Z)
    : res (option (T * Z * Z)) :=
    do b <- best;
    let pass := match b with None => true | Some (_, c, _) => c <=? snd e end in
    if pass then
      if negb (supported (fst e)) then Ok b
      else match m_find order (fst e) with
           | None => UB                                     (* assert; dereferences end() *)
           | Some idx =>
               match b with
               | Some (_, c, i) => if (snd e =? c) && (i <? idx) then Ok b else Ok (Some (fst e, snd e, idx))
               | None => Ok (Some (fst e, snd e, idx))
               end
           end
    else Ok b.
  Definition mode_complete (supported : T -> bool) (hist order : list (T * Z)) : res T :=
    match hist, order with
    | [], _ => Throw RuntimeError
    | _, [] => Throw RuntimeError
    | _, _ => do b <- fold_left (mode_step supported order) hist (Ok None);
              match b with None => Throw RuntimeError | Some (v, _, _) => Ok v end
    end.

  (** MinMaxEstimator.h:132-151; [hi]/[lo] are numeric_limits<T>::max()/lowest(). *)
  Definition minmax_fit (s : T * T) (x : T) : res (T * T) :=
    Ok (if ltb x (fst s) then x else fst s, if ltb (snd s) x then x else snd s).
  Definition minmax_policy (lo hi : T) : policy (T * T) T (T * T) :=
    simple_policy (hi, lo) minmax_fit (fun s => if ltb (snd s) (fst s) then Throw InvalidArgument else Ok s).

  (** StatisticalMetricsEstimator.h:344-388 [BasicStatsUpdater]: first element, then comparisons; uint64 count.
      Nulls are skipped (fit_impl). *)
  Definition stats_state : Type := option (T * T) * Z.
  Definition basic_update (s : stats_state) (x : T) : res stats_state :=
    let mm := match fst s with
              | None => (x, x)
              | Some (mn, mx) => (if ltb x mn then x else mn, if ltb mx x then x else mx)
              end in
    if snd s =? 18446744073709551615 then Throw RuntimeError else Ok (Some mm, snd s + 1).
  Definition basic_commit (s : stats_state) : res (T * T * Z) :=
    if snd s =? 0 then Throw RuntimeError
    else match fst s with
         | None => UB
         | Some (mn, mx) => if ltb mx mn then Throw InvalidArgument else Ok (mn, mx, snd s)
         end.
  Definition basic_stats_policy : policy stats_state (option T) (T * T * Z) :=
    simple_policy (None, 0)
      (fun s x => match x with None => Ok s | Some v => basic_update s v end) basic_commit.

  (** MedianEstimator.h:195-243.  [_smaller] is a max-heap, [_larger] a min-heap; a heap is represented by its elements
      in the order [top]/[pop] delivers them. *)
  Fixpoint max_push (x : T) (l : list T) : list T :=
    match l with
    | [] => [x]
    | y :: r => if ltb x y then y :: max_push x r else x :: l
    end.
  Fixpoint min_push (x : T) (l : list T) : list T :=
    match l with
    | [] => [x]
    | y :: r => if ltb y x then y :: min_push x r else x :: l
    end.
  Definition median_state : Type := list T * list T.
  Definition median_fit (s : median_state) (x : T) : res median_state :=
    let (sm, lg) := s in
    let (sm1, lg1) := match sm with
                      | [] => (max_push x sm, lg)
                      | t :: _ => if negb (ltb t x) then (max_push x sm, lg) else (sm, min_push x lg)
                      end in
    if Nat.leb (length lg1 + 2) (length sm1)
    then match sm1 with [] => UB | t :: r => Ok (r, min_push t lg1) end
    else if Nat.ltb (length sm1) (length lg1)
         then match lg1 with [] => UB | t :: r => Ok (max_push t sm1, r) end
         else Ok (sm1, lg1).
  (** MedianEstimator.h:158-190, 245-261; [avg a b] is (double(a) + b) / 2 converted back. *)
  Definition median_complete (interpolate : bool) (avg : T -> T -> T) (zero : T) (s : median_state) : res T :=
    let (sm, lg) := s in
    let n := (length sm + length lg)%nat in
    if Nat.eqb n 0 then Throw RuntimeError
    else match sm with
         | [] => UB
         | t :: _ => if negb interpolate || Nat.odd n then Ok t
                     else Ok (avg t (match lg with [] => zero | g :: _ => g end))
         end.
  Definition median_policy (interpolate : bool) (avg : T -> T -> T) (zero : T) : policy median_state (option T) T :=
    simple_policy ([], [])
      (fun s x => match x with None => Ok s | Some v => median_fit s v end) (median_complete interpolate avg zero).
End Generic.

(** StatisticalMetricsEstimator.h:395-454 [StandardStatsUpdater] for integer types.
    [unsigned64]: T is uint64_t, whose values from 2^63 on become negative when cast to int64_t. *)
Definition i64_cast (x : Z) : Z := to_s 8 x.
Definition std_update (s : stats_state (T := Z) * Z) (x : Z) : res (stats_state (T := Z) * Z) :=
  do b <- basic_update Z.ltb (fst s) x;
  let c := i64_cast x in
  (* line 427: max() - int64(input), evaluated only if input > 0; line 428: lowest() - int64(input), only if input < 0 *)
  if (0 <? x) && negb (in_i64 (i64_max - c)) then UB
  else if (0 <? x) && (i64_max - c <? snd s) then Throw RuntimeError
  else if (x <? 0) && negb (in_i64 (i64_min - c)) then UB
  else if (x <? 0) && (snd s <? i64_min - c) then Throw RuntimeError
  else if negb (in_i64 (snd s + c)) then UB
  else Ok (b, snd s + c).
(** The result carries min, max, count and sum (the average is sum / count in floating point, see DESIGN). *)
Definition std_stats_policy : policy (stats_state (T := Z) * Z) (option Z) (Z * Z * Z * Z) :=
  simple_policy ((None, 0), 0)
    (fun s x => match x with None => Ok s | Some v => std_update s v end)
    (fun s => do b <- basic_commit Z.ltb (fst s); Ok (b, snd s)).

(** MaxAbsValueEstimator.h:139-162 for an integer input type whose promoted arithmetic type has [w] bytes (4 or 8);
    [conv] is static_cast<TransformedT>, [lt] its operator<, [zero] its 0. *)
Section MaxAbs.
  Context {F : Type}.
  Variables (w : nat) (conv : Z -> F) (lt : F -> F -> bool) (zero : F).
  Definition maxabs_fit (m : F) (x : Z) : res F :=
    if x <? 0 then
      if fits_s w (- x) then let v := conv (- x) in Ok (if lt m v then v else m) else UB
    else let v := conv x in Ok (if lt m v then v else m).
  Definition maxabs_policy : policy F Z F :=
    simple_policy zero maxabs_fit (fun m => if lt m zero then Throw InvalidArgument else Ok m).
End MaxAbs.

(** FrequencyEstimator.h:142-165 on clock ticks (int64_t); duration::max() marks "none yet". *)
Definition freq_fit (s : Z * option Z) (t : Z) : res (Z * option Z) :=
  match snd s with
  | None => Ok (fst s, Some t)
  | Some l => if t <=? l then Throw RuntimeError
              else if negb (in_i64 (t - l)) then UB
              else Ok (if t - l <=? fst s then t - l else fst s, Some t)
  end.
Definition freq_policy : policy (Z * option Z) Z Z :=
  simple_policy (i64_max, None) freq_fit (fun s => if fst s =? i64_max then Throw RuntimeError else Ok (fst s)).

(** TimeSeriesFrequencyEstimator.h:139-170: one "last observed" per key, one frequency for all keys. *)
Section TSFreq.
  Context {K : Type}.
  Variable keqb : K -> K -> bool.
  Definition tsfreq_fit (s : Z * list (K * Z)) (row : K * Z) : res (Z * list (K * Z)) :=
    let (k, t) := row in
    match m_find keqb (snd s) k with
    | None => Ok (fst s, m_emplace keqb (snd s) k t)
    | Some l => if t <=? l then Throw RuntimeError
                else if negb (in_i64 (t - l)) then UB
                else Ok (if t - l <=? fst s then t - l else fst s, m_update keqb (snd s) k (fun _ => t))
    end.
  Definition tsfreq_policy : policy (Z * list (K * Z)) (K * Z) Z :=
    simple_policy (i64_max, []) tsfreq_fit (fun s => Ok (fst s)).
End TSFreq.

(** GlobalMinimumFrequencyEstimator.h:171-185: the least of the per-grain frequencies, in map order. *)
Definition global_min_freq (freqs : list Z) : Z := fold_left (fun a f => if f <? a then f else a) freqs i64_max.
