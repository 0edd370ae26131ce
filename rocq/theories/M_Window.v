(** Models of src/Featurizers/Components/WindowFeaturizerBase.h (circular buffer), Base/RollingWindowTransformerBase.h,
    Calculators/*.h, LagLeadOperatorFeaturizer.h, ForecastingPivotFeaturizer.h and ShortGrainDropperFeaturizer.{h,cpp}. *)
From Verif Require Import Base M_Archive M_Codec M_Save M_Stats M_Pipeline.
From Verif Require M_Impute.

Section Buffer.
  Context {T : Type}.
  (** WindowFeaturizerBase.h:182-190.  Sizes are [nat]; the buffer lives in memory, so no size_t arithmetic on them can wrap. *)
  Record cbuf := mkBuf { b_max : nat; b_start : nat; b_data : list T }.
  (** 301-320. *)
  Definition buf_new (max_size : nat) : res cbuf :=
    if Nat.eqb max_size 0 then Throw InvalidArgument else Ok (mkBuf max_size 0 []).
  Definition buf_clear (b : cbuf) : cbuf := mkBuf (b_max b) 0 [].
  Definition buf_size (b : cbuf) : nat := length (b_data b).
  (** 327-330 returns [_data.capacity()], which std::vector only promises to be at least _max_size after [reserve]; here it
      is _max_size, as in libstdc++, libc++ and MSVC. *)
  Definition buf_capacity (b : cbuf) : nat := b_max b.
  Definition buf_full (b : cbuf) : bool := Nat.eqb (buf_size b) (b_max b).
  Fixpoint set_nth (l : list T) (i : nat) (v : T) : list T :=
    match l, i with
    | [], _ => []
    | _ :: r, O => v :: r
    | x :: r, S j => x :: set_nth r j v
    end.
  (** 367-378. *)
  Definition buf_push (b : cbuf) (v : T) : cbuf :=
    if Nat.eqb (length (b_data b)) (b_max b)
    then mkBuf (b_max b) ((b_start b + 1) mod b_max b) (set_nth (b_data b) (b_start b) v)
    else mkBuf (b_max b) (b_start b) (b_data b ++ [v]).

  (** CircularIterator: 82-96.  [it_null]: the pointer is null (default construction, 223-227); otherwise it points to the
      buffer's data.  The checks of 232-240 cannot fail here and are left out. *)
  Record iter := mkIt { it_null : bool; it_size : nat; it_index : nat; it_max : nat; it_cur : nat }.
  Definition it_default : iter := mkIt true 0 0 0 0.
  Definition it_new (size max_increments starting_offset : nat) : iter := mkIt false size starting_offset max_increments 0.
  Definition it_at_end (i : iter) : bool := Nat.eqb (it_cur i) (it_max i).                       (* 290-293 *)
  Definition it_eq (a b : iter) : bool :=                                                        (* 263-271 *)
    if (it_at_end a && negb (it_at_end b)) || (negb (it_at_end a) && it_at_end b) then false
    else Bool.eqb (it_null a) (it_null b) && Nat.eqb (it_index a) (it_index b).
  Definition it_next (i : iter) : iter :=                                                        (* 243-251 *)
    mkIt (it_null i) (it_size i) ((it_index i + 1) mod it_size i) (it_max i) (it_cur i + 1).
  Definition it_deref (b : cbuf) (i : iter) : res T :=                                           (* 278-282 *)
    if it_null i then UB
    else match nth_error (b_data b) (it_index i) with Some v => Ok v | None => UB end.

  (** 396-438. *)
  Definition buf_begin (b : cbuf) : iter :=
    if Nat.eqb (buf_size b) 0 then it_default else it_new (b_max b) (buf_size b) (b_start b).
  Definition buf_end (b : cbuf) : iter :=
    if Nat.eqb (buf_size b) 0 then it_default
    else it_new (b_max b) 0 (if Nat.eqb (buf_size b) (b_max b) then b_start b else buf_size b).
  Definition buf_range (b : cbuf) (n offset : nat) : iter * iter :=
    if Nat.eqb (buf_size b) 0 then (it_default, it_default)
    else if Nat.ltb (buf_size b) offset then (buf_end b, buf_end b)
    else if Nat.ltb (buf_size b) (n + offset)
         then (it_new (b_max b) (buf_size b - offset) ((b_start b + offset) mod b_max b), buf_end b)
         else (it_new (b_max b) n ((b_start b + offset) mod b_max b),
               it_new (b_max b) 0 ((b_start b + n + offset) mod b_max b)).

  (** The loop of a caller: [while(begin != end) use( *begin++ )] (Calculators.h:189-191).  [fuel] bounds the number of
      iterations; running out of it stands for not terminating. *)
  Fixpoint it_walk (b : cbuf) (fuel : nat) (i e : iter) : res (list T) :=
    if it_eq i e then Ok []
    else match fuel with
         | O => UB
         | S f => do v <- it_deref b i; do r <- it_walk b f (it_next i) e; Ok (v :: r)
         end.
  (** [n] dereferences and increments without looking at the end (LagLeadOperatorFeaturizer.h:340-343). *)
  Fixpoint it_take (b : cbuf) (n : nat) (i : iter) : res (list T) :=
    match n with
    | O => Ok []
    | S m => do v <- it_deref b i; do r <- it_take b m (it_next i); Ok (v :: r)
    end.
End Buffer.
Arguments cbuf T : clear implicits.
Arguments mkBuf {T}.

(** ** Rolling windows.  [calc] is the calculator over the range, [null] the null value of the output type.
    horizon, max and min are uint32_t; [_buffer]'s capacity is their uint32_t sum (174). *)
Section Rolling.
  Context {I O : Type}.
  Variables (calc : list I -> res O) (null : O).
  (** RollingWindowTransformerBase.h:83-119. *)
  Definition rw_cell (b : cbuf I) (horizon mx mn offset : nat) : res O :=
    let size := Z.of_nat (buf_size b) in
    let h := u32 (Z.of_nat horizon - Z.of_nat offset) in
    if size <? u32 (h + Z.of_nat mn) then Ok null
    else
      let (n, start) :=
        if size <? u32 (u32 (Z.of_nat mx + Z.of_nat horizon) - Z.of_nat offset)
        then (size - h, 0)
        else (Z.of_nat mx, u64 (Z.of_nat offset - u64 (Z.of_nat (buf_capacity b) - size))) in
      let (i, e) := buf_range b (Z.to_nat n) (Z.to_nat start) in
      do l <- it_walk b (S (b_max b)) i e; calc l.
  Definition rw_exec (horizon mx mn : nat) (b : cbuf I) (x : I) : list (list O) * res (cbuf I) :=
    let b' := buf_push b x in
    match mapM (rw_cell b' horizon mx mn) (seq 0 horizon) with
    | Ok row => ([row], Ok b')
    | Throw e => ([], Throw e)
    | UB => ([], UB)
    end.
  (** 139-176 and 188-192. *)
  Definition rolling_window (horizon mx mn : nat) : res (transformer I (list O)) :=
    if Nat.ltb horizon 1 then Throw InvalidArgument
    else if Nat.ltb mx 1 then Throw InvalidArgument
    else if Nat.ltb mn 1 then Throw InvalidArgument
    else if Nat.ltb mx mn then Throw InvalidArgument
    else do b <- buf_new (Z.to_nat (u32 (Z.of_nat horizon + Z.of_nat mx)));
         Ok (mkTr (cbuf I) b (rw_exec horizon mx mn) (fun b => ([], Ok (buf_clear b)))).
End Rolling.

(** ** Calculators. *)
Section Calculators.
  Context {T : Type}.
  Variable ltb : T -> T -> bool.
  (** MinCalculator.h: starts at numeric_limits<T>::max(). *)
  Definition min_calc (limit_max : T) (l : list T) : T := fold_left (fun m x => if ltb x m then x else m) l limit_max.
  (** MaxCalculator.h: starts at numeric_limits<T>::min(), which for floating point types is the least positive normal
      number. *)
  Definition max_calc (limit_min : T) (l : list T) : T := fold_left (fun m x => if ltb m x then x else m) l limit_min.
End Calculators.
(** SumCalculator.h and MeanCalculator.h for an integer type of [w] bytes: [_sum += value] is computed in int (or the type
    itself if wider) and converted back; signed overflow of int or wider is undefined.  [div] is double(sum) / count,
    [zero] the double 0. *)
Definition int_add (signed : bool) (w : nat) (a b : Z) : res Z :=
  if signed then (if Nat.ltb w 4 then Ok (to_s w (a + b)) else if fits_s w (a + b) then Ok (a + b) else UB)
  else Ok (to_u w (a + b)).
Definition sum_calc (signed : bool) (w : nat) (l : list Z) : res Z :=
  do s <- foldM (int_add signed w) 0 l; int_add signed w 0 s.
Definition mean_calc {D} (zero : D) (div : Z -> Z -> D) (signed : bool) (w : nat) (l : list Z) : res D :=
  match l with
  | [] => Ok zero
  | _ => do s <- sum_calc signed w l; Ok (div s (Z.of_nat (length l)))
  end.

(** ** Lag and lead: LagLeadOperatorFeaturizer.h. *)
Section LagLead.
  Context {T : Type}.      (* values of the nullable type; [null] is its null value *)
  Variable null : T.
  Definition zmin (l : list Z) : Z := match l with [] => 0 | x :: r => fold_left Z.min r x end.   (* *std::min_element *)
  Definition zmax (l : list Z) : Z := match l with [] => 0 | x :: r => fold_left Z.max r x end.
  Record lag := mkLag { lag_horizon : Z; lag_delta : Z; lag_offsets : list Z; lag_buf : cbuf T }.
  Definition lag_min (t : lag) : Z := zmin (lag_offsets t) - lag_delta t.                          (* 366-374 *)
  Definition lag_max (t : lag) : Z := zmax (lag_offsets t) - lag_delta t.
  Fixpoint push_nulls (n : nat) (b : cbuf T) : cbuf T := match n with O => b | S m => push_nulls m (buf_push b null) end.
  (** 349-364. *)
  Definition init_buffer (t : lag) : lag :=
    let b := push_nulls (Z.to_nat (lag_horizon t - 1)) (lag_buf t) in
    let b := if lag_min t <? 0 then push_nulls (Z.to_nat (- lag_min t)) b else b in
    mkLag (lag_horizon t) (lag_delta t) (lag_offsets t) b.
  (** 213-271. *)
  Definition lag_new (horizon : Z) (deltas : list Z) : res lag :=
    if horizon =? 0 then Throw InvalidArgument
    else match deltas with
         | [] => Throw InvalidArgument
         | _ =>
             let od := u32 (- Z.min (zmin deltas) 0) in
             let offs := map (fun d => u32 (d + od)) deltas in
             let mx := zmax deltas in let mn := zmin deltas in
             let extra := u64 (if mx <? 0 then - mn else if 0 <=? mn then mx else mx - mn) in
             do b <- buf_new (Z.to_nat (u64 (horizon + extra)));
             Ok (init_buffer (mkLag horizon od offs b))
         end.
  (** 323-347: a matrix is the list of its rows. *)
  Definition lag_step (t : lag) (x : T) : list (list (list T)) * res lag :=
    let b := buf_push (lag_buf t) x in
    let t' := mkLag (lag_horizon t) (lag_delta t) (lag_offsets t) b in
    if negb (buf_full b) then ([], Ok t')
    else match mapM (fun o => it_take b (Z.to_nat (lag_horizon t)) (fst (buf_range b (Z.to_nat (lag_horizon t)) (Z.to_nat o)))) (lag_offsets t) with
         | Ok m => ([m], Ok t')
         | Throw e => ([], Throw e)
         | UB => ([], UB)
         end.
  Fixpoint lag_steps (n : nat) (t : lag) : list (list (list T)) * res lag :=
    match n with
    | O => ([], Ok t)
    | S m => match lag_step t null with
             | (o, Ok t') => let (o', r) := lag_steps m t' in (o ++ o', r)
             | (o, r) => (o, r)
             end
    end.
  (** 84-98. *)
  Definition lag_flush (t : lag) : list (list (list T)) * res lag :=
    match lag_steps (if 0 <? lag_max t then Z.to_nat (lag_max t) else O) t with
    | (o, Ok t') => (o, Ok (init_buffer (mkLag (lag_horizon t') (lag_delta t') (lag_offsets t') (buf_clear (lag_buf t')))))
    | (o, r) => (o, r)
    end.
  Definition lag_lead (horizon : Z) (deltas : list Z) : res (transformer T (list (list T))) :=
    do t <- lag_new horizon deltas; Ok (mkTr lag t lag_step lag_flush).

  (** 304-321: [save] recomputes the deltas; 273-291: the archive constructor. *)
  Definition lag_saved (t : lag) : Z * list Z := (lag_horizon t, map (fun o => o - lag_delta t) (lag_offsets t)).
  Definition lag_save (t : lag) : list Z :=
    le_bytes 2 1 ++ le_bytes 2 0 ++ enc (TPair (TUInt 4) (TVector (TSInt 8)))
      (VPair (VInt (fst (lag_saved t))) (VList (map VInt (snd (lag_saved t))))).
  Definition ints (l : list val) : list Z := map (fun v => match v with VInt z => z | _ => 0 end) l.
  Definition lag_load : parser lag := fun bs =>
    do h <- read_version bs;
    do v <- dec (TPair (TUInt 4) (TVector (TSInt 8))) (snd h);
    match fst v with
    | VPair (VInt horizon) (VList deltas) => do t <- lag_new horizon (ints deltas); Ok (t, snd v)
    | _ => UB
    end.
End LagLead.
Arguments lag T : clear implicits.
Arguments mkLag {T}.

(** ** Pivot: ForecastingPivotFeaturizer.h:97-146.  A matrix: its number of columns and its rows. *)
Section Pivot.
  Context {T : Type}.
  Definition matrix : Type := nat * list (list (option T)).
  (** 128-135: the rows of one matrix; [false]: a null was met. *)
  Fixpoint pivot_rows (rows : list (list (option T))) (col : nat) (acc : list T) : res (bool * list T) :=
    match rows with
    | [] => Ok (true, acc)
    | row :: r => match nth_error row col with
                  | None => UB
                  | Some None => Ok (false, acc)
                  | Some (Some v) => pivot_rows r col (acc ++ [v])
                  end
    end.
  (** 120-140. *)
  Fixpoint pivot_matrices (ms : list matrix) (cols col : nat) (acc : list T) : res (bool * list T) :=
    match ms with
    | [] => Ok (true, acc)
    | m :: r => if negb (Nat.eqb (fst m) cols) then Throw InvalidArgument
                else do p <- pivot_rows (snd m) col acc;
                     if fst p then pivot_matrices r cols col (snd p) else Ok p
    end.
  (** 113-145. *)
  Fixpoint pivot_cols (ms : list matrix) (cols : nat) (todo : list nat) : list (list T) * res unit :=
    match todo with
    | [] => ([], Ok tt)
    | col :: r => match pivot_matrices ms cols col [] with
                  | Ok (true, l) => let (o, x) := pivot_cols ms cols r in (l :: o, x)
                  | Ok (false, _) => pivot_cols ms cols r
                  | Throw e => ([], Throw e)
                  | UB => ([], UB)
                  end
    end.
  Definition pivot (ms : list matrix) : list (list T) * res unit :=
    match ms with
    | [] => ([], Throw InvalidArgument)
    | m :: _ => pivot_cols ms (fst m) (seq 0 (fst m))
    end.
End Pivot.
Arguments matrix T : clear implicits.

(** ** Short grains: ShortGrainDropperFeaturizer.h:116-147 and .cpp:53-56. *)
Section ShortGrains.
  Context {K : Type}.
  Variable keqb : K -> K -> bool.
  Definition sg_fit1 (m : list (K * Z)) (k : K) : list (K * Z) :=
    match m_find keqb m k with
    | Some _ => m_update keqb m k (fun c => u32 (c + 1))
    | None => m_emplace keqb m k 1
    end.
  (** [fit_impl] always asks for more, so every batch is used; MaxNumTrainingItemsV is ignored. *)
  Definition sg_fit (m : list (K * Z)) (batch : list K) : list (K * Z) := fold_left sg_fit1 batch m.
  Definition sg_train (batches : list (list K)) : list (K * Z) := fold_left sg_fit batches [].
  Definition sg_create (min_points : Z) (m : list (K * Z)) : list K :=
    map fst (filter (fun e => min_points <=? snd e) m).
  Definition sg_drop (keep : list K) : transformer K bool := M_Impute.per_value (fun k => negb (existsb (keqb k) keep)).
End ShortGrains.
