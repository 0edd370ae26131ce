(** Model of src/Featurizers/Components/TimeSeriesImputerTransformer.h and of Components/TimeSeriesMedianEstimator.h. *)
From Flocq Require Import IEEE754.BinarySingleNaN.
From Verif Require Import Base M_Estimator M_Stats M_Pipeline M_Keyed M_Scale.

(** Traits.h:94-131: the type ids used here; TimeSeriesMedianEstimator.h:133-138. *)
Definition supports_median (id : Z) : bool := (id =? 10) || (id =? 11) || (id =? 12) || (id =? 15).

(** 19-26. *)
Inductive strategy := Forward | Backward | Median | Interpolate.

Section Imputer.
  Context {K C : Type}.                        (* std::vector<std::string>; std::string *)
  Variable keqb klt : K -> K -> bool.

  Notation cells := (list (option C)).
  (** OutputRowType (64) without the key, which [keyed_exec] puts beside it: (was it added, time point in ticks, cells). *)
  Notation trow := (bool * Z * list (option C))%type.
  Definition r_added (r : trow) : bool := fst (fst r).
  Definition r_time (r : trow) : Z := snd (fst r).
  Definition r_cells (r : trow) : cells := snd r.

  (** What the constructor keeps (244-249). *)
  Record config := mkConfig {
    ts_freq : Z;                               (* _frequency, in ticks *)
    ts_types : list Z;                         (* _colsToImputeDataTypes *)
    ts_strategy : strategy;
    ts_medians : K -> option (list C);         (* _medianValues; the numbers as Traits<double>::ToString prints them (509) *)
    ts_suppress : bool
  }.
  (** 251-255. *)
  Definition ts_new (c : config) : res config :=
    match ts_types c with
    | [] => Throw RuntimeError
    | _ => if ts_freq c =? i64_max then Throw RuntimeError else Ok c
    end.
  (** 222-228: the estimator's constructor. *)
  Definition ts_estimator (types : list Z) (s : strategy) (suppress : bool) : res unit :=
    match s with
    | Median => if negb suppress && negb (forallb supports_median types) then Throw RuntimeError else Ok tt
    | _ => Ok tt
    end.

  Variable cfg : config.

  (** time_point + duration: int64_t ticks, overflow is undefined. *)
  Definition tick_add (t d : Z) : res Z := if in_i64 (t + d) then Ok (t + d) else UB.
  (** 408-411.  The loop does not end for a frequency that is not positive (until the clock overflows): running out of fuel
      stands for that. *)
  Fixpoint gen_loop (fuel : nat) (temp t : Z) (width : nat) : res (list trow) :=
    if temp <? t then
      match fuel with
      | O => UB
      | S f => do temp' <- tick_add temp (ts_freq cfg); do r <- gen_loop f temp' t width; Ok ((true, temp, repeat None width) :: r)
      end
    else Ok [].
  (** 402-416. *)
  Definition generate_rows (x : Z * cells) (last : Z) : res (list trow) :=
    do temp <- tick_add last (ts_freq cfg);
    do r <- gen_loop (Z.to_nat (fst x - last)) temp (fst x) (length (snd x));
    Ok (r ++ [(false, fst x, snd x)]).
  (** 418-423; prev[i] beyond the end is undefined. *)
  Fixpoint impute (prev cur : cells) : res cells :=
    match cur with
    | [] => Ok []
    | Some c :: cs => do r <- impute (tl prev) cs; Ok (Some c :: r)
    | None :: cs => match prev with
                    | [] => UB
                    | p :: ps => do r <- impute ps cs; Ok (p :: r)
                    end
    end.
  (** 425-432. *)
  Definition no_nulls (c : cells) : bool := forallb (fun x => match x with Some _ => true | None => false end) c.
  (** 486-488, 515: each row imputed from the one before; also 451-454 on the rows in reverse. *)
  Fixpoint impute_rows (last : cells) (rows : list trow) : res (list trow) :=
    match rows with
    | [] => Ok []
    | r :: rs => do c <- impute last (r_cells r); do rs' <- impute_rows c rs; Ok ((r_added r, r_time r, c) :: rs')
    end.
  (** 489-511: one row under the median strategy; an index beyond the column types or medians is undefined. *)
  Fixpoint median_cells (types : list Z) (med : option (list C)) (c : cells) {struct c} : res cells :=
    match c with
    | [] => Ok []
    | x :: xs =>
        match types with
        | [] => UB
        | t :: ts =>
            do x' <- (if supports_median t then
                        match x with
                        | Some _ => Ok x
                        | None => match med with
                                  | None => if ts_suppress cfg then Ok None else Throw RuntimeError
                                  | Some [] => UB
                                  | Some (m :: _) => Ok (Some m)
                                  end
                        end
                      else Ok x);
            do xs' <- median_cells ts (option_map (@tl C) med) xs;
            Ok (x' :: xs')
        end
    end.
  Definition median_rows (k : K) (rows : list trow) : res (list trow) :=
    mapM (fun r => do c <- median_cells (ts_types cfg) (ts_medians cfg k) (r_cells r); Ok (r_added r, r_time r, c)) rows.
  (** 459-470: the complete rows at the front (the counter is an int: fewer than 2^31 rows). *)
  Fixpoint split_complete (rows : list trow) : list trow * list trow :=
    match rows with
    | [] => ([], [])
    | r :: rs => if no_nulls (r_cells r) then let (a, b) := split_complete rs in (r :: a, b) else ([], rows)
    end.

  (** The entries of _lastRowtracker and _buffer for one key; they are created together (438-447, 480-481), a strategy that
      does not buffer has no entry in _buffer, which is an empty one here. *)
  Notation ts_state := (trow * list trow)%type.
  (** The last row of a list that is not empty. *)
  Definition back (rows : list trow) (d : trow) : trow := last rows d.
  (** 434-475, 477-523, dispatched as in 379-384.  The rows go to the callback after everything else is done. *)
  Definition ts_body (k : K) (st : ts_state) (x : Z * cells) : res (list trow * ts_state) :=
    let (prev, buf) := st in
    match ts_strategy cfg with
    | Forward =>
        do g <- generate_rows x (r_time prev);
        do rows <- impute_rows (r_cells prev) g;
        Ok (rows, (back rows prev, buf))
    | Median =>
        do g <- generate_rows x (r_time prev);
        do rows <- median_rows k g;
        Ok (rows, (back rows prev, buf))
    | Backward =>
        do g <- generate_rows x (r_time prev);
        let buf' := buf ++ g in
        do rrows <- impute_rows (r_cells (back buf' prev)) (rev buf');
        let rows := rev rrows in
        let (out, keep) := split_complete rows in
        Ok (out, (back rows prev, keep))
    | Interpolate => Throw RuntimeError
    end.
  (** execute_impl (365-385): the order of the rows of a key is checked first; the first row of a key is its own last row. *)
  Definition ts_step (k : K) (s : option ts_state) (x : Z * cells) : list trow * res ts_state :=
    match (match s with
           | Some st => if fst x <? r_time (fst st) then Throw RuntimeError else ts_body k st x
           | None => ts_body k ((false, fst x, snd x), []) x
           end) with
    | Ok (out, st) => (out, Ok st)
    | Throw e => ([], Throw e)
    | UB => ([], UB)
    end.
  (** flush_impl (387-400). *)
  Definition ts_flush (m : list (K * ts_state)) : list (K * trow) * res (list (K * ts_state)) :=
    (flat_map (fun e => map (pair (fst e)) (snd (snd e))) m, Ok []).
  (** The transformer; its input tuple (time, key, cells) is written (key, (time, cells)). *)
  Definition ts_transformer : transformer (K * (Z * cells)) (K * trow) :=
    mkTr (list (K * ts_state)) [] (keyed_exec keqb klt ts_step) ts_flush.
End Imputer.
Arguments mkConfig {K C}. Arguments ts_freq {K C}. Arguments ts_types {K C}. Arguments ts_strategy {K C}. Arguments ts_medians {K C}.
Arguments ts_suppress {K C}.

(** ** TimeSeriesMedianEstimator.h.  The cells are read by Traits<double>::FromString (161): here they are the doubles. *)
Section Median.
  Context {K : Type}.
  Variable keqb klt : K -> K -> bool.
  Variable types : list Z.                     (* _colsToImputeDataTypes *)
  Notation double := (binary_float 53 1024).
  (** _aggregateTracker and _countTracker of one key (90-91), zipped. *)
  Notation med_state := (list (double * Z)).
  (** 157-163: one row; an index beyond the column types (or the columns of the first row of the key) is undefined. *)
  Fixpoint med_row (ts : list Z) (s : med_state) (row : list (option double)) {struct row} : res med_state :=
    match row with
    | [] => Ok s
    | x :: xs =>
        match x with
        | None => match s with [] => do r <- med_row (tl ts) [] xs; Ok [] | e :: es => do r <- med_row (tl ts) es xs; Ok (e :: r) end
        | Some v =>
            match ts with
            | [] => UB
            | t :: _ =>
                if supports_median t then
                  match s with
                  | [] => UB
                  | (a, n) :: es => do r <- med_row (tl ts) es xs; Ok ((fadd a v, n + 1) :: r)
                  end
                else match s with [] => do r <- med_row (tl ts) [] xs; Ok [] | e :: es => do r <- med_row (tl ts) es xs; Ok (e :: r) end
            end
        end
    end.
  (** 147-164 for one row. *)
  Definition med_fit (m : list (K * med_state)) (x : K * list (option double)) : res (list (K * med_state)) :=
    let s := match k_find keqb m (fst x) with Some s => s | None => repeat (fzero, 0) (length (snd x)) end in
    do s' <- med_row types s (snd x); Ok (k_set keqb klt m (fst x) s').
  (** 174-181: one key. *)
  Fixpoint med_finish (ts : list Z) (s : med_state) : res (list double) :=
    match s with
    | [] => Ok []
    | (a, n) :: es =>
        match ts with
        | [] => UB
        | t :: ts' =>
            do v <- (if supports_median t then if n =? 0 then Throw RuntimeError else Ok (fdiv a (of_int n)) else Ok a);
            do r <- med_finish ts' es; Ok (v :: r)
        end
    end.
  Definition med_policy : policy (list (K * med_state)) (K * list (option double)) (list (K * list double)) :=
    simple_policy [] med_fit (fun m => mapM (fun e => do v <- med_finish types (snd e); Ok (fst e, v)) m).
End Median.
