(** Model of the rows of the time series imputer at the C interface: SharedLibrary/SharedLibrary_TimeSeriesImputerFeaturizer.cpp,
    Transform (548-580), Flush (582-615) and the conversions of Serializer (700-772, 819-1073).
    Simplifications: the handle is resolved (M_CApi); the buffers that Serialize allocates are lists of bytes. *)
From Flocq Require Import IEEE754.BinarySingleNaN IEEE754.Binary IEEE754.Bits.
From Verif Require Import Base M_Archive M_Codec M_Pipeline M_Keyed M_Save M_String M_TsImpute M_FloatText M_TimeText M_TsSave.
Open Scope Z_scope.

(** The types a column can have: those whose text conversion M_String models, float_t, double_t, system_clock time points and durations.
    The other ids "are not supported yet": std::runtime_error when such a column is reached. *)
Inductive column := Plain (t : ty) | Single | Double | Time | Span.
Definition column_of (id : Z) : option column :=
  if id =? 1 then Some (Plain TString)
  else if id =? 2 then Some (Plain (TSInt 1)) else if id =? 3 then Some (Plain (TSInt 2))
  else if id =? 4 then Some (Plain (TSInt 4)) else if id =? 5 then Some (Plain (TSInt 8))
  else if id =? 6 then Some (Plain (TUInt 1)) else if id =? 7 then Some (Plain (TUInt 2))
  else if id =? 8 then Some (Plain (TUInt 4)) else if id =? 9 then Some (Plain (TUInt 8))
  else if id =? 11 then Some Single else if id =? 12 then Some Double
  else if id =? 16 then Some (Plain TBool) else if id =? 17 then Some Time else if id =? 18 then Some Span
  else None.

(** float_t and double_t as bit patterns; std::numeric_limits::quiet_NaN(). *)
Definition single_of_bits (b : Z) : BinarySingleNaN.binary_float 24 128 := B2BSN 24 128 (b32_of_bits b).
Definition single_bits (x : BinarySingleNaN.binary_float 24 128) : Z := bits_of_b32 (BSN2B 24 128 default_nan_pl32 x).
Definition double_bits (x : BinarySingleNaN.binary_float 53 1024) : Z := bits_of_b64 (BSN2B 53 1024 default_nan_pl64 x).

Section Rows.
  Variable places : nat.                                   (* the clock has 10^places ticks per second *)
  Variable rounding : Z -> nat -> Z.                       (* M_TimeText *)
  Variable underflow : list Z -> bool.                     (* M_FloatText *)
  Variable duration_text : Z -> list Z.                    (* Traits<duration>::ToString, Traits.h:1295-1304: a stream *)
  Notation second := (10 ^ Z.of_nat places).
  Notation microsecond := (10 ^ (Z.of_nat places - 6)).

  (** Traits<T>::ToString(Traits<T>::deserialize(ar)), 819-877. *)
  Definition load_text (c : column) : parser (list Z) := fun bs =>
    match c with
    | Plain t => do v <- dec t bs; Ok (to_string t (fst v), snd v)
    | Single => do x <- get_fixed 4 bs; Ok (float_to_string (single_of_bits (fst x)), snd x)
    | Double => do x <- get_fixed 8 bs; Ok (float_to_string (double_of_bits (fst x)), snd x)
    | Time => do x <- dec_systp second bs; Ok (time_to_string places (fst x), snd x)
    | Span => do x <- dec_sysdur microsecond bs; Ok (duration_text (fst x), snd x)
    end.
  (** Traits<T>::serialize(ar, Traits<T>::FromString(s)), 943-1003; durations: Traits.h:1306-1308. *)
  Definition save_text (c : column) (s : list Z) : res (list Z) :=
    match c with
    | Plain t => do v <- from_string t s; Ok (enc t v)
    | Single => do x <- float_from_string underflow s; Ok (le_bytes 4 (single_bits x))
    | Double => do x <- float_from_string underflow s; Ok (le_bytes 8 (double_bits x))
    | Time => do x <- time_from_string places rounding s; Ok (enc_systp second x)
    | Span => Throw LogicError
    end.
  (** 879-890: float_t and double_t are their own nullable types, NaN is null (Traits.h:679-712, 757-790); the others are
      nonstd::optional: a bool, then the value. *)
  Definition load_cell (c : column) : parser (option (list Z)) := fun bs =>
    match c with
    | Single => do x <- get_fixed 4 bs;
                Ok (if BinarySingleNaN.is_nan (single_of_bits (fst x)) then None else Some (float_to_string (single_of_bits (fst x))), snd x)
    | Double => do x <- get_fixed 8 bs;
                Ok (if BinarySingleNaN.is_nan (double_of_bits (fst x)) then None else Some (float_to_string (double_of_bits (fst x))), snd x)
    | _ => do b <- get_bool bs;
           if fst b then do x <- load_text c (snd b); Ok (Some (fst x), snd x) else Ok (None, snd b)
    end.
  (** 1005-1021 *)
  Definition save_cell (c : column) (s : option (list Z)) : res (list Z) :=
    match c, s with
    | Single, None => Ok (le_bytes 4 (single_bits BinarySingleNaN.B754_nan))
    | Double, None => Ok (le_bytes 8 (double_bits BinarySingleNaN.B754_nan))
    | Single, Some s | Double, Some s => save_text c s
    | _, None => Ok (enc TBool (VBool false))
    | _, Some s => do b <- save_text c s; Ok (enc TBool (VBool true) ++ b)
    end.
  (** 826-874, 897-938: one value per type id. *)
  Fixpoint load_all {A} (f : column -> parser A) (ids : list Z) (bs : list Z) {struct ids} : res (list A * list Z) :=
    match ids with
    | [] => Ok ([], bs)
    | id :: r => match column_of id with
                 | None => Throw RuntimeError
                 | Some c => do x <- f c bs; do xs <- load_all f r (snd x); Ok (fst x :: fst xs, snd xs)
                 end
    end.
  (** 952-1002, 1028-1072: one type id per value; more values than ids would be undefined. *)
  Fixpoint save_all {A} (f : column -> A -> res (list Z)) (ids : list Z) (l : list A) {struct l} : res (list Z) :=
    match l with
    | [] => Ok []
    | x :: r => match ids with
                | [] => UB
                | id :: is => match column_of id with
                              | None => Throw RuntimeError
                              | Some c => do b <- f c x; do bs <- save_all f is r; Ok (b ++ bs)
                              end
                end
    end.
  (** 700-710; the archive is not asked whether all of it was read. *)
  Definition load_row (m : memory) (bs : list Z) : res (list (list Z) * (Z * list (option (list Z)))) :=
    do t <- dec_systp second bs;
    do keys <- load_all load_text (me_keys m) (snd t);
    do cells <- load_all load_cell (me_data m) (snd keys);
    Ok (fst keys, (fst t, fst cells)).
  (** 740-757 for one row. *)
  Definition save_row (m : memory) (r : list (list Z) * (bool * Z * list (option (list Z)))) : res (list Z) :=
    let '(key, (added, t, cells)) := r in
    do ks <- save_all save_text (me_keys m) key;
    do cs <- save_all save_cell (me_data m) cells;
    Ok (enc TBool (VBool added) ++ enc_systp second t ++ ks ++ cs).

  (** What the transformer keeps when execute throws (TimeSeriesImputerTransformer.h:365-385, 477-508): nothing changes, but a new key
      that has no medians has already been entered with this row.  (If the key is known, the first row that is filled throws.) *)
  Definition ts_refused {K C} (keqb klt : K -> K -> bool) (cfg : config (K := K) (C := C))
      (st : list (K * ((bool * Z * list (option C)) * list (bool * Z * list (option C))))) (x : K * (Z * list (option C))) :=
    match ts_strategy cfg, k_find keqb st (fst x) with
    | Median, None => k_set keqb klt st (fst x) ((false, fst (snd x), snd (snd x)), [])
    | _, _ => st
    end.

  Notation text_state := (list (list (list Z) * ((bool * Z * list (option (list Z))) * list (bool * Z * list (option (list Z)))))).
  (** 548-580.  The rows that execute delivers are converted after it has returned. *)
  Definition api_transform (m : memory) (st : text_state) (data : list Z) : text_state * res (list (list Z)) :=
    match data with
    | [] => (st, Throw InvalidArgument)
    | _ =>
        match load_row m data with
        | Throw e => (st, Throw e)
        | UB => (st, UB)
        | Ok x =>
            match t_exec (ts_machine (me_settings m)) st x with
            | (o, Ok st') => (st', mapM (save_row m) o)
            | (_, Throw e) => (ts_refused key_eqb key_ltb (config_of (me_settings m)) st x, Throw e)
            | (_, UB) => (st, UB)
            end
        end
    end.
  (** 582-615: "Temporary workaround": the transformer is not flushed. *)
  Definition api_flush (m : memory) (st : text_state) : text_state * res (list (list Z)) := (st, Ok []).
  (** The answers to successive calls of Transform, up to undefined behaviour. *)
  Fixpoint api_calls (m : memory) (st : text_state) (inputs : list (list Z)) {struct inputs} : list (res (list (list Z))) :=
    match inputs with
    | [] => []
    | b :: r => let (st', a) := api_transform m st b in a :: match a with UB => [] | _ => api_calls m st' r end
    end.
End Rows.
