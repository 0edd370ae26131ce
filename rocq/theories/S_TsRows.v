(** Rows at the C interface of the time series imputer, for C68: values are given by their encodings. *)
From Coq Require Import Reals.
From Flocq Require Import Core.Core IEEE754.BinarySingleNaN IEEE754.Binary IEEE754.Bits.
From Verif Require Import Base M_Archive M_Codec M_Pipeline M_Stats M_TsImpute M_String M_FloatText M_TimeText S_Date S_Scale M_TsSave M_TsRows.
Open Scope Z_scope.

(** Lists of equal length, element by element. *)
Inductive each2 {A B} (R : A -> B -> Prop) : list A -> list B -> Prop :=
| each2_nil : each2 R [] []
| each2_cons a b l m : R a b -> each2 R l m -> each2 R (a :: l) (b :: m).
Inductive each3 {A B C} (R : A -> B -> C -> Prop) : list A -> list B -> list C -> Prop :=
| each3_nil : each3 R [] [] []
| each3_cons a b c l m n : R a b c -> each3 R l m n -> each3 R (a :: l) (b :: m) (c :: n).

(** The types without text conversion trouble, by id: String, Int8 to Int64, UInt8 to UInt64, Bool. *)
Inductive plain_id : Z -> ty -> Prop :=
| id_string : plain_id 1 TString | id_int8 : plain_id 2 (TSInt 1) | id_int16 : plain_id 3 (TSInt 2) | id_int32 : plain_id 4 (TSInt 4)
| id_int64 : plain_id 5 (TSInt 8) | id_uint8 : plain_id 6 (TUInt 1) | id_uint16 : plain_id 7 (TUInt 2) | id_uint32 : plain_id 8 (TUInt 4)
| id_uint64 : plain_id 9 (TUInt 8) | id_bool : plain_id 16 TBool.
(** An infinity, or the float nearest to some number with six decimals. *)
Definition kept {prec emax} (x : BinarySingleNaN.binary_float prec emax) : Prop :=
  (exists s, x = BinarySingleNaN.B754_infinity s) \/
  (BinarySingleNaN.is_finite x = true /\ exists k, BinarySingleNaN.B2R x = rounded prec emax (IZR k / 1000000)).
(** Quiet NaN as the library writes it. *)
Definition nan_bytes (id : Z) : list Z := if id =? 11 then [0; 0; 192; 127] else [0; 0; 0; 0; 0; 0; 248; 127].
Definition is_float (id : Z) : Prop := id = 11 \/ id = 12.

Section Clock.
  Variable places : nat.
  Notation second := (10 ^ Z.of_nat places).
  (** A time point in whole seconds, in the years 0 to 9999 and with its day on the clock. *)
  Definition showable (sec : Z) : Prop :=
    (exists c y m d, calendar c /\ c (sec / 86400) = (y, m, d) /\ 0 <= y <= 9999) /\
    - 2 ^ 63 <= 86400 * second * (sec / 86400) /\ sec * second < 2 ^ 63.
  (** [b] encodes a value of type [id] that its text [s] determines. *)
  Definition value_text (id : Z) (b s : list Z) : Prop :=
    (exists t v, plain_id id t /\ wt t v = true /\ b = enc t v /\ s = to_string t v) \/
    (id = 11 /\ exists x : BinarySingleNaN.binary_float 24 128, kept x /\ b = le_bytes 4 (single_bits x) /\ s = float_to_string x) \/
    (id = 12 /\ exists x : BinarySingleNaN.binary_float 53 1024, kept x /\ b = le_bytes 8 (double_bits x) /\ s = float_to_string x) \/
    (id = 17 /\ exists sec, showable sec /\ b = enc (TSInt 8) (VInt sec) /\ s = time_to_string places (sec * second)).
  (** Keys are not null: NaN is a value of a key. *)
  Definition key_text (id : Z) (b s : list Z) : Prop :=
    value_text id b s \/ (is_float id /\ b = nan_bytes id /\ s = [78; 97; 78]).

  (** A cell as it is given: NaN of any kind or a flag for null, otherwise the value (behind a flag if not a float). *)
  Definition cell_in (id : Z) (cell : option (list Z)) (b : list Z) : Prop :=
    match cell with
    | Some v => (exists s, value_text id v s) /\ ((is_float id /\ b = v) \/ (~ is_float id /\ b = 1 :: v))
    | None => (id = 11 /\ exists bits, 0 <= bits < 2 ^ 32 /\ Binary.is_nan 24 128 (b32_of_bits bits) = true /\ b = le_bytes 4 bits) \/
              (id = 12 /\ exists bits, 0 <= bits < 2 ^ 64 /\ Binary.is_nan 53 1024 (b64_of_bits bits) = true /\ b = le_bytes 8 bits) \/
              (((exists t, plain_id id t) \/ id = 17 \/ id = 18) /\ b = [0])
    end.
  (** A cell as it is returned. *)
  Definition cell_out (id : Z) (cell : option (list Z)) : list Z :=
    match cell with
    | Some v => if (id =? 11) || (id =? 12) then v else 1 :: v
    | None => if (id =? 11) || (id =? 12) then nan_bytes id else [0]
    end.

  (** Rows of values: the encodings of the keys, the time in ticks, the encodings of the cells that are not null. *)
  Notation row := (list (list Z) * (Z * list (option (list Z))))%type.
  Notation result := (list (list Z) * (bool * Z * list (option (list Z))))%type.
  (** [data] is this row: seconds since 1970, the keys, the cells. *)
  Definition row_bytes (m : memory) (r : row) (data : list Z) : Prop :=
    let '(keys, (t, cells)) := r in
    exists sec cs, t = sec * second /\ in_i64 t = true /\
      each2 (fun id b => exists s, key_text id b s) (me_keys m) keys /\ each3 cell_in (me_data m) cells cs /\
      data = enc (TSInt 8) (VInt sec) ++ concat keys ++ concat cs.
  (** [data] starts with this row. *)
  Definition row_in (m : memory) (r : row) (data : list Z) : Prop := exists bytes rest, row_bytes m r bytes /\ data = bytes ++ rest.
  Definition row_out (m : memory) (r : result) : list Z :=
    let '(keys, (added, t, cells)) := r in
    (if added : bool then 1 else 0) :: enc (TSInt 8) (VInt (Z.quot t second)) ++ concat keys ++
    concat (map (fun x => cell_out (fst x) (snd x)) (combine (me_data m) cells)).

  (** The medians of the keys as values of the columns: what is read from their texts (C66). *)
  Variable underflow : list Z -> bool.
  Definition median_value (id : Z) (bits : Z) (b : list Z) : Prop :=
    (id = 11 -> exists y : BinarySingleNaN.binary_float 24 128, float_from_string underflow (float_to_string (double_of_bits bits)) = Ok y /\ b = le_bytes 4 (single_bits y)) /\
    (id = 12 -> exists y : BinarySingleNaN.binary_float 53 1024, float_from_string underflow (float_to_string (double_of_bits bits)) = Ok y /\ b = le_bytes 8 (double_bits y)).
  Definition medians_read (m : memory) (med : list (list Z) -> option (list (list Z))) : Prop :=
    forall keys texts, each3 key_text (me_keys m) keys texts ->
    match m_find key_eqb (se_medians (me_settings m)) texts with
    | None => med keys = None
    | Some ms => exists bs, med keys = Some bs /\ each3 median_value (me_data m) ms bs
    end.
End Clock.

(** The imputer on such rows. *)
Definition value_config (s : settings) (med : list (list Z) -> option (list (list Z))) : config (K := list (list Z)) (C := list Z) :=
  mkConfig (se_freq s) (se_types s) (se_strategy s) med (se_suppress s).
Definition value_machine (s : settings) (med : list (list Z) -> option (list (list Z))) := ts_transformer key_eqb key_ltb (value_config s med).
(** Row after row: what it delivers or why it refuses the row.  A refused row leaves no trace, but if the medians of a new key are missing
    then the key is known from then on, with this row as its last one. *)
Fixpoint answers {K C} (keqb klt : K -> K -> bool) (cfg : config (K := K) (C := C))
    (st : list (K * ((bool * Z * list (option C)) * list (bool * Z * list (option C))))) (rows : list (K * (Z * list (option C)))) {struct rows} :
    list (res (list (K * (bool * Z * list (option C))))) :=
  match rows with
  | [] => []
  | r :: rs => match t_exec (ts_transformer keqb klt cfg) st r with
               | (o, Ok st') => Ok o :: answers keqb klt cfg st' rs
               | (_, Throw e) => Throw e :: answers keqb klt cfg (ts_refused keqb klt cfg st r) rs
               | (_, UB) => [UB]
               end
  end.
