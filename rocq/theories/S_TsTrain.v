(** Specification vocabulary for training the time series imputer (C70). *)
From Coq Require Import Reals.
From Flocq Require Import Core.Core IEEE754.BinarySingleNaN.
From Verif Require Import Base M_Archive M_Codec M_Estimator M_Pipeline M_Scale S_Scale S_Stats S_Keyed S_TsImpute M_TsImpute M_FloatText M_TsSave M_TsRows S_TsRows M_TsTrain.
Open Scope Z_scope.

Notation text_row := (list (list Z) * (Z * list (option (list Z))))%type.        (* key, time in ticks, cells: texts *)
Notation text_medians := (list (list (list Z) * list (binary_float 53 1024))).
Notation chain_est := (est (list (elem text_row))).

(** The annotations that the frequency and the median estimator have added. *)
Definition annotations (underflow : list Z -> bool) (types : list Z) (x : chain_est) (f : Z) (m : text_medians) : Prop :=
  exists c1 c2 last, e_impl x = [mkElem freq_stage (mkEst Completed false (c1, Some f)) None;
                                 mkElem (med_stage underflow types) (mkEst Completed false (c2, Some m)) None; last].

Section Outcome.
  Variable underflow : list Z -> bool.
  Variables (types : list Z) (how : strategy) (suppress : bool).
  (** The training loop on some data, with its number of steps. *)
  Variable T : nat -> chain_est -> option (res chain_est).
  Notation start f m := (est_new (ts_chain underflow types how suppress (f, m))).
  (** Training completes and leaves a transformer with settings [s]: the last stage read the annotations [f] and [m], and these are the ones
      that the first two stages added. *)
  Definition learns (f : Z) (m : text_medians) (s : settings) : Prop :=
    exists n c1 c2, forall fuel, (n <= fuel)%nat ->
      T fuel (start f m) = Some (Ok (mkEst Completed false
        [mkElem freq_stage (mkEst Completed false (c1, Some f)) None;
         mkElem (med_stage underflow types) (mkEst Completed false (c2, Some m)) None;
         mkElem (imp_stage types how suppress (f, m)) (mkEst Completed true tt) (Some s)])).
  (** Training throws [e], whatever the last stage reads as long as it is what the first two added. *)
  Definition refuses (e : exn) : Prop :=
    (exists f m n, forall fuel, (n <= fuel)%nat -> T fuel (start f m) = Some (Throw e)) /\
    forall f m, exists n, forall fuel, (n <= fuel)%nat ->
      T fuel (start f m) = Some (Throw e) \/ exists x f' m', T fuel (start f m) = Some (Ok x) /\ annotations underflow types x f' m' /\ (f', m') <> (f, m).
End Outcome.

(** The steps between the rows of a key. *)
Definition steps_of {C} (k : list (list Z)) (rows : list (list (list Z) * (Z * C))) : list Z := gaps (map fst (of_key key_eqb k rows)).
(** The values of a column of a key. *)
Definition column_of_key {C} (k : list (list Z)) (c : nat) (rows : list (list (list Z) * (Z * list (option C)))) : list C :=
  somes (cells_of c (map snd (of_key key_eqb k rows))).
(** Sum in IEEE double arithmetic, in order, divided by the number. *)
Definition float_mean (col : list (binary_float 53 1024)) : binary_float 53 1024 :=
  fdiv (fold_left fadd col fzero) (of_int (Z.of_nat (length col))).

(** Rows that have one cell per type. *)
Definition of_width {C} (types : list Z) (rows : list (list (list Z) * (Z * list (option C)))) : Prop :=
  Forall (fun r => length (snd (snd r)) = length types) rows.
(** Every key has a value in every floating point column ... *)
Definition filled_columns {C} (types : list Z) (rows : list (list (list Z) * (Z * list (option C)))) : Prop :=
  forall k c, of_key key_eqb k rows <> [] -> (c < length types)%nat -> float_column (nth c types 0) = true -> column_of_key k c rows <> [].
(** ... and these texts are read as numbers (C66). *)
Definition readable (underflow : list Z -> bool) (types : list Z) (rows : list text_row) : Prop :=
  forall k c, (c < length types)%nat -> float_column (nth c types 0) = true ->
    Forall (fun s => exists v : binary_float 53 1024, float_from_string underflow s = Ok v) (column_of_key k c rows).
(** [f] is the smallest step of all keys. *)
Definition smallest_step {C} (f : Z) (rows : list (list (list Z) * (Z * C))) : Prop :=
  (exists k, In f (steps_of k rows)) /\ forall k g, In g (steps_of k rows) -> f <= g.
(** The keys of the rows, each with the mean of every floating point column. *)
Definition means_of (underflow : list Z -> bool) (types : list Z) (m : text_medians) (rows : list text_row) : Prop :=
  forall k, match M_Stats.m_find key_eqb m k with
            | Some v => of_key key_eqb k rows <> [] /\ length v = length types /\
                forall c, (c < length types)%nat -> float_column (nth c types 0) = true ->
                  exists col, Forall2 (fun s x => float_from_string underflow s = Ok x) (column_of_key k c rows) col /\ nth c v fzero = float_mean col
            | None => of_key key_eqb k rows = []
            end.

(** *** Rows at the C interface, given by encodings.  As S_TsRows, but a floating point cell can be any number. *)
Section Given.
  Variable places : nat.
  Notation second := (10 ^ Z.of_nat places).
  Definition text_of (id : Z) (b s : list Z) : Prop :=
    value_text places id b s \/
    (id = 11 /\ exists x : binary_float 24 128, is_nan x = false /\ b = le_bytes 4 (single_bits x) /\ s = float_to_string x) \/
    (id = 12 /\ exists x : binary_float 53 1024, is_nan x = false /\ b = le_bytes 8 (double_bits x) /\ s = float_to_string x).
  Definition cell_given (id : Z) (cell : option (list Z)) (b : list Z) : Prop :=
    match cell with
    | Some v => (exists s, text_of id v s) /\ ((is_float id /\ b = v) \/ (~ is_float id /\ b = 1 :: v))
    | None => cell_in places id None b
    end.
  Definition row_given (keys_types types : list Z) (r : list (list Z) * (Z * list (option (list Z)))) (data : list Z) : Prop :=
    let '(keys, (t, cells)) := r in
    exists sec cs rest, t = sec * second /\ in_i64 t = true /\
      each2 (fun id b => exists s, key_text places id b s) keys_types keys /\ each3 cell_given types cells cs /\
      data = (enc (TSInt 8) (VInt sec) ++ concat keys ++ concat cs) ++ rest.
End Given.
(** [v] is [x] with six decimals, as a double. *)
Definition six_places {prec emax} (x : binary_float prec emax) (v : binary_float 53 1024) : Prop :=
  (exists s, x = B754_infinity s /\ v = B754_infinity s) \/
  (is_finite x = true /\ is_finite v = true /\ Bsign v = Bsign x /\ B2R v = r64 (IZR (ZnearestE (B2R x * 1000000)) / 1000000)).
(** The number that the encoding [b] stands for, with six decimals. *)
Definition number_of (id : Z) (b : list Z) (v : binary_float 53 1024) : Prop :=
  (id = 11 /\ exists x : binary_float 24 128, b = le_bytes 4 (single_bits x) /\ six_places x v) \/
  (id = 12 /\ exists x : binary_float 53 1024, b = le_bytes 8 (double_bits x) /\ six_places x v).
(** The keys of the rows, each with the mean of every floating point column. *)
Definition means_given (places : nat) (keys_types types : list Z) (m : text_medians) (rows : list (list (list Z) * (Z * list (option (list Z))))) : Prop :=
  forall keys texts, each3 (key_text places) keys_types keys texts ->
    match M_Stats.m_find key_eqb m texts with
    | Some v => of_key key_eqb keys rows <> [] /\ length v = length types /\
        forall c, (c < length types)%nat -> float_column (nth c types 0) = true ->
          exists col, Forall2 (number_of (nth c types 0)) (column_of_key keys c rows) col /\ nth c v fzero = float_mean col
    | None => of_key key_eqb keys rows = []
    end.

(** [y] is what a column of doubles gets for [x]: [x] with six decimals. *)
Definition rewritten (x y : binary_float 53 1024) : Prop := (is_nan x = true /\ is_nan y = true) \/ six_places x y.
(** What the imputer puts into the Float64 columns of a key: the mean of the training rows. *)
Definition medians_given (places : nat) (keys_types types : list Z) (med : list (list Z) -> option (list (list Z))) (rows : list (list (list Z) * (Z * list (option (list Z))))) : Prop :=
  forall keys, each2 (fun id b => exists s, key_text places id b s) keys_types keys ->
    match med keys with
    | Some bs => of_key key_eqb keys rows <> [] /\ length bs = length types /\
        forall c, (c < length types)%nat -> nth c types 0 = 12 ->
          exists col y, Forall2 (number_of 12) (column_of_key keys c rows) col /\ rewritten (float_mean col) y /\ nth_error bs c = Some (le_bytes 8 (double_bits y))
    | None => of_key key_eqb keys rows = []
    end.
