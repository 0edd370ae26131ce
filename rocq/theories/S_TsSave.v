(** Settings of the time series imputer, for C67. *)
From Verif Require Import Base M_Codec M_TsImpute M_TsSave.
Open Scope Z_scope.

(** The type ids that exist: String (1) to Duration (18), and Tensor, SparseTensor, Tabular, Nullable, Vector, Map. *)
Definition type_id (id : Z) : Prop :=
  1 <= id <= 18 \/ 0x10010014 <= id <= 0x10010018 \/ id = 0x10020019.
Definition fits32 {A} (l : list A) : Prop := Z.of_nat (length l) < 2 ^ 32.
Definition ids_ok (l : list Z) : Prop := fits32 l /\ Forall type_id l.
Definition text_ok (s : list Z) : Prop := fits32 s /\ Forall (fun c => 0 <= c < 256) s.
(** Vectors of strings compare lexicographically, and so do strings. *)
Definition ascending (l : list (list (list Z))) : Prop := StronglySorted (fun a b => list_lt str_lt a b = true) l.
Definition medians_ok (m : list (list (list Z) * list Z)) : Prop :=
  fits32 m /\ ascending (map fst m) /\
  Forall (fun e => fits32 (fst e) /\ Forall text_ok (fst e) /\ fits32 (snd e) /\ Forall (fun b => 0 <= b < 2 ^ 64) (snd e)) m.
(** Settings of a transformer that can exist: they fit the types of the program and the constructor accepts them. *)
Definition settings_ok (s : settings) : Prop :=
  (- 2 ^ 63 <= se_freq s < 2 ^ 63 - 1) /\ ids_ok (se_types s) /\ se_types s <> [] /\ medians_ok (se_medians s).
Definition memory_ok (m : memory) : Prop :=
  ids_ok (me_keys m) /\ me_keys m <> [] /\ ids_ok (me_data m) /\ me_data m <> [] /\ settings_ok (me_settings m).
(** The settings with another frequency. *)
Definition with_freq (f : Z) (s : settings) : settings := mkSettings f (se_types s) (se_strategy s) (se_medians s) (se_suppress s).
(** [f'] is [f] cut to whole microseconds, toward zero; [p]: ticks per microsecond. *)
Definition cut (p f f' : Z) : Prop :=
  (p | f') /\ Z.abs (f - f') < p /\ (0 <= f -> 0 <= f' <= f) /\ (f <= 0 -> f <= f' <= 0) /\ ((p | f) -> f' = f).
