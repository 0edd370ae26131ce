(** C67: saving and loading the time series imputer. *)
From Coq Require Import String.
From Verif Require Import Base M_Archive M_Codec M_Save M_Pipeline M_TsImpute M_Date M_TsSave S_TsSave L_TsSave.
Open Scope Z_scope.

(** Loading what was saved gives the same transformer, but the frequency is cut to whole microseconds; what follows stays unread. *)
Theorem C67_save_load : forall p s further, 0 < p -> settings_ok s ->
  exists f, ts_load p (ts_save p s ++ further) = Ok (with_freq f s, further) /\ cut p (se_freq s) f.
Proof. exact ts_save_load. Qed.
(** The same for the memory of the C interface, with its column types. *)
Theorem C67_memory_save_load : forall p m further, 0 < p -> memory_ok m ->
  exists f, mem_load p (mem_save p m ++ further) = Ok (mkMemory (me_keys m) (me_data m) (with_freq f (me_settings m)), further) /\
    cut p (se_freq (me_settings m)) f.
Proof. exact mem_save_load. Qed.
(** A truncated archive is refused. *)
Theorem C67_truncated : forall p s a b, 0 < p -> settings_ok s -> ts_save p s = a ++ b -> b <> [] -> throws (ts_load p a).
Proof. exact ts_truncated. Qed.
Theorem C67_memory_truncated : forall p m a b, 0 < p -> memory_ok m -> mem_save p m = a ++ b -> b <> [] -> throws (mem_load p a).
Proof. exact mem_truncated. Qed.
(** Another version is refused. *)
Theorem C67_versions : forall p bytes, bytes_ok bytes = true -> firstn 4 bytes <> [1;0; 0;0] -> ts_load p bytes = Throw RuntimeError.
Proof. exact ts_versions. Qed.
(** Whatever the bytes, what is loaded is a transformer that the constructor accepts, with existing types and whole microseconds; so it
    can be saved and loaded without a change. *)
Theorem C67_loaded : forall p bytes s rest, bytes_ok bytes = true -> ts_load p bytes = Ok (s, rest) -> settings_ok s /\ (p | se_freq s).
Proof. exact ts_loaded. Qed.
Theorem C67_memory_loaded : forall p bytes m rest, bytes_ok bytes = true -> mem_load p bytes = Ok (m, rest) ->
  memory_ok m /\ (p | se_freq (me_settings m)).
Proof. exact mem_loaded. Qed.
(** CreateEstimator accepts exactly: types for keys and data that exist, a strategy that exists, and with Median (3) only floating point
    columns, unless errors are suppressed.  It keeps what it was given. *)
Theorem C67_create : forall serializer_first keys data code suppress,
  (exists st, strategy_code st = code /\ ts_create serializer_first keys data code suppress = Ok (keys, data, st, suppress)) <->
  keys <> [] /\ data <> [] /\ Forall type_id keys /\ Forall type_id data /\ 1 <= code <= 4 /\
  (code = 3 -> suppress = true \/ Forall (fun id => id = 10 \/ id = 11 \/ id = 12 \/ id = 15) data).
Proof. exact create_spec. Qed.

(** *** Examples *)
Definition a_key : list (list Z) := [chars "a"].
(** Frequency: 1 second on a clock with nanoseconds; Float64 and String columns; for the key "a" the medians 1.5 and 0. *)
Definition some_settings (f : Z) (st : strategy) : settings := mkSettings f [12; 1] st [(a_key, [4609434218613702656; 0])] true.
Lemma some_settings_ok f st : 0 <= f <= 10 ^ 15 -> settings_ok (some_settings f st).
Proof.
  intros H. unfold settings_ok, some_settings, ids_ok, medians_ok, fits32, ascending, type_id. cbn [se_freq se_types se_medians map fst snd length].
  change (10 ^ 15) with 1000000000000000 in H. change (2 ^ 63) with 9223372036854775808. change (2 ^ 32) with 4294967296. change (2 ^ 64) with 18446744073709551616.
  split; [lia|]. split; [split; [lia|repeat constructor; lia]|]. split; [discriminate|]. split; [lia|]. split; [repeat constructor|].
  constructor; [|constructor]. cbn [fst snd length]. split; [cbn; lia|]. split; [|split; [lia|repeat constructor; lia]].
  constructor; [|constructor]. split; [unfold fits32; cbn; lia|]. repeat constructor; cbn; lia.
Qed.
Example C67_case :
  settings_ok (some_settings (10 ^ 9) Median) /\ memory_ok (mkMemory [1] [12; 1] (some_settings (10 ^ 9) Median)) /\ (1000 | 10 ^ 9) /\
  ts_save 1000 (some_settings (10 ^ 9) Median) =
    [1;0; 0;0; 64;66;15;0;0;0;0;0; 2;0;0;0; 12;0;0;0; 1;0;0;0; 3;  1;0;0;0; 1;0;0;0; 1;0;0;0; 97; 2;0;0;0; 0;0;0;0;0;0;248;63; 0;0;0;0;0;0;0;0; 1] /\
  (let w := mkMemory [1] [12; 1] (some_settings (10 ^ 9) Median) in mem_load 1000 (mem_save 1000 w ++ [5]) = Ok (w, [5])) /\
  fst (delivered (ts_machine (some_settings (10 ^ 9) Median)) [(a_key, (0, [Some (chars "2.0"); None])); (a_key, (2 * 10 ^ 9, [None; Some (chars "x")]))]) =
    [(a_key, (false, 0, [Some (chars "2.0"); None])); (a_key, (true, 10 ^ 9, [Some (chars "1.500000"); None]));
     (a_key, (false, 2 * 10 ^ 9, [Some (chars "1.500000"); Some (chars "x")]))] /\
  ts_create true [1] [11; 1] 3 false = Throw RuntimeError /\ ts_create true [1] [11; 1] 3 true = Ok ([1], [11; 1], Median, true) /\
  ts_create false [1] [19] 1 true = Throw InvalidArgument.
Proof.
  split; [now apply some_settings_ok|]. split.
  { unfold memory_ok. cbn [me_keys me_data me_settings]. 
    split; [split; [unfold fits32; cbn; lia|repeat constructor; unfold type_id; lia]|]. split; [discriminate|].
    split; [split; [unfold fits32; cbn; lia|repeat constructor; unfold type_id; lia]|]. split; [discriminate|]. now apply some_settings_ok. }
  split; [now exists 1000000|]. repeat split; vm_compute; reflexivity.
Qed.
(** A frequency of less than a microsecond becomes 0; the first gap is then filled without end (undefined behaviour here). *)
Theorem C67_small_frequency_refuted :
  let s := some_settings 500 Forward in
  let l := [(a_key, (0, [None; None])); (a_key, (1000, [None; None]))] in
  settings_ok s /\ ts_load 1000 (ts_save 1000 s) = Ok (with_freq 0 s, []) /\
  snd (delivered (ts_machine s) l) = Ok tt /\ snd (delivered (ts_machine (with_freq 0 s)) l) = UB.
Proof. split; [now apply some_settings_ok|]. repeat split; vm_compute; reflexivity. Qed.
(** The last rows of the keys and the rows held back are not saved: a transformer saved between two rows does not go on where it was. *)
Theorem C67_between_rows_refuted :
  let s := some_settings (10 ^ 9) Forward in
  let first := (a_key, (0, [Some (chars "1.0"); None])) in
  let second := (a_key, (2 * 10 ^ 9, [None; None])) in
  settings_ok s /\ ts_load 1000 (ts_save 1000 s) = Ok (s, []) /\
  fst (delivered (ts_machine s) [first; second]) = [(a_key, (false, 0, [Some (chars "1.0"); None])); (a_key, (true, 10 ^ 9, [Some (chars "1.0"); None]));
     (a_key, (false, 2 * 10 ^ 9, [Some (chars "1.0"); None]))] /\
  fst (delivered (ts_machine s) [first]) ++ fst (delivered (ts_machine s) [second]) =
    [(a_key, (false, 0, [Some (chars "1.0"); None])); (a_key, (false, 2 * 10 ^ 9, [None; None]))].
Proof. split; [now apply some_settings_ok|]. repeat split; vm_compute; reflexivity. Qed.
(** An archive with a frequency that does not fit the clock is not refused: undefined behaviour. *)
Theorem C67_overflow_refuted : exists bytes, bytes_ok bytes = true /\ length bytes = 12%nat /\ ts_load 1000 bytes = UB.
Proof. exists ([1;0; 0;0] ++ repeat 127 8). repeat split; vm_compute; reflexivity. Qed.
(** The loader does not compare the column types of the transformer with those of the rows. *)
Theorem C67_columns_refuted :
  let m := mkMemory [1] [12; 12; 12] (some_settings (10 ^ 9) Median) in
  memory_ok m /\ mem_load 1000 (mem_save 1000 m) = Ok (m, []) /\
  snd (delivered (ts_machine (me_settings m)) [(a_key, (0, [None; None; None]))]) = UB.
Proof.
  split.
  { unfold memory_ok. cbn [me_keys me_data me_settings]. 
    split; [split; [unfold fits32; cbn; lia|repeat constructor; unfold type_id; lia]|]. split; [discriminate|].
    split; [split; [unfold fits32; cbn; lia|repeat constructor; unfold type_id; lia]|]. split; [discriminate|]. now apply some_settings_ok. }
  repeat split; vm_compute; reflexivity.
Qed.

Print Assumptions C67_save_load.
Print Assumptions C67_truncated.
Print Assumptions C67_memory_loaded.
Print Assumptions C67_create.
