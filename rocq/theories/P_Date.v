(** C57, C58, C63: dates, holidays, countries. *)
From Coq Require Import String Ascii.
From Verif Require Import Base M_Archive M_Codec M_Save M_Stats M_String M_Text M_Docs M_Date S_Stats S_Date L_Date L_Date2 L_Date3 L_Date4 L_Date5.
Open Scope Z_scope.

(** *** C57 *)
(** There is exactly one way to number the days; it is the one of date.h. *)
Theorem C57_calendar : (exists c, calendar c) /\ (forall c c', calendar c -> calendar c' -> forall n, c n = c' n) /\
  forall c y m d, calendar c -> valid_date (y, m, d) -> c (to_days y m d) = (y, m, d).
Proof. split; [exact (ex_intro _ raw_date raw_calendar)|]. split; [exact calendar_unique|exact (fun c y m d H V => calendar_inv c H y m d V)]. Qed.
Theorem C57_from_days : forall c n y m d, calendar c -> c n = (y, m, d) -> -32768 <= y <= 32767 -> from_days n = (y, m, d).
Proof. intros c n y m d Hc E Hy. rewrite (from_days_calendar c n y m d Hc E), year16_small by exact Hy. reflexivity. Qed.

(** With a clock of ten million ticks a second or more (libstdc++ and MSVC): every time point from 1970 on, and every whole
    second before. *)
Theorem C57_fields : forall ticks gm c t, 10000000 <= ticks -> calendar c -> gmtime_ok c gm ->
  - 2 ^ 63 <= t < 2 ^ 63 -> 0 <= t \/ (ticks | t) ->
  exists f, time_point ticks gm t = Ok f /\ fields_of c ticks t f /\ fields_ranges f.
Proof. exact (fun ticks gm c t H1 H2 H3 => fields_at ticks gm c H1 H2 H3 t). Qed.
(** All time points: the fields are those of the time rounded to a second towards 1970. *)
Theorem C57_truncated : forall ticks gm c t, 10000000 <= ticks -> calendar c -> gmtime_ok c gm -> - 2 ^ 63 <= t < 2 ^ 63 ->
  exists f, time_point ticks gm t = Ok f /\ fields_of c ticks (ticks * Z.quot t ticks) f /\ fields_ranges f.
Proof. intros ticks gm c t H1 H2 H3 H4. exact (time_point_clock ticks ltac:(lia) gm c H2 H3 t H1 H4). Qed.
(** Any clock, as long as the year is one that date.h can hold. *)
Theorem C57_any_clock : forall ticks gm c t y m d, 0 < ticks -> calendar c -> gmtime_ok c gm ->
  - 2 ^ 55 < Z.quot t ticks < 2 ^ 55 -> c (Z.quot t ticks / 86400) = (y, m, d) -> -32766 <= y <= 32766 ->
  exists f, time_point ticks gm t = Ok f /\ fields_of c ticks (ticks * Z.quot t ticks) f /\ fields_ranges f.
Proof. exact (fun ticks gm c t y m d H1 H2 H3 H4 => time_point_ok ticks H1 gm c H2 H3 t y m d H4). Qed.
(** The ISO week and year of a day are determined. *)
Theorem C57_iso_unique : forall c n y w y' w', calendar c -> iso_week c n y w -> iso_week c n y' w' -> y = y' /\ w = w'.
Proof. exact iso_week_unique. Qed.

(** A time in the last second before 1970 is reported as 1970-01-01. *)
Theorem C57_before_1970_refuted : forall ticks gm c t, 10000000 <= ticks -> calendar c -> gmtime_ok c gm -> - ticks < t < 0 ->
  exists f, time_point ticks gm t = Ok f /\ (year f, month f, day f) = (1970, 1, 1) /\ c (day_number ticks t) = (1969, 12, 31).
Proof. exact (fun ticks gm c t H1 H2 H3 => before_1970 ticks gm c H1 H2 H3 t). Qed.
(** DateTimeFeaturizer.h:78-80 documents dayOfWeek as 0 (Monday) to 6 (Sunday) and dayOfYear as 1 to 366: Monday 2018-01-01 gets
    1 and 0; its hour12 is 0. *)
Theorem C57_documented_refuted : forall ticks gm c, 10000000 <= ticks <= 2 ^ 32 -> calendar c -> gmtime_ok c gm ->
  exists f, time_point ticks gm (1514764800 * ticks) = Ok f /\ (year f, month f, day f) = (2018, 1, 1) /\
    day_of_week_label f = chars "Monday" /\ day_of_week f = 1 /\ day_of_year f = 0 /\ hour12 f = 0.
Proof.
  intros ticks gm c H1 H2 H3. assert (B : - 2 ^ 63 <= 1514764800 * ticks < 2 ^ 63) by lia. assert (B0 : 0 <= 1514764800 * ticks) by lia.
  destruct (fields_at ticks gm c (proj1 H1) H2 H3 (1514764800 * ticks) B (or_introl B0)) as (f & F & G & R).
  exists f. split; [exact F|]. clear R. unfold fields_of in G. rewrite (Z.mul_comm 1514764800), day_of_second, second_of_second in G by lia.
  assert (E : c (1514764800 / 86400) = (2018, 1, 1)) by exact (calendar_inv c H2 2018 1 1 ltac:(cbn; lia)).
  destruct G as (G1 & _ & _ & _ & _ & _ & G2 & G3 & G4 & G5 & _). rewrite E in G1. assert (Ey : year f = 2018) by congruence. rewrite Ey in G5. split; [congruence|].
  split; [exact G4|]. split; [exact G3|]. split; [|exact G2]. apply (calendar_jan1_inv c _ _ H2) in G5. change (jan1 2018) with 17532 in G5. change (1514764800 / 86400) with 17532 in G5. lia.
Qed.
(** With a microsecond clock (libc++) there are time points in years that date.h cannot hold: their ISO year and their day of
    the quarter are those of another year. *)
Theorem C57_year_wrap_refuted : exists gm c t f, calendar c /\ gmtime_ok c gm /\ - 2 ^ 63 <= t < 2 ^ 63 /\
  time_point 1000000 gm t = Ok f /\ (year f, month f, day f) = (40000, 7, 1) /\ year_iso f = -25536.
Proof.
  exists gmtime, raw_date, (86400 * 1000000 * to_days 40000 7 1). eexists. split; [exact raw_calendar|]. split; [exact gmtime_raw|].
  split; [vm_compute; split; [discriminate|reflexivity]|]. split; [vm_compute; reflexivity|]. split; reflexivity.
Qed.

Example C57_case_calendar : calendar raw_date /\ gmtime_ok raw_date gmtime.
Proof. exact (conj raw_calendar gmtime_raw). Qed.
(** 2021-01-03T13:05:09: Sunday of the last ISO week of 2020. *)
Example C57_case : time_point 1000000000 gmtime 1609679109500000000 =
  Ok (mkFields 2021 1 3 13 5 9 1 1 0 3 2 0 1 1 53 2020 (chars "January") (chars "pm") (chars "Sunday") [] 0).
Proof. vm_compute. reflexivity. Qed.
(** 2020-02-29, 1969-12-31, and Monday 2018-12-31, which is in week 1 of 2019. *)
Example C57_case_more : (raw_date 18321, raw_date (-1), iso_from_days (to_days 2018 12 31)) = ((2020, 2, 29), (1969, 12, 31), (2019, 1)).
Proof. vm_compute. reflexivity. Qed.

(** *** C58 *)
Theorem C58_holiday : forall ticks gm c t dates names, 10000000 <= ticks -> calendar c -> gmtime_ok c gm ->
  - 2 ^ 63 <= t < 2 ^ 63 -> 0 <= t \/ (86400 * ticks | t) -> (List.length dates <= List.length names)%nat ->
  exists table f name, holiday_map dates names = Ok table /\ time_point ticks gm t = Ok f /\
    date_execute ticks gm table t = Ok (with_holiday f name) /\ holiday dates names (day_number ticks t) name.
Proof. exact (fun ticks gm c t dates names H1 H2 H3 => holiday_at ticks gm c H1 H2 H3 t dates names). Qed.
(** Any clock, any time: the day is the number of days since 1970 rounded towards 1970. *)
Theorem C58_truncated : forall ticks gm t f dates names table, Z.abs (Z.quot t ticks) <= 2 ^ 50 -> time_point ticks gm t = Ok f ->
  holiday_map dates names = Ok table ->
  exists name, date_execute ticks gm table t = Ok (with_holiday f name) /\ holiday dates names (Z.quot (Z.quot t ticks) 86400) name.
Proof. exact date_execute_ok. Qed.
(** Before 1970, a time that is not midnight gets the holiday of the next day. *)
Theorem C58_before_1970_refuted : exists f, calendar raw_date /\ gmtime_ok raw_date gmtime /\
  date_execute 1000000000 gmtime [(0, chars "New Year's Day")] (-43200 * 1000000000) = Ok f /\
  (year f, month f, day f) = (1969, 12, 31) /\ holiday_name f = chars "New Year's Day".
Proof. eexists. split; [exact raw_calendar|]. split; [exact gmtime_raw|]. split; [vm_compute; reflexivity|]. split; reflexivity. Qed.

(** The 4th of July 2019, a second before midnight; the next second is not a holiday. *)
Example C58_case : let dates := [1562198400; 1577232000] in let names := [chars "Independence Day"; chars "Christmas Day"] in
  exists table, holiday_map dates names = Ok table /\
    (do f <- date_execute 1000000000 gmtime table 1562284799999999999; Ok (holiday_name f)) = Ok (chars "Independence Day") /\
    (do f <- date_execute 1000000000 gmtime table 1562284800000000000; Ok (holiday_name f)) = Ok [].
Proof. eexists. split; [vm_compute; reflexivity|]. split; vm_compute; reflexivity. Qed.

(** *** C63 *)
Theorem C63_valid : forall files country, is_valid_country files country = true <-> exists file, In file files /\ written file country.
Proof. exact valid_spec. Qed.
Theorem C63_supported : forall files, StronglySorted (fun a b => str_lt b a = false) (supported_countries files) /\
  (exists stems, Forall2 stem files stems /\ Permutation (supported_countries files) stems) /\
  forall country, In country (supported_countries files) -> is_valid_country files country = true.
Proof. exact supported_ok. Qed.
(** An estimator that has been constructed can create its transformer; the file read is the first that matches. *)
Theorem C63_estimator : forall files country country', date_estimator files country = Ok country' ->
  country' = country /\ exists file, date_create files country = Ok file /\
    match country with
    | None | Some [] => file = None
    | Some c => exists before f after, file = Some f /\ files = before ++ f :: after /\ written f c /\ forall g, In g before -> ~ written g c
    end.
Proof. exact estimator_create. Qed.
Theorem C63_refused : forall files country, (forall file, In file files -> ~ written file country) ->
  date_estimator files (Some country) = Throw InvalidArgument /\ (country <> [] -> country_file files country = Throw InvalidArgument).
Proof.
  intros files country H. split.
  - unfold date_estimator. destruct (is_valid_country files country) eqn:E; [|reflexivity]. apply valid_spec in E. destruct E as (f & I & W). destruct (H f I W).
  - intro N. rewrite file_spec by exact N. destruct (find (country_match country) files) as [f|] eqn:E; [|reflexivity]. apply find_some in E. destruct E as (I & W).
    apply country_match_written in W. destruct (H f I W).
Qed.
(** With the files that are shipped a country's name stands for one file, whatever the order in which the directory is read. *)
Theorem C63_shipped : forall files file country, Permutation files shipped_files -> In file shipped_files -> written file country ->
  country_file files country = Ok (Some file).
Proof. exact shipped_file. Qed.
(** What is saved is the name only: the transformer may be refused where the files are others. *)
Theorem C63_other_directory_refuted : exists files files' country, date_estimator files (Some country) = Ok (Some country) /\
  k_load (KDateTime (is_valid_country files')) (k_save (KDateTime (is_valid_country files)) (VStr country)) = Throw InvalidArgument.
Proof. exists shipped_files, [], (chars "Canada"). split; vm_compute; reflexivity. Qed.
(** The directory is left open by each check that finds the country. *)
Theorem C63_left_open_refuted : forall files country, is_valid_country files country = true -> snd (check_country files country) = true.
Proof. intros files country. unfold is_valid_country. rewrite check_spec. exact (fun H => H). Qed.

Example C63_case : (is_valid_country shipped_files (chars "unitedstates"), is_valid_country shipped_files (chars "UNITED STATES"),
    country_file shipped_files (chars "isle of man"), nth_error (supported_countries (rev shipped_files)) 0)
  = (true, false, Ok (Some (chars "Isle of Man.json")), Some (chars "Argentina")).
Proof. vm_compute. reflexivity. Qed.

Print Assumptions C57_fields.
Print Assumptions C58_holiday.
Print Assumptions C63_shipped.
