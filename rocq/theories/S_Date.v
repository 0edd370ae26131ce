(** The Gregorian calendar, extended in both directions, and what the date fields are to be. *)
From Coq Require Import String Ascii.
From Verif Require Import Base M_String M_Text M_Date.
Open Scope Z_scope.

Definition leap (y : Z) : bool := (y mod 4 =? 0) && (negb (y mod 100 =? 0) || (y mod 400 =? 0)).
Definition month_length (y m : Z) : Z :=
  if m =? 2 then (if leap y then 29 else 28) else if (m =? 4) || (m =? 6) || (m =? 9) || (m =? 11) then 30 else 31.
(** A date: year, month, day. *)
Definition valid_date (x : Z * Z * Z) : Prop :=
  let '(y, m, d) := x in 1 <= m <= 12 /\ 1 <= d <= month_length y m.
Definition next_date (x : Z * Z * Z) : Z * Z * Z :=
  let '(y, m, d) := x in
  if d <? month_length y m then (y, m, d + 1) else if m <? 12 then (y, m + 1, 1) else (y + 1, 1, 1).
(** A numbering of the days: day 0 is 1970-01-01, each day is followed by the next. *)
Definition calendar (c : Z -> Z * Z * Z) : Prop :=
  c 0 = (1970, 1, 1) /\ (forall n, valid_date (c n)) /\ forall n, c (n + 1) = next_date (c n).

(** The day and the time of day of a time point with [ticks] per second. *)
Definition day_number (ticks t : Z) : Z := t / (86400 * ticks).
Definition second_of_day (ticks t : Z) : Z := t / ticks mod 86400.

(** The weekday: day 0 was a Thursday.  0 is Sunday. *)
Definition weekday (n : Z) : Z := (n + 4) mod 7.

(** ISO 8601: a week starts on Monday and belongs to the year that its Thursday is in, where it is the k-th week if that is
    the k-th Thursday. *)
Definition iso_week (c : Z -> Z * Z * Z) (n year week : Z) : Prop :=
  exists thursday first : Z, weekday thursday = 4 /\ thursday - 3 <= n <= thursday + 3 /\
    (exists m d, c thursday = (year, m, d)) /\ c first = (year, 1, 1) /\ week = (thursday - first) / 7 + 1.

(** What the C standard says of gmtime for a number of seconds. *)
Definition gmtime_ok (c : Z -> Z * Z * Z) (gm : Z -> option tm) : Prop :=
  forall s, - 2 ^ 55 < s < 2 ^ 55 ->
    exists x y m d, gm s = Some x /\ c (s / 86400) = (y, m, d) /\
      tm_year x = y - 1900 /\ tm_mon x = m - 1 /\ tm_mday x = d /\
      tm_hour x = s mod 86400 / 3600 /\ tm_min x = s mod 3600 / 60 /\ tm_sec x = s mod 60 /\
      tm_wday x = weekday (s / 86400) /\ c (s / 86400 - tm_yday x) = (y, 1, 1).

Definition weekday_name (w : Z) : list Z :=
  chars (match w with 0 => "Sunday" | 1 => "Monday" | 2 => "Tuesday" | 3 => "Wednesday" | 4 => "Thursday" | 5 => "Friday" | _ => "Saturday" end).
Definition month_name (m : Z) : list Z :=
  chars (match m with 1 => "January" | 2 => "February" | 3 => "March" | 4 => "April" | 5 => "May" | 6 => "June" | 7 => "July"
         | 8 => "August" | 9 => "September" | 10 => "October" | 11 => "November" | _ => "December" end).

(** The first month of the quarter. *)
Definition quarter_start (m : Z) : Z := 3 * ((m - 1) / 3) + 1.

(** The fields of the time point [t] are those of its day and time of day. *)
Definition fields_of (c : Z -> Z * Z * Z) (ticks t : Z) (f : time_fields) : Prop :=
  let n := day_number ticks t in
  let s := second_of_day ticks t in
  c n = (year f, month f, day f) /\
  hour f = s / 3600 /\ minute f = s / 60 mod 60 /\ second f = s mod 60 /\
  am_pm f = (if s <? 43200 then 0 else 1) /\
  am_pm_label f = chars (if s <? 43200 then "am" else "pm") /\
  hour12 f = (if s / 3600 <=? 12 then s / 3600 else s / 3600 - 12) /\
  day_of_week f = weekday n /\ day_of_week_label f = weekday_name (weekday n) /\
  c (n - day_of_year f) = (year f, 1, 1) /\
  c (n - (day_of_quarter f - 1)) = (year f, quarter_start (month f), 1) /\
  week_of_month f = (day f - 1) / 7 /\
  quarter_of_year f = (month f - 1) / 3 + 1 /\ half_of_year f = (month f - 1) / 6 + 1 /\
  iso_week c n (year_iso f) (week_iso f) /\
  month_label f = month_name (month f) /\ holiday_name f = [] /\ is_paid_time_off f = 0.

(** Ranges. *)
Definition fields_ranges (f : time_fields) : Prop :=
  1 <= month f <= 12 /\ 1 <= day f <= 31 /\ 0 <= hour f <= 23 /\ 0 <= minute f <= 59 /\ 0 <= second f <= 59 /\
  0 <= am_pm f <= 1 /\ 0 <= hour12 f <= 12 /\ 0 <= day_of_week f <= 6 /\ 1 <= day_of_quarter f <= 92 /\ 0 <= day_of_year f <= 365 /\
  0 <= week_of_month f <= 4 /\ 1 <= quarter_of_year f <= 4 /\ 1 <= half_of_year f <= 2 /\ 1 <= week_iso f <= 53.

(** *** Holidays *)
(** [name] is the last one listed for day [n]; the table lists days by the second of their midnight. *)
Definition listed (dates : list Z) (names : list (list Z)) (n : Z) (name : list Z) : Prop :=
  exists i : nat, nth_error dates i = Some (86400 * n) /\ nth_error names i = Some name /\
    forall j : nat, (i < j)%nat -> nth_error dates j <> Some (86400 * n).
Definition with_holiday (f : time_fields) (name : list Z) : time_fields :=
  mkFields (year f) (month f) (day f) (hour f) (minute f) (second f) (am_pm f) (hour12 f) (day_of_week f) (day_of_quarter f)
    (day_of_year f) (week_of_month f) (quarter_of_year f) (half_of_year f) (week_iso f) (year_iso f) (month_label f) (am_pm_label f)
    (day_of_week_label f) name (is_paid_time_off f).
(** The holiday of day [n]: the one listed, the empty name if none is. *)
Definition holiday (dates : list Z) (names : list (list Z)) (n : Z) (name : list Z) : Prop :=
  listed dates names n name \/ (~ In (86400 * n) dates /\ name = []).

(** *** Countries *)
(** The name of a file without its extension. *)
Definition stem (file s : list Z) : Prop :=
  (exists ext, file = s ++ 46 :: ext /\ ~ In 46 ext) \/ (~ In 46 file /\ s = file).
(** The ways to write a country: the name of the file, its stem, that in lower case, that without spaces. *)
Definition written (file country : list Z) : Prop :=
  country = file \/ exists s, stem file s /\ (country = s \/ country = to_lower s \/ country = filter (fun c => negb (is_space c)) (to_lower s)).

(** The files of src/Featurizers/DateTimeFeaturizerData/GeneratedCode. *)
Definition shipped_files : list (list Z) := map chars
  ["Argentina.json"; "Australia.json"; "Austria.json"; "Belarus.json"; "Belgium.json"; "Brazil.json"; "Canada.json"; "Colombia.json";
   "Croatia.json"; "Czech.json"; "Denmark.json"; "England.json"; "Finland.json"; "France.json"; "Germany.json"; "Hungary.json";
   "India.json"; "Ireland.json"; "Isle of Man.json"; "Italy.json"; "Japan.json"; "Mexico.json"; "Netherlands.json"; "New Zealand.json";
   "Northern Ireland.json"; "Norway.json"; "Poland.json"; "Portugal.json"; "Scotland.json"; "Slovenia.json"; "South Africa.json";
   "Spain.json"; "Sweden.json"; "Switzerland.json"; "Ukraine.json"; "United Kingdom.json"; "United States.json"; "Wales.json"]%string.
