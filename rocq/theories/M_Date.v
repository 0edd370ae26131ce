(** Model of DateTimeFeaturizer.{h,cpp} and of what it uses of 3rdParty/date.h and 3rdParty/iso_week.h.  A time point is the
    number of ticks of the system clock since 1970-01-01T00:00:00Z; [ticks] is the number of ticks per second (10^9 with
    libstdc++, 10^7 with MSVC, 10^6 with libc++).  int and unsigned arithmetic of date.h is that of Z: for years of a short
    no intermediate value leaves the range of int, none of the unsigned ones is negative. *)
From Coq Require Import String Ascii.
From Flocq Require Import Core.Core IEEE754.BinarySingleNaN.
From Verif Require Import Base M_Stats M_Scale M_String M_Text M_Grain M_Docs.
Open Scope Z_scope.

(** The characters of a literal. *)
Definition chars (s : string) : list Z := map (fun a => Z.of_nat (nat_of_ascii a)) (list_ascii_of_string s).

(** date.h:365-367, 1496: a year is stored in a short. *)
Definition year16 (y : Z) : Z := to_s 2 y.

(** date.h:2632-2648 [year_month_day::to_days]; the year is a short.  C++ division truncates; the unsigned divisions are of
    non-negative numbers. *)
Definition to_days (y m d : Z) : Z :=
  let y := y - (if m <=? 2 then 1 else 0) in
  let era := Z.quot (if 0 <=? y then y else y - 399) 400 in
  let yoe := y - era * 400 in
  let doy := (153 * (if 2 <? m then m - 3 else m + 9) + 2) / 5 + d - 1 in
  let doe := yoe * 365 + yoe / 4 - yoe / 100 + doy in
  era * 146097 + doe - 719468.

(** date.h:2744-2764 [year_month_day::from_days]: (year, month, day); the year is stored in a short. *)
Definition from_days (dp : Z) : Z * Z * Z :=
  let z := dp + 719468 in
  let era := Z.quot (if 0 <=? z then z else z - 146096) 146097 in
  let doe := z - era * 146097 in
  let yoe := (doe - doe / 1460 + doe / 36524 - doe / 146096) / 365 in
  let y := yoe + era * 400 in
  let doy := doe - (365 * yoe + yoe / 4 - yoe / 100) in
  let mp := (5 * doy + 2) / 153 in
  let d := doy - (153 * mp + 2) / 5 + 1 in
  let m := if mp <? 10 then mp + 3 else mp - 9 in
  (year16 (y + (if m <=? 2 then 1 else 0)), m, d).

(** date.h:1637-1643 [weekday_from_days]: 0 is Sunday. *)
Definition weekday_from_days (z : Z) : Z := if -4 <=? z then Z.rem (z + 4) 7 else Z.rem (z + 5) 7 + 6.
(** date.h:1713-1719, iso_week.h:523-529: difference of two weekdays (unsigned arithmetic). *)
Definition weekday_diff (x y : Z) : Z := let diff := u32 (x - y) in if diff <=? 6 then diff else u32 (diff + 7).
(** date.h:3110-3117 [year_month_weekday_last::to_days] for December and Thursday (4); date.h:2416-2437: its last day is the
    31st. *)
Definition last_thursday (y : Z) : Z :=
  let d := to_days y 12 31 in d - weekday_diff (weekday_from_days d) 4.
(** iso_week.h:1495-1512 [year_weeknum_weekday::from_days]: (year, week number).  mon - thu is that of iso_week.h (1 and 4).
    The week number is stored in an unsigned char. *)
Definition iso_from_days (d : Z) : Z * Z :=
  let y := fst (fst (from_days (d + 3))) in
  let start := last_thursday (year16 (y - 1)) + weekday_diff 1 4 in
  let (y, start) := if d <? start then let y := year16 (y - 1) in (y, last_thursday (year16 (y - 1)) + weekday_diff 1 4)
                    else (y, start) in
  (y, to_u 1 (Z.quot (d - start) 7 + 1)).

(** struct tm, as far as it is used. *)
Record tm := mkTm { tm_year : Z; tm_mon : Z; tm_mday : Z; tm_hour : Z; tm_min : Z; tm_sec : Z; tm_wday : Z; tm_yday : Z }.

(** DateTimeFeaturizer.h:70-93 *)
Record time_fields := mkFields {
  year : Z; month : Z; day : Z; hour : Z; minute : Z; second : Z; am_pm : Z; hour12 : Z; day_of_week : Z; day_of_quarter : Z;
  day_of_year : Z; week_of_month : Z; quarter_of_year : Z; half_of_year : Z; week_iso : Z; year_iso : Z;
  month_label : list Z; am_pm_label : list Z; day_of_week_label : list Z; holiday_name : list Z; is_paid_time_off : Z }.

(** DateTimeFeaturizer.h:114-122 *)
Definition week_days : list (list Z) := map chars ["Sunday"; "Monday"; "Tuesday"; "Wednesday"; "Thursday"; "Friday"; "Saturday"]%string.
Definition months : list (list Z) :=
  map chars ["January"; "February"; "March"; "April"; "May"; "June"; "July"; "August"; "September"; "October"; "November"; "December"]%string.

Section Clock.
  Variable ticks : Z.
  (** gmtime_r; None stands for a null result. *)
  Variable gm : Z -> option tm.

  (** std::chrono::system_clock::to_time_t: duration_cast to seconds, which truncates. *)
  Definition to_time_t (t : Z) : Z := Z.quot t ticks.

  (** DateTimeFeaturizer.cpp:254-315 [TimePoint::TimePoint] *)
  Definition time_point (t : Z) : res time_fields :=
    match gm (to_time_t t) with
    | None => Throw InvalidArgument
    | Some x =>
        let year := tm_year x + 1900 in
        let month := to_u 1 (to_u 1 (tm_mon x) + 1) in
        let day := to_u 1 (tm_mday x) in
        let hour := to_u 1 (tm_hour x) in
        let minute := to_u 1 (tm_min x) in
        let second := to_u 1 (tm_sec x) in
        let am_pm := if hour <? 12 then 0 else 1 in
        let hour12 := if hour <=? 12 then hour else hour - 12 in
        let day_of_week := to_u 1 (tm_wday x) in
        let day_of_year := to_u 2 (tm_yday x) in
        let week_of_month := Z.quot (day - 1) 7 in
        let quarter := Z.quot (month + 2) 3 in
        let half := if month <=? 6 then 1 else 2 in
        let days := to_days (year16 year) month day in
        let first := if month <=? 3 then 1 else if month <=? 6 then 4 else if month <=? 9 then 7 else 10 in
        let day_of_quarter := to_u 1 (days - to_days (year16 year) first 1 + 1) in
        let iso := iso_from_days days in
        do ml <- idx months (Z.to_nat (month - 1));
        do dl <- idx week_days (Z.to_nat day_of_week);
        Ok (mkFields year month day hour minute second am_pm hour12 day_of_week day_of_quarter day_of_year week_of_month quarter
              half (snd iso) (fst iso) ml (if am_pm =? 0 then chars "am" else chars "pm") dl [] 0)
    end.

  (** DateTimeFeaturizer.cpp:373-383: the holiday map from the columns "Date" and "Holiday" of the file: map[date] = name, one
      after the other (the order of the hash map is not observable).  With NDEBUG the assertion on the sizes is off. *)
  Definition holiday_map (dates : list Z) (names : list (list Z)) : res (list (Z * list Z)) :=
    if Nat.ltb (length names) (length dates) then UB
    else Ok (fold_left (fun m p => match m_find Z.eqb m (fst p) with
                                   | Some _ => m_update Z.eqb m (fst p) (fun _ => snd p)
                                   | None => p :: m
                                   end) (combine dates names) []).

  (** DateTimeFeaturizer.cpp:405-422 [execute_impl]; time_point_cast to seconds truncates. *)
  Definition holiday_key (t : Z) : Z :=
    let seconds := Z.quot t ticks in
    Btrunc (fdiv (of_int seconds : binary_float 53 1024) (of_int 86400)) * 86400.
  Definition date_execute (holidays : list (Z * list Z)) (t : Z) : res time_fields :=
    do r <- time_point t;
    Ok (match holidays with
        | [] => r
        | _ => match m_find Z.eqb holidays (holiday_key t) with
               | None => r
               | Some name => mkFields (year r) (month r) (day r) (hour r) (minute r) (second r) (am_pm r) (hour12 r) (day_of_week r)
                   (day_of_quarter r) (day_of_year r) (week_of_month r) (quarter_of_year r) (half_of_year r) (week_iso r) (year_iso r)
                   (month_label r) (am_pm_label r) (day_of_week_label r) name (is_paid_time_off r)
               end
        end).
End Clock.

(** *** Countries *)
(** DateTimeFeaturizer.cpp:216-223 [RemoveCountryExtension]: up to the last dot. *)
Fixpoint before_last_dot (s : list Z) : option (list Z) :=
  match s with
  | [] => None
  | c :: r => match before_last_dot r with
              | Some x => Some (c :: x)
              | None => if c =? 46 then Some [] else None
              end
  end.
Definition remove_extension (s : list Z) : list Z := match before_last_dot s with Some x => x | None => s end.

(** DateTimeFeaturizer.cpp:225-245 [DoesCountryMatch]; [query] is the name of a file. *)
Definition country_match (country query : list Z) : bool :=
  if str_eqb query country then true else
  let query := remove_extension query in
  if str_eqb query country then true else
  let query := to_lower query in
  if str_eqb query country then true else
  let query := filter (fun c => negb (is_space c)) query in
  str_eqb query country.

(** DateTimeFeaturizer.cpp:164-189 [EnumCountries].  [files] are the entries of the data directory that are not directories, in
    the order of readdir; none if the directory cannot be opened.  The callback has a state and says whether to go on.  The
    result: the state, whether all files have been seen, and whether the directory is left open. *)
Fixpoint enum_countries {A} (callback : A -> list Z -> A * bool) (state : A) (files : list (list Z)) {struct files} : A * bool * bool :=
  match files with
  | [] => (state, true, false)
  | f :: rest => let (state', go_on) := callback state f in
                 if go_on then enum_countries callback state' rest else (state', false, true)
  end.
(** DateTimeFeaturizer.cpp:432-443 [IsValidCountry], with whether the directory is left open. *)
Definition check_country (files : list (list Z)) (country : list Z) : bool * bool :=
  let '(_, completed, left_open) := enum_countries (fun (_ : unit) f => (tt, Bool.eqb (country_match country f) false)) tt files in
  (Bool.eqb completed false, left_open).
Definition is_valid_country (files : list (list Z)) (country : list Z) : bool := fst (check_country files country).
(** DateTimeFeaturizer.cpp:445-458 [GetSupportedCountries] *)
Definition supported_countries (files : list (list Z)) : list (list Z) :=
  s_sort str_lt (fst (fst (enum_countries (fun results f => (results ++ [remove_extension f], true)) [] files))).

(** DateTimeFeaturizer.cpp:341-385: which file the transformer reads; [None] for the empty name: no holidays.  Not modelled:
    reading and parsing the file. *)
Definition country_file (files : list (list Z)) (country : list Z) : res (option (list Z)) :=
  match country with
  | [] => Ok None
  | _ => let '(filename, completed, _) :=
           enum_countries (fun filename f => if country_match country f then (f, false) else (filename, true)) [] files in
         if completed : bool then Throw InvalidArgument else Ok (Some filename)
  end.
(** DateTimeFeaturizer.cpp:460-474: the estimator's constructor; 492-497: the transformer it creates. *)
Definition date_estimator (files : list (list Z)) (country : option (list Z)) : res (option (list Z)) :=
  match country with
  | None => Ok None
  | Some c => if is_valid_country files c then Ok (Some c) else Throw InvalidArgument
  end.
Definition date_create (files : list (list Z)) (country : option (list Z)) : res (option (list Z)) :=
  country_file files (match country with None => [] | Some c => c end).
