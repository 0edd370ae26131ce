(** C64: time points as text. *)
From Coq Require Import String Ascii.
From Verif Require Import Base M_String M_Date S_Date L_Date2 M_TimeText S_TimeText L_TimeText3 L_TimeText4.
Open Scope Z_scope.

(** A valid local date and time, with dashes and colons or without, with T or blanks, with a fraction and with a zone: the instant,
    whatever day the calendar gives that date, provided that it is on the clock. *)
Theorem C64_parse : forall (places : nat) (rounding : Z -> nat -> Z), (places <= 16)%nat -> nearest places rounding ->
  forall c n l y m d h mi s ds z, calendar c -> c n = (y, m, d) -> 0 <= y <= 9999 -> 0 <= h <= 23 -> 0 <= mi <= 59 -> 0 <= s <= 59 ->
  fraction_digits places ds -> blank_between l -> zone_digits z -> zone_readable l z -> on_clock places n h mi s ds z ->
  time_from_string places rounding (time_text l y m d h mi s ds z) = Ok (local_instant places n h mi s ds z).
Proof. intros places rounding Hp Hr c n l y m d h mi s ds z H1 H2 H3 H4 H5 H6 H7 H8 H9 H10. apply (parse_instant places rounding Hp Hr c n l y m d h mi s ds z H1 H2 H3 H4 H5 H6 H7 H8 H9 H10). Qed.
(** A date that does not exist, or a time of day that does not: std::invalid_argument. *)
Theorem C64_invalid : forall (places : nat) (rounding : Z -> nat -> Z), (places <= 16)%nat -> nearest places rounding ->
  forall l y m d h mi s ds z, digits_ok y m d h mi s -> fraction_digits places ds -> blank_between l -> zone_digits z -> zone_readable l z ->
  ~ (valid_date (y, m, d) /\ h <= 23 /\ mi <= 59 /\ s <= 59) ->
  time_from_string places rounding (time_text l y m d h mi s ds z) = Throw InvalidArgument.
Proof. exact parse_invalid. Qed.
(** A valid text of a time off the clock is not refused: the behaviour is undefined. *)
Theorem C64_off_clock_refuted : forall (places : nat) (rounding : Z -> nat -> Z), (places <= 16)%nat -> nearest places rounding ->
  forall c n l y m d h mi s ds z, calendar c -> c n = (y, m, d) -> 0 <= y <= 9999 -> 0 <= h <= 23 -> 0 <= mi <= 59 -> 0 <= s <= 59 ->
  fraction_digits places ds -> blank_between l -> zone_digits z -> zone_readable l z -> ~ on_clock places n h mi s ds z ->
  time_from_string places rounding (time_text l y m d h mi s ds z) = UB.
Proof. intros places rounding Hp Hr c n l y m d h mi s ds z H1 H2 H3 H4 H5 H6 H7 H8 H9 H10. apply (parse_instant places rounding Hp Hr c n l y m d h mi s ds z H1 H2 H3 H4 H5 H6 H7 H8 H9 H10). Qed.
(** The text of a time point: its day and time of day in UTC, to the second. *)
Theorem C64_print : forall c (places : nat) t y m d, calendar c -> c (day_number (10 ^ Z.of_nat places) t) = (y, m, d) -> 0 <= y <= 9999 ->
  let s := second_of_day (10 ^ Z.of_nat places) t in
  time_to_string places t = time_text (mkLayout true true None) y m d (s / 3600) (s / 60 mod 60) (s mod 60) [] Zulu.
Proof. exact printed_text. Qed.
(** Reading what was written: the time point, truncated to the second. *)
Theorem C64_round_trip : forall c (places : nat) (rounding : Z -> nat -> Z) t y m d, (1 <= places <= 16)%nat -> nearest places rounding -> calendar c ->
  c (day_number (10 ^ Z.of_nat places) t) = (y, m, d) -> 0 <= y <= 9999 ->
  - 2 ^ 63 <= 86400 * 10 ^ Z.of_nat places * day_number (10 ^ Z.of_nat places) t -> t < 2 ^ 63 ->
  time_from_string places rounding (time_to_string places t) = Ok (t / 10 ^ Z.of_nat places * 10 ^ Z.of_nat places).
Proof. exact round_trip. Qed.
(** Any text at all: a time point that fits, std::invalid_argument (for two letters maybe std::out_of_range), or undefined behaviour. *)
Theorem C64_any_text : forall places rounding v,
  match time_from_string places rounding v with
  | Ok t => - 2 ^ 63 <= t < 2 ^ 63
  | Throw e => e = InvalidArgument \/ length v = 2%nat
  | UB => True
  end.
Proof. exact any_text. Qed.

(** A zone less than an hour west of Greenwich is read as east of it. *)
Theorem C64_west_refuted :
  time_from_string 9 (half_up 9) (chars "2020-01-01T10:00:00-00:30") = Ok (1577871000 * 10 ^ 9) /\
  time_from_string 9 (half_up 9) (chars "2020-01-01T10:00:00+00:30") = Ok (1577871000 * 10 ^ 9).
Proof. split; vm_compute; reflexivity. Qed.
(** Each of these is valid ISO 8601 and refused: compact with a colon in the zone, compact with a zone west of Greenwich, no zone. *)
Theorem C64_layout_refuted :
  time_from_string 9 (half_up 9) (chars "20200101T100000+08:00") = Throw InvalidArgument /\
  time_from_string 9 (half_up 9) (chars "20200101T100000-0800") = Throw InvalidArgument /\
  time_from_string 9 (half_up 9) (chars "20200101T100000+0800") = Ok (1577844000 * 10 ^ 9) /\
  time_from_string 9 (half_up 9) (chars "2020-01-01T10:00:00") = Throw InvalidArgument /\
  time_from_string 9 (half_up 9) (chars "20200101T100000") = Throw InvalidArgument.
Proof. repeat split; vm_compute; reflexivity. Qed.
(** What follows the zone is not looked at. *)
Theorem C64_trailing_refuted : time_from_string 9 (half_up 9) (chars "2020-01-01T10:00:00Zulu time") = Ok (1577872800 * 10 ^ 9).
Proof. vm_compute; reflexivity. Qed.
(** Two letters: another exception. *)
Theorem C64_two_letters_refuted : time_from_string 9 (half_up 9) (chars "ab") = Throw OutOfRange.
Proof. vm_compute; reflexivity. Qed.
(** The text of the earliest time point cannot be read. *)
Theorem C64_earliest_refuted : time_to_string 9 (- 2 ^ 63) = chars "1677-09-21T00:12:43Z" /\
  time_from_string 9 (half_up 9) (chars "1677-09-21T00:12:43Z") = UB.
Proof. split; vm_compute; reflexivity. Qed.
(** A clock that reaches years before 0 (7 places): the sign is written behind the zeros, and reading it back fails. *)
Theorem C64_negative_year_refuted : time_to_string 7 (-62198755200 * 10 ^ 7) = chars "00-1-01-01T00:00:00Z" /\
  time_from_string 7 (half_up 7) (time_to_string 7 (-62198755200 * 10 ^ 7)) = Throw InvalidArgument.
Proof. split; vm_compute; reflexivity. Qed.

(** The hypotheses hold of: 29 February 2020 at 23:59:58.125 in +05:30. *)
Example C64_case :
  nearest 9 (half_up 9) /\ calendar raw_date /\ raw_date 18321 = (2020, 2, 29) /\
  fraction_digits 9 [1; 2; 5] /\ blank_between (mkLayout true true (Some [32; 9])) /\ zone_digits (HoursMinutes false true 5 30) /\
  zone_readable (mkLayout true true (Some [32; 9])) (HoursMinutes false true 5 30) /\
  on_clock 9 18321 23 59 58 [1; 2; 5] (HoursMinutes false true 5 30) /\
  time_text (mkLayout true true (Some [32])) 2020 2 29 23 59 58 [1; 2; 5] (HoursMinutes false true 5 30) = chars "2020-02-29 23:59:58.125+05:30" /\
  time_text (mkLayout false false None) 2020 2 29 23 59 58 [] Zulu = chars "20200229T235958Z" /\
  time_from_string 9 (half_up 9) (chars "2020-02-29 23:59:58.125+05:30") = Ok (1583000998125000000) /\
  local_instant 9 18321 23 59 58 [1; 2; 5] (HoursMinutes false true 5 30) = 1583000998125000000.
Proof.
  split; [apply half_up_nearest|]. split; [apply raw_calendar|]. split; [vm_compute; reflexivity|].
  split; [split; [repeat constructor; lia|cbn; lia]|]. split; [repeat constructor|]. split; [cbn; lia|]. split; [cbn; intuition discriminate|].
  split; [split; vm_compute; [discriminate|reflexivity]|]. repeat split; vm_compute; reflexivity.
Qed.
(** ... and of the invalid texts: 29 February 2021, hour 24, a leap second. *)
Example C64_case_invalid :
  digits_ok 2021 2 29 0 0 0 /\ ~ valid_date (2021, 2, 29) /\
  time_from_string 9 (half_up 9) (chars "2021-02-29T00:00:00Z") = Throw InvalidArgument /\
  time_from_string 9 (half_up 9) (chars "2021-02-28T24:00:00Z") = Throw InvalidArgument /\
  time_from_string 9 (half_up 9) (chars "2016-12-31T23:59:60Z") = Throw InvalidArgument.
Proof. split; [unfold digits_ok; lia|]. split; [cbn; lia|]. repeat split; vm_compute; reflexivity. Qed.
(** ... of the end of the clock: the last whole second before and the year 9999. *)
Example C64_case_clock :
  time_from_string 9 (half_up 9) (chars "2262-04-11T23:47:16Z") = Ok (9223372036 * 10 ^ 9) /\
  time_from_string 9 (half_up 9) (chars "9999-12-31T23:59:59Z") = UB /\
  ~ on_clock 9 (to_days 9999 12 31) 23 59 59 [] Zulu /\ raw_date (to_days 9999 12 31) = (9999, 12, 31).
Proof. split; [vm_compute; reflexivity|]. split; [vm_compute; reflexivity|]. split; [|vm_compute; reflexivity]. intros (_ & H). vm_compute in H. discriminate. Qed.

Print Assumptions C64_parse.
Print Assumptions C64_invalid.
Print Assumptions C64_round_trip.
