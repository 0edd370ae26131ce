(** ISO 8601 texts of a date, a time of day and a zone. *)
From Verif Require Import Base M_String.
Open Scope Z_scope.

(** Two and four decimal digits. *)
Definition two (n : Z) : list Z := [48 + n / 10; 48 + n mod 10].
Definition four (n : Z) : list Z := [48 + n / 1000; 48 + n / 100 mod 10; 48 + n / 10 mod 10; 48 + n mod 10].

(** Z, +hh, -hh, +hhmm, -hhmm, +hh:mm or -hh:mm *)
Inductive zone := Zulu | Hours (west : bool) (hh : Z) | HoursMinutes (west colon : bool) (hh mm : Z).
Definition sign (west : bool) : Z := if west then 45 else 43.
Definition zone_text (z : zone) : list Z :=
  match z with
  | Zulu => [90]
  | Hours west hh => sign west :: two hh
  | HoursMinutes west colon hh mm => sign west :: two hh ++ (if colon then [58] else []) ++ two mm
  end.
(** How much local time is ahead of UTC, in minutes. *)
Definition zone_minutes (z : zone) : Z :=
  match z with
  | Zulu => 0
  | Hours west hh => if west then - (60 * hh) else 60 * hh
  | HoursMinutes west _ hh mm => if west then - (60 * hh + mm) else 60 * hh + mm
  end.
Definition zone_digits (z : zone) : Prop :=
  match z with
  | Zulu => True
  | Hours _ hh => 0 <= hh <= 99
  | HoursMinutes _ _ hh mm => 0 <= hh <= 99 /\ 0 <= mm <= 99
  end.

(** What a text looks like: dashes in the date, colons in the time; between them the letter T (None) or white space, maybe none. *)
Record layout := mkLayout { dashes : bool; colons : bool; between : option (list Z) }.
Definition blank_between (l : layout) : Prop :=
  match between l with None => True | Some s => Forall (fun c => is_space c = true) s end.
(** The digits behind the decimal point of the seconds. *)
Definition fraction_text (ds : list Z) : list Z := match ds with [] => [] | _ => 46 :: map (fun d => 48 + d) ds end.
Definition fraction_digits (places : nat) (ds : list Z) : Prop := Forall (fun d => 0 <= d <= 9) ds /\ (length ds <= places)%nat.
(** The number with these digits. *)
Definition number (ds : list Z) : Z := fold_left (fun x d => 10 * x + d) ds 0.
(** The fraction of a second, in ticks. *)
Definition fraction_ticks (places : nat) (ds : list Z) : Z := number ds * 10 ^ (Z.of_nat places - Z.of_nat (length ds)).

Definition time_text (l : layout) (y m d h mi s : Z) (ds : list Z) (z : zone) : list Z :=
  let dash := if dashes l then [45] else [] in
  let colon := if colons l then [58] else [] in
  four y ++ dash ++ two m ++ dash ++ two d ++ match between l with None => [84] | Some ws => ws end ++
  two h ++ colon ++ two mi ++ colon ++ two s ++ fraction_text ds ++ zone_text z.
(** The numbers have the digits that they are written with. *)
Definition digits_ok (y m d h mi s : Z) : Prop :=
  0 <= y <= 9999 /\ 0 <= m <= 99 /\ 0 <= d <= 99 /\ 0 <= h <= 99 /\ 0 <= mi <= 99 /\ 0 <= s <= 99.

(** A colon in the zone comes only with colons in the time, a zone west of Greenwich only with dashes in the date and with at least
    one hour. *)
Definition zone_readable (l : layout) (z : zone) : Prop :=
  match z with
  | Zulu => True
  | Hours west _ => west = true -> dashes l = true
  | HoursMinutes west colon hh mm =>
      (colon = true -> colons l = true) /\ (west = true -> dashes l = true /\ (hh = 0 -> mm = 0))
  end.

(** The instant, in ticks since 1970, of a local time on day [n]. *)
Definition local_instant (places : nat) (n h mi s : Z) (ds : list Z) (z : zone) : Z :=
  ((n * 86400 + h * 3600 + mi * 60 + s) - 60 * zone_minutes z) * 10 ^ Z.of_nat places + fraction_ticks places ds.
(** Local midnight and the tick behind the instant can be counted in 64 bits. *)
Definition on_clock (places : nat) (n h mi s : Z) (ds : list Z) (z : zone) : Prop :=
  - 2 ^ 63 <= local_instant places n 0 0 0 [] z /\ local_instant places n h mi s ds z + 1 < 2 ^ 63.

(** [rounding x k]: a whole number of ticks nearest to x / 10^k seconds, for the numbers that can be read. *)
Definition nearest (places : nat) (rounding : Z -> nat -> Z) : Prop :=
  forall (x : Z) (k : nat), 0 <= x < 10 ^ (3 + Z.of_nat places) ->
    2 * Z.abs (rounding x k * 10 ^ Z.of_nat k - x * 10 ^ Z.of_nat places) <= 10 ^ Z.of_nat k.
