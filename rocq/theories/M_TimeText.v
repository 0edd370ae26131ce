(** Model of Traits<time_point>::ToString and FromString (Traits.h:1402-1454) and of what they use of 3rdParty/date.h.
    The clock has 10^[places] ticks per second (9 places with libstdc++, 7 with MSVC, 6 with libc++), counted in an int64_t. *)
From Verif Require Import Base M_String M_Text M_Date.
Open Scope Z_scope.

Section Clock.
  Variable places : nat.
  Definition clock_ticks : Z := 10 ^ Z.of_nat places.

  (** ostream << with width [w], fill '0' and std::ios::right: the sign is not moved to the front. *)
  Definition padded (w : nat) (z : Z) : list Z := let s := decimal z in repeat 48 (w - length s) ++ s.
  (** Traits.h:1402-1404 [ToString]; date.h:4807-4820 (%F), 5125-5130 (%T), 4059-4071 (time of day). *)
  Definition time_to_string (t : Z) : list Z :=
    let s := t / clock_ticks in
    let '(y, m, d) := from_days (s / 86400) in
    let r := s mod 86400 in
    padded 4 y ++ [45] ++ padded 2 m ++ [45] ++ padded 2 d ++ [84] ++
    padded 2 (r / 3600) ++ [58] ++ padded 2 (r / 60 mod 60) ++ [58] ++ padded 2 (r mod 60) ++ [90].

  (** *** Reading *)
  (** An istringstream that has not failed: what is left, and whether eofbit is set. *)
  Record stream := mkStream { left : list Z; eof : bool }.
  (** date.h:5710-5731 [read_unsigned]: the number, how many digits it has, the stream.  [n] is M - count. *)
  Fixpoint take_digits (n : nat) (x count : Z) (s : list Z) {struct n} : Z * Z * stream :=
    match n with
    | O => (x, count, mkStream s false)
    | S n' => match s with
              | [] => (x, count, mkStream [] true)
              | c :: r => if is_digit c then take_digits n' (u32 (10 * x + (c - 48))) (count + 1) r else (x, count, mkStream s false)
              end
    end.
  (** None: failbit. *)
  Definition read_unsigned (m : Z) (mx : nat) (s : stream) : option (Z * stream) :=
    let '(x, count, s') := take_digits mx 0 0 (left s) in if count <? m then None else Some (x, s').
  (** date.h:5735-5757 [read_signed], for m > 0 *)
  Definition read_signed (m : Z) (mx : nat) (s : stream) : option (Z * stream) :=
    match left s with
    | [] => None
    | c :: r => if is_digit c then read_unsigned (Z.max m 1) mx s
                else if (c =? 45) || (c =? 43) then
                  match read_unsigned (Z.max m 1) mx (mkStream r false) with
                  | Some (x, s') => Some (if c =? 45 then - x else x, s')
                  | None => None
                  end
                else None
    end.
  (** date.h:5761-5797 [read_long_double]: the characters read, at most [n]; [point]: a decimal point may still come. *)
  Fixpoint take_decimal (n : nat) (point : bool) (s : list Z) {struct n} : list Z * stream :=
    match n with
    | O => ([], mkStream s false)
    | S n' => match s with
              | [] => ([], mkStream [] true)
              | c :: r => if (c =? 46) && point then let (b, s') := take_decimal n' false r in (46 :: b, s')
                          else if is_digit c then let (b, s') := take_decimal n' point r in (c :: b, s')
                          else ([], mkStream s false)
              end
    end.
  (** std::stold of digits with at most one point: the digits as a number, and how many of them are behind the point. *)
  Fixpoint stold (s : list Z) (x : Z) (behind : option nat) (any : bool) {struct s} : res (Z * nat) :=
    match s with
    | [] => if any then Ok (x, match behind with Some k => k | None => O end) else Throw InvalidArgument
    | c :: r => if c =? 46 then stold r x (Some O) any
                else stold r (10 * x + (c - 48)) (match behind with Some k => Some (S k) | None => None end) true
    end.
  (** round<Duration>(duration<long double>), date.h:1162-1182: [rounding x k] is x / 10^k seconds in ticks, computed in long double
      and rounded to a nearest tick; undefined if it does not fit. *)
  Variable rounding : Z -> nat -> Z.

  Record parsed := mkParsed { p_year : Z; p_month : Z; p_day : Z; p_hour : Z; p_minute : Z; p_seconds : Z; p_offset : Z }.
  Definition nothing : parsed := mkParsed (-32768) 0 0 0 0 0 0.

  (** The parts of the format string. *)
  Inductive item := IYear | IMonth | IDay | IHour | IMinute | ISecond | IOffset | ISpace | IChar (c : Z).

  (** One round of the loop of date.h:5971-6883; Ok None: failbit. *)
  Definition parse_item (i : item) (f : parsed) (s : stream) : res (option (parsed * stream)) :=
    match i with
    | IYear => Ok (match read_signed 1 4 s with                                      (* 6570-6577 *)
                   | Some (x, s') => Some (mkParsed x (p_month f) (p_day f) (p_hour f) (p_minute f) (p_seconds f) (p_offset f), s')
                   | None => None end)
    | IMonth => Ok (match read_signed 1 2 s with                                     (* 6338-6344 *)
                    | Some (x, s') => Some (mkParsed (p_year f) x (p_day f) (p_hour f) (p_minute f) (p_seconds f) (p_offset f), s')
                    | None => None end)
    | IDay => Ok (match read_signed 1 2 s with                                       (* 6204-6211 *)
                  | Some (x, s') => Some (mkParsed (p_year f) (p_month f) x (p_hour f) (p_minute f) (p_seconds f) (p_offset f), s')
                  | None => None end)
    | IHour => Ok (match read_unsigned 1 2 s with                                    (* 6235-6245 *)
                   | Some (x, s') => Some (mkParsed (p_year f) (p_month f) (p_day f) x (p_minute f) (p_seconds f) (p_offset f), s')
                   | None => None end)
    | IMinute => Ok (match read_unsigned 1 2 s with                                  (* 6306-6316 *)
                     | Some (x, s') => Some (mkParsed (p_year f) (p_month f) (p_day f) (p_hour f) x (p_seconds f) (p_offset f), s')
                     | None => None end)
    | ISecond =>                                                                     (* 6509-6522 *)
        let (buf, s') := take_decimal (3 + places) true (left s) in
        match buf with
        | [] => Ok None
        | _ => do v <- stold buf 0 None false;
               if in_i64 (fst v * clock_ticks / 10 ^ Z.of_nat (snd v) + 1)
               then Ok (Some (mkParsed (p_year f) (p_month f) (p_day f) (p_hour f) (p_minute f) (rounding (fst v) (snd v)) (p_offset f), s'))
               else UB
        end
    | IOffset =>                                                                     (* 6763-6786 *)
        match read_signed 2 2 s with
        | None => Ok None
        | Some (h, s1) =>
            let with_offset o s' := Ok (Some (mkParsed (p_year f) (p_month f) (p_day f) (p_hour f) (p_minute f) (p_seconds f) o, s')) in
            if eof s1 then with_offset (60 * h) s1 else
            match left s1 with
            | [] => with_offset (60 * h) (mkStream [] true)
            | c :: _ => if is_digit c then
                          match read_unsigned 2 2 s1 with
                          | None => Ok None
                          | Some (m, s2) => with_offset (60 * h + (if h <? 0 then - m else m)) s2
                          end
                        else with_offset (60 * h) s1
            end
        end
    | ISpace => let r := skip_space (left s) in                                      (* 6871-6873: std::ws *)
                Ok (Some (f, mkStream r (match r with [] => true | _ => false end)))
    | IChar c => Ok (match left s with                                               (* 5847-5868 *)
                     | [] => None
                     | x :: r => if x =? c then Some (f, mkStream r false) else None
                     end)
    end.
  (** The loop goes on while the stream is good; if format is left over then, it fails (6892-6893). *)
  Fixpoint parse_items (l : list item) (f : parsed) (s : stream) {struct l} : res (option parsed) :=
    match l with
    | [] => Ok (Some f)
    | i :: r => if eof s then Ok None else
                do x <- parse_item i f s;
                match x with
                | None => Ok None
                | Some (f', s') => parse_items r f' s'
                end
    end.

  (** date.h:2667-2672 [year_month_day::ok], 2419-2430 [last_day]; month and day are stored in unsigned chars. *)
  Definition is_leap (y : Z) : bool := (Z.rem y 4 =? 0) && (negb (Z.rem y 100 =? 0) || (Z.rem y 400 =? 0)).   (* date.h:1509-1512 *)
  Definition last_day (y m : Z) : Z :=
    if negb (m =? 2) || negb (is_leap y) then nth (Z.to_nat (m - 1)) [31; 28; 31; 30; 31; 30; 31; 31; 30; 31; 30; 31] 0 else 29.
  Definition ymd_ok (y m d : Z) : bool := negb (y =? -32768) && (1 <=? m) && (m <=? 12) && (1 <=? d) && (d <=? last_day y m).

  (** date.h:7181-7199 with 7029-7040: the fields are put together. *)
  Definition assemble (f : parsed) : res Z :=
    let m := to_u 1 (p_month f) in
    let d := to_u 1 (p_day f) in
    if negb (ymd_ok (p_year f) m d) || negb (p_hour f <? 24) || negb (p_minute f <? 60) || negb (Z.quot (p_seconds f) clock_ticks <? 60)
    then Throw InvalidArgument
    else
      let minutes := to_days (p_year f) m d * 1440 - p_offset f in
      let a := minutes * 60 * clock_ticks in
      let b := p_hour f * 3600 * clock_ticks + p_minute f * 60 * clock_ticks + p_seconds f in
      if in_i64 a && in_i64 (a + b) && in_i64 (a + b + 1) then Ok (a + b) else UB.

  Definition has (c : Z) (s : list Z) : bool := existsb (Z.eqb c) s.
  (** The position of the last colon. *)
  Fixpoint last_colon (s : list Z) : option nat :=
    match s with
    | [] => None
    | c :: r => match last_colon r with Some i => Some (S i) | None => if c =? 58 then Some O else None end
    end.
  (** Traits.h:1406-1454 [FromString].  npos is 2^64 - 1, which is size() - 3 for a size of 2. *)
  Definition time_from_string (value : list Z) : res Z :=
    let n := length value in
    let no_z := negb (has 90 value) in
    let colon_in_zone := match last_colon value with Some i => Nat.leb 3 n && Nat.eqb i (n - 3) | None => Nat.eqb n 2 end in
    let dash := if has 45 value then [IChar 45] else [] in
    let colon := if has 58 value then [IChar 58] else [] in
    let t := if has 84 value then IChar 84 else ISpace in
    let format := [IYear] ++ dash ++ [IMonth] ++ dash ++ [IDay] ++ [t] ++ [IHour] ++ colon ++ [IMinute] ++ colon ++ [ISecond] ++
                  [if no_z then IOffset else IChar 90] in
    if no_z && colon_in_zone && Nat.ltb n 3 then Throw OutOfRange
    else
      let text := if no_z && colon_in_zone then firstn (n - 3) value ++ skipn (n - 2) value else value in
      do f <- parse_items format nothing (mkStream text false);
      match f with
      | None => Throw InvalidArgument
      | Some f => assemble f
      end.
End Clock.
