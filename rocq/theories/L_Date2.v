(** from_days, weekdays, ISO weeks. *)
From Coq Require Import Zquot.
From Verif Require Import Base M_Date S_Date L_Date.
Open Scope Z_scope.

Fixpoint all_from (n : nat) (p : Z -> bool) (z : Z) {struct n} : bool :=
  match n with O => true | S k => if p z then all_from k p (z + 1) else false end.
Lemma all_from_spec (n : nat) (p : Z -> bool) : forall z, all_from n p z = true -> forall x, z <= x < z + Z.of_nat n -> p x = true.
Proof.
  induction n as [|n IH]; intros z H x Hx; [lia|]. cbn [all_from] in H. destruct (p z) eqn:E; [|discriminate].
  destruct (Z.eq_dec x z) as [->|Hne]; [exact E|]. apply (IH (z + 1)); [exact H|lia].
Qed.

(** The year of the era and the day of the year (from March). *)
Definition yoe_of (doe : Z) : Z := (doe - doe / 1460 + doe / 36524 - doe / 146096) / 365.
Definition doy_of (doe : Z) : Z := doe - (365 * yoe_of doe + yoe_of doe / 4 - yoe_of doe / 100).
Definition era_check (doe : Z) : bool :=
  let yoe := yoe_of doe in let doy := doy_of doe in
  (0 <=? yoe) && (yoe <=? 399) && (0 <=? doy) && (doy <=? 364 + (if leap (yoe + 1) then 1 else 0)).
Lemma era_checked : all_from (Z.to_nat 146097) era_check 0 = true.
Proof. vm_compute. reflexivity. Qed.
Lemma era_ok doe : 0 <= doe < 146097 ->
  0 <= yoe_of doe <= 399 /\ 0 <= doy_of doe <= 364 + (if leap (yoe_of doe + 1) then 1 else 0).
Proof.
  intro H. pose proof (all_from_spec _ _ _ era_checked doe) as C. rewrite Z2Nat.id in C by lia. specialize (C H). unfold era_check in C.
  rewrite !Bool.andb_true_iff, !Z.leb_le in C. lia.
Qed.

Definition mp_of (doy : Z) : Z := (5 * doy + 2) / 153.
Definition month_of (doy : Z) : Z := if mp_of doy <? 10 then mp_of doy + 3 else mp_of doy - 9.
Definition day_of (doy : Z) : Z := doy - (153 * mp_of doy + 2) / 5 + 1.
Definition month_check (doy : Z) : bool :=
  let m := month_of doy in let d := day_of doy in
  (1 <=? m) && (m <=? 12) && (1 <=? d) && (month_offset m + d - 1 =? doy) &&
  (d <=? (if m =? 2 then if doy =? 365 then 29 else 28 else if (m =? 4) || (m =? 6) || (m =? 9) || (m =? 11) then 30 else 31)).
Lemma month_checked : all_from 366 month_check 0 = true.
Proof. vm_compute. reflexivity. Qed.
Lemma month_ok doy : 0 <= doy <= 365 ->
  1 <= month_of doy <= 12 /\ 1 <= day_of doy /\ month_offset (month_of doy) + day_of doy - 1 = doy /\
  day_of doy <= (if month_of doy =? 2 then if doy =? 365 then 29 else 28 else if (month_of doy =? 4) || (month_of doy =? 6) || (month_of doy =? 9) || (month_of doy =? 11) then 30 else 31).
Proof.
  intro H. pose proof (all_from_spec _ _ _ month_checked doy) as C. change (0 + Z.of_nat 366) with 366 in C. specialize (C ltac:(lia)).
  unfold month_check in C. rewrite !Bool.andb_true_iff, !Z.leb_le, Z.eqb_eq in C. tauto.
Qed.

(** from_days before the year is put into a short. *)
Definition raw_date (n : Z) : Z * Z * Z :=
  let z := n + 719468 in let era := z / 146097 in let doe := z mod 146097 in
  let doy := doy_of doe in
  (yoe_of doe + era * 400 + (if month_of doy <=? 2 then 1 else 0), month_of doy, day_of doy).
Lemma from_days_raw n : from_days n = let '(y, m, d) := raw_date n in (year16 y, m, d).
Proof.
  unfold from_days, raw_date. cbv zeta. change (if 0 <=? n + 719468 then n + 719468 else n + 719468 - 146096)
    with (if 0 <=? n + 719468 then n + 719468 else n + 719468 - (146097 - 1)). rewrite quot_floor by lia.
  replace (n + 719468 - (n + 719468) / 146097 * 146097) with ((n + 719468) mod 146097) by (rewrite Z.mod_eq by lia; lia).
  reflexivity.
Qed.
Lemma leap_era y k : leap (y + k * 400) = leap y.
Proof.
  unfold leap. rewrite Z_mod_plus_full. replace (y + k * 400) with (y + k * 4 * 100) at 2 by lia. rewrite Z_mod_plus_full.
  replace (y + k * 400) with (y + k * 100 * 4) by lia. rewrite Z_mod_plus_full. reflexivity.
Qed.
Lemma before_march_era y k : 0 <= y <= 399 -> before_march (y + k * 400) = k * 146097 + 365 * y + y / 4 - y / 100 - 719468.
Proof.
  intro H. unfold before_march. replace ((y + k * 400) / 4) with (y / 4 + k * 100) by (rewrite <- Z.div_add by lia; f_equal; lia).
  replace ((y + k * 400) / 100) with (y / 100 + k * 4) by (rewrite <- Z.div_add by lia; f_equal; lia).
  rewrite Z.div_add by lia. rewrite (Z.div_small y 400) by lia. lia.
Qed.
Lemma raw_ok n y m d : raw_date n = (y, m, d) -> valid_date (y, m, d) /\ to_days y m d = n.
Proof.
  unfold raw_date. cbv zeta. set (z := n + 719468). set (era := z / 146097). set (doe := z mod 146097).
  pose proof (Z.mod_pos_bound z 146097 ltac:(lia)) as Hd. fold doe in Hd. pose proof (Z.div_mod z 146097 ltac:(lia)) as Hz.
  destruct (era_ok doe Hd) as (Hy & Hdoy). set (yoe := yoe_of doe) in *. set (doy := doy_of doe) in *.
  destruct (month_ok doy) as (Hm & Hd1 & Ho & Hd2); [destruct (leap _); lia|].
  intro E. injection E as <- <- <-. split.
  - split; [exact Hm|]. split; [exact Hd1|]. etransitivity; [exact Hd2|]. unfold month_length.
    destruct (Z.eqb_spec (month_of doy) 2) as [E2|]; [|lia].
    rewrite E2. change (2 <=? 2) with true. cbv iota. replace (yoe + era * 400 + 1) with (yoe + 1 + era * 400) by lia. rewrite leap_era.
    destruct (Z.eqb_spec doy 365), (leap (yoe + 1)); lia.
  - rewrite to_days_eq. replace (shifted _ (month_of doy)) with (yoe + era * 400) by (unfold shifted; destruct (month_of doy <=? 2); lia).
    rewrite before_march_era by lia. unfold doy in Ho at 3. unfold doy_of in Ho. fold yoe in Ho. fold era doe in Hz. lia.
Qed.
(** There is a calendar. *)
Lemma raw_calendar : calendar raw_date.
Proof.
  split; [reflexivity|]. split.
  - intro n. destruct (raw_date n) as ((y, m), d) eqn:E. apply (raw_ok _ _ _ _ E).
  - intro n. destruct (raw_date n) as ((y, m), d) eqn:E. destruct (raw_ok _ _ _ _ E) as (V & D).
    destruct (raw_date (n + 1)) as ((y1, m1), d1) eqn:E1. destruct (raw_ok _ _ _ _ E1) as (V1 & D1).
    destruct (next_date (y, m, d)) as ((y2, m2), d2) eqn:E2. apply to_days_inj; [exact V1|rewrite <- E2; apply next_valid, V|].
    rewrite (to_days_next _ _ _ _ _ _ V E2). lia.
Qed.
Lemma from_days_calendar c n y m d : calendar c -> c n = (y, m, d) -> from_days n = (year16 y, m, d).
Proof.
  intros Hc E. rewrite (calendar_unique c raw_date Hc raw_calendar) in E. rewrite from_days_raw, E. reflexivity.
Qed.

(** The first day of a year. *)
Definition jan1 (y : Z) : Z := to_days y 1 1.
Lemma jan1_eq y : jan1 y = before_march (y - 1) + 306.
Proof. unfold jan1. rewrite to_days_eq. unfold shifted. eval_offsets. cbn - [before_march Z.sub]. lia. Qed.
Lemma jan1_step y : jan1 (y + 1) = jan1 y + 365 + (if leap y then 1 else 0).
Proof. rewrite !jan1_eq. replace (y + 1 - 1) with (y - 1 + 1) by lia. rewrite before_march_step. replace (y - 1 + 1) with y by lia. lia. Qed.
Lemma jan1_prev y : jan1 y = jan1 (y - 1) + 365 + (if leap (y - 1) then 1 else 0).
Proof. rewrite <- jan1_step. f_equal. lia. Qed.
Lemma jan1_le x y : x <= y -> jan1 x + 365 * (y - x) <= jan1 y.
Proof.
  intro H. rewrite !jan1_eq. pose proof (before_march_bounds (x - 1) (y - x) ltac:(lia)). replace (x - 1 + (y - x)) with (y - 1) in H0 by lia. lia.
Qed.
Lemma to_days_year y m d : valid_date (y, m, d) -> jan1 y <= to_days y m d < jan1 (y + 1).
Proof.
  intros V. rewrite !jan1_eq, to_days_eq. replace (y + 1 - 1) with (y - 1 + 1) by lia. rewrite before_march_step. replace (y - 1 + 1) with y by lia.
  destruct V as (Hm & Hd). pose proof (before_march_step (y - 1)) as St. replace (y - 1 + 1) with y in St by lia.
  unfold month_length, shifted in *. months m Hm; eval_offsets; cbn - [before_march leap Z.sub Z.add] in *; try replace (y - 0) with y by lia;
    try rewrite St; destruct (leap y); lia.
Qed.
Lemma calendar_year c n y m d : calendar c -> c n = (y, m, d) -> jan1 y <= n < jan1 (y + 1).
Proof.
  intros Hc E. rewrite <- (calendar_to_days c Hc _ _ _ _ E). apply to_days_year. destruct Hc as (_ & Hv & _). specialize (Hv n). rewrite E in Hv. exact Hv.
Qed.
Lemma year_unique n x y : jan1 x <= n < jan1 (x + 1) -> jan1 y <= n < jan1 (y + 1) -> x = y.
Proof.
  intros H H'. destruct (Z.lt_trichotomy x y) as [L|[L|L]]; [exfalso|exact L|exfalso].
  - pose proof (jan1_le (x + 1) y ltac:(lia)). lia.
  - pose proof (jan1_le (y + 1) x ltac:(lia)). lia.
Qed.
Lemma calendar_year_of c n y : calendar c -> jan1 y <= n < jan1 (y + 1) -> exists m d, c n = (y, m, d).
Proof.
  intros Hc H. destruct (c n) as ((y', m), d) eqn:E. pose proof (calendar_year c n _ _ _ Hc E). rewrite (year_unique n y y' H H0). eauto.
Qed.
Lemma calendar_jan1 c y : calendar c -> c (jan1 y) = (y, 1, 1).
Proof. intro Hc. apply calendar_inv; [exact Hc|]. cbn. lia. Qed.
Lemma calendar_jan1_inv c n y : calendar c -> c n = (y, 1, 1) -> n = jan1 y.
Proof. intros Hc E. symmetry. apply (calendar_to_days c Hc _ _ _ _ E). Qed.

(** Weekdays. *)
Lemma weekday_ok z : weekday_from_days z = weekday z.
Proof. unfold weekday_from_days, weekday. destruct (Z.leb_spec (-4) z).
  - apply Z.rem_mod_nonneg; lia.
  - replace (z + 5) with (- - (z + 5)) by lia. rewrite Z.rem_opp_l by lia. rewrite Z.rem_mod_nonneg by lia.
    Z.div_mod_to_equations; lia.
Qed.
Lemma last_thursday_eq y : last_thursday y = 7 * ((jan1 (y + 1) - 1) / 7).
Proof.
  assert (E : to_days y 12 31 = jan1 (y + 1) - 1).
  { rewrite jan1_eq, to_days_eq. unfold shifted. eval_offsets. cbn - [before_march Z.sub Z.add]. replace (y + 1 - 1) with (y - 0) by lia. lia. }
  unfold last_thursday. cbv zeta. rewrite E, weekday_ok. set (D := jan1 (y + 1) - 1). clearbody D. clear E.
  unfold weekday_diff, weekday. cbv zeta. assert (H : 0 <= (D + 4) mod 7 < 7) by (apply Z.mod_pos_bound; lia).
  assert (U : u32 ((D + 4) mod 7 - 4) = if (D + 4) mod 7 <? 4 then (D + 4) mod 7 - 4 + 2 ^ 32 else (D + 4) mod 7 - 4).
  { unfold u32. destruct (Z.ltb_spec ((D + 4) mod 7) 4).
    - symmetry. apply Z.mod_unique with (q := -1); lia.
    - apply Z.mod_small. lia. }
  rewrite U. destruct (Z.ltb_spec ((D + 4) mod 7) 4).
  - destruct (Z.leb_spec ((D + 4) mod 7 - 4 + 2 ^ 32) 6); [lia|].
    replace (u32 ((D + 4) mod 7 - 4 + 2 ^ 32 + 7)) with ((D + 4) mod 7 + 3).
    + Z.div_mod_to_equations; lia.
    + unfold u32. apply Z.mod_unique with (q := 1); lia.
  - destruct (Z.leb_spec ((D + 4) mod 7 - 4) 6); [|lia]. Z.div_mod_to_equations; lia.
Qed.

Lemma year16_small y : -32768 <= y <= 32767 -> year16 y = y.
Proof. intro H. unfold year16, to_s. cbv zeta. change (two_pow8 2) with 65536. change (65536 / 2) with 32768. destruct (Z.ltb_spec (y mod 65536) 32768); Z.div_mod_to_equations; lia. Qed.
