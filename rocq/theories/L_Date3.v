(** ISO weeks and the fields of a time point. *)
From Coq Require Import Zquot.
From Verif Require Import Base M_Stats M_Grain M_Text M_Docs M_Date S_Date L_Date L_Date2.
Open Scope Z_scope.

(** The Monday after the last Thursday of the year before. *)
Definition iso_start (y : Z) : Z := 7 * ((jan1 y - 1) / 7) + 4.
Lemma iso_start_eq y : last_thursday (y - 1) + weekday_diff 1 4 = iso_start y.
Proof. rewrite last_thursday_eq. replace (y - 1 + 1) with y by lia. change (weekday_diff 1 4) with 4. reflexivity. Qed.

Lemma iso_from_days_ok c n y m d : calendar c -> c (n + 3) = (y, m, d) -> -32766 <= y <= 32767 ->
  iso_week c n (fst (iso_from_days n)) (snd (iso_from_days n)) /\ 1 <= snd (iso_from_days n) <= 53.
Proof.
  intros Hc E Hy. pose proof (calendar_year c _ _ _ _ Hc E) as B. unfold iso_from_days. rewrite (from_days_calendar c _ _ _ _ Hc E).
  cbn [fst snd]. cbv zeta. rewrite !(year16_small y) by lia. rewrite !(year16_small (y - 1)) by lia. rewrite (year16_small (y - 1 - 1)) by lia. rewrite !iso_start_eq.
  pose proof (jan1_step y) as S0. pose proof (jan1_prev y) as S1. set (T := 7 * ((n + 3) / 7)).
  assert (HT : T <= n + 3 <= T + 6) by (unfold T; Z.div_mod_to_equations; lia).
  assert (HW : weekday T = 4) by (unfold weekday, T; rewrite Z.add_comm, Z.mul_comm, Z_mod_plus_full; reflexivity).
  destruct (Z.ltb_spec n (iso_start y)) as [H|H]; cbn [fst snd].
  - assert (HY : jan1 (y - 1) <= T < jan1 (y - 1 + 1)).
    { replace (y - 1 + 1) with y by lia. unfold iso_start in H. unfold T in *. destruct (leap (y - 1)), (leap y); clear E Hc HW S0; Z.div_mod_to_equations; lia. }
    assert (HK : Z.quot (n - iso_start (y - 1)) 7 = (T - jan1 (y - 1)) / 7 /\ 0 <= (T - jan1 (y - 1)) / 7 <= 52).
    { rewrite Z.quot_div_nonneg; [|unfold iso_start, T in *; clear E Hc HW S0 H; destruct (leap (y - 1)); Z.div_mod_to_equations; lia|lia].
      unfold iso_start in H. replace (y - 1 + 1) with y in HY by lia. unfold T in *. clear E Hc HW S0. unfold iso_start.
      generalize dependent (jan1 (y - 1)). intros J S1 HY. destruct (leap (y - 1)); Z.div_mod_to_equations; lia. }
    destruct HK as (HK & HB). rewrite HK. assert (U : to_u 1 ((T - jan1 (y - 1)) / 7 + 1) = (T - jan1 (y - 1)) / 7 + 1) by (apply Z.mod_small; change (two_pow8 1) with 256; lia).
    rewrite U. split; [|lia]. exists T, (jan1 (y - 1)). split; [exact HW|]. split; [lia|]. split; [apply (calendar_year_of c T (y - 1) Hc HY)|].
    split; [apply calendar_jan1, Hc|reflexivity].
  - assert (HY : jan1 y <= T < jan1 (y + 1)).
    { unfold iso_start in H. unfold T in *. clear E Hc HW S0 S1; Z.div_mod_to_equations; lia. }
    assert (HK : Z.quot (n - iso_start y) 7 = (T - jan1 y) / 7 /\ 0 <= (T - jan1 y) / 7 <= 52).
    { rewrite Z.quot_div_nonneg; [|lia|lia].
      unfold iso_start in H. unfold T in *. clear E Hc HW S1. unfold iso_start.
      generalize dependent (jan1 y). intros J B S0 H HY. destruct (leap y); Z.div_mod_to_equations; lia. }
    destruct HK as (HK & HB). rewrite HK. assert (U : to_u 1 ((T - jan1 y) / 7 + 1) = (T - jan1 y) / 7 + 1) by (apply Z.mod_small; change (two_pow8 1) with 256; lia).
    rewrite U. split; [|lia]. exists T, (jan1 y). split; [exact HW|]. split; [lia|]. split; [apply (calendar_year_of c T y Hc HY)|].
    split; [apply calendar_jan1, Hc|reflexivity].
Qed.

(** The week and the year of a day are determined. *)
Lemma iso_week_unique c n y w y' w' : calendar c -> iso_week c n y w -> iso_week c n y' w' -> y = y' /\ w = w'.
Proof.
  intros Hc (T & F & HW & HT & (m & d & E) & EF & ->) (T' & F' & HW' & HT' & (m' & d' & E') & EF' & ->).
  assert (T = T') by (unfold weekday in *; Z.div_mod_to_equations; lia). subst T'. rewrite E in E'. injection E' as <- <- <-.
  pose proof (calendar_jan1_inv c _ _ Hc EF). pose proof (calendar_jan1_inv c _ _ Hc EF'). subst. auto.
Qed.

Lemma u1_small v : 0 <= v <= 255 -> to_u 1 v = v.
Proof. intro H. apply Z.mod_small. change (two_pow8 1) with 256. lia. Qed.
Lemma u2_small v : 0 <= v <= 65535 -> to_u 2 v = v.
Proof. intro H. apply Z.mod_small. change (two_pow8 2) with 65536. lia. Qed.
Lemma month_length_max y m : month_length y m <= 31.
Proof. unfold month_length. destruct (m =? 2); [destruct (leap y); lia|destruct (_ || _); lia]. Qed.

Lemma quarter_days y m d : valid_date (y, m, d) ->
  0 <= to_days y m d - to_days y (quarter_start m) 1 <= 91.
Proof.
  intros (Hm & Hd). unfold quarter_start. rewrite !to_days_eq.
  pose proof (before_march_step (y - 1)) as St. replace (y - 1 + 1) with y in St by lia.
  unfold month_length in Hd. months m Hm;
    match goal with |- context [3 * ((?a - 1) / 3) + 1] => let v := eval vm_compute in (3 * ((a - 1) / 3) + 1) in change (3 * ((a - 1) / 3) + 1) with v end;
    unfold shifted; eval_offsets; cbn - [before_march leap Z.sub Z.add] in *;
    try replace (y - 0) with y by lia; try rewrite St; destruct (leap y); lia.
Qed.
Lemma quarter_start_eq m : 1 <= m <= 12 -> (if m <=? 3 then 1 else if m <=? 6 then 4 else if m <=? 9 then 7 else 10) = quarter_start m.
Proof. intro H. months m H; reflexivity. Qed.
Lemma quarter_eq m : 1 <= m <= 12 -> Z.quot (m + 2) 3 = (m - 1) / 3 + 1.
Proof. intro H. months m H; reflexivity. Qed.
Lemma half_eq m : 1 <= m <= 12 -> (if m <=? 6 then 1 else 2) = (m - 1) / 6 + 1.
Proof. intro H. months m H; reflexivity. Qed.
Lemma month_label_eq m : 1 <= m <= 12 -> idx months (Z.to_nat (m - 1)) = Ok (month_name m).
Proof. intro H. months m H; reflexivity. Qed.
Lemma weekday_label_eq n : idx week_days (Z.to_nat (weekday n)) = Ok (weekday_name (weekday n)).
Proof.
  assert (H : 0 <= weekday n < 7) by (apply Z.mod_pos_bound; lia).
  assert (H' : weekday n = 0 \/ weekday n = 1 \/ weekday n = 2 \/ weekday n = 3 \/ weekday n = 4 \/ weekday n = 5 \/ weekday n = 6) by lia.
  destruct H' as [->|[->|[->|[->|[->|[->| ->]]]]]]; reflexivity.
Qed.

Section Fields.
  Variable ticks : Z.
  Hypothesis Ht : 0 < ticks.
  Variable gm : Z -> option tm.
  Variable c : Z -> Z * Z * Z.
  Hypothesis Hc : calendar c.
  Hypothesis Hg : gmtime_ok c gm.

  Lemma day_of_second s : day_number ticks (ticks * s) = s / 86400.
  Proof using Ht. unfold day_number. rewrite (Z.mul_comm 86400). apply Z.div_mul_cancel_l; lia. Qed.
  Lemma second_of_second s : second_of_day ticks (ticks * s) = s mod 86400.
  Proof using Ht. unfold second_of_day. rewrite Z.mul_comm, Z.div_mul by lia. reflexivity. Qed.

  Lemma time_point_ok t y m d : - 2 ^ 55 < Z.quot t ticks < 2 ^ 55 -> c (Z.quot t ticks / 86400) = (y, m, d) -> -32766 <= y <= 32766 ->
    exists f, time_point ticks gm t = Ok f /\ fields_of c ticks (ticks * Z.quot t ticks) f /\ fields_ranges f.
  Proof using Ht Hc Hg.
    intros Hs E Hy. unfold time_point, to_time_t. set (s := Z.quot t ticks) in *. destruct (Hg s Hs) as (x & y' & m' & d' & G & E' & G1 & G2 & G3 & G4 & G5 & G6 & G7 & G8).
    rewrite E in E'. injection E' as <- <- <-. rewrite G. cbv zeta.
    pose proof Hc as (_ & Hv & _). pose proof (Hv (s / 86400)) as V. rewrite E in V. destruct V as (Vm & Vd). pose proof (month_length_max y m) as ML.
    assert (B1 : 0 <= s mod 86400 < 86400) by (apply Z.mod_pos_bound; lia).
    assert (Bh : 0 <= s mod 86400 / 3600 <= 23) by (Z.div_mod_to_equations; lia).
    assert (Bmi : 0 <= s mod 3600 / 60 <= 59) by (Z.div_mod_to_equations; lia).
    assert (Bse : 0 <= s mod 60 <= 59) by (Z.div_mod_to_equations; lia).
    assert (Bw : 0 <= weekday (s / 86400) < 7) by (apply Z.mod_pos_bound; lia).
    pose proof (calendar_jan1_inv c _ _ Hc G8) as Y0. pose proof (calendar_year c _ _ _ _ Hc E) as YB. pose proof (jan1_step y) as YS.
    assert (By : 0 <= tm_yday x <= 365) by (destruct (leap y); lia).
    rewrite G1, G2, G3, G4, G5, G6, G7. replace (y - 1900 + 1900) with y by lia.
    rewrite (u1_small (m - 1)) by lia. replace (m - 1 + 1) with m by lia. rewrite (u1_small m), (u1_small d), (u1_small (s mod 86400 / 3600)), (u1_small (s mod 3600 / 60)), (u1_small (s mod 60)), (u1_small (weekday _)), (u2_small (tm_yday x)) by lia.
    rewrite (year16_small y) by lia. rewrite (quarter_start_eq m Vm), (quarter_eq m Vm), (half_eq m Vm).
    pose proof (quarter_days y m d (conj Vm Vd)) as BQ. rewrite (u1_small (_ - _ + 1)) by lia.
    assert (ED : to_days y m d = s / 86400) by (apply (calendar_to_days c Hc); exact E). rewrite ED in *.
    rewrite (month_label_eq m Vm). cbn [bind]. rewrite weekday_label_eq. cbn [bind].
    eexists. split; [reflexivity|].
    destruct (c (s / 86400 + 3)) as ((y3, m3), d3) eqn:E3. pose proof (calendar_year c _ _ _ _ Hc E3) as Y3.
    assert (B3 : y <= y3 <= y + 1).
    { split.
      - destruct (Z.le_gt_cases y y3) as [|L]; [assumption|]. pose proof (jan1_le (y3 + 1) y ltac:(lia)). lia.
      - destruct (Z.le_gt_cases y3 (y + 1)) as [|L]; [assumption|]. pose proof (jan1_le (y + 2) y3 ltac:(lia)).
        pose proof (jan1_step (y + 1)). replace (y + 1 + 1) with (y + 2) in * by lia. destruct (leap (y + 1)); lia. }
    destruct (iso_from_days_ok c _ _ _ _ Hc E3 ltac:(lia)) as (I1 & I2).
    unfold fields_of. rewrite day_of_second, second_of_second. cbn [year month day hour minute second am_pm hour12 day_of_week day_of_quarter day_of_year week_of_month quarter_of_year half_of_year week_iso year_iso month_label am_pm_label day_of_week_label holiday_name is_paid_time_off].
    assert (AP : (s mod 86400 / 3600 <? 12) = (s mod 86400 <? 43200)).
    { destruct (Z.ltb_spec (s mod 86400 / 3600) 12), (Z.ltb_spec (s mod 86400) 43200); try reflexivity; exfalso; Z.div_mod_to_equations; lia. }
    rewrite AP. split.
    - split; [exact E|]. split; [reflexivity|]. split.
      { clear. Z.div_mod_to_equations; lia. }
      split. { clear. Z.div_mod_to_equations; lia. }
      split; [reflexivity|]. split; [destruct (s mod 86400 <? 43200); reflexivity|]. split; [reflexivity|]. split; [reflexivity|]. split; [reflexivity|].
      split; [exact G8|]. split.
      { replace (s / 86400 - (s / 86400 - to_days y (quarter_start m) 1 + 1 - 1)) with (to_days y (quarter_start m) 1) by lia.
        apply calendar_inv; [exact Hc|]. split; [unfold quarter_start; clear - Vm; Z.div_mod_to_equations; lia|]. split; [lia|].
        unfold month_length. destruct (_ =? 2); [destruct (leap y); lia|destruct (_ || _); lia]. }
      split; [apply Z.quot_div_nonneg; lia|]. split; [reflexivity|]. split; [reflexivity|]. split; [exact I1|]. repeat (split; [reflexivity|]). reflexivity.
    - unfold fields_ranges. cbn [year month day hour minute second am_pm hour12 day_of_week day_of_quarter day_of_year week_of_month quarter_of_year half_of_year week_iso year_iso].
      split; [exact Vm|]. split; [clear - Vd ML; lia|]. split; [exact Bh|]. split; [exact Bmi|]. split; [exact Bse|].
      split; [clear; destruct (_ <? _); lia|]. split; [clear - Bh; destruct (Z.leb_spec (s mod 86400 / 3600) 12); lia|].
      split; [clear - Bw; lia|]. split; [clear - BQ; lia|]. split; [exact By|].
      split; [rewrite Z.quot_div_nonneg by (clear - Vd; lia); clear - Vd ML; Z.div_mod_to_equations; lia|].
      split; [clear - Vm; Z.div_mod_to_equations; lia|]. split; [clear - Vm; Z.div_mod_to_equations; lia|exact I2].
  Qed.

  (** Times that are not before 1970, or whole seconds. *)
  Lemma time_point_at t f : 0 <= t \/ (ticks | t) -> fields_of c ticks (ticks * Z.quot t ticks) f -> fields_of c ticks t f.
  Proof using Ht.
    intros H F. destruct H as [H|(k & ->)].
    - rewrite Z.quot_div_nonneg in F by lia. unfold fields_of in *. rewrite day_of_second, second_of_second in F.
      replace (day_number ticks t) with (t / ticks / 86400) by (unfold day_number; rewrite Z.div_div, (Z.mul_comm ticks) by lia; reflexivity).
      exact F.
    - rewrite Z.quot_mul in F by lia. rewrite Z.mul_comm. exact F.
  Qed.

  (** The years of a clock with at least ten million ticks a second fit. *)
  Lemma years_fit n y m d : c n = (y, m, d) -> -10800000 <= n <= 10800000 -> -32766 <= y <= 32766.
  Proof using Hc.
    intros E Hn. pose proof (calendar_year c _ _ _ _ Hc E) as B. split.
    - destruct (Z.le_gt_cases (-32766) y) as [|L]; [assumption|]. exfalso. pose proof (jan1_le (y + 1) (-32766) ltac:(lia)) as J.
      assert (jan1 (-32766) < -10800000) by (vm_compute; reflexivity). lia.
    - destruct (Z.le_gt_cases y 32766) as [|L]; [assumption|]. exfalso. pose proof (jan1_le 32767 y ltac:(lia)) as J.
      assert (10800000 < jan1 32767) by (vm_compute; reflexivity). lia.
  Qed.
  Lemma clock_range t : 10000000 <= ticks -> - 2 ^ 63 <= t < 2 ^ 63 -> - 922337203686 <= Z.quot t ticks <= 922337203686.
  Proof using Ht.
    intros H1 H2. destruct (Z.le_gt_cases 0 t).
    - rewrite Z.quot_div_nonneg by lia. split; [pose proof (Z.div_pos t ticks); lia|].
      apply Z.le_trans with (t / 10000000); [apply Z.div_le_compat_l; lia|]. Z.div_mod_to_equations; lia.
    - replace t with (- - t) by lia. rewrite Z.quot_opp_l by lia. rewrite Z.quot_div_nonneg by lia.
      assert (- t / ticks <= - t / 10000000) by (apply Z.div_le_compat_l; lia). pose proof (Z.div_pos (- t) ticks ltac:(lia) ltac:(lia)).
      assert (- t / 10000000 <= 922337203686) by (Z.div_mod_to_equations; lia). lia.
  Qed.
  Lemma time_point_clock t : 10000000 <= ticks -> - 2 ^ 63 <= t < 2 ^ 63 ->
    exists f, time_point ticks gm t = Ok f /\ fields_of c ticks (ticks * Z.quot t ticks) f /\ fields_ranges f.
  Proof using Ht Hc Hg.
    intros H1 H2. pose proof (clock_range t H1 H2) as B. destruct (c (Z.quot t ticks / 86400)) as ((y, m), d) eqn:E.
    eapply time_point_ok; [lia|exact E|]. eapply years_fit; [exact E|]. Z.div_mod_to_equations; lia.
  Qed.
End Fields.
