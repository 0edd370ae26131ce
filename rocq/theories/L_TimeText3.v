From Verif Require Import Base L_List M_String M_Text M_Date S_Date L_Date L_Date2 L_Date3 M_TimeText S_TimeText L_TimeText L_TimeText2.
Open Scope Z_scope.

(** The text with a zone without colon. *)
Lemma text_head l y m d h mi s ds : exists a : list Z, forall z', zone_text z' <> [] ->
  time_text l y m d h mi s ds z' = a ++ zone_text z' /\ (15 <= length (time_text l y m d h mi s ds z'))%nat.
Proof.
  exists (four y ++ (if dashes l then [45] else []) ++ two m ++ (if dashes l then [45] else []) ++ two d ++ match between l with None => [84] | Some ws => ws end ++
  two h ++ (if colons l then [58] else []) ++ two mi ++ (if colons l then [58] else []) ++ two s ++ fraction_text ds).
  intros z' Hz. unfold time_text. cbv zeta. split; [rewrite <- !app_assoc; reflexivity|].
  rewrite !app_length. cbn [four two length]. destruct (zone_text z'); [contradiction|]. cbn [length]. lia.
Qed.

Section Parse.
  Variable places : nat.
  Variable rounding : Z -> nat -> Z.
  Hypothesis Hplaces : (places <= 16)%nat.
  Hypothesis Hround : nearest places rounding.

  Definition format (l : layout) (z : zone) : list item :=
    let dash := if dashes l then [IChar 45] else [] in
    let colon := if colons l then [IChar 58] else [] in
    [IYear] ++ dash ++ [IMonth] ++ dash ++ [IDay] ++ [if match between l with None => true | Some _ => false end then IChar 84 else ISpace] ++
    [IHour] ++ colon ++ [IMinute] ++ colon ++ [ISecond] ++ [if is_zulu z then IChar 90 else IOffset].
  Lemma parse_text l y m d h mi s ds z : digits_ok y m d h mi s -> fraction_digits places ds -> blank_between l -> zone_digits z -> west_ok z ->
    parse_items places rounding (format l z) nothing (mkStream (time_text l y m d h mi s ds (plain_zone z)) false) =
    Ok (Some (mkParsed y m d h mi (s * 10 ^ Z.of_nat places + fraction_ticks places ds) (zone_minutes z))).
  Proof using Hplaces Hround.
    intros (H1 & H2 & H3 & H4 & H5 & H6) Hf Hb Hz Hw. unfold format, time_text, nothing. cbv zeta.
    change ([IYear] ++ ?r) with (IYear :: r). rewrite parse_year by exact H1. rewrite parse_opt.
    change ([IMonth] ++ ?r) with (IMonth :: r). rewrite parse_month by exact H2. rewrite parse_opt.
    change ([IDay] ++ ?r) with (IDay :: r). rewrite parse_day by exact H3.
    change ([?i] ++ [IHour] ++ ?r) with (i :: IHour :: r). rewrite parse_between by assumption.
    rewrite parse_hour by exact H4. rewrite parse_opt.
    change ([IMinute] ++ ?r) with (IMinute :: r). rewrite parse_minute by exact H5. rewrite parse_opt.
    change ([ISecond] ++ ?r) with (ISecond :: r). rewrite parse_second by (try assumption; apply zone_stops).
    apply parse_zone; assumption.
  Qed.

  (** The colon of the zone is taken out; no other text is changed. *)
  Lemma colon_in_zone l y m d h mi s ds z : digits_ok y m d h mi s -> zone_digits z -> is_zulu z = false ->
    let value := time_text l y m d h mi s ds z in
    let n := length value in
    (if match last_colon value with Some i => Nat.leb 3 n && Nat.eqb i (n - 3) | None => Nat.eqb n 2 end
     then firstn (n - 3) value ++ skipn (n - 2) value else value) = time_text l y m d h mi s ds (plain_zone z).
  Proof using.
    clear. intros _ Hz Hzulu. destruct (text_head l y m d h mi s ds) as (a & Ha).
    assert (Hne : forall z, zone_text z <> []) by (intros [|[]|[]]; discriminate).
    destruct (Ha z (Hne z)) as (E & L). destruct (Ha (plain_zone z) (Hne _)) as (E' & _). cbv zeta. rewrite E'. clear E' Ha.
    rewrite E in *. clear E. set (v := a ++ zone_text z) in *.
    assert (Hn : Nat.eqb (length v) 2 = false) by (apply Nat.eqb_neq; lia).
    assert (Hn3 : Nat.leb 3 (length v) = true) by (apply Nat.leb_le; lia).
    assert (D : forall k : Z, 0 <= k <= 9 -> 48 + k <> 58) by (intros; lia).
    destruct z as [|west hh|west colon hh mm]; [discriminate| |destruct colon].
    - cbn [plain_zone]. fold v. destruct (last_colon v) as [i|] eqn:E; [|rewrite Hn; reflexivity]. rewrite Hn3. cbn [andb].
      destruct (Nat.eqb_spec i (length v - 3)) as [->|]; [|reflexivity]. exfalso. apply last_colon_nth in E. unfold v in E.
      rewrite app_length in E. cbn [zone_text two length] in E. rewrite Nat.add_sub in E. rewrite nth_error_app2, Nat.sub_diag in E by lia.
      cbn in E. destruct west; discriminate.
    - cbn [zone_digits] in Hz. assert (Ev : v = (a ++ sign west :: two hh) ++ 58 :: two mm) by (unfold v; cbn [zone_text app]; rewrite <- app_assoc; reflexivity).
      rewrite Ev at 1. rewrite last_colon_at by (apply has_two; [lia|reflexivity]). rewrite Hn3. cbn [andb].
      assert (Hl : (length v - 3)%nat = length (a ++ sign west :: two hh)) by (rewrite Ev, app_length; cbn [length two]; lia).
      rewrite Hl, Nat.eqb_refl. replace (length v - 2)%nat with (length (a ++ sign west :: two hh) + 1)%nat by lia.
      rewrite Ev, firstn_app, firstn_all, Nat.sub_diag. cbn [firstn]. rewrite app_nil_r.
      rewrite skipn_app, (skipn_all2 (a ++ _)) by lia. replace (length (a ++ sign west :: two hh) + 1 - length (a ++ sign west :: two hh))%nat with 1%nat by lia.
      cbn [skipn app plain_zone zone_text]. rewrite <- app_assoc. reflexivity.
    - cbn [plain_zone]. fold v. destruct (last_colon v) as [i|] eqn:E; [|rewrite Hn; reflexivity]. rewrite Hn3. cbn [andb].
      destruct (Nat.eqb_spec i (length v - 3)) as [->|]; [|reflexivity]. exfalso. apply last_colon_nth in E. unfold v in E.
      rewrite app_length in E. cbn [zone_text two length app] in E. replace (length a + 5 - 3)%nat with (length a + 2)%nat in E by lia.
      rewrite nth_error_app2 in E by lia. replace (length a + 2 - length a)%nat with 2%nat in E by lia.
      cbn [nth_error zone_digits] in *. injection E as E. apply (D (hh mod 10)); [Z.div_mod_to_equations; lia|exact E].
  Qed.

  Lemma zone_ok l z : zone_readable l z -> west_ok z.
  Proof. destruct z as [|west hh|west colon hh mm]; cbn; try tauto. destruct west; [|tauto]. intros (_ & H). apply H. reflexivity. Qed.

  Lemma time_from_text l y m d h mi s ds z : digits_ok y m d h mi s -> fraction_digits places ds -> blank_between l -> zone_digits z ->
    zone_readable l z ->
    time_from_string places rounding (time_text l y m d h mi s ds z) =
    assemble places (mkParsed y m d h mi (s * 10 ^ Z.of_nat places + fraction_ticks places ds) (zone_minutes z)).
  Proof using Hplaces Hround.
    intros H Hf Hb Hz Hr. unfold time_from_string. cbv zeta.
    assert (Hh : forall c, is_digit c = false -> is_space c = false -> c <> 46 -> has c (time_text l y m d h mi s ds z) =
        dashes l && (c =? 45) || colons l && (c =? 58) || match between l with None => c =? 84 | Some _ => false end || zone_has c z).
    { intros c Hc Hs H46. apply has_text; try assumption. apply Hf. }
    assert (E90 : has 90 (time_text l y m d h mi s ds z) = is_zulu z).
    { rewrite Hh by (reflexivity || discriminate). clear. destruct l as [dd cc [ws|]], z as [|[]|[] []], dd, cc; reflexivity. }
    assert (E45 : has 45 (time_text l y m d h mi s ds z) = dashes l).
    { rewrite Hh by (reflexivity || discriminate). revert Hr. clear. destruct l as [dd cc [ws|]], z as [|[] ?|[] [] ? ?], dd, cc; cbn; intuition congruence. }
    assert (E58 : has 58 (time_text l y m d h mi s ds z) = colons l).
    { rewrite Hh by (reflexivity || discriminate). revert Hr. clear. destruct l as [dd cc [ws|]], z as [|[] ?|[] [] ? ?], dd, cc; cbn; intuition congruence. }
    assert (E84 : has 84 (time_text l y m d h mi s ds z) = match between l with None => true | Some _ => false end).
    { rewrite Hh by (reflexivity || discriminate). clear. destruct l as [dd cc [ws|]], z as [|[]|[] []], dd, cc; reflexivity. }
    rewrite E90, E45, E58, E84. destruct (text_head l y m d h mi s ds) as (a & Ha).
    assert (Hne : zone_text z <> []) by (clear; destruct z as [|[]|[]]; discriminate). destruct (Ha z Hne) as (_ & L).
    destruct (Nat.ltb_spec (length (time_text l y m d h mi s ds z)) 3); [lia|]. rewrite andb_false_r.
    assert (T : (if negb (is_zulu z) && match last_colon (time_text l y m d h mi s ds z) with
                   | Some i => Nat.leb 3 (length (time_text l y m d h mi s ds z)) && Nat.eqb i (length (time_text l y m d h mi s ds z) - 3)
                   | None => Nat.eqb (length (time_text l y m d h mi s ds z)) 2 end
                 then firstn (length (time_text l y m d h mi s ds z) - 3) (time_text l y m d h mi s ds z) ++
                      skipn (length (time_text l y m d h mi s ds z) - 2) (time_text l y m d h mi s ds z)
                 else time_text l y m d h mi s ds z) = time_text l y m d h mi s ds (plain_zone z)).
    { destruct (is_zulu z) eqn:Z; cbn [negb andb]; [destruct z; [reflexivity|discriminate..]|]. apply colon_in_zone; assumption. }
    rewrite T. pose proof (parse_text l y m d h mi s ds z H Hf Hb Hz (zone_ok l z Hr)) as P. unfold format in P. cbv zeta in P.
    destruct (is_zulu z); cbn [negb]; rewrite P; reflexivity.
  Qed.

  Lemma fraction_bound ds : fraction_digits places ds -> 0 <= fraction_ticks places ds < 10 ^ Z.of_nat places.
  Proof using.
    clear. intros (Hd & Hl). pose proof (number_bound ds Hd). unfold fraction_ticks.
    assert (P : 10 ^ Z.of_nat places = 10 ^ Z.of_nat (length ds) * 10 ^ (Z.of_nat places - Z.of_nat (length ds))) by (rewrite <- Z.pow_add_r by lia; f_equal; lia).
    assert (Q : 0 < 10 ^ (Z.of_nat places - Z.of_nat (length ds))) by (apply Z.pow_pos_nonneg; lia). rewrite P. nia.
  Qed.
  Lemma seconds_quot s ds : 0 <= s -> fraction_digits places ds -> Z.quot (s * 10 ^ Z.of_nat places + fraction_ticks places ds) (10 ^ Z.of_nat places) = s.
  Proof using.
    clear. intros Hs Hf. pose proof (fraction_bound ds Hf). rewrite Z.quot_div_nonneg by nia.
    rewrite Z.add_comm, Z.div_add by lia. rewrite Z.div_small by lia. lia.
  Qed.

  Lemma parse_instant c n l y m d h mi s ds z : calendar c -> c n = (y, m, d) -> 0 <= y <= 9999 -> 0 <= h <= 23 -> 0 <= mi <= 59 -> 0 <= s <= 59 ->
    fraction_digits places ds -> blank_between l -> zone_digits z -> zone_readable l z ->
    (on_clock places n h mi s ds z -> time_from_string places rounding (time_text l y m d h mi s ds z) = Ok (local_instant places n h mi s ds z)) /\
    (~ on_clock places n h mi s ds z -> time_from_string places rounding (time_text l y m d h mi s ds z) = UB).
  Proof using Hplaces Hround.
    intros Hc Hn Hy Hh Hmi Hs Hf Hb Hz Hr. assert (V : valid_date (y, m, d)) by (destruct Hc as (_ & V & _); rewrite <- Hn; apply V).
    pose proof V as (Vm & Vd). pose proof (month_length_max y m) as Vl.
    rewrite time_from_text by (try assumption; repeat split; lia). unfold assemble. cbn [p_year p_month p_day p_hour p_minute p_seconds p_offset].
    rewrite !u1_small by lia. apply ymd_ok_iff in V; [|lia]. rewrite V. unfold clock_ticks. rewrite seconds_quot by (lia || assumption).
    destruct (Z.ltb_spec h 24); [|lia]. destruct (Z.ltb_spec mi 60); [|lia]. destruct (Z.ltb_spec s 60); [|lia]. cbn [negb orb].
    rewrite (calendar_to_days c Hc _ _ _ _ Hn). unfold on_clock, local_instant.
    pose proof (fraction_bound ds Hf) as F. set (t := 10 ^ Z.of_nat places) in *. set (f := fraction_ticks places ds) in *.
    change (fraction_ticks places []) with 0.
    set (a := (n * 1440 - zone_minutes z) * 60 * t). set (b := h * 3600 * t + mi * 60 * t + (s * t + f)).
    replace ((n * 86400 + 0 * 3600 + 0 * 60 + 0 - 60 * zone_minutes z) * t + 0) with a by (unfold a; ring).
    replace ((n * 86400 + h * 3600 + mi * 60 + s - 60 * zone_minutes z) * t + f) with (a + b) by (unfold a, b; ring).
    assert (B : 0 <= b) by (unfold b; nia). clearbody a b. clear - B.
    unfold in_i64, i64_min, i64_max. change (2 ^ 63) with 9223372036854775808.
    split; intro H.
    - destruct (Z.leb_spec (-9223372036854775808) a); [|lia]. destruct (Z.leb_spec a 9223372036854775807); [|lia].
      destruct (Z.leb_spec (-9223372036854775808) (a + b)); [|lia]. destruct (Z.leb_spec (a + b) 9223372036854775807); [|lia].
      destruct (Z.leb_spec (-9223372036854775808) (a + b + 1)); [|lia]. destruct (Z.leb_spec (a + b + 1) 9223372036854775807); [|lia]. reflexivity.
    - destruct (Z.leb_spec (-9223372036854775808) a); [|reflexivity]. destruct (Z.leb_spec a 9223372036854775807); [|reflexivity].
      destruct (Z.leb_spec (-9223372036854775808) (a + b)); [|reflexivity]. destruct (Z.leb_spec (a + b) 9223372036854775807); [|reflexivity].
      destruct (Z.leb_spec (-9223372036854775808) (a + b + 1)); [|reflexivity]. destruct (Z.leb_spec (a + b + 1) 9223372036854775807); [lia|reflexivity].
  Qed.

  Lemma parse_invalid l y m d h mi s ds z : digits_ok y m d h mi s -> fraction_digits places ds -> blank_between l -> zone_digits z ->
    zone_readable l z -> ~ (valid_date (y, m, d) /\ h <= 23 /\ mi <= 59 /\ s <= 59) ->
    time_from_string places rounding (time_text l y m d h mi s ds z) = Throw InvalidArgument.
  Proof using Hplaces Hround.
    intros H Hf Hb Hz Hr Hv. rewrite time_from_text by assumption. destruct H as (H1 & H2 & H3 & H4 & H5 & H6).
    unfold assemble. cbn [p_year p_month p_day p_hour p_minute p_seconds p_offset]. rewrite !u1_small by lia.
    unfold clock_ticks. rewrite seconds_quot by (lia || assumption).
    destruct (ymd_ok y m d) eqn:V; [|reflexivity]. apply ymd_ok_iff in V; [|lia].
    destruct (Z.ltb_spec h 24); [|reflexivity]. destruct (Z.ltb_spec mi 60); [|reflexivity]. destruct (Z.ltb_spec s 60); [|reflexivity].
    exfalso. apply Hv. repeat split; try lia; apply V.
  Qed.
End Parse.

(** *** Writing *)
Fixpoint zlist_eqb (a b : list Z) : bool :=
  match a, b with [], [] => true | x :: a, y :: b => (x =? y) && zlist_eqb a b | _, _ => false end.
Lemma zlist_eqb_eq (a : list Z) : forall b, zlist_eqb a b = true -> a = b.
Proof.
  induction a as [|x a IH]; intros [|y b] H; try discriminate; [reflexivity|]. cbn [zlist_eqb] in H. apply andb_true_iff in H.
  destruct H as (H1 & H2). apply Z.eqb_eq in H1. subst y. f_equal. apply IH, H2.
Qed.
Lemma padded_two n : 0 <= n <= 99 -> padded 2 n = two n.
Proof.
  intro H. apply zlist_eqb_eq. revert n H. assert (C : all_from 100 (fun n => zlist_eqb (padded 2 n) (two n)) 0 = true) by (vm_compute; reflexivity).
  intros n H. apply (all_from_spec _ (fun n => zlist_eqb (padded 2 n) (two n)) _ C). lia.
Qed.
Lemma padded_four n : 0 <= n <= 9999 -> padded 4 n = four n.
Proof.
  intro H. apply zlist_eqb_eq. revert n H. assert (C : all_from (Z.to_nat 10000) (fun n => zlist_eqb (padded 4 n) (four n)) 0 = true) by (vm_compute; reflexivity).
  intros n H. apply (all_from_spec _ (fun n => zlist_eqb (padded 4 n) (four n)) _ C). lia.
Qed.
Definition printed : layout := mkLayout true true None.
Lemma printed_text c places t y m d : calendar c -> c (day_number (10 ^ Z.of_nat places) t) = (y, m, d) -> 0 <= y <= 9999 ->
  let s := second_of_day (10 ^ Z.of_nat places) t in
  time_to_string places t = time_text printed y m d (s / 3600) (s / 60 mod 60) (s mod 60) [] Zulu.
Proof.
  intros Hc Hn Hy. cbv zeta. unfold day_number, second_of_day in *. unfold time_to_string, clock_ticks. cbv zeta.
  assert (T : 0 < 10 ^ Z.of_nat places) by (apply Z.pow_pos_nonneg; lia). rewrite (Z.mul_comm 86400), <- Z.div_div in Hn by lia.
  rewrite (from_days_calendar c _ _ _ _ Hc Hn). rewrite year16_small by lia.
  assert (V : valid_date (y, m, d)) by (destruct Hc as (_ & V & _); rewrite <- Hn; apply V). destruct V as (Vm & Vd). pose proof (month_length_max y m).
  set (r := t / 10 ^ Z.of_nat places mod 86400). assert (R : 0 <= r < 86400) by (apply Z.mod_pos_bound; lia). clearbody r.
  rewrite padded_four by lia. rewrite !padded_two by (Z.div_mod_to_equations; lia). reflexivity.
Qed.
