From Coq Require Import String Ascii.
From Verif Require Import Base L_List M_String M_Text M_Date S_Date L_Date L_Date2 L_Date3 M_TimeText S_TimeText L_TimeText L_TimeText2 L_TimeText3.
Open Scope Z_scope.

Lemma round_trip c (places : nat) (rounding : Z -> nat -> Z) t y m d : (1 <= places <= 16)%nat -> nearest places rounding -> calendar c ->
  c (day_number (10 ^ Z.of_nat places) t) = (y, m, d) -> 0 <= y <= 9999 ->
  - 2 ^ 63 <= 86400 * 10 ^ Z.of_nat places * day_number (10 ^ Z.of_nat places) t -> t < 2 ^ 63 ->
  time_from_string places rounding (time_to_string places t) = Ok (t / 10 ^ Z.of_nat places * 10 ^ Z.of_nat places).
Proof.
  intros Hp Hr Hc Hn Hy Hlo Hhi. rewrite (printed_text c places t y m d Hc Hn Hy).
  assert (T : 0 < 10 ^ Z.of_nat places) by (apply Z.pow_pos_nonneg; lia).
  assert (E : 10 ^ Z.of_nat places = 2 * (5 * 10 ^ (Z.of_nat places - 1))).
  { replace (Z.of_nat places) with (1 + (Z.of_nat places - 1)) at 1 by lia. rewrite Z.pow_add_r by lia. lia. }
  assert (R : 0 <= second_of_day (10 ^ Z.of_nat places) t < 86400) by (apply Z.mod_pos_bound; lia).
  assert (D : t / 10 ^ Z.of_nat places = 86400 * day_number (10 ^ Z.of_nat places) t + second_of_day (10 ^ Z.of_nat places) t).
  { unfold day_number, second_of_day. rewrite (Z.mul_comm 86400 (10 ^ _)), <- Z.div_div by lia. apply Z.div_mod. lia. }
  assert (L : 10 ^ Z.of_nat places * (t / 10 ^ Z.of_nat places) <= t) by (apply Z.mul_div_le, T).
  set (s := second_of_day (10 ^ Z.of_nat places) t) in *. set (n := day_number (10 ^ Z.of_nat places) t) in *.
  assert (I : local_instant places n (s / 3600) (s / 60 mod 60) (s mod 60) [] Zulu = t / 10 ^ Z.of_nat places * 10 ^ Z.of_nat places).
  { unfold local_instant. change (fraction_ticks places []) with 0. cbn [zone_minutes]. rewrite D, Z.add_0_r.
    assert (Q : s / 3600 * 3600 + s / 60 mod 60 * 60 + s mod 60 = s) by (clear - R; Z.div_mod_to_equations; lia). f_equal. clear - Q. lia. }
  assert (H1 : 0 <= s / 3600 <= 23) by (clear - R; Z.div_mod_to_equations; lia).
  assert (H2 : 0 <= s / 60 mod 60 <= 59) by (clear - R; Z.div_mod_to_equations; lia).
  assert (H3 : 0 <= s mod 60 <= 59) by (clear - R; Z.div_mod_to_equations; lia).
  assert (H4 : fraction_digits places []) by (split; [constructor|cbn; lia]).
  assert (H5 : (places <= 16)%nat) by lia.
  destruct (parse_instant places rounding H5 Hr c n printed y m d (s / 3600) (s / 60 mod 60) (s mod 60) [] Zulu Hc Hn Hy H1 H2 H3 H4 Logic.I Logic.I Logic.I) as (P & _).
  cbv zeta. rewrite P, I; [reflexivity|]. split.
  - unfold local_instant. change (fraction_ticks places []) with 0. cbn [zone_minutes]. lia.
  - rewrite I. change (2 ^ 63) with (2 * 2 ^ 62) in *. set (q := t / 10 ^ Z.of_nat places) in *. rewrite E in *. clearbody q. lia.
Qed.

(** Rounding to the nearest tick, halves up. *)
Definition half_up (places : nat) (x : Z) (k : nat) : Z := (2 * x * 10 ^ Z.of_nat places + 10 ^ Z.of_nat k) / (2 * 10 ^ Z.of_nat k).
Lemma half_up_nearest places : nearest places (half_up places).
Proof.
  intros x k _. unfold half_up. assert (P : 0 < 10 ^ Z.of_nat k) by (apply Z.pow_pos_nonneg; lia).
  set (p := 10 ^ Z.of_nat k) in *. set (t := x * 10 ^ Z.of_nat places). replace (2 * x * 10 ^ Z.of_nat places) with (2 * t) by (unfold t; ring).
  pose proof (Z.div_mod (2 * t + p) (2 * p) ltac:(lia)) as E. pose proof (Z.mod_pos_bound (2 * t + p) (2 * p) ltac:(lia)) as B.
  set (q := (2 * t + p) / (2 * p)) in *. clearbody q t p. nia.
Qed.

(** *** Any text *)
Lemma stold_throws (s : list Z) : forall x b any e, stold s x b any = Throw e -> e = InvalidArgument.
Proof.
  induction s as [|c s IH]; intros x b any e H; cbn [stold] in H.
  - destruct any; [discriminate|]. injection H as <-. reflexivity.
  - destruct (c =? 46); eapply IH; exact H.
Qed.
Lemma parse_item_throws places rounding i f s e : parse_item places rounding i f s = Throw e -> e = InvalidArgument.
Proof.
  destruct i; cbn [parse_item]; try discriminate.
  - destruct (take_decimal (3 + places) true (left s)) as (buf, s'). destruct buf as [|c buf]; [discriminate|].
    destruct (stold (c :: buf) 0 None false) as [v|x|] eqn:E; cbn [bind]; try discriminate.
    + destruct (in_i64 _); discriminate.
    + intro H. injection H as <-. eapply stold_throws. exact E.
  - destruct (read_signed 2 2 s) as [(h, s1)|]; [|discriminate]. cbv zeta. destruct (eof s1); [discriminate|].
    destruct (left s1) as [|c r]; [discriminate|]. destruct (is_digit c); [|discriminate].
    destruct (read_unsigned 2 2 s1) as [(m, s2)|]; discriminate.
Qed.
Lemma parse_items_throws places rounding (l : list item) : forall f s e, parse_items places rounding l f s = Throw e -> e = InvalidArgument.
Proof.
  induction l as [|i l IH]; intros f s e H; cbn [parse_items] in H; [discriminate|]. destruct (eof s); [discriminate|].
  destruct (parse_item places rounding i f s) as [x|x|] eqn:E; cbn [bind] in H; try discriminate.
  - destruct x as [(f', s')|]; [|discriminate]. eapply IH. exact H.
  - injection H as <-. eapply parse_item_throws. exact E.
Qed.
Lemma any_text places rounding v :
  match time_from_string places rounding v with
  | Ok t => - 2 ^ 63 <= t < 2 ^ 63
  | Throw e => e = InvalidArgument \/ length v = 2%nat
  | UB => True
  end.
Proof.
  unfold time_from_string. cbv zeta. destruct (_ && _ && Nat.ltb (length v) 3) eqn:E.
  - right. apply andb_true_iff in E. destruct E as (E & L). apply andb_true_iff in E. destruct E as (_ & E). apply Nat.ltb_lt in L.
    destruct (last_colon v) as [i|]; [apply andb_true_iff in E; destruct E as (E & _); apply Nat.leb_le in E; lia|]. apply Nat.eqb_eq, E.
  - clear E. destruct (parse_items _ _ _ _ _) as [[f|]|e|] eqn:E; cbn [bind]; try tauto.
    + unfold assemble. cbv zeta. destruct (_ || _); [tauto|]. destruct (in_i64 _ && _ && _) eqn:I; [|tauto].
      apply andb_true_iff in I. destruct I as (I & _). apply andb_true_iff in I. destruct I as (_ & I).
      unfold in_i64, i64_min, i64_max in I. apply andb_true_iff in I. destruct I as (I1 & I2). apply Z.leb_le in I1, I2.
      change (2 ^ 63) with 9223372036854775808. lia.
    + left. eapply parse_items_throws. exact E.
Qed.
