From Verif Require Import Base L_List M_String M_Text M_Date S_Date L_Date L_Date2 L_Date3 M_TimeText S_TimeText.
Open Scope Z_scope.

Lemma is_digit_plus d : 0 <= d <= 9 -> is_digit (48 + d) = true.
Proof. intro H. unfold is_digit. apply andb_true_iff. split; apply Z.leb_le; lia. Qed.
Lemma u32_small x : 0 <= x < 2 ^ 32 -> u32 x = x.
Proof. intro H. unfold u32. apply Z.mod_small. lia. Qed.

Lemma take_digits_step (n : nat) x count d s : 0 <= d <= 9 -> 0 <= 10 * x + d < 2 ^ 32 ->
  take_digits (S n) x count ((48 + d) :: s) = take_digits n (10 * x + d) (count + 1) s.
Proof.
  intros Hd Hx. cbn [take_digits]. rewrite is_digit_plus by exact Hd. replace (10 * x + (48 + d - 48)) with (10 * x + d) by lia.
  rewrite u32_small by exact Hx. reflexivity.
Qed.
Lemma read_two (m n : Z) (r : list Z) (b : bool) : m <= 2 -> 0 <= n <= 99 ->
  read_unsigned m 2 (mkStream (two n ++ r) b) = Some (n, mkStream r false).
Proof.
  intros Hm Hn. unfold read_unsigned, two. cbn [left app].
  rewrite (take_digits_step 1) by (Z.div_mod_to_equations; lia).
  rewrite (take_digits_step 0) by (Z.div_mod_to_equations; lia). cbn [take_digits].
  destruct (Z.ltb_spec (0 + 1 + 1) m); [lia|]. do 2 f_equal. Z.div_mod_to_equations; lia.
Qed.
Lemma two_digit n r : 0 <= n <= 99 -> exists c s, two n ++ r = c :: s /\ is_digit c = true.
Proof. intro H. eexists _, _. split; [reflexivity|]. apply is_digit_plus. Z.div_mod_to_equations; lia. Qed.
Lemma read_two_signed (m n : Z) (r : list Z) : 1 <= m <= 2 -> 0 <= n <= 99 ->
  read_signed m 2 (mkStream (two n ++ r) false) = Some (n, mkStream r false).
Proof.
  intros Hm Hn. destruct (two_digit n r Hn) as (c & s & E & D). unfold read_signed. cbn [left]. rewrite E, D, <- E.
  apply read_two; lia.
Qed.
Lemma read_four (n : Z) (r : list Z) : 0 <= n <= 9999 ->
  read_signed 1 4 (mkStream (four n ++ r) false) = Some (n, mkStream r false).
Proof.
  intro Hn. unfold read_signed, four. cbn [left app]. rewrite is_digit_plus by (Z.div_mod_to_equations; lia).
  unfold read_unsigned. cbn [left].
  rewrite (take_digits_step 3) by (Z.div_mod_to_equations; lia).
  rewrite (take_digits_step 2) by (Z.div_mod_to_equations; lia).
  rewrite (take_digits_step 1) by (Z.div_mod_to_equations; lia).
  rewrite (take_digits_step 0) by (Z.div_mod_to_equations; lia). cbn [take_digits].
  change (0 + 1 + 1 + 1 + 1 <? Z.max 1 1) with false. cbv iota. do 2 f_equal. Z.div_mod_to_equations; lia.
Qed.
(** A sign and two digits. *)
Lemma read_sign (west : bool) (n : Z) (r : list Z) : 0 <= n <= 99 ->
  read_signed 2 2 (mkStream (sign west :: two n ++ r) false) = Some (if west then - n else n, mkStream r false).
Proof.
  intro Hn. unfold read_signed. cbn [left]. destruct west; cbn [sign].
  - change (is_digit 45) with false. change ((45 =? 45) || (45 =? 43)) with true. cbv iota. rewrite read_two by lia. reflexivity.
  - change (is_digit 43) with false. change ((43 =? 45) || (43 =? 43)) with true. cbv iota. rewrite read_two by lia. reflexivity.
Qed.

(** *** Seconds *)
Definition stops (r : list Z) : Prop := match r with [] => True | c :: _ => is_digit c = false /\ c <> 46 end.
Lemma take_decimal_digits (ds : list Z) (r : list Z) (p : bool) : Forall (fun d => 0 <= d <= 9) ds -> stops r -> r <> [] ->
  forall n : nat, (length ds <= n)%nat ->
  take_decimal n p (map (fun d => 48 + d) ds ++ r) = (map (fun d => 48 + d) ds, mkStream r false).
Proof.
  intros Hd Hr Hne. induction Hd as [|d ds Hd _ IH]; intros n Hn.
  - cbn [map app]. destruct n as [|n]; [reflexivity|]. destruct r as [|c r]; [contradiction|]. destruct Hr as (H1 & H2).
    cbn [take_decimal]. rewrite H1. destruct (Z.eqb_spec c 46); [contradiction|]. reflexivity.
  - cbn [length] in Hn. destruct n as [|n]; [lia|]. cbn [map app take_decimal].
    destruct (Z.eqb_spec (48 + d) 46); [lia|]. cbn [andb]. rewrite is_digit_plus by exact Hd. rewrite IH by lia. reflexivity.
Qed.
Lemma take_seconds (s : Z) (ds r : list Z) (n : nat) : 0 <= s <= 99 -> Forall (fun d => 0 <= d <= 9) ds -> stops r -> r <> [] ->
  (3 + length ds <= n)%nat ->
  take_decimal n true (two s ++ fraction_text ds ++ r) = (two s ++ fraction_text ds, mkStream r false).
Proof.
  intros Hs Hd Hr Hne Hn. destruct n as [|[|[|n]]]; try lia.
  assert (H1 : 0 <= s / 10 <= 9) by (Z.div_mod_to_equations; lia). assert (H2 : 0 <= s mod 10 <= 9) by (Z.div_mod_to_equations; lia).
  unfold two. set (a := s / 10) in *. set (b := s mod 10) in *. clearbody a b. cbn [app].
  cbn [take_decimal]. destruct (Z.eqb_spec (48 + a) 46); [lia|]. destruct (Z.eqb_spec (48 + b) 46); [lia|]. cbn [andb].
  rewrite !is_digit_plus by assumption.
  destruct ds as [|d ds].
  - cbn [fraction_text app]. destruct r as [|c r]; [contradiction|]. destruct Hr as (G1 & G2). rewrite G1. destruct (Z.eqb_spec c 46); [contradiction|]. reflexivity.
  - unfold fraction_text. cbn [app]. change (46 =? 46) with true. cbn [andb].
    rewrite take_decimal_digits; auto. cbn [length] in Hn |- *. lia.
Qed.
Lemma stold_digits (ds : list Z) : forall (x : Z) (b : option nat) (any : bool), Forall (fun d => 0 <= d <= 9) ds -> any || negb (Nat.eqb (length ds) 0) = true ->
  stold (map (fun d => 48 + d) ds) x b any =
  Ok (fold_left (fun x d => 10 * x + d) ds x, match b with Some k => (k + length ds)%nat | None => O end).
Proof.
  induction ds as [|d ds IH]; intros x b any Hd Ha.
  - cbn [map stold fold_left length]. destruct any; [|discriminate]. destruct b; [rewrite Nat.add_0_r|]; reflexivity.
  - inversion Hd; subst. cbn [map stold fold_left length]. destruct (Z.eqb_spec (48 + d) 46); [lia|].
    replace (48 + d - 48) with d by lia. rewrite IH by (auto; reflexivity). destruct b as [k|]; [|reflexivity]. do 2 f_equal. lia.
Qed.
Lemma number_from (ds : list Z) : forall x, fold_left (fun x d => 10 * x + d) ds x = x * 10 ^ Z.of_nat (length ds) + number ds.
Proof.
  unfold number. induction ds as [|d ds IH]; intro x.
  - cbn [fold_left length]. change (10 ^ Z.of_nat 0) with 1. lia.
  - cbn [fold_left length]. rewrite IH, (IH (10 * 0 + d)). rewrite Nat2Z.inj_succ, Z.pow_succ_r by lia. ring.
Qed.
Lemma number_bound (ds : list Z) : Forall (fun d => 0 <= d <= 9) ds -> 0 <= number ds < 10 ^ Z.of_nat (length ds).
Proof.
  induction 1 as [|d ds Hd _ IH]; [cbn; lia|]. unfold number. cbn [fold_left length]. rewrite number_from.
  rewrite Nat2Z.inj_succ, Z.pow_succ_r by lia. nia.
Qed.
Lemma stold_seconds s ds : 0 <= s <= 99 -> Forall (fun d => 0 <= d <= 9) ds ->
  stold (two s ++ fraction_text ds) 0 None false = Ok (s * 10 ^ Z.of_nat (length ds) + number ds, length ds).
Proof.
  intros Hs Hd. unfold two. cbn [app stold].
  assert (H1 : 0 <= s / 10 <= 9) by (Z.div_mod_to_equations; lia). assert (H2 : 0 <= s mod 10 <= 9) by (Z.div_mod_to_equations; lia).
  destruct (Z.eqb_spec (48 + s / 10) 46); [lia|]. destruct (Z.eqb_spec (48 + s mod 10) 46); [lia|].
  replace (10 * (10 * 0 + (48 + s / 10 - 48)) + (48 + s mod 10 - 48)) with s by (Z.div_mod_to_equations; lia).
  destruct ds as [|d ds].
  - cbn [fraction_text stold length]. change (10 ^ Z.of_nat 0) with 1. unfold number. cbn [fold_left]. do 2 f_equal. lia.
  - unfold fraction_text. cbn [stold]. change (46 =? 46) with true. cbv iota. rewrite stold_digits; [|exact Hd|reflexivity].
    rewrite number_from. reflexivity.
Qed.

(** A nearest tick of a whole number of ticks is that number. *)
Lemma nearest_exact (places : nat) rounding (x : Z) (n : nat) : nearest places rounding -> (n <= places)%nat ->
  0 <= x < 10 ^ (3 + Z.of_nat places) -> rounding x n = x * 10 ^ (Z.of_nat places - Z.of_nat n).
Proof.
  intros Hr Hn Hx. specialize (Hr x n Hx).
  replace (Z.of_nat places) with ((Z.of_nat places - Z.of_nat n) + Z.of_nat n) in Hr at 1 by lia.
  rewrite Z.pow_add_r in Hr by lia. set (q := 10 ^ (Z.of_nat places - Z.of_nat n)) in *.
  assert (P : 0 < 10 ^ Z.of_nat n) by (apply Z.pow_pos_nonneg; lia). set (p := 10 ^ Z.of_nat n) in *.
  replace (rounding x n * p - x * (q * p)) with ((rounding x n - x * q) * p) in Hr by ring.
  rewrite Z.abs_mul, (Z.abs_eq p) in Hr by lia.
  assert (Z.abs (rounding x n - x * q) = 0) by nia. lia.
Qed.

(** *** The date *)
Lemma is_leap_ok y : 0 <= y -> is_leap y = leap y.
Proof. intro H. unfold is_leap, leap. rewrite !Z.rem_mod_nonneg by lia. reflexivity. Qed.
Lemma last_day_ok y m : 0 <= y -> 1 <= m <= 12 -> last_day y m = month_length y m.
Proof. intros Hy Hm. unfold last_day, month_length. rewrite is_leap_ok by exact Hy. months m Hm; destruct (leap y); reflexivity. Qed.
Lemma ymd_ok_iff y m d : 0 <= y -> ymd_ok y m d = true <-> valid_date (y, m, d).
Proof.
  intro Hy. unfold ymd_ok, valid_date. destruct (Z.eqb_spec y (-32768)); [lia|]. cbn [negb andb].
  rewrite !andb_true_iff, !Z.leb_le. split.
  - intros ((Hm & Hd) & Hl). rewrite last_day_ok in Hl by lia. lia.
  - intros (Hm & Hd). rewrite last_day_ok by lia. lia.
Qed.
