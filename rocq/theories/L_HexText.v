From Coq Require Import Reals Lra Psatz.
From Flocq Require Import Core.Core IEEE754.BinarySingleNaN.
From Verif Require Import Base M_Scale S_Scale L_Float M_String L_String S_TimeText L_TimeText M_FloatText S_FloatText L_FloatText L_FloatText2 S_HexText.
Local Open Scope Z_scope.

Lemma hex_range (d : bool * Z) : 0 <= snd d <= 15 -> exists n, (n < 16)%nat /\ snd d = Z.of_nat n.
Proof. intros H. exists (Z.to_nat (snd d)). lia. Qed.
Lemma hex_digit (d : bool * Z) : 0 <= snd d <= 15 -> digit_value (hex_char d) = Some (snd d).
Proof.
  intros H. destruct (hex_range d H) as (n & Hn & E). destruct d as [c x]. cbn [snd] in *. subst x. clear H.
  do 16 (destruct n as [|n]; [destruct c; reflexivity|]). lia.
Qed.
Lemma hex_nul (ds : list (bool * Z)) : digits_0_15 ds -> Forall (fun c => c <> 0) (map hex_char ds).
Proof.
  intros H. apply Forall_map. eapply Forall_impl; [|exact H]. intros d Hd E. cbv beta in Hd. apply hex_digit in Hd. rewrite E in Hd. discriminate Hd.
Qed.
Definition no_hex (s : list Z) : Prop := match s with [] => True | c :: _ => digit_value c = None \/ exists d, digit_value c = Some d /\ 16 <= d end.
Lemma take_hex_chars ds r : digits_0_15 ds -> no_hex r -> take_base 16 (map hex_char ds ++ r) = (map snd ds, r).
Proof.
  intros Hd Hr. induction Hd as [|d ds H Hd IH]; cbn [map app].
  - destruct r as [|c r]; [reflexivity|]. cbn [take_base]. destruct Hr as [E|[d [E H]]]; rewrite E; [reflexivity|].
    replace (d <? 16) with false by (symmetry; apply Z.ltb_ge; lia). reflexivity.
  - cbn [take_base]. rewrite hex_digit by exact H. replace (snd d <? 16) with true by (symmetry; apply Z.ltb_lt; lia). rewrite IH. reflexivity.
Qed.
Lemma hex_base ds : base_value 16 (map snd ds) = hex_number ds.
Proof. unfold base_value, hex_number. generalize 0. induction ds as [|d ds IH]; intros x; cbn [map fold_left]; [reflexivity|apply IH]. Qed.
Lemma hex_number_nonneg ds : digits_0_15 ds -> 0 <= hex_number ds.
Proof.
  unfold hex_number. intros H. enough (G : forall x, 0 <= x -> 0 <= fold_left (fun (x : Z) (d : bool * Z) => 16 * x + snd d) ds x) by (apply G; lia).
  induction H as [|d ds Hd H IH]; intros x Hx; cbn [fold_left]; [exact Hx|apply IH; lia].
Qed.
Definition power_text (e : option (bool * option bool * list Z)) : list Z :=
  match e with None => [] | Some (capital, s, ds) => (if capital then 80 else 112) :: sign_text s ++ digit_chars ds end.
Lemma stops_no_hex s : stops s -> no_hex s.
Proof.
  destruct s as [|c s]; [exact (fun _ => I)|]. intros H. pose proof (stops_no_digit (c :: s) H) as N. left. destruct N as [E|(d & E & Hd)]; [exact E|].
  exfalso. destruct H as (H1 & H2 & H3 & _). unfold digit_value, lower_case, is_digit in E.
  replace ((65 <=? c) && (c <=? 90)) with false in E by (symmetry; apply andb_false_iff; rewrite !Z.leb_gt; lia). cbv iota zeta in E.
  replace ((48 <=? c) && (c <=? 57)) with false in E by (symmetry; apply andb_false_iff; rewrite !Z.leb_gt; lia). cbv iota in E.
  replace ((97 <=? c) && (c <=? 122)) with false in E by (symmetry; apply andb_false_iff; rewrite !Z.leb_gt; lia). discriminate E.
Qed.
Lemma power_no_hex e r : stops r -> no_hex (power_text e ++ r) /\ match power_text e ++ r with c :: _ => c <> 46 | [] => True end.
Proof.
  intros Hr. destruct e as [[[capital s] ds]|].
  - cbn [power_text]. rewrite <- app_comm_cons. destruct capital; cbn; (split; [right; eexists; split; [reflexivity|lia]|discriminate]).
  - cbn [power_text app]. split; [apply stops_no_hex, Hr|]. destruct r as [|c r]; [exact I|]. destruct Hr as (_ & _ & _ & H). exact H.
Qed.
Lemma power_nul e : exponent_ok e -> Forall (fun c => c <> 0) (power_text e).
Proof.
  destruct e as [[[capital s] ds]|]; [|constructor]. intros [H _]. cbn [power_text]. constructor; [destruct capital; discriminate|].
  apply Forall_app. split; [apply sign_nul|apply digit_nul, H].
Qed.
Lemma take_power_text e r : exponent_ok e -> stops r -> take_exponent 112 (power_text e ++ r) = exponent_of e.
Proof.
  intros He Hr. destruct e as [[[capital s] ds]|].
  - destruct He as [Hd Hn]. cbn [power_text exponent_of]. rewrite <- app_comm_cons, <- app_assoc. unfold take_exponent.
    replace (lower_case (if capital then 80 else 112) =? 112) with true by (destruct capital; reflexivity). cbv iota.
    rewrite take_sign_text by (apply starts_digits; assumption). rewrite take_digits_chars by (try apply stops_no_digit; assumption).
    reflexivity.
  - cbn [power_text app exponent_of]. destruct r as [|c r]; [reflexivity|]. cbn [take_exponent].
    destruct Hr as (H1 & H2 & H3 & _). unfold lower_case.
    replace ((65 <=? c) && (c <=? 90)) with false by (symmetry; apply andb_false_iff; rewrite !Z.leb_gt; lia).
    replace (c =? 112) with false by (symmetry; apply Z.eqb_neq; lia). reflexivity.
Qed.
Definition hex_point_text (p : option (list (bool * Z))) : list Z := match p with None => [] | Some ds => 46 :: map hex_char ds end.
Definition hex_point_digits (p : option (list (bool * Z))) : list (bool * Z) := match p with None => [] | Some ds => ds end.
Lemma hex_point_nul p : digits_0_15 (hex_point_digits p) -> Forall (fun c => c <> 0) (hex_point_text p).
Proof. destruct p as [ds|]; [|constructor]. intros H. constructor; [discriminate|apply hex_nul, H]. Qed.
Lemma take_hex_mantissa w p e r : digits_0_15 w -> digits_0_15 (hex_point_digits p) -> stops r ->
  take_mantissa 16 (map hex_char w ++ hex_point_text p ++ power_text e ++ r) = (map snd w, map snd (hex_point_digits p), power_text e ++ r).
Proof.
  intros Hw Hp Hr. destruct (power_no_hex e r Hr) as (H1 & H3). unfold take_mantissa. destruct p as [ds|]; cbn [hex_point_text hex_point_digits].
  - rewrite take_hex_chars; [|exact Hw|left; reflexivity]. rewrite <- app_comm_cons. change (46 =? 46) with true. cbv iota.
    cbn [hex_point_digits] in Hp. rewrite take_hex_chars by assumption. reflexivity.
  - cbn [app]. rewrite take_hex_chars by assumption. destruct (power_text e ++ r) as [|c s]; [reflexivity|].
    apply Z.eqb_neq in H3. rewrite H3. reflexivity.
Qed.
Lemma scan_hex_text n : hex_ok n -> scan (hex_text n) =
  Some (negative (h_sign n), ScanNumber (hex_number (h_whole n ++ hex_decimals n)) 2 (hex_exponent n - 4 * Z.of_nat (length (hex_decimals n)))).
Proof.
  destruct n as [b s x w p e r]. unfold hex_ok, hex_text, hex_decimals, hex_exponent. cbn [h_blank h_sign h_capital h_whole h_point h_exponent h_rest].
  intros (Hb & Hw & Hp & Hn & He & Hr).
  change (match p with None => [] | Some ds => ds end) with (hex_point_digits p) in *.
  change (match p with None => [] | Some ds => 46 :: map hex_char ds end) with (hex_point_text p).
  change (match e with None => [] | Some (capital, s, ds) => (if capital then 80 else 112) :: sign_text s ++ digit_chars ds end) with (power_text e).
  change (match e with None => 0 | Some (_, s, ds) => signed s (number ds) end) with (exponent_of e).
  change (exponent_ok e) in He.
  set (X := if x then 88 else 120). assert (HX : lower_case X = 120 /\ X <> 0) by (unfold X; destruct x; split; try reflexivity; discriminate). destruct HX as [HX1 HX2].
  unfold scan. rewrite (until_nul_app b) by (apply space_nul, Hb). rewrite (until_nul_app (sign_text s)) by apply sign_nul.
  change (48 :: X :: map hex_char w ++ hex_point_text p ++ power_text e ++ r) with ([48; X] ++ map hex_char w ++ hex_point_text p ++ power_text e ++ r).
  rewrite (until_nul_app [48; X]) by (repeat constructor; [discriminate|exact HX2]).
  rewrite !until_nul_app by first [apply hex_nul, Hw | apply hex_point_nul, Hp | apply power_nul, He].
  pose proof (stops_until r Hr) as Hr'. cbn [app]. set (t := map hex_char w ++ hex_point_text p ++ power_text e ++ until_nul r).
  assert (Hs : starts_number (48 :: X :: t)) by (left; exists 0; split; [reflexivity|lia]).
  rewrite skip_spaces by (try apply sign_space; assumption). rewrite take_sign_text by exact Hs.
  unfold s_inf. rewrite (starts_number_word 105 [110; 102] _ Hs) by lia. rewrite (starts_number_word 110 [97; 110] _ Hs) by lia.
  assert (Hx : starts_with [48; 120] (48 :: X :: t) = true) by (cbn [starts_with]; rewrite HX1; reflexivity). rewrite Hx. cbn [skipn].
  unfold scan_hex, t. rewrite take_hex_mantissa by assumption. rewrite take_power_text by assumption. rewrite <- map_app, hex_base, map_length.
  destruct (w ++ hex_point_digits p) as [|d ds] eqn:E; [contradiction|]. cbn [map]. reflexivity.
Qed.

Open Scope R_scope.
Lemma two_ratio (m e : Z) : IZR m * bpow radix2 e = IZR (m * 2 ^ Z.max e 0) / IZR (2 ^ Z.max (- e) 0).
Proof.
  destruct (Z.le_gt_cases 0 e) as [H|H].
  - rewrite (Z.max_l e 0), (Z.max_r (- e) 0) by lia. rewrite mult_IZR. change (2 ^ 0)%Z with 1%Z. change (2 ^ e)%Z with (Zpower radix2 e). rewrite IZR_Zpower by exact H. field.
  - rewrite (Z.max_r e 0), (Z.max_l (- e) 0) by lia. change (2 ^ 0)%Z with 1%Z. rewrite Z.mul_1_r. change (2 ^ (- e))%Z with (Zpower radix2 (- e)). rewrite IZR_Zpower by lia.
    rewrite bpow_opp. pose proof (bpow_gt_0 radix2 e). field. lra.
Qed.
Section Round.
  Context {prec emax : Z} {Hp : Prec_gt_0 prec} {Hm : Prec_lt_emax prec emax}.
  Notation F := (binary_float prec emax).
  Notation big := (bpow radix2 emax).
  Variable underflow : list Z -> bool.
  Lemma hex_not_nan n : hex_ok n -> M_String.list_eqb (hex_text n) s_nan = false.
  Proof using Type.
    intros H. apply list_eqb_neq. intros E. pose proof (scan_hex_text n H) as Q. rewrite E in Q. vm_compute in Q. discriminate.
  Qed.
  Theorem parse_hex n : hex_ok n ->
    match float_from_string underflow (hex_text n) : res F with
    | Ok y => is_finite y = true /\ B2R y = rounded prec emax (hex_value n) /\ Bsign y = negative (h_sign n)
    | Throw e => e = OutOfRange /\ (big <= Rabs (rounded prec emax (hex_value n)) \/ (hex_value n <> 0 /\ Rabs (hex_value n) < bpow radix2 (2 - emax)))
    | UB => False
    end.
  Proof using Type.
    intros H. unfold float_from_string. rewrite (hex_not_nan n H). unfold sto_float. rewrite (scan_hex_text n H).
    assert (H0 : (0 <= hex_number (h_whole n ++ hex_decimals n))%Z).
    { destruct H as (_ & A & B & _). apply hex_number_nonneg. apply Forall_app. split; assumption. }
    unfold hex_value, signed. set (m := hex_number (h_whole n ++ hex_decimals n)) in *. set (neg := negative (h_sign n)).
    set (e := (hex_exponent n - 4 * Z.of_nat (length (hex_decimals n)))%Z). destruct (Z.eqb_spec m 0) as [E|E].
    - rewrite E. replace (IZR (if neg then (- 0)%Z else 0%Z) * bpow radix2 e) with 0 by (destruct neg; cbn; lra).
      change (rounded prec emax 0) with (rnd (prec := prec) (emax := emax) 0). rewrite rnd_0. repeat split.
    - assert (Hp1 : (0 < m * 2 ^ Z.max e 0)%Z) by (assert (0 < 2 ^ Z.max e 0)%Z by (apply Z.pow_pos_nonneg; lia); nia).
      assert (Hq1 : (0 < 2 ^ Z.max (- e) 0)%Z) by (apply Z.pow_pos_nonneg; lia).
      set (p := (m * 2 ^ Z.max e 0)%Z) in *. set (q := (2 ^ Z.max (- e) 0)%Z) in *.
      assert (EV : IZR (if neg then (- m)%Z else m) * bpow radix2 e = ratio neg (Z.to_pos p) (Z.to_pos q)).
      { rewrite signed_ratio by assumption. rewrite two_ratio. fold q. unfold p. destruct neg; [|reflexivity]. rewrite Z.mul_opp_l. reflexivity. }
      rewrite EV. destruct (round_ratio_ok (prec := prec) (emax := emax) neg (Z.to_pos p) (Z.to_pos q)) as [A B]. set (y := round_ratio neg (Z.to_pos p) (Z.to_pos q) : F) in *.
      destruct (Rlt_or_le (Rabs (rounded prec emax (ratio neg (Z.to_pos p) (Z.to_pos q)))) big) as [L|L].
      + destruct (A L) as (A1 & A2 & A3). replace (is_inf y) with false by (clearbody y; destruct y; try reflexivity; discriminate A1). cbn [orb].
        destruct (p * 2 ^ (emax - 2) <? q)%Z eqn:T; cbn [andb]; [|auto]. destruct (underflow (hex_text n)); [|auto].
        split; [reflexivity|right]. rewrite <- EV. apply tiny_ratio in T; [|assumption..]. split.
        * apply Rmult_integral_contrapositive_currified; [|pose proof (bpow_gt_0 radix2 e); lra]. apply IZR_neq. destruct neg; lia.
        * rewrite EV, signed_ratio by assumption. unfold Rdiv. rewrite Rabs_mult, (Rabs_right (/ IZR q)).
          2:{ left. apply Rinv_0_lt_compat, IZR_lt. exact Hq1. }
          rewrite <- abs_IZR. replace (Z.abs (if neg then (- p)%Z else p)) with p by (destruct neg; lia). exact T.
      + rewrite B by lra. cbn [is_inf orb]. split; [reflexivity|left; exact L].
  Qed.
End Round.
