(** Reading a numeral: the nearest float. *)
From Coq Require Import Reals Lra Psatz.
From Flocq Require Import Core.Core IEEE754.BinarySingleNaN.
From Verif Require Import Base M_Scale S_Scale L_Float M_String L_String S_TimeText L_TimeText M_FloatText S_FloatText L_FloatText.
Open Scope R_scope.

Lemma ten_ratio (m e : Z) : IZR m * ten e = IZR (m * 10 ^ Z.max e 0) / IZR (10 ^ Z.max (- e) 0).
Proof.
  unfold ten. destruct (Z.leb_spec 0 e) as [H|H].
  - rewrite (Z.max_l e 0), (Z.max_r (- e) 0) by lia. rewrite mult_IZR. change (10 ^ 0)%Z with 1%Z. field.
  - rewrite (Z.max_r e 0), (Z.max_l (- e) 0) by lia. change (10 ^ 0)%Z with 1%Z. rewrite Z.mul_1_r. unfold Rdiv. reflexivity.
Qed.
Lemma pow10_pos e : (0 < 10 ^ Z.max e 0)%Z.
Proof. apply Z.pow_pos_nonneg; lia. Qed.
Lemma ten_pos e : 0 < ten e.
Proof.
  unfold ten. destruct (Z.leb_spec 0 e) as [H|H]; [|apply Rinv_0_lt_compat]; apply IZR_lt, Z.pow_pos_nonneg; lia.
Qed.

Section Round.
  Context {prec emax : Z} {Hp : Prec_gt_0 prec} {Hm : Prec_lt_emax prec emax}.
  Notation F := (binary_float prec emax).
  Notation big := (bpow radix2 emax).
  Definition ratio (neg : bool) (p q : positive) : R := (if neg then - (IZR (Zpos p)) else IZR (Zpos p)) / IZR (Zpos q).

  Lemma round_ratio_ok neg p q : let y := round_ratio neg p q : F in
    (Rabs (rounded prec emax (ratio neg p q)) < big -> is_finite y = true /\ B2R y = rounded prec emax (ratio neg p q) /\ Bsign y = neg) /\
    (~ Rabs (rounded prec emax (ratio neg p q)) < big -> y = B754_infinity neg).
  Proof.
    unfold round_ratio. generalize (Bdiv_correct_aux prec emax Hp Hm mode_NE neg p 0 false q 0). cbv zeta.
    destruct (SpecFloat.SFdiv_core_binary prec emax (Z.pos p) 0 (Z.pos q) 0) as [[mz ez] lz].
    rewrite xorb_false_r. set (z := binary_round_aux prec emax mode_NE neg mz ez lz). clearbody z. intros [Hv0 H]. generalize (proj1 (conj Hv0 H)). clear Hv0. intros Hv.
    replace (F2R (beta := radix2) {| Fnum := SpecFloat.cond_Zopp neg (Z.pos p); Fexp := 0 |} / F2R (beta := radix2) {| Fnum := SpecFloat.cond_Zopp false (Z.pos q); Fexp := 0 |}) with (ratio neg p q) in H.
    2:{ unfold ratio, F2R. cbn [Fnum Fexp bpow SpecFloat.cond_Zopp]. rewrite !Rmult_1_r. destruct neg; [|reflexivity]. cbn [SpecFloat.cond_Zopp]. rewrite <- opp_IZR. reflexivity. }
    change (round radix2 (SpecFloat.fexp prec emax) (round_mode mode_NE) (ratio neg p q)) with (rounded prec emax (ratio neg p q)) in H.
    destruct (Rlt_or_le (Rabs (rounded prec emax (ratio neg p q))) big) as [L|L]; [rewrite Rlt_bool_true in H by exact L|rewrite Rlt_bool_false in H by exact L].
    - split; [|intros N; contradiction (N L)]. intros _. destruct H as (H1 & H2 & H3). rewrite is_finite_SF2B, B2R_SF2B, Bsign_SF2B. auto.
    - split; [intros N; exfalso; lra|]. intros _. cbn in H. unfold binary_overflow, overflow_to_inf in H. cbn in H. subst z. reflexivity.
  Qed.

  Lemma signed_ratio neg p q : (0 < p)%Z -> (0 < q)%Z ->
    ratio neg (Z.to_pos p) (Z.to_pos q) = IZR (if neg then - p else p) / IZR q.
  Proof. intros H1 H2. unfold ratio. rewrite !Z2Pos.id by assumption. destruct neg; [rewrite opp_IZR|]; reflexivity. Qed.

  Variable underflow : list Z -> bool.
  Lemma text_not_nan n : numeral_ok n -> M_String.list_eqb (numeral_text n) s_nan = false.
  Proof.
    intros H. apply list_eqb_neq. intros E. pose proof (scan_text n H) as Q. rewrite E in Q. vm_compute in Q. discriminate.
  Qed.
  Lemma tiny_ratio (p q : Z) : (0 < p)%Z -> (0 < q)%Z -> ((p * 2 ^ (emax - 2) <? q)%Z = true -> IZR p / IZR q < bpow radix2 (2 - emax)).
  Proof.
    intros H1 H2 H. apply Z.ltb_lt in H. pose proof (prec_gt_0 prec) as Pp. pose proof (prec_lt_emax prec emax) as Pe.
    assert (He : (0 <= emax - 2)%Z \/ (emax = 1)%Z) by (unfold Prec_gt_0, Prec_lt_emax in *; lia).
    destruct He as [He|He]; [|unfold Prec_gt_0, Prec_lt_emax in *; lia].
    replace (2 - emax)%Z with (- (emax - 2))%Z by lia. rewrite bpow_opp.
    apply IZR_lt in H. rewrite mult_IZR in H. change (2 ^ (emax - 2))%Z with (Zpower radix2 (emax - 2)) in H. rewrite IZR_Zpower in H by exact He.
    pose proof (bpow_gt_0 radix2 (emax - 2)) as B. apply IZR_lt in H1. apply IZR_lt in H2.
    apply (Rmult_lt_reg_r (bpow radix2 (emax - 2))); [exact B|]. rewrite Rinv_l by lra.
    apply (Rmult_lt_reg_r (IZR q)); [exact H2|]. field_simplify; [|lra]. lra.
  Qed.

  Theorem parse_numeral n : numeral_ok n ->
    match float_from_string underflow (numeral_text n) : res F with
    | Ok y => is_finite y = true /\ B2R y = rounded prec emax (numeral_value n) /\ Bsign y = negative (n_sign n)
    | Throw e => e = OutOfRange /\ (big <= Rabs (rounded prec emax (numeral_value n)) \/ (numeral_value n <> 0 /\ Rabs (numeral_value n) < bpow radix2 (2 - emax)))
    | UB => False
    end.
  Proof.
    intros H. unfold float_from_string. rewrite (text_not_nan n H). unfold sto_float. rewrite (scan_text n H).
    assert (H0 : (0 <= number (n_whole n ++ decimals n))%Z).
    { destruct H as (_ & A & B & _). apply number_bound. apply Forall_app. split; assumption. }
    unfold numeral_value, signed. set (m := number (n_whole n ++ decimals n)) in *. set (neg := negative (n_sign n)).
    set (e := (exponent n - Z.of_nat (length (decimals n)))%Z). destruct (Z.eqb_spec m 0) as [E|E].
    - rewrite E. replace (IZR (if neg then (- 0)%Z else 0%Z) * ten e) with 0 by (destruct neg; cbn; lra).
      change (rounded prec emax 0) with (rnd (prec := prec) (emax := emax) 0). rewrite rnd_0. repeat split.
    - assert (Hp1 : (0 < m * 10 ^ Z.max e 0)%Z) by (pose proof (pow10_pos e); nia). pose proof (pow10_pos (- e)) as Hq1.
      set (p := (m * 10 ^ Z.max e 0)%Z) in *. set (q := (10 ^ Z.max (- e) 0)%Z) in *.
      assert (EV : IZR (if neg then (- m)%Z else m) * ten e = ratio neg (Z.to_pos p) (Z.to_pos q)).
      { rewrite signed_ratio by assumption. rewrite ten_ratio. fold q. unfold p. destruct neg; [|reflexivity]. rewrite Z.mul_opp_l. reflexivity. }
      rewrite EV. destruct (round_ratio_ok neg (Z.to_pos p) (Z.to_pos q)) as [A B]. set (y := round_ratio neg (Z.to_pos p) (Z.to_pos q) : F) in *.
      destruct (Rlt_or_le (Rabs (rounded prec emax (ratio neg (Z.to_pos p) (Z.to_pos q)))) big) as [L|L].
      + destruct (A L) as (A1 & A2 & A3). replace (is_inf y) with false by (clearbody y; destruct y; try reflexivity; discriminate A1). cbn [orb].
        destruct (p * 2 ^ (emax - 2) <? q)%Z eqn:T; cbn [andb]; [|auto]. destruct (underflow (numeral_text n)); [|auto].
        split; [reflexivity|right]. rewrite <- EV. apply tiny_ratio in T; [|assumption..]. split.
        * apply Rmult_integral_contrapositive_currified; [|pose proof (ten_pos e); lra]. apply IZR_neq. destruct neg; lia.
        * rewrite EV, signed_ratio by assumption. unfold Rdiv. rewrite Rabs_mult, (Rabs_right (/ IZR q)).
          2:{ left. apply Rinv_0_lt_compat, IZR_lt. exact Hq1. }
          rewrite <- abs_IZR. replace (Z.abs (if neg then (- p)%Z else p)) with p by (destruct neg; lia). exact T.
      + rewrite B by lra. cbn [is_inf orb]. split; [reflexivity|left; exact L].
  Qed.
End Round.
