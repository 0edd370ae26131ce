(** Reading what was printed. *)
From Coq Require Import Reals Lra Psatz.
From Flocq Require Import Core.Core IEEE754.BinarySingleNaN.
From Verif Require Import Base M_Scale S_Scale L_Float M_String L_String S_TimeText L_TimeText M_FloatText S_FloatText L_FloatText L_FloatText2 L_FloatText3.
Open Scope R_scope.

Lemma tie_even (N : Z) (t : R) : Z.even N = true -> Rabs (t - IZR N) <= / 2 -> ZnearestE t = N.
Proof.
  intros E H. destruct (Rle_lt_or_eq_dec _ _ H) as [L|L].
  - apply Znearest_imp. exact L.
  - unfold Rabs in L. destruct (Rcase_abs (t - IZR N)) as [C|C].
    + assert (Ht : t = IZR (N - 1) + / 2) by (rewrite minus_IZR; lra). assert (Fl : Zfloor t = (N - 1)%Z) by (apply Zfloor_imp; rewrite Ht, plus_IZR, minus_IZR; lra).
      unfold Znearest. rewrite Fl. rewrite Rcompare_Eq by lra. rewrite Z.even_sub, E. cbn [Bool.eqb Z.even negb].
      rewrite Zceil_floor_neq, Fl; [lia|]. rewrite Fl. lra.
    + assert (Ht : t = IZR N + / 2) by lra. assert (Fl : Zfloor t = N) by (apply Zfloor_imp; rewrite Ht, plus_IZR; lra).
      unfold Znearest. rewrite Fl. rewrite Rcompare_Eq by lra. rewrite E. reflexivity.
Qed.
Lemma tie_is_even (t : R) : Rabs (t - IZR (ZnearestE t)) = / 2 -> Z.even (ZnearestE t) = true.
Proof.
  unfold Znearest. destruct (Rcompare_spec (t - IZR (Zfloor t)) (/ 2)) as [L|L|L]; intros H.
  - exfalso. pose proof (Zfloor_lb t). rewrite Rabs_right in H by lra. lra.
  - destruct (Z.even (Zfloor t)) eqn:E; cbn [negb]; [exact E|]. rewrite Zceil_floor_neq by lra. rewrite Z.even_add, E. reflexivity.
  - exfalso. assert (N : IZR (Zfloor t) <> t) by lra. rewrite Zceil_floor_neq in H by exact N. rewrite plus_IZR in H. pose proof (Zfloor_ub t).
    rewrite Rabs_left in H by lra. lra.
Qed.
(** A number at least as near to N as t is, is shown as N too. *)
Lemma nearer_same (t u : R) : Rabs (u - IZR (ZnearestE t)) <= Rabs (t - IZR (ZnearestE t)) -> ZnearestE u = ZnearestE t.
Proof.
  intros H. pose proof (Znearest_half (fun x => negb (Z.even x)) t) as Hh. destruct (Rle_lt_or_eq_dec _ _ Hh) as [L|L].
  - apply Znearest_imp. lra.
  - apply tie_even; [apply tie_is_even, L|lra].
Qed.

Section RoundTrip.
  Context {prec emax : Z} {Hp : Prec_gt_0 prec} {Hm : Prec_lt_emax prec emax}.
  Hypothesis Hprec : (20 <= prec)%Z.
  Hypothesis Hemax : (22 <= emax)%Z.
  Notation F := (binary_float prec emax).
  Notation fexp := (SpecFloat.fexp prec emax).
  Notation rnd := (rounded prec emax).
  Notation big := (bpow radix2 emax).
  Local Instance vexp4 : Valid_exp fexp := fexp_correct prec emax Hp.

  Lemma coarse z : generic_format radix2 fexp z -> bpow radix2 (prec - 20) <= Rabs z -> exists k, z = IZR k * bpow radix2 (-19).
  Proof.
    intros G H. unfold generic_format in G. set (m := Ztrunc (scaled_mantissa radix2 fexp z)) in G.
    assert (C : (-19 <= cexp radix2 fexp z)%Z).
    { unfold cexp, SpecFloat.fexp. assert (prec - 19 <= mag radix2 z)%Z.
      { apply mag_ge_bpow. replace (prec - 19 - 1)%Z with (prec - 20)%Z by lia. exact H. }
      lia. }
    exists (m * 2 ^ (cexp radix2 fexp z + 19))%Z. rewrite G at 1. unfold F2R. cbn [Fnum Fexp]. rewrite mult_IZR.
    change (2 ^ (cexp radix2 fexp z + 19))%Z with (Zpower radix2 (cexp radix2 fexp z + 19)). rewrite IZR_Zpower by lia.
    rewrite Rmult_assoc, <- bpow_plus. f_equal. f_equal. lia.
  Qed.
  Lemma coarse_eq z1 z2 : generic_format radix2 fexp z1 -> generic_format radix2 fexp z2 ->
    bpow radix2 (prec - 20) <= Rabs z1 -> bpow radix2 (prec - 20) <= Rabs z2 -> Rabs (z1 - z2) <= / 1000000 -> z1 = z2.
  Proof.
    intros G1 G2 H1 H2 H. destruct (coarse z1 G1 H1) as [k1 E1]. destruct (coarse z2 G2 H2) as [k2 E2]. rewrite E1, E2 in *.
    rewrite <- Rmult_minus_distr_r, <- minus_IZR in H. rewrite Rabs_mult, (Rabs_right (bpow radix2 (-19))) in H by (apply Rle_ge, bpow_ge_0).
    rewrite <- abs_IZR in H. change (bpow radix2 (-19)) with (/ 524288) in *.
    assert (k1 - k2 = 0)%Z; [|replace k1 with k2 by lia; reflexivity].
    destruct (Z.eq_dec (k1 - k2) 0) as [E|E]; [exact E|exfalso]. assert (1 <= IZR (Z.abs (k1 - k2))) by (apply IZR_le; lia). lra.
  Qed.

  (** The number that is printed, with its sign. *)
  Definition printed (x : F) : R := IZR (if Bsign x then (- shown x)%Z else shown x) / 1000000.
  Lemma signed_abs (x : F) : is_finite x = true -> B2R x = (if Bsign x then - Rabs (B2R x) else Rabs (B2R x)).
  Proof.
    intros H. destruct x as [s|s| |s m e B]; try discriminate H.
    - cbn. rewrite Rabs_R0. destruct s; ring.
    - cbn [B2R Bsign]. unfold F2R. cbn [Fnum Fexp]. rewrite Rabs_mult, (Rabs_right (bpow radix2 e)) by (apply Rle_ge, bpow_ge_0).
      rewrite <- abs_IZR. destruct s; cbn [SpecFloat.cond_Zopp Z.abs Z.opp]; [rewrite Ropp_mult_distr_l, <- opp_IZR|]; reflexivity.
  Qed.
  Lemma printed_abs (x : F) : Rabs (printed x) = IZR (shown x) / 1000000.
  Proof.
    unfold printed. pose proof (shown_nonneg x) as H. apply IZR_le in H. unfold Rdiv. rewrite Rabs_mult, (Rabs_right (/ 1000000)) by lra.
    rewrite <- abs_IZR. f_equal. f_equal. pose proof (shown_nonneg x). destruct (Bsign x); lia.
  Qed.
  Lemma printed_near (x : F) : is_finite x = true -> Rabs (printed x - B2R x) = Rabs (Rabs (B2R x) * 1000000 - IZR (shown x)) / 1000000.
  Proof.
    intros H. rewrite (signed_abs x H) at 1. unfold printed.
    replace (Rabs (Rabs (B2R x) * 1000000 - IZR (shown x)) / 1000000) with (Rabs (Rabs (B2R x) - IZR (shown x) / 1000000)).
    2:{ replace (Rabs (B2R x) - IZR (shown x) / 1000000) with ((Rabs (B2R x) * 1000000 - IZR (shown x)) * / 1000000) by field.
        rewrite Rabs_mult, (Rabs_right (/ 1000000)) by lra. reflexivity. }
    destruct (Bsign x).
    - rewrite opp_IZR. replace (- IZR (shown x) / 1000000 - - Rabs (B2R x)) with (Rabs (B2R x) - IZR (shown x) / 1000000) by field. reflexivity.
    - rewrite Rabs_minus_sym. reflexivity.
  Qed.
  Lemma printed_half (x : F) : is_finite x = true -> Rabs (printed x - B2R x) <= / 2000000.
  Proof.
    intros H. rewrite printed_near by exact H. pose proof (Znearest_half (fun x => negb (Z.even x)) (Rabs (B2R x) * 1000000)) as Q. fold (shown x) in Q. lra.
  Qed.
  Lemma round_nearest v (x : F) : Rabs (rnd v - v) <= Rabs (B2R x - v).
  Proof. destruct (round_N_pt radix2 fexp (fun x => negb (Z.even x)) v) as [_ H]. apply H. apply generic_format_B2R. Qed.
  Lemma printed_exact (x : F) : is_finite x = true -> bpow radix2 (prec - 20) <= Rabs (B2R x) -> rnd (printed x) = B2R x.
  Proof.
    intros H L. pose proof (printed_half x H) as P. pose proof (round_nearest (printed x) x) as Q. rewrite (Rabs_minus_sym (B2R x)) in Q.
    apply coarse_eq; [apply generic_format_round; [exact vexp4|apply valid_rnd_N]|apply generic_format_B2R| |exact L|].
    - change (rnd (printed x)) with (L_Float.rnd (prec := prec) (emax := emax) (printed x)).
      rewrite L_Float.rnd_abs, printed_abs.
      assert (B : (0 <= prec - 20)%Z) by lia. assert (B2 : (prec - 20 < emax)%Z) by (pose proof (prec_lt_emax prec emax); lia).
      rewrite <- (rnd_fmt (bpow radix2 (prec - 20)) (fmt_pow (prec - 20) B B2)). apply rnd_mono.
      assert (Z1 : (2 ^ (prec - 20) * 1000000 <= shown x)%Z).
      { unfold shown. rewrite <- (Zrnd_IZR ZnearestE (2 ^ (prec - 20) * 1000000)). apply Zrnd_le; [apply valid_rnd_N|].
        rewrite mult_IZR. change (2 ^ (prec - 20))%Z with (Zpower radix2 (prec - 20)). rewrite IZR_Zpower by exact B. lra. }
      apply IZR_le in Z1. rewrite mult_IZR in Z1. change (2 ^ (prec - 20))%Z with (Zpower radix2 (prec - 20)) in Z1. rewrite IZR_Zpower in Z1 by exact B. lra.
    - replace (rnd (printed x) - B2R x) with ((rnd (printed x) - printed x) + (printed x - B2R x)) by ring.
      eapply Rle_trans; [apply Rabs_triang|]. lra.
  Qed.
  Lemma printed_fits (x : F) : is_finite x = true -> Rabs (rnd (printed x)) < big.
  Proof.
    intros H. destruct (Rle_or_lt (bpow radix2 (prec - 20)) (Rabs (B2R x))) as [L|L].
    - rewrite printed_exact by assumption. apply abs_B2R_lt_emax.
    - assert (B : (0 <= prec - 19)%Z) by lia. assert (B2 : (prec - 19 < emax)%Z) by (pose proof (prec_lt_emax prec emax); lia).
      apply Rle_lt_trans with (bpow radix2 (prec - 19)); [|apply bpow_lt; exact B2].
      change (rnd (printed x)) with (L_Float.rnd (prec := prec) (emax := emax) (printed x)). rewrite L_Float.rnd_abs.
      rewrite <- (rnd_fmt (bpow radix2 (prec - 19)) (fmt_pow (prec - 19) B B2)). apply rnd_mono.
      replace (prec - 19)%Z with (prec - 20 + 1)%Z by lia. rewrite bpow_plus. change (bpow radix2 1) with 2.
      assert (1 <= bpow radix2 (prec - 20)) by (change 1 with (bpow radix2 0); apply bpow_le; lia).
      pose proof (printed_half x H) as P. pose proof (Rabs_triang (printed x - B2R x) (B2R x)) as T.
      replace (printed x - B2R x + B2R x) with (printed x) in T by ring. lra.
  Qed.
  Lemma printed_normal (x : F) : printed x <> 0 -> ~ Rabs (printed x) < bpow radix2 (2 - emax).
  Proof.
    intros N H. assert (S1 : (1 <= shown x)%Z).
    { pose proof (shown_nonneg x). destruct (Z.eq_dec (shown x) 0) as [E|E]; [|lia]. exfalso. apply N. unfold printed. rewrite E. destruct (Bsign x); cbn; lra. }
    rewrite printed_abs in H. apply IZR_le in S1.
    assert (Q : bpow radix2 (2 - emax) <= bpow radix2 (-20)) by (apply bpow_le; lia). change (bpow radix2 (-20)) with (/ 1048576) in Q. lra.
  Qed.

  Variable underflow : list Z -> bool.
  Theorem float_round_trip (x : F) : is_finite x = true ->
    exists y : F, float_from_string underflow (float_to_string x) = Ok y /\ is_finite y = true /\ Bsign y = Bsign x /\
      B2R y = rnd (printed x) /\ Rabs (B2R y - B2R x) <= / 1000000 /\ float_to_string y = float_to_string x /\
      (bpow radix2 (prec - 20) <= Rabs (B2R x) -> y = x).
  Proof.
    intros H. destruct (print_numeral x H) as (n & En & Hn). pose proof (parse_numeral underflow n (six_decimals_ok _ _ _ Hn)) as Q.
    rewrite En. rewrite (six_decimals_value _ _ _ Hn) in Q. fold (printed x) in Q.
    destruct (float_from_string underflow (numeral_text n)) as [y|e|].
    3:{ destruct Q. }
    2:{ exfalso. destruct Q as [_ [Q|[Q1 Q2]]]; [pose proof (printed_fits x H); lra|exact (printed_normal x Q1 Q2)]. }
    destruct Q as (Q1 & Q2 & Q3). assert (Sg : Bsign y = Bsign x).
    { rewrite Q3. destruct Hn as (_ & B & _). rewrite B. destruct (Bsign x); reflexivity. }
    exists y. split; [reflexivity|]. split; [exact Q1|]. split; [exact Sg|]. split; [exact Q2|].
    pose proof (printed_half x H) as P. pose proof (round_nearest (printed x) x) as R1. rewrite (Rabs_minus_sym (B2R x)) in R1.
    split; [|split].
    - rewrite Q2. replace (rnd (printed x) - B2R x) with ((rnd (printed x) - printed x) + (printed x - B2R x)) by ring.
      eapply Rle_trans; [apply Rabs_triang|]. lra.
    - rewrite <- En. rewrite !to_string_shown by assumption. rewrite Sg. f_equal. unfold shown at 1.
      apply nearer_same. change (ZnearestE (Rabs (B2R x) * 1000000)) with (shown x).
      rewrite <- Q2 in R1. rewrite (printed_near x H) in R1.
      assert (E : Rabs (B2R y - printed x) = Rabs (Rabs (B2R y) * 1000000 - IZR (shown x)) / 1000000).
      { rewrite (signed_abs y Q1) at 1. unfold printed. rewrite Sg.
        replace (Rabs (Rabs (B2R y) * 1000000 - IZR (shown x)) / 1000000) with (Rabs (Rabs (B2R y) - IZR (shown x) / 1000000)).
        2:{ replace (Rabs (B2R y) - IZR (shown x) / 1000000) with ((Rabs (B2R y) * 1000000 - IZR (shown x)) * / 1000000) by field.
            rewrite Rabs_mult, (Rabs_right (/ 1000000)) by lra. reflexivity. }
        destruct (Bsign x); [|reflexivity]. rewrite opp_IZR, <- (Rabs_Ropp (Rabs (B2R y) - IZR (shown x) / 1000000)). f_equal. field. }
      rewrite E in R1. lra.
    - intros L. apply B2R_Bsign_inj; [exact Q1|exact H| |exact Sg]. rewrite Q2. apply printed_exact; assumption.
  Qed.
  (** A float that is nearest to a number with six decimals survives. *)
  Theorem six_decimals_kept (x : F) k : is_finite x = true -> B2R x = rnd (IZR k / 1000000) ->
    float_from_string underflow (float_to_string x) = Ok x.
  Proof.
    intros H Ex. destruct (float_round_trip x H) as (y & E1 & E2 & E3 & E4 & _ & _ & E5). rewrite E1. f_equal.
    destruct (Rle_or_lt (bpow radix2 (prec - 20)) (Rabs (B2R x))) as [L|L]; [exact (E5 L)|].
    apply B2R_Bsign_inj; [exact E2|exact H| |exact E3]. rewrite E4.
    assert (U : Rabs (B2R x - IZR k / 1000000) < / 2000000).
    { pose proof (error_le_half_ulp_round radix2 fexp (fun z => negb (Z.even z)) (IZR k / 1000000)) as U.
      change (round radix2 fexp ZnearestE (IZR k / 1000000)) with (rnd (IZR k / 1000000)) in U. rewrite <- Ex in U.
      assert (W : ulp radix2 fexp (B2R x) <= bpow radix2 (-20)).
      { destruct (Req_dec (B2R x) 0) as [Z0|Z0].
        - rewrite Z0. apply Rle_trans with (ulp radix2 fexp (bpow radix2 (prec - 20 - 1))).
          + apply ulp_le; [exact vexp4|apply fexp_monotone|]. rewrite Rabs_R0. apply Rabs_pos.
          + rewrite ulp_bpow. apply bpow_le. unfold SpecFloat.fexp, SpecFloat.emin. pose proof (prec_lt_emax prec emax). lia.
        - rewrite ulp_neq_0 by exact Z0. apply bpow_le. unfold cexp, SpecFloat.fexp, SpecFloat.emin.
          assert (mag radix2 (B2R x) <= prec - 20)%Z by (apply mag_le_bpow; assumption). pose proof (prec_lt_emax prec emax). lia. }
      change (bpow radix2 (-20)) with (/ 1048576) in W. lra. }
    assert (S1 : shown x = Z.abs k).
    { unfold shown. apply Znearest_imp. rewrite abs_IZR.
      pose proof (Rabs_triang_inv2 (B2R x) (IZR k / 1000000)) as T.
      replace (Rabs (IZR k / 1000000)) with (Rabs (IZR k) / 1000000) in T.
      2:{ unfold Rdiv. rewrite Rabs_mult, (Rabs_right (/ 1000000)) by lra. reflexivity. }
      replace (Rabs (B2R x) * 1000000 - Rabs (IZR k)) with ((Rabs (B2R x) - Rabs (IZR k) / 1000000) * 1000000) by field.
      rewrite Rabs_mult, (Rabs_right 1000000) by lra. lra. }
    assert (S2 : printed x = IZR k / 1000000 \/ B2R x = 0 /\ k = 0%Z).
    { pose proof (signed_abs x H) as Sx. assert (Sk : (k = 0 \/ 1 <= Z.abs k)%Z) by lia. destruct Sk as [Sk|Sk].
      - right. split; [|exact Sk]. rewrite Ex, Sk. unfold Rdiv. rewrite Rmult_0_l. apply rnd_0.
      - left. unfold printed. rewrite S1. f_equal. f_equal. pose proof (Rabs_pos (B2R x)) as Pp.
        apply Rabs_lt_inv in U. destruct (Z.le_gt_cases 0 k) as [Kp|Kn].
        + assert (1 <= IZR k) by (apply IZR_le; lia). destruct (Bsign x); [|lia]. exfalso. lra.
        + assert (IZR k <= -1) by (apply IZR_le; lia). destruct (Bsign x); [lia|]. exfalso. lra. }
    destruct S2 as [S2|[S2 S3]]; [rewrite S2, <- Ex; reflexivity|]. rewrite S2. unfold printed. rewrite S1, S3.
    replace (IZR (if Bsign x then (- Z.abs 0)%Z else Z.abs 0%Z) / 1000000) with 0; [apply rnd_0|]. destruct (Bsign x); cbn; lra.
  Qed.
End RoundTrip.

(** Any text at all. *)
Lemma float_any_text {prec emax : Z} {Hp : Prec_gt_0 prec} {Hm : Prec_lt_emax prec emax} underflow s :
  match float_from_string underflow s : res (binary_float prec emax) with Ok y => True | Throw e => e = InvalidArgument \/ e = OutOfRange | UB => False end.
Proof.
  unfold float_from_string. destruct (M_String.list_eqb s s_nan); [exact I|]. unfold sto_float.
  destruct (scan s) as [[neg [| |m b e]]|]; [exact I|exact I| |left; reflexivity].
  destruct (m =? 0)%Z; [exact I|]. cbv zeta. destruct (is_inf _ || _); [right; reflexivity|exact I].
Qed.

