(** Weights and the real logarithm. *)
From Coq Require Import Reals Lra Psatz.
From Flocq Require Import Core.Core IEEE754.BinarySingleNaN.
From Verif Require Import Base L_List M_Stats S_Stats L_Stats M_Scale S_Scale L_Float L_Scale2 M_Encoders M_Grain M_Docs S_Docs L_Docs L_Docs9 L_Docs10 S_FloatStats S_FloatScale L_FloatStats L_FloatStats2 L_FloatScale L_FloatScale6 S_TfidfNorm L_TfidfNorm L_TfidfNorm2.
Open Scope R_scope.
Local Notation rln := Rpower.ln.

Lemma ln_up t : 0 < t -> rln t <= t - 1.
Proof. intros H. pose proof (exp_ineq1_le (rln t)) as E. rewrite exp_ln in E by exact H. lra. Qed.
Lemma ln_diff a b : 0 < a -> 0 < b -> rln a - rln b <= a / b - 1.
Proof. intros A B. replace (rln a - rln b) with (rln (a / b)) by (unfold Rdiv; rewrite ln_mult, ln_Rinv by (auto using Rinv_0_lt_compat); ring). apply ln_up. now apply Rdiv_lt_0_compat. Qed.
Lemma ln_pos a : 1 <= a -> 0 <= rln a.
Proof. intros [H|<-]; [|rewrite ln_1; lra]. apply Rlt_le. rewrite <- ln_1. apply ln_increasing; lra. Qed.
Lemma near_r64 x : 1 <= x -> near (1 + bpow radix2 (-53)) 0 (r64 x) x.
Proof.
  intros H. change (bpow radix2 (-53)) with (unit_error 53). apply (@near_rnd_rel 53 1024 _ _); [lra|]. intros _. apply Rle_trans with 1; [|exact H].
  change 1 with (bpow radix2 0). apply bpow_le. cbv. discriminate.
Qed.
Lemma b53 : bpow radix2 (-53) = / 9007199254740992.
Proof. reflexivity. Qed.

Section Accurate.
  Variable ln : binary_float 53 1024 -> binary_float 53 1024.
  Hypothesis Hln : log_ok ln.
  Hypothesis Hacc : accurate_log ln.
  Lemma log_near x y : is_finite x = true -> 1 <= B2R x -> 1 <= y -> near (1 + bpow radix2 (-53)) 0 (B2R x) y ->
    near (1 + 8 * bpow radix2 (-53)) 0 (r64 (1 + B2R (ln x))) (1 + rln y).
  Proof using Hln Hacc.
    intros F B Y N. pose proof (Hacc x F B) as A. destruct (Hln x F B) as [_ [L0 _]]. change (bpow radix2 (-52)) with (/ 4503599627370496) in A. pose proof (ln_pos _ B) as P1. pose proof (ln_pos _ Y) as P2.
    pose proof (ln_diff (B2R x) y ltac:(lra) ltac:(lra)) as D1. pose proof (ln_diff y (B2R x) ltac:(lra) ltac:(lra)) as D2.
    unfold near in N. rewrite Rplus_0_r in N. replace (1 + bpow radix2 (-53) - 1) with (bpow radix2 (-53)) in N by ring. apply Rabs_le_inv in N. rewrite b53 in *.
    set (b := B2R x) in *. clearbody b.
    assert (E1 : b / y - 1 <= / 9007199254740992).
    { apply Rmult_le_reg_r with y; [lra|]. replace ((b / y - 1) * y) with (b - y) by (field; lra). lra. }
    assert (E2 : y / b - 1 <= 2 * / 9007199254740992).
    { apply Rmult_le_reg_r with b; [lra|]. replace ((y / b - 1) * b) with (y - b) by (field; lra). lra. }
    assert (N1 : near (1 + 5 * / 9007199254740992) 0 (1 + B2R (ln x)) (1 + rln y)).
    { unfold near. apply Rabs_le_inv in A. apply Rabs_le. set (l := B2R (ln x)) in *. set (p := rln b) in *. set (q := rln y) in *. clearbody l p q. split; lra. }
    pose proof (near_trans (1 + bpow radix2 (-53)) _ _ _ _ _ _ ltac:(rewrite b53; lra) (near_r64 (1 + B2R (ln x)) ltac:(lra)) N1) as N2.
    rewrite b53 in N2. eapply near_weaken; [| | |exact N2]; lra.
  Qed.
  Theorem weight_accuracy binary sublinear use_idf smooth n df total w : (1 <= n <= 2 ^ 24)%Z -> (1 <= df <= total)%Z -> (total < 2 ^ 32 - 1)%Z ->
    tfidf_weight ln binary sublinear use_idf smooth n df total w ->
    Rabs (w - exact_weight binary sublinear use_idf smooth n df total) <= bpow radix2 (-23) * exact_weight binary sublinear use_idf smooth n df total.
  Proof using Hln Hacc.
    intros Hn Hdf Ht (tf & idf & Htf & Hidf & ->). assert (N1 : 1 <= IZR n) by (now apply (IZR_le 1)).
    set (tf' := if binary then 1 else if sublinear then 1 + rln (IZR n) else IZR n). set (den := if smooth then (1 + df)%Z else df) in *.
    set (idf' := if use_idf then 1 + rln (IZR (1 + total) / IZR den) else 1).
    assert (Ex : exact_weight binary sublinear use_idf smooth n df total = tf' * idf') by reflexivity. rewrite Ex. clear Ex.
    set (g := 1 + 8 * bpow radix2 (-53)).
    assert (G : 1 <= g) by (unfold g; rewrite b53; lra).
    assert (Tf : near g 0 tf tf' /\ 1 <= tf /\ 1 <= tf').
    { unfold tf'. destruct binary; [subst tf; split; [apply near_weaken with 1 0; [lra|exact G|lra|apply near_refl]|lra]|].
      destruct sublinear; [|subst tf; split; [apply near_weaken with 1 0; [lra|exact G|lra|apply near_refl]|lra]].
      destruct Htf as (x & (F & E) & ->). pose proof (ln_pos _ N1). split; [|split; [apply (log_plus ln Hln x F); rewrite E; exact N1|lra]].
      apply log_near; [exact F|rewrite E; exact N1|exact N1|]. rewrite E. apply near_weaken with 1 0; [lra|rewrite b53; lra|lra|apply near_refl]. }
    assert (Idf : near g 0 idf idf' /\ 1 <= idf /\ 1 <= idf').
    { unfold idf'. destruct use_idf; [|subst idf; split; [apply near_weaken with 1 0; [lra|exact G|lra|apply near_refl]|lra]].
      destruct Hidf as (q & (F & E) & ->). assert (D : (1 <= den <= 1 + total)%Z) by (unfold den; destruct smooth; lia). fold den in E. clearbody den.
      assert (D0 : 1 <= IZR den) by (apply (IZR_le 1); lia). assert (D1 : IZR den <= IZR (1 + total)) by (apply IZR_le; lia).
      assert (R1 : 1 <= IZR (1 + total) / IZR den) by (apply Rmult_le_reg_r with (IZR den); [lra|]; unfold Rdiv; rewrite Rmult_assoc, Rinv_l, Rmult_1_r by lra; lra).
      set (ratio := IZR (1 + total) / IZR den) in *. clearbody ratio. pose proof (ln_pos _ R1).
      assert (Q1 : 1 <= B2R q) by (rewrite E, <- (@rnd_1 53 1024 _ _); apply (@rnd_mono 53 1024 _); exact R1).
      split; [|split; [apply (log_plus ln Hln q F Q1)|lra]]. apply log_near; [exact F|exact Q1|exact R1|]. rewrite E. now apply near_r64. }
    clearbody tf' idf'. destruct Tf as (T1 & T2 & T3), Idf as (I1 & I2 & I3).
    assert (P1 : near (g * g) 0 (tf * idf) (tf' * idf')).
    { pose proof (near_scale tf g 0 idf idf' ltac:(lra) I1) as A. pose proof (near_scale idf' g 0 tf tf' ltac:(lra) T1) as B.
      rewrite Rmult_0_r in A, B. rewrite (Rmult_comm idf' tf), (Rmult_comm idf' tf') in B. pose proof (near_trans g 0 g 0 _ _ _ G A B) as C. replace (0 + g * 0) with 0 in C by ring. exact C. }
    assert (P2 : 1 <= tf * idf) by nra. assert (P3 : 1 <= r64 (tf * idf)) by (rewrite <- (@rnd_1 53 1024 _ _); apply (@rnd_mono 53 1024 _); exact P2).
    pose proof (near_trans (1 + bpow radix2 (-53)) _ _ _ _ _ _ ltac:(rewrite b53; lra) (near_r64 _ P2) P1) as P4.
    pose proof (near_trans (1 + bpow radix2 (-24)) _ _ _ _ _ _ ltac:(rewrite u_value; lra) (near_r32 _ P3) P4) as P5.
    unfold near in P5. eapply Rle_trans; [exact P5|]. unfold g. rewrite b53, u_value. change (bpow radix2 (-23)) with (/ 8388608).
    assert (W : 0 < tf' * idf') by (apply Rmult_lt_0_compat; lra). set (e := tf' * idf') in *. clearbody e. clear -W. lra.
  Qed.
End Accurate.

(** There is such a logarithm: the real one, rounded. *)
Definition round_float (x : R) : binary_float 53 1024 :=
  binary_normalize 53 1024 eq_refl eq_refl mode_NE (Ztrunc (scaled_mantissa radix2 (SpecFloat.fexp 53 1024) (r64 x))) (cexp radix2 (SpecFloat.fexp 53 1024) (r64 x)) false.
Lemma round_float_ok x : Rabs (r64 x) < bpow radix2 1024 -> B2R (round_float x) = r64 x /\ is_finite (round_float x) = true.
Proof.
  intros H. unfold round_float. assert (G : generic_format radix2 (SpecFloat.fexp 53 1024) (r64 x)) by (apply generic_format_round; [apply fexp_correct; reflexivity|apply valid_rnd_N]).
  match goal with |- context [binary_normalize _ _ ?a ?b ?m ?z ?e ?s] => pose proof (binary_normalize_correct 53 1024 a b m z e s) as C end.
  unfold generic_format in G. rewrite <- G in C. cbv zeta in C. 
  assert (R : round radix2 (SpecFloat.fexp 53 1024) (round_mode mode_NE) (r64 x) = r64 x) by (apply round_generic; [apply valid_rnd_round_mode|exact G]).
  rewrite R in C. rewrite Rlt_bool_true in C by exact H. destruct C as (C1 & C2 & _). split; [exact C1|exact C2].
Qed.
Definition rounded_log (x : binary_float 53 1024) : binary_float 53 1024 := round_float (rln (B2R x)).
Lemma ln2_lt_1 : rln 2 < 1.
Proof. pose proof (ln_up 2 ltac:(lra)). destruct (Req_dec (rln 2) 1) as [E|N]; [|lra]. exfalso. assert (exp 1 = 2) by (rewrite <- E; apply exp_ln; lra). pose proof (exp_ineq1 (/ 2) ltac:(lra)) as I. assert (J : exp 1 = exp (/ 2) * exp (/ 2)) by (rewrite <- exp_plus; f_equal; lra). nra. Qed.
Lemma rounded_log_ok : log_ok rounded_log /\ accurate_log rounded_log.
Proof.
  assert (B : forall x : binary_float 53 1024, is_finite x = true -> 1 <= B2R x -> 0 <= rln (B2R x) <= 1024).
  { intros x F H. split; [now apply ln_pos|]. pose proof (abs_B2R_lt_emax 53 1024 x) as U. rewrite Rabs_right in U by lra.
    apply Rle_trans with (rln (bpow radix2 1024)); [apply Rlt_le, ln_increasing; lra|]. rewrite bpow_exp. change (IZR (radix_val radix2)) with 2. rewrite ln_exp. pose proof ln2_lt_1. nra. }
  assert (C : forall x : binary_float 53 1024, is_finite x = true -> 1 <= B2R x -> 0 <= r64 (rln (B2R x)) <= 1024).
  { intros x F H. specialize (B x F H). change 1024 with (bpow radix2 10). change 1024 with (bpow radix2 10) in B. apply (@rnd_between 53 1024 _); [apply (@rnd_0 53 1024 _)|apply (@rnd_pow2 53 1024 _ _); lia|exact B]. }
  assert (D : forall x : binary_float 53 1024, is_finite x = true -> 1 <= B2R x -> B2R (rounded_log x) = r64 (rln (B2R x)) /\ is_finite (rounded_log x) = true).
  { intros x F H. apply round_float_ok. specialize (C x F H). rewrite Rabs_right by lra. apply Rle_lt_trans with (bpow radix2 10); [apply C|apply bpow_lt; lia]. }
  split; intros x F H; destruct (D x F H) as [E1 E2]; [split; [exact E2|rewrite E1; now apply C]|]. rewrite E1.
  assert (N : near (1 + unit_error 53) 0 (r64 (rln (B2R x))) (rln (B2R x))).
  { apply (@near_rnd_rel 53 1024 _ _); [apply B; assumption|]. intros Hnz. destruct H as [H|H]; [|exfalso; apply Hnz; rewrite <- H; apply ln_1].
    assert (S : 1 + bpow radix2 (-52) <= B2R x).
    { replace (1 + bpow radix2 (-52)) with (succ radix2 (SpecFloat.fexp 53 1024) 1).
      - apply succ_le_lt; [apply fexp_correct; reflexivity| |apply generic_format_B2R|exact H]. change 1 with (bpow radix2 0). apply generic_format_bpow. cbv. discriminate.
      - rewrite succ_eq_pos by lra. f_equal. change 1 with (bpow radix2 0). rewrite ulp_bpow. reflexivity. }
    assert (S2 : / 2 * bpow radix2 (-52) <= rln (B2R x)).
    { pose proof (ln_diff 1 (B2R x) ltac:(lra) ltac:(lra)) as L. rewrite ln_1 in L. change (bpow radix2 (-52)) with (/ 4503599627370496) in *. 
      assert (1 / B2R x - 1 <= - (/ 2 * / 4503599627370496)); [|lra]. set (b := B2R x) in *. clearbody b. apply Rmult_le_reg_r with b; [lra|]. replace ((1 / b - 1) * b) with (1 - b) by (field; lra). lra. }
    eapply Rle_trans; [|exact S2]. change (/ 2 * bpow radix2 (-52)) with (/ bpow radix2 1 * bpow radix2 (-52)). rewrite <- bpow_opp, <- bpow_plus. apply bpow_le. cbv. discriminate. }
  unfold near in N. rewrite Rplus_0_r in N. eapply Rle_trans; [exact N|]. apply Rmult_le_compat_r; [apply B; [exact F|exact H]|]. change (unit_error 53) with (/ 9007199254740992). change (bpow radix2 (-52)) with (/ 4503599627370496). lra.
Qed.
