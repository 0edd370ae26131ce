(** Statistics of floating point columns. *)
From Coq Require Import Reals Lra Psatz.
From Flocq Require Import Core.Core IEEE754.BinarySingleNaN.
From Verif Require Import Base L_List M_Estimator M_Stats M_Pipeline M_Impute M_Scale M_FloatStats S_Stats S_FloatStats S_Scale L_Estimator L_Stats L_Impute L_Float L_Scale2 L_FloatStats.
Open Scope R_scope.

Lemma half_emin p e : (53 <= p)%Z -> (1024 <= e)%Z -> / 2 * bpow radix2 (SpecFloat.emin p e) <= bpow radix2 (-1075).
Proof.
  intros H1 H2. apply Rle_trans with (/ 2 * bpow radix2 (-1074)).
  - apply Rmult_le_compat_l; [lra|]. apply bpow_le. unfold SpecFloat.emin. lia.
  - change (-1074)%Z with (-1075 + 1)%Z. rewrite bpow_plus. change (bpow radix2 1) with 2. lra.
Qed.
Lemma unit_mono p q : (p <= q)%Z -> unit_error q <= unit_error p.
Proof. intros H. unfold unit_error. apply bpow_le. lia. Qed.
Lemma unit_le1 p : (0 <= p)%Z -> unit_error p <= 1.
Proof. intros H. unfold unit_error. change 1 with (bpow radix2 0). apply bpow_le. lia. Qed.

Section Convert2.
  Context {p e p' e' : Z} {Hp : Prec_gt_0 p} {Hm : Prec_lt_emax p e} {Hp' : Prec_gt_0 p'} {Hm' : Prec_lt_emax p' e'}.
  Notation F := (binary_float p e).
  Notation G := (binary_float p' e').
  Lemma convert_fin (x : F) : is_finite x = true -> is_finite (convert x : G) = true -> B2R (convert x : G) = rnd (prec := p') (emax := e') (B2R x).
  Proof using Hp Hm Hp' Hm'.
    intros Fx H. destruct x as [s|s| |s m ex B]; try discriminate Fx.
    - cbn [convert B2R]. now rewrite rnd_0.
    - cbn [convert] in *. pose proof (binary_normalize_correct p' e' Hp' Hm' mode_NE (cond_Zopp s (Zpos m)) ex s) as C. cbv zeta in C.
      cbn [round_mode] in C. change (F2R (Float radix2 (cond_Zopp s (Zpos m)) ex)) with (B2R (B754_finite s m ex B)) in C.
      fold (rnd (prec := p') (emax := e') (B2R (B754_finite s m ex B))) in C. destruct (Rlt_bool _ _) in C; [exact (proj1 C)|].
      apply overflow_inf in C. congruence.
  Qed.
  Lemma convert_not_nan (x : F) : is_nan (convert x : G) = is_nan x.
  Proof using Type.
    destruct x as [s|s| |s m ex B]; try reflexivity. cbn [convert]. pose proof (binary_normalize_correct p' e' Hp' Hm' mode_NE (cond_Zopp s (Zpos m)) ex s) as C. cbv zeta in C.
    destruct (Rlt_bool _ _) in C.
    - destruct C as (_ & C & _). destruct (binary_normalize _ _ _ _ _ _ _ _); try discriminate; reflexivity.
    - destruct (binary_normalize _ _ _ _ _ _ _ _) as [| | |]; try reflexivity. discriminate C.
  Qed.
End Convert2.
Lemma is_finite_nan {p e} (x : binary_float p e) : is_finite x = true -> is_nan x = false.
Proof. destruct x; auto; discriminate. Qed.

Section Average.
  Context {lp le : Z} {HLp : Prec_gt_0 lp} {HLm : Prec_lt_emax lp le}.
  Notation L := (binary_float lp le).
  Lemma div_count (s : L) (n : nat) : is_finite s = true -> (1 <= n)%nat -> (Z.of_nat n <= 2 ^ lp)%Z ->
    let q := fdiv s (of_int (Z.of_nat n)) in is_finite q = true /\ B2R q = rnd (prec := lp) (emax := le) (B2R s / INR n).
  Proof using Type.
    intros Fs Hn Hl. cbv zeta. destruct (of_int_exact (prec := lp) (emax := le) (Z.of_nat n)) as [A B]; [lia|].
    assert (Hn1 : 1 <= INR n) by (change 1 with (INR 1); apply le_INR; lia).
    rewrite <- INR_IZR_INZ in A. destruct (fdiv_ok s (of_int (Z.of_nat n)) Fs) as [C D].
    - rewrite A. lra.
    - rewrite A. apply bounded_rnd with (B2R s).
      + unfold Rdiv. rewrite Rabs_mult, (Rabs_right (/ INR n)) by (apply Rle_ge, Rlt_le, Rinv_0_lt_compat; lra).
        rewrite <- (Rmult_1_r (Rabs (B2R s))) at 2. apply Rmult_le_compat_l; [apply Rabs_pos|]. rewrite <- Rinv_1. apply Rinv_le; lra.
      + rewrite rnd_B2R. apply abs_B2R_lt_emax.
    - rewrite A in C. auto.
  Qed.
  (** Division of a sum with relative error, and two roundings. *)
  Lemma avg_err (s : L) (t m : R) (n k : nat) : (53 <= lp)%Z -> (1024 <= le)%Z -> (1 <= n)%nat -> 0 <= m -> Rabs t <= m -> Rabs (B2R s - t) <= errors lp k * m ->
    Rabs (rnd (prec := 53) (emax := 1024) (rnd (prec := lp) (emax := le) (B2R s / INR n)) - t / INR n) <=
      ((1 + unit_error lp) ^ (S k) * (1 + unit_error 53) - 1) * (m / INR n) + bpow radix2 (-1073).
  Proof using HLp HLm.
    intros H1 H2 Hn Hm Ht Hs. pose proof (unit_pos lp) as U. pose proof (unit_pos 53) as V. pose proof (errors_nonneg lp k) as E. pose proof (unit_le1 53 ltac:(lia)) as V1.
    assert (Hn1 : 1 <= INR n) by (change 1 with (INR 1); apply le_INR; lia). set (N := INR n) in *.
    assert (IN : 0 < / N) by (apply Rinv_0_lt_compat; lra).
    set (a := B2R s / N). set (M := m / N). set (b := rnd (prec := lp) (emax := le) a). set (c := rnd (prec := 53) (emax := 1024) b).
    assert (Da : Rabs (a - t / N) <= errors lp k * M).
    { unfold a, M. replace (B2R s / N - t / N) with ((B2R s - t) * / N) by (unfold Rdiv; ring). rewrite Rabs_mult, (Rabs_right (/ N)) by lra.
      unfold Rdiv. rewrite <- Rmult_assoc. apply Rmult_le_compat_r; lra. }
    assert (Mt : Rabs (t / N) <= M).
    { unfold M, Rdiv. rewrite Rabs_mult, (Rabs_right (/ N)) by lra. apply Rmult_le_compat_r; lra. }
    assert (M0 : 0 <= M) by (unfold M, Rdiv; apply Rmult_le_pos; lra).
    assert (Aa : Rabs a <= (1 + errors lp k) * M).
    { replace a with ((a - t / N) + t / N) by ring. eapply Rle_trans; [apply Rabs_triang|]. lra. }
    pose proof (rnd_err (prec := lp) (emax := le) a) as Db. fold b in Db. pose proof (half_emin lp le H1 H2) as Hb.
    pose proof (rnd_err (prec := 53) (emax := 1024) b) as Dc. fold c in Dc. pose proof (half_emin 53 1024 ltac:(lia) ltac:(lia)) as Hc.
    set (eta := bpow radix2 (-1075)) in *. assert (Eta : 0 < eta) by apply bpow_gt_0.
    assert (E73 : bpow radix2 (-1073) = 4 * eta) by (unfold eta; change (-1073)%Z with (-1075 + 2)%Z; rewrite bpow_plus; change (bpow radix2 2) with 4; ring).
    assert (Db' : Rabs (b - a) <= unit_error lp * Rabs a + eta) by lra. assert (Dc' : Rabs (c - b) <= unit_error 53 * Rabs b + eta) by lra. clear Db Dc Hb Hc.
    set (u := unit_error lp) in *. set (v := unit_error 53) in *. set (ek := errors lp k) in *.
    assert (Ab : Rabs b <= (1 + u) * ((1 + ek) * M) + eta).
    { replace b with ((b - a) + a) by ring. eapply Rle_trans; [apply Rabs_triang|].
      assert (u * Rabs a <= u * ((1 + ek) * M)) by (apply Rmult_le_compat_l; lra). lra. }
    replace (c - t / N) with ((c - b) + ((b - a) + (a - t / N))) by ring. eapply Rle_trans; [apply Rabs_triang|]. 
    pose proof (Rabs_triang (b - a) (a - t / N)) as T2.
    assert (W1 : u * Rabs a <= u * ((1 + ek) * M)) by (apply Rmult_le_compat_l; lra).
    assert (W2 : v * Rabs b <= v * ((1 + u) * ((1 + ek) * M) + eta)) by (apply Rmult_le_compat_l; lra).
    assert (W3 : v * eta <= eta) by nra.
    assert (P : (1 + u) ^ S k = (1 + u) * (1 + ek)) by (unfold ek, errors; fold u; cbn [pow]; ring). rewrite P, E73.
    assert (W4 : v * ((1 + u) * ((1 + ek) * M) + eta) = v * ((1 + u) * (1 + ek)) * M + v * eta) by ring.
    assert (W5 : ((1 + u) * (1 + ek) * (1 + v) - 1) * M = (1 + u) * (1 + ek) * M + v * ((1 + u) * (1 + ek)) * M - M) by ring.
    assert (W6 : (1 + u) * (1 + ek) * M = M + ek * M + u * ((1 + ek) * M)) by ring. lra.
  Qed.
End Average.
