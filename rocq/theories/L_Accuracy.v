From Coq Require Import Reals Lra Psatz.
From Flocq Require Import Core.Core IEEE754.BinarySingleNaN Plus_error Relative Sterbenz.
From Verif Require Import Base M_Estimator M_Stats M_Scale S_Stats S_Window S_Scale S_FloatStats S_Accuracy L_Float L_Scale L_Scale2 L_Scale3 L_FloatStats.
Open Scope R_scope.

(** Real arithmetic of a quotient of two rounded numbers. *)
Lemma quotient_close u u1 u2 eta a b d1 d2 n s r : 0 <= u -> Rabs d1 <= u1 -> Rabs d2 <= u2 -> u2 < 1 -> b <> 0 -> n = a * (1 + d1) -> s = b * (1 + d2) ->
  Rabs (r - n / s) <= u * Rabs (n / s) + eta -> Rabs (r - a / b) <= ((1 + u) * ((1 + u1) / (1 - u2)) - 1) * Rabs (a / b) + eta.
Proof.
  intros U H1 H2 L2 B -> -> H. assert (P1 : 0 <= u1) by (pose proof (Rabs_pos d1); lra). assert (P2 : 0 <= u2) by (pose proof (Rabs_pos d2); lra).
  apply Rabs_le_inv in H1. apply Rabs_le_inv in H2.
  set (q := a / b) in *. set (k := (1 + d1) / (1 + d2)). set (K := (1 + u1) / (1 - u2)).
  assert (E : a * (1 + d1) / (b * (1 + d2)) = q * k) by (unfold q, k; field; split; lra). rewrite E in H.
  assert (I2 : 0 < / (1 + d2)) by (apply Rinv_0_lt_compat; lra).
  assert (I2' : / (1 + d2) <= / (1 - u2)) by (apply Rinv_le; lra).
  assert (Kk : Rabs (k - 1) <= K - 1).
  { replace (k - 1) with ((d1 - d2) * / (1 + d2)) by (unfold k; field; lra). replace (K - 1) with ((u1 + u2) * / (1 - u2)) by (unfold K; field; lra).
    rewrite Rabs_mult, (Rabs_right (/ (1 + d2))) by lra. apply Rmult_le_compat; [apply Rabs_pos|lra|apply Rabs_le; lra|exact I2']. }
  assert (Kp : Rabs k <= K). { replace k with ((k - 1) + 1) by ring. eapply Rle_trans; [apply Rabs_triang|]. rewrite Rabs_R1. lra. }
  rewrite Rabs_mult in H. pose proof (Rabs_pos q) as Q.
  replace (r - q) with ((r - q * k) + q * (k - 1)) by ring. eapply Rle_trans; [apply Rabs_triang|]. rewrite Rabs_mult.
  assert (A1 : u * (Rabs q * Rabs k) <= u * (Rabs q * K)) by (apply Rmult_le_compat_l; [exact U|apply Rmult_le_compat_l; assumption]).
  assert (A2 : Rabs q * Rabs (k - 1) <= Rabs q * (K - 1)) by (apply Rmult_le_compat_l; assumption).
  replace (((1 + u) * K - 1) * Rabs q + eta) with (u * (Rabs q * K) + eta + Rabs q * (K - 1)) by ring. lra.
Qed.

Section Fmt.
  Context {prec emax : Z} {Hp : Prec_gt_0 prec} {Hm : Prec_lt_emax prec emax}.
  Notation F := (binary_float prec emax).
  Notation rnd := (rnd (prec := prec) (emax := emax)).
  Notation u := (unit_error prec).
  Notation eta := (half_least prec emax).
  Local Instance vexp' : Valid_exp (SpecFloat.fexp prec emax) := fexp_correct prec emax Hp.
  Lemma eta_pos : 0 <= eta.
  Proof using Type. unfold half_least. pose proof (bpow_gt_0 radix2 (3 - emax - prec)). lra. Qed.
  Lemma rnd_plus_rel (x y : R) : generic_format radix2 (SpecFloat.fexp prec emax) x -> generic_format radix2 (SpecFloat.fexp prec emax) y ->
    exists d, Rabs d <= u /\ rnd (x + y) = (x + y) * (1 + d).
  Proof using Hp Hm.
    intros X Y. destruct (FLT_plus_error_N_ex radix2 (SpecFloat.emin prec emax) prec (fun z => negb (Z.even z)) x y X Y) as (d & A & B).
    exists d. split; [now apply u_ro_le|exact B].
  Qed.
  Lemma sub_rel (a b : F) : is_finite a = true -> is_finite b = true -> is_finite (fsub a b) = true -> exists d, Rabs d <= u /\ B2R (fsub a b) = (B2R a - B2R b) * (1 + d).
  Proof using Type.
    intros Fa Fb Fs. rewrite (fsub_fin a b Fa Fb Fs). apply rnd_plus_rel; [apply generic_format_B2R|]. apply generic_format_opp, generic_format_B2R.
  Qed.
  Lemma fdiv_fin (x y : F) : is_finite y = true -> B2R y <> 0 -> is_finite (fdiv x y) = true -> is_finite x = true /\ B2R (fdiv x y) = rnd (B2R x / B2R y).
  Proof using Type.
    intros Fy Ny H. assert (Fx : is_finite x = true).
    { destruct x as [s|s| |s m ex B]; try reflexivity; destruct y as [t|t| |t m' ex' B']; try discriminate Fy; try (exfalso; apply Ny; reflexivity); discriminate H. }
    split; [exact Fx|]. pose proof (Bdiv_correct prec emax Hp Hm mode_NE x y Ny) as C. cbn [round_mode] in C. fold (rnd (B2R x / B2R y)) in C. fold (fdiv x y) in C.
    destruct (Rlt_bool _ _) in C; [exact (proj1 C)|]. exfalso. pose proof (overflow_inf _ _ C) as N. congruence.
  Qed.
  (** Numerator and denominator with their relative errors; the quotient is rounded once more. *)
  Lemma div_close u1 u2 a b d1 d2 (n s : F) : Rabs d1 <= u1 -> Rabs d2 <= u2 -> u2 < 1 -> b <> 0 -> B2R n = a * (1 + d1) -> B2R s = b * (1 + d2) -> is_finite s = true ->
    is_finite (fdiv n s) = true -> accurate ((1 + u) * ((1 + u1) / (1 - u2)) - 1) eta (fdiv n s) (a / b).
  Proof using Type.
    intros H1 H2 L2 B En Es Fs Fq. split; [exact Fq|]. assert (Ns : B2R s <> 0).
    { rewrite Es. apply Rmult_integral_contrapositive. split; [exact B|]. apply Rabs_le_inv in H2. lra. }
    destruct (fdiv_fin n s Fs Ns Fq) as [_ E]. rewrite E. refine (quotient_close u u1 u2 eta a b d1 d2 (B2R n) (B2R s) _ _ H1 H2 L2 B En Es _).
    - apply Rlt_le, unit_pos.
    - exact (rnd_err _).
  Qed.
  Lemma accurate_weaken g g' a (x : F) r : g <= g' -> accurate g a x r -> accurate g' a x r.
  Proof using Type. intros L [A B]. split; [exact A|]. pose proof (Rmult_le_compat_r (Rabs r) g g' (Rabs_pos r) L). lra. Qed.
End Fmt.
