From Coq Require Import Reals Lra Psatz.
From Flocq Require Import Core.Core IEEE754.BinarySingleNaN.
From Verif Require Import Base M_Estimator M_Stats M_Scale S_Stats S_Window S_Scale S_FloatStats S_Accuracy L_Float L_Scale L_Scale2 L_Scale3 L_FloatStats L_Accuracy L_Accuracy2.
Open Scope R_scope.

(** float columns, double results. *)
Notation cd := (convert (prec := 53) (emax := 1024)).
Lemma cd_ok (x : float32) : is_finite x = true -> B2R (cd x) = B2R x /\ is_finite (cd x) = true.
Proof. intros F. apply (@convert_widen 24 128 53 1024 _ _ _ _ x ltac:(lia) ltac:(lia) F). Qed.
Lemma float_least (x : float32) : is_finite x = true -> B2R x <> 0 -> bpow radix2 (-149) <= Rabs (B2R x).
Proof.
  intros F N. destruct x as [s|s| |s m e B]; try discriminate F; [now elim N|]. exact (abs_B2R_ge_emin 24 128 (B754_finite s m e B) eq_refl).
Qed.
Lemma mm_float_new (mn mx : float32) s : is_finite mn = true -> is_finite mx = true -> mm_new float_to_double mn mx = Ok s -> s = (mn, fsub mx mn) /\ B2R mn <= B2R mx.
Proof.
  intros F1 F2 H. unfold mm_new in H. cbn [float_to_double n_lt n_sub bind] in H. rewrite Bltb_correct in H by auto.
  destruct (Rlt_bool_spec (B2R mx) (B2R mn)) as [L|L]; [discriminate|]. injection H as <-. auto.
Qed.
Lemma mm_float_exec (mn sp x : float32) : is_finite sp = true -> B2R sp <> 0 -> is_finite x = true -> mm_exec float_to_double (mn, sp) x = fdiv (fsub (cd x) (cd mn)) (cd sp).
Proof.
  intros Fs Ns Fx. unfold mm_exec. cbn [float_to_double n_null n_is_zero n_cv fst snd].
  replace (is_nan x) with false by (destruct x; auto; discriminate). rewrite (is_zero_B2R sp Fs), Req_bool_false by exact Ns. reflexivity.
Qed.
Lemma mm_float_finite (mn sp x : float32) : is_finite mn = true -> is_finite sp = true -> B2R sp <> 0 -> is_finite x = true ->
  is_finite (fsub (cd x) (cd mn)) = true /\ is_finite (fdiv (fsub (cd x) (cd mn)) (cd sp)) = true.
Proof.
  intros F1 Fs Ns Fx. destruct (cd_ok x Fx) as [A1 A2]. destruct (cd_ok mn F1) as [B1 B2]. destruct (cd_ok sp Fs) as [C1 C2].
  assert (Dr : Rabs (B2R x - B2R mn) <= bpow radix2 129).
  { pose proof (abs_B2R_lt_emax 24 128 x). pose proof (abs_B2R_lt_emax 24 128 mn). replace (bpow radix2 129) with (bpow radix2 128 + bpow radix2 128) by (replace 129%Z with (128 + 1)%Z by lia; rewrite bpow_plus; change (bpow radix2 1) with 2; ring).
    eapply Rle_trans; [apply Rabs_triang|]. rewrite Rabs_Ropp. lra. }
  assert (Fit : forall k y, (0 <= k < 1024)%Z -> Rabs y <= bpow radix2 k -> Rabs (rnd (prec := 53) (emax := 1024) y) <= bpow radix2 k).
  { intros k y K H. rewrite rnd_abs, <- (rnd_fmt (prec := 53) (emax := 1024) (bpow radix2 k)); [now apply rnd_mono|apply fmt_pow; lia]. }
  destruct (fsub_ok (cd x) (cd mn) A2 B2) as [G1 G2].
  { rewrite A1, B1. apply Rle_lt_trans with (bpow radix2 129); [apply Fit; [lia|exact Dr]|apply bpow_lt; lia]. }
  split; [exact G2|]. apply fdiv_ok; [exact G2|rewrite C1; exact Ns|].
  rewrite G1, A1, B1, C1. apply Rle_lt_trans with (bpow radix2 278); [|apply bpow_lt; lia]. apply Fit; [lia|].
  unfold Rdiv. rewrite Rabs_mult, Rabs_inv. replace 278%Z with (129 + 149)%Z by lia. rewrite bpow_plus. apply Rmult_le_compat; try apply Rabs_pos.
  - left. apply Rinv_0_lt_compat. now apply Rabs_pos_lt.
  - apply Fit; [lia|exact Dr].
  - replace (bpow radix2 149) with (/ bpow radix2 (-149)) by (rewrite <- bpow_opp; reflexivity). apply Rinv_le; [apply bpow_gt_0|]. now apply float_least.
Qed.
Lemma mm_float_core (mn mx : float32) s (x : float32) : is_finite mn = true -> is_finite mx = true -> is_finite (fsub mx mn) = true -> B2R mn <> B2R mx ->
  mm_new float_to_double mn mx = Ok s -> is_finite x = true ->
  accurate (bpow radix2 (-24) + bpow radix2 (-40)) (half_least 53 1024) (mm_exec float_to_double s x) ((B2R x - B2R mn) / (B2R mx - B2R mn)).
Proof.
  intros F1 F2 F3 N E Fx. destruct (mm_float_new mn mx s F1 F2 E) as [-> _]. pose proof (sub_nonzero mx mn F2 F1 F3 (not_eq_sym N)) as Ns.
  rewrite (mm_float_exec mn _ x F3 Ns Fx). destruct (mm_float_finite mn _ x F1 F3 Ns Fx) as [G Q].
  destruct (cd_ok x Fx) as [A1 A2]. destruct (cd_ok mn F1) as [B1 B2]. destruct (cd_ok _ F3) as [C1 C2].
  destruct (sub_rel (cd x) (cd mn) A2 B2 G) as (d1 & D1 & E1). destruct (sub_rel mx mn F2 F1 F3) as (d2 & D2 & E2). rewrite A1, B1 in E1.
  assert (W : (1 + unit_error 53) * ((1 + unit_error 53) / (1 - unit_error 24)) - 1 <= bpow radix2 (-24) + bpow radix2 (-40)).
  { unfold unit_error. change (- (53))%Z with (-53)%Z. change (- (24))%Z with (-24)%Z. cbn [bpow Z.pow_pos Pos.iter radix2 radix_val Z.mul Pos.mul].
    apply Rplus_le_reg_r with 1. replace (_ - 1 + 1) with ((1 + / 9007199254740992) * (1 + / 9007199254740992) / (1 - / 16777216)) by (field; lra).
    apply Rmult_le_reg_r with (1 - / 16777216); [lra|]. unfold Rdiv. rewrite Rmult_assoc, Rinv_l by lra. lra. }
  apply accurate_weaken with (1 := W). apply (div_close (unit_error 53) (unit_error 24) _ _ d1 d2); [exact D1|exact D2| |lra|exact E1|rewrite C1; exact E2|exact C2|exact Q].
  unfold unit_error. change 1 with (bpow radix2 0). apply bpow_lt. lia.
Qed.
Lemma mm_float_accurate (mn mx : float32) s (x : float32) : is_finite mn = true -> is_finite mx = true -> is_finite (fsub mx mn) = true -> B2R mn <> B2R mx ->
  mm_new float_to_double mn mx = Ok s -> is_finite x = true ->
  accurate (bpow radix2 (-23)) (half_least 53 1024) (mm_exec float_to_double s x) ((B2R x - B2R mn) / (B2R mx - B2R mn)).
Proof.
  intros F1 F2 F3 N E Fx. eapply accurate_weaken; [|now apply mm_float_core]. cbn [bpow Z.pow_pos Pos.iter radix2 radix_val Z.mul Pos.mul]. lra.
Qed.
(** Values of the trained range. *)
Lemma half_least_tiny : 0 <= half_least 53 1024 <= bpow radix2 (-40).
Proof.
  unfold half_least. change (3 - 1024 - 53)%Z with (-1074)%Z. pose proof (bpow_gt_0 radix2 (-1074)). assert (bpow radix2 (-1074) <= bpow radix2 (-40)) by (apply bpow_le; lia). lra.
Qed.
Lemma mm_float_range (mn mx : float32) (x : float32) : is_finite mn = true -> is_finite mx = true -> is_finite (fsub mx mn) = true -> B2R mn < B2R mx -> is_finite x = true ->
  B2R mn <= B2R x <= B2R mx ->
  exists s, mm_new float_to_double mn mx = Ok s /\ within 0 (1 + bpow radix2 (-23)) (mm_exec float_to_double s x) /\
    (B2R x = B2R mn -> B2R (mm_exec float_to_double s x) = 0) /\ (B2R x = B2R mx -> within (1 - bpow radix2 (-23)) (1 + bpow radix2 (-23)) (mm_exec float_to_double s x)).
Proof.
  intros F1 F2 F3 L Fx R. exists (mn, fsub mx mn).
  assert (E : mm_new float_to_double mn mx = Ok (mn, fsub mx mn)).
  { unfold mm_new. cbn [float_to_double n_lt n_sub bind]. rewrite Bltb_correct by auto. rewrite Rlt_bool_false by lra. reflexivity. }
  split; [exact E|]. assert (N : B2R mn <> B2R mx) by lra. destruct (mm_float_core mn mx _ x F1 F2 F3 N E Fx) as [Q A].
  pose proof (sub_nonzero mx mn F2 F1 F3 (not_eq_sym N)) as Ns. destruct (mm_float_finite mn _ x F1 F3 Ns Fx) as [G _].
  destruct (cd_ok x Fx) as [A1 A2]. destruct (cd_ok mn F1) as [B1 B2]. destruct (cd_ok _ F3) as [C1 C2].
  set (q := (B2R x - B2R mn) / (B2R mx - B2R mn)) in *.
  assert (Q01 : 0 <= q <= 1).
  { unfold q. split.
    - apply Rmult_le_pos; [lra|]. left. apply Rinv_0_lt_compat. lra.
    - apply Rmult_le_reg_r with (B2R mx - B2R mn); [lra|]. unfold Rdiv. rewrite Rmult_assoc, Rinv_l by lra. lra. }
  pose proof half_least_tiny as T. assert (K : bpow radix2 (-24) + bpow radix2 (-40) + bpow radix2 (-40) <= bpow radix2 (-23)) by (cbn [bpow Z.pow_pos Pos.iter radix2 radix_val Z.mul Pos.mul]; lra).
  rewrite (Rabs_pos_eq q) in A by lra. pose proof (bpow_gt_0 radix2 (-24)) as P1. pose proof (bpow_gt_0 radix2 (-40)) as P2.
  assert (A' : Rabs (B2R (mm_exec float_to_double (mn, fsub mx mn) x) - q) <= bpow radix2 (-23)) by nra. apply Rabs_le_inv in A'.
  assert (V : B2R (mm_exec float_to_double (mn, fsub mx mn) x) = rnd (prec := 53) (emax := 1024) (rnd (prec := 53) (emax := 1024) (B2R x - B2R mn) / B2R (fsub mx mn))).
  { rewrite (mm_float_exec mn _ x F3 Ns Fx) in *. destruct (fdiv_fin _ _ C2 ltac:(rewrite C1; exact Ns) Q) as [_ H]. rewrite H, C1, (fsub_fin _ _ A2 B2 G), A1, B1. reflexivity. }
  split; [|split].
  - split; [exact Q|]. split; [|lra]. rewrite V. rewrite <- (rnd_0 (prec := 53) (emax := 1024)). apply rnd_mono. apply Rmult_le_pos.
    + rewrite <- (rnd_0 (prec := 53) (emax := 1024)). apply rnd_mono. lra.
    + left. apply Rinv_0_lt_compat. assert (0 <= B2R (fsub mx mn)). { rewrite (fsub_fin _ _ F2 F1 F3), <- (rnd_0 (prec := 24) (emax := 128)). apply rnd_mono. lra. } lra.
  - intros H. rewrite V, H. replace (B2R mn - B2R mn) with 0 by ring. rewrite rnd_0. unfold Rdiv. rewrite Rmult_0_l. apply rnd_0.
  - intros H. split; [exact Q|]. assert (q = 1) by (unfold q; rewrite H; field; lra). lra.
Qed.
