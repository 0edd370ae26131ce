From Coq Require Import Reals Lra Psatz.
From Flocq Require Import Core.Core IEEE754.BinarySingleNaN Plus_error Relative Sterbenz.
From Verif Require Import Base M_Estimator M_Stats M_Scale S_Stats S_Window S_Scale S_FloatStats S_Accuracy L_Estimator L_Stats L_Stats3 L_Float L_Scale L_Scale2 L_Scale3 L_Scale5 L_FloatStats L_Accuracy L_Accuracy2.
Open Scope R_scope.

Section Fmt.
  Context {prec emax : Z} {Hp : Prec_gt_0 prec} {Hm : Prec_lt_emax prec emax}.
  Notation F := (binary_float prec emax).
  Notation rnd := (rnd (prec := prec) (emax := emax)).
  Notation u := (unit_error prec).
  Notation eta := (half_least prec emax).

  (** An integer loses at most one rounding. *)
  Lemma rnd_int (z : Z) : (2 < emax)%Z -> exists d, Rabs d <= u /\ rnd (IZR z) = IZR z * (1 + d).
  Proof using Hp Hm.
    intros He. destruct (Z.eq_dec z 0) as [->|N]; [exists 0; split; [rewrite Rabs_R0; apply Rlt_le, unit_pos|rewrite rnd_0; ring]|].
    destruct (relative_error_N_FLT_ex radix2 (SpecFloat.emin prec emax) prec Hp (fun t => negb (Z.even t)) (IZR z)) as (d & A & B).
    { apply Rle_trans with (bpow radix2 0); [apply bpow_le; unfold SpecFloat.emin; lia|]. change (bpow radix2 0) with 1. rewrite <- abs_IZR. apply IZR_le. lia. }
    exists d. split; [|exact B]. replace u with (/ 2 * bpow radix2 (- prec + 1)); [exact A|]. unfold unit_error. rewrite bpow_plus. change (bpow radix2 1) with 2. field.
  Qed.
  Lemma quotient_fits (a b : R) : (2 < emax)%Z -> Rabs a <= Rabs b -> b <> 0 -> Rabs (rnd (a / b)) < bpow radix2 emax.
  Proof using Hp Hm.
    intros He H N. apply Rle_lt_trans with 1; [|change 1 with (bpow radix2 0); apply bpow_lt; lia]. rewrite rnd_abs, <- (rnd_1 (prec := prec) (emax := emax)). apply rnd_mono.
    unfold Rdiv. rewrite Rabs_mult, Rabs_inv. pose proof (Rabs_pos_lt b N) as P. apply Rmult_le_reg_r with (Rabs b); [exact P|]. rewrite Rmult_assoc, Rinv_l by lra. lra.
  Qed.

  Lemma ma_trained_accurate mx (bs : list (list F)) : proper_training mx bs -> Forall not_infinite (items mx bs) ->
    exists scale, trained ma_policy mx bs = Ok (Some scale) /\
    forall y x : F, In y (items mx bs) -> is_finite y = true -> (forall z, In z (items mx bs) -> is_finite z = true -> Rabs (B2R z) <= Rabs (B2R y)) -> B2R y <> 0 ->
      is_finite x = true -> is_finite (ma_exec same_ty scale x) = true -> accurate u eta (ma_exec same_ty scale x) (B2R x / Rabs (B2R y)).
  Proof using Type.
    intros H N. assert (N' : Forall no_inf (items mx bs)) by (eapply Forall_impl; [|exact N]; intros a; apply not_inf_eq).
    destruct (ma_trained mx bs H N') as (scale & E & D1 & D2 & D3 & D4). exists scale. split; [exact E|]. intros y x Hy Fy My Ny Fx Fr.
    assert (S : B2R scale = Rabs (B2R y)).
    { apply Rle_antisym.
      - destruct D4 as [D4|(r & Hr & Er)]; [rewrite D4; apply Rabs_pos|]. unfold reals in Hr. apply in_flat_map in Hr. destruct Hr as (z & Hz & Ez). destruct (is_finite z) eqn:Fz; [|destruct Ez].
        destruct Ez as [<-|[]]. rewrite <- Er. now apply My.
      - apply D3. unfold reals. apply in_flat_map. exists y. split; [exact Hy|]. rewrite Fy. now left. }
    rewrite <- S. apply (ma_accurate same_ty scale x); [exact D1| |exact Fx|exact Fr]. rewrite S. pose proof (Rabs_pos_lt _ Ny). lra.
  Qed.
  Lemma mai_trained_accurate signed w' w mx bs : (3 <= prec)%Z -> (64 < emax)%Z -> (w <= 8)%nat -> proper_training mx bs -> Forall (fun x => fits_s w (Z.abs x) = true) (items mx bs) ->
    exists scale, trained (maxabs_policy w (of_int (prec := prec) (emax := emax)) Bltb fzero) mx bs = Ok (Some scale) /\
    forall y x : Z, In y (items mx bs) -> (forall z, In z (items mx bs) -> (Z.abs z <= Z.abs y)%Z) -> y <> 0%Z -> (Z.abs x <= Z.abs y)%Z ->
      accurate (4 * u) eta (ma_exec (int_ty signed w' : numty prec emax Z) scale x) (IZR x / IZR (Z.abs y)).
  Proof using Type.
    intros P He Hw H N. unfold maxabs_policy. rewrite trained_simple by exact H.
    destruct (mai_fold w (items mx bs) (fzero : F) [] He Hw) as (m & Ef & D); [|exact N|].
    { split; [reflexivity|]. cbn [B2R fzero]. split; [lra|]. split; [intros r []|now left]. }
    rewrite Ef. cbn [bind]. cbn [app] in D. destruct D as (D1 & D2 & D3 & D4). rewrite Bltb_correct by auto. cbn [B2R fzero]. rewrite Rlt_bool_false by lra. cbn [bind].
    exists m. split; [reflexivity|]. intros y x Hy My Ny Hx.
    assert (By : (Z.abs y <= 2 ^ 64)%Z).
    { rewrite Forall_forall in N. specialize (N y Hy). unfold fits_s in N. apply andb_prop in N. destruct N as [_ N]. apply Z.ltb_lt in N.
      assert (Pw : (two_pow8 w <= 2 ^ 64)%Z). { unfold two_pow8. replace (2 ^ 64)%Z with (256 ^ 8)%Z by reflexivity. apply Z.pow_le_mono_r; lia. }
      assert (0 <= two_pow8 w)%Z by (apply Z.pow_nonneg; lia). pose proof (Z.div_le_upper_bound (two_pow8 w) 2 (two_pow8 w)). lia. }
    assert (S : B2R m = rnd (IZR (Z.abs y))).
    { rewrite abs_IZR, <- rnd_abs. apply Rle_antisym.
      - destruct D4 as [D4|(r & Hr & Er)]; [rewrite D4; apply Rabs_pos|]. apply in_map_iff in Hr. destruct Hr as (z & <- & Hz). rewrite <- Er. unfold irnd. rewrite !rnd_abs. apply rnd_mono. rewrite <- !abs_IZR. apply IZR_le. auto.
      - change (Rabs (irnd (prec := prec) (emax := emax) y) <= B2R m). apply D3. now apply in_map. }
    destruct (ofi x He ltac:(lia)) as [V1 V2]. destruct (rnd_int x ltac:(lia)) as (d1 & A1 & B1). destruct (rnd_int (Z.abs y) ltac:(lia)) as (d2 & A2 & B2).
    pose proof (unit_small prec P) as U.
    assert (Nm : B2R m <> 0).
    { rewrite S, B2. apply Rmult_integral_contrapositive. split; [apply not_0_IZR; lia|]. apply Rabs_le_inv in A2. lra. }
    unfold ma_exec. cbn [int_ty n_cv]. rewrite (is_zero_B2R m D1), Req_bool_false by exact Nm.
    destruct (fdiv_ok (of_int x : F) m V2 Nm) as [Q1 Q2].
    { apply quotient_fits; [lia| |exact Nm]. rewrite V1, S, !rnd_abs, (Rabs_pos_eq (IZR (Z.abs y))) by (apply IZR_le; lia). apply rnd_mono. rewrite <- abs_IZR. now apply IZR_le. }
    apply accurate_weaken with (1 := mm_real u U). apply (div_close u u _ _ d1 d2); [exact A1|exact A2|lra|apply not_0_IZR; lia|now rewrite V1|now rewrite S|exact D1|exact Q2].
  Qed.
End Fmt.
