(** Facts about IEEE arithmetic, from Flocq. *)
From Coq Require Import Reals Lra Psatz.
From Flocq Require Import Core.Core IEEE754.BinarySingleNaN Plus_error.
From Verif Require Import Base M_Scale.
Open Scope R_scope.

Section Fmt.
  Context {prec emax : Z} {Hp : Prec_gt_0 prec} {Hm : Prec_lt_emax prec emax}.
  Notation F := (binary_float prec emax).
  Notation fexp := (SpecFloat.fexp prec emax).
  Definition rnd (x : R) : R := round radix2 fexp ZnearestE x.
  Local Instance vexp : Valid_exp fexp := fexp_correct prec emax Hp.
  Local Instance vrnd : Valid_rnd ZnearestE := valid_rnd_N _.
  Notation big := (bpow radix2 emax).

  Lemma rnd_mono : forall x y, x <= y -> rnd x <= rnd y.
  Proof using Hp. intros x y H. unfold rnd. apply round_le; auto with typeclass_instances. Qed.
  Lemma rnd_fmt : forall x, generic_format radix2 fexp x -> rnd x = x.
  Proof using Hp. intros x H. unfold rnd. apply round_generic; auto with typeclass_instances. Qed.
  Lemma rnd_B2R : forall x : F, rnd (B2R x) = B2R x.
  Proof using Hp. intros x. apply rnd_fmt. apply generic_format_B2R. Qed.
  Lemma rnd_0 : rnd 0 = 0.
  Proof using Hp. unfold rnd. apply round_0. auto with typeclass_instances. Qed.
  Lemma rnd_opp : forall x, rnd (- x) = - rnd x.
  Proof using Hp. intros x. unfold rnd. apply round_NE_opp. Qed.
  Lemma fmt_1 : generic_format radix2 fexp 1.
  Proof using Hp Hm. rewrite <- (Bone_correct prec emax Hp Hm). apply generic_format_B2R. Qed.
  Lemma rnd_1 : rnd 1 = 1.
  Proof using Hp Hm. apply rnd_fmt. apply fmt_1. Qed.
  Lemma one_lt_big : 1 < big.
  Proof using Hp Hm. pose proof (abs_B2R_lt_emax prec emax (@Bone prec emax Hp Hm)) as H. rewrite Bone_correct, Rabs_R1 in H. exact H. Qed.
  Lemma rnd_abs : forall x, Rabs (rnd x) = rnd (Rabs x).
  Proof using Hp.
    intros x. unfold Rabs at 2. destruct (Rcase_abs x) as [H|H].
    - rewrite rnd_opp. apply Rabs_left1. rewrite <- rnd_0. apply rnd_mono. lra.
    - apply Rabs_right. apply Rle_ge. rewrite <- rnd_0. apply rnd_mono. lra.
  Qed.

  Lemma fsub_ok : forall x y : F, is_finite x = true -> is_finite y = true -> Rabs (rnd (B2R x - B2R y)) < big ->
    B2R (fsub x y) = rnd (B2R x - B2R y) /\ is_finite (fsub x y) = true.
  Proof using Type.
    intros x y Fx Fy H. pose proof (Bminus_correct prec emax Hp Hm mode_NE x y Fx Fy) as B. cbn [round_mode] in B. fold (rnd (B2R x - B2R y)) in B.
    rewrite (Rlt_bool_true _ _ H) in B. destruct B as [B1 [B2 _]]. split; [exact B1|exact B2].
  Qed.
  Lemma fadd_ok : forall x y : F, is_finite x = true -> is_finite y = true -> Rabs (rnd (B2R x + B2R y)) < big ->
    B2R (fadd x y) = rnd (B2R x + B2R y) /\ is_finite (fadd x y) = true.
  Proof using Type.
    intros x y Fx Fy H. pose proof (Bplus_correct prec emax Hp Hm mode_NE x y Fx Fy) as B. cbn [round_mode] in B. fold (rnd (B2R x + B2R y)) in B.
    rewrite (Rlt_bool_true _ _ H) in B. destruct B as [B1 [B2 _]]. split; [exact B1|exact B2].
  Qed.
  Lemma overflow_inf : forall (x : F) s, B2SF x = binary_overflow prec emax mode_NE s -> is_finite x = false.
  Proof using Type. intros x s H. rewrite <- is_finite_SF_B2SF, H. reflexivity. Qed.
  Lemma fsub_fin : forall x y : F, is_finite x = true -> is_finite y = true -> is_finite (fsub x y) = true ->
    B2R (fsub x y) = rnd (B2R x - B2R y).
  Proof using Type.
    intros x y Fx Fy H. pose proof (Bminus_correct prec emax Hp Hm mode_NE x y Fx Fy) as B. cbn [round_mode] in B. fold (rnd (B2R x - B2R y)) in B.
    destruct (Rlt_bool _ _) in B; [exact (proj1 B)|]. destruct B as [B _]. apply overflow_inf in B. unfold fsub in H. congruence.
  Qed.
  Lemma fadd_fin : forall x y : F, is_finite x = true -> is_finite y = true -> is_finite (fadd x y) = true ->
    B2R (fadd x y) = rnd (B2R x + B2R y).
  Proof using Type.
    intros x y Fx Fy H. pose proof (Bplus_correct prec emax Hp Hm mode_NE x y Fx Fy) as B. cbn [round_mode] in B. fold (rnd (B2R x + B2R y)) in B.
    destruct (Rlt_bool _ _) in B; [exact (proj1 B)|]. destruct B as [B _]. apply overflow_inf in B. unfold fadd in H. congruence.
  Qed.
  Lemma fdiv_ok : forall x y : F, is_finite x = true -> B2R y <> 0 -> Rabs (rnd (B2R x / B2R y)) < big ->
    B2R (fdiv x y) = rnd (B2R x / B2R y) /\ is_finite (fdiv x y) = true.
  Proof using Type.
    intros x y Fx Hy H. pose proof (Bdiv_correct prec emax Hp Hm mode_NE x y Hy) as B. cbn [round_mode] in B. fold (rnd (B2R x / B2R y)) in B.
    rewrite (Rlt_bool_true _ _ H) in B. destruct B as [B1 [B2 _]]. split; [exact B1|]. unfold fdiv. rewrite B2. exact Fx.
  Qed.
  Lemma fmul_ok : forall x y : F, is_finite x = true -> is_finite y = true -> Rabs (rnd (B2R x * B2R y)) < big ->
    B2R (fmul x y) = rnd (B2R x * B2R y) /\ is_finite (fmul x y) = true.
  Proof using Type.
    intros x y Fx Fy H. pose proof (Bmult_correct prec emax Hp Hm mode_NE x y) as B. cbn [round_mode] in B. fold (rnd (B2R x * B2R y)) in B.
    rewrite (Rlt_bool_true _ _ H) in B. destruct B as [B1 [B2 _]]. split; [exact B1|]. unfold fmul. rewrite B2, Fx, Fy. reflexivity.
  Qed.
  Lemma fsqrt_ok : forall x : F, is_finite x = true -> 0 <= B2R x -> (is_zero x = true \/ Bsign x = false) ->
    B2R (fsqrt x) = rnd (sqrt (B2R x)) /\ is_finite (fsqrt x) = true.
  Proof using Type.
    intros x Fx Hx Hs. pose proof (Bsqrt_correct prec emax Hp Hm mode_NE x) as [B1 [B2 _]]. cbn [round_mode] in B1. split; [exact B1|].
    unfold fsqrt. rewrite B2. destruct x as [s|s| |s m e H]; try reflexivity; try discriminate Fx.
    destruct s; [|reflexivity]. destruct Hs as [Hs|Hs]; discriminate Hs.
  Qed.

  Lemma bounded_rnd : forall x y : R, Rabs x <= Rabs y -> Rabs (rnd y) < big -> Rabs (rnd x) < big.
  Proof using Hp. intros x y H1 H2. rewrite rnd_abs in *. eapply Rle_lt_trans; [|exact H2]. apply rnd_mono. exact H1. Qed.

  (** Division of a number by one that is no smaller. *)
  Lemma div_unit : forall d s : F, is_finite d = true -> B2R s <> 0 -> Rabs (B2R d) <= Rabs (B2R s) ->
    is_finite (fdiv d s) = true /\ B2R (fdiv d s) = rnd (B2R d / B2R s) /\ Rabs (B2R (fdiv d s)) <= 1.
  Proof using Type.
    intros d s Fd Hs Hle. assert (Hq : Rabs (B2R d / B2R s) <= 1).
    { unfold Rdiv. rewrite Rabs_mult, Rabs_inv. apply Rmult_le_reg_r with (Rabs (B2R s)); [now apply Rabs_pos_lt|].
      rewrite Rmult_assoc, Rinv_l by now apply Rabs_no_R0. lra. }
    assert (Hr : Rabs (rnd (B2R d / B2R s)) <= 1). { rewrite rnd_abs. rewrite <- rnd_1. now apply rnd_mono. }
    destruct (fdiv_ok d s Fd Hs) as [A B]. { eapply Rle_lt_trans; [exact Hr|apply one_lt_big]. }
    rewrite A. auto.
  Qed.
  Lemma div_pos : forall d s : F, is_finite d = true -> 0 <= B2R d <= B2R s -> B2R s <> 0 ->
    is_finite (fdiv d s) = true /\ 0 <= B2R (fdiv d s) <= 1 /\ (B2R d = 0 -> B2R (fdiv d s) = 0) /\ (B2R d = B2R s -> B2R (fdiv d s) = 1).
  Proof using Type.
    intros d s Fd Hd Hs. destruct (div_unit d s Fd Hs) as [A [B C]]; [rewrite !Rabs_right; lra|].
    split; [exact A|]. split.
    - split; [|apply Rle_trans with (2 := C); apply Rle_abs]. rewrite B, <- rnd_0. apply rnd_mono.
      apply Rmult_le_pos; [lra|]. apply Rlt_le, Rinv_0_lt_compat. lra.
    - rewrite B. split; intros E; rewrite E; [unfold Rdiv; rewrite Rmult_0_l; apply rnd_0|].
      unfold Rdiv. rewrite Rinv_r by exact Hs. apply rnd_1.
  Qed.

  (** Conversion of integers. *)
  Lemma fmt_pow : forall e, (0 <= e)%Z -> (e < emax)%Z -> generic_format radix2 fexp (bpow radix2 e).
  Proof using Hp Hm.
    intros e He Hlt. apply generic_format_bpow. unfold fexp, SpecFloat.emin. pose proof (@prec_lt_emax prec emax Hm). red in Hp. lia.
  Qed.
  Lemma of_int_round : forall z k, (0 <= k < emax)%Z -> (Z.abs z <= 2 ^ k)%Z ->
    B2R (of_int z : F) = rnd (IZR z) /\ is_finite (of_int z : F) = true.
  Proof using Type.
    intros z k Hk Hz. unfold of_int.
    pose proof (binary_normalize_correct prec emax Hp Hm mode_NE z 0 false) as B. cbv zeta in B.
    assert (E : F2R (Float radix2 z 0) = IZR z) by (unfold F2R; cbn [Fnum Fexp bpow]; lra). rewrite E in B. cbn [round_mode] in B. fold (rnd (IZR z)) in B.
    rewrite Rlt_bool_true in B; [destruct B as [B1 [B2 _]]; auto|].
    rewrite rnd_abs. apply Rle_lt_trans with (bpow radix2 k).
    - rewrite <- (rnd_fmt (bpow radix2 k)) by (apply fmt_pow; lia). apply rnd_mono. rewrite <- abs_IZR.
      rewrite <- IZR_Zpower by lia. apply IZR_le. cbn. exact Hz.
    - apply bpow_lt. lia.
  Qed.
  Lemma int_fmt : forall z, (Z.abs z <= 2 ^ prec)%Z -> generic_format radix2 fexp (IZR z).
  Proof using Hp Hm.
    intros z Hz. destruct (Z.eq_dec (Z.abs z) (2 ^ prec)) as [E|E].
    - assert (G : generic_format radix2 fexp (bpow radix2 prec)) by (apply fmt_pow; [red in Hp; lia|exact Hm]).
      rewrite <- IZR_Zpower in G by (red in Hp; lia). change (Zpower radix2 prec) with (2 ^ prec)%Z in G. rewrite <- E in G.
      destruct (Z.abs_eq_or_opp z) as [A|A]; rewrite A in G; [exact G|]. rewrite opp_IZR in G. apply generic_format_opp in G. now rewrite Ropp_involutive in G.
    - replace (IZR z) with (F2R (Float radix2 z 0)) by (unfold F2R; cbn [Fnum Fexp bpow]; lra).
      apply (generic_format_FLT radix2 (SpecFloat.emin prec emax) prec). exists (Float radix2 z 0); cbn [Fnum Fexp].
      + reflexivity.
      + change (Zpower radix2 prec) with (2 ^ prec)%Z. lia.
      + unfold SpecFloat.emin. pose proof (@prec_lt_emax prec emax Hm). red in Hp. lia.
  Qed.
  Lemma of_int_exact : forall z, (Z.abs z <= 2 ^ prec)%Z -> B2R (of_int z : F) = IZR z /\ is_finite (of_int z : F) = true.
  Proof using Type.
    intros z Hz. destruct (of_int_round z prec) as [A B]; [red in Hp; pose proof (@prec_lt_emax prec emax Hm); lia|exact Hz|].
    split; [|exact B]. rewrite A. apply rnd_fmt. now apply int_fmt.
  Qed.

  (** Subtraction is zero only for equal numbers. *)
  Lemma rnd_sub_0 : forall x y : F, rnd (B2R x - B2R y) = 0 -> B2R x = B2R y.
  Proof using Hp.
    intros x y H. destruct (Req_dec (B2R x - B2R y) 0) as [E|E]; [lra|]. exfalso. revert H. unfold rnd, Rminus.
    apply round_plus_neq_0; auto with typeclass_instances; try apply generic_format_B2R.
    - apply monotone_exp_not_FTZ; [exact vexp|exact (fexp_monotone prec emax)].
    - apply generic_format_opp. apply generic_format_B2R.
  Qed.
  Lemma is_zero_B2R : forall x : F, is_finite x = true -> is_zero x = Req_bool (B2R x) 0.
  Proof using Type. intros x Fx. unfold is_zero. rewrite Beqb_correct; auto. Qed.
End Fmt.
