(** Normalized rows. *)
From Coq Require Import Reals Lra Psatz.
From Flocq Require Import Core.Core IEEE754.BinarySingleNaN Plus_error.
From Verif Require Import Base L_List M_Estimator M_Stats M_Pipeline M_Impute M_Scale M_FloatStats M_FloatScale S_Stats S_FloatStats S_Scale S_FloatScale L_Stats L_Float L_Scale2 L_Scale4 L_FloatStats L_FloatStats2 L_FloatStats3 L_FloatScale L_FloatScale2 L_FloatScale3 L_FloatScale4.
Open Scope R_scope.

(** (1 + w)^n for n w <= 1/2. *)
Lemma pow_lin w n : 0 <= w -> INR n * w <= / 2 -> (1 + w) ^ n <= 1 + 2 * (INR n * w).
Proof.
  intros W. induction n as [|n IH]; intros H; [cbn; lra|]. rewrite S_INR in *. assert (N0 : 0 <= INR n) by apply pos_INR. cbn [pow]. assert (Q : INR n * w <= / 2) by lra. specialize (IH Q).
  assert ((1 + w) * (1 + w) ^ n <= (1 + w) * (1 + 2 * (INR n * w))) by (apply Rmult_le_compat_l; lra).
  assert (w * (2 * (INR n * w)) <= w * 1) by (apply Rmult_le_compat_l; lra). lra.
Qed.
Lemma pow_mono_base a b n : 0 <= a <= b -> (1 + a) ^ n <= (1 + b) ^ n.
Proof. intros H. apply pow_incr. lra. Qed.
(** A quotient by a number with relative error e <= 1/8. *)
Lemma quotient_err x n N e : 0 < N -> e <= / 8 -> Rabs (n - N) <= e * N -> Rabs (x / n - x / N) <= 8 / 7 * e * Rabs (x / N).
Proof.
  intros HN He H. assert (E0 : 0 <= e) by (pose proof (Rabs_pos (n - N)); assert (0 <= e * N) by lra; destruct (Rle_or_lt 0 e); [assumption|exfalso]; assert (e * N < 0) by nra; lra).
  apply Rabs_le_inv in H as H'. assert (Hn : 7 / 8 * N <= n) by nra.
  replace (x / n - x / N) with (x / N * ((N - n) / n)) by (field; lra). rewrite Rabs_mult, Rmult_comm. apply Rmult_le_compat_r; [apply Rabs_pos|].
  unfold Rdiv at 1. rewrite Rabs_mult, Rabs_minus_sym, (Rabs_right (/ n)) by (apply Rle_ge, Rlt_le, Rinv_0_lt_compat; lra).
  apply Rle_trans with (e * N * / n); [apply Rmult_le_compat_r; [apply Rlt_le, Rinv_0_lt_compat; lra|exact H]|].
  apply (Rmult_le_reg_r n); [lra|]. rewrite Rmult_assoc, Rinv_l, Rmult_1_r by lra. assert (e * (7 / 8 * N) <= e * n) by (apply Rmult_le_compat_l; lra). lra.
Qed.

Section Cells.
  Context {lp le : Z} {HLp : Prec_gt_0 lp} {HLm : Prec_lt_emax lp le}.
  Notation L := (binary_float lp le).
  Notation u := (unit_error lp).
  Notation v := (unit_error 53).
  Lemma cell_near (x : L) (n : double) (N e : R) : (53 <= lp)%Z -> (1024 <= le)%Z -> is_finite x = true -> is_finite n = true -> 0 < N -> 0 <= e <= / 8 -> Rabs (B2R n - N) <= e * N -> Rabs (B2R x) <= N ->
    let y := convert (fdiv x (convert n : L)) : double in
    is_finite y = true /\ Rabs (B2R y - B2R x / N) <= (2 * e + 3 * v) * Rabs (B2R x / N) + bpow radix2 (-1073).
  Proof using HLp HLm.
    intros P1 P2 Fx Fn HN He Hn Hx y. pose proof (Rabs_le_inv _ _ Hn) as Hn'. assert (En : e * N <= / 8 * N) by (apply Rmult_le_compat_r; lra). assert (Hn0 : 7 / 8 * N <= B2R n) by lra.
    destruct (@convert_widen 53 1024 lp le _ _ _ _ n P1 P2 Fn) as [C1 C2].
    assert (Nn : B2R (convert n : L) <> 0) by (rewrite C1; lra).
    pose proof (quotient_err (B2R x) (B2R n) N e HN ltac:(lra) Hn) as Q. set (z := B2R x / N) in *. assert (Z1 : Rabs z <= 1).
    { unfold z, Rdiv. rewrite Rabs_mult, (Rabs_right (/ N)) by (apply Rle_ge, Rlt_le, Rinv_0_lt_compat; lra). apply (Rmult_le_reg_r N); [lra|]. rewrite Rmult_assoc, Rinv_l by lra. lra. }
    pose proof (Rabs_pos z) as Z0. set (a := B2R x / B2R n) in *.
    assert (Ea : 8 / 7 * e * Rabs z <= 1 / 7) by (assert (e * Rabs z <= / 8 * 1) by (apply Rmult_le_compat; lra); lra).
    assert (A2 : Rabs a <= 2) by (replace a with ((a - z) + z) by ring; eapply Rle_trans; [apply Rabs_triang|]; lra).
    assert (B2 : 2 < bpow radix2 1024) by (change 2 with (bpow radix2 1); apply bpow_lt; lia).
    assert (B3 : 2 < bpow radix2 le) by (eapply Rlt_le_trans; [exact B2|]; apply bpow_le; lia).
    assert (R2 : forall (pr em : Z) (H1 : Prec_gt_0 pr) (H2 : Prec_lt_emax pr em), (1024 <= em)%Z -> forall r, Rabs r <= 2 -> Rabs (rnd (prec := pr) (emax := em) r) <= 2).
    { intros pr em H1 H2 H3 r Hr. rewrite rnd_abs. assert (G2 : rnd (prec := pr) (emax := em) 2 = 2). { apply rnd_fmt. change 2 with (bpow radix2 1). apply fmt_pow; lia. } rewrite <- G2. now apply rnd_mono. }
    assert (Rl : Rabs (rnd (prec := lp) (emax := le) a) <= 2) by (apply R2; auto).
    destruct (fdiv_ok x (convert n : L) Fx Nn) as [D1 D2]; [rewrite C1; fold a; lra|]. rewrite C1 in D1. fold a in D1.
    destruct (@convert_round lp le 53 1024 _ _ (fdiv x (convert n)) D2) as [G1 G2]; [rewrite D1; apply Rle_lt_trans with 2; [apply (R2 53%Z 1024%Z _ _ ltac:(lia)); exact Rl|exact B2]|]. fold y in G1, G2. rewrite D1 in G1.
    split; [exact G2|]. rewrite G1. pose proof (rnd_err (prec := lp) (emax := le) a) as E1. set (b := rnd (prec := lp) (emax := le) a) in *. pose proof (rnd_err (prec := 53) (emax := 1024) b) as E2. set (c := rnd (prec := 53) (emax := 1024) b) in *.
    pose proof (half_emin lp le P1 P2) as h1. pose proof (half_emin 53 1024 ltac:(lia) ltac:(lia)) as h2.
    replace (-1073)%Z with (-1075 + 2)%Z by lia. rewrite bpow_plus. change (bpow radix2 2) with 4. set (h := bpow radix2 (-1075)) in *. assert (h0 : 0 < h) by apply bpow_gt_0.
    pose proof (unit_pos lp) as U. pose proof (unit_mono 53 lp P1) as Um. rewrite unit_53 in *. set (w := / 9007199254740992) in *. assert (W : 0 < w <= / 1000000) by (unfold w; lra).
    assert (Aa : Rabs a <= (1 + 8 / 7 * e) * Rabs z) by (replace a with ((a - z) + z) by ring; eapply Rle_trans; [apply Rabs_triang|]; lra).
    assert (Aa' : Rabs a <= 8 / 7 * Rabs z). { eapply Rle_trans; [exact Aa|]. apply Rmult_le_compat_r; lra. }
    assert (Ua : u * Rabs a <= w * (8 / 7 * Rabs z)) by (apply Rmult_le_compat; auto using Rabs_pos; lra).
    assert (Ab : Rabs b <= 8 / 7 * Rabs z + w * (8 / 7 * Rabs z) + h) by (replace b with ((b - a) + a) by ring; eapply Rle_trans; [apply Rabs_triang|]; lra).
    assert (Vb : w * Rabs b <= w * (8 / 7 * Rabs z + w * (8 / 7 * Rabs z) + h)) by (apply Rmult_le_compat_l; lra).
    assert (Ww : w * (w * (8 / 7 * Rabs z)) <= / 1000000 * (w * (8 / 7 * Rabs z))) by (apply Rmult_le_compat_r; [apply Rmult_le_pos; lra|lra]).
    assert (Wh : w * h <= / 1000000 * h) by (apply Rmult_le_compat_r; lra). assert (Wz : 0 <= w * Rabs z) by (apply Rmult_le_pos; lra). assert (Ez : 0 <= e * Rabs z) by (apply Rmult_le_pos; lra).
    replace (c - z) with ((c - b) + ((b - a) + (a - z))) by ring. eapply Rle_trans; [apply Rabs_triang|]. pose proof (Rabs_triang (b - a) (a - z)). lra.
  Qed.
End Cells.

Section Rows2.
  Context {p e : Z} {Hp : Prec_gt_0 p} {Hm : Prec_lt_emax p e}.
  Context {lp le : Z} {HLp : Prec_gt_0 lp} {HLm : Prec_lt_emax lp le}.
  Notation F := (binary_float p e).
  Notation L := (binary_float lp le).
  Notation u := (unit_error lp).
  Notation v := (unit_error 53).
  Lemma row_near (row : list F) (n : double) (N ee : R) : (p <= 53)%Z -> (e <= 1024)%Z -> (53 <= lp)%Z -> (1024 <= le)%Z -> Forall (fun x => is_finite x = true) (numbers row) -> is_finite n = true -> 0 < N -> 0 <= ee <= / 8 -> Rabs (B2R n - N) <= ee * N ->
    (forall x, In x (real_values row) -> Rabs x <= N) -> row_scaled (2 * ee + 3 * v) N row (float_normalized (lp := lp) (le := le) n row).
  Proof using Hp Hm HLp HLm.
    intros H1 H2 H3 H4 Fr Fn HN He Hn Hx. unfold row_scaled, float_normalized, normalize_row, float_cells. rewrite !map_length. split; [reflexivity|]. intros j x Ej.
    rewrite !nth_error_map, Ej. cbn [option_map]. destruct (is_nan x) eqn:Nx; [exists B754_nan; split; [reflexivity|]; split; [reflexivity|discriminate]|].
    eexists. split; [reflexivity|]. split; [discriminate|]. intros _.
    assert (Ix : In x (numbers row)) by (apply filter_In; split; [eapply nth_error_In; exact Ej|now rewrite Nx]). rewrite Forall_forall in Fr. pose proof (Fr x Ix) as Fx.
    destruct (@convert_widen p e lp le _ _ _ _ x ltac:(lia) ltac:(lia) Fx) as [C1 C2]. rewrite <- C1. apply cell_near; auto. rewrite C1. apply Hx. unfold real_values. apply in_map. exact Ix.
  Qed.
  Lemma rsum_ge (l : list R) x : (forall y, In y l -> 0 <= y) -> In x l -> x <= rsum l.
  Proof using Type.
    induction l as [|y l IH]; intros P H; [destruct H|]. destruct H as [<-|H]; cbn [rsum fold_right].
    - pose proof (rsum_nonneg l (fun z Hz => P z (or_intror Hz))) as Q. unfold rsum in Q. lra.
    - pose proof (IH (fun z Hz => P z (or_intror Hz)) H) as Q. unfold rsum in Q. pose proof (P y (or_introl eq_refl)). lra.
  Qed.
  Lemma l1_ge l x : In x l -> Rabs x <= l1 l.
  Proof using Type. intros H. apply rsum_ge; [intros y Hy; apply in_map_iff in Hy; destruct Hy as (z & <- & _); apply Rabs_pos|now apply in_map]. Qed.
  Lemma l2_ge l x : In x l -> Rabs x <= l2 l.
  Proof using Type.
    intros H. rewrite <- (sqrt_pow2 (Rabs x)) by apply Rabs_pos. rewrite pow2_abs. apply sqrt_le_1_alt. apply rsum_ge; [intros y Hy; apply in_map_iff in Hy; destruct Hy as (z & <- & _); apply pow2_ge_0|]. apply in_map_iff. now exists x.
  Qed.
  Lemma double_near (n : L) g a N : (53 <= lp)%Z -> (1024 <= le)%Z -> 0 <= N -> is_finite n = true -> 0 <= B2R n -> is_finite (convert n : double) = true -> near g a (B2R n) N ->
    near ((1 + v) * g) (bpow radix2 (-1075) + (1 + v) * a) (B2R (convert n : double)) N.
  Proof using HLp HLm.
    intros P1 P2 N0 Fn Pn Fc H. rewrite (convert_fin n Fn Fc). pose proof (near_rnd (prec := 53) (emax := 1024) _ Pn) as R. pose proof (unit_pos 53) as Vp. assert (V1 : 1 <= 1 + v) by lra.
    pose proof (near_trans _ _ _ _ _ _ _ V1 R H) as T. eapply near_weaken; [exact N0|apply Rle_refl| |exact T]. pose proof (half_emin 53 1024 ltac:(lia) ltac:(lia)). lra.
  Qed.
  Lemma float_norm_inv norm (row : list F) (n : double) : float_norm (lp := lp) (le := le) norm row = Ok n -> exists m, norm (float_cells row) = Ok m /\ n = convert m.
  Proof using Type. unfold float_norm. destruct (norm (float_cells row)) as [m| |]; try discriminate. cbn. intros H. injection H as <-. eauto. Qed.

  (** From relative and absolute error to a relative error for rows that are not tiny. *)
  Lemma relative k g a N x : (53 <= lp)%Z -> (Z.of_nat k <= 2 ^ 48)%Z -> g <= (1 + v) ^ (k + 2) -> a <= sqrt (INR k) * bpow radix2 (-534) -> bpow radix2 (-450) <= N -> near g a x N ->
    Rabs (x - N) <= (2 * INR (k + 2) * v + v) * N /\ 0 <= 2 * INR (k + 2) * v + v <= / 8.
  Proof using Type.
    intros P1 K G A HN H. unfold near in H. assert (Kr : INR (k + 2) <= 281474976710658) by (rewrite INR_IZR_INZ; apply IZR_le; lia). pose proof (pos_INR (k + 2)) as K0.
    pose proof (pow_lin v (k + 2) (Rlt_le _ _ (unit_pos 53))) as Pl. rewrite unit_53 in *. set (w := / 9007199254740992) in *. assert (Wd : w = / 9007199254740992) by reflexivity.
    assert (Kw : INR (k + 2) * w <= 281474976710658 * w) by (apply Rmult_le_compat_r; lra). assert (Q : INR (k + 2) * w <= / 2) by lra. specialize (Pl Q).
    assert (K0w : 0 <= INR (k + 2) * w) by (apply Rmult_le_pos; lra). split; [|lra].
    assert (N0 : 0 < N) by (pose proof (bpow_gt_0 radix2 (-450)); lra).
    assert (Sk : sqrt (INR k) <= 16777216).
    { rewrite <- (sqrt_square 16777216) by lra. apply sqrt_le_1_alt. replace (16777216 * 16777216) with 281474976710656 by lra. rewrite INR_IZR_INZ. apply IZR_le. lia. }
    assert (A2 : a <= w * N).
    { eapply Rle_trans; [exact A|]. apply Rle_trans with (16777216 * bpow radix2 (-534)); [apply Rmult_le_compat_r; [apply bpow_ge_0|exact Sk]|].
      replace (-534)%Z with (24 + -450 + -108)%Z by lia. rewrite !bpow_plus. change (bpow radix2 24) with 16777216. change (bpow radix2 (-108)) with (/ 324518553658426726783156020576256).
      apply Rle_trans with (w * bpow radix2 (-450)); [|apply Rmult_le_compat_l; lra]. pose proof (bpow_gt_0 radix2 (-450)). set (t := bpow radix2 (-450)) in *. rewrite Wd. lra. }
    assert (G2 : (g - 1) * N <= (2 * (INR (k + 2) * w)) * N) by (apply Rmult_le_compat_r; lra). lra.
  Qed.
End Rows2.
