From Coq Require Import Reals Lra Psatz.
From Flocq Require Import Core.Core IEEE754.BinarySingleNaN.
From Verif Require Import Base M_Estimator M_Stats M_Pipeline M_Impute M_Scale S_Stats S_Window L_Stats L_Stats3 L_Float L_Scale L_Scale2.
Open Scope R_scope.

(** ** Standard and robust scaling *)
Section Standard.
  Context {prec emax : Z} {Hp : Prec_gt_0 prec} {Hm : Prec_lt_emax prec emax}.
  Notation F := (binary_float prec emax).
  Notation big := (bpow radix2 emax).
  Notation rnd := (rnd (prec := prec) (emax := emax)).
  Lemma rnd_fin_fmt : forall x, generic_format radix2 (SpecFloat.fexp prec emax) (rnd x).
  Proof using Hp. intros x. unfold L_Float.rnd. apply generic_format_round; [apply fexp_correct; exact Hp|apply valid_rnd_N]. Qed.
  Lemma rnd_idem : forall x, rnd (rnd x) = rnd x.
  Proof using Hp. intros x. apply rnd_fmt. apply rnd_fin_fmt. Qed.
  Lemma one_F : B2R (of_int 1 : F) = 1 /\ is_finite (of_int 1 : F) = true.
  Proof using Type. apply of_int_exact. red in Hp. replace (Z.abs 1) with (2 ^ 0)%Z by reflexivity. apply Z.pow_le_mono_r; lia. Qed.

  Lemma scaled : forall x c s : F, is_finite x = true -> is_finite c = true -> B2R s <> 0 ->
    Rabs (rnd (B2R x - B2R c)) < big -> Rabs (rnd (rnd (B2R x - B2R c) / B2R s)) < big ->
    is_finite (fdiv (fsub x c) s) = true /\ B2R (fdiv (fsub x c) s) = rnd (rnd (B2R x - B2R c) / B2R s).
  Proof using Type.
    intros x c s Fx Fc Hs H1 H2. destruct (fsub_ok x c Fx Fc H1) as [A B]. destruct (fdiv_ok (fsub x c) s B Hs) as [C D]; [rewrite A; exact H2|].
    rewrite A in C. auto.
  Qed.

  (** What the created transformer computes: [dev] is the trained deviation (a NaN or infinite one cannot come from
      finite data). *)
  Lemma standard_ok : forall {I} (t : numty prec emax I) (wm ws : bool) (avg dev : F),
    is_finite avg = true -> is_finite dev = true -> 0 <= B2R dev ->
    exists s, standard_create wm ws avg dev = Ok s /\ B2R (snd s) <> 0 /\
    (forall x, n_null t x = true -> standard_exec t s x = B754_nan) /\
    (forall x, n_null t x = false -> is_finite (n_cv t x) = true ->
       let centre := if wm then B2R avg else 0 in
       let scale := if ws then (if Req_bool (B2R dev) 0 then 1 else B2R dev) else 1 in
       let q := rnd (rnd (B2R (n_cv t x) - centre) / scale) in
       Rabs (rnd (B2R (n_cv t x) - centre)) < big -> Rabs q < big ->
       is_finite (standard_exec t s x) = true /\ B2R (standard_exec t s x) = q).
  Proof using Type.
    intros I t wm ws avg dev Fa Fd Hd. unfold standard_create. cbv zeta. destruct one_F as [O1 O2].
    set (d := if is_zero (if ws then dev else of_int 1) then of_int 1 else (if ws then dev else of_int 1)).
    set (a := if wm then avg else fzero).
    assert (Ea : B2R a = (if wm then B2R avg else 0) /\ is_finite a = true) by (destruct wm; subst a; cbn; auto).
    assert (Ed : B2R d = (if ws then (if Req_bool (B2R dev) 0 then 1 else B2R dev) else 1) /\ is_finite d = true /\ B2R d <> 0 /\ 0 <= B2R d).
    { subst d. destruct ws.
      - rewrite is_zero_B2R by exact Fd. case Req_bool_spec; intros E; [rewrite O1, O2|]; repeat split; auto; lra.
      - rewrite is_zero_B2R by exact O2. rewrite O1. rewrite Req_bool_false by lra. rewrite O1, O2. repeat split; auto; lra. }
    destruct Ea as [Ea Fa']. destruct Ed as [Ed [Fd' [Nd Pd]]]. unfold standard_new. cbn [snd].
    rewrite Bltb_correct by auto. cbn [B2R fzero]. rewrite Rlt_bool_false by exact Pd.
    exists (a, d). split; [reflexivity|]. split; [exact Nd|]. split.
    - intros x Nx. unfold standard_exec. rewrite Nx. reflexivity.
    - intros x Nx Fx. cbv zeta. rewrite <- Ea, <- Ed. intros H1 H2. unfold standard_exec. rewrite Nx. cbn [fst snd]. apply scaled; auto.
  Qed.
  (** Without a scale the result is the rounded difference. *)
  Lemma unscaled : forall y, rnd (rnd y / 1) = rnd y.
  Proof using Hp. intros y. unfold Rdiv. rewrite Rinv_1, Rmult_1_r. apply rnd_idem. Qed.

  Lemma robust_ok : forall {I} (t : numty prec emax I) (c s : F) (x : I), is_finite c = true -> is_finite s = true -> is_finite (n_cv t x) = true ->
    let y := rnd (B2R (n_cv t x) - B2R c) in
    Rabs y < big ->
    (B2R s = 0 -> is_finite (robust_exec t (c, s) x) = true /\ B2R (robust_exec t (c, s) x) = y) /\
    (B2R s <> 0 -> Rabs (rnd (y / B2R s)) < big -> is_finite (robust_exec t (c, s) x) = true /\ B2R (robust_exec t (c, s) x) = rnd (y / B2R s)).
  Proof using Type.
    intros I t c s x Fc Fs Fx. cbv zeta. intros H1. unfold robust_exec. cbn [fst snd]. rewrite is_zero_B2R by exact Fs.
    case Req_bool_spec; intros E; split; intros E'; try contradiction.
    - destruct (fsub_ok (n_cv t x) c Fx Fc H1). auto.
    - intros H2. apply scaled; auto.
  Qed.
End Standard.

(** The created scale of RobustScaler. *)
Lemma hundred : B2R (of_int 100 : float32) = 100 /\ is_finite (of_int 100 : float32) = true.
Proof. apply of_int_exact. vm_compute. discriminate. Qed.
Lemma robust_params_ok : forall (qmin qmax : float32) q, robust_params qmin qmax = Ok q -> q = (qmin, qmax) /\
  (is_nan qmin = true /\ is_nan qmax = true \/
   is_finite qmin = true /\ is_finite qmax = true /\ 0 <= B2R qmin /\ B2R qmin <= B2R qmax /\ B2R qmax <= 100).
Proof.
  intros qmin qmax q H. unfold robust_params in H. cbv zeta in H. destruct hundred as [H1 H2].
  assert (Hout : forall y : float32, negb (is_nan y) && (Bltb y fzero || Bltb (of_int 100) y) = false -> is_nan y = true \/ is_finite y = true /\ 0 <= B2R y <= 100).
  { intros y Hy. destruct (is_nan y) eqn:Ny; [now left|right]. cbn [negb andb] in Hy. apply orb_false_elim in Hy. destruct Hy as [Y1 Y2].
    assert (Fy : is_finite y = true).
    { destruct y as [s|s| |s m e B]; try reflexivity; try discriminate Ny. exfalso. destruct s; [discriminate Y1|].
      revert Y2. clear. unfold Bltb. intros Y. vm_compute in Y. discriminate. }
    split; [exact Fy|]. rewrite Bltb_correct in Y1, Y2 by auto. rewrite H1 in Y2. cbn [B2R fzero] in Y1.
    revert Y1 Y2. case Rlt_bool_spec; [discriminate|]. intros Y1 _. case Rlt_bool_spec; [discriminate|]. intros Y2 _. lra. }
  destruct (negb (is_nan qmin) && (Bltb qmin fzero || Bltb (of_int 100) qmin)) eqn:E1; [discriminate|].
  destruct (negb (is_nan qmax) && (Bltb qmax fzero || Bltb (of_int 100) qmax)) eqn:E2; [discriminate|].
  apply Hout in E1. apply Hout in E2. destruct E1 as [E1|[F1 B1]].
  - rewrite E1 in H. cbn [negb orb] in H. destruct (is_nan qmax) eqn:N2; cbn [negb orb] in H; [|discriminate]. injection H as <-. auto.
  - destruct E2 as [E2|[F2 B2]].
    + rewrite E2 in H. rewrite !orb_true_r in H. destruct (is_nan qmin) eqn:N1; cbn [negb orb] in H; [|discriminate].
      destruct qmin; discriminate.
    + assert (N1 : is_nan qmin = false) by (destruct qmin; auto; discriminate). assert (N2 : is_nan qmax = false) by (destruct qmax; auto; discriminate).
      rewrite N1, N2 in H. cbn [negb orb] in H. rewrite Bltb_correct in H by auto. revert H. case Rlt_bool_spec; [discriminate|]. intros L [= <-].
      split; [reflexivity|]. right. repeat split; auto; lra.
Qed.
Lemma fits_mag : forall signed w mn mx, (w <= 8)%nat -> fits signed w mn = true -> fits signed w mx = true -> (Z.abs (mx - mn) <= 2 ^ 65)%Z.
Proof.
  intros signed w mn mx Hw F1 F2.
  assert (P : (two_pow8 w <= 2 ^ 64)%Z). { unfold two_pow8. replace (2 ^ 64)%Z with (256 ^ 8)%Z by reflexivity. apply Z.pow_le_mono_r; lia. }
  assert (P1 : (0 < two_pow8 w)%Z) by (apply Z.pow_pos_nonneg; lia).
  assert (H0 : forall z, fits signed w z = true -> (Z.abs z <= 2 ^ 64)%Z).
  { intros z Hz. assert (two_pow8 w / 2 <= two_pow8 w)%Z by (apply Z.div_le_upper_bound; lia).
    destruct signed; cbn [fits] in Hz; [unfold fits_s in Hz|unfold fits_u in Hz]; lia. }
  pose proof (H0 _ F1). pose proof (H0 _ F2). lia.
Qed.
Lemma k65 : (0 <= 65 < 128)%Z.
Proof. lia. Qed.
Lemma robust_create_ok : forall {prec emax : Z} {Hp : Prec_gt_0 prec} {Hm : Prec_lt_emax prec emax} signed (w : nat) wc (qmin qmax : float32) q
  (median : binary_float prec emax) (mn mx : Z), (24 <= prec)%Z -> (128 <= emax)%Z -> (1 <= w <= 8)%nat ->
  robust_params qmin qmax = Ok q -> (mn <= mx)%Z -> fits signed w mn = true -> fits signed w mx = true ->
  (w < 4)%nat \/ fits signed w (mx - mn) = true ->
  exists s, robust_create signed w wc q median mn mx = Ok s /\ fst s = (if wc then median else fzero) /\ is_finite (snd s) = true /\
  (is_nan qmin = true -> B2R (snd s) = 1) /\
  (is_nan qmin = false -> 0 <= B2R (snd s) <= rnd (prec := 24) (emax := 128) (IZR (mx - mn)) /\
     B2R (snd s) = rnd (prec := 24) (emax := 128) (rnd (prec := 24) (emax := 128) (IZR (mx - mn)) *
                   rnd (prec := 24) (emax := 128) (rnd (prec := 24) (emax := 128) (B2R qmax - B2R qmin) / 100))).
Proof.
  intros prec emax Hp Hm signed w wc qmin qmax q median mn mx Hpr He Hw Hq Hle F1 F2 Hfit.
  apply robust_params_ok in Hq. destruct Hq as [-> Hq]. unfold robust_create. cbn [fst snd].
  destruct Hq as [[Q1 Q2]|[Q1 [Q2 [Q3 [Q4 Q5]]]]].
  - rewrite Q1. eexists. split; [reflexivity|]. cbn [fst snd]. destruct (@one_F prec emax Hp Hm) as [O1 O2]. rewrite O1, O2.
    split; [reflexivity|]. split; [reflexivity|]. split; [reflexivity|discriminate].
  - assert (N : is_nan qmin = false) by (destruct qmin; auto; discriminate). rewrite N.
    assert (Ed : (if Nat.ltb w 4 then Ok (mx - mn)%Z else int_op Z.sub signed w mx mn) = Ok (mx - mn)%Z).
    { destruct (Nat.ltb_spec w 4); [reflexivity|]. apply int_sub_ok; [lia|]. destruct Hfit; [lia|assumption]. }
    rewrite Ed. cbn [bind]. eexists. split; [reflexivity|]. cbn [fst snd]. split; [reflexivity|].
    destruct hundred as [H1 H2].
    assert (big1 : 100 < bpow radix2 128) by (apply Rlt_trans with (bpow radix2 7); [cbn; lra|apply bpow_lt; lia]).
    assert (R100 : rnd (prec := 24) (emax := 128) 100 = 100). { rewrite <- H1. apply rnd_B2R. }
    assert (Hs : 0 <= rnd (prec := 24) (emax := 128) (B2R qmax - B2R qmin) <= 100).
    { split; [rewrite <- (rnd_0 (prec := 24) (emax := 128))|rewrite <- R100]; apply rnd_mono; lra. }
    destruct (fsub_ok qmax qmin Q2 Q1) as [S1 S2]; [rewrite Rabs_right by lra; lra|].
    destruct (div_pos (fsub qmax qmin) (of_int 100) S2) as [D1 [D2 _]]; [rewrite S1, H1; lra|rewrite H1; lra|].
    assert (D3 : B2R (fdiv (fsub qmax qmin) (of_int 100)) = rnd (prec := 24) (emax := 128) (rnd (prec := 24) (emax := 128) (B2R qmax - B2R qmin) / 100)).
    { destruct (div_unit (fsub qmax qmin) (of_int 100) S2) as [_ [E _]]; [rewrite H1; lra|rewrite S1, H1, !Rabs_right; lra|]. rewrite E, S1, H1. reflexivity. }
    set (ratio := fdiv (fsub qmax qmin) (of_int 100)) in *.
    pose proof (fits_mag signed w mn mx (proj2 Hw) F1 F2) as Bd.
    destruct (@of_int_round 24 128 _ _ (mx - mn) 65 k65) as [I1 I2]; [exact Bd|].
    assert (P0 : 0 <= rnd (prec := 24) (emax := 128) (IZR (mx - mn))).
    { rewrite <- (rnd_0 (prec := 24) (emax := 128)). apply rnd_mono. apply IZR_le. exact (Zle_minus_le_0 _ _ Hle). }
    set (d := of_int (mx - mn) : float32) in *.
    assert (Pm : 0 <= rnd (prec := 24) (emax := 128) (B2R d * B2R ratio) <= B2R d).
    { split.
      - rewrite <- (rnd_0 (prec := 24) (emax := 128)). apply rnd_mono. apply Rmult_le_pos; lra.
      - rewrite <- (rnd_B2R (prec := 24) (emax := 128) d) at 2. apply rnd_mono. rewrite <- (Rmult_1_r (B2R d)) at 2. apply Rmult_le_compat_l; lra. }
    destruct (fmul_ok d ratio I2 D1) as [M1 M2].
    { rewrite Rabs_right by lra. eapply Rle_lt_trans; [apply Pm|]. eapply Rle_lt_trans; [apply Rle_abs|]. apply abs_B2R_lt_emax. }
    destruct (@convert_widen 24 128 prec emax _ _ _ _ (fmul d ratio) Hpr He M2) as [C1 C2].
    split; [exact C2|]. split; [congruence|]. intros _. rewrite C1, M1. split.
    + rewrite <- I1. exact Pm.
    + rewrite I1, D3. reflexivity.
Qed.
