From Coq Require Import Reals Lra Psatz.
From Flocq Require Import Core.Core IEEE754.BinarySingleNaN Plus_error Relative Sterbenz.
From Verif Require Import Base M_Estimator M_Stats M_Scale S_Stats S_Window S_Scale S_FloatStats S_Accuracy L_Float L_Scale L_Scale2 L_Scale3 L_FloatStats L_Accuracy.
Open Scope R_scope.

Lemma mm_real u : 0 <= u <= / 8 -> (1 + u) * ((1 + u) / (1 - u)) - 1 <= 4 * u.
Proof.
  intros U. assert (H : (1 + u) * ((1 + u) / (1 - u)) <= 1 + 4 * u); [|lra]. replace ((1 + u) * ((1 + u) / (1 - u))) with (((1 + u) * (1 + u)) / (1 - u)) by (field; lra).
  apply Rmult_le_reg_r with (1 - u); [lra|]. unfold Rdiv. rewrite Rmult_assoc, Rinv_l by lra. nra.
Qed.
Lemma unit_small prec : (3 <= prec)%Z -> 0 <= unit_error prec <= / 8.
Proof. intros H. split; [apply Rlt_le, unit_pos|]. unfold unit_error. change (/ 8) with (bpow radix2 (-3)). apply bpow_le. lia. Qed.

Section Fmt.
  Context {prec emax : Z} {Hp : Prec_gt_0 prec} {Hm : Prec_lt_emax prec emax}.
  Notation F := (binary_float prec emax).
  Notation rnd := (rnd (prec := prec) (emax := emax)).
  Notation u := (unit_error prec).
  Notation eta := (half_least prec emax).

  Lemma finite_not_nan (x : F) : is_finite x = true -> is_nan x = false.
  Proof using Type. destruct x; auto; discriminate. Qed.
  Lemma mm_same_exec (mn sp x : F) : is_finite sp = true -> B2R sp <> 0 -> is_finite x = true -> mm_exec same_ty (mn, sp) x = fdiv (fsub x mn) sp.
  Proof using Type.
    intros Fs Ns Fx. unfold mm_exec. cbn [same_ty n_null n_is_zero n_cv fst snd]. rewrite (finite_not_nan x Fx), (is_zero_B2R sp Fs), Req_bool_false by exact Ns. reflexivity.
  Qed.
  Lemma sub_nonzero (a b : F) : is_finite a = true -> is_finite b = true -> is_finite (fsub a b) = true -> B2R a <> B2R b -> B2R (fsub a b) <> 0.
  Proof using Type. intros Fa Fb Fs N E. rewrite (fsub_fin a b Fa Fb Fs) in E. now apply N, rnd_sub_0. Qed.
  Lemma mm_same_new (mn mx : F) s : is_finite mn = true -> is_finite mx = true -> mm_new same_ty mn mx = Ok s -> s = (mn, fsub mx mn) /\ B2R mn <= B2R mx.
  Proof using Type.
    intros F1 F2 H. unfold mm_new in H. cbn [same_ty n_lt n_sub bind] in H. rewrite Bltb_correct in H by auto.
    destruct (Rlt_bool_spec (B2R mx) (B2R mn)) as [L|L]; [discriminate|]. injection H as <-. auto.
  Qed.
  Lemma mm_same_accurate (mn mx : F) s (x : F) : (3 <= prec)%Z -> is_finite mn = true -> is_finite mx = true -> is_finite (fsub mx mn) = true -> B2R mn <> B2R mx ->
    mm_new same_ty mn mx = Ok s -> is_finite x = true -> is_finite (mm_exec same_ty s x) = true ->
    accurate (4 * u) eta (mm_exec same_ty s x) ((B2R x - B2R mn) / (B2R mx - B2R mn)).
  Proof using Type.
    intros P F1 F2 F3 N E Fx Fr. destruct (mm_same_new mn mx s F1 F2 E) as [-> _]. pose proof (sub_nonzero mx mn F2 F1 F3 (not_eq_sym N)) as Ns.
    rewrite (mm_same_exec mn _ x F3 Ns Fx) in *. destruct (fdiv_fin _ _ F3 Ns Fr) as [Fn _].
    destruct (sub_rel x mn Fx F1 Fn) as (d1 & D1 & E1). destruct (sub_rel mx mn F2 F1 F3) as (d2 & D2 & E2).
    pose proof (unit_small prec P) as U. apply accurate_weaken with (1 := mm_real u U).
    apply (div_close u u _ _ d1 d2); [exact D1|exact D2|lra|lra|exact E1|exact E2|exact F3|exact Fr].
  Qed.

  (** After saving and loading. *)
  Lemma saved_width (mn mx : F) : (5 <= prec)%Z -> is_finite mn = true -> is_finite mx = true -> is_finite (fsub mx mn) = true -> B2R mn < B2R mx ->
    let mx' := fadd mn (fsub mx mn) in is_finite mx' = true -> is_finite (fsub mx' mn) = true ->
    B2R mn <= B2R mx' /\ exists d, Rabs d <= 8 * u /\ B2R (fsub mx' mn) = (B2R mx - B2R mn) * (1 + d).
  Proof using Type.
    intros P F1 F2 F3 L mx' Fm Fs'. pose proof (unit_small prec ltac:(lia)) as U.
    assert (U2 : u <= / 32) by (unfold unit_error; change (/ 32) with (bpow radix2 (-5)); apply bpow_le; lia).
    destruct (sub_rel mx mn F2 F1 F3) as (d1 & D1 & E1).
    assert (Ea : B2R mx' = rnd (B2R mn + B2R (fsub mx mn))) by (apply fadd_fin; assumption).
    assert (Pw : 0 <= B2R (fsub mx mn)) by (rewrite E1; apply Rabs_le_inv in D1; nra).
    split. { rewrite Ea. rewrite <- (rnd_B2R mn) at 1. apply rnd_mono. lra. }
    destruct (Req_dec (B2R (fsub mx mn)) (B2R mx - B2R mn)) as [Ex|Nx].
    - (* exact width *) assert (Em : B2R mx' = B2R mx) by (rewrite Ea, Ex; replace (B2R mn + (B2R mx - B2R mn)) with (B2R mx) by ring; apply rnd_B2R).
      destruct (sub_rel mx' mn Fm F1 Fs') as (d & D & E). exists d. split; [lra|]. now rewrite E, Em.
    - set (a := B2R mn) in *. set (b := B2R mx) in *. set (w := b - a).
      assert (Far : Rabs a <= 2 * w).
      { destruct (Rle_or_lt (Rabs a) (2 * w)) as [Hh|Hh]; [exact Hh|]. exfalso. apply Nx. rewrite (fsub_fin mx mn F2 F1 F3). fold a b. apply rnd_fmt. unfold w in Hh.
        destruct (Rle_or_lt 0 a) as [A0|A0].
        - rewrite Rabs_right in Hh by lra. refine (sterbenz radix2 (FLT_exp (SpecFloat.emin prec emax) prec) b a _ _ _); [exact (generic_format_B2R prec emax mx)|exact (generic_format_B2R prec emax mn)|lra].
        - rewrite Rabs_left in Hh by lra. replace (b - a) with (- a - - b) by ring. refine (sterbenz radix2 (FLT_exp (SpecFloat.emin prec emax) prec) (- a) (- b) _ _ _); [apply generic_format_opp; exact (generic_format_B2R prec emax mn)|apply generic_format_opp; exact (generic_format_B2R prec emax mx)|lra]. }
      destruct (rnd_plus_rel a (B2R (fsub mx mn)) (generic_format_B2R prec emax mn) (generic_format_B2R prec emax (fsub mx mn))) as (d2 & D2 & E2).
      destruct (sub_rel mx' mn Fm F1 Fs') as (d3 & D3 & E3). fold a in E3. rewrite Ea, E2, E1 in E3. fold w in E3.
      assert (Wp : 0 < w) by (unfold w; lra).
      exists (B2R (fsub mx' mn) / w - 1). split; [|field; lra].
      rewrite E3. set (c := a / w).
      assert (C : Rabs c <= 2). { unfold c, Rdiv. rewrite Rabs_mult, (Rabs_right (/ w)) by (apply Rle_ge, Rlt_le, Rinv_0_lt_compat; exact Wp). apply Rmult_le_reg_r with w; [exact Wp|]. rewrite Rmult_assoc, Rinv_l by lra. lra. }
      replace (((a + w * (1 + d1)) * (1 + d2) - a) * (1 + d3) / w - 1) with (d1 + d3 + d1 * d3 + (c + 1 + d1) * d2 * (1 + d3)) by (unfold c; field; lra).
      assert (B1 : Rabs (c + 1 + d1) <= 3 + u). { eapply Rle_trans; [apply Rabs_triang|]. pose proof (Rabs_triang c 1). rewrite Rabs_R1 in *. lra. }
      assert (B2 : Rabs (1 + d3) <= 1 + u). { eapply Rle_trans; [apply Rabs_triang|]. rewrite Rabs_R1. lra. }
      assert (B3 : Rabs (d1 * d3) <= u * u) by (rewrite Rabs_mult; apply Rmult_le_compat; try apply Rabs_pos; assumption).
      assert (B4 : Rabs ((c + 1 + d1) * d2 * (1 + d3)) <= (3 + u) * u * (1 + u)).
      { rewrite !Rabs_mult. apply Rmult_le_compat; [apply Rmult_le_pos; apply Rabs_pos|apply Rabs_pos| |exact B2]. apply Rmult_le_compat; try apply Rabs_pos; assumption. }
      eapply Rle_trans; [apply Rabs_triang|]. pose proof (Rabs_triang (d1 + d3) (d1 * d3)). pose proof (Rabs_triang d1 d3). nra.
  Qed.
  Lemma mm_real_saved : 0 <= u <= / 64 -> (1 + u) * ((1 + u) / (1 - 8 * u)) - 1 <= 12 * u.
  Proof using Type.
    intros U. assert (H : (1 + u) * ((1 + u) / (1 - 8 * u)) <= 1 + 12 * u); [|lra]. replace ((1 + u) * ((1 + u) / (1 - 8 * u))) with (((1 + u) * (1 + u)) / (1 - 8 * u)) by (field; lra).
    apply Rmult_le_reg_r with (1 - 8 * u); [lra|]. unfold Rdiv. rewrite Rmult_assoc, Rinv_l by lra. nra.
  Qed.
  Lemma mm_same_saved_accurate (mn mx : F) s s' (x : F) : (7 <= prec)%Z -> is_finite mn = true -> is_finite mx = true -> is_finite (fsub mx mn) = true -> B2R mn <> B2R mx ->
    mm_new same_ty mn mx = Ok s -> mm_reload same_ty s = Ok s' -> is_finite (snd s') = true -> is_finite x = true -> is_finite (mm_exec same_ty s' x) = true ->
    accurate (12 * u) eta (mm_exec same_ty s' x) ((B2R x - B2R mn) / (B2R mx - B2R mn)).
  Proof using Type.
    intros P F1 F2 F3 N E R Fs' Fx Fr. destruct (mm_same_new mn mx s F1 F2 E) as [-> Le]. clear E.
    unfold mm_reload, mm_saved in R. cbn [same_ty n_add bind fst snd] in R.
    assert (Es' : s' = (mn, fsub (fadd mn (fsub mx mn)) mn)).
    { unfold mm_new in R. cbn [same_ty n_lt n_sub bind] in R. destruct (Bltb _ _); [discriminate|]. now injection R as <-. }
    subst s'. cbn [snd] in Fs'.
    assert (Fm : is_finite (fadd mn (fsub mx mn)) = true).
    { destruct (fadd mn (fsub mx mn)) as [t|t| |t m e B]; try reflexivity; destruct mn as [q|q| |q m' e' B']; try discriminate F1; discriminate Fs'. }
    destruct (saved_width mn mx ltac:(lia) F1 F2 F3 ltac:(lra) Fm Fs') as (_ & d2 & D2 & E2).
    assert (U : 0 <= u <= / 64). { split; [apply Rlt_le, unit_pos|]. unfold unit_error. apply Rle_trans with (bpow radix2 (-7)); [apply bpow_le; lia|]. change (bpow radix2 (-7)) with (/ 128). lra. }
    assert (Ns : B2R (fsub (fadd mn (fsub mx mn)) mn) <> 0).
    { rewrite E2. apply Rmult_integral_contrapositive. split; [lra|]. apply Rabs_le_inv in D2. lra. }
    rewrite (mm_same_exec mn _ x Fs' Ns Fx) in *. destruct (fdiv_fin _ _ Fs' Ns Fr) as [Fn _].
    destruct (sub_rel x mn Fx F1 Fn) as (d1 & D1 & E1).
    apply accurate_weaken with (1 := mm_real_saved U).
    apply (div_close u (8 * u) _ _ d1 d2); [exact D1|exact D2|lra|lra|exact E1|exact E2|exact Fs'|exact Fr].
  Qed.

  (** Integers of at most [prec] bits. *)
  Lemma mm_int_accurate signed w (mn mx x : Z) s : (3 <= prec)%Z -> (prec + 2 < emax)%Z -> (1 <= w)%nat -> (Z.abs mn <= 2 ^ prec)%Z -> (Z.abs mx <= 2 ^ prec)%Z -> (Z.abs (mx - mn) <= 2 ^ prec)%Z -> fits signed w (mx - mn) = true -> mn <> mx ->
    mm_new (int_ty signed w : numty prec emax Z) mn mx = Ok s -> (Z.abs x <= 2 ^ prec)%Z ->
    accurate (4 * u) eta (mm_exec (int_ty signed w : numty prec emax Z) s x) (IZR (x - mn) / IZR (mx - mn)).
  Proof using Type.
    intros P Pe W H1 H2 H3 H4 N E Hx.
    assert (Es : s = (mn, (mx - mn)%Z)).
    { unfold mm_new in E. cbn [int_ty n_lt n_sub] in E. destruct (mx <? mn)%Z; [discriminate|]. rewrite (int_sub_ok signed w mx mn W H4) in E. cbn [bind] in E. now injection E as <-. }
    subst s. unfold mm_exec. cbn [int_ty n_null n_is_zero n_cv fst snd]. destruct (Z.eqb_spec 0 (mx - mn)) as [Z0|Z0]; [lia|].
    destruct (of_int_exact (prec := prec) (emax := emax) mn H1) as [A1 A2]. destruct (of_int_exact (prec := prec) (emax := emax) x Hx) as [B1 B2]. destruct (of_int_exact (prec := prec) (emax := emax) _ H3) as [C1 C2].
    assert (Big : forall y, Rabs y <= bpow radix2 (prec + 1) -> Rabs (rnd y) < bpow radix2 emax).
    { intros y Hy. rewrite rnd_abs. apply Rle_lt_trans with (bpow radix2 (prec + 1)); [|apply bpow_lt; lia].
      rewrite <- (rnd_fmt (prec := prec) (emax := emax) (bpow radix2 (prec + 1))); [now apply rnd_mono|]. apply fmt_pow; lia. }
    assert (Dx : (Z.abs (x - mn) <= 2 ^ (prec + 1))%Z) by (rewrite Z.pow_add_r by lia; lia).
    assert (Dr : Rabs (IZR x - IZR mn) <= bpow radix2 (prec + 1)).
    { rewrite <- minus_IZR, <- abs_IZR, <- (IZR_Zpower radix2) by lia. now apply IZR_le. }
    destruct (fsub_ok (of_int x : binary_float prec emax) (of_int mn) B2 A2) as [G1 G2]; [rewrite A1, B1; apply Big, Dr|].
    destruct (sub_rel (of_int x : binary_float prec emax) (of_int mn) B2 A2 G2) as (d1 & D1 & E1).
    assert (Nz : IZR (mx - mn) <> 0) by (apply not_0_IZR; lia).
    assert (One : 1 <= Rabs (IZR (mx - mn))) by (rewrite <- abs_IZR; apply IZR_le; lia).
    destruct (fdiv_ok (fsub (of_int x : binary_float prec emax) (of_int mn)) (of_int (mx - mn)) G2) as [Q1 Q2]; [rewrite C1; exact Nz| |].
    { apply Big. rewrite C1. unfold Rdiv. rewrite Rabs_mult, Rabs_inv. apply Rle_trans with (Rabs (B2R (fsub (of_int x : binary_float prec emax) (of_int mn))) * 1).
      - apply Rmult_le_compat_l; [apply Rabs_pos|]. rewrite <- Rinv_1. apply Rinv_le; lra.
      - rewrite Rmult_1_r, G1, A1, B1, rnd_abs. rewrite <- (rnd_fmt (prec := prec) (emax := emax) (bpow radix2 (prec + 1))); [now apply rnd_mono|]. apply fmt_pow; lia. }
    pose proof (unit_small prec P) as U. rewrite A1, B1, <- minus_IZR in E1. apply accurate_weaken with ((1 + u) * ((1 + u) / (1 - 0)) - 1).
    - replace ((1 + u) / (1 - 0)) with (1 + u) by field. nra.
    - apply (div_close u 0 _ _ d1 0); [exact D1|rewrite Rabs_R0; lra|lra|exact Nz|exact E1|rewrite C1; ring|exact C2|exact Q2].
  Qed.

  (** Maximal magnitude; robust scaler. *)
  Lemma ma_accurate {I} (t : numty prec emax I) (scale : F) (x : I) : is_finite scale = true -> B2R scale <> 0 -> is_finite (n_cv t x) = true -> is_finite (ma_exec t scale x) = true ->
    accurate u eta (ma_exec t scale x) (B2R (n_cv t x) / B2R scale).
  Proof using Type.
    intros Fs Ns Fx Fr. unfold ma_exec in *. rewrite (is_zero_B2R scale Fs), Req_bool_false in * by exact Ns. apply accurate_weaken with ((1 + u) * ((1 + 0) / (1 - 0)) - 1).
    - right. field.
    - apply (div_close 0 0 _ _ 0 0); try (rewrite Rabs_R0); try lra; try assumption.
  Qed.
  Lemma robust_accurate {I} (t : numty prec emax I) (c s : F) (x : I) : (3 <= prec)%Z -> is_finite c = true -> is_finite s = true -> is_finite (n_cv t x) = true -> is_finite (robust_exec t (c, s) x) = true ->
    (B2R s <> 0 -> accurate (4 * u) eta (robust_exec t (c, s) x) ((B2R (n_cv t x) - B2R c) / B2R s)) /\
    (B2R s = 0 -> accurate u 0 (robust_exec t (c, s) x) (B2R (n_cv t x) - B2R c)).
  Proof using Type.
    intros P Fc Fs Fx Fr. unfold robust_exec in *. cbn [fst snd] in *. rewrite (is_zero_B2R s Fs) in *. pose proof (unit_small prec P) as U. split; intros Ns.
    - rewrite Req_bool_false in * by exact Ns. destruct (fdiv_fin _ _ Fs Ns Fr) as [Fn _]. destruct (sub_rel _ c Fx Fc Fn) as (d1 & D1 & E1).
      apply accurate_weaken with ((1 + u) * ((1 + u) / (1 - 0)) - 1); [replace ((1 + u) / (1 - 0)) with (1 + u) by field; nra|].
      apply (div_close u 0 _ _ d1 0); [exact D1|rewrite Rabs_R0; lra|lra|exact Ns|exact E1|ring|exact Fs|exact Fr].
    - rewrite Req_bool_true in * by exact Ns. split; [exact Fr|]. destruct (sub_rel _ c Fx Fc Fr) as (d & D & E). rewrite E.
      replace ((B2R (n_cv t x) - B2R c) * (1 + d) - (B2R (n_cv t x) - B2R c)) with (d * (B2R (n_cv t x) - B2R c)) by ring. rewrite Rabs_mult, Rplus_0_r. apply Rmult_le_compat_r; [apply Rabs_pos|exact D].
  Qed.
End Fmt.
