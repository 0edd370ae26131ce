(** C83: rounding, conversion, subtraction and division by a positive number keep the order. *)
From Coq Require Import Reals Lra Psatz.
From Flocq Require Import Core.Core IEEE754.BinarySingleNaN.
From Verif Require Import Base M_Estimator M_Stats M_Scale S_Stats S_Scale S_FloatStats S_Keeps L_Estimator L_Stats L_Stats3 L_Float L_Scale L_Scale2 L_Scale3 L_Scale4 L_Scale5 L_FloatStats6.
Open Scope R_scope.

Section Limit.
  Context {p e : Z} {Hp : Prec_gt_0 p} {Hm : Prec_lt_emax p e}.
  Notation F := (binary_float p e).
  Notation big := (bpow radix2 e).
  Lemma not_above_nan (x y : F) : not_above x y -> is_nan x = false /\ is_nan y = false.
  Proof using. unfold not_above, Bleb, SpecFloat.SFleb. destruct x as [|[]| |], y as [|[]| |]; cbn; intros H; try discriminate H; split; reflexivity. Qed.
  Lemma place_le (x y : F) : is_nan x = false -> is_nan y = false -> (not_above x y <-> place x <= place y).
  Proof using Hp Hm.
    intros Nx Ny. assert (E : Bleb x y = negb (Bltb y x)).
    { unfold Bleb, Bltb, SpecFloat.SFleb, SpecFloat.SFltb. pose proof (Bcompare_swap p e x y) as W. unfold Bcompare in W. rewrite W.
      destruct (SpecFloat.SFcompare (B2SF x) (B2SF y)) as [[]|] eqn:C; try reflexivity. exfalso. clear W. destruct x as [|[]| |[]], y as [|[]| |[]]; cbn in C; try discriminate; cbn in Nx, Ny; discriminate. }
    unfold not_above. rewrite E, place_lt by assumption. case Rlt_bool_spec; cbn [negb]; intros H; split; intros G; try discriminate G; try lra; reflexivity.
  Qed.
  Lemma place_big (x : F) : - big <= place x <= big.
  Proof using Hp Hm.
    pose proof (bpow_gt_0 radix2 e). destruct x as [s|[]| |s m k H']; cbn [place]; try lra.
    - cbn [B2R]. lra.
    - cbn [B2R]. lra.
    - pose proof (abs_B2R_lt_emax p e (B754_finite s m k H')) as A. apply Rabs_def2 in A. lra.
  Qed.
  (** The nearest number, or an infinity. *)
  Definition lim (v : R) : R := if Rlt_bool (Rabs (rnd (prec := p) (emax := e) v)) big then rnd (prec := p) (emax := e) v else if Rlt_bool v 0 then - big else big.
  Lemma lim_mono v w : v <= w -> lim v <= lim w.
  Proof using Hp.
    intros H. pose proof (rnd_mono (prec := p) (emax := e) v w H) as M. pose proof (bpow_gt_0 radix2 e) as B. unfold lim.
    assert (NP : forall u, u <= 0 -> rnd (prec := p) (emax := e) u <= 0) by (intros u Hu; rewrite <- (rnd_0 (prec := p) (emax := e)); apply rnd_mono; exact Hu).
    assert (PP : forall u, 0 <= u -> 0 <= rnd (prec := p) (emax := e) u) by (intros u Hu; rewrite <- (rnd_0 (prec := p) (emax := e)); apply rnd_mono; exact Hu).
    destruct (Rlt_bool_spec (Rabs (rnd (prec := p) (emax := e) v)) big) as [Hv|Hv]; destruct (Rlt_bool_spec (Rabs (rnd (prec := p) (emax := e) w)) big) as [Hw|Hw].
    - exact M.
    - apply Rabs_def2 in Hv. case Rlt_bool_spec; intros S; [|lra]. rewrite Rabs_left1 in Hw by (apply NP; lra). lra.
    - apply Rabs_def2 in Hw. case Rlt_bool_spec; intros S; [lra|]. rewrite Rabs_pos_eq in Hv by (apply PP; lra). lra.
    - case Rlt_bool_spec; intros S; case Rlt_bool_spec; intros S'; lra.
  Qed.
  Lemma infinite_place (x : F) s : B2SF x = binary_overflow p e mode_NE s -> is_nan x = false /\ place x = if s then - big else big.
  Proof using Hp Hm.
    intros H. change (binary_overflow p e mode_NE s) with (SpecFloat.S754_infinity s) in H. destruct x; try discriminate H. injection H as ->. split; reflexivity.
  Qed.
  Lemma finite_place (x : F) : is_finite x = true -> is_nan x = false /\ place x = B2R x.
  Proof using. destruct x; intros H; try discriminate H; split; reflexivity. Qed.
  Lemma sign_neg (x : F) : is_finite x = true -> if Bsign x then B2R x <= 0 else 0 <= B2R x.
  Proof using Hp Hm.
    destruct x as [s|s| |s m k H]; intros Fx; try discriminate Fx; cbn [Bsign B2R]; [destruct s; lra|].
    destruct s; [left; apply F2R_lt_0; reflexivity|left; apply F2R_gt_0; reflexivity].
  Qed.
  Lemma not_small v : ~ Rabs (rnd (prec := p) (emax := e) v) < big -> v <> 0.
  Proof using Hp. intros H ->. apply H. rewrite rnd_0, Rabs_R0. apply bpow_gt_0. Qed.

  Lemma fsub_place (x y : F) : is_finite x = true -> is_finite y = true -> is_nan (fsub x y) = false /\ place (fsub x y) = lim (B2R x - B2R y).
  Proof using Hp Hm.
    intros Fx Fy. pose proof (Bminus_correct p e Hp Hm mode_NE x y Fx Fy) as B. cbn [round_mode] in B. fold (rnd (prec := p) (emax := e) (B2R x - B2R y)) in B. unfold lim.
    destruct (Rlt_bool_spec (Rabs (rnd (prec := p) (emax := e) (B2R x - B2R y))) big) as [H|H].
    - destruct B as (B1 & B2 & _). destruct (finite_place (fsub x y) B2) as [N P]. split; [exact N|]. rewrite P. exact B1.
    - destruct B as [B1 B2]. destruct (infinite_place (fsub x y) _ B1) as [N P]. split; [exact N|]. rewrite P.
      assert (D : B2R x - B2R y <> 0) by (apply not_small; lra). pose proof (sign_neg x Fx) as S1. pose proof (sign_neg y Fy) as S2. rewrite B2 in *. destruct (Bsign y); cbn [negb] in *.
      + rewrite Rlt_bool_false by lra. reflexivity.
      + rewrite Rlt_bool_true by lra. reflexivity.
  Qed.
  Lemma fdiv_place (x s : F) : is_finite x = true -> is_finite s = true -> 0 < B2R s -> is_nan (fdiv x s) = false /\ place (fdiv x s) = lim (B2R x / B2R s).
  Proof using Hp Hm.
    intros Fx Fs Hs. assert (Z0 : B2R s <> 0) by lra. pose proof (Bdiv_correct p e Hp Hm mode_NE x s Z0) as B. cbn [round_mode] in B. fold (rnd (prec := p) (emax := e) (B2R x / B2R s)) in B. unfold lim.
    destruct (Rlt_bool_spec (Rabs (rnd (prec := p) (emax := e) (B2R x / B2R s))) big) as [H|H].
    - destruct B as (B1 & B2 & _). rewrite Fx in B2. destruct (finite_place (fdiv x s) B2) as [N P]. split; [exact N|]. rewrite P. exact B1.
    - destruct (infinite_place (fdiv x s) _ B) as [N P]. split; [exact N|]. rewrite P.
      assert (D : B2R x / B2R s <> 0) by (apply not_small; lra). pose proof (sign_neg x Fx) as S1. pose proof (sign_neg s Fs) as S2. destruct (Bsign s); [lra|].
      pose proof (Rinv_0_lt_compat _ Hs) as I. unfold Rdiv in *. destruct (Bsign x); cbn [xorb].
      + rewrite Rlt_bool_true by nra. reflexivity.
      + rewrite Rlt_bool_false by nra. reflexivity.
  Qed.
  Lemma normalize_place (m k : Z) (z : bool) : let x := binary_normalize p e Hp Hm mode_NE m k z : F in is_nan x = false /\ place x = lim (F2R (Float radix2 m k)).
  Proof using Hp Hm.
    pose proof (binary_normalize_correct p e Hp Hm mode_NE m k z) as B. cbv zeta in *. cbn [round_mode] in B. fold (rnd (prec := p) (emax := e) (F2R (Float radix2 m k))) in B. unfold lim.
    destruct (Rlt_bool_spec (Rabs (rnd (prec := p) (emax := e) (F2R (Float radix2 m k)))) big) as [H|H].
    - destruct B as (B1 & B2 & _). destruct (finite_place _ B2) as [N P]. split; [exact N|]. rewrite P. exact B1.
    - exact (infinite_place _ _ B).
  Qed.
  Lemma of_int_place z : is_nan (of_int z : F) = false /\ place (of_int z : F) = lim (IZR z).
  Proof using Hp Hm. destruct (normalize_place z 0 false) as [N P]. split; [exact N|]. unfold of_int. rewrite P. f_equal. unfold F2R. cbn [Fnum Fexp bpow]. lra. Qed.
  Lemma of_int_keeps a b : (a <= b)%Z -> not_above (of_int a : F) (of_int b).
  Proof using Hp Hm.
    intros H. destruct (of_int_place a) as [N1 P1], (of_int_place b) as [N2 P2]. apply place_le; [exact N1|exact N2|]. rewrite P1, P2. apply lim_mono. apply IZR_le. exact H.
  Qed.

  Lemma fsub_inf s (c : F) : is_finite c = true -> fsub (B754_infinity s) c = B754_infinity s.
  Proof using. destruct c; intros H; try discriminate H; reflexivity. Qed.
  Lemma fdiv_inf s (d : F) : is_finite d = true -> 0 < B2R d -> fdiv (B754_infinity s) d = B754_infinity s.
  Proof using Hp Hm.
    intros Fd Hd. pose proof (sign_neg d Fd) as S. destruct d as [s'|s'| |s' m k H]; try discriminate Fd; [cbn [B2R] in Hd; lra|]. cbn [Bsign] in S. destruct s'; [lra|].
    destruct s; reflexivity.
  Qed.
  (** A function that is [lim] of something monotone on finite numbers and leaves infinities alone. *)
  Lemma keeps_by (f : F -> F) (g : R -> R) : (forall s, f (B754_infinity s) = B754_infinity s) ->
    (forall x, is_finite x = true -> is_nan (f x) = false /\ place (f x) = lim (g (B2R x))) -> (forall u v, u <= v -> g u <= g v) ->
    forall x y, not_above x y -> not_above (f x) (f y).
  Proof using Hp Hm.
    intros H1 H2 H3 x y H. destruct (not_above_nan x y H) as [Nx Ny]. apply place_le in H; [|exact Nx|exact Ny].
    assert (NN : forall z, is_nan z = false -> is_nan (f z) = false).
    { intros z Nz. destruct (is_finite z) eqn:Fz; [apply H2; exact Fz|]. destruct z; try discriminate. rewrite H1. reflexivity. }
    apply place_le; [apply NN; exact Nx|apply NN; exact Ny|].
    pose proof (place_big (f x)) as Bx. pose proof (place_big (f y)) as By. pose proof (place_big x) as Bx'. pose proof (place_big y) as By'.
    destruct (is_finite x) eqn:Fx; destruct (is_finite y) eqn:Fy.
    - rewrite (proj2 (H2 x Fx)), (proj2 (H2 y Fy)). apply lim_mono, H3. rewrite (proj2 (finite_place x Fx)), (proj2 (finite_place y Fy)) in H. exact H.
    - destruct y as [|[]| |]; try discriminate; rewrite H1 in *; cbn [place] in *; [|lra].
      exfalso. rewrite (proj2 (finite_place x Fx)) in *. pose proof (abs_B2R_lt_emax p e x) as A. apply Rabs_def2 in A. lra.
    - destruct x as [|[]| |]; try discriminate; rewrite H1 in *; cbn [place] in *; [lra|].
      exfalso. rewrite (proj2 (finite_place y Fy)) in *. pose proof (abs_B2R_lt_emax p e y) as A. apply Rabs_def2 in A. lra.
    - destruct x as [|[]| |]; try discriminate; destruct y as [|[]| |]; try discriminate; rewrite ?H1; exact H.
  Qed.
  Lemma fsub_keeps (c : F) : is_finite c = true -> forall x y, not_above x y -> not_above (fsub x c) (fsub y c).
  Proof using Hp Hm.
    intros Fc. apply (keeps_by (fun x => fsub x c) (fun r => r - B2R c)).
    - intros s. apply fsub_inf. exact Fc.
    - intros x Fx. apply fsub_place; assumption.
    - intros u v H. lra.
  Qed.
  Lemma fdiv_keeps (s : F) : is_finite s = true -> 0 < B2R s -> forall x y, not_above x y -> not_above (fdiv x s) (fdiv y s).
  Proof using Hp Hm.
    intros Fs Hs. apply (keeps_by (fun x => fdiv x s) (fun r => r / B2R s)).
    - intros b. apply fdiv_inf; assumption.
    - intros x Fx. apply fdiv_place; assumption.
    - intros u v H. unfold Rdiv. apply Rmult_le_compat_r; [left; apply Rinv_0_lt_compat; exact Hs|exact H].
  Qed.
  Lemma not_above_refl (x : F) : is_nan x = false -> not_above x x.
  Proof using Hp Hm. intros N. apply place_le; [exact N|exact N|lra]. Qed.
End Limit.

Section Convert.
  Context {p e p' e' : Z} {Hp : Prec_gt_0 p} {Hm : Prec_lt_emax p e} {Hp' : Prec_gt_0 p'} {Hm' : Prec_lt_emax p' e'}.
  Notation F := (binary_float p e).
  Notation G := (binary_float p' e').
  Lemma convert_nan (x : F) : is_nan x = false -> is_nan (convert x : G) = false.
  Proof using Hp Hm Hp' Hm'. destruct x as [s|s| |s m k H]; intros N; try discriminate N; try reflexivity. exact (proj1 (normalize_place _ _ _)). Qed.
  Lemma convert_place (x : F) : is_finite x = true -> place (convert x : G) = lim (p := p') (e := e') (B2R x).
  Proof using Hp Hm Hp' Hm'.
    destruct x as [s|s| |s m k H]; intros Fx; try discriminate Fx.
    - cbn [convert place B2R]. unfold lim. rewrite rnd_0, Rabs_R0, Rlt_bool_true by apply bpow_gt_0. reflexivity.
    - cbn [convert]. rewrite (proj2 (normalize_place (p := p') (e := e') (cond_Zopp s (Zpos m)) k s)). reflexivity.
  Qed.
  Lemma convert_keeps (x y : F) : not_above x y -> not_above (convert x : G) (convert y).
  Proof using Hp Hm Hp' Hm'.
    intros H. destruct (not_above_nan x y H) as [Nx Ny]. apply place_le in H; [|exact Nx|exact Ny].
    apply place_le; [apply convert_nan; exact Nx|apply convert_nan; exact Ny|].
    pose proof (place_big (convert x : G)) as Bx. pose proof (place_big (convert y : G)) as By. pose proof (place_big x) as Bx'. pose proof (place_big y) as By'.
    destruct (is_finite x) eqn:Fx; destruct (is_finite y) eqn:Fy.
    - rewrite !convert_place by assumption. apply lim_mono. rewrite (proj2 (finite_place x Fx)), (proj2 (finite_place y Fy)) in H. exact H.
    - destruct y as [|[]| |]; try discriminate; cbn [convert place] in *; [|lra].
      exfalso. rewrite (proj2 (finite_place x Fx)) in *. pose proof (abs_B2R_lt_emax p e x) as A. apply Rabs_def2 in A. lra.
    - destruct x as [|[]| |]; try discriminate; cbn [convert place] in *; [lra|].
      exfalso. rewrite (proj2 (finite_place y Fy)) in *. pose proof (abs_B2R_lt_emax p e y) as A. apply Rabs_def2 in A. lra.
    - pose proof (bpow_gt_0 radix2 e). pose proof (bpow_gt_0 radix2 e'). destruct x as [|[]| |]; try discriminate; destruct y as [|[]| |]; try discriminate; cbn [convert place] in *; lra.
  Qed.
End Convert.
