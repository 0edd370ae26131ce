From Coq Require Import Reals Lra Psatz.
From Flocq Require Import Core.Core IEEE754.BinarySingleNaN.
From Verif Require Import Base M_Estimator M_Stats M_Pipeline M_Impute M_Scale S_Stats S_Window L_Stats L_Stats3 L_Float L_Scale.
From Verif Require L_Window3.
Open Scope R_scope.

(** ** Conversion between formats *)
Section Convert.
  Context {p e p' e' : Z} {Hp : Prec_gt_0 p} {Hm : Prec_lt_emax p e} {Hp' : Prec_gt_0 p'} {Hm' : Prec_lt_emax p' e'}.
  Notation F := (binary_float p e).
  Notation G := (binary_float p' e').
  Lemma convert_round : forall x : F, is_finite x = true -> Rabs (rnd (prec := p') (emax := e') (B2R x)) < bpow radix2 e' ->
    B2R (convert x : G) = rnd (prec := p') (emax := e') (B2R x) /\ is_finite (convert x : G) = true.
  Proof using Type.
    intros x Fx H. destruct x as [s|s| |s m ex B]; try discriminate Fx.
    - cbn [convert B2R]. rewrite (@rnd_0 p' e' Hp'). split; reflexivity.
    - cbn [convert]. pose proof (binary_normalize_correct p' e' Hp' Hm' mode_NE (cond_Zopp s (Zpos m)) ex s) as C. cbv zeta in C.
      cbn [round_mode] in C. change (F2R (Float radix2 (cond_Zopp s (Zpos m)) ex)) with (B2R (B754_finite s m ex B)) in C.
      fold (rnd (prec := p') (emax := e') (B2R (B754_finite s m ex B))) in C. rewrite (Rlt_bool_true _ _ H) in C.
      destruct C as [C1 [C2 _]]. auto.
  Qed.
  (** To a wider format it is exact. *)
  Lemma widen_fmt : forall x : F, (p <= p')%Z -> (e <= e')%Z -> generic_format radix2 (SpecFloat.fexp p' e') (B2R x).
  Proof using Hp Hm Hp' Hm'.
    intros x H1 H2. destruct (FLT_format_generic radix2 (SpecFloat.emin p e) p (B2R x)) as [f E1 E2 E3]; [exact (generic_format_B2R p e x)|].
    apply (generic_format_FLT radix2 (SpecFloat.emin p' e') p'). exists f; [exact E1| |].
    - eapply Z.lt_le_trans; [exact E2|]. apply Zpower_le. lia.
    - unfold SpecFloat.emin in *. lia.
  Qed.
  Lemma convert_widen : forall x : F, (p <= p')%Z -> (e <= e')%Z -> is_finite x = true ->
    B2R (convert x : G) = B2R x /\ is_finite (convert x : G) = true.
  Proof using Hp Hm Hp' Hm'.
    intros x H1 H2 Fx. destruct (convert_round x Fx) as [A B].
    - rewrite rnd_fmt by (apply widen_fmt; auto). apply Rlt_le_trans with (bpow radix2 e); [apply abs_B2R_lt_emax|]. apply bpow_le. exact H2.
    - rewrite A, B. split; [apply rnd_fmt; apply widen_fmt; auto|reflexivity].
  Qed.
End Convert.

(** ** MinMax: float inputs, double outputs *)
Lemma mm_float_double : forall mn mx x : float32, is_finite mn = true -> is_finite mx = true -> is_finite x = true ->
  is_finite (fsub mx mn) = true -> B2R (fsub mx mn) = B2R mx - B2R mn -> B2R mn <= B2R x <= B2R mx ->
  exists s, mm_new float_to_double mn mx = Ok s /\
  let r := mm_exec float_to_double s x in
  is_finite r = true /\ 0 <= B2R r <= 1 /\ (B2R x = B2R mn -> B2R r = 0) /\ (B2R mn < B2R mx -> B2R x = B2R mx -> B2R r = 1).
Proof.
  intros mn mx x F1 F2 F3 Fs Ex H. unfold mm_new. cbn [float_to_double n_lt n_sub bind]. rewrite Bltb_correct by auto.
  rewrite Rlt_bool_false by lra. eexists. split; [reflexivity|]. cbv zeta. unfold mm_exec. cbn [float_to_double n_null n_is_zero n_cv fst snd].
  assert (Nx : is_nan x = false) by (destruct x; auto; discriminate F3). rewrite Nx.
  rewrite is_zero_B2R by exact Fs. case Req_bool_spec; intros E0.
  - split; [reflexivity|]. cbn [B2R fzero]. split; [lra|]. split; [reflexivity|]. intros Hlt. lra.
  - assert (W1 : (24 <= 53)%Z) by lia. assert (W2 : (128 <= 1024)%Z) by lia.
    destruct (@convert_widen 24 128 53 1024 _ _ _ _ mn W1 W2 F1) as [A1 A2]. destruct (@convert_widen 24 128 53 1024 _ _ _ _ mx W1 W2 F2) as [B1 B2].
    destruct (@convert_widen 24 128 53 1024 _ _ _ _ x W1 W2 F3) as [C1 C2]. destruct (@convert_widen 24 128 53 1024 _ _ _ _ (fsub mx mn) W1 W2 Fs) as [D1 D2].
    set (a := convert x : double) in *. set (b := convert mn : double) in *. set (c := convert mx : double) in *. set (d := convert (fsub mx mn) : double) in *.
    destruct (scale_core a b c d C2 A2 B2 D2) as [R1 [R2 [R3 R4]]].
    + rewrite A1, B1, <- Ex, <- D1. symmetry. apply rnd_B2R.
    + rewrite A1, B1, C1. exact H.
    + rewrite D1. exact E0.
    + rewrite A1, B1, C1 in *. auto.
Qed.

(** ** MaxAbs *)
Section MaxAbs.
  Context {prec emax : Z} {Hp : Prec_gt_0 prec} {Hm : Prec_lt_emax prec emax}.
  Notation F := (binary_float prec emax).
  (** [scale] is the largest magnitude of [l]. *)
  Definition dominates (scale : F) (l : list R) : Prop :=
    is_finite scale = true /\ 0 <= B2R scale /\ (forall r, In r l -> Rabs r <= B2R scale) /\ (B2R scale = 0 \/ exists r, In r l /\ Rabs r = B2R scale).
  Lemma dominates_app : forall scale l r, dominates scale l -> Rabs r <= B2R scale -> dominates scale (r :: l).
  Proof using Type.
    intros scale l r [A [B [C D]]] H. split; [exact A|]. split; [exact B|]. split; [intros q [<-|Hq]; auto|].
    destruct D as [D|[q [D1 D2]]]; [now left|right]. exists q. split; [now right|exact D2].
  Qed.
  Lemma ma_exec_in : forall {I} (t : numty prec emax I) (scale : F) l x, dominates scale l -> is_finite (n_cv t x) = true -> In (B2R (n_cv t x)) l ->
    let r := ma_exec t scale x in is_finite r = true /\ Rabs (B2R r) <= 1 /\ (B2R scale <> 0 -> Rabs (B2R (n_cv t x)) = B2R scale -> Rabs (B2R r) = 1).
  Proof using Type.
    intros I t scale l x [A [B [C _]]] Fx Hin. cbv zeta. unfold ma_exec. rewrite is_zero_B2R by exact A. case Req_bool_spec; intros E0.
    - specialize (C _ Hin). rewrite E0 in C. split; [exact Fx|]. split; [lra|]. intros N. contradiction.
    - destruct (div_unit (n_cv t x) scale Fx E0) as [D1 [D2 D3]]; [rewrite (Rabs_right (B2R scale)) by lra; now apply C|].
      split; [exact D1|]. split; [exact D3|]. intros _ Eq. rewrite D2, rnd_abs. unfold Rdiv. rewrite Rabs_mult, Eq, Rabs_inv, (Rabs_right (B2R scale)) by lra.
      rewrite Rinv_r by exact E0. apply rnd_1.
  Qed.

  Definition reals (l : list F) : list R := flat_map (fun x : F => if is_finite x then [B2R x] else []) l.
  Definition no_inf (x : F) : Prop := is_inf x = false.
  Lemma ma_fit_ok : forall (m x : F) l, dominates m l -> no_inf x -> exists m', ma_fit m x = Ok m' /\ dominates m' (reals [x] ++ l).
  Proof using Type.
    intros m x l D N. unfold ma_fit. cbv zeta. destruct (is_finite x) eqn:Fx.
    - unfold reals. cbn [flat_map]. rewrite Fx. cbn [app].
      assert (V : exists v : F, (if Bltb x fzero then Bopp x else x) = v /\ is_finite v = true /\ B2R v = Rabs (B2R x)).
      { rewrite Bltb_correct by auto. cbn [B2R fzero]. case Rlt_bool_spec; intros L.
        - exists (Bopp x). split; [reflexivity|]. rewrite is_finite_Bopp, B2R_Bopp. split; [exact Fx|]. rewrite Rabs_left by lra. reflexivity.
        - exists x. split; [reflexivity|]. split; [exact Fx|]. rewrite Rabs_right; lra. }
      destruct V as [v [-> [Fv Ev]]]. eexists. split; [reflexivity|]. pose proof D as [D1 [D2 [D3 D4]]].
      rewrite Bltb_correct by auto. case Rlt_bool_spec; intros L.
      + split; [exact Fv|]. split; [lra|]. split.
        * intros r [<-|Hr]; [lra|]. specialize (D3 r Hr). lra.
        * right. exists (B2R x). split; [now left|lra].
      + apply dominates_app; [exact D|lra].
    - exists m. unfold reals. cbn [flat_map]. rewrite Fx. cbn [app]. split; [|exact D].
      destruct x as [s|s| |s mm ex B]; try discriminate Fx; try discriminate N. f_equal.
      change (Bltb B754_nan (fzero : F)) with false. cbn iota. unfold Bltb, SpecFloat.SFltb. cbn. destruct (B2SF m); reflexivity.
  Qed.
  Lemma dominates_perm : forall m l l', dominates m l -> (forall r, In r l <-> In r l') -> dominates m l'.
  Proof using Type.
    intros m l l' [A [B [C D]]] H. split; [exact A|]. split; [exact B|]. split; [intros r Hr; apply C; now apply H|].
    destruct D as [D|[r [D1 D2]]]; [now left|right]. exists r. split; [now apply H|exact D2].
  Qed.
  Lemma ma_fold : forall xs (m : F) l, dominates m l -> Forall no_inf xs -> exists m', foldM ma_fit m xs = Ok m' /\ dominates m' (l ++ reals xs).
  Proof using Type.
    induction xs as [|x xs IH]; intros m l D N; cbn [foldM].
    - exists m. split; [reflexivity|]. cbn [reals flat_map]. rewrite app_nil_r. exact D.
    - inversion N; subst. destruct (ma_fit_ok m x l D H1) as [m1 [-> D1]]. cbn [bind]. destruct (IH m1 _ D1 H2) as [m2 [E D2]].
      exists m2. split; [exact E|]. eapply dominates_perm; [exact D2|]. intros r. unfold reals. cbn [flat_map]. rewrite !in_app_iff. cbn [In]. tauto.
  Qed.
  Lemma max_float_ok : is_finite (Bmax_float : F) = true /\ (forall x : F, B2R x <= B2R (Bmax_float : F)).
  Proof using Type.
    unfold Bmax_float. rewrite is_finite_SF2B. split; [reflexivity|]. intros x. rewrite B2R_SF2B. cbn [SF2R cond_Zopp].
    pose proof (abs_B2R_le_emax_minus_prec prec emax Hp x) as A. eapply Rle_trans; [apply Rle_abs|]. eapply Rle_trans; [exact A|]. right.
    unfold F2R. cbn [Fnum Fexp]. red in Hp.
    assert (E : Zpos (shift_pos (Z.to_pos prec) 1 - 1) = (2 ^ prec - 1)%Z).
    { rewrite Pos2Z.inj_sub.
      - rewrite shift_pos_correct, Z.mul_1_r, Z.pow_pos_fold, Z2Pos.id by exact Hp. reflexivity.
      - change (Z.pos 1 < Z.pos (shift_pos (Z.to_pos prec) 1))%Z. rewrite shift_pos_correct, Z.mul_1_r, Z.pow_pos_fold, Z2Pos.id by exact Hp.
        now apply (Zpower_gt_1 radix2). }
    rewrite E, minus_IZR. change 2%Z with (radix_val radix2). rewrite IZR_Zpower by lia. rewrite Rmult_minus_distr_r, <- bpow_plus, Rmult_1_l. do 2 f_equal. lia.
  Qed.
  Lemma ma_trained : forall mx bs, proper_training mx bs -> Forall no_inf (items mx bs) ->
    exists scale, trained ma_policy mx bs = Ok (Some scale) /\ dominates scale (reals (items mx bs)).
  Proof using Type.
    intros mx bs H N. destruct max_float_ok as [Fm Hmax]. unfold ma_policy. rewrite trained_simple by exact H.
    destruct (ma_fold (items mx bs) fzero []) as [m [E D]]; [|exact N|].
    { split; [reflexivity|]. cbn [B2R fzero]. split; [lra|]. split; [intros r []|now left]. }
    rewrite E. cbn [bind]. pose proof D as [D1 [D2 _]]. rewrite !Bltb_correct by auto. cbn [B2R fzero]. rewrite !Rlt_bool_false by (auto; lra). cbn [bind].
    exists m. split; [reflexivity|exact D].
  Qed.
  (** The whole MaxAbsScaler over floating point columns. *)
  Lemma ma_float : forall mx bs, proper_training mx bs -> Forall no_inf (items mx bs) ->
    exists scale : F, trained ma_policy mx bs = Ok (Some scale) /\
    forall x : F, In x (items mx bs) -> is_finite x = true ->
      let r := ma_exec same_ty scale x in is_finite r = true /\ Rabs (B2R r) <= 1 /\
      (B2R x <> 0 -> (forall y : F, In y (items mx bs) -> is_finite y = true -> Rabs (B2R y) <= Rabs (B2R x)) -> Rabs (B2R r) = 1).
  Proof using Type.
    intros mx bs H N. destruct (ma_trained mx bs H N) as [scale [E D]]. exists scale. split; [exact E|].
    intros x Hx Fx. assert (Hin : In (B2R x) (reals (items mx bs))).
    { apply in_flat_map. exists x. split; [exact Hx|]. rewrite Fx. now left. }
    destruct (ma_exec_in same_ty scale _ x D Fx Hin) as [A [B C]]. cbv zeta in *. split; [exact A|]. split; [exact B|].
    intros Nx Hm'. cbn [same_ty n_cv] in C. destruct D as [D1 [D2 [D3 D4]]]. pose proof (D3 _ Hin) as Lx.
    assert (Px : 0 < Rabs (B2R x)) by now apply Rabs_pos_lt.
    destruct D4 as [D4|[r [Hr Er]]]; [lra|]. apply in_flat_map in Hr. destruct Hr as [y [Hy Ey]].
    destruct (is_finite y) eqn:Fy; [|destruct Ey]. destruct Ey as [<-|[]]. specialize (Hm' y Hy Fy). apply C; lra.
  Qed.

  (** Integer columns. *)
  Lemma ofi : forall z, (64 < emax)%Z -> (Z.abs z <= 2 ^ 64)%Z -> B2R (of_int z : F) = rnd (prec := prec) (emax := emax) (IZR z) /\ is_finite (of_int z : F) = true.
  Proof using Type. intros z H1 H2. apply of_int_round with 64%Z; [lia|exact H2]. Qed.
  Definition irnd (z : Z) : R := rnd (prec := prec) (emax := emax) (IZR z).
  Lemma mai_fold : forall w xs (m : F) l, (64 < emax)%Z -> (w <= 8)%nat -> dominates m l -> Forall (fun x => fits_s w (Z.abs x) = true) xs ->
    exists m', foldM (maxabs_fit w (of_int (prec := prec) (emax := emax)) Bltb) m xs = Ok m' /\ dominates m' (l ++ map irnd xs).
  Proof using Type.
    intros w xs m l He Hw. revert m l. induction xs as [|x xs IH]; intros m l D N; cbn [foldM map].
    - exists m. split; [reflexivity|]. rewrite app_nil_r. exact D.
    - inversion N as [|? ? N1 N2]; subst.
      assert (Hx : (Z.abs x <= 2 ^ 64)%Z).
      { unfold fits_s in N1. apply andb_prop in N1. destruct N1 as [_ N1]. apply Z.ltb_lt in N1.
        assert (P : (two_pow8 w <= 2 ^ 64)%Z). { unfold two_pow8. replace (2 ^ 64)%Z with (256 ^ 8)%Z by reflexivity. apply Z.pow_le_mono_r; lia. }
        assert (0 <= two_pow8 w)%Z by (apply Z.pow_nonneg; lia). pose proof (Z.div_le_upper_bound (two_pow8 w) 2 (two_pow8 w)). lia. }
      assert (Hs : exists m', maxabs_fit w (of_int (prec := prec) (emax := emax)) Bltb m x = Ok m' /\ dominates m' (irnd x :: l)).
      { destruct (ofi (Z.abs x) He) as [V1 V2]; [lia|].
        assert (V : maxabs_fit w (of_int (prec := prec) (emax := emax)) Bltb m x = Ok (if Bltb m (of_int (Z.abs x)) then of_int (Z.abs x) else m)).
        { unfold maxabs_fit. destruct (Z.ltb_spec x 0).
          - rewrite (Z.abs_neq x) in * by lia. rewrite N1. reflexivity.
          - rewrite (Z.abs_eq x) in * by lia. reflexivity. }
        rewrite V. eexists. split; [reflexivity|]. rewrite abs_IZR, <- rnd_abs in V1. fold (irnd x) in V1. pose proof D as [D1 [D2 [D3 D4]]].
        rewrite Bltb_correct by auto. case Rlt_bool_spec; intros L.
        + split; [exact V2|]. split; [rewrite V1; apply Rabs_pos|]. split.
          * intros r [<-|Hr]; [lra|]. specialize (D3 r Hr). lra.
          * right. exists (irnd x). split; [now left|lra].
        + apply dominates_app; [exact D|lra]. }
      destruct Hs as [m1 [-> D1]]. cbn [bind]. destruct (IH m1 _ D1 N2) as [m2 [E D2]]. exists m2. split; [exact E|].
      eapply dominates_perm; [exact D2|]. intros r. rewrite !in_app_iff. cbn [In]. tauto.
  Qed.
  Lemma ma_int : forall signed w' w mx bs, (64 < emax)%Z -> (w <= 8)%nat -> proper_training mx bs -> Forall (fun x => fits_s w (Z.abs x) = true) (items mx bs) ->
    exists scale : F, trained (maxabs_policy w (of_int (prec := prec) (emax := emax)) Bltb fzero) mx bs = Ok (Some scale) /\
    forall x, In x (items mx bs) ->
      let r := ma_exec (int_ty signed w' : numty prec emax Z) scale x in is_finite r = true /\ Rabs (B2R r) <= 1 /\
      (x <> 0%Z -> (forall y, In y (items mx bs) -> (Z.abs y <= Z.abs x)%Z) -> Rabs (B2R r) = 1).
  Proof using Type.
    intros signed w' w mx bs He Hw H N. unfold maxabs_policy. rewrite trained_simple by exact H.
    destruct (mai_fold w (items mx bs) fzero [] He Hw) as [m [E D]]; [|exact N|].
    { split; [reflexivity|]. cbn [B2R fzero]. split; [lra|]. split; [intros r []|now left]. }
    rewrite E. cbn [bind]. cbn [app] in D. pose proof D as [D1 [D2 [D3 D4]]]. rewrite Bltb_correct by auto. cbn [B2R fzero]. rewrite Rlt_bool_false by lra. cbn [bind].
    exists m. split; [reflexivity|]. intros x Hx.
    assert (Bx : forall y, In y (items mx bs) -> (Z.abs y <= 2 ^ 64)%Z).
    { intros y Hy. rewrite Forall_forall in N. specialize (N y Hy). unfold fits_s in N. apply andb_prop in N. destruct N as [_ N]. apply Z.ltb_lt in N.
      assert (P : (two_pow8 w <= 2 ^ 64)%Z). { unfold two_pow8. replace (2 ^ 64)%Z with (256 ^ 8)%Z by reflexivity. apply Z.pow_le_mono_r; lia. }
      assert (0 <= two_pow8 w)%Z by (apply Z.pow_nonneg; lia). pose proof (Z.div_le_upper_bound (two_pow8 w) 2 (two_pow8 w)). lia. }
    destruct (ofi x He) as [V1 V2]; [auto|]. fold (irnd x) in V1.
    assert (Hin : In (B2R (of_int x : F)) (map irnd (items mx bs))). { rewrite V1. now apply in_map. }
    destruct (ma_exec_in (int_ty signed w') m _ x D V2 Hin) as [A [B C]]. cbv zeta in *. split; [exact A|]. split; [exact B|].
    intros Nx Hm'. cbn [int_ty n_cv] in C. rewrite V1 in C. pose proof (D3 _ Hin) as Lx. rewrite V1 in Lx.
    assert (Px : 1 <= Rabs (irnd x)).
    { unfold irnd. rewrite rnd_abs, <- (rnd_1 (prec := prec) (emax := emax)). apply rnd_mono. rewrite <- abs_IZR. apply IZR_le. lia. }
    destruct D4 as [D4|[r [Hr Er]]]; [lra|]. apply in_map_iff in Hr. destruct Hr as [y [<- Hy]].
    assert (Rabs (irnd y) <= Rabs (irnd x)). { unfold irnd. rewrite !rnd_abs. apply rnd_mono. rewrite <- !abs_IZR. apply IZR_le. auto. }
    apply C; lra.
  Qed.
End MaxAbs.
