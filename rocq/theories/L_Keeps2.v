(** C83: the scalers keep the order. *)
From Coq Require Import Reals Lra Psatz.
From Flocq Require Import Core.Core IEEE754.BinarySingleNaN.
From Verif Require Import Base M_Estimator M_Stats M_Scale S_Stats S_Window S_Scale S_FloatStats S_Keeps L_Estimator L_Stats L_Stats3 L_Float L_Scale L_Scale2 L_Scale3 L_Scale4 L_Scale5 L_FloatStats6 L_Keeps.
Open Scope R_scope.

Section Scalers.
  Context {p e : Z} {Hp : Prec_gt_0 p} {Hm : Prec_lt_emax p e}.
  Notation F := (binary_float p e).
  Lemma columns_int signed w : column_order (int_ty signed w : numty p e Z) Z.le.
  Proof using. split; [intros x y H; apply of_int_keeps; exact H|intros x y _; split; reflexivity]. Qed.
  Lemma columns_same : column_order (same_ty : numty p e F) not_above.
  Proof using. split; [intros x y H; exact H|]. intros x y H. exact (not_above_nan x y H). Qed.
  Section Any.
    Context {I : Type}.
    Variable t : numty p e I.
    Variable le_in : I -> I -> Prop.
    Hypothesis Ht : column_order t le_in.
    Lemma mm_keeps (mn span : I) : is_finite (n_cv t mn) = true -> n_is_zero t span = true \/ (is_finite (n_cv t span) = true /\ 0 < B2R (n_cv t span)) ->
      keeps_order le_in (mm_exec t (mn, span)).
    Proof using Ht.
      intros F1 F2 x y H. destruct Ht as [K N]. destruct (N x y H) as [Nx Ny]. unfold mm_exec. rewrite Nx, Ny. cbn [fst snd].
      destruct (n_is_zero t span); [reflexivity|]. destruct F2 as [F2|[F2 F3]]; [discriminate F2|].
      apply fdiv_keeps; [exact F2|exact F3|]. apply fsub_keeps; [exact F1|]. exact (K x y H).
    Qed.
    Lemma ma_keeps (scale : F) : is_finite scale = true -> 0 <= B2R scale -> keeps_order le_in (ma_exec t scale).
    Proof using Ht.
      intros F1 F2 x y H. destruct Ht as [K _]. unfold ma_exec. rewrite is_zero_B2R by exact F1. case Req_bool_spec; intros Z0; [exact (K x y H)|].
      apply fdiv_keeps; [exact F1|lra|exact (K x y H)].
    Qed.
    Lemma robust_keeps (c s : F) : is_finite c = true -> is_finite s = true -> 0 <= B2R s -> keeps_order le_in (robust_exec t (c, s)).
    Proof using Ht.
      intros F0 F1 F2 x y H. destruct Ht as [K _]. unfold robust_exec. cbn [fst snd]. rewrite is_zero_B2R by exact F1.
      case Req_bool_spec; intros Z0; [|apply fdiv_keeps; [exact F1|lra|]]; (apply fsub_keeps; [exact F0|exact (K x y H)]).
    Qed.
    Lemma standard_keeps (wm ws : bool) (avg dev : F) s : is_finite avg = true -> is_finite dev = true -> standard_create wm ws avg dev = Ok s -> keeps_order le_in (standard_exec t s).
    Proof using Ht.
      intros F0 F1 E x y H. destruct Ht as [K N]. destruct (N x y H) as [Nx Ny]. unfold standard_exec. rewrite Nx, Ny.
      assert (O1 : is_finite (of_int 1 : F) = true /\ B2R (of_int 1 : F) = 1).
      { destruct (of_int_place (p := p) (e := e) 1) as [_ P]. pose proof (@one_lt_big p e Hp Hm) as B1.
        assert (L1 : lim (p := p) (e := e) (IZR 1) = 1) by (unfold lim; rewrite rnd_1, Rabs_R1, Rlt_bool_true by exact B1; reflexivity).
        rewrite L1 in P. destruct (of_int 1 : F) as [b|[]| |b m k HH] eqn:EO; cbn [place] in P.
        - cbn [B2R] in P. lra.
        - pose proof (bpow_gt_0 radix2 e). lra.
        - lra.
        - cbn [B2R] in P. lra.
        - split; [reflexivity|exact P]. }
      unfold standard_create, standard_new in E. generalize dependent (of_int 1 : F). intros one E O1. set (d := if ws then dev else one) in *. cbn [fst snd] in E.
      assert (Fd : is_finite d = true) by (unfold d; destruct ws; [exact F1|exact (proj1 O1)]).
      rewrite is_zero_B2R in E by exact Fd.
      destruct (Req_bool_spec (B2R d) 0) as [Z0|Z0].
      - destruct (Bltb one fzero); [discriminate E|]. injection E as <-. cbn [fst snd].
        apply fdiv_keeps; [exact (proj1 O1)|rewrite (proj2 O1); lra|]. apply fsub_keeps; [destruct wm; [exact F0|reflexivity]|exact (K x y H)].
      - rewrite Bltb_correct in E by (assumption || reflexivity). cbn [fzero B2R] in E. destruct (Rlt_bool_spec (B2R d) 0) as [Ng|Ng]; [discriminate E|]. injection E as <-. cbn [fst snd].
        apply fdiv_keeps; [exact Fd|lra|]. apply fsub_keeps; [destruct wm; [exact F0|reflexivity]|exact (K x y H)].
    Qed.
  End Any.

  (** Creation of min-max scalers. *)
  Lemma sub_pos (mn mx : F) : is_finite mn = true -> is_finite mx = true -> is_finite (fsub mx mn) = true -> Bltb mx mn = false ->
    is_zero (fsub mx mn) = true \/ 0 < B2R (fsub mx mn).
  Proof using.
    intros F1 F2 F3 L. rewrite Bltb_correct in L by assumption. destruct (Rlt_bool_spec (B2R mx) (B2R mn)) as [A|A]; [discriminate L|].
    rewrite is_zero_B2R by exact F3. rewrite (fsub_fin mx mn F2 F1 F3). case Req_bool_spec; intros Z0; [left; reflexivity|right].
    assert (0 <= rnd (prec := p) (emax := e) (B2R mx - B2R mn)) by (rewrite <- (rnd_0 (prec := p) (emax := e)); apply rnd_mono; lra). lra.
  Qed.
  Lemma mm_same_keeps (mn mx : F) s : is_finite mn = true -> is_finite mx = true -> is_finite (fsub mx mn) = true -> mm_new same_ty mn mx = Ok s ->
    keeps_order not_above (mm_exec same_ty s).
  Proof using.
    intros F1 F2 F3. unfold mm_new. cbn [same_ty n_lt n_sub bind]. destruct (Bltb mx mn) eqn:L; [discriminate|]. intros E. injection E as <-.
    apply mm_keeps; [exact columns_same|exact F1|]. cbn [same_ty n_is_zero n_cv]. destruct (sub_pos mn mx F1 F2 F3 L) as [Z0|P0]; [left; exact Z0|right; split; assumption].
  Qed.
  Lemma of_int_pos z : (64 < e)%Z -> (Z.abs z <= 2 ^ 64)%Z -> is_finite (of_int z : F) = true /\ ((1 <= z)%Z -> 0 < B2R (of_int z : F)).
  Proof using.
    intros H1 H2. destruct (ofi (prec := p) (emax := e) z H1 H2) as [A B]. split; [exact B|]. intros H3. rewrite A.
    assert (1 <= rnd (prec := p) (emax := e) (IZR z)) by (rewrite <- (rnd_1 (prec := p) (emax := e)); apply rnd_mono; apply IZR_le; exact H3). lra.
  Qed.
  Lemma fits_64 signed w z : (w <= 8)%nat -> fits signed w z = true -> (Z.abs z <= 2 ^ 64)%Z.
  Proof using.
    intros Hw H. assert (P : (two_pow8 w <= 2 ^ 64)%Z) by (unfold two_pow8; change (2 ^ 64)%Z with (256 ^ Z.of_nat 8)%Z; apply Z.pow_le_mono_r; lia).
    unfold fits, fits_s, fits_u in H. destruct signed; apply andb_prop in H as [A B]; lia.
  Qed.
  Lemma mm_int_keeps signed w (mn mx : Z) s : (64 < e)%Z -> (1 <= w <= 8)%nat -> fits signed w mn = true -> fits signed w (mx - mn) = true ->
    mm_new (int_ty signed w : numty p e Z) mn mx = Ok s -> keeps_order Z.le (mm_exec (int_ty signed w : numty p e Z) s).
  Proof using.
    intros He Hw F1 F2. unfold mm_new. cbn [int_ty n_lt n_sub]. destruct (Z.ltb_spec mx mn) as [L|L]; [discriminate|].
    rewrite int_sub_ok by (assumption || lia). cbn [bind]. intros E. injection E as <-.
    destruct (of_int_pos mn He (fits_64 signed w mn (proj2 Hw) F1)) as [A _]. destruct (of_int_pos (mx - mn) He (fits_64 signed w (mx - mn) (proj2 Hw) F2)) as [B C].
    apply mm_keeps; [apply columns_int|exact A|]. cbn [int_ty n_is_zero n_cv]. destruct (Z.eqb_spec 0 (mx - mn)) as [Z0|Z0]; [left; reflexivity|right]. split; [exact B|apply C; lia].
  Qed.
  (** Training of maximal magnitudes. *)
  Lemma ma_fold_nan (xs : list F) : forall m m', is_nan m = false -> foldM ma_fit m xs = Ok m' -> is_nan m' = false.
  Proof using.
    induction xs as [|x xs IH]; intros m m' N; cbn [foldM]; [intros E; injection E as <-; exact N|]. unfold ma_fit at 1. cbn [bind]. intros E. revert E. apply IH.
    set (v := if Bltb x fzero then Bopp x else x). destruct (Bltb m v) eqn:L; [|exact N].
    destruct v as [|[]| |]; try reflexivity. destruct m as [|[]| |]; cbn in L; discriminate L.
  Qed.
  Lemma mai_fold_nan w (xs : list Z) : forall m m' : F, is_nan m = false -> foldM (maxabs_fit w of_int Bltb) m xs = Ok m' -> is_nan m' = false.
  Proof using.
    induction xs as [|x xs IH]; intros m m' N; cbn [foldM]; [intros E; injection E as <-; exact N|]. unfold maxabs_fit at 1.
    assert (NN : forall z, is_nan (if Bltb m (of_int z) then of_int z else m) = false) by (intros z; destruct (Bltb m (of_int z)); [apply of_int_place|exact N]).
    destruct (Z.ltb x 0).
    - destruct (fits_s w (- x)); cbn [bind]; [|discriminate]. apply IH. apply NN.
    - cbn [bind]. apply IH. apply NN.
  Qed.
End Scalers.
Lemma columns_float : column_order float_to_double not_above.
Proof. split; [intros x y H; apply convert_keeps; exact H|]. intros x y H. exact (not_above_nan x y H). Qed.
Lemma mm_float_keeps (mn mx : float32) s : is_finite mn = true -> is_finite mx = true -> is_finite (fsub mx mn) = true -> mm_new float_to_double mn mx = Ok s ->
  keeps_order not_above (mm_exec float_to_double s).
Proof.
  intros F1 F2 F3. unfold mm_new. cbn [float_to_double n_lt n_sub bind]. destruct (Bltb mx mn) eqn:L; [discriminate|]. intros E. injection E as <-.
  assert (W1 : (24 <= 53)%Z) by lia. assert (W2 : (128 <= 1024)%Z) by lia.
  destruct (@convert_widen 24 128 53 1024 _ _ _ _ mn W1 W2 F1) as [A1 A2]. destruct (@convert_widen 24 128 53 1024 _ _ _ _ (fsub mx mn) W1 W2 F3) as [D1 D2].
  apply mm_keeps; [exact columns_float|exact A2|]. cbn [float_to_double n_is_zero n_cv]. destruct (sub_pos mn mx F1 F2 F3 L) as [Z0|P0]; [left; exact Z0|right]. split; [exact D2|].
  rewrite D1. exact P0.
Qed.
