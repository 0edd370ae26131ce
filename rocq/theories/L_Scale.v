From Coq Require Import Reals Lra Psatz.
From Flocq Require Import Core.Core IEEE754.BinarySingleNaN.
From Verif Require Import Base M_Estimator M_Stats M_Pipeline M_Impute M_Scale S_Stats S_Window L_Stats L_Stats3 L_Float.
From Verif Require L_Window3.
Open Scope R_scope.

Section MinMax.
  Context {prec emax : Z} {Hp : Prec_gt_0 prec} {Hm : Prec_lt_emax prec emax}.
  Notation F := (binary_float prec emax).

  (** The common core: [s] is the rounded difference of the bounds. *)
  Lemma scale_core : forall a b c s : F, is_finite a = true -> is_finite b = true -> is_finite c = true -> is_finite s = true ->
    B2R s = rnd (prec := prec) (emax := emax) (B2R c - B2R b) -> B2R b <= B2R a <= B2R c -> B2R s <> 0 ->
    let r := fdiv (fsub a b) s in
    is_finite r = true /\ 0 <= B2R r <= 1 /\ (B2R a = B2R b -> B2R r = 0) /\ (B2R a = B2R c -> B2R r = 1).
  Proof using Type.
    intros a b c s Fa Fb Fc Fs Es Hab Hs. cbv zeta.
    assert (H0 : 0 <= rnd (prec := prec) (emax := emax) (B2R a - B2R b)). { rewrite <- (@rnd_0 prec emax Hp). apply rnd_mono. lra. }
    assert (H1 : rnd (prec := prec) (emax := emax) (B2R a - B2R b) <= B2R s). { rewrite Es. apply rnd_mono. lra. }
    destruct (fsub_ok a b Fa Fb) as [E1 F1].
    { rewrite Rabs_right by lra. eapply Rle_lt_trans; [exact H1|]. eapply Rle_lt_trans; [apply Rle_abs|apply abs_B2R_lt_emax]. }
    destruct (div_pos (fsub a b) s F1) as [D1 [D2 [D3 D4]]]; [rewrite E1; lra|exact Hs|].
    split; [exact D1|]. split; [exact D2|]. split; intros E.
    - apply D3. rewrite E1, E, Rminus_diag_eq by reflexivity. apply rnd_0.
    - apply D4. rewrite E1, Es, E. reflexivity.
  Qed.

  Lemma mm_same : forall mn mx x : F, is_finite mn = true -> is_finite mx = true -> is_finite x = true -> is_finite (fsub mx mn) = true ->
    B2R mn <= B2R x <= B2R mx ->
    exists s, mm_new same_ty mn mx = Ok s /\
    let r := mm_exec same_ty s x in
    is_finite r = true /\ 0 <= B2R r <= 1 /\ (B2R x = B2R mn -> B2R r = 0) /\ (B2R mn < B2R mx -> B2R x = B2R mx -> B2R r = 1).
  Proof using Type.
    intros mn mx x F1 F2 F3 Fs H. unfold mm_new. cbn [same_ty n_lt n_sub bind]. rewrite Bltb_correct by auto.
    rewrite Rlt_bool_false by lra. eexists. split; [reflexivity|]. cbv zeta. unfold mm_exec. cbn [same_ty n_null n_is_zero n_cv fst snd].
    assert (Nx : is_nan x = false) by (destruct x; auto; discriminate F3). rewrite Nx.
    pose proof (fsub_fin mx mn F2 F1 Fs) as Es. rewrite is_zero_B2R by exact Fs.
    case Req_bool_spec; intros E0.
    - split; [reflexivity|]. cbn [B2R fzero]. split; [lra|]. split; [reflexivity|]. intros Hlt. rewrite Es in E0. apply rnd_sub_0 in E0. lra.
    - destruct (scale_core x mn mx (fsub mx mn) F3 F1 F2 Fs Es H E0) as [D1 [D2 [D3 D4]]]. auto.
  Qed.
End MinMax.

Lemma two_pow8_le : forall w, (w <= 4)%nat -> (two_pow8 w <= 2 ^ 32)%Z.
Proof. intros w H. unfold two_pow8. replace (2 ^ 32)%Z with (256 ^ 4)%Z by reflexivity. apply Z.pow_le_mono_r; lia. Qed.
Lemma fits_bound : forall signed w z, (1 <= w <= 4)%nat -> fits signed w z = true -> (Z.abs z < 2 ^ 32)%Z.
Proof.
  intros signed w z Hw H. pose proof (two_pow8_le w) as A. destruct (L_Window3.two_pow8_even w) as [E P]; [lia|].
  destruct signed; cbn in H; [unfold fits_s in H|unfold fits_u in H]; lia.
Qed.
Lemma int_sub_ok : forall signed w a b, (1 <= w)%nat -> fits signed w (a - b) = true -> int_op Z.sub signed w a b = Ok (a - b)%Z.
Proof.
  intros [] w a b Hw H; unfold int_op; cbn [fits] in H.
  - rewrite H, L_Window3.to_s_fits by auto. now destruct (Nat.ltb w 4).
  - unfold to_u. unfold fits_u in H. rewrite Z.mod_small by lia. reflexivity.
Qed.

Section Ints.
  Context {prec emax : Z} {Hp : Prec_gt_0 prec} {Hm : Prec_lt_emax prec emax}.
Lemma mm_int_gen : forall (signed : bool) (w : nat) (mn mx x : Z), (1 <= w)%nat ->
  (Z.abs mn <= 2 ^ prec)%Z -> (Z.abs mx <= 2 ^ prec)%Z -> (mx - mn <= 2 ^ prec)%Z ->
  fits signed w (mx - mn) = true -> (mn <= x <= mx)%Z ->
  exists s, mm_new (int_ty signed w : numty prec emax Z) mn mx = Ok s /\
  let r := mm_exec (int_ty signed w : numty prec emax Z) s x in
  is_finite r = true /\ 0 <= B2R r <= 1 /\ (x = mn -> B2R r = 0) /\ ((mn < mx)%Z -> x = mx -> B2R r = 1).
Proof using Type.
  intros signed w mn mx x Hw F1 F2 Fs Fit H. unfold mm_new. cbn [int_ty n_lt n_sub].
  destruct (Z.ltb_spec mx mn); [lia|]. rewrite int_sub_ok by (auto; lia). cbn [bind]. eexists. split; [reflexivity|]. cbv zeta.
  unfold mm_exec. cbn [int_ty n_null n_is_zero n_cv fst snd].
  destruct (Z.eqb_spec 0 (mx - mn)) as [E|E].
  - split; [reflexivity|]. cbn [B2R fzero]. split; [lra|]. split; [reflexivity|]. lia.
  - destruct (@of_int_exact prec emax _ _ mn) as [A1 A2]; [lia|]. destruct (@of_int_exact prec emax _ _ mx) as [B1 B2]; [lia|].
    destruct (@of_int_exact prec emax _ _ x) as [C1 C2]; [lia|]. destruct (@of_int_exact prec emax _ _ (mx - mn)) as [D1 D2]; [lia|].
    destruct (scale_core (of_int x) (of_int mn) (of_int mx) (of_int (mx - mn) : binary_float prec emax) C2 A2 B2 D2) as [R1 [R2 [R3 R4]]].
    + rewrite D1, A1, B1, <- minus_IZR. symmetry. apply rnd_fmt. apply int_fmt. lia.
    + rewrite A1, B1, C1. split; apply IZR_le; lia.
    + rewrite D1. apply not_0_IZR. lia.
    + split; [exact R1|]. split; [exact R2|]. split; [intros ->; apply R3; reflexivity|]. intros _ ->. apply R4. reflexivity.
Qed.
Lemma mm_int : forall (signed : bool) (w : nat) (mn mx x : Z), (32 <= prec)%Z -> (1 <= w <= 4)%nat -> fits signed w mn = true -> fits signed w mx = true ->
  fits signed w (mx - mn) = true -> (mn <= x <= mx)%Z ->
  exists s, mm_new (int_ty signed w : numty prec emax Z) mn mx = Ok s /\
  let r := mm_exec (int_ty signed w : numty prec emax Z) s x in
  is_finite r = true /\ 0 <= B2R r <= 1 /\ (x = mn -> B2R r = 0) /\ ((mn < mx)%Z -> x = mx -> B2R r = 1).
Proof using Type.
  intros signed w mn mx x Hprec Hw F1 F2 Fs H. assert (P : (2 ^ 32 <= 2 ^ prec)%Z) by (apply Z.pow_le_mono_r; lia).
  pose proof (fits_bound _ _ _ Hw F1). pose proof (fits_bound _ _ _ Hw F2). pose proof (fits_bound _ _ _ Hw Fs).
  apply mm_int_gen; auto; lia.
Qed.

(** From the training data. *)
Lemma mm_int_trained : forall (signed : bool) (w mx : nat) (bs : list (list Z)) (lo hi : Z), (32 <= prec)%Z -> (1 <= w <= 4)%nat -> proper_training mx bs ->
  (lo < hi)%Z -> (forall v, fits signed w v = true <-> (lo <= v <= hi)%Z) ->
  Forall (fun v => fits signed w v = true) (items mx bs) -> items mx bs <> [] ->
  (forall v u, In v (items mx bs) -> In u (items mx bs) -> fits signed w (v - u) = true \/ (v < u)%Z) ->
  exists mn mxv s, trained (minmax_policy Z.ltb lo hi) mx bs = Ok (Some (mn, mxv)) /\ mm_new (int_ty signed w : numty prec emax Z) mn mxv = Ok s /\
    forall x, In x (items mx bs) -> let r := mm_exec (int_ty signed w : numty prec emax Z) s x in is_finite r = true /\ 0 <= B2R r <= 1.
Proof using Type.
  intros signed w mx bs lo hi Hprec Hw Hpt Hlh Hlim Hfit Hne Hspan. rewrite Forall_forall in Hfit.
  assert (Htot : total_order Z.eqb Z.ltb). { unfold total_order. repeat split; intros; lia. }
  destruct Htot as [T1 [T2 [T3 T4]]].
  destruct (L_Stats2.minmax_spec Z.ltb T2 T3 T4 lo hi mx bs Hpt) as [_ M]; [lia| |].
  { intros x Hx. specialize (Hfit x Hx). apply Hlim in Hfit. lia. }
  destruct (M Hne) as [mn [mxv [E [[I1 L1] [I2 L2]]]]].
  assert (Hle : (mn <= mxv)%Z) by (specialize (L1 mxv I2); lia).
  assert (Hs : fits signed w (mxv - mn) = true). { destruct (Hspan mxv mn I2 I1) as [A|A]; [exact A|lia]. }
  destruct (mm_int signed w mn mxv mn Hprec Hw (Hfit _ I1) (Hfit _ I2) Hs) as [s [Es _]]; [lia|].
  exists mn, mxv, s. split; [exact E|]. split; [exact Es|]. intros x Hx.
  destruct (mm_int signed w mn mxv x Hprec Hw (Hfit _ I1) (Hfit _ I2) Hs) as [s' [Es' [R1 [R2 _]]]].
  { specialize (L1 x Hx). specialize (L2 x Hx). lia. }
  rewrite Es in Es'. injection Es' as <-. cbv zeta. auto.
Qed.

End Ints.
(** Reloading. *)
Lemma to_s_mod : forall w a b, (1 <= w)%nat -> fits_s w b = true -> (exists k, a = b + k * two_pow8 w)%Z -> to_s w a = b.
Proof.
  intros w a b Hw H [k ->]. pose proof (L_Window3.to_s_fits w b Hw H) as E. unfold to_s in *.
  rewrite Z.mod_add by (destruct (L_Window3.two_pow8_even w Hw); lia). exact E.
Qed.
Lemma to_s_cong : forall w a, (1 <= w)%nat -> exists k, to_s w a = (a + k * two_pow8 w)%Z.
Proof.
  intros w a Hw. destruct (L_Window3.two_pow8_even w Hw). unfold to_s. pose proof (Z.div_mod a (two_pow8 w)) as D.
  destruct (Z.ltb_spec (a mod two_pow8 w) (two_pow8 w / 2)).
  - exists (- (a / two_pow8 w))%Z. lia.
  - exists (- (a / two_pow8 w) - 1)%Z. lia.
Qed.
Lemma mm_int_reload : forall (p e : Z) (Hp : Prec_gt_0 p) (Hm : Prec_lt_emax p e) (signed : bool) (w : nat) (mn mx : Z) s, (1 <= w)%nat ->
  fits signed w mn = true -> fits signed w mx = true ->
  mm_new (int_ty signed w : numty p e Z) mn mx = Ok s -> mm_reload (int_ty signed w : numty p e Z) s = Ok s.
Proof.
  intros p e Hp Hm signed w mn mx s Hw F1 F2 H. unfold mm_new in H. cbn [int_ty n_lt n_sub] in H. destruct (Z.ltb_spec mx mn) as [|L]; [discriminate|].
  unfold mm_reload, mm_saved. cbn [int_ty n_add].
  assert (Hadd : forall span, int_op Z.sub signed w mx mn = Ok span -> int_op Z.add signed w mn span = Ok mx).
  { unfold int_op. destruct signed; cbn [fits] in F1, F2.
    - destruct (Nat.ltb w 4).
      + intros span [= <-]. f_equal. apply to_s_mod; auto. destruct (to_s_cong w (mx - mn) Hw) as [k ->]. exists k. lia.
      + destruct (fits_s w (mx - mn)); [|discriminate]. intros span [= <-]. replace (mn + (mx - mn))%Z with mx by lia. rewrite F2. reflexivity.
    - intros span [= <-]. f_equal. unfold to_u. rewrite Zplus_mod_idemp_r. unfold fits_u in F2. rewrite Z.mod_small; lia. }
  destruct (int_op Z.sub signed w mx mn) as [span| |] eqn:E; cbn [bind] in H; try discriminate. injection H as <-. cbn [fst snd].
  rewrite (Hadd span eq_refl). cbn [bind fst snd]. unfold mm_new. cbn [int_ty n_lt n_sub]. destruct (Z.ltb_spec mx mn); [lia|]. rewrite E. reflexivity.
Qed.

Section Reload.
  Context {prec emax : Z} {Hp : Prec_gt_0 prec} {Hm : Prec_lt_emax prec emax}.
  Notation F := (binary_float prec emax).
  (** If the span is exact, the reloaded scaler computes the same results. *)
  Lemma mm_same_reload : forall (mn mx : F) s, is_finite mn = true -> is_finite mx = true -> is_finite (fsub mx mn) = true ->
    B2R (fsub mx mn) = B2R mx - B2R mn -> mm_new same_ty mn mx = Ok s ->
    exists s', mm_reload same_ty s = Ok s' /\ forall x, mm_exec same_ty s' x = mm_exec same_ty s x.
  Proof using Type.
    intros mn mx s F1 F2 Fs Ex H. unfold mm_new in H. cbn [same_ty n_lt n_sub bind] in H. rewrite Bltb_correct in H by auto.
    destruct (Rlt_bool_spec (B2R mx) (B2R mn)) as [|L]; [discriminate|]. injection H as <-.
    unfold mm_reload, mm_saved. cbn [same_ty n_add bind fst snd].
    assert (Es : B2R mn + B2R (fsub mx mn) = B2R mx) by lra.
    destruct (fadd_ok mn (fsub mx mn) F1 Fs) as [A1 A2]. { rewrite Es, rnd_B2R. apply abs_B2R_lt_emax. }
    rewrite Es, rnd_B2R in A1. set (mx' := fadd mn (fsub mx mn)) in *.
    unfold mm_new. cbn [same_ty n_lt n_sub bind]. rewrite Bltb_correct by auto. rewrite A1. rewrite Rlt_bool_false by lra.
    eexists. split; [reflexivity|]. intros x. unfold mm_exec. cbn [same_ty n_null n_is_zero n_cv fst snd]. destruct (is_nan x); [reflexivity|].
    destruct (fsub_ok mx' mn A2 F1) as [B1 B2].
    { rewrite A1. rewrite <- (fsub_fin mx mn F2 F1 Fs). apply abs_B2R_lt_emax. }
    rewrite A1, <- (fsub_fin mx mn F2 F1 Fs) in B1. rewrite !is_zero_B2R by auto. rewrite B1.
    case Req_bool_spec; intros E0; [reflexivity|]. f_equal.
    apply B2R_inj; [|  |exact B1].
    - apply is_finite_strict_B2R. congruence.
    - apply is_finite_strict_B2R. exact E0.
  Qed.
End Reload.
