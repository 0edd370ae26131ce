(** L1 and L2 norms of floating point numbers. *)
From Coq Require Import Reals Lra Psatz.
From Flocq Require Import Core.Core IEEE754.BinarySingleNaN.
From Verif Require Import Base L_List M_Scale M_FloatScale S_FloatStats S_FloatScale L_Float L_Scale2 L_FloatStats L_FloatStats2 L_FloatStats3 L_FloatScale.
Open Scope R_scope.

(** Constants. *)
Lemma pow_exp u n : 0 <= u -> (1 + u) ^ n <= exp (INR n * u).
Proof.
  intros U. induction n as [|n IH]; [cbn; rewrite Rmult_0_l, exp_0; lra|]. cbn [pow]. rewrite S_INR. replace ((INR n + 1) * u) with (u + INR n * u) by ring.
  rewrite exp_plus. apply Rmult_le_compat; [lra|apply pow_le; lra| |exact IH]. destruct (Req_dec u 0) as [->|N]; [rewrite exp_0; lra|]. apply Rlt_le, exp_ineq1. lra.
Qed.
Lemma unit_53 : unit_error 53 = / 9007199254740992.
Proof. reflexivity. Qed.
Lemma pow_le3 lp (n : nat) : (53 <= lp)%Z -> (Z.of_nat n <= 2 ^ 53)%Z -> (1 + unit_error lp) ^ n <= 3.
Proof.
  intros H1 H2. pose proof (unit_pos lp). pose proof (unit_mono 53 lp H1) as M. rewrite unit_53 in M.
  eapply Rle_trans; [apply pow_exp; lra|]. apply Rle_trans with (exp 1); [|apply exp_le_3].
  assert (N : INR n <= 9007199254740992) by (rewrite INR_IZR_INZ; apply IZR_le; lia). pose proof (pos_INR n).
  assert (D : INR n * unit_error lp <= 1).
  { apply Rle_trans with (9007199254740992 * / 9007199254740992); [apply Rmult_le_compat; lra|lra]. }
  destruct (Rle_lt_or_eq_dec _ _ D) as [D'|D']; [apply Rlt_le, exp_increasing; exact D'|rewrite D'; lra].
Qed.
Lemma pow_ge1 lp n : 1 <= (1 + unit_error lp) ^ n.
Proof. pose proof (unit_pos lp). apply pow_R1_Rle. lra. Qed.
Definition square_loss (le : Z) : R := if (le <? 4096)%Z then bpow radix2 (-1075) else 0.
Definition core_loss (le : Z) : R := if (le <? 4096)%Z then 9 / 16 * bpow radix2 (-535) else bpow radix2 (-1075).
Lemma square_loss_pos le : 0 <= square_loss le.
Proof. unfold square_loss. destruct (le <? 4096)%Z; [apply bpow_ge_0|lra]. Qed.
Lemma tiny_small le : 0 < core_loss le /\ core_loss le + 2 * bpow radix2 (-1075) <= 7 / 8 * tiny le.
Proof.
  unfold core_loss, tiny. pose proof (bpow_gt_0 radix2 (-535)). pose proof (bpow_gt_0 radix2 (-1075)). destruct (le <? 4096)%Z; split; try lra.
  - replace (-1075)%Z with (-535 + (-10 + -530))%Z by lia. rewrite !bpow_plus. assert (bpow radix2 (-530) <= 1) by (change 1 with (bpow radix2 0); apply bpow_le; lia).
    change (bpow radix2 (-10)) with (/ 1024). pose proof (bpow_gt_0 radix2 (-530)). nra.
  - replace (-1073)%Z with (-1075 + 2)%Z by lia. rewrite bpow_plus. change (bpow radix2 2) with 4. lra.
Qed.
Lemma core_bound le c k w : 1 <= c <= 3 -> 1 <= k -> 0 <= w <= / 1024 ->
  (1 + w) * sqrt (c * (k * square_loss le)) + bpow radix2 (-1075) <= sqrt k * core_loss le.
Proof.
  intros C K W. unfold square_loss, core_loss. pose proof (bpow_gt_0 radix2 (-1075)) as E. assert (K1 : 1 <= sqrt k) by (rewrite <- sqrt_1; apply sqrt_le_1_alt; lra).
  destruct (le <? 4096)%Z.
  - replace (c * (k * bpow radix2 (-1075))) with (k * (c * bpow radix2 (-1075))) by ring. rewrite sqrt_mult_alt by lra.
    assert (S : sqrt (c * bpow radix2 (-1075)) <= bpow radix2 (-536)).
    { apply Rle_trans with (sqrt (bpow radix2 (-536) * bpow radix2 (-536))); [|rewrite sqrt_square by apply bpow_ge_0; lra].
      apply sqrt_le_1_alt. rewrite <- bpow_plus. change (-536 + -536)%Z with (-1075 + 3)%Z. rewrite bpow_plus. change (bpow radix2 3) with 8. nra. }
    assert (P : bpow radix2 (-1075) <= / 1024 * bpow radix2 (-536)).
    { replace (-1075)%Z with (-10 + (-536 + -529))%Z by lia. rewrite !bpow_plus. change (bpow radix2 (-10)) with (/ 1024).
      assert (bpow radix2 (-529) <= 1) by (change 1 with (bpow radix2 0); apply bpow_le; lia). pose proof (bpow_gt_0 radix2 (-536)). nra. }
    change (-535)%Z with (-536 + 1)%Z. rewrite bpow_plus. change (bpow radix2 1) with 2. pose proof (bpow_gt_0 radix2 (-536)) as B. set (b := bpow radix2 (-536)) in *.
    assert (S2 : sqrt k * sqrt (c * bpow radix2 (-1075)) <= sqrt k * b) by (apply Rmult_le_compat_l; lra). pose proof (sqrt_pos (c * bpow radix2 (-1075))).
    assert (Q : 0 <= sqrt k * b) by (apply Rmult_le_pos; lra).
    assert (S3 : (1 + w) * (sqrt k * sqrt (c * bpow radix2 (-1075))) <= (1 + / 1024) * (sqrt k * b)).
    { apply Rmult_le_compat; [lra|apply Rmult_le_pos; lra|lra|exact S2]. }
    assert (S4 : / 1024 * b <= / 1024 * (sqrt k * b)) by (apply Rmult_le_compat_l; [lra|]; rewrite <- (Rmult_1_l b) at 1; apply Rmult_le_compat_r; lra).
    lra.
  - rewrite !Rmult_0_r, sqrt_0, Rmult_0_r, Rplus_0_l. rewrite <- (Rmult_1_l (bpow radix2 (-1075))) at 1. apply Rmult_le_compat_r; lra.
Qed.

Section Norms.
  Context {lp le : Z} {HLp : Prec_gt_0 lp} {HLm : Prec_lt_emax lp le}.
  Notation L := (binary_float lp le).
  Notation u := (unit_error lp).
  Lemma fmul_not_nan (x : L) : is_nan x = false -> is_nan (fmul (Babs x) (Babs x)) = false.
  Proof using Type.
    intros N. destruct x as [s|s| |s m ex B]; try discriminate; try reflexivity. set (y := Babs (B754_finite s m ex B) : L).
    pose proof (Bmult_correct lp le HLp HLm mode_NE y y) as C. unfold fmul. destruct (Rlt_bool _ _) in C.
    - destruct C as (_ & C & _). apply is_finite_nan. rewrite C. reflexivity.
    - destruct (Bmult mode_NE y y); try reflexivity. discriminate C.
  Qed.
  Lemma fmul_fin (x : L) : is_nan x = false -> is_finite (fmul (Babs x) (Babs x)) = true -> is_finite x = true /\ B2R (fmul (Babs x) (Babs x)) = rnd (prec := lp) (emax := le) (B2R x ^ 2).
  Proof using Type.
    intros N F. destruct x as [s|s| |s m ex B]; try discriminate.
    - split; [reflexivity|]. change (B2R (fmul (Babs (B754_zero s)) (Babs (B754_zero s)) : L)) with 0. cbn [B2R]. replace (0 ^ 2) with 0 by ring. now rewrite rnd_0.
    - split; [reflexivity|]. pose (x := B754_finite s m ex B : L). pose (y := Babs x). fold x. fold x in F. fold y. fold y in F. pose proof (Bmult_correct lp le HLp HLm mode_NE y y) as C. unfold fmul in *.
      destruct (Rlt_bool _ _) in C.
      + destruct C as (C & _). rewrite C. unfold y. rewrite B2R_Babs. change (round_mode mode_NE) with ZnearestE.
        replace (Rabs (B2R x) * Rabs (B2R x)) with (B2R x ^ 2) by (rewrite <- Rabs_mult, Rabs_right; [ring|apply Rle_ge; nra]). reflexivity.
      + apply overflow_inf in C. rewrite F in C. discriminate.
  Qed.
  Lemma checked_sum : forall (l : list L) (s0 s : L), is_finite s0 = true -> Forall (fun x => is_nan x = false) l -> foldM add_checked s0 l = Ok s ->
    s = fold_left fadd l s0 /\ all_finite s0 l /\ Forall (fun x => is_finite x = true) l.
  Proof using Type.
    induction l as [|x l IH]; intros s0 s F0 N H.
    - cbn in H. injection H as <-. repeat split. constructor.
    - inversion N as [|? ? Nx Nl]; subst. cbn [foldM] in H. unfold add_checked in H at 1. cbv zeta in H. destruct (Beqb _ _ && _); [discriminate|].
      destruct (is_inf (fadd s0 x)) eqn:Inf; [discriminate|]. cbn [bind] in H.
      assert (Fx : is_finite x = true).
      { destruct x as [b|b| |b m ex B]; try reflexivity; [|discriminate Nx]. destruct s0; try discriminate; destruct b; discriminate. }
      pose proof (fadd_not_inf s0 x F0 Fx Inf) as F1. destruct (IH _ _ F1 Nl H) as (A & B & C). cbn [fold_left all_finite]. repeat split; try assumption. now constructor.
  Qed.
  Lemma foldM_through {A B S} (f : S -> B -> res S) (g : A -> B) l : forall s, foldM (fun s x => f s (g x)) s l = foldM f s (map g l).
  Proof using Type. induction l as [|x l IH]; intros s; [reflexivity|]. cbn [foldM map]. destruct (f s (g x)); cbn [bind]; auto. Qed.

  Lemma magnitude_nonneg_total (l : list L) : (forall x, In x l -> 0 <= B2R x) -> magnitude l = total l.
  Proof using Type.
    induction l as [|x l IH]; intros H; [reflexivity|]. rewrite total_cons, magnitude_cons, IH by (intros; apply H; now right). rewrite Rabs_right; [reflexivity|]. apply Rle_ge, H. now left.
  Qed.
  Lemma total_rsum (l : list L) : total l = rsum (map B2R l). Proof using Type. reflexivity. Qed.

  (** The sum of squares. *)
  Lemma squares_near (ds : list L) s : (53 <= lp)%Z -> (1024 <= le)%Z -> ds <> [] -> Forall (fun x => is_nan x = false) ds ->
    (forall x, In x ds -> is_finite x = true -> B2R x <> 0 -> bpow radix2 (-1074) <= Rabs (B2R x)) ->
    foldM (fun s x => add_checked s (fmul (Babs x) (Babs x))) fzero ds = Ok s ->
    let k := length ds in
    Forall (fun x => is_finite x = true) ds /\ is_finite s = true /\ 0 <= B2R s /\ (is_zero s = true \/ Bsign s = false) /\
    near ((1 + u) ^ k) ((1 + u) ^ (k - 1) * (INR k * square_loss le)) (B2R s) (rsum (map (fun x => B2R x ^ 2) ds)).
  Proof using HLp HLm.
    intros P1 P2 NE N Big H k. set (g := fun x : L => fmul (Babs x) (Babs x)). rewrite (foldM_through add_checked g) in H.
    destruct (checked_sum (map g ds) fzero s eq_refl) as (A & B & C); [|exact H|].
    { rewrite Forall_map. eapply Forall_impl; [|exact N]. exact fmul_not_nan. }
    rewrite Forall_map in C. assert (G : forall x, In x ds -> is_finite x = true /\ B2R (g x) = rnd (prec := lp) (emax := le) (B2R x ^ 2)).
    { rewrite Forall_forall in N, C. intros x Hx. apply fmul_fin; [apply N|apply C]; exact Hx. }
    assert (G0 : forall y, In y (map g ds) -> 0 <= B2R y).
    { intros y Hy. apply in_map_iff in Hy. destruct Hy as (x & <- & Hx). rewrite (proj2 (G x Hx)). rewrite <- (rnd_0 (prec := lp) (emax := le)). apply rnd_mono. apply pow2_ge_0. }
    destruct (sum_err0 (map g ds)) as [F E]; [rewrite Forall_map; exact C|exact B|]. rewrite <- A in F, E.
    rewrite (magnitude_nonneg_total _ G0), map_length in E. fold k in E.
    assert (T0 : 0 <= total (map g ds)).
    { rewrite total_rsum. apply rsum_nonneg. intros y Hy. apply in_map_iff in Hy. destruct Hy as (x & <- & Hx). now apply G0. }
    split; [rewrite Forall_forall; intros x Hx; apply G; exact Hx|]. split; [exact F|].
    assert (Sg : forall l (s1 : L), (forall y, In y l -> Bsign y = false) -> Bsign s1 = false -> is_finite s1 = true -> all_finite s1 l -> Forall (fun x => is_finite x = true) l -> Bsign (fold_left fadd l s1 : L) = false).
    { clear. induction l as [|y l IH]; intros s1 H1 H2 H3 H4 H5; [exact H2|]. cbn [fold_left]. destruct H4 as [H4 H6]. inversion H5 as [|? ? Fy Fl]; subst. apply IH; auto; [intros; apply H1; now right|].
      pose proof (Bplus_correct lp le HLp HLm mode_NE s1 y H3 Fy) as C. unfold fadd in *. pose proof (H1 y (or_introl eq_refl)) as Hy.
      assert (Q1 : 0 <= B2R s1) by (destruct s1 as [b|b| |b m ex B]; cbn in *; try lra; subst; apply F2R_ge_0; cbn; lia).
      assert (Q2 : 0 <= B2R y) by (destruct y as [b|b| |b m ex B]; cbn in *; try lra; subst; apply F2R_ge_0; cbn; lia).
      destruct (Rlt_bool _ _) in C; [|destruct C as [C _]; apply overflow_inf in C; rewrite H4 in C; discriminate].
      destruct C as (_ & _ & C). rewrite C. destruct (Rcompare_spec (B2R s1 + B2R y) 0) as [|_|_]; [lra| |reflexivity]. rewrite H2, Hy. reflexivity. }
    assert (Ss : Bsign s = false).
    { rewrite A. apply Sg; [|reflexivity|reflexivity|exact B|rewrite Forall_map; exact C]. intros y Hy. apply in_map_iff in Hy. destruct Hy as (x & <- & Hx).
      rewrite Forall_forall in N. specialize (N x Hx). pose proof (proj1 (Forall_forall _ _) C x Hx) as Fg. cbv beta in Fg. unfold g in *. pose proof (Bmult_correct lp le HLp HLm mode_NE (Babs x) (Babs x)) as M. unfold fmul in *.
      destruct (Rlt_bool _ _) in M; [|apply overflow_inf in M; rewrite Fg in M; discriminate]. destruct M as (_ & _ & M). rewrite M by (now apply is_finite_nan). 
      destruct x; try reflexivity; discriminate. }
    assert (Sp : 0 <= B2R s) by (clear - Ss; destruct s as [b|b| |b m ex B]; cbn in *; try lra; subst; apply F2R_ge_0; cbn; lia).
    split; [exact Sp|]. split; [now right|].
    assert (N1 : near ((1 + u) ^ (k - 1)) 0 (B2R s) (total (map g ds))) by (unfold near; unfold errors in E; lra).
    assert (N2 : near (1 + u) (INR k * square_loss le) (total (map g ds)) (rsum (map (fun x => B2R x ^ 2) ds))).
    { rewrite total_rsum, map_map. apply near_rsum. intros x Hx. destruct (G x Hx) as [Fx Ex]. rewrite Ex. pose proof (pow2_ge_0 (B2R x)) as P. unfold square_loss. destruct (Z.ltb_spec le 4096) as [Hl|Hl].
      - eapply near_weaken; [exact P|apply Rle_refl| |apply near_rnd; exact P]. now apply half_emin.
      - apply near_rnd_rel; [exact P|]. intros Nx. specialize (Big x Hx Fx).
        assert (Nx' : B2R x <> 0) by (intros Q; apply Nx; rewrite Q; ring). specialize (Big Nx'). unfold SpecFloat.emin.
        apply Rle_trans with (bpow radix2 (-1074 + -1074)); [apply bpow_le; lia|]. rewrite bpow_plus.
        replace (B2R x ^ 2) with (Rabs (B2R x) * Rabs (B2R x)) by (rewrite <- Rabs_mult, Rabs_right; [ring|apply Rle_ge; nra]).
        apply Rmult_le_compat; auto using bpow_ge_0. }
    pose proof (near_trans _ _ _ _ _ _ _ (pow_ge1 lp (k - 1)) N1 N2) as N3. rewrite Rplus_0_l in N3.
    replace ((1 + u) ^ k) with ((1 + u) ^ (k - 1) * (1 + u)); [exact N3|]. unfold k. destruct ds as [|x0 ds']; [congruence|]. cbn [length]. replace (S (length ds') - 1)%nat with (length ds') by lia. cbn [pow]. ring.
  Qed.
  (** Its root. *)
  Lemma root_near (ds : list L) s : (53 <= lp)%Z -> (1024 <= le)%Z -> ds <> [] -> (Z.of_nat (length ds) <= 2 ^ 53)%Z -> Forall (fun x => is_nan x = false) ds ->
    (forall x, In x ds -> is_finite x = true -> B2R x <> 0 -> bpow radix2 (-1074) <= Rabs (B2R x)) ->
    foldM (fun s x => add_checked s (fmul (Babs x) (Babs x))) fzero ds = Ok s ->
    let k := length ds in let n := fsqrt s in
    Forall (fun x => is_finite x = true) ds /\ is_finite n = true /\ 0 <= B2R n /\ near ((1 + u) ^ (k + 1)) (sqrt (INR k) * core_loss le) (B2R n) (l2 (map B2R ds)).
  Proof using HLp HLm.
    intros P1 P2 NE K N Big H k n. destruct (squares_near ds s P1 P2 NE N Big H) as (A & B & C & D & E). fold k in E.
    destruct (fsqrt_ok s B C D) as [R1 R2]. split; [exact A|]. split; [exact R2|]. fold n in R1, R2.
    assert (K1 : 1 <= INR k) by (change 1 with (INR 1); apply le_INR; unfold k; destruct ds; [congruence|cbn; lia]).
    assert (S0 : 0 <= rsum (map (fun x => B2R x ^ 2) ds)) by (apply rsum_nonneg; intros y Hy; apply in_map_iff in Hy; destruct Hy as (x & <- & Hx); apply pow2_ge_0).
    assert (R0 : 0 <= B2R n) by (rewrite R1; rewrite <- (rnd_0 (prec := lp) (emax := le)); apply rnd_mono; apply sqrt_pos). split; [exact R0|].
    assert (Q : 0 <= (1 + u) ^ (k - 1) * (INR k * square_loss le)) by (pose proof (pow_ge1 lp (k - 1)); pose proof (square_loss_pos le); apply Rmult_le_pos; [lra|apply Rmult_le_pos; lra]).
    apply near_sqrt in E; [|apply pow_ge1|exact Q|exact C|exact S0].
    pose proof (near_rnd (prec := lp) (emax := le) (sqrt (B2R s)) (sqrt_pos _)) as M. rewrite <- R1 in M.
    pose proof (unit_pos lp) as U. assert (U1 : 1 <= 1 + u) by lra. pose proof (near_trans _ _ _ _ _ _ _ U1 M E) as T. replace ((1 + u) ^ (k + 1)) with ((1 + u) * (1 + u) ^ k) by (rewrite Nat.add_1_r; reflexivity).
    unfold l2. rewrite map_map. eapply near_weaken; [apply sqrt_pos|apply Rle_refl| |exact T].
    pose proof (half_emin lp le P1 P2) as He. pose proof (unit_mono 53 lp P1) as Um. rewrite unit_53 in Um.
    pose proof (core_bound le ((1 + u) ^ (k - 1)) (INR k) u (conj (pow_ge1 lp (k - 1)) (pow_le3 lp (k - 1) P1 ltac:(unfold k; lia))) K1 ltac:(lra)) as Cb. lra.
  Qed.
  Lemma fold_nonneg (l : list L) : forall s, is_finite s = true -> all_finite s l -> Forall (fun x => is_finite x = true) l -> (forall x, In x l -> 0 <= B2R x) -> 0 <= B2R s -> 0 <= B2R (fold_left fadd l s).
  Proof using HLp HLm.
    induction l as [|x l IH]; intros s Fs A F N S0; [exact S0|]. destruct A as [A1 A2]. inversion F as [|? ? Fx Fl]; subst. cbn [fold_left]. apply IH; auto; [intros; apply N; now right|].
    rewrite (fadd_fin _ _ Fs Fx A1). rewrite <- (rnd_0 (prec := lp) (emax := le)). apply rnd_mono. pose proof (N x (or_introl eq_refl)). lra.
  Qed.
  (** L1. *)
  Lemma abs_near (ds : list L) s : ds <> [] -> Forall (fun x => is_nan x = false) ds ->
    foldM (fun s x => add_checked s (Babs x)) fzero ds = Ok s ->
    Forall (fun x => is_finite x = true) ds /\ is_finite s = true /\ 0 <= B2R s /\ near ((1 + u) ^ (length ds - 1)) 0 (B2R s) (l1 (map B2R ds)).
  Proof using HLp HLm.
    intros NE N H. rewrite (foldM_through add_checked (Babs (emax := le))) in H.
    destruct (checked_sum (map (Babs (emax := le)) ds) fzero s eq_refl) as (A & B & C); [|exact H|].
    { rewrite Forall_map. eapply Forall_impl; [|exact N]. intros x Hx. destruct x; auto. }
    destruct (sum_err0 (map (Babs (emax := le)) ds) C B) as [F E]. rewrite <- A in F, E. rewrite Forall_map in C.
    assert (T : total (map (Babs (emax := le)) ds) = l1 (map B2R ds)) by (unfold l1; rewrite total_rsum, !map_map; apply rsum_map_ext; intros x _; now rewrite B2R_Babs).
    rewrite magnitude_nonneg_total, T, map_length in E by (intros y Hy; apply in_map_iff in Hy; destruct Hy as (x & <- & _); rewrite B2R_Babs; apply Rabs_pos).
    split; [eapply Forall_impl; [|exact C]; intros x Hx; destruct x; auto|]. split; [exact F|]. split; [|unfold near; unfold errors in E; lra].
    rewrite A. apply fold_nonneg; [reflexivity|exact B|rewrite Forall_map; exact C| |cbn; lra]. intros y Hy. apply in_map_iff in Hy. destruct Hy as (x & <- & _). rewrite B2R_Babs. apply Rabs_pos.
  Qed.
End Norms.
