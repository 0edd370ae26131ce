(** Normalized rows have norm 1. *)
From Coq Require Import Reals Lra Psatz.
From Flocq Require Import Core.Core IEEE754.BinarySingleNaN Plus_error.
From Verif Require Import Base L_List M_Estimator M_Stats M_Pipeline M_Impute M_Scale M_FloatStats M_FloatScale S_Stats S_FloatStats S_Scale S_FloatScale L_Stats L_Float L_Scale2 L_Scale4 L_FloatStats L_FloatStats2 L_FloatStats3 L_FloatScale L_FloatScale2 L_FloatScale3 L_FloatScale4 L_FloatScale5.
Open Scope R_scope.

Definition close (E N : R) (x y : R) : Prop := Rabs (y - x / N) <= E * Rabs (x / N) + bpow radix2 (-1073).
Lemma scaled_values {p e} E N (row : list (binary_float p e)) : forall out, row_scaled E N row out -> Forall2 (close E N) (real_values row) (real_values out).
Proof.
  induction row as [|x row IH]; intros out [Hl H].
  - destruct out; [constructor|discriminate].
  - destruct out as [|y out]; [discriminate|]. cbn [length] in Hl. assert (T : row_scaled E N row out) by (split; [lia|intros j z Hz; exact (H (S j) z Hz)]). specialize (IH _ T).
    destruct (H 0%nat x eq_refl) as (y' & Ey & A & B). cbn in Ey. injection Ey as <-. unfold real_values in *. cbn [filter].
    destruct (is_nan x) eqn:Nx; [rewrite (A eq_refl); cbn [negb]; exact IH|]. destruct (B eq_refl) as [B1 B2]. rewrite (is_finite_nan y B1). cbn [negb map]. constructor; [exact B2|exact IH].
Qed.
Lemma unit_l1 E N xs ys : 0 < N -> N = l1 xs -> Forall2 (close E N) xs ys -> Rabs (l1 ys - 1) <= E + INR (length xs) * bpow radix2 (-1073).
Proof.
  intros HN Hl H. set (h := bpow radix2 (-1073)).
  assert (G : Rabs (l1 ys - l1 (map (fun x => x / N) xs)) <= E * l1 (map (fun x => x / N) xs) + INR (length xs) * h).
  { clear Hl. induction H as [|x y xs ys C H IH]; [cbn; rewrite Rminus_0_r, Rabs_R0; lra|]. unfold l1 in *. cbn [map length]. rewrite S_INR. cbn [rsum fold_right]. fold (rsum (map Rabs ys)) (rsum (map Rabs (map (fun x => x / N) xs))).
    set (s1 := rsum (map Rabs ys)) in *. set (s2 := rsum (map Rabs (map (fun x => x / N) xs))) in *. unfold close in C. fold h in C. pose proof (Rabs_triang_inv2 y (x / N)) as T.
    replace (Rabs y + s1 - (Rabs (x / N) + s2)) with ((Rabs y - Rabs (x / N)) + (s1 - s2)) by ring. eapply Rle_trans; [apply Rabs_triang|]. lra. }
  assert (One : l1 (map (fun x => x / N) xs) = 1).
  { unfold l1 in *. rewrite map_map. rewrite (rsum_map_ext _ (fun x => / N * Rabs x)). { rewrite rsum_scale, <- Hl. field. lra. }
    intros x _. unfold Rdiv. rewrite Rabs_mult, (Rabs_right (/ N)) by (apply Rle_ge, Rlt_le, Rinv_0_lt_compat; lra). ring. }
  rewrite One in G. lra.
Qed.
Lemma square_close E N x y : 0 <= E <= / 4 -> Rabs (x / N) <= 1 -> close E N x y ->
  (1 - E) ^ 2 * (x / N) ^ 2 - 5 * bpow radix2 (-1073) <= y ^ 2 <= (1 + E) ^ 2 * (x / N) ^ 2 + 5 * bpow radix2 (-1073).
Proof.
  intros HE Hz C. unfold close in C. set (z := x / N) in *. set (h := bpow radix2 (-1073)) in *. assert (H0 : 0 < h) by apply bpow_gt_0. assert (H1 : h <= 1) by (unfold h; change 1 with (bpow radix2 0); apply bpow_le; lia).
  pose proof (Rabs_triang (y - z) z) as T1. replace (y - z + z) with y in T1 by ring. pose proof (Rabs_triang y (z - y)) as T2. replace (y + (z - y)) with z in T2 by ring. rewrite (Rabs_minus_sym z y) in T2.
  replace (y ^ 2) with (Rabs y ^ 2) by apply pow2_abs. replace (z ^ 2) with (Rabs z ^ 2) by apply pow2_abs. pose proof (Rabs_pos y) as Y. pose proof (Rabs_pos z) as Z. set (a := Rabs y) in *. set (b := Rabs z) in *.
  assert (U : a <= (1 + E) * b + h) by lra. assert (D : (1 - E) * b - h <= a) by lra.
  assert (Eb : 0 <= E * b) by (apply Rmult_le_pos; lra). assert (Eb1 : E * b <= / 4 * 1) by (apply Rmult_le_compat; lra).
  assert (Eb2 : E * b <= / 4 * b) by (apply Rmult_le_compat_r; lra).
  set (c := (1 + E) * b) in *. assert (Cb : 0 <= c <= 5 / 4) by (unfold c; lra). set (d := (1 - E) * b) in *. assert (Db : 0 <= d <= 1) by (unfold d; lra).
  split.
  - replace ((1 - E) ^ 2 * b ^ 2) with (d ^ 2) by (unfold d; ring). destruct (Rle_or_lt d h) as [Q|Q].
    + assert (d ^ 2 <= d) by (cbn [pow]; nra). assert (0 <= a ^ 2) by apply pow2_ge_0. lra.
    + assert ((d - h) ^ 2 <= a ^ 2) by (apply pow_incr; lra). assert ((d - h) ^ 2 = d ^ 2 - 2 * (d * h) + h ^ 2) by ring. assert (d * h <= 1 * h) by (apply Rmult_le_compat_r; lra). assert (0 <= h ^ 2) by apply pow2_ge_0. lra.
  - replace ((1 + E) ^ 2 * b ^ 2) with (c ^ 2) by (unfold c; ring). assert (a ^ 2 <= (c + h) ^ 2) by (apply pow_incr; lra). assert ((c + h) ^ 2 = c ^ 2 + 2 * (c * h) + h * h) by ring. assert (c * h <= 5 / 4 * h) by (apply Rmult_le_compat_r; lra). assert (h * h <= 1 * h) by (apply Rmult_le_compat_r; lra). lra.
Qed.
Lemma unit_l2 E N xs ys : 0 <= E <= / 4 -> 0 < N -> N = l2 xs -> (Z.of_nat (length xs) <= 2 ^ 48)%Z -> Forall2 (close E N) xs ys -> Rabs (l2 ys - 1) <= E + bpow radix2 (-500).
Proof.
  intros HE HN Hl K H. set (h := bpow radix2 (-1073)).
  assert (Small : forall x, In x xs -> Rabs (x / N) <= 1).
  { intros x Hx. unfold Rdiv. rewrite Rabs_mult, (Rabs_right (/ N)) by (apply Rle_ge, Rlt_le, Rinv_0_lt_compat; lra). apply (Rmult_le_reg_r N); [lra|]. rewrite Rmult_assoc, Rinv_l by lra. pose proof (l2_ge xs x Hx). lra. }
  assert (One : rsum (map (fun x => (x / N) ^ 2) xs) = 1).
  { rewrite (rsum_map_ext _ (fun x => / N ^ 2 * x ^ 2)) by (intros x _; field; lra). rewrite rsum_scale.
    assert (S0 : 0 <= rsum (map (fun x => x ^ 2) xs)) by (apply rsum_nonneg; intros y Hy; apply in_map_iff in Hy; destruct Hy as (z & <- & _); apply pow2_ge_0).
    assert (S1 : rsum (map (fun x => x ^ 2) xs) = N ^ 2) by (rewrite Hl; unfold l2; now rewrite pow2_sqrt). rewrite S1. field. lra. }
  assert (G : (1 - E) ^ 2 * rsum (map (fun x => (x / N) ^ 2) xs) - INR (length xs) * (5 * h) <= rsum (map (fun y => y ^ 2) ys) <= (1 + E) ^ 2 * rsum (map (fun x => (x / N) ^ 2) xs) + INR (length xs) * (5 * h)).
  { clear Hl One K. induction H as [|x y xs ys C H IH]; [cbn; lra|]. specialize (IH (fun z Hz => Small z (or_intror Hz))). cbn [map length]. rewrite S_INR. cbn [rsum fold_right]. fold (rsum (map (fun y => y ^ 2) ys)) (rsum (map (fun x => (x / N) ^ 2) xs)).
    pose proof (square_close E N x y HE (Small x (or_introl eq_refl)) C) as Q. fold h in Q. lra. }
  rewrite One, !Rmult_1_r in G. set (S := rsum (map (fun y => y ^ 2) ys)) in *. set (q := INR (length xs) * (5 * h)) in *.
  assert (H0 : 0 < h) by apply bpow_gt_0. pose proof (pos_INR (length xs)) as K0. assert (Q0 : 0 <= q) by (apply Rmult_le_pos; lra).
  assert (Qs : sqrt q <= bpow radix2 (-500)).
  { rewrite <- (sqrt_square (bpow radix2 (-500))) by apply bpow_ge_0. apply sqrt_le_1_alt. rewrite <- bpow_plus. unfold q, h. change (-500 + -500)%Z with (-1073 + 73)%Z. rewrite bpow_plus. change (bpow radix2 73) with 9444732965739290427392.
    assert (INR (length xs) <= 281474976710656) by (rewrite INR_IZR_INZ; apply IZR_le; lia). fold h. replace (INR (length xs) * (5 * h)) with (h * (5 * INR (length xs))) by ring. apply Rmult_le_compat_l; lra. }
  unfold l2. fold S. apply Rabs_le. split.
  - destruct (Rle_or_lt q ((1 - E) ^ 2)) as [C|C].
    + pose proof (sqrt_sub ((1 - E) ^ 2) q ltac:(lra)) as T. rewrite sqrt_pow2 in T by lra. assert (sqrt ((1 - E) ^ 2 - q) <= sqrt S) by (apply sqrt_le_1_alt; lra). lra.
    + apply Rlt_le in C. apply sqrt_le_1_alt in C. rewrite sqrt_pow2 in C by lra. pose proof (sqrt_pos S). lra.
  - assert (U : sqrt S <= sqrt ((1 + E) ^ 2 + q)) by (apply sqrt_le_1_alt; lra). pose proof (sqrt_add ((1 + E) ^ 2) q ltac:(apply pow2_ge_0) Q0) as T. rewrite sqrt_pow2 in T by lra. lra.
Qed.

Section Rows3.
  Context {p e : Z} {Hp : Prec_gt_0 p} {Hm : Prec_lt_emax p e}.
  Context {lp le : Z} {HLp : Prec_gt_0 lp} {HLm : Prec_lt_emax lp le}.
  Notation F := (binary_float p e).
  Notation L := (binary_float lp le).
  Notation u := (unit_error lp).
  Notation v := (unit_error 53).
  Notation small k := (INR k * bpow radix2 (-51)).
  Lemma small_err k : 2 * (2 * INR (k + 2) * v + v) + 3 * v <= small (k + 4).
  Proof using Type. rewrite unit_53. change (bpow radix2 (-51)) with (/ 2251799813685248). rewrite !plus_INR. cbn [INR]. pose proof (pos_INR k). lra. Qed.
  Lemma small_quarter k : (Z.of_nat k <= 2 ^ 48)%Z -> 0 <= small (k + 4) <= / 4.
  Proof using Type.
    intros K. change (bpow radix2 (-51)) with (/ 2251799813685248). pose proof (pos_INR (k + 4)). assert (INR (k + 4) <= 281474976710660) by (rewrite INR_IZR_INZ; apply IZR_le; lia). lra.
  Qed.
  Lemma row_scaled_weaken (row : list F) out E E' N : E <= E' -> row_scaled E N row out -> row_scaled E' N row out.
  Proof using Type.
    intros H [A B]. split; [exact A|]. intros j x Ej. destruct (B j x Ej) as (y & B1 & B2 & B3). exists y. split; [exact B1|]. split; [exact B2|]. intros Nx. destruct (B3 Nx) as [B4 B5]. split; [exact B4|].
    assert (E * Rabs (B2R x / N) <= E' * Rabs (B2R x / N)) by (apply Rmult_le_compat_r; [apply Rabs_pos|exact H]). lra.
  Qed.
  Lemma row_length (row : list F) : (length (real_values row) <= length row)%nat.
  Proof using Type. unfold real_values. rewrite map_length. induction row as [|x r IH]; [reflexivity|]. cbn [filter]. destruct (negb (is_nan x)); cbn [length]; lia. Qed.
  Lemma v_grows (n m : nat) : (53 <= lp)%Z -> (n <= m)%nat -> (1 + v) * (1 + u) ^ n <= (1 + v) ^ (m + 1).
  Proof using Type.
    intros P H. pose proof (unit_pos lp) as U. pose proof (unit_mono 53 lp P) as Um. rewrite Nat.add_1_r. cbn [pow]. apply Rmult_le_compat_l; [lra|].
    eapply Rle_trans; [apply pow_mono_base; split; [apply Rlt_le, U|exact Um]|]. apply Rle_pow; [lra|exact H].
  Qed.
  Theorem normalized_l1 (row : list F) (n : double) : (p <= 53)%Z -> (e <= 1024)%Z -> (53 <= lp)%Z -> (1024 <= le)%Z ->
    float_norm (lp := lp) (le := le) l1_norm row = Ok n -> is_finite n = true ->
    let l := real_values row in let k := length l in (Z.of_nat k <= 2 ^ 48)%Z -> bpow radix2 (-450) <= l1 l ->
    let out := float_normalized (lp := lp) (le := le) n row in
    row_scaled (small (k + 4)) (l1 l) row out /\ Rabs (l1 (real_values out) - 1) <= small (k + 5).
  Proof using Hp Hm HLp HLm.
    intros H1 H2 H3 H4 H Fn l k K HN out. destruct (float_norm_inv _ _ _ H) as (m & Em & ->). destruct (l1_near row m H1 H2 H3 H4 Em) as (NE & Fr & Fm & M0 & Nm). fold l k in NE, Nm.
    assert (N0 : 0 < l1 l) by (pose proof (bpow_gt_0 radix2 (-450)); lra).
    pose proof (double_near m _ _ _ H3 H4 (Rlt_le _ _ N0) Fm M0 Fn Nm) as Nd. 
    assert (K1 : (1 <= k)%nat) by (unfold k; destruct l; [congruence|cbn; lia]).
    assert (Ab : (bpow radix2 (-1075) + (1 + v) * 0) <= sqrt (INR k) * bpow radix2 (-534)).
    { rewrite Rmult_0_r, Rplus_0_r. assert (1 <= sqrt (INR k)) by (rewrite <- sqrt_1; apply sqrt_le_1_alt; change 1 with (INR 1); now apply le_INR).
      apply Rle_trans with (1 * bpow radix2 (-534)); [rewrite Rmult_1_l; apply bpow_le; lia|]. apply Rmult_le_compat_r; [apply bpow_ge_0|lra].
    }
    destruct (relative k _ _ _ _ H3 K (Rle_trans _ _ _ (v_grows (k - 1) (k + 1) H3 ltac:(lia)) ltac:(replace (k + 1 + 1)%nat with (k + 2)%nat by lia; apply Rle_refl)) Ab HN Nd) as [R1 R2].
    assert (Sc : row_scaled (small (k + 4)) (l1 l) row out).
      { apply row_scaled_weaken with (2 * (2 * INR (k + 2) * v + v) + 3 * v); [apply small_err|]. apply row_near; auto. intros x Hx. now apply l1_ge. }
      split; [exact Sc|]. pose proof (unit_l1 _ _ l (real_values out) N0 eq_refl (scaled_values _ _ _ _ Sc)) as U. fold k in U. eapply Rle_trans; [exact U|].
      replace (k + 5)%nat with (S (k + 4)) by lia. rewrite S_INR, Rmult_plus_distr_r, Rmult_1_l. apply Rplus_le_compat_l.
      apply Rle_trans with (bpow radix2 48 * bpow radix2 (-1073)); [apply Rmult_le_compat_r; [apply bpow_ge_0|]; change (bpow radix2 48) with 281474976710656; rewrite INR_IZR_INZ; apply IZR_le; lia|]. rewrite <- bpow_plus. apply bpow_le. lia.
  Qed.
  Theorem normalized_l2 (row : list F) (n : double) : (p <= 53)%Z -> (e <= 1024)%Z -> (53 <= lp)%Z -> (1024 <= le)%Z -> (Z.of_nat (length row) <= 2 ^ 48)%Z ->
    float_norm (lp := lp) (le := le) l2_norm row = Ok n -> is_finite n = true ->
    let l := real_values row in let k := length l in bpow radix2 (-450) <= l2 l ->
    let out := float_normalized (lp := lp) (le := le) n row in
    row_scaled (small (k + 4)) (l2 l) row out /\ Rabs (l2 (real_values out) - 1) <= small (k + 5).
  Proof using Hp Hm HLp HLm.
    intros H1 H2 H3 H4 Kr H Fn l k HN out. assert (K : (Z.of_nat k <= 2 ^ 48)%Z) by (pose proof (row_length row); unfold k, l; lia).
    destruct (float_norm_inv _ _ _ H) as (m & Em & ->). destruct (l2_near row m H1 H2 H3 H4 ltac:(lia) Em) as (NE & Fr & Fm & M0 & Nm). fold l k in NE, Nm.
    assert (N0 : 0 < l2 l) by (pose proof (bpow_gt_0 radix2 (-450)); lra).
    pose proof (double_near m _ _ _ H3 H4 (Rlt_le _ _ N0) Fm M0 Fn Nm) as Nd. 
    assert (K1 : (1 <= k)%nat) by (unfold k; destruct l; [congruence|cbn; lia]).
    assert (Ab : (bpow radix2 (-1075) + (1 + v) * (sqrt (INR k) * core_loss le)) <= sqrt (INR k) * bpow radix2 (-534)).
    { assert (S1 : 1 <= sqrt (INR k)) by (rewrite <- sqrt_1; apply sqrt_le_1_alt; change 1 with (INR 1); now apply le_INR). destruct (tiny_small le) as [C1 C2].
      assert (T1 : tiny le <= bpow radix2 (-535)) by (unfold tiny; destruct (le <? 4096)%Z; [lra|apply bpow_le; lia]). replace (-534)%Z with (-535 + 1)%Z by lia. rewrite bpow_plus. change (bpow radix2 1) with 2.
      pose proof (unit_le1 53 ltac:(lia)) as V1. set (c := core_loss le) in *. set (h := bpow radix2 (-1075)) in *. set (b := bpow radix2 (-535)) in *. assert (H0 : 0 < h) by apply bpow_gt_0. pose proof (unit_pos 53) as Vp.
      assert (S2 : (1 + v) * (sqrt (INR k) * c) <= 2 * (sqrt (INR k) * c)) by (apply Rmult_le_compat_r; [apply Rmult_le_pos; lra|lra]). assert (S3 : h <= sqrt (INR k) * h) by (rewrite <- (Rmult_1_l h) at 1; apply Rmult_le_compat_r; lra).
      assert (S4 : sqrt (INR k) * (h + 2 * c) <= sqrt (INR k) * (2 * b)) by (apply Rmult_le_compat_l; lra). lra.
    }
    destruct (relative k _ _ _ _ H3 K (Rle_trans _ _ _ (v_grows (k + 1) (k + 1) H3 ltac:(lia)) ltac:(replace (k + 1 + 1)%nat with (k + 2)%nat by lia; apply Rle_refl)) Ab HN Nd) as [R1 R2].
    assert (Sc : row_scaled (small (k + 4)) (l2 l) row out).
      { apply row_scaled_weaken with (2 * (2 * INR (k + 2) * v + v) + 3 * v); [apply small_err|]. apply row_near; auto. intros x Hx. now apply l2_ge. }
      split; [exact Sc|]. pose proof (unit_l2 _ _ l (real_values out) (small_quarter k K) N0 eq_refl K (scaled_values _ _ _ _ Sc)) as U. eapply Rle_trans; [exact U|].
      replace (k + 5)%nat with (S (k + 4)) by lia. rewrite S_INR, Rmult_plus_distr_r, Rmult_1_l. apply Rplus_le_compat_l. apply bpow_le. lia.
  Qed.
End Rows3.
