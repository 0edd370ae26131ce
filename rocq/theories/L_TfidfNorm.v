(** The norm of tf-idf vectors, in exact numbers. *)
From Coq Require Import Reals Lra Psatz.
From Flocq Require Import Core.Core IEEE754.BinarySingleNaN.
From Verif Require Import Base L_List M_Stats S_Stats L_Stats M_Scale S_Scale L_Float L_Scale2 M_Grain M_Docs S_Docs L_Docs9 L_Docs10 S_FloatStats S_FloatScale L_FloatStats L_FloatStats2 L_FloatScale L_FloatScale6 S_TfidfNorm.
Open Scope R_scope.

Local Notation u := (bpow radix2 (-24)).
Lemma u_value : u = / 16777216.
Proof. reflexivity. Qed.
Lemma near_r32 x : 1 <= x -> near (1 + u) 0 (r32 x) x.
Proof.
  intros H. change u with (unit_error 24). apply (@near_rnd_rel 24 128 _ _); [lra|]. intros _. apply Rle_trans with 1; [|exact H].
  change 1 with (bpow radix2 0). apply bpow_le. cbv. discriminate.
Qed.
Lemma r32_1 x : 1 <= x -> 1 <= r32 x.
Proof. intros H. rewrite <- (@rnd_1 24 128 _ _). apply (@rnd_mono 24 128 _). exact H. Qed.
Lemma g_pow k : 1 <= (1 + u) ^ k.
Proof. apply pow_R1_Rle. rewrite u_value. lra. Qed.

Lemma fold_near ws : forall a b k, 0 <= a -> 0 <= b -> near ((1 + u) ^ k) 0 a b -> (forall w, In w ws -> 1 <= w) ->
  near ((1 + u) ^ (k + length ws)) 0 (fold_left (fun a w => r32 (a + w)) ws a) (b + rsum ws).
Proof.
  induction ws as [|w ws IH]; intros a b k Ha Hb H Hw; cbn [fold_left rsum fold_right length].
  - rewrite Nat.add_0_r, Rplus_0_r. exact H.
  - assert (W : 1 <= w) by (apply Hw; now left). replace (b + (w + fold_right Rplus 0 ws)) with ((b + w) + rsum ws) by (unfold rsum; ring).
    replace (k + S (length ws))%nat with (S k + length ws)%nat by lia. apply IH; [pose proof (r32_1 (a + w) ltac:(lra)); lra|lra| |intros v Hv; apply Hw; now right].
    assert (P : near ((1 + u) ^ k) 0 (a + w) (b + w)).
    { replace 0 with (0 + 0) at 1 by ring. apply near_plus; [exact H|]. apply near_weaken with 1 0; [lra|apply g_pow|lra|apply near_refl]. }
    pose proof (near_trans (1 + u) 0 ((1 + u) ^ k) 0 _ _ _ ltac:(rewrite u_value; lra) (near_r32 (a + w) ltac:(lra)) P) as Q.
    replace (0 + (1 + u) * 0) with 0 in Q by ring. exact Q.
Qed.
Lemma rounded_near ws : (forall w, In w ws -> 1 <= w) -> near ((1 + u) ^ length ws) 0 (rounded_sum ws) (rsum ws).
Proof.
  intros H. pose proof (fold_near ws 0 0 0 (Rle_refl 0) (Rle_refl 0) ltac:(cbn [pow]; apply near_refl) H) as Q. rewrite Rplus_0_l in Q. exact Q.
Qed.
Lemma fold_ge ws : forall a, 0 <= a -> (forall w, In w ws -> 1 <= w) -> a <> 0 \/ ws <> [] -> (a <> 0 -> 1 <= a) -> 1 <= fold_left (fun a w => r32 (a + w)) ws a.
Proof.
  induction ws as [|w ws IH]; intros a Ha Hw H H1; cbn [fold_left]; [destruct H as [H|H]; [auto|congruence]|].
  assert (W : 1 <= w) by (apply Hw; now left). pose proof (r32_1 (a + w) ltac:(lra)) as Q. apply IH; [lra|intros v Hv; apply Hw; now right|left; lra|intros _; exact Q].
Qed.
Lemma rsum_l1 ws : (forall w, In w ws -> 1 <= w) -> rsum ws = l1 ws.
Proof.
  intros H. unfold l1. f_equal. rewrite <- (map_id ws) at 1. apply map_ext_in. intros w Hw. apply H in Hw. rewrite Rabs_right; lra.
Qed.
Lemma rsum_ge l x : (forall y, In y l -> 0 <= y) -> In x l -> x <= rsum l.
Proof.
  induction l as [|y l IH]; intros H; [intros []|]. assert (0 <= rsum l) by (apply rsum_nonneg; intros z Hz; apply H; now right).
  assert (0 <= y) by (apply H; now left). intros [->|Hx]; cbn [rsum fold_right]; fold (rsum l); [lra|]. assert (x <= rsum l) by (apply IH; [intros z Hz; apply H; now right|exact Hx]). lra.
Qed.
(** The norm found and the exact one. *)
Lemma norm_near n ws nv : ws <> [] -> (forall w, In w ws -> 1 <= w) -> norm_is n ws nv -> 
  near ((1 + u) ^ (length ws + 2)) 0 nv (exact_norm n ws) /\ 1 <= nv /\ 1 <= exact_norm n ws.
Proof.
  intros Hne H Hn. destruct ws as [|w0 ws'] eqn:Ew; [congruence|]. rewrite <- Ew in *. assert (H0 : In w0 ws) by (rewrite Ew; now left). clear Ew ws'.
  destruct n; cbn [norm_is exact_norm] in *.
  - subst nv. assert (G : 1 <= l1 ws). { rewrite <- rsum_l1 by exact H. apply Rle_trans with w0; [now apply H|]. apply rsum_ge; [|exact H0]. intros y Hy. apply H in Hy. lra. }
    split; [|split; [|exact G]].
    + apply near_weaken with ((1 + u) ^ length ws) 0; [lra| |lra|rewrite <- rsum_l1 by exact H; now apply rounded_near]. apply Rle_pow; [rewrite u_value; lra|lia].
    + unfold rounded_sum. apply fold_ge; [lra|exact H|now right|lra].
  - subst nv. set (qs := map (fun w => r32 (w * w)) ws).
    assert (Hq : forall q, In q qs -> 1 <= q). { intros q Hq. apply in_map_iff in Hq. destruct Hq as (w & <- & Hw). apply H in Hw. apply r32_1. nra. }
    assert (Hqn : qs <> []) by (unfold qs; destruct ws; [congruence|discriminate]).
    pose proof (rounded_near qs Hq) as N1. replace (length qs) with (length ws) in N1 by (unfold qs; now rewrite map_length).
    assert (N2 : near (1 + u) 0 (rsum qs) (rsum (map (fun x => x ^ 2) ws))).
    { replace 0 with (INR (length ws) * 0) at 1 by ring. apply near_rsum. intros w Hw. apply H in Hw. replace (w ^ 2) with (w * w) by ring. apply near_r32. nra. }
    assert (G : 1 <= rsum (map (fun x => x ^ 2) ws)).
    { apply Rle_trans with (w0 ^ 2); [apply H in H0; nra|]. apply rsum_ge; [intros y Hy; apply in_map_iff in Hy; destruct Hy as (w & <- & _); apply pow2_ge_0|]. apply in_map_iff. now exists w0. }
    assert (S1 : 1 <= rounded_sum qs) by (unfold rounded_sum; apply fold_ge; [lra|exact Hq|now right|lra]).
    assert (G1 : 1 <= l2 ws) by (unfold l2; rewrite <- sqrt_1; now apply sqrt_le_1_alt).
    assert (S2 : 1 <= sqrt (rounded_sum qs)) by (rewrite <- sqrt_1; now apply sqrt_le_1_alt).
    split; [|split; [now apply r32_1|exact G1]].
    pose proof (near_trans _ _ _ _ _ _ _ (g_pow (length ws)) N1 N2) as N3. replace (0 + (1 + u) ^ length ws * 0) with 0 in N3 by ring.
    assert (Gp : 1 <= (1 + u) ^ length ws * (1 + u)) by (pose proof (g_pow (length ws)); rewrite u_value in *; nra).
    pose proof (near_sqrt _ 0 (rounded_sum qs) (rsum (map (fun x => x ^ 2) ws)) Gp ltac:(lra) ltac:(lra) ltac:(lra) N3) as N4. rewrite sqrt_0 in N4.
    pose proof (near_trans (1 + u) _ _ _ _ _ _ ltac:(rewrite u_value; lra) (near_r32 _ S2) N4) as N5. replace (0 + (1 + u) * 0) with 0 in N5 by ring.
    replace ((1 + u) ^ (length ws + 2)) with ((1 + u) * ((1 + u) ^ length ws * (1 + u))) by (rewrite pow_add; cbn [pow]; ring). exact N5.
  - subst nv. split; [|lra]. apply near_weaken with 1 0; [lra|apply g_pow|lra|apply near_refl].
Qed.

Lemma pow_bound k : INR k * u < 1 -> (1 + u) ^ k <= / (1 - INR k * u).
Proof.
  intros H. assert (P : (1 + u) ^ k * (1 - INR k * u) <= 1).
  { clear H. induction k as [|k IH]; [cbn [pow INR]; lra|]. rewrite S_INR. cbn [pow]. pose proof (g_pow k). pose proof (pos_INR k). set (g := (1 + u) ^ k) in *. rewrite u_value in *.
    apply Rle_trans with (g * (1 - INR k * / 16777216)); [|exact IH]. replace ((1 + / 16777216) * g * (1 - (INR k + 1) * / 16777216)) with (g * ((1 + / 16777216) * (1 - (INR k + 1) * / 16777216))) by ring.
    apply Rmult_le_compat_l; lra. }
  apply Rmult_le_reg_r with (1 - INR k * u); [lra|]. rewrite Rinv_l by lra. exact P.
Qed.
(** A quotient by the norm. *)
Lemma quotient_near k N nv w : (Z.of_nat k <= 2 ^ 20)%Z -> 1 <= N -> 1 <= nv -> near ((1 + u) ^ (k + 2)) 0 nv N -> 1 <= w -> bpow radix2 (-126) <= w / nv ->
  Rabs (r32 (w / nv) - w / N) <= float_error k 3 * (w / N).
Proof.
  intros K HN Hnv H W Hw. set (t := INR (k + 2) * u). assert (T : 0 <= t <= / 15).
  { unfold t. rewrite u_value. pose proof (pos_INR (k + 2)). assert (INR (k + 2) <= 1048578) by (rewrite INR_IZR_INZ; apply IZR_le; lia). lra. }
  assert (Gb : (1 + u) ^ (k + 2) <= / (1 - t)) by (apply pow_bound; fold t; lra). unfold near in H. rewrite Rplus_0_r in H. set (g := (1 + u) ^ (k + 2)) in *. clearbody g.
  assert (I : / (1 - t) = 1 + t / (1 - t)) by (field; lra). assert (D : 0 < 1 - t) by lra.
  assert (H1 : Rabs (nv - N) <= t / (1 - t) * N) by (eapply Rle_trans; [exact H|]; apply Rmult_le_compat_r; lra).
  assert (H2 : nv * (1 - t) >= N * (1 - 2 * t)).
  { apply Rabs_le_inv in H1. assert ((N - nv) * (1 - t) <= t / (1 - t) * N * (1 - t)) by (apply Rmult_le_compat_r; lra). replace (t / (1 - t) * N * (1 - t)) with (t * N) in H0 by (field; lra). lra. }
  assert (Q : Rabs (w / nv - w / N) <= t / (1 - 2 * t) * (w / N)).
  { replace (w / nv - w / N) with ((w / N) * ((N - nv) / nv)) by (field; lra). rewrite Rabs_mult, (Rabs_right (w / N)) by (apply Rle_ge, Rmult_le_pos; [lra|apply Rlt_le, Rinv_0_lt_compat; lra]).
    rewrite (Rmult_comm (t / (1 - 2 * t))). apply Rmult_le_compat_l; [apply Rmult_le_pos; [lra|apply Rlt_le, Rinv_0_lt_compat; lra]|].
    unfold Rdiv at 1. rewrite Rabs_mult, Rabs_inv, (Rabs_right nv), (Rabs_minus_sym N) by lra. apply Rmult_le_reg_r with nv; [lra|]. rewrite Rmult_assoc, Rinv_l, Rmult_1_r by lra.
    eapply Rle_trans; [exact H1|]. apply Rmult_le_reg_r with ((1 - t) * (1 - 2 * t)); [apply Rmult_lt_0_compat; lra|].
    replace (t / (1 - t) * N * ((1 - t) * (1 - 2 * t))) with (t * (N * (1 - 2 * t))) by (field; lra). replace (t / (1 - 2 * t) * nv * ((1 - t) * (1 - 2 * t))) with (t * (nv * (1 - t))) by (field; lra).
    apply Rmult_le_compat_l; lra. }
  assert (Q0 : 0 < w / N) by (apply Rdiv_lt_0_compat; lra). assert (Q1 : 0 < w / nv) by (apply Rdiv_lt_0_compat; lra).
  assert (N1 : near (1 + unit_error 24) 0 (r32 (w / nv)) (w / nv)) by (apply (@near_rnd_rel 24 128 _ _); [lra|]; intros _; exact Hw).
  change (unit_error 24) with u in N1. unfold near in N1. rewrite Rplus_0_r in N1. replace (1 + u - 1) with u in N1 by ring.
  assert (T2 : t / (1 - 2 * t) <= 2 * t - / 4 * t).
  { apply Rmult_le_reg_r with (1 - 2 * t); [lra|]. replace (t / (1 - 2 * t) * (1 - 2 * t)) with t by (field; lra). nra. }
  assert (T3 : 0 <= t / (1 - 2 * t)) by (apply Rmult_le_pos; [lra|apply Rlt_le, Rinv_0_lt_compat; lra]).
  assert (FE : float_error k 3 = 2 * t + 2 * u).
  { unfold float_error, t. change (bpow radix2 (-23)) with (/ 8388608). rewrite u_value, !plus_INR. cbn [INR]. lra. }
  rewrite FE. clear FE.
  set (A := w / nv) in *. set (B := w / N) in *. set (c := t / (1 - 2 * t)) in *. clearbody A B c. rewrite u_value in *.
  replace (r32 A - B) with ((r32 A - A) + (A - B)) by ring. eapply Rle_trans; [apply Rabs_triang|]. apply Rabs_le_inv in Q as Q'. nra.
Qed.
