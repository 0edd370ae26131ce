(** C87: lemmas about comparing matrices. *)
From Coq Require Import Reals Lra.
From Verif Require Import Base M_Matrix M_MatrixEq.
Open Scope R_scope.

Lemma sum_ext' n f g : (forall i, (i < n)%nat -> f i = g i) -> sum n f = sum n g.
Proof. induction n as [|n IH]; intros H; [reflexivity|]. cbn [sum]. rewrite (H n) by lia. rewrite IH; [reflexivity|]. intros i Hi. apply H. lia. Qed.
Lemma sum_zero n : sum n (fun _ => 0) = 0.
Proof. induction n as [|n IH]; [reflexivity|]. cbn [sum]. rewrite IH. lra. Qed.
Lemma sum_nonneg n f : (forall i, (i < n)%nat -> 0 <= f i) -> 0 <= sum n f.
Proof. induction n as [|n IH]; intros H; [cbn; lra|]. cbn [sum]. pose proof (H n ltac:(lia)). assert (0 <= sum n f) by (apply IH; intros i Hi; apply H; lia). lra. Qed.
Lemma sum_le n f i : (forall i, (i < n)%nat -> 0 <= f i) -> (i < n)%nat -> f i <= sum n f.
Proof.
  induction n as [|n IH]; intros H Hi; [lia|]. cbn [sum]. assert (0 <= sum n f) by (apply sum_nonneg; intros k Hk; apply H; lia). destruct (Nat.eq_dec i n) as [->|N]; [lra|].
  assert (f i <= sum n f) by (apply IH; [intros k Hk; apply H; lia|lia]). pose proof (H n ltac:(lia)). lra.
Qed.
Lemma tolerance_pos : 0 < TOLERANCE. Proof. unfold TOLERANCE. lra. Qed.

Theorem mat_eq_refl a : mat_eq a a.
Proof.
  split; [reflexivity|]. split; [reflexivity|]. unfold frobenius, difference. cbn [rows cols entry].
  rewrite (sum_ext' _ _ (fun _ => 0)); [rewrite sum_zero, sqrt_0; pose proof tolerance_pos; lra|]. intros i _. rewrite (sum_ext' _ _ (fun _ => 0)); [apply sum_zero|]. intros j _. lra.
Qed.
Theorem mat_eq_sym a b : mat_eq a b -> mat_eq b a.
Proof.
  intros (R & C & H). split; [auto|]. split; [auto|]. replace (frobenius (difference b a)) with (frobenius (difference a b)); [exact H|].
  unfold frobenius, difference. cbn [rows cols entry]. rewrite R, C. f_equal. apply sum_ext'. intros i _. apply sum_ext'. intros j _. lra.
Qed.
(** Equal matrices agree up to the tolerance in every cell. *)
Theorem mat_eq_close a b : mat_eq a b -> rows a = rows b /\ cols a = cols b /\ forall i j, (i < rows a)%nat -> (j < cols a)%nat -> Rabs (entry a i j - entry b i j) <= TOLERANCE.
Proof.
  intros (R & C & H). split; [exact R|]. split; [exact C|]. intros i j Hi Hj. apply Rle_trans with (frobenius (difference a b)); [|lra].
  unfold frobenius, difference. cbn [rows cols entry]. rewrite <- sqrt_Rsqr_abs. apply sqrt_le_1_alt. unfold Rsqr.
  apply Rle_trans with (sum (cols a) (fun j => (entry a i j - entry b i j) * (entry a i j - entry b i j))).
  - apply (sum_le (cols a) (fun j => (entry a i j - entry b i j) * (entry a i j - entry b i j))); [intros; apply Rle_0_sqr|exact Hj].
  - apply (sum_le (rows a) (fun i => sum (cols a) (fun j => (entry a i j - entry b i j) * (entry a i j - entry b i j)))); [|exact Hi]. intros k _. apply sum_nonneg. intros. apply Rle_0_sqr.
Qed.
Definition one_cell (x : R) : mat := Mat 1 1 (fun _ _ => x).
Lemma one_cell_norm x y : frobenius (difference (one_cell x) (one_cell y)) = Rabs (x - y).
Proof. unfold frobenius, difference, one_cell. cbn [rows cols entry sum]. rewrite <- sqrt_Rsqr_abs. f_equal. unfold Rsqr. lra. Qed.
Lemma one_cell_eq x y : mat_eq (one_cell x) (one_cell y) <-> Rabs (x - y) <= TOLERANCE.
Proof. unfold mat_eq. rewrite one_cell_norm. cbn [one_cell rows cols]. split; [intros (_ & _ & H); lra|]. intros H. split; [reflexivity|]. split; [reflexivity|lra]. Qed.
(** The tolerance: [==] is not transitive, and equal transformers give different results. *)
Theorem mat_eq_refuted : ~ (forall a b c, mat_eq a b -> mat_eq b c -> mat_eq a c) /\
  ~ (forall a b x, mat_eq a b -> match pca_execute a x, pca_execute b x with Ok y, Ok z => forall i j, (i < rows y)%nat -> (j < cols y)%nat -> Rabs (entry y i j - entry z i j) <= 1 | _, _ => True end).
Proof.
  pose proof tolerance_pos as P. split.
  - intros H. specialize (H (one_cell 0) (one_cell TOLERANCE) (one_cell (2 * TOLERANCE))). rewrite !one_cell_eq in H.
    rewrite (Rabs_left (0 - 2 * TOLERANCE)) in H by lra. rewrite (Rabs_left (0 - TOLERANCE)) in H by lra. rewrite (Rabs_left (TOLERANCE - 2 * TOLERANCE)) in H by lra. specialize (H ltac:(lra) ltac:(lra)). lra.
  - intros H. specialize (H (one_cell 0) (one_cell TOLERANCE) (one_cell (2 / TOLERANCE))). rewrite one_cell_eq in H. rewrite (Rabs_left (0 - TOLERANCE)) in H by lra. specialize (H ltac:(lra)).
    unfold pca_execute in H. cbn [size one_cell rows cols Nat.mul Nat.add Nat.eqb negb] in H. specialize (H 0%nat 0%nat). cbn [product transpose one_cell rows cols entry sum] in H. specialize (H ltac:(lia) ltac:(lia)).
    replace (0 + 2 / TOLERANCE * 0 - (0 + 2 / TOLERANCE * TOLERANCE)) with (-2) in H by (field; lra). rewrite Rabs_left in H; lra.
Qed.
