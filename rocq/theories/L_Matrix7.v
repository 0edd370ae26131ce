(** C73, C74: examples. *)
From Coq Require Import Reals Lra.
From Verif Require Import Base M_Estimator S_Estimator M_Matrix S_Matrix L_Matrix L_Matrix2 L_Matrix3 L_Matrix4 L_Matrix5 L_Matrix6.
Open Scope R_scope.

Definition table (r c : nat) (l : list (list R)) : mat := Mat r c (fun i j => nth j (nth i l []) 0).

Ltac below2 i := destruct i as [|[|i]]; [| |exfalso; lia].

(** Four points of the plane, the eigenvectors of their covariance. *)
Definition pca_points : mat := table 4 2 [[4; -3]; [-4; 3]; [6; 8]; [-6; -8]].
Definition pca_vectors : mat := table 2 2 [[4/5; 3/5]; [-3/5; 4/5]].
Definition pca_values (j : nat) : R := match j with O => 50 | _ => 200 end.

Lemma pca_cov : forall j k, (j < 2)%nat -> (k < 2)%nat ->
  covariance pca_points j k = entry (table 2 2 [[104; 72]; [72; 146]]) j k.
Proof.
  assert (M : forall j, (j < 2)%nat -> mean pca_points j = 0).
  { intros j Hj. unfold mean, total. below2 j; cbn [pca_points table rows entry column seq map fold_right nth INR]; unfold column; cbn [pca_points table entry nth]; field. }
  intros j k Hj Hk. unfold covariance, total. rewrite (M j Hj), (M k Hk).
  below2 j; below2 k; cbn [pca_points table rows entry seq map fold_right nth]; ring.
Qed.

Lemma pca_solution : eigen_solution 2 (covariance pca_points) pca_vectors pca_values.
Proof.
  constructor.
  - reflexivity.
  - reflexivity.
  - intros j k Hj Hk. cbn [pca_vectors table cols rows] in *. unfold dot, total, column.
    below2 j; below2 k; cbn [pca_vectors table entry seq map fold_right nth Nat.eqb]; field.
  - intros j i Hj Hi. cbn [pca_vectors table cols] in Hj. unfold dot, total, column. cbn [seq map fold_right].
    rewrite (pca_cov i 0), (pca_cov i 1) by lia.
    below2 j; below2 i; cbn [pca_vectors pca_values table entry nth]; field.
  - intros j k Hjk Hk. destruct j as [|j], k as [|k]; cbn [pca_values]; try lra. lia.
Qed.

Lemma pca_correlated : exists y, pca_execute pca_vectors pca_points = Ok y /\ covariance y 0 1 = 1008 / 25.
Proof.
  eexists. split; [reflexivity|].
  rewrite (pca_covariance pca_vectors pca_points _ eq_refl). cbn [pca_points table cols]. unfold total. cbn [seq map fold_right].
  rewrite !pca_cov by lia. cbn [pca_vectors table entry nth]. field.
Qed.

(** The same four points trained and projected, as the estimator does it, for a solver that returns these vectors. *)
Lemma pca_points_trained : exists y,
  map snd (erun (pca_impl (fun _ => pca_vectors)) (est_new no_matrix) [OBegin; OFit (Some [pca_points]); OComplete; OCreate])
  = [EUnit; EFit FitComplete; EUnit; ETransformer pca_vectors] /\
  pca_execute pca_vectors pca_points = Ok y /\ entry y 0%nat 0%nat = 7 / 5 /\ entry y 2%nat 1%nat = 14 / 5.
Proof.
  eexists. split; [reflexivity|]. split; [reflexivity|].
  cbn [product transpose pca_points pca_vectors table rows cols entry sum nth]. split; field.
Qed.

(* ------------------------------------------------------------------ *)
Definition svd_a : mat := table 2 2 [[3; 0]; [0; 4]].
Definition svd_1 : mat := table 2 2 [[1; 0]; [0; 1]].
Definition svd_v : mat := table 2 2 [[0; 1]; [1; 0]].
Definition svd_sigma (j : nat) : R := match j with O => 4 | _ => 3 end.

Lemma norm_axis : forall (u : nat -> R) (p : R), 1 <= p -> (u 0%nat = p /\ u 1%nat = 0 \/ u 0%nat = 0 /\ u 1%nat = p) -> norm 2 u = p.
Proof.
  intros u p Hp H. unfold norm. cbn [sum]. transitivity (sqrt (p * p)); [|apply sqrt_square; lra].
  f_equal. destruct H as [[-> ->]|[-> ->]]; ring.
Qed.

Lemma gs_diag : forall (f : fn) (p q : R), 1 <= p -> 1 <= q -> f 0%nat 0%nat = p -> f 0%nat 1%nat = 0 -> f 1%nat 0%nat = 0 -> f 1%nat 1%nat = q ->
  forall l c, (l < 2)%nat -> (c < 2)%nat -> schmidt 2 2 0 f l c = delta l c.
Proof.
  intros f p q Hp Hq H00 H01 H10 H11.
  assert (He : EPS < 1) by (unfold EPS; lra).
  cbn [schmidt subtract]. cbv zeta.
  rewrite (norm_axis (fun l => f l 0%nat) p Hp) by (left; split; assumption).
  destruct (Rlt_dec p EPS) as [L|L]; [lra|]. cbn [sum Nat.eqb].
  rewrite H00, H01, H10, H11.
  match goal with |- context [norm 2 ?u] => assert (En : norm 2 u = q) end.
  { apply norm_axis; [exact Hq|]. right. rewrite H00, H01, H10, H11. split; field; lra. }
  rewrite En. destruct (Rlt_dec q EPS) as [L2|L2]; [lra|]. intros l c Hl Hc.
  below2 l; below2 c; cbn [Nat.eqb]; rewrite ?H00, ?H01, ?H10, ?H11; unfold delta; cbn [Nat.eqb]; field; lra.
Qed.

Lemma svd_Y_a : forall l c, (l < 2)%nat -> (c < 2)%nat -> entry (svd_Y svd_a svd_1) l c = delta l c.
Proof.
  intros l c Hl Hc. apply (gs_diag _ 3 4); try assumption; try lra;
    cbn [product transpose svd_a svd_1 table rows cols entry sum nth]; ring.
Qed.
Lemma svd_B_a : forall l c, (l < 2)%nat -> (c < 2)%nat -> entry (svd_B svd_a svd_1) l c = entry svd_a l c.
Proof.
  intros l c Hl Hc. cbn [svd_B product entry svd_a table cols sum]. rewrite !svd_Y_a by lia.
  below2 l; below2 c; unfold delta; cbn [Nat.eqb nth]; ring.
Qed.
Lemma svd_Z_a : forall l c, (l < 2)%nat -> (c < 2)%nat -> entry (svd_Z svd_a svd_1 svd_1) l c = delta l c.
Proof.
  intros l c Hl Hc. apply (gs_diag _ 3 4); try assumption; try lra;
    cbn [product entry sum]; change (cols (svd_B svd_a svd_1)) with 2%nat; cbn [sum]; rewrite !svd_B_a by lia;
    cbn [svd_a svd_1 table rows cols entry sum nth]; ring.
Qed.
Lemma svd_C_a : forall l c, (l < 2)%nat -> (c < 2)%nat -> entry (svd_C svd_a svd_1 svd_1) l c = entry svd_a l c.
Proof.
  intros l c Hl Hc. cbn [svd_C product transpose entry cols]. change (rows (svd_Z svd_a svd_1 svd_1)) with 2%nat. cbn [sum].
  rewrite !svd_Z_a, !svd_B_a by lia. below2 l; below2 c; unfold delta, svd_a; cbn [Nat.eqb table entry nth]; ring.
Qed.

Lemma svd_case_solver : right_singular 2 (svd_C svd_a svd_1 svd_1) svd_v svd_sigma.
Proof.
  constructor.
  - reflexivity.
  - reflexivity.
  - intros j k Hj Hk. cbn [svd_v table cols] in Hj, Hk. unfold dot, total, column. cbn [svd_v table rows seq map fold_right].
    below2 j; below2 k; cbn [svd_v table entry nth Nat.eqb]; ring.
  - intros j i Hj Hi. cbn [svd_v table cols] in Hj. unfold dot, total, column. change (rows (svd_C svd_a svd_1 svd_1)) with 2%nat. cbn [seq map fold_right].
    rewrite !svd_C_a by lia. below2 j; below2 i; cbn [svd_v svd_a svd_sigma table entry nth]; ring.
  - intros j Hj. below2 j; cbn [svd_sigma]; lra.
  - intros j k Hjk Hk. destruct j as [|j], k as [|k]; cbn [svd_sigma]; try lra. lia.
Qed.

Lemma svd_case_inverse : inverse svd_1 svd_1.
Proof.
  split; [reflexivity|]. split; [reflexivity|]. cbn [svd_1 table rows]. intros i j Hi Hj. unfold total. cbn [svd_1 table cols seq map fold_right].
  below2 i; below2 j; cbn [svd_1 table entry nth Nat.eqb]; ring.
Qed.
Lemma svd_case_Y : ~ zero_vector (cols svd_a) (column (svd_Y svd_a svd_1) (cols (svd_Y svd_a svd_1) - 1)).
Proof.
  intros H. specialize (H 1%nat). change (cols svd_a) with 2%nat in H. specialize (H ltac:(lia)). unfold column in H.
  change (cols (svd_Y svd_a svd_1) - 1)%nat with 1%nat in H. rewrite svd_Y_a in H by lia. unfold delta in H. cbn [Nat.eqb] in H. lra.
Qed.
Lemma svd_case_Z : ~ zero_vector (rows svd_a) (column (svd_Z svd_a svd_1 svd_1) (cols (svd_Z svd_a svd_1 svd_1) - 1)).
Proof.
  intros H. specialize (H 1%nat). change (rows svd_a) with 2%nat in H. specialize (H ltac:(lia)). unfold column in H.
  change (cols (svd_Z svd_a svd_1 svd_1) - 1)%nat with 1%nat in H. rewrite svd_Z_a in H by lia. unfold delta in H. cbn [Nat.eqb] in H. lra.
Qed.

Lemma svd_case : singular_components svd_a (svd_state (fun _ => svd_v) svd_a svd_1 svd_1) svd_sigma.
Proof.
  apply (svd_full (fun _ => svd_v) svd_a svd_1 svd_1 svd_1 svd_1 svd_sigma); try reflexivity.
  - cbn. lia.
  - cbn. lia.
  - exact svd_case_solver.
  - intros _. exact svd_case_inverse.
  - exact svd_case_inverse.
  - exact svd_case_Y.
  - exact svd_case_Z.
Qed.

(** A row of a batch and the same row alone. *)
Lemma svd_batch : exists y y1, svd_execute (table 1 1 [[1]]) (table 2 1 [[1]; [-2]]) = Ok y /\ svd_execute (table 1 1 [[1]]) (table 1 1 [[1]]) = Ok y1 /\
  entry y 0%nat 0%nat = -1 /\ entry y1 0%nat 0%nat = 1.
Proof.
  eexists. eexists. split; [reflexivity|]. split; [reflexivity|].
  cbn [svd_flip product table rows cols entry sum nth Nat.sub largest].
  assert (E1 : Rabs (0 + 1 * 1) = 1) by (rewrite Rabs_right; lra). assert (E2 : Rabs (0 + -2 * 1) = 2) by (rewrite Rabs_left; lra).
  rewrite E1, E2. destruct (Rlt_dec 1 2) as [L|L]; [|lra].
  destruct (Rlt_dec (0 + -2 * 1) 0) as [L2|L2]; [|lra]. destruct (Rlt_dec (0 + 1 * 1) 0) as [L3|L3]; [lra|]. split; ring.
Qed.

(* ------------------------------------------------------------------ *)
(** Training through the estimator with actual draws (all of them zero): nothing is dropped. *)
Definition g1 : R := snd (gaussian_pair 2147483647 0 0).
Lemma g1_pos : 0 < g1.
Proof.
  unfold g1, gaussian_pair. cbn [snd]. apply Rmult_lt_0_compat.
  - apply sqrt_lt_R0. assert (ln ((0 + 1) / (2147483647 + 2)) < ln 1) by (apply ln_increasing; lra). rewrite ln_1 in H. lra.
  - apply sin_gt_0; unfold PI_f; [lra|]. pose proof PI2_3_2. lra.
Qed.
Definition svd_b : mat := table 1 1 [[1 / g1]].
Definition one : mat := table 1 1 [[1]].

Lemma gs_one : forall (f : fn) (p : R), f 0%nat 0%nat = p -> 1 <= p -> schmidt 1 1 0 f 0%nat 0%nat = 1.
Proof.
  intros f p E Hp. assert (He : EPS < 1) by (unfold EPS; lra). cbn [schmidt subtract]. cbv zeta.
  assert (En : norm 1 (fun l => f l 0%nat) = p).
  { unfold norm. cbn [sum]. rewrite E. replace (0 + p * p) with (p * p) by ring. apply sqrt_square. lra. }
  rewrite En. destruct (Rlt_dec p EPS) as [L|L]; [lra|]. cbn [Nat.eqb]. rewrite E. field. lra.
Qed.

Lemma svd_random_case : let o := fst (random_matrices 2147483647 (fun _ => 0) svd_b) in
  let p := snd (random_matrices 2147483647 (fun _ => 0) svd_b) in
  right_singular 1 (svd_C svd_b o p) one (fun _ => 1 / g1) /\
  inverse o (table 1 1 [[1 / g1]]) /\ inverse p (table 1 1 [[1 / g1]]) /\
  ~ zero_vector (cols svd_b) (column (svd_Y svd_b o) (cols (svd_Y svd_b o) - 1)) /\
  ~ zero_vector (rows svd_b) (column (svd_Z svd_b o p) (cols (svd_Z svd_b o p) - 1)).
Proof.
  intros o p. pose proof g1_pos as Hg.
  assert (Eo : entry o 0%nat 0%nat = g1) by reflexivity. assert (Ep : entry p 0%nat 0%nat = g1) by reflexivity.
  assert (Ey : entry (svd_Y svd_b o) 0%nat 0%nat = 1).
  { apply (gs_one _ 1); [|lra]. cbn [product transpose svd_b table rows cols entry sum nth]. rewrite Eo. field. lra. }
  assert (Eb : entry (svd_B svd_b o) 0%nat 0%nat = 1 / g1).
  { cbn [svd_B product entry]. change (cols svd_b) with 1%nat. cbn [sum]. rewrite Ey. cbn [svd_b table entry nth]. ring. }
  assert (Ez : entry (svd_Z svd_b o p) 0%nat 0%nat = 1).
  { apply (gs_one _ 1); [|lra]. cbn [product entry]. change (cols (svd_B svd_b o)) with 1%nat. cbn [sum]. rewrite Eb, Ep. field. lra. }
  assert (Ec : entry (svd_C svd_b o p) 0%nat 0%nat = 1 / g1).
  { cbn [svd_C product transpose entry cols]. change (rows (svd_Z svd_b o p)) with 1%nat. cbn [sum]. rewrite Ez, Eb. ring. }
  assert (Hi : 0 < 1 / g1) by (apply Rdiv_lt_0_compat; lra).
  split; [|split; [|split; [|split]]].
  - constructor; [reflexivity|reflexivity| | | |].
    + intros j k Hj Hk. cbn [one table cols] in Hj, Hk. replace j with 0%nat by lia. replace k with 0%nat by lia.
      unfold dot, total, column. cbn [one table rows seq map fold_right entry nth Nat.eqb]. ring.
    + intros j i Hj Hi'. cbn [one table cols] in Hj. replace j with 0%nat by lia. replace i with 0%nat by lia.
      unfold dot, total, column. change (rows (svd_C svd_b o p)) with 1%nat. cbn [seq map fold_right]. rewrite Ec.
      cbn [one table entry nth]. ring.
    + intros. lra.
    + intros. lra.
  - split; [reflexivity|]. split; [reflexivity|]. change (rows o) with 1%nat. change (cols o) with 1%nat. intros i j Hi' Hj.
    replace i with 0%nat by lia. replace j with 0%nat by lia. unfold total. cbn [seq map fold_right]. rewrite Eo. cbn [table entry nth Nat.eqb]. field. lra.
  - split; [reflexivity|]. split; [reflexivity|]. change (rows p) with 1%nat. change (cols p) with 1%nat. intros i j Hi' Hj.
    replace i with 0%nat by lia. replace j with 0%nat by lia. unfold total. cbn [seq map fold_right]. rewrite Ep. cbn [table entry nth Nat.eqb]. field. lra.
  - intros H. specialize (H 0%nat). change (cols svd_b) with 1%nat in H. specialize (H ltac:(lia)).
    change (cols (svd_Y svd_b o) - 1)%nat with 0%nat in H. unfold column in H. rewrite Ey in H. lra.
  - intros H. specialize (H 0%nat). change (rows svd_b) with 1%nat in H. specialize (H ltac:(lia)).
    change (cols (svd_Z svd_b o p) - 1)%nat with 0%nat in H. unfold column in H. rewrite Ez in H. lra.
Qed.

Lemma cov_eigen_total : forall (n : nat) (x v : mat) (d : nat -> R) (c : nat), eigen_solution n (covariance x) v d ->
  forall j k, (j < n)%nat -> (k < n)%nat ->
  covariance (Mat (rows x) c (fun i j => total n (fun l => entry x i l * entry v l j))) j k = if Nat.eqb j k then d j else 0.
Proof.
  intros n x v d c H j k Hj Hk. rewrite <- (cov_eigen n x v d c H j k Hj Hk). rewrite !cov_sum. cbn [projected rows entry].
  assert (M : forall q, mean (Mat (rows x) c (fun i j => total n (fun l => entry x i l * entry v l j))) q = mean (projected n x c (tr (entry v))) q).
  { intros q. rewrite !mean_sum. cbn [projected rows entry]. f_equal. apply sum_ext. intros i _. rewrite total_sum. reflexivity. }
  rewrite !M. apply sum_ext. intros i _. rewrite !total_sum. reflexivity.
Qed.

Lemma pca_correlated_full : exists (x v y : mat) (d : nat -> R),
  eigen_solution (cols x) (covariance x) v d /\ pca_execute v x = Ok y /\ covariance y 0 1 = 1008 / 25.
Proof.
  destruct pca_correlated as (y & E & C). exists pca_points, pca_vectors, y, pca_values.
  split; [exact pca_solution|]. split; assumption.
Qed.

(** Points on the axes turned by 45 degrees have a symmetric matrix of eigenvectors. *)
Definition sym_points : mat := table 4 2 [[1; 1]; [-1; -1]; [2; -2]; [-2; 2]].
Definition sym_vectors : mat := table 2 2 [[/ sqrt 2; / sqrt 2]; [/ sqrt 2; - / sqrt 2]].
Lemma sym_cov : forall j k, (j < 2)%nat -> (k < 2)%nat -> covariance sym_points j k = entry (table 2 2 [[10; -6]; [-6; 10]]) j k.
Proof.
  assert (M : forall j, (j < 2)%nat -> mean sym_points j = 0).
  { intros j Hj. unfold mean, total. below2 j; cbn [sym_points table rows entry column seq map fold_right nth INR]; unfold column; cbn [sym_points table entry nth]; field. }
  intros j k Hj Hk. unfold covariance, total. rewrite (M j Hj), (M k Hk).
  below2 j; below2 k; cbn [sym_points table rows entry seq map fold_right nth]; ring.
Qed.
Lemma pca_symmetric_case : exists x v d y, eigen_solution (cols x) (covariance x) v d /\ cols x = 2%nat /\
  (forall i j, (i < cols x)%nat -> (j < cols x)%nat -> entry v i j = entry v j i) /\ pca_execute v x = Ok y /\ entry v 0%nat 1%nat <> 0.
Proof.
  exists sym_points, sym_vectors, (fun j => match j with O => 4 | _ => 16 end). eexists.
  assert (Hs : 0 < sqrt 2) by (apply sqrt_lt_R0; lra).
  assert (H2 : / sqrt 2 * / sqrt 2 = 1 / 2).
  { rewrite <- Rinv_mult. rewrite sqrt_sqrt by lra. lra. }
  split; [constructor|].
  - reflexivity.
  - reflexivity.
  - intros j k Hj Hk. cbn [sym_vectors table cols rows] in *. unfold dot, total, column.
    below2 j; below2 k; cbn [sym_vectors table entry seq map fold_right nth Nat.eqb]; lra.
  - intros j i Hj Hi. cbn [sym_vectors table cols] in Hj. change (i < 2)%nat in Hi. unfold dot, total, column. cbn [sym_points table cols seq map fold_right].
    change (Mat 4 2 (fun i j => nth j (nth i [[1; 1]; [-1; -1]; [2; -2]; [-2; 2]] []) 0)) with sym_points.
    rewrite (sym_cov i 0), (sym_cov i 1) by (try assumption; lia).
    below2 j; below2 i; cbn [sym_vectors table entry nth]; ring.
  - intros j k Hjk Hk. destruct j as [|j], k as [|k]; try lra. lia.
  - split; [reflexivity|]. split; [|split; [reflexivity|]].
    + cbn [sym_points table cols]. intros i j Hi Hj. below2 i; below2 j; reflexivity.
    + cbn [sym_vectors table entry nth]. apply Rinv_neq_0_compat. lra.
Qed.

Lemma gs_theorem : forall (m : mat), exists k, (k <= cols m)%nat /\
  rows (gram_schmidt m) = rows m /\ cols (gram_schmidt m) = cols m /\
  (forall j l, (j < k)%nat -> (l < k)%nat -> dot (rows m) (column (gram_schmidt m) j) (column (gram_schmidt m) l) = if Nat.eqb j l then 1 else 0) /\
  (forall j, (k <= j < cols m)%nat -> zero_vector (rows m) (column (gram_schmidt m) j)) /\
  (k = cols m -> forall j, (j < cols m)%nat -> combination (gram_schmidt m) (column m j)).
Proof.
  intros m. destruct (gs_padded m) as (k & Hk & Ho & H0). exists k. split; [exact Hk|]. split; [reflexivity|]. split; [reflexivity|].
  split; [|split].
  - intros j l Hj Hl. rewrite dot_sum. exact (Ho j l Hj Hl).
  - intros j Hj i Hi. apply H0. exact Hj.
  - intros E j Hj. apply combination_span. refine (gs_span m _ _ j Hj); [lia|].
    intros Z0. assert (E1 : sdot (rows m) (entry (gram_schmidt m)) (cols m - 1) (cols m - 1) = 1).
    { rewrite Ho by lia. unfold delta. rewrite Nat.eqb_refl. reflexivity. }
    unfold sdot in E1. rewrite sum_zero in E1; [lra|]. intros i Hi. specialize (Z0 i Hi). unfold column in Z0. rewrite Z0. ring.
Qed.

Lemma svd_batch_full : exists v x x1 y y1 : mat, entry x 0%nat 0%nat = entry x1 0%nat 0%nat /\ cols x = 1%nat /\ cols x1 = 1%nat /\
  svd_execute v x = Ok y /\ svd_execute v x1 = Ok y1 /\ entry y 0%nat 0%nat = -1 /\ entry y1 0%nat 0%nat = 1.
Proof.
  destruct svd_batch as (y & y1 & E & E1 & H & H1). exists (table 1 1 [[1]]), (table 2 1 [[1]; [-2]]), (table 1 1 [[1]]), y, y1.
  split; [reflexivity|]. split; [reflexivity|]. split; [reflexivity|]. split; [exact E|]. split; [exact E1|]. split; assumption.
Qed.
