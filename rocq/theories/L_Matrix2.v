(** C73: the PCA transformer. *)
From Coq Require Import Reals Lra.
From Verif Require Import Base M_Estimator S_Estimator M_Matrix S_Matrix L_Matrix.
Open Scope R_scope.

Lemma dot_sum : forall (n : nat) (u v : nat -> R), dot n u v = sum n (fun k => u k * v k).
Proof. intros. unfold dot. apply total_sum. Qed.

Lemma mean_sum : forall (m : mat) (j : nat), mean m j = sum (rows m) (fun i => entry m i j) / INR (rows m).
Proof. intros. unfold mean. rewrite total_sum. reflexivity. Qed.

Lemma cov_sum : forall (m : mat) (j k : nat), covariance m j k = sum (rows m) (fun i => (entry m i j - mean m j) * (entry m i k - mean m k)).
Proof. intros. unfold covariance. apply total_sum. Qed.

Lemma scatter_cov : forall (m : mat) (j k : nat), entry (scatter m) j k = covariance m j k.
Proof.
  intros. rewrite cov_sum. cbn [scatter product transpose centered entry rows cols].
  apply sum_ext. intros i _. rewrite !mean_sum. reflexivity.
Qed.

Lemma cov_sym : forall (m : mat) (j k : nat), covariance m j k = covariance m k j.
Proof. intros. rewrite !cov_sum. apply sum_ext. intros. ring. Qed.

(** The columns of a projected table: z i j = sum of x i k * w j k. *)
Definition projected (n : nat) (x : mat) (c : nat) (w : fn) : mat := Mat (rows x) c (fun i j => sum n (fun k => entry x i k * w j k)).

Lemma mean_projected : forall (n : nat) (x : mat) (c : nat) (w : fn) (j : nat),
  mean (projected n x c w) j = sum n (fun k => mean x k * w j k).
Proof.
  intros. rewrite mean_sum. cbn [projected rows entry]. rewrite sum_swap. unfold Rdiv. rewrite <- sum_scale_r.
  apply sum_ext. intros k _. rewrite mean_sum. unfold Rdiv. rewrite sum_scale_r. ring.
Qed.

Lemma cov_projected : forall (n : nat) (x : mat) (c : nat) (w : fn) (j k : nat),
  covariance (projected n x c w) j k = sum n (fun a => sum n (fun b => w j a * covariance x a b * w k b)).
Proof.
  intros. rewrite cov_sum. rewrite !mean_projected. cbn [projected rows entry].
  transitivity (sum (rows x) (fun i => sum n (fun a => sum n (fun b => w j a * ((entry x i a - mean x a) * (entry x i b - mean x b)) * w k b)))).
  - apply sum_ext. intros i _. rewrite <- !sum_minus, <- sum_scale_r. apply sum_ext. intros a _.
    rewrite <- sum_scale. apply sum_ext. intros b _. ring.
  - rewrite sum_swap. apply sum_ext. intros a _. rewrite sum_swap. apply sum_ext. intros b _.
    rewrite cov_sum. rewrite sum_scale_r, sum_scale. reflexivity.
Qed.

(* ------------------------------------------------------------------ *)
Lemma pca_refuses : forall (v x : mat),
  pca_execute v x = Throw InvalidArgument <-> (rows x = 0 \/ cols x = 0 \/ cols x <> cols v)%nat.
Proof.
  intros v x. unfold pca_execute, size. destruct (Nat.eqb_spec (rows x * cols x) 0) as [E|E].
  - split; [|reflexivity]. intros _. apply Nat.eq_mul_0 in E. tauto.
  - assert (rows x <> 0 /\ cols x <> 0)%nat by (split; intro Z0; apply E; rewrite Z0; lia).
    destruct (Nat.eqb_spec (cols x) (cols v)) as [E2|E2]; cbn [negb]; (split; [|]); try discriminate; intros; try tauto; lia.
Qed.

Lemma pca_accepts : forall (v x : mat), (rows x > 0)%nat -> (cols x > 0)%nat -> cols x = cols v ->
  exists y, pca_execute v x = Ok y /\ rows y = rows x /\ cols y = rows v /\
    forall i j, entry y i j = dot (cols v) (row x i) (row v j).
Proof.
  intros v x Hr Hc He. unfold pca_execute, size.
  destruct (Nat.eqb_spec (rows x * cols x) 0) as [E|E]; [apply Nat.eq_mul_0 in E; lia|].
  rewrite He, Nat.eqb_refl. cbn [negb]. eexists. split; [reflexivity|]. split; [reflexivity|]. split; [reflexivity|].
  intros i j. rewrite dot_sum. unfold row. cbn [product transpose entry]. rewrite He. reflexivity.
Qed.

Lemma pca_projected : forall (v x y : mat), pca_execute v x = Ok y -> y = projected (cols x) x (rows v) (entry v) /\ cols x = cols v.
Proof.
  intros v x y. unfold pca_execute, size. destruct (Nat.eqb (rows x * cols x) 0); [discriminate|].
  destruct (Nat.eqb_spec (cols x) (cols v)); cbn [negb]; [|discriminate]. intros E. injection E as <-.
  split; [|assumption]. reflexivity.
Qed.

Lemma orthonormal_mm : forall (v : mat), orthonormal v -> forall i j, (i < cols v)%nat -> (j < cols v)%nat ->
  mm (rows v) (tr (entry v)) (entry v) i j = delta i j.
Proof.
  intros v H i j Hi Hj. specialize (H i j Hi Hj). rewrite dot_sum in H. unfold mm, tr. unfold column in H. exact H.
Qed.

Lemma pca_dots : forall (v x x' y y' : mat), orthonormal v -> pca_execute v x = Ok y -> pca_execute v x' = Ok y' ->
  forall i i', dot (cols y) (row y i) (row y' i') = dot (cols x) (row x i) (row x' i').
Proof.
  intros v x x' y y' Ho E E' i i'. apply pca_projected in E, E'. destruct E as [-> Ec], E' as [-> Ec'].
  rewrite !dot_sum. unfold row. cbn [projected entry cols]. rewrite Ec, Ec'.
  change (mm (rows v) (mm (cols v) (entry x) (tr (entry v))) (tr (mm (cols v) (entry x') (tr (entry v)))) i i'
          = mm (cols v) (entry x) (tr (entry x')) i i').
  rewrite mm_assoc. apply mm_ext; [reflexivity|]. intros k Hk.
  transitivity (mm (cols v) (mm (rows v) (tr (entry v)) (entry v)) (tr (entry x')) k i').
  - rewrite mm_assoc. apply mm_ext; [reflexivity|]. intros l Hl. unfold tr, mm. apply sum_ext. intros; ring.
  - rewrite <- (mm_delta_l (cols v) (tr (entry x')) k i' Hk). apply mm_ext; [|reflexivity]. intros l Hl. apply orthonormal_mm; assumption.
Qed.

Lemma pca_recover : forall (v x y : mat), orthonormal v -> pca_execute v x = Ok y ->
  forall i k, (k < cols x)%nat -> dot (cols y) (row y i) (column v k) = entry x i k.
Proof.
  intros v x y Ho E i k Hk. apply pca_projected in E. destruct E as [-> Ec].
  rewrite dot_sum. unfold row, column. cbn [projected entry cols]. rewrite Ec.
  change (mm (rows v) (mm (cols v) (entry x) (tr (entry v))) (entry v) i k = entry x i k).
  rewrite mm_assoc. rewrite Ec in Hk. rewrite <- (mm_delta_r (cols v) (entry x) i k Hk). apply mm_ext; [reflexivity|].
  intros l Hl. apply orthonormal_mm; assumption.
Qed.

(** The projection on eigenvectors is uncorrelated. *)
Lemma cov_eigen : forall (n : nat) (x : mat) (v : mat) (d : nat -> R) (c : nat), eigen_solution n (covariance x) v d ->
  forall j k, (j < n)%nat -> (k < n)%nat ->
  covariance (projected n x c (tr (entry v))) j k = if Nat.eqb j k then d j else 0.
Proof.
  intros n x v d c H j k Hj Hk. destruct H as [Hr Hc Ho He _]. rewrite cov_projected.
  transitivity (sum n (fun a => entry v a j * (d k * entry v a k))).
  - apply sum_ext. intros a Ha. rewrite <- (He k a); [|lia|exact Ha]. rewrite dot_sum, <- sum_scale.
    apply sum_ext. intros b _. unfold tr, column. ring.
  - rewrite (sum_ext n _ (fun a => d k * (entry v a j * entry v a k))) by (intros; ring). rewrite sum_scale.
    specialize (Ho j k). rewrite Hr, Hc in Ho. specialize (Ho Hj Hk). rewrite dot_sum in Ho. unfold column in Ho. rewrite Ho.
    destruct (Nat.eqb_spec j k) as [E|E]; [subst; ring|ring].
Qed.

Lemma projected_ext : forall (n : nat) (x : mat) (c : nat) (w w' : fn) (j k : nat),
  (forall a, (a < n)%nat -> w j a = w' j a) -> (forall a, (a < n)%nat -> w k a = w' k a) ->
  covariance (projected n x c w) j k = covariance (projected n x c w') j k.
Proof.
  intros n x c w w' j k Hj Hk. rewrite !cov_projected. apply sum_ext. intros a Ha. apply sum_ext. intros b Hb.
  rewrite Hj, Hk by assumption. reflexivity.
Qed.

Lemma pca_symmetric : forall (x v y : mat) (d : nat -> R), eigen_solution (cols x) (covariance x) v d ->
  (forall i j, (i < cols x)%nat -> (j < cols x)%nat -> entry v i j = entry v j i) ->
  pca_execute v x = Ok y ->
  forall j k, (j < cols x)%nat -> (k < cols x)%nat -> covariance y j k = if Nat.eqb j k then d j else 0.
Proof.
  intros x v y d H Hs E j k Hj Hk. apply pca_projected in E. destruct E as [-> Ec].
  rewrite <- (cov_eigen (cols x) x v d (rows v) H j k Hj Hk). apply projected_ext; intros a Ha; unfold tr; apply Hs; assumption.
Qed.

(** The covariances of what the transformer returns. *)
Lemma pca_covariance : forall (v x y : mat), pca_execute v x = Ok y -> forall j k,
  covariance y j k = total (cols x) (fun a => total (cols x) (fun b => entry v j a * covariance x a b * entry v k b)).
Proof.
  intros v x y E j k. apply pca_projected in E. destruct E as [-> Ec]. rewrite cov_projected, total_sum.
  apply sum_ext. intros a _. rewrite total_sum. reflexivity.
Qed.

Lemma pca_variance : forall (v x y : mat), orthonormal v -> pca_execute v x = Ok y ->
  total (cols y) (fun j => covariance y j j) = total (cols x) (fun j => covariance x j j).
Proof.
  intros v x y Ho E. pose proof E as E0. apply pca_projected in E0. destruct E0 as [Ey Ec].
  rewrite !total_sum. rewrite (sum_ext (cols y) _ (fun j => sum (cols x) (fun a => sum (cols x) (fun b => entry v j a * covariance x a b * entry v j b))))
    by (intros; rewrite Ey; apply cov_projected).
  rewrite sum_swap. apply sum_ext. intros a Ha. rewrite sum_swap.
  transitivity (sum (cols x) (fun b => covariance x a b * delta b a)); [|apply sum_delta; exact Ha].
  apply sum_ext. intros b Hb. rewrite <- (orthonormal_mm v Ho b a) by lia. unfold mm, tr.
  rewrite <- sum_scale. assert (Er : cols y = rows v) by (rewrite Ey; reflexivity). rewrite Er. apply sum_ext. intros; ring.
Qed.

Lemma pca_rows : forall (v x x' y y' : mat), pca_execute v x = Ok y -> pca_execute v x' = Ok y' ->
  forall i i', (forall k, (k < cols v)%nat -> entry x i k = entry x' i' k) -> forall j, entry y i j = entry y' i' j.
Proof.
  intros v x x' y y' E E' i i' H j. apply pca_projected in E, E'. destruct E as [-> Ec], E' as [-> Ec'].
  cbn [projected entry]. rewrite Ec, Ec'. apply sum_ext. intros k Hk. rewrite H by exact Hk. reflexivity.
Qed.

(* ------------------------------------------------------------------ *)
(** Training. *)
Lemma pca_trained : forall (eig : mat -> mat) (x : mat), (rows x > 0)%nat -> (cols x > 0)%nat ->
  exists c, rows c = cols x /\ cols c = cols x /\ (forall j k, entry c j k = covariance x j k) /\
    (rows (eig c) > 0 -> cols (eig c) > 0 ->
     map snd (erun (pca_impl eig) (est_new no_matrix) [OBegin; OFit (Some [x]); OComplete; OCreate])
     = [EUnit; EFit FitComplete; EUnit; ETransformer (eig c)])%nat.
Proof.
  intros eig x Hr Hc. exists (scatter x). split; [reflexivity|]. split; [reflexivity|]. split; [apply scatter_cov|].
  intros Hr' Hc'. cbn [erun estep begin_training est_new e_state pca_impl i_begin e_impl map snd].
  unfold begin_training, est_new. cbn [e_state e_impl i_begin pca_impl].
  unfold eout_of. cbn [estep fit e_state e_impl i_fit pca_impl pca_fit].
  unfold estep, fit. cbn [e_state e_impl i_fit pca_impl pca_fit fst snd map].
  assert (E : Nat.eqb (size x) 0 = false) by (apply Nat.eqb_neq; unfold size; intro Z0; apply Nat.eq_mul_0 in Z0; lia).
  rewrite E. unfold eout_of, complete_training, create_transformer, matrix_create.
  cbn [e_state e_impl i_complete i_create pca_impl matrix_create e_created fst snd map].
  unfold matrix_create.
  assert (E' : Nat.eqb (size (eig (scatter x))) 0 = false) by (apply Nat.eqb_neq; unfold size; intro Z0; apply Nat.eq_mul_0 in Z0; lia).
  rewrite E'. reflexivity.
Qed.

Lemma pca_one_matrix : forall (eig : mat -> mat) (s : mat) (items : list mat), length items <> 1%nat ->
  estep (pca_impl eig) (mkEst Training false s) (OFit (Some items))
  = (mkEst Training false s, EThrow (if Nat.eqb (length items) 0 then InvalidArgument else RuntimeError)).
Proof.
  intros eig s items H. destruct items as [|a [|b l]]; [reflexivity|exfalso; apply H; reflexivity|reflexivity].
Qed.

Lemma pca_untrained : forall (eig : mat -> mat),
  map snd (erun (pca_impl eig) (est_new no_matrix) [OBegin; OComplete; OCreate]) = [EUnit; EUnit; EThrow InvalidArgument].
Proof. intros. reflexivity. Qed.
