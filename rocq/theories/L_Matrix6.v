(** C74: training when no column is dropped, training through the estimator, small data, examples. *)
From Coq Require Import Reals Lra.
From Verif Require Import Base M_Estimator S_Estimator M_Matrix S_Matrix L_Matrix L_Matrix2 L_Matrix3 L_Matrix4 L_Matrix5.
Open Scope R_scope.

Lemma span_sum : forall (n k : nat) (a : fn) (c : nat) (us : nat -> nat -> R) (w : nat -> R),
  (forall j, (j < c)%nat -> in_span n k a (us j)) -> in_span n k a (fun l => sum c (fun j => w j * us j l)).
Proof.
  intros n k a. induction c as [|c IH]; intros us w H.
  - exists (fun _ => 0). intros l _. cbn [sum]. symmetry. apply sum_zero. intros; ring.
  - destruct (IH us w ltac:(intros; apply H; lia)) as (q1 & H1). destruct (H c ltac:(lia)) as (q2 & H2).
    exists (fun d => q1 d + w c * q2 d). intros l Hl. cbn [sum]. rewrite (H1 l Hl), (H2 l Hl), <- sum_scale, <- sum_plus.
    apply sum_ext. intros; ring.
Qed.

Lemma span_ext : forall (n k : nat) (a : fn) (u u' : nat -> R), (forall l, (l < n)%nat -> u l = u' l) -> in_span n k a u -> in_span n k a u'.
Proof. intros n k a u u' H (q & Hq). exists q. intros l Hl. rewrite <- (H l Hl). apply Hq. exact Hl. Qed.

Lemma not_zero_vector : forall (n : nat) (u : nat -> R), ~ zero_vector n u -> exists l, (l < n)%nat /\ u l <> 0.
Proof.
  intros n u H. induction n as [|n IH].
  - exfalso. apply H. intros i Hi. lia.
  - destruct (Req_dec (u n) 0) as [E|E]; [|exists n; split; [lia|exact E]].
    destruct IH as (l & Hl & N).
    + intros Z0. apply H. intros i Hi. destruct (Nat.eq_dec i n) as [->|Ne]; [exact E|]. apply Z0. lia.
    + exists l. split; [lia|exact N].
Qed.

(** Gram-Schmidt with nothing dropped spans what it was given. *)
Lemma gs_span : forall (m : mat), (cols m > 0)%nat -> ~ zero_vector (rows m) (column (gram_schmidt m) (cols m - 1)) ->
  forall c, (c < cols m)%nat -> in_span (rows m) (cols m) (entry (gram_schmidt m)) (fun l => entry m l c).
Proof.
  intros m Hc Hz c Hcc. apply (schmidt_span (rows m) (cols m) 0 (entry m)); [intros x y Hx; lia| |lia].
  intros _. apply not_zero_vector in Hz. destruct Hz as (l & Hl & N). exists l. split; [exact Hl|exact N].
Qed.

(** The number of orthonormal columns when nothing is dropped. *)
Lemma gs_full : forall (m : mat), (cols m > 0)%nat -> ~ zero_vector (rows m) (column (gram_schmidt m) (cols m - 1)) ->
  ortho_upto (rows m) (cols m) (entry (gram_schmidt m)).
Proof.
  intros m Hc Hz. destruct (gs_padded m) as (k & Hk & Ho & H0). destruct (Nat.eq_dec k (cols m)) as [->|N]; [exact Ho|].
  exfalso. apply Hz. intros l Hl. unfold column. apply H0. lia.
Qed.

Lemma inverse_mm : forall (p q : mat), inverse p q -> forall i j, (i < rows p)%nat -> (j < rows p)%nat ->
  mm (cols p) (entry p) (entry q) i j = delta i j.
Proof. intros p q (_ & _ & H) i j Hi Hj. specialize (H i j Hi Hj). rewrite total_sum in H. exact H. Qed.

Lemma svd_full : forall (matrixV : mat -> mat) (a o p o' p' : mat) (sigma : nat -> R),
  (rows a > 0)%nat -> (cols a > 0)%nat ->
  rows o = rows a -> cols o = Nat.min (rows a) (cols a) ->
  rows p = Nat.min (rows a) (cols a) -> cols p = Nat.min (rows a) (cols a) ->
  right_singular (Nat.min (rows a) (cols a)) (svd_C a o p) (matrixV (svd_C a o p)) sigma ->
  ((rows a <= cols a)%nat -> inverse o o') -> inverse p p' ->
  ~ zero_vector (cols a) (column (svd_Y a o) (cols (svd_Y a o) - 1)) ->
  ~ zero_vector (rows a) (column (svd_Z a o p) (cols (svd_Z a o p) - 1)) ->
  singular_components a (svd_state matrixV a o p) sigma.
Proof.
  intros matrixV a o p o' p' sigma Ha Hb Ro Co Rp Cp RS Io Ip Zy Zz.
  apply svd_main; try assumption.
  - intros i Hi. apply combination_span.
    assert (Hc : (cols (product (transpose a) o) > 0)%nat) by (cbn [product cols]; lia).
    destruct (Nat.le_gt_cases (rows a) (cols a)) as [L|L].
    + specialize (Io L). pose proof (gs_span (product (transpose a) o) Hc Zy) as Hs.
      eapply span_ext; [|apply (span_sum _ _ _ (cols o) (fun c l => entry (product (transpose a) o) l c) (fun c => entry o' c i)); intros j Hj; apply Hs; exact Hj].
      intros l Hl. cbv beta. unfold row. change (sum (cols o) (fun j => entry o' j i * mm (rows a) (tr (entry a)) (entry o) l j) = entry a i l).
      rewrite (sum_ext (cols o) _ (fun j => mm (rows a) (tr (entry a)) (entry o) l j * entry o' j i)) by (intros; ring).
      fold (mm (cols o) (mm (rows a) (tr (entry a)) (entry o)) (entry o') l i). rewrite mm_assoc.
      transitivity (mm (rows a) (tr (entry a)) delta l i); [|rewrite mm_delta_r by exact Hi; reflexivity].
      apply mm_ext; [reflexivity|]. intros k Hk. apply inverse_mm; [exact Io|lia|lia].
    + pose proof (gs_full (product (transpose a) o) Hc Zy) as Ho. cbn [product transpose rows cols] in Ho.
      assert (Er : cols o = cols a) by lia. rewrite Er in Ho.
      set (y := entry (gram_schmidt (product (transpose a) o))).
      exists (fun c => sum (cols a) (fun l => y l c * entry a i l)). intros l Hl. cbn [svd_Y gram_schmidt product transpose rows cols] in Hl |- *. rewrite Er.
      fold y. unfold row. transitivity (mm (cols a) (mm (cols a) y (tr y)) (fun q _ => entry a i q) l 0%nat).
      * transitivity (mm (cols a) delta (fun q _ => entry a i q) l 0%nat); [rewrite mm_delta_l by exact Hl; reflexivity|].
        apply mm_ext; [|reflexivity]. intros k Hk. symmetry. apply square_orthonormal; [|exact Hl|exact Hk]. intros c d Hc' Hd. apply (Ho c d Hc' Hd).
      * rewrite mm_assoc. unfold mm at 1. apply sum_ext. intros c Hcc. rewrite Rmult_comm. reflexivity.
  - intros j Hj. apply combination_span.
    assert (Hc : (cols (product (svd_B a o) p) > 0)%nat) by (cbn [product cols]; lia).
    pose proof (gs_span (product (svd_B a o) p) Hc Zz) as Hs.
    assert (Eb : cols (svd_B a o) = cols o) by reflexivity.
    eapply span_ext; [|apply (span_sum _ _ _ (cols p) (fun c l => entry (product (svd_B a o) p) l c) (fun c => entry p' c j)); intros c Hcc; apply Hs; exact Hcc].
    intros l Hl. cbv beta. unfold column.
    change (sum (cols p) (fun c => entry p' c j * mm (cols (svd_B a o)) (entry (svd_B a o)) (entry p) l c) = entry (svd_B a o) l j).
    rewrite (sum_ext (cols p) _ (fun c => mm (cols (svd_B a o)) (entry (svd_B a o)) (entry p) l c * entry p' c j)) by (intros; ring).
    fold (mm (cols p) (mm (cols (svd_B a o)) (entry (svd_B a o)) (entry p)) (entry p') l j). rewrite mm_assoc.
    transitivity (mm (cols (svd_B a o)) (entry (svd_B a o)) delta l j); [|rewrite mm_delta_r by exact Hj; reflexivity].
    apply mm_ext; [reflexivity|]. intros k Hk. apply inverse_mm; [exact Ip|lia|lia].
Qed.

(** What the transformer makes of the rows it was trained with. *)
Lemma svd_training_rows : forall (a s y : mat) (sigma : nat -> R), singular_components a s sigma -> svd_execute s a = Ok y ->
  forall j k, (j < cols s)%nat -> (k < cols s)%nat ->
  total (rows a) (fun i => entry y i j * entry y i k) = if Nat.eqb j k then sigma j * sigma j else 0.
Proof.
  intros a s y sigma H E j k Hj Hk. apply svd_inv in E. destruct E as ((Hr & Hc & He) & ->).
  destruct (flip_spec (product a s) Hr j) as (sj & _ & Hsj & _ & Hyj & _).
  destruct (flip_spec (product a s) Hr k) as (sk & _ & Hsk & _ & Hyk & _).
  rewrite total_sum. rewrite (sum_ext _ _ (fun i => (sj * sk) * (entry (product a s) i j * entry (product a s) i k))) by (intros; rewrite Hyj, Hyk; ring).
  rewrite sum_scale.
  assert (Ed : sum (rows a) (fun i => entry (product a s) i j * entry (product a s) i k) = if Nat.eqb j k then sigma j * sigma j else 0).
  { rewrite <- (sc_orthogonal a s sigma H j k Hj Hk), total_sum. apply sum_ext. intros i _. rewrite !dot_sum. reflexivity. }
  rewrite Ed. destruct (Nat.eqb_spec j k) as [->|N]; [|ring].
  cbn [svd_flip entry] in Hyj, Hyk.
  destruct (Req_dec (sigma k * sigma k) 0) as [Z0|N0]; [rewrite Z0; ring|].
  assert (Ex : exists l, (l < rows a)%nat /\ entry (product a s) l k <> 0).
  { apply not_zero_vector. intros Z0. apply N0. rewrite <- Ed. apply sum_zero. intros i Hi. rewrite (Z0 i Hi). ring. }
  destruct Ex as (l & Hl & Nl). specialize (Hyj l). specialize (Hyk l). rewrite Hyj in Hyk.
  assert (Ess : sj = sk) by (apply (Rmult_eq_reg_r (entry (product a s) l k)); assumption). subst sj.
  destruct Hsk as [-> | ->]; ring.
Qed.

(* ------------------------------------------------------------------ *)
(** The random matrices. *)
Lemma div2_div : forall n, Nat.div2 n = (n / 2)%nat.
Proof. intros. apply Nat.div2_div. Qed.

Lemma pairs_spec : forall rm rand n k, snd (gaussian_pairs rm rand k n) = (k + 2 * n)%nat /\ length (fst (gaussian_pairs rm rand k n)) = (2 * n)%nat /\
  forall j, (j < 2 * n)%nat -> nth j (fst (gaussian_pairs rm rand k n)) 0 =
    let p := gaussian_pair rm (rand (k + 2 * Nat.div2 j)%nat) (rand (k + 2 * Nat.div2 j + 1)%nat) in if Nat.even j then fst p else snd p.
Proof.
  intros rm rand. induction n as [|n IH]; intros k; cbn [gaussian_pairs].
  - cbn [fst snd length]. split; [lia|]. split; [lia|]. intros j Hj. lia.
  - destruct (IH (k + 2)%nat) as (H1 & H2 & H3). destruct (gaussian_pairs rm rand (k + 2) n) as [l k'] eqn:E. cbn [fst snd length] in *.
    split; [lia|]. split; [lia|]. intros j Hj. destruct j as [|[|j]].
    + cbn [nth Nat.div2 Nat.even]. rewrite Nat.mul_0_r, Nat.add_0_r. reflexivity.
    + cbn [nth Nat.div2 Nat.even]. rewrite Nat.mul_0_r, Nat.add_0_r. reflexivity.
    + cbn [nth]. rewrite H3 by lia. cbn [Nat.div2 Nat.even]. cbv zeta.
      replace (k + 2 + 2 * Nat.div2 j)%nat with (k + 2 * S (Nat.div2 j))%nat by lia. reflexivity.
Qed.

Lemma row_spec : forall rm rand k c, snd (gaussian_row rm rand k c) = (k + 2 * ((c + 1) / 2))%nat /\
  forall j, (j < c)%nat -> nth j (fst (gaussian_row rm rand k c)) 0 = normal_entry rm rand k c 0 j.
Proof.
  intros rm rand k c. unfold gaussian_row. destruct (pairs_spec rm rand (Nat.div2 c) k) as (H1 & H2 & H3).
  destruct (gaussian_pairs rm rand k (Nat.div2 c)) as [l k'] eqn:E. cbn [fst snd] in *.
  pose proof (Nat.div2_odd c) as Hc.
  assert (Hd : ((c + 1) / 2 = Nat.div2 c + Nat.b2n (Nat.odd c))%nat).
  { rewrite <- div2_div. destruct (Nat.odd c) eqn:Eo; cbn [Nat.b2n] in *.
    - replace (c + 1)%nat with (2 * S (Nat.div2 c))%nat by lia. rewrite Nat.div2_double. lia.
    - replace (c + 1)%nat with (S (2 * Nat.div2 c))%nat by lia. rewrite Nat.div2_succ_double. lia. }
  assert (Hin : forall j, (j < 2 * Nat.div2 c)%nat -> nth j l 0 = normal_entry rm rand k c 0 j).
  { intros j Hj. rewrite H3 by exact Hj. unfold normal_entry, gaussian_pair. rewrite Nat.mul_0_l, Nat.add_0_l, <- div2_div. cbv zeta.
    destruct (Nat.even j) eqn:Ee; cbn [andb fst snd]; [|reflexivity].
    assert (Hl : (j + 1 < c)%nat).
    { apply Nat.even_spec in Ee. destruct Ee as (q & Eq). pose proof (Nat.div2_odd c). destruct (Nat.odd c); cbn [Nat.b2n] in *; lia. }
    destruct (Nat.ltb_spec (j + 1) c); [reflexivity|lia]. }
  destruct (Nat.odd c) eqn:Eo; cbn [Nat.b2n fst snd] in *.
  - split; [lia|]. intros j Hj. destruct (Nat.eq_dec j (2 * Nat.div2 c)) as [Ej|Nj].
    + rewrite app_nth2 by lia. rewrite H2, Ej, Nat.sub_diag. cbn [nth]. rewrite H1. unfold normal_entry, gaussian_pair.
      rewrite Nat.mul_0_l, Nat.add_0_l, <- div2_div, Nat.div2_double. cbv zeta. cbn [snd].
      destruct (Nat.ltb_spec (2 * Nat.div2 c + 1) c); [lia|]. rewrite Bool.andb_false_r. reflexivity.
    + rewrite app_nth1 by lia. apply Hin. lia.
  - split; [lia|]. intros j Hj. apply Hin. lia.
Qed.

Lemma rows_spec : forall rm rand c r k, snd (gaussian_rows rm rand k r c) = (k + 2 * (r * ((c + 1) / 2)))%nat /\
  forall i j, (i < r)%nat -> (j < c)%nat -> nth j (nth i (fst (gaussian_rows rm rand k r c)) []) 0 = normal_entry rm rand k c i j.
Proof.
  intros rm rand c. induction r as [|r IH]; intros k; cbn [gaussian_rows].
  - cbn [fst snd]. split; [lia|]. intros; lia.
  - destruct (row_spec rm rand k c) as (H1 & H2). destruct (gaussian_row rm rand k c) as [l k'] eqn:E. cbn [fst snd] in H1, H2.
    destruct (IH k') as (H3 & H4). destruct (gaussian_rows rm rand k' r c) as [ls k''] eqn:E'. cbn [fst snd] in *.
    split; [rewrite H3, H1; lia|]. intros i j Hi Hj. destruct i as [|i]; cbn [nth]; [apply H2; exact Hj|].
    rewrite H4 by lia. unfold normal_entry.
    replace (k' + 2 * (i * ((c + 1) / 2) + j / 2))%nat with (k + 2 * (S i * ((c + 1) / 2) + j / 2))%nat by (rewrite H1; lia). reflexivity.
Qed.

Lemma matrix_spec : forall rm rand k r c, snd (gaussian_matrix rm rand k r c) = (k + 2 * (r * ((c + 1) / 2)))%nat /\
  rows (fst (gaussian_matrix rm rand k r c)) = r /\ cols (fst (gaussian_matrix rm rand k r c)) = c /\
  forall i j, (i < r)%nat -> (j < c)%nat -> entry (fst (gaussian_matrix rm rand k r c)) i j = normal_entry rm rand k c i j.
Proof.
  intros rm rand k r c. unfold gaussian_matrix. destruct (rows_spec rm rand c r k) as (H1 & H2).
  destruct (gaussian_rows rm rand k r c) as [ls k'] eqn:E. cbn [fst snd rows cols entry] in *.
  split; [exact H1|]. split; [reflexivity|]. split; [reflexivity|]. exact H2.
Qed.

Lemma random_spec : forall rm rand a, let o := fst (random_matrices rm rand a) in let p := snd (random_matrices rm rand a) in
  let r := Nat.min (rows a) (cols a) in
  rows o = rows a /\ cols o = r /\ rows p = r /\ cols p = r /\
  (forall i j, (i < rows a)%nat -> (j < r)%nat -> entry o i j = normal_entry rm rand 0 r i j) /\
  (forall i j, (i < r)%nat -> (j < r)%nat -> entry p i j = normal_entry rm rand (2 * (rows a * ((r + 1) / 2))) r i j).
Proof.
  intros rm rand a. cbv zeta. rewrite <- rank_min. unfold random_matrices.
  destruct (matrix_spec rm rand 0 (rows a) (rank_of a)) as (H1 & H2 & H3 & H4).
  destruct (gaussian_matrix rm rand 0 (rows a) (rank_of a)) as [o k] eqn:E. cbn [fst snd] in *.
  assert (Hb : cols (svd_B a o) = rank_of a) by (rewrite <- H3; reflexivity). rewrite Hb.
  destruct (matrix_spec rm rand k (rank_of a) (rank_of a)) as (_ & H6 & H7 & H8).
  destruct (gaussian_matrix rm rand k (rank_of a) (rank_of a)) as [p k'] eqn:E'. cbn [fst snd] in *.
  split; [exact H2|]. split; [exact H3|]. split; [exact H6|]. split; [exact H7|]. split; [exact H4|].
  intros i j Hi Hj. rewrite H8 by assumption. rewrite H1, Nat.add_0_l. reflexivity.
Qed.

(** The estimator. *)
Lemma svd_trained : forall (matrixV : mat -> mat) (rand_max : R) (rand : nat -> R) (a : mat), (rows a > 0)%nat -> (cols a > 0)%nat ->
  let o := fst (random_matrices rand_max rand a) in
  let p := snd (random_matrices rand_max rand a) in
  cols (matrixV (svd_C a o p)) = Nat.min (rows a) (cols a) ->
  rows o = rows a /\ cols o = Nat.min (rows a) (cols a) /\ rows p = Nat.min (rows a) (cols a) /\ cols p = Nat.min (rows a) (cols a) /\
  map snd (erun (svd_impl matrixV rand_max rand) (est_new no_matrix) [OBegin; OFit (Some [a]); OComplete; OCreate])
  = [EUnit; EFit FitComplete; EUnit; ETransformer (svd_state matrixV a o p)].
Proof.
  intros matrixV rand_max rand a Hr Hc o p Hv. destruct (random_spec rand_max rand a) as (R1 & R2 & R3 & R4 & _ & _). fold o p in R1, R2, R3, R4.
  split; [exact R1|]. split; [exact R2|]. split; [exact R3|]. split; [exact R4|].
  assert (E : Nat.eqb (size a) 0 = false) by (apply Nat.eqb_neq; unfold size; intro Z0; apply Nat.eq_mul_0 in Z0; lia).
  assert (E' : Nat.eqb (size (svd_state matrixV a o p)) 0 = false).
  { apply Nat.eqb_neq. unfold size. intro Z0. apply Nat.eq_mul_0 in Z0.
    assert (S1 : rows (svd_state matrixV a o p) = cols a) by reflexivity.
    assert (S2 : cols (svd_state matrixV a o p) = Nat.min (rows a) (cols a)) by exact Hv. lia. }
  unfold erun, estep, begin_training, fit, complete_training, create_transformer, est_new, eout_of, svd_impl, svd_fit, matrix_create.
  cbn [e_state e_impl i_begin i_fit i_complete i_create e_created fst snd map]. rewrite E.
  unfold o, p in *. destruct (random_matrices rand_max rand a) as [o' p'] eqn:Em.
  cbn [e_state e_impl i_begin i_fit i_complete i_create e_created fst snd map] in *. rewrite E'. reflexivity.
Qed.

Lemma svd_one_matrix : forall (matrixV : mat -> mat) (rand_max : R) (rand : nat -> R) (s : mat) (items : list mat), length items <> 1%nat ->
  estep (svd_impl matrixV rand_max rand) (mkEst Training false s) (OFit (Some items))
  = (mkEst Training false s, EThrow (if Nat.eqb (length items) 0 then InvalidArgument else RuntimeError)).
Proof.
  intros matrixV rm rd s items H. destruct items as [|a [|b l]]; [reflexivity|exfalso; apply H; reflexivity|reflexivity].
Qed.

(** Data on a small scale trains a transformer that maps everything to zero. *)
Lemma norm_scale : forall (n : nat) (u : nat -> R) (c : R), 0 <= c -> norm n (fun l => c * u l) = c * norm n u.
Proof.
  intros n u c Hc. unfold norm. rewrite (sum_ext n _ (fun l => (c * c) * (u l * u l))) by (intros; ring). rewrite sum_scale.
  rewrite sqrt_mult; [|apply sq_nonneg|apply sum_nonneg; intros; apply sq_nonneg].
  rewrite sqrt_square by exact Hc. reflexivity.
Qed.
Definition scaled (c : R) (a : mat) : mat := Mat (rows a) (cols a) (fun i j => c * entry a i j).

Lemma svd_small : forall (matrixV : mat -> mat) (a o p : mat), (cols o > 0)%nat ->
  exists c, 0 < c /\ forall i j, entry (svd_state matrixV (scaled c a) o p) i j = 0.
Proof.
  intros matrixV a o p Hc.
  pose (w := norm (cols a) (fun l => entry (product (transpose a) o) l 0%nat)).
  assert (Hw : 0 <= w) by apply sqrt_pos.
  pose proof EPS_pos as He.
  exists (EPS / (2 * (1 + w))). assert (Hcp : 0 < EPS / (2 * (1 + w))) by (apply Rdiv_lt_0_compat; lra). split; [exact Hcp|].
  set (c := EPS / (2 * (1 + w))) in *.
  intros i j. cbn [svd_state product entry]. apply sum_zero. intros k _.
  assert (E : entry (svd_Y (scaled c a) o) i k = 0); [|rewrite E; ring].
  cbn [svd_Y gram_schmidt entry]. apply schmidt_small; [exact Hc|].
  assert (En : norm (cols a) (fun l => entry (product (transpose (scaled c a)) o) l 0%nat) = c * w).
  { unfold w. rewrite <- norm_scale by lra. unfold norm. f_equal. apply sum_ext. intros l _.
    assert (Ee : entry (product (transpose (scaled c a)) o) l 0%nat = c * entry (product (transpose a) o) l 0%nat).
    { cbn [product transpose scaled entry rows cols]. rewrite <- sum_scale. apply sum_ext. intros; ring. }
    rewrite Ee. reflexivity. }
  change (norm (cols a) (fun l => entry (product (transpose (scaled c a)) o) l 0%nat) < EPS).
  rewrite En. unfold c. unfold Rdiv. rewrite Rmult_assoc.
  assert (Hlt : / (2 * (1 + w)) * w < 1).
  { apply (Rmult_lt_reg_l (2 * (1 + w))); [lra|]. rewrite <- Rmult_assoc, Rinv_r by lra. lra. }
  nra.
Qed.

(** The two numbers made from a pair of draws. *)
Lemma gaussian_circle : forall (rm r1 r2 : R), 0 <= r1 <= rm -> 0 <= r2 <= rm ->
  let v1 := (r1 + 1) / (rm + 2) in 0 < v1 < 1 /\ 0 < -2 * ln v1 /\
  fst (gaussian_pair rm r1 r2) * fst (gaussian_pair rm r1 r2) + snd (gaussian_pair rm r1 r2) * snd (gaussian_pair rm r1 r2) = -2 * ln v1.
Proof.
  intros rm r1 r2 H1 H2. cbv zeta. assert (Hv : 0 < (r1 + 1) / (rm + 2) < 1).
  { split; [apply Rdiv_lt_0_compat; lra|]. apply (Rmult_lt_reg_r (rm + 2)); [lra|]. unfold Rdiv. rewrite Rmult_assoc, Rinv_l by lra. lra. }
  split; [exact Hv|]. set (v1 := (r1 + 1) / (rm + 2)) in *.
  assert (Hl : ln v1 < 0) by (rewrite <- ln_1; apply ln_increasing; lra).
  split; [lra|]. unfold gaussian_pair. fold v1. cbn [fst snd].
  set (t := 2 * PI_f * ((r2 + 1) / (rm + 2))).
  transitivity (sqrt (-2 * ln v1) * sqrt (-2 * ln v1) * (Rsqr (sin t) + Rsqr (cos t))).
  - unfold Rsqr. ring.
  - rewrite sin2_cos2, sqrt_sqrt by lra. ring.
Qed.
