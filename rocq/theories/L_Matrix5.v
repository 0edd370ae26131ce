(** C74: the theorems about the model. *)
From Coq Require Import Reals Lra.
From Verif Require Import Base M_Estimator S_Estimator M_Matrix S_Matrix L_Matrix L_Matrix2 L_Matrix3 L_Matrix4.
Open Scope R_scope.

Lemma rank_min : forall a, rank_of a = Nat.min (rows a) (cols a).
Proof. intros. unfold rank_of. destruct (Nat.ltb_spec (rows a) (cols a)); lia. Qed.

Lemma gs_padded : forall (m : mat), exists k, padded (rows m) (cols m) k (entry (gram_schmidt m)).
Proof.
  intros m. destruct (schmidt_ortho (rows m) (cols m) 0 (entry m)) as (k & Hk & H1 & H2); [intros c d Hc; lia|].
  exists k. split; [lia|]. split; [exact H1|]. intros l c Hc. apply H2. lia.
Qed.

Lemma combination_span : forall (m : mat) (u : nat -> R), combination m u <-> in_span (rows m) (cols m) (entry m) u.
Proof.
  intros. unfold combination, in_span. split; intros (w & H); exists w; intros i Hi; rewrite (H i Hi); [|symmetry]; rewrite ?total_sum; try reflexivity.
Qed.

Lemma svd_main : forall (matrixV : mat -> mat) (a o p : mat) (sigma : nat -> R),
  rows o = rows a -> cols o = Nat.min (rows a) (cols a) ->
  rows p = Nat.min (rows a) (cols a) -> cols p = Nat.min (rows a) (cols a) ->
  right_singular (Nat.min (rows a) (cols a)) (svd_C a o p) (matrixV (svd_C a o p)) sigma ->
  (forall i, (i < rows a)%nat -> combination (svd_Y a o) (row a i)) ->
  (forall j, (j < cols (svd_B a o))%nat -> combination (svd_Z a o p) (column (svd_B a o) j)) ->
  singular_components a (svd_state matrixV a o p) sigma.
Proof.
  intros matrixV a o p sigma Ro Co Rp Cp RS Sy Sz. set (r := Nat.min (rows a) (cols a)) in *.
  destruct RS as [Rv Cv Ov Ev Pv Dv]. set (vm := matrixV (svd_C a o p)) in *.
  destruct (gs_padded (product (transpose a) o)) as (k & Hk). cbn [product transpose rows cols] in Hk. rewrite Co in Hk.
  destruct (gs_padded (product (svd_B a o) p)) as (kz & Hkz). cbn [product svd_B rows cols] in Hkz. rewrite Cp in Hkz.
  set (yf := entry (gram_schmidt (product (transpose a) o))) in *.
  assert (Eb : entry (svd_B a o) = mm (cols a) (entry a) yf) by reflexivity.
  set (zf := entry (gram_schmidt (product (svd_B a o) p))) in *.
  assert (Hkz' : padded (rows a) r kz zf) by exact Hkz. clear Hkz.
  assert (Ec : entry (svd_C a o p) = mm (rows a) (tr zf) (mm (cols a) (entry a) yf)) by reflexivity.
  assert (Es : entry (svd_state matrixV a o p) = mm r yf (entry vm)).
  { unfold svd_state. fold vm. rewrite <- Co. reflexivity. }
  assert (Hsy : forall i, (i < rows a)%nat -> in_span (cols a) r yf (fun l => entry a i l)).
  { intros i Hi. specialize (Sy i Hi). apply combination_span in Sy. cbn [svd_Y gram_schmidt product transpose rows cols] in Sy. rewrite Co in Sy. exact Sy. }
  assert (Hsz : forall j, (j < r)%nat -> in_span (rows a) r zf (fun l => mm (cols a) (entry a) yf l j)).
  { intros j Hj. specialize (Sz j). cbn [svd_B product svd_Y gram_schmidt cols] in Sz. rewrite Co in Sz. specialize (Sz Hj).
    apply combination_span in Sz. cbn [svd_Z gram_schmidt product svd_B rows cols] in Sz. rewrite Cp in Sz. exact Sz. }
  assert (Hov : forall i j, (i < r)%nat -> (j < r)%nat -> mm r (tr (entry vm)) (entry vm) i j = delta i j).
  { intros i j Hi Hj. rewrite <- Rv. apply orthonormal_mm; [exact Ov|lia|lia]. }
  set (bf := mm (cols a) (entry a) yf) in *. set (cf := mm (rows a) (tr zf) bf) in *.
  assert (Hev : forall i j, (i < r)%nat -> (j < r)%nat -> mm r (mm r (tr cf) cf) (entry vm) i j = sigma j * sigma j * entry vm i j).
  { intros i j Hi Hj. specialize (Ev j i). rewrite Cv in Ev. rewrite <- (Ev Hj Hi). rewrite dot_sum. unfold mm at 1. apply sum_ext.
    intros l Hl. f_equal. rewrite dot_sum. unfold column. rewrite Ec. fold cf.
    assert (Er : rows (svd_C a o p) = r) by (cbn [svd_C product transpose rows svd_Z gram_schmidt cols]; exact Cp).
    rewrite Er. reflexivity. }
  assert (Dst : forall i j, dot (cols a) (row a i) (column (svd_state matrixV a o p) j) = mm (cols a) (entry a) (mm r yf (entry vm)) i j).
  { intros i j. rewrite dot_sum. unfold row, column. rewrite Es. reflexivity. }
  constructor.
  - reflexivity.
  - cbn [svd_state product cols]. exact Cv.
  - intros j Hj. apply Pv. cbn [svd_state product cols] in Hj. fold vm in Hj. lia.
  - intros j l Hjl Hl. apply Dv; [exact Hjl|]. cbn [svd_state product cols] in Hl. fold vm in Hl. lia.
  - intros i j Hi Hj. assert (Ecs : cols (svd_state matrixV a o p) = r) by exact Cv. rewrite Ecs in Hi, Hj.
    transitivity (if Nat.eqb i j then sigma j * sigma j else 0); [|destruct (Nat.eqb_spec i j); [subst; reflexivity|reflexivity]].
    rewrite <- (svd_orthogonal (rows a) (cols a) r (entry a) yf zf (entry vm) sigma kz Hkz' Hsz Hov Hev i j Hi Hj).
    rewrite total_sum. unfold mm at 1. apply sum_ext. intros l _. rewrite !Dst. reflexivity.
  - intros i j Hi Hj. cbn [svd_state product cols] in Hj. fold vm in Hj. rewrite Cv in Hj. rewrite total_sum, Es.
    rewrite <- (svd_eigen (rows a) (cols a) r k (entry a) yf zf (entry vm) sigma kz Hk Hkz' Hsy Hsz Hev i j Hi Hj).
    unfold mm at 1. apply sum_ext. intros l _. rewrite Dst. reflexivity.
  - intros i j Hi Hj Hs. cbn [svd_state product cols] in Hi, Hj. fold vm in Hi, Hj. rewrite Cv in Hi, Hj. rewrite dot_sum.
    unfold column. rewrite Es.
    exact (svd_unit (rows a) (cols a) r k (entry a) yf zf (entry vm) sigma kz Hk Hkz' Hsz Hov Hev i j Hi Hj Hs).
  - intros i j Hi Hj. rewrite total_sum.
    rewrite <- (svd_complete (rows a) (cols a) r k (entry a) yf (entry vm) Hk Hsy Hov i j Hi Hj).
    assert (Ecs : cols (svd_state matrixV a o p) = r) by exact Cv. rewrite Ecs. unfold mm at 1. apply sum_ext. intros l _. rewrite Dst, Es. reflexivity.
  - intros q u Hq Hu. assert (Ecs : cols (svd_state matrixV a o p) = r) by exact Cv. rewrite Ecs in Hq.
    rewrite total_sum, dot_sum.
    eapply Rle_trans; [|apply (svd_stretch (rows a) (cols a) r k (entry a) yf zf (entry vm) sigma kz Hk Hkz' Hsy Hsz Hov Hev q u Pv Dv Hq)].
    + apply Req_le. apply sum_ext. intros i _. rewrite dot_sum. reflexivity.
    + intros j Hj. rewrite <- (Hu j Hj), dot_sum. unfold column. rewrite Es. reflexivity.
Qed.
