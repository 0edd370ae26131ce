(** C74: what training computes. *)
From Coq Require Import Reals Lra.
From Verif Require Import Base M_Estimator S_Estimator M_Matrix S_Matrix L_Matrix L_Matrix2 L_Matrix3.
Open Scope R_scope.

Lemma sq_nonneg : forall x : R, 0 <= x * x.
Proof. intros. nra. Qed.

(** [k] orthonormal columns followed by zero columns. *)
Definition padded (n r k : nat) (z : fn) : Prop :=
  (k <= r)%nat /\ ortho_upto n k z /\ forall l c, (k <= c < r)%nat -> z l c = 0.

Lemma padded_dot : forall n r k z c d, padded n r k z -> (c < r)%nat -> (d < r)%nat ->
  sdot n z c d = if Nat.ltb c k then delta c d else 0.
Proof.
  intros n r k z c d (Hk & Ho & Hz) Hc Hd. destruct (Nat.ltb_spec c k) as [L|L].
  - destruct (Nat.lt_ge_cases d k) as [L'|L']; [apply Ho; assumption|].
    unfold sdot. rewrite sum_zero; [unfold delta; destruct (Nat.eqb_spec c d); [lia|reflexivity]|].
    intros l _. rewrite (Hz l d) by lia. ring.
  - unfold sdot. apply sum_zero. intros l _. rewrite (Hz l c) by lia. ring.
Qed.

(** The projection on such columns leaves what they span alone. *)
Lemma padded_project : forall n r k z u, padded n r k z -> in_span n r z u ->
  forall l, (l < n)%nat -> sum r (fun c => z l c * sum n (fun i => z i c * u i)) = u l.
Proof.
  intros n r k z u Hp (q & Hq) l Hl. rewrite (Hq l Hl). apply sum_ext. intros c Hc.
  assert (E : sum n (fun i => z i c * u i) = if Nat.ltb c k then q c else 0).
  { rewrite (sum_ext n _ (fun i => sum r (fun d => q d * (z i c * z i d)))).
    - rewrite sum_swap. rewrite (sum_ext r _ (fun d => q d * (if Nat.ltb c k then delta c d else 0))).
      + destruct (Nat.ltb_spec c k) as [L|L].
        * rewrite (sum_ext r _ (fun d => q d * delta d c)) by (intros; rewrite delta_sym; reflexivity). apply sum_delta. exact Hc.
        * apply sum_zero. intros. ring.
      + intros d Hd. rewrite sum_scale. rewrite <- (padded_dot n r k z c d Hp Hc Hd). reflexivity.
    - intros i Hi. rewrite (Hq i Hi), <- sum_scale. apply sum_ext. intros. ring. }
  rewrite E. destruct (Nat.ltb_spec c k) as [L|L]; [ring|]. destruct Hp as (_ & _ & Hz). rewrite (Hz l c) by lia. ring.
Qed.

Section Svd.
  Variables (m n r k : nat) (a y z v : fn) (sigma : nat -> R).
  Let b := mm n a y.
  Let c := mm m (tr z) b.
  Let s := mm r y v.
  Variable kz : nat.
  Hypothesis Hy : padded n r k y.
  Hypothesis Hz : padded m r kz z.
  Hypothesis Spy : forall i, (i < m)%nat -> in_span n r y (fun l => a i l).
  Hypothesis Spz : forall j, (j < r)%nat -> in_span m r z (fun l => b l j).
  Hypothesis Hv : forall i j, (i < r)%nat -> (j < r)%nat -> mm r (tr v) v i j = delta i j.
  Hypothesis He : forall i j, (i < r)%nat -> (j < r)%nat -> mm r (mm r (tr c) c) v i j = (sigma j * sigma j) * v i j.

  (** A Y Y^T = A, Z C = B. *)
  Lemma ayy : forall i j, (i < m)%nat -> (j < n)%nat -> mm r b (tr y) i j = a i j.
  Proof using Hy Spy.
    intros i j Hi Hj. rewrite <- (padded_project n r k y _ Hy (Spy i Hi) j Hj). unfold mm, b, tr. apply sum_ext. intros d _.
    rewrite (Rmult_comm _ (y j d)). f_equal. unfold mm. apply sum_ext. intros; ring.
  Qed.
  Lemma zc : forall i j, (i < m)%nat -> (j < r)%nat -> mm r z c i j = b i j.
  Proof using Hz Spz.
    intros i j Hi Hj. rewrite <- (padded_project m r kz z _ Hz (Spz j Hj) i Hi). unfold mm, c. apply sum_ext. intros d _. reflexivity.
  Qed.
  Lemma btb : forall i j, (i < r)%nat -> (j < r)%nat -> mm m (tr b) b i j = mm r (tr c) c i j.
  Proof using Hz Spz.
    intros i j Hi Hj. transitivity (mm m (tr (mm r z c)) b i j).
    - apply mm_ext; [|reflexivity]. intros l Hl. unfold tr. symmetry. apply zc; assumption.
    - transitivity (mm m (mm r (tr c) (tr z)) b i j).
      + apply mm_ext; [|reflexivity]. intros l Hl. rewrite mm_tr. reflexivity.
      + rewrite mm_assoc. reflexivity.
  Qed.
  Lemma btbv : forall i j, (i < r)%nat -> (j < r)%nat -> mm r (mm m (tr b) b) v i j = (sigma j * sigma j) * v i j.
  Proof using Hz Spz He.
    intros i j Hi Hj. rewrite <- (He i j Hi Hj). apply mm_ext; [|reflexivity]. intros l Hl. apply btb; assumption.
  Qed.
  (** A S = B V. *)
  Lemma as_bv : forall i j, mm n a s i j = mm r b v i j.
  Proof using. intros. unfold s, b. rewrite mm_assoc. reflexivity. Qed.

  (** The columns of A S are orthogonal, their squared lengths the squares of the singular values. *)
  Lemma svd_orthogonal : forall i j, (i < r)%nat -> (j < r)%nat ->
    mm m (tr (mm n a s)) (mm n a s) i j = if Nat.eqb i j then sigma j * sigma j else 0.
  Proof using Hz Spz He Hv.
    intros i j Hi Hj. transitivity (mm m (tr (mm r b v)) (mm r b v) i j).
    { apply mm_ext; intros; unfold tr; apply as_bv. }
    transitivity (mm m (mm r (tr v) (tr b)) (mm r b v) i j).
    { apply mm_ext; [|reflexivity]. intros l Hl. rewrite mm_tr. reflexivity. }
    rewrite mm_assoc. transitivity (mm r (tr v) (fun p q => (sigma q * sigma q) * v p q) i j).
    { apply mm_ext; [reflexivity|]. intros l Hl. rewrite <- mm_assoc. apply btbv; assumption. }
    transitivity ((sigma j * sigma j) * mm r (tr v) v i j).
    { unfold mm. rewrite <- sum_scale. apply sum_ext. intros; ring. }
    rewrite Hv by assumption. unfold delta. destruct (Nat.eqb i j); ring.
  Qed.

  (** A^T A S = S diag(sigma^2). *)
  Lemma svd_eigen : forall i j, (i < n)%nat -> (j < r)%nat -> mm m (tr a) (mm n a s) i j = (sigma j * sigma j) * s i j.
  Proof using Hy Spy Hz Spz He.
    intros i j Hi Hj. transitivity (mm m (mm r y (tr b)) (mm r b v) i j).
    { apply mm_ext; [|intros; apply as_bv]. intros l Hl. unfold tr at 1. rewrite <- (ayy l i Hl Hi). unfold mm, tr. apply sum_ext. intros; ring. }
    rewrite mm_assoc. transitivity (mm r y (fun p q => (sigma q * sigma q) * v p q) i j).
    { apply mm_ext; [reflexivity|]. intros l Hl. rewrite <- mm_assoc. apply btbv; assumption. }
    unfold s, mm. rewrite <- sum_scale. apply sum_ext. intros; ring.
  Qed.

  (** Unit columns where the singular value is not zero. *)
  Lemma v_tail : forall i j, (i < r)%nat -> (j < r)%nat -> sigma j <> 0 -> (k <= i)%nat -> v i j = 0.
  Proof using Hy Hz Spz He.
    intros i j Hi Hj Hs Hk. clear Spy Hv. assert (E : (sigma j * sigma j) * v i j = 0).
    { rewrite <- btbv by assumption. unfold mm at 1. apply sum_zero. intros l Hl. unfold mm at 1. rewrite sum_zero; [ring|].
      intros p _. unfold tr, b, mm. rewrite (sum_zero n (fun q => a p q * y q i)); [ring|].
      intros q _. destruct Hy as (_ & _ & Hz0). rewrite Hz0 by lia. ring. }
    apply Rmult_integral in E. destruct E as [E|E]; [|exact E]. apply Rmult_integral in E. destruct E as [E|E]; contradiction (Hs E).
  Qed.
  Lemma svd_unit : forall i j, (i < r)%nat -> (j < r)%nat -> sigma j <> 0 -> mm n (tr s) s i j = delta i j.
  Proof using Hy Hz Spz He Hv.
    intros i j Hi Hj Hs. rewrite <- (Hv i j Hi Hj).
    transitivity (mm n (mm r (tr v) (tr y)) (mm r y v) i j).
    { apply mm_ext; [|reflexivity]. intros l Hl. rewrite mm_tr. reflexivity. }
    rewrite mm_assoc. apply mm_ext; [reflexivity|]. intros l Hl. rewrite <- mm_assoc.
    transitivity (sum r (fun q => sdot n y l q * v q j)); [reflexivity|].
    rewrite (sum_ext r _ (fun q => (if Nat.ltb l k then delta l q else 0) * v q j)) by (intros q Hq; rewrite (padded_dot n r k y l q Hy Hl Hq); reflexivity).
    destruct (Nat.ltb_spec l k) as [L|L].
    - apply (sum_delta_l r (fun q => v q j) l Hl).
    - rewrite sum_zero by (intros; ring). symmetry. apply v_tail; assumption.
  Qed.

  (** A S S^T = A. *)
  Lemma svd_complete : forall i j, (i < m)%nat -> (j < n)%nat -> mm r (mm n a s) (tr s) i j = a i j.
  Proof using Hy Spy Hv.
    intros i j Hi Hj. rewrite <- (ayy i j Hi Hj).
    transitivity (mm r (mm r b v) (mm r (tr v) (tr y)) i j).
    { apply mm_ext; intros l Hl; [apply as_bv|]. rewrite mm_tr. reflexivity. }
    rewrite mm_assoc. apply mm_ext; [reflexivity|]. intros l Hl. rewrite <- mm_assoc.
    transitivity (mm r delta (tr y) l j); [|apply mm_delta_l; exact Hl].
    apply mm_ext; [|reflexivity]. intros p Hp. apply square_orthonormal; assumption.
  Qed.

  (** No direction orthogonal to the first columns is stretched more than the next. *)
  Lemma svd_stretch : forall (q : nat) (u : nat -> R),
    (forall j, (j < r)%nat -> 0 <= sigma j) ->
    (forall i j, (i <= j)%nat -> (j < r)%nat -> sigma j <= sigma i) ->
    (q < r)%nat -> (forall j, (j < q)%nat -> sum n (fun l => s l j * u l) = 0) ->
    sum m (fun i => sum n (fun l => a i l * u l) * sum n (fun l => a i l * u l)) <= (sigma q * sigma q) * sum n (fun l => u l * u l).
  Proof using Hy Spy Hz Spz He Hv.
    intros q u Hpos Hord Hq Hperp. pose (t := fun j => sum n (fun l => s l j * u l)).
    assert (Hau : forall i, (i < m)%nat -> sum n (fun l => a i l * u l) = sum r (fun j => mm n a s i j * t j)).
    { intros i Hi. rewrite (sum_ext n _ (fun l => sum r (fun j => mm n a s i j * (s l j * u l)))).
      - rewrite sum_swap. apply sum_ext. intros j _. rewrite sum_scale. reflexivity.
      - intros l Hl. rewrite <- (svd_complete i l Hi Hl). unfold mm at 1. rewrite <- sum_scale_r. apply sum_ext. intros; unfold tr; ring. }
    assert (Hlhs : sum m (fun i => sum n (fun l => a i l * u l) * sum n (fun l => a i l * u l)) = sum r (fun j => (sigma j * sigma j) * (t j * t j))).
    { rewrite (sum_ext m _ (fun i => sum r (fun j => sum r (fun p => (t j * t p) * (mm n a s i j * mm n a s i p))))).
      - rewrite sum_swap. apply sum_ext. intros j Hj. rewrite sum_swap.
        rewrite (sum_ext r _ (fun p => (t j * t p * (sigma p * sigma p)) * delta p j)).
        + rewrite (sum_delta r (fun p => t j * t p * (sigma p * sigma p)) j Hj). ring.
        + intros p Hp. rewrite sum_scale. pose proof (svd_orthogonal j p Hj Hp) as E. unfold mm at 1 in E. unfold tr in E. rewrite E.
          rewrite delta_sym. unfold delta. destruct (Nat.eqb j p); ring.
      - intros i Hi. rewrite (Hau i Hi). rewrite <- sum_scale_r. apply sum_ext. intros j _. rewrite <- sum_scale. apply sum_ext. intros; ring. }
    rewrite Hlhs.
    (* Bessel *)
    pose (e := fun j => if Rlt_dec 0 (sigma j) then t j else 0).
    assert (Hb : sum r (fun j => e j * e j) <= sum n (fun l => u l * u l)).
    { assert (H0 : 0 <= sum n (fun l => (u l - sum r (fun j => e j * s l j)) * (u l - sum r (fun j => e j * s l j)))) by (apply sum_nonneg; intros; apply sq_nonneg).
      rewrite (sum_ext n _ (fun l => u l * u l - (2 * sum r (fun j => e j * (s l j * u l)) - sum r (fun j => e j * s l j) * sum r (fun j => e j * s l j)))) in H0.
      2:{ intros l _. rewrite (sum_ext r (fun j => e j * (s l j * u l)) (fun j => (e j * s l j) * u l)) by (intros; ring). rewrite sum_scale_r. ring. }
      rewrite sum_minus, sum_minus, sum_scale in H0.
      assert (E1 : sum n (fun l => sum r (fun j => e j * (s l j * u l))) = sum r (fun j => e j * e j)).
      { rewrite sum_swap. apply sum_ext. intros j Hj. rewrite sum_scale. fold (t j). unfold e. destruct (Rlt_dec 0 (sigma j)); [reflexivity|ring]. }
      assert (E2 : sum n (fun l => sum r (fun j => e j * s l j) * sum r (fun j => e j * s l j)) = sum r (fun j => e j * e j)).
      { rewrite (sum_ext n _ (fun l => sum r (fun j => sum r (fun p => (e j * e p) * (s l j * s l p))))).
        - rewrite sum_swap. apply sum_ext. intros j Hj. rewrite sum_swap.
          rewrite (sum_ext r _ (fun p => (e j * e p) * delta p j)); [apply (sum_delta r (fun p => e j * e p) j Hj)|].
          intros p Hp. rewrite sum_scale. unfold e at 2 4. destruct (Rlt_dec 0 (sigma p)) as [L|L]; [|ring].
          pose proof (svd_unit j p Hj Hp ltac:(lra)) as E. unfold mm, tr in E. rewrite E, delta_sym. reflexivity.
        - intros l _. rewrite <- sum_scale_r. apply sum_ext. intros j _. rewrite <- sum_scale. apply sum_ext. intros; ring. }
      rewrite E1, E2 in H0. lra. }
    apply Rle_trans with ((sigma q * sigma q) * sum r (fun j => e j * e j)).
    - rewrite <- sum_scale. apply sum_le. intros j Hj. specialize (Hpos j Hj) as Hp0. specialize (Hpos q Hq) as Hp1.
      destruct (Nat.lt_ge_cases j q) as [L|L].
      + assert (Ht : t j = 0) by (apply Hperp; exact L). rewrite Ht.
        pose proof (Rmult_le_pos _ _ (sq_nonneg (sigma q)) (sq_nonneg (e j))). lra.
      + specialize (Hord q j L Hj). unfold e. destruct (Rlt_dec 0 (sigma j)) as [L'|L'].
        * apply Rmult_le_compat_r; [apply sq_nonneg|]. apply Rmult_le_compat; assumption.
        * assert (E : sigma j = 0) by lra. rewrite E. apply Req_le. ring.
    - apply Rmult_le_compat_l; [apply sq_nonneg|exact Hb].
  Qed.
End Svd.
