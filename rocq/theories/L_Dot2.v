(** C88: projections in floating point arithmetic, and whole numbers. *)
From Coq Require Import Reals Lra.
From Flocq Require Import Core.Core IEEE754.BinarySingleNaN.
From Verif Require Import Base M_Scale S_FloatStats S_Accuracy S_Matrix M_Dot S_Dot L_Float L_FloatStats L_Accuracy L_Dot.
Open Scope R_scope.

Section Whole.
  Context {p e : Z} {Hp : Prec_gt_0 p} {Hm : Prec_lt_emax p e}.
  Notation F := (binary_float p e).
  Notation rnd := (rnd (prec := p) (emax := e)).
  Lemma whole_rnd (z : Z) : Rabs (IZR z) <= bpow radix2 p -> rnd (IZR z) = IZR z /\ Rabs (rnd (IZR z)) < bpow radix2 e.
  Proof using Hp Hm.
    intros H. assert (E : rnd (IZR z) = IZR z).
    { apply rnd_fmt. apply int_fmt. apply le_IZR. rewrite abs_IZR. rewrite <- IZR_Zpower in H by (red in Hp; lia). exact H. }
    split; [exact E|]. rewrite E. eapply Rle_lt_trans; [exact H|]. apply bpow_lt. exact Hm.
  Qed.
  Definition whole (x : F) : Prop := is_finite x = true /\ exists z, B2R x = IZR z.
  Lemma exact_whole (l : list (F * F)) : (forall q, In q l -> whole (fst q) /\ whole (snd q)) -> exists z, exact_sum l = IZR z.
  Proof using Type.
    induction l as [|q l IH]; intros H; [now exists 0%Z|]. destruct (H q (or_introl eq_refl)) as [(_ & x & X) (_ & y & Y)].
    destruct IH as [s S]; [intros r R; apply H; now right|]. exists (x * y + s)%Z. unfold exact_sum in *. cbn [fold_right]. rewrite S, X, Y, plus_IZR, mult_IZR. reflexivity.
  Qed.
  Theorem eval_whole l (r : F) : evaluates l r -> (forall q, In q l -> whole (fst q) /\ whole (snd q)) -> size_sum l <= bpow radix2 p ->
    is_finite r = true /\ B2R r = exact_sum l.
  Proof using Hp Hm.
    intros E. induction E as [s|x y|l l' a b E1 IH1 E2 IH2|x y l a E IH|l l' a E IH P]; intros W L.
    - split; reflexivity.
    - destruct (exact_whole _ W) as [z Z]. destruct (W _ (or_introl eq_refl)) as [[X _] [Y _]]. cbn [fst snd] in X, Y. pose proof (exact_size [(x, y)]) as B. rewrite Z in B.
      destruct (whole_rnd z ltac:(lra)) as [R1 R2]. assert (Q : B2R x * B2R y = IZR z) by (rewrite <- Z; unfold exact_sum; cbn [fold_right fst snd]; ring).
      rewrite <- Q in R1, R2. destruct (fmul_ok x y X Y R2) as [A1 A2]. split; [exact A2|]. rewrite A1, R1, Q. symmetry. exact Z.
    - pose proof (size_pos l) as S1. pose proof (size_pos l') as S2. destruct (exact_whole _ W) as [z Z]. pose proof (exact_size (l ++ l')) as B. rewrite Z in B. rewrite size_app in L.
      destruct IH1 as [Fa A]; [intros q Q; apply W, in_or_app; now left|lra|]. destruct IH2 as [Fb A']; [intros q Q; apply W, in_or_app; now right|lra|].
      destruct (whole_rnd z) as [R1 R2]. { rewrite size_app in B. lra. }
      assert (Q : B2R a + B2R b = IZR z) by (rewrite A, A', <- exact_app; exact Z). rewrite <- Q in R1, R2.
      destruct (fadd_ok a b Fa Fb R2) as [B1 B2]. split; [exact B2|]. rewrite B1, R1, Q. symmetry. exact Z.
    - destruct (exact_whole _ W) as [z Z]. pose proof (exact_size ((x, y) :: l)) as B. rewrite Z in B. destruct (W _ (or_introl eq_refl)) as [[X _] [Y _]]. cbn [fst snd] in X, Y.
      assert (L' : size_sum l <= bpow radix2 p). { pose proof (Rabs_pos (B2R x * B2R y)). unfold size_sum in *. cbn [fold_right fst snd] in L. lra. }
      destruct IH as [Fa A]; [intros q Q; apply W; now right|exact L'|]. destruct (whole_rnd z ltac:(lra)) as [R1 R2].
      assert (Q : B2R x * B2R y + B2R a = IZR z). { rewrite A, <- Z. reflexivity. } rewrite <- Q in R1, R2.
      pose proof (Bfma_correct p e Hp Hm mode_NE x y a X Y Fa) as C. cbv zeta in C. cbn [round_mode] in C. fold (rnd (B2R x * B2R y + B2R a)) in C. rewrite Rlt_bool_true in C by exact R2.
      destruct C as (C1 & C2 & _). split; [exact C2|]. rewrite C1, R1, Q. symmetry. exact Z.
    - rewrite <- (exact_perm _ _ P). apply IH; [intros q Q; apply W; now apply (Permutation_in _ P)|]. rewrite (size_perm _ _ P). exact L.
  Qed.
End Whole.

Section Matrices.
  Context {p e : Z} {Hp : Prec_gt_0 p} {Hm : Prec_lt_emax p e}.
  Notation F := (binary_float p e).
  Notation mat := (fmat F).
  Lemma exact_factors (a b : mat) i j : exact_sum (factors a b i j) = dot (f_cols a) (row_of a i) (column_of b j).
  Proof using Type.
    unfold factors, dot, total. induction (seq 0 (f_cols a)) as [|k l IH]; [reflexivity|]. unfold exact_sum in *. cbn [map fold_right fst snd]. rewrite IH. reflexivity.
  Qed.
  Lemma size_factors (a b : mat) i j : size_sum (factors a b i j) = product_magnitude (f_cols a) (row_of a i) (column_of b j).
  Proof using Type.
    unfold factors, product_magnitude, total. induction (seq 0 (f_cols a)) as [|k l IH]; [reflexivity|]. unfold size_sum in *. cbn [map fold_right fst snd]. rewrite IH. reflexivity.
  Qed.
  Lemma length_factors (a b : mat) i j : length (factors a b i j) = f_cols a.
  Proof using Type. unfold factors. now rewrite map_length, seq_length. Qed.
  Lemma in_factors (a b : mat) i j q : f_rows b = f_cols a -> In q (factors a b i j) -> exists k, (k < f_cols a)%nat /\ q = (f_entry a i k, f_entry b k j).
  Proof using Type. intros _ H. apply in_map_iff in H. destruct H as (k & <- & H). apply in_seq in H. exists k. split; [lia|reflexivity]. Qed.

  Lemma cell_close (a b c : mat) i j : is_product a b c -> (i < f_rows a)%nat -> (j < f_cols b)%nat -> is_finite (f_entry c i j) = true ->
    Rabs (B2R (f_entry c i j) - dot (f_cols a) (row_of a i) (column_of b j)) <= dot_error p e (f_cols a) (row_of a i) (column_of b j).
  Proof using Hp Hm.
    intros (_ & _ & H) Hi Hj Fc. destruct (eval_close _ _ (H i j Hi Hj) Fc) as [A _]. rewrite exact_factors, size_factors, length_factors in A. exact A.
  Qed.
  Lemma cell_finite (a b c : mat) i j : is_product a b c -> f_rows b = f_cols a -> finite_entries a -> finite_entries b -> (i < f_rows a)%nat -> (j < f_cols b)%nat ->
    product_magnitude (f_cols a) (row_of a i) (column_of b j) + dot_error p e (f_cols a) (row_of a i) (column_of b j) < bpow radix2 e -> is_finite (f_entry c i j) = true.
  Proof using Hp Hm.
    intros (_ & _ & H) Hd Fa Fb Hi Hj L. apply (eval_finite _ _ (H i j Hi Hj)).
    - intros q Q. destruct (in_factors a b i j q Hd Q) as (k & K & ->). cbn [fst snd]. split; [now apply Fa|apply Fb; [now rewrite Hd|exact Hj]].
    - rewrite size_factors, length_factors. exact L.
  Qed.
  Lemma cell_whole (a b c : mat) i j : is_product a b c -> f_rows b = f_cols a -> whole_entries a -> whole_entries b -> (i < f_rows a)%nat -> (j < f_cols b)%nat ->
    product_magnitude (f_cols a) (row_of a i) (column_of b j) <= bpow radix2 p -> is_finite (f_entry c i j) = true /\ B2R (f_entry c i j) = dot (f_cols a) (row_of a i) (column_of b j).
  Proof using Hp Hm.
    intros (_ & _ & H) Hd Wa Wb Hi Hj L. rewrite <- exact_factors. apply (eval_whole _ _ (H i j Hi Hj)).
    - intros q Q. destruct (in_factors a b i j q Hd Q) as (k & K & ->). cbn [fst snd]. split; [now apply Wa|apply Wb; [now rewrite Hd|exact Hj]].
    - rewrite size_factors. exact L.
  Qed.
  Lemma rows_transpose (v : mat) j : column_of (f_transpose v) j = row_of v j.
  Proof using Type. reflexivity. Qed.

  (** *** The sign of the columns of truncated SVD *)
  Lemma flip_cell (c : mat) j : exists s, (s = 1 \/ s = -1) /\ forall i, B2R (f_entry (f_flip c) i j) = s * B2R (f_entry c i j) /\ is_finite (f_entry (f_flip c) i j) = is_finite (f_entry c i j).
  Proof using Type.
    cbn [f_flip f_entry]. destruct (Bltb _ _).
    - exists (-1). split; [now right|]. intros i. rewrite B2R_Bopp, is_finite_Bopp. split; [ring|reflexivity].
    - exists 1. split; [now left|]. intros i. split; [ring|reflexivity].
  Qed.
  Lemma abs_fin (x : F) : is_finite (Babs x) = is_finite x.
  Proof using Type. apply is_finite_Babs. Qed.
  Lemma f_largest_spec (f : nat -> F) k : (forall i, (i <= k)%nat -> is_finite (f i) = true) ->
    exists q, (q <= k)%nat /\ f_largest f k = f q /\ forall i, (i <= k)%nat -> Rabs (B2R (f i)) <= Rabs (B2R (f q)).
  Proof using Type.
    induction k as [|k IH]; intros H.
    - exists 0%nat. split; [lia|]. split; [reflexivity|]. intros i Hi. replace i with 0%nat by lia. lra.
    - destruct IH as (q & Q & E & L); [intros i Hi; apply H; lia|]. cbn [f_largest]. rewrite E.
      rewrite Bltb_correct by (rewrite abs_fin; apply H; lia). rewrite !B2R_Babs. destruct (Rlt_bool_spec (Rabs (B2R (f q))) (Rabs (B2R (f (S k))))) as [G|G].
      + exists (S k). split; [lia|]. split; [reflexivity|]. intros i Hi. destruct (Nat.eq_dec i (S k)) as [->|N]; [lra|]. specialize (L i ltac:(lia)). lra.
      + exists q. split; [lia|]. split; [reflexivity|]. intros i Hi. destruct (Nat.eq_dec i (S k)) as [->|N]; [lra|]. apply L. lia.
  Qed.
  Lemma flip_positive (c : mat) j : (0 < f_rows c)%nat -> (forall i, (i < f_rows c)%nat -> is_finite (f_entry (f_flip c) i j) = true) ->
    exists q, (q < f_rows c)%nat /\ forall i, (i < f_rows c)%nat -> Rabs (B2R (f_entry (f_flip c) i j)) <= B2R (f_entry (f_flip c) q j).
  Proof using Type.
    intros Hr Hf. destruct (flip_cell c j) as (s & S & V). assert (Fc : forall i, (i <= f_rows c - 1)%nat -> is_finite (f_entry c i j) = true).
    { intros i Hi. rewrite <- (proj2 (V i)). apply Hf. lia. }
    destruct (f_largest_spec (fun r => f_entry c r j) (f_rows c - 1) Fc) as (q & Q & E & L). exists q. split; [lia|]. intros i Hi. specialize (L i ltac:(lia)). cbv beta in E, L.
    cbn [f_flip f_entry]. rewrite E. rewrite Bltb_correct by (try reflexivity; apply Fc; exact Q). change (B2R (fzero : F)) with 0. destruct (Rlt_bool_spec (B2R (f_entry c q j)) 0) as [G|G].
    - rewrite !B2R_Bopp, Rabs_Ropp. rewrite (Rabs_left _ G) in L. exact L.
    - rewrite (Rabs_right _ (Rle_ge _ _ G)) in L. exact L.
  Qed.

  (** *** Projections *)
  Theorem projection_close (v input : mat) r : pca_gives v input r -> (f_rows input * f_cols input <> 0)%nat -> f_cols input = f_cols v ->
    exists c, r = Ok c /\ f_rows c = f_rows input /\ f_cols c = f_rows v /\ forall i j, (i < f_rows input)%nat -> (j < f_rows v)%nat ->
      let n := f_cols input in
      (is_finite (f_entry c i j) = true -> Rabs (B2R (f_entry c i j) - dot n (row_of input i) (row_of v j)) <= dot_error p e n (row_of input i) (row_of v j)) /\
      (finite_entries v -> finite_entries input ->
       product_magnitude n (row_of input i) (row_of v j) + dot_error p e n (row_of input i) (row_of v j) < bpow radix2 e -> is_finite (f_entry c i j) = true) /\
      (whole_entries v -> whole_entries input -> product_magnitude n (row_of input i) (row_of v j) <= bpow radix2 p ->
       is_finite (f_entry c i j) = true /\ B2R (f_entry c i j) = dot n (row_of input i) (row_of v j)).
  Proof using Hp Hm.
    unfold pca_gives. intros H N E. rewrite (proj2 (Nat.eqb_neq _ _) N), E, Nat.eqb_refl in H. cbn [negb] in H. destruct H as (c & -> & P).
    exists c. split; [reflexivity|]. split; [exact (proj1 P)|]. split; [exact (proj1 (proj2 P))|]. intros i j Hi Hj. rewrite <- (rows_transpose v j).
    split; [intros Fc; now apply (cell_close input (f_transpose v) c)|]. split.
    - intros Fv Fi L. apply (cell_finite input (f_transpose v) c); try assumption; [now symmetry|]. intros a b Ha Hb. cbn in *. now apply Fv.
    - intros Fv Fi L. apply (cell_whole input (f_transpose v) c); try assumption; [now symmetry|]. intros a b Ha Hb. cbn in *. now apply Fv.
  Qed.
  Theorem svd_close (v input : mat) r : svd_gives v input r -> (f_rows input * f_cols input <> 0)%nat -> f_cols input = f_rows v ->
    exists c, r = Ok c /\ f_rows c = f_rows input /\ f_cols c = f_cols v /\ forall j, (j < f_cols v)%nat -> exists s, (s = 1 \/ s = -1) /\ forall i, (i < f_rows input)%nat ->
      let n := f_cols input in
      (is_finite (f_entry c i j) = true -> Rabs (B2R (f_entry c i j) - s * dot n (row_of input i) (column_of v j)) <= dot_error p e n (row_of input i) (column_of v j)) /\
      (finite_entries v -> finite_entries input ->
       product_magnitude n (row_of input i) (column_of v j) + dot_error p e n (row_of input i) (column_of v j) < bpow radix2 e -> is_finite (f_entry c i j) = true) /\
      (whole_entries v -> whole_entries input -> product_magnitude n (row_of input i) (column_of v j) <= bpow radix2 p ->
       is_finite (f_entry c i j) = true /\ B2R (f_entry c i j) = s * dot n (row_of input i) (column_of v j)).
  Proof using Hp Hm.
    unfold svd_gives. intros H N E. rewrite (proj2 (Nat.eqb_neq _ _) N), E, Nat.eqb_refl in H. cbn [negb] in H. destruct H as (c & P & ->).
    exists (f_flip c). split; [reflexivity|]. split; [exact (proj1 P)|]. split; [exact (proj1 (proj2 P))|]. intros j Hj. destruct (flip_cell c j) as (s & S & V). exists s. split; [exact S|].
    intros i Hi. destruct (V i) as [V1 V2]. rewrite V1, V2. split; [|split].
    - intros Fc. rewrite <- Rmult_minus_distr_l, Rabs_mult. replace (Rabs s) with 1 by (destruct S as [-> | ->]; [rewrite Rabs_right|rewrite Rabs_left]; lra). rewrite Rmult_1_l.
      now apply (cell_close input v c).
    - intros Fv Fi L. now apply (cell_finite input v c).
    - intros Fv Fi L. destruct (cell_whole input v c i j P (eq_sym E) Fi Fv Hi Hj L) as [A B]. split; [exact A|]. now rewrite B.
  Qed.
  Theorem svd_positive (v input : mat) c j : svd_gives v input (Ok c) -> (j < f_cols v)%nat -> (forall i, (i < f_rows input)%nat -> is_finite (f_entry c i j) = true) ->
    exists q, (q < f_rows input)%nat /\ forall i, (i < f_rows input)%nat -> Rabs (B2R (f_entry c i j)) <= B2R (f_entry c q j).
  Proof using Hp.
    unfold svd_gives. intros H Hj Fc. destruct (Nat.eqb_spec (f_rows input * f_cols input) 0) as [N|N]; [discriminate H|]. destruct (negb _); [discriminate H|].
    destruct H as (d & P & E). injection E as ->. rewrite <- (proj1 P) in *. apply flip_positive; [|exact Fc]. destruct (f_rows d); [now contradiction N|lia].
  Qed.
  Theorem projections_refuse (v input : mat) r : (f_rows input * f_cols input = 0)%nat \/ f_cols input <> f_cols v -> pca_gives v input r -> r = Throw InvalidArgument.
  Proof using Type.
    unfold pca_gives. intros [E|E] H; [rewrite E in H; exact H|]. destruct (Nat.eqb _ 0); [exact H|]. apply Nat.eqb_neq in E. rewrite E in H. exact H.
  Qed.
  Theorem svd_refuses (v input : mat) r : (f_rows input * f_cols input = 0)%nat \/ f_cols input <> f_rows v -> svd_gives v input r -> r = Throw InvalidArgument.
  Proof using Type.
    unfold svd_gives. intros [E|E] H; [rewrite E in H; exact H|]. destruct (Nat.eqb _ 0); [exact H|]. apply Nat.eqb_neq in E. rewrite E in H. exact H.
  Qed.
End Matrices.
