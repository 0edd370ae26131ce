(** C88: sums of products in floating point arithmetic. *)
From Coq Require Import Reals Lra.
From Flocq Require Import Core.Core IEEE754.BinarySingleNaN.
From Verif Require Import Base M_Scale S_FloatStats S_Accuracy L_Float L_FloatStats L_FloatStats2 L_Accuracy M_Dot.
Open Scope R_scope.

Section Bound.
  Variables (u eta : R).
  Hypothesis Hu : 0 <= u.
  Hypothesis He : 0 <= eta.
  Definition slack (n : nat) (m : R) : R := ((1 + u) ^ n - 1) * m + INR n * (1 + u) ^ n * eta.
  Lemma pow_ge1 n : 1 <= (1 + u) ^ n.
  Proof using Hu. apply pow_R1_Rle. lra. Qed.
  Lemma slack_pos n m : 0 <= m -> 0 <= slack n m.
  Proof using Hu He.
    intros H. unfold slack. pose proof (pow_ge1 n). pose proof (pos_INR n). apply Rplus_le_le_0_compat; apply Rmult_le_pos; try lra. apply Rmult_le_pos; lra.
  Qed.
  Lemma slack_mono n k m m' : (n <= k)%nat -> 0 <= m <= m' -> slack n m <= slack k m'.
  Proof using Hu He.
    intros H Hm. unfold slack. pose proof (pow_ge1 n). assert (P : (1 + u) ^ n <= (1 + u) ^ k) by (apply Rle_pow; [lra|exact H]).
    pose proof (pos_INR n). apply le_INR in H. apply Rplus_le_compat; [apply Rmult_le_compat; lra|]. apply Rmult_le_compat_r; [exact He|]. apply Rmult_le_compat; lra.
  Qed.
  (** One more rounding of something that was off by [slack n m]. *)
  Lemma slack_step n m : 0 <= m -> (1 + u) * slack n m + u * m <= slack (S n) m - (1 + u) ^ S n * eta.
  Proof using Hu He.
    intros H. unfold slack. rewrite S_INR. cbn [pow]. pose proof (pow_ge1 n). lra.
  Qed.
  Lemma slack_sum n k m m' : 0 <= m -> 0 <= m' -> (1 <= n)%nat -> (1 <= k)%nat -> (1 + u) * (slack n m + slack k m') + u * (m + m') <= slack (n + k) (m + m').
  Proof using Hu He.
    intros H H' Hn Hk. set (j := (n + k - 1)%nat). replace (n + k)%nat with (S j) by (unfold j; lia).
    assert (A : slack n m <= ((1 + u) ^ j - 1) * m + INR n * (1 + u) ^ j * eta).
    { unfold slack. assert (P : (1 + u) ^ n <= (1 + u) ^ j) by (apply Rle_pow; [lra|unfold j; lia]). pose proof (pos_INR n).
      apply Rplus_le_compat; [apply Rmult_le_compat_r; lra|]. apply Rmult_le_compat_r; [exact He|]. apply Rmult_le_compat_l; lra. }
    assert (B : slack k m' <= ((1 + u) ^ j - 1) * m' + INR k * (1 + u) ^ j * eta).
    { unfold slack. assert (P : (1 + u) ^ k <= (1 + u) ^ j) by (apply Rle_pow; [lra|unfold j; lia]). pose proof (pos_INR k).
      apply Rplus_le_compat; [apply Rmult_le_compat_r; lra|]. apply Rmult_le_compat_r; [exact He|]. apply Rmult_le_compat_l; lra. }
    assert (C : INR (S j) = INR n + INR k) by (rewrite <- plus_INR; f_equal; unfold j; lia).
    replace (slack (S j) (m + m')) with ((1 + u) * (((1 + u) ^ j - 1) * m + INR n * (1 + u) ^ j * eta + (((1 + u) ^ j - 1) * m' + INR k * (1 + u) ^ j * eta)) + u * (m + m')).
    - apply Rplus_le_compat_r. apply Rmult_le_compat_l; lra.
    - unfold slack. rewrite C. cbn [pow]. ring.
  Qed.
End Bound.

Section Eval.
  Context {p e : Z} {Hp : Prec_gt_0 p} {Hm : Prec_lt_emax p e}.
  Notation F := (binary_float p e).
  Notation u := (unit_error p).
  Notation eta := (half_least p e).
  Notation rnd := (rnd (prec := p) (emax := e)).
  Definition exact_sum (l : list (F * F)) : R := fold_right (fun q s => B2R (fst q) * B2R (snd q) + s) 0 l.
  Definition size_sum (l : list (F * F)) : R := fold_right (fun q s => Rabs (B2R (fst q) * B2R (snd q)) + s) 0 l.
  Notation off l := (slack u eta (length l) (size_sum l)).
  Lemma exact_app l l' : exact_sum (l ++ l') = exact_sum l + exact_sum l'.
  Proof using Type. induction l as [|x l IH]; unfold exact_sum in *; cbn [fold_right app]; [lra|]. rewrite IH. lra. Qed.
  Lemma size_app l l' : size_sum (l ++ l') = size_sum l + size_sum l'.
  Proof using Type. induction l as [|x l IH]; unfold size_sum in *; cbn [fold_right app]; [lra|]. rewrite IH. lra. Qed.
  Lemma exact_perm l l' : Permutation l l' -> exact_sum l = exact_sum l'.
  Proof using Type. intros P. induction P; unfold exact_sum in *; cbn [fold_right]; lra. Qed.
  Lemma size_perm l l' : Permutation l l' -> size_sum l = size_sum l'.
  Proof using Type. intros P. induction P; unfold size_sum in *; cbn [fold_right]; lra. Qed.
  Lemma size_pos l : 0 <= size_sum l.
  Proof using Type. induction l as [|x l IH]; unfold size_sum in *; cbn [fold_right]; [lra|]. pose proof (Rabs_pos (B2R (fst x) * B2R (snd x))). lra. Qed.
  Lemma exact_size l : Rabs (exact_sum l) <= size_sum l.
  Proof using Type.
    induction l as [|x l IH]; unfold exact_sum, size_sum in *; cbn [fold_right]; [rewrite Rabs_R0; lra|]. eapply Rle_trans; [apply Rabs_triang|]. lra.
  Qed.
  Lemma u_nn : 0 <= u. Proof using Type. apply Rlt_le, unit_pos. Qed.
  Lemma eta_nn : 0 <= eta. Proof using Hp Hm. apply eta_pos. Qed.
  Lemma rnd_off (x : R) : Rabs (rnd x - x) <= u * Rabs x + eta.
  Proof using Hp Hm. exact (rnd_err x). Qed.
  (** *** Finite results come from finite numbers *)
  Lemma add_fin (x y : F) : is_finite (fadd x y) = true -> is_finite x = true /\ is_finite y = true.
  Proof using Type. destruct x as [s|s| |s m ex B], y as [t|t| |t m' ex' B']; try (split; reflexivity); try discriminate; destruct s; try destruct t; try discriminate; auto. Qed.
  Lemma mul_fin (x y : F) : is_finite (fmul x y) = true -> is_finite x = true /\ is_finite y = true.
  Proof using Type. destruct x as [s|s| |s m ex B], y as [t|t| |t m' ex' B']; try (split; reflexivity); discriminate. Qed.
  Lemma fma_fin (x y z : F) : is_finite (Bfma mode_NE x y z) = true -> is_finite x = true /\ is_finite y = true /\ is_finite z = true.
  Proof using Type.
    intros H. destruct x as [s|s| |s m ex B], y as [t|t| |t m' ex' B'], z as [w|w| |w m2 ex2 B2]; try (repeat split; reflexivity); try discriminate H; cbn in H;
      destruct s, t; try destruct w; discriminate H.
  Qed.
  Lemma fmul_value (x y : F) : is_finite (fmul x y) = true -> B2R (fmul x y) = rnd (B2R x * B2R y).
  Proof using Type.
    intros H. pose proof (Bmult_correct p e Hp Hm mode_NE x y) as B. cbn [round_mode] in B. fold (rnd (B2R x * B2R y)) in B.
    destruct (Rlt_bool _ _) in B; [exact (proj1 B)|]. apply overflow_inf in B. unfold fmul in H. congruence.
  Qed.
  Lemma fma_value (x y z : F) : is_finite (Bfma mode_NE x y z) = true -> B2R (Bfma mode_NE x y z) = rnd (B2R x * B2R y + B2R z).
  Proof using Type.
    intros H. destruct (fma_fin x y z H) as (X & Y & Z). pose proof (Bfma_correct p e Hp Hm mode_NE x y z X Y Z) as B. cbv zeta in B. cbn [round_mode] in B. fold (rnd (B2R x * B2R y + B2R z)) in B.
    destruct (Rlt_bool _ _) in B; [exact (proj1 B)|]. apply overflow_inf in B. congruence.
  Qed.
  Lemma add_off (x y : F) : is_finite x = true -> is_finite y = true -> Rabs (rnd (B2R x + B2R y) - (B2R x + B2R y)) <= u * Rabs (B2R x + B2R y).
  Proof using Hp Hm.
    intros X Y. destruct (rnd_plus_rel (prec := p) (emax := e) (B2R x) (B2R y)) as (d & D & E); [apply generic_format_B2R|apply generic_format_B2R|].
    rewrite E. replace ((B2R x + B2R y) * (1 + d) - (B2R x + B2R y)) with (d * (B2R x + B2R y)) by ring. rewrite Rabs_mult. apply Rmult_le_compat_r; [apply Rabs_pos|exact D].
  Qed.
  (** *** The steps, in real numbers *)
  Lemma step_product (x y : R) : Rabs (rnd (x * y) - x * y) <= slack u eta 1 (Rabs (x * y)).
  Proof using Hp Hm. unfold slack. cbn [pow INR]. pose proof (rnd_off (x * y)). pose proof u_nn. pose proof eta_nn. assert (0 <= u * eta) by now apply Rmult_le_pos. lra. Qed.
  Lemma step_add (a b : F) l l' : is_finite a = true -> is_finite b = true -> Rabs (B2R a - exact_sum l) <= off l -> Rabs (B2R b - exact_sum l') <= off l' ->
    (l = [] -> B2R a = 0) -> (l' = [] -> B2R b = 0) -> Rabs (rnd (B2R a + B2R b) - exact_sum (l ++ l')) <= off (l ++ l').
  Proof using Hp Hm.
    intros Fa Fb A B Za Zb. rewrite exact_app, size_app, app_length.
    destruct l as [|q l].
    { rewrite (Za eq_refl). cbn [exact_sum size_sum fold_right length plus]. fold (exact_sum l') (size_sum l'). rewrite !Rplus_0_l. unfold L_Float.rnd. rewrite round_generic; [exact B|apply valid_rnd_N|apply generic_format_B2R]. }
    destruct l' as [|q' l'].
    { rewrite (Zb eq_refl). change (exact_sum []) with 0. change (size_sum []) with 0. rewrite !Rplus_0_r, Nat.add_0_r. unfold L_Float.rnd. rewrite round_generic; [exact A|apply valid_rnd_N|apply generic_format_B2R]. }
    pose proof (slack_sum u eta u_nn eta_nn (length (q :: l)) (length (q' :: l')) _ _ (size_pos (q :: l)) (size_pos (q' :: l')) ltac:(cbn [length]; lia) ltac:(cbn [length]; lia)) as S.
    pose proof (add_off a b Fa Fb) as R0. pose proof (exact_size (q :: l)) as E1. pose proof (exact_size (q' :: l')) as E2. pose proof u_nn as U.
    revert A B S R0 E1 E2. generalize (exact_sum (q :: l)) (exact_sum (q' :: l')) (size_sum (q :: l)) (size_sum (q' :: l')) (length (q :: l)) (length (q' :: l')) (B2R a) (B2R b).
    clear -U. intros s s' m m' n n' x y A B S R0 E1 E2.
    assert (H : Rabs (x + y) <= m + m' + (slack u eta n m + slack u eta n' m')).
    { replace (x + y) with ((s + s') + ((x - s) + (y - s'))) by ring. eapply Rle_trans; [apply Rabs_triang|].
      pose proof (Rabs_triang s s'). pose proof (Rabs_triang (x - s) (y - s')). lra. }
    replace (rnd (x + y) - (s + s')) with ((rnd (x + y) - (x + y)) + ((x - s) + (y - s'))) by ring.
    eapply Rle_trans; [apply Rabs_triang|]. pose proof (Rabs_triang (x - s) (y - s')). apply Rmult_le_compat_l with (r := u) in H; [|exact U]. lra.
  Qed.
  Lemma step_fused (x y a : R) l : Rabs (a - exact_sum l) <= off l ->
    Rabs (rnd (x * y + a) - (x * y + exact_sum l)) <= slack u eta (S (length l)) (Rabs (x * y) + size_sum l).
  Proof using Hp Hm.
    intros A. pose proof (rnd_off (x * y + a)) as R0. pose proof (exact_size l) as E. pose proof u_nn as U. pose proof eta_nn as V. pose proof (size_pos l) as P. pose proof (Rabs_pos (x * y)) as Q.
    assert (S : (1 + u) * slack u eta (length l) (size_sum l) + u * (Rabs (x * y) + size_sum l) + eta <= slack u eta (S (length l)) (Rabs (x * y) + size_sum l)).
    { pose proof (slack_step u eta u_nn eta_nn (length l) (Rabs (x * y) + size_sum l) ltac:(lra)) as S0. pose proof (slack_mono u eta u_nn eta_nn (length l) (length l) (size_sum l) (Rabs (x * y) + size_sum l) (le_n _) ltac:(lra)) as M.
      apply Rmult_le_compat_l with (r := 1 + u) in M; [|lra]. pose proof (pow_ge1 u u_nn (S (length l))) as G. apply Rmult_le_compat_r with (r := eta) in G; [|exact V]. lra. }
    revert A R0 E S. generalize (exact_sum l) (size_sum l) (length l). clear -U. intros s m n A R0 E S.
    assert (H : Rabs (x * y + a) <= Rabs (x * y) + m + slack u eta n m).
    { replace (x * y + a) with (x * y + (s + (a - s))) by ring. eapply Rle_trans; [apply Rabs_triang|]. pose proof (Rabs_triang s (a - s)). lra. }
    replace (rnd (x * y + a) - (x * y + s)) with ((rnd (x * y + a) - (x * y + a)) + (a - s)) by ring.
    eapply Rle_trans; [apply Rabs_triang|]. apply Rmult_le_compat_l with (r := u) in H; [|exact U]. lra.
  Qed.
  (** *** Any evaluation *)
  Theorem eval_close l (r : F) : evaluates l r -> is_finite r = true -> Rabs (B2R r - exact_sum l) <= off l /\ (l = [] -> B2R r = 0).
  Proof using Hp Hm.
    intros E. induction E as [s|x y|l l' a b E1 IH1 E2 IH2|x y l a E IH|l l' a E IH P]; intros Fr.
    - cbn. rewrite Rminus_0_r, Rabs_R0. split; [|reflexivity]. unfold slack. cbn. lra.
    - split; [|discriminate]. rewrite (fmul_value _ _ Fr). cbn [exact_sum size_sum fold_right length fst snd]. rewrite !Rplus_0_r. apply step_product.
    - destruct (add_fin _ _ Fr) as [Fa Fb]. destruct (IH1 Fa) as [A Za]. destruct (IH2 Fb) as [B Zb]. rewrite (fadd_fin _ _ Fa Fb Fr). split; [now apply step_add|].
      intros N. apply app_eq_nil in N. destruct N as [-> ->]. rewrite (Za eq_refl), (Zb eq_refl), Rplus_0_r. apply rnd_0.
    - destruct (fma_fin _ _ _ Fr) as (X & Y & Z). split; [|discriminate]. rewrite (fma_value _ _ _ Fr). cbn [exact_sum size_sum fold_right length fst snd]. apply step_fused. exact (proj1 (IH Z)).
    - destruct (IH Fr) as [A Z]. rewrite <- (exact_perm _ _ P), <- (size_perm _ _ P), <- (Permutation_length P). split; [exact A|]. intros ->. apply Z, Permutation_nil, Permutation_sym, P.
  Qed.
  (** *** No overflow *)
  Lemma off_size l : size_sum l + off l = (1 + u) ^ length l * size_sum l + INR (length l) * (1 + u) ^ length l * eta.
  Proof using Type. unfold slack. ring. Qed.
  Lemma within_size (r s m d : R) : Rabs (r - s) <= d -> Rabs s <= m -> Rabs r <= m + d.
  Proof using Type. clear. intros A B. replace r with (s + (r - s)) by ring. eapply Rle_trans; [apply Rabs_triang|]. lra. Qed.
  Theorem eval_finite l (r : F) : evaluates l r -> (forall q, In q l -> is_finite (fst q) = true /\ is_finite (snd q) = true) ->
    size_sum l + off l < bpow radix2 e -> is_finite r = true.
  Proof using Hp Hm.
    intros E. induction E as [s|x y|l l' a b E1 IH1 E2 IH2|x y l a E IH|l l' a E IH P]; intros Fl L.
    - reflexivity.
    - destruct (Fl _ (or_introl eq_refl)) as [X Y]. cbn [size_sum fold_right length fst snd] in L, X, Y. rewrite Rplus_0_r in L.
      apply fmul_ok; [exact X|exact Y|]. eapply Rle_lt_trans; [|exact L]. apply (within_size _ (B2R x * B2R y)); [apply step_product|lra].
    - pose proof (size_pos l) as Z1. pose proof (size_pos l') as Z2. rewrite size_app, app_length in L.
      assert (Fa : is_finite a = true).
      { apply IH1; [intros q Hq; apply Fl, in_or_app; now left|]. eapply Rle_lt_trans; [|exact L]. apply Rplus_le_compat; [lra|]. apply slack_mono; [apply u_nn|apply eta_nn|lia|lra]. }
      assert (Fb : is_finite b = true).
      { apply IH2; [intros q Hq; apply Fl, in_or_app; now right|]. eapply Rle_lt_trans; [|exact L]. apply Rplus_le_compat; [lra|]. apply slack_mono; [apply u_nn|apply eta_nn|lia|lra]. }
      destruct (eval_close _ _ E1 Fa) as [A Za]. destruct (eval_close _ _ E2 Fb) as [B Zb].
      apply fadd_ok; [exact Fa|exact Fb|]. eapply Rle_lt_trans; [|exact L]. rewrite <- size_app, <- app_length. apply (within_size _ (exact_sum (l ++ l'))); [now apply step_add|apply exact_size].
    - destruct (Fl _ (or_introl eq_refl)) as [X Y]. cbn [fst snd] in X, Y. cbn [size_sum fold_right length fst snd] in L. fold (size_sum l) in L. pose proof (size_pos l) as Z1. pose proof (Rabs_pos (B2R x * B2R y)) as Z2.
      assert (Fa : is_finite a = true).
      { apply IH; [intros q Hq; apply Fl; now right|]. eapply Rle_lt_trans; [|exact L]. apply Rplus_le_compat; [lra|]. apply slack_mono; [apply u_nn|apply eta_nn|lia|lra]. }
      destruct (eval_close _ _ E Fa) as [A _]. pose proof (Bfma_correct p e Hp Hm mode_NE x y a X Y Fa) as B. cbv zeta in B. cbn [round_mode] in B. fold (rnd (B2R x * B2R y + B2R a)) in B.
      rewrite Rlt_bool_true in B; [exact (proj1 (proj2 B))|]. eapply Rle_lt_trans; [|exact L]. apply (within_size _ (B2R x * B2R y + exact_sum l)); [now apply step_fused|].
      eapply Rle_trans; [apply Rabs_triang|]. pose proof (exact_size l). lra.
    - apply IH; [intros q Hq; apply Fl; now apply (Permutation_in _ P)|]. rewrite (size_perm _ _ P), (Permutation_length P). exact L.
  Qed.
End Eval.
