(** Error calculus for sums of squares. *)
From Coq Require Import Reals Lra Psatz.
From Flocq Require Import Core.Core IEEE754.BinarySingleNaN Relative.
From Verif Require Import Base M_Scale S_FloatStats S_FloatScale L_Float L_FloatStats L_FloatStats2.
Open Scope R_scope.

Lemma near_bounds g a x y : near g a x y -> x <= g * y + a /\ y - ((g - 1) * y + a) <= x.
Proof. unfold near. intros H. apply Rabs_le_inv in H. lra. Qed.
Lemma near_trans g1 a1 g2 a2 x y z : 1 <= g1 -> near g1 a1 x y -> near g2 a2 y z -> near (g1 * g2) (a1 + g1 * a2) x z.
Proof.
  intros G H1 H2. pose proof (proj1 (near_bounds _ _ _ _ H2)) as B. unfold near in *.
  replace (x - z) with ((x - y) + (y - z)) by ring. eapply Rle_trans; [apply Rabs_triang|].
  assert ((g1 - 1) * y <= (g1 - 1) * (g2 * z + a2)) by (apply Rmult_le_compat_l; lra). lra.
Qed.
Lemma near_refl x : near 1 0 x x.
Proof. unfold near. rewrite Rminus_diag_eq, Rabs_R0 by reflexivity. lra. Qed.
Lemma near_weaken g a g' a' x y : 0 <= y -> g <= g' -> a <= a' -> near g a x y -> near g' a' x y.
Proof. unfold near. intros Y G A H. assert ((g - 1) * y <= (g' - 1) * y) by (apply Rmult_le_compat_r; lra). lra. Qed.
Lemma near_scale c g a x y : 0 <= c -> near g a x y -> near g (c * a) (c * x) (c * y).
Proof.
  unfold near. intros C H. replace (c * x - c * y) with (c * (x - y)) by ring. rewrite Rabs_mult, (Rabs_right c) by lra.
  replace ((g - 1) * (c * y) + c * a) with (c * ((g - 1) * y + a)) by ring. apply Rmult_le_compat_l; assumption.
Qed.
Lemma near_plus g a b x y x' y' : near g a x y -> near g b x' y' -> near g (a + b) (x + x') (y + y').
Proof. unfold near. intros H1 H2. replace (x + x' - (y + y')) with ((x - y) + (x' - y')) by ring. eapply Rle_trans; [apply Rabs_triang|]. lra. Qed.
(** A factor. *)
Lemma near_factor e u x y : 0 <= y -> Rabs e <= u -> x = y * (1 + e) -> near (1 + u) 0 x y.
Proof.
  intros Y E ->. unfold near. replace (y * (1 + e) - y) with (y * e) by ring. rewrite Rabs_mult, (Rabs_right y) by lra.
  replace ((1 + u - 1) * y + 0) with (y * u) by ring. apply Rmult_le_compat_l; assumption.
Qed.
Lemma sqrt_sub a b : 0 <= b <= a -> sqrt a - sqrt b <= sqrt (a - b).
Proof.
  intros H. pose proof (sqrt_pos a). pose proof (sqrt_pos b). pose proof (sqrt_pos (a - b)). 
  pose proof (sqrt_sqrt a ltac:(lra)). pose proof (sqrt_sqrt b ltac:(lra)). pose proof (sqrt_sqrt (a - b) ltac:(lra)).
  assert (sqrt a <= sqrt (a - b) + sqrt b); [|lra]. apply Rsqr_incr_0_var; [|lra]. unfold Rsqr. nra.
Qed.
Lemma sqrt_add a b : 0 <= a -> 0 <= b -> sqrt (a + b) <= sqrt a + sqrt b.
Proof. intros A B. pose proof (sqrt_sub (a + b) a ltac:(lra)) as H. replace (a + b - a) with b in H by ring. lra. Qed.
Lemma near_sqrt g a x y : 1 <= g -> 0 <= a -> 0 <= x -> 0 <= y -> near g a x y -> near g (sqrt a) (sqrt x) (sqrt y).
Proof.
  intros G A X Y H. destruct (near_bounds _ _ _ _ H) as [U L]. pose proof (sqrt_pos a) as Sa. pose proof (sqrt_pos x) as Sx. pose proof (sqrt_pos y) as Sy.
  pose proof (sqrt_sqrt y Y) as Yy. unfold near. apply Rabs_le. split.
  - destruct (Rle_or_lt 2 g) as [G2|G2].
    + assert (1 * sqrt y <= (g - 1) * sqrt y) by (apply Rmult_le_compat_r; lra). lra.
    + destruct (Rle_or_lt ((2 - g) * y) a) as [C|C].
      * assert (E : (2 - g) * sqrt y <= sqrt a).
        { rewrite <- (sqrt_square ((2 - g) * sqrt y)) by (apply Rmult_le_pos; lra). apply sqrt_le_1_alt.
          replace ((2 - g) * sqrt y * ((2 - g) * sqrt y)) with ((2 - g) * ((2 - g) * (sqrt y * sqrt y))) by ring. rewrite Yy.
          assert (0 <= (2 - g) * y) by (apply Rmult_le_pos; lra). assert ((2 - g) * ((2 - g) * y) <= 1 * ((2 - g) * y)) by (apply Rmult_le_compat_r; lra). lra. }
        lra.
      * assert (E : sqrt ((2 - g) * y) - sqrt a <= sqrt x).
        { eapply Rle_trans; [apply sqrt_sub; lra|]. apply sqrt_le_1_alt. lra. }
        assert (E2 : (2 - g) * sqrt y <= sqrt ((2 - g) * y)).
        { rewrite <- (sqrt_square ((2 - g) * sqrt y)) by (apply Rmult_le_pos; lra). apply sqrt_le_1_alt.
          replace ((2 - g) * sqrt y * ((2 - g) * sqrt y)) with ((2 - g) * ((2 - g) * (sqrt y * sqrt y))) by ring. rewrite Yy.
          assert (0 <= (2 - g) * y) by (apply Rmult_le_pos; lra). assert ((2 - g) * ((2 - g) * y) <= 1 * ((2 - g) * y)) by (apply Rmult_le_compat_r; lra). lra. }
        lra.
  - assert (E : sqrt x <= sqrt (g * y) + sqrt a).
    { eapply Rle_trans; [apply (sqrt_le_1_alt _ _ U)|]. apply sqrt_add; [apply Rmult_le_pos; lra|exact A]. }
    assert (E2 : sqrt (g * y) <= g * sqrt y).
    { rewrite <- (sqrt_square (g * sqrt y)) by (apply Rmult_le_pos; lra). apply sqrt_le_1_alt.
      replace (g * sqrt y * (g * sqrt y)) with (g * (g * (sqrt y * sqrt y))) by ring. rewrite Yy.
      assert (0 <= g * y) by (apply Rmult_le_pos; lra). assert (1 * (g * y) <= g * (g * y)) by (apply Rmult_le_compat_r; lra). lra. }
    lra.
Qed.
(** Sums. *)
Lemma rsum_nonneg l : (forall x, In x l -> 0 <= x) -> 0 <= rsum l.
Proof. induction l as [|x l IH]; intros H; cbn; [lra|]. fold (rsum l). pose proof (H x (or_introl eq_refl)). pose proof (IH (fun y Hy => H y (or_intror Hy))). lra. Qed.
Lemma near_rsum {A} g a (f h : A -> R) l : (forall x, In x l -> near g a (f x) (h x)) -> near g (INR (length l) * a) (rsum (map f l)) (rsum (map h l)).
Proof.
  induction l as [|x l IH]; intros H.
  - unfold near. cbn. rewrite Rminus_diag_eq, Rabs_R0 by reflexivity. lra.
  - cbn [map length]. rewrite S_INR. replace ((INR (length l) + 1) * a) with (a + INR (length l) * a) by ring.
    cbn [rsum fold_right]. apply near_plus; [apply H; now left|]. apply IH. intros y Hy. apply H. now right.
Qed.
Lemma rsum_map_ext {A} (f h : A -> R) l : (forall x, In x l -> f x = h x) -> rsum (map f l) = rsum (map h l).
Proof. intros H. f_equal. now apply map_ext_in. Qed.
Lemma rsum_scale {A} (f : A -> R) c l : rsum (map (fun x => c * f x) l) = c * rsum (map f l).
Proof. induction l as [|x l IH]; cbn; [ring|]. fold (rsum (map (fun x => c * f x) l)) (rsum (map f l)). rewrite IH. ring. Qed.
Lemma rsum_plus {A} (f h : A -> R) l : rsum (map (fun x => f x + h x) l) = rsum (map f l) + rsum (map h l).
Proof. induction l as [|x l IH]; cbn; [ring|]. fold (rsum (map (fun x => f x + h x) l)) (rsum (map f l)) (rsum (map h l)). rewrite IH. ring. Qed.

(** Roundings. *)
Section Round.
  Context {prec emax : Z} {Hp : Prec_gt_0 prec} {Hm : Prec_lt_emax prec emax}.
  Notation u := (unit_error prec).
  Notation rnd := (rnd (prec := prec) (emax := emax)).
  Lemma near_rnd x : 0 <= x -> near (1 + u) (/ 2 * bpow radix2 (SpecFloat.emin prec emax)) (rnd x) x.
  Proof using Hp Hm. intros H. unfold near. eapply Rle_trans; [apply rnd_err|]. rewrite (Rabs_right x) by lra. lra. Qed.
  (** Without underflow. *)
  Lemma rnd_flx x : bpow radix2 (SpecFloat.emin prec emax + prec - 1) <= Rabs x -> rnd x = round radix2 (FLX_exp prec) ZnearestE x.
  Proof using Type. intros H. exact (round_FLT_FLX radix2 (SpecFloat.emin prec emax) prec ZnearestE x H). Qed.
  Lemma rnd_rel x : bpow radix2 (SpecFloat.emin prec emax + prec - 1) <= Rabs x -> exists d, Rabs d <= u /\ rnd x = x * (1 + d).
  Proof using Hp Hm.
    intros H. rewrite (rnd_flx x H). destruct (relative_error_N_FLX'_ex radix2 prec Hp (fun z => negb (Z.even z)) x) as (d & A & B).
    exists d. split; [now apply u_ro_le|exact B].
  Qed.
  Lemma rnd_inv x : bpow radix2 (SpecFloat.emin prec emax + prec - 1) <= Rabs x -> exists d, Rabs d <= u /\ x = rnd x * (1 + d).
  Proof using Hp Hm.
    intros H. rewrite (rnd_flx x H). destruct (relative_error_N_FLX_round_ex radix2 prec Hp (fun z => negb (Z.even z)) x) as (d & A & B).
    exists d. split; [now rewrite <- u_ro_unit|exact B].
  Qed.
  Lemma near_rnd_rel x : 0 <= x -> (x <> 0 -> bpow radix2 (SpecFloat.emin prec emax + prec - 1) <= x) -> near (1 + u) 0 (rnd x) x.
  Proof using Hp Hm.
    intros H G. destruct (Req_dec x 0) as [->|N]; [rewrite rnd_0; unfold near; rewrite Rminus_0_r, Rabs_R0; lra|].
    destruct (rnd_rel x) as (d & A & B); [rewrite Rabs_right by lra; auto|]. now apply (near_factor d).
  Qed.
End Round.
