(** C74: the sign convention of the truncated SVD transformer, and Gram-Schmidt. *)
From Coq Require Import Reals Lra.
From Verif Require Import Base M_Matrix S_Matrix L_Matrix L_Matrix2.
Open Scope R_scope.

(** [largest] is the first entry of greatest absolute value. *)
Lemma largest_spec : forall (f : nat -> R) (k : nat), exists p, (p <= k)%nat /\ largest f k = f p /\
  (forall i, (i <= k)%nat -> Rabs (f i) <= Rabs (f p)) /\ (forall i, (i < p)%nat -> Rabs (f i) < Rabs (f p)).
Proof.
  intros f. induction k as [|k IH].
  - exists 0%nat. split; [lia|]. split; [reflexivity|]. split; [|intros i Hi; lia]. intros i Hi. replace i with 0%nat by lia. lra.
  - destruct IH as (p & Hp & E & H1 & H2). cbn [largest]. rewrite E. destruct (Rlt_dec (Rabs (f p)) (Rabs (f (S k)))) as [L|L].
    + exists (S k). split; [lia|]. split; [reflexivity|]. split.
      * intros i Hi. destruct (Nat.eq_dec i (S k)) as [->|N]; [lra|]. specialize (H1 i ltac:(lia)). lra.
      * intros i Hi. specialize (H1 i ltac:(lia)). lra.
    + exists p. split; [lia|]. split; [reflexivity|]. split; [|exact H2].
      intros i Hi. destruct (Nat.eq_dec i (S k)) as [->|N]; [lra|]. apply H1. lia.
Qed.

Lemma largest_ext : forall (f g : nat -> R) (k : nat), (forall i, (i <= k)%nat -> f i = g i) -> largest f k = largest g k.
Proof.
  intros f g. induction k as [|k IH]; intros H; cbn [largest]; [apply H; lia|].
  rewrite IH by (intros; apply H; lia). rewrite (H (S k)) by lia. reflexivity.
Qed.
Lemma largest_opp : forall (f : nat -> R) (k : nat), largest (fun i => - f i) k = - largest f k.
Proof.
  intros f. induction k as [|k IH]; cbn [largest]; [reflexivity|]. rewrite IH, !Rabs_Ropp.
  destruct (Rlt_dec (Rabs (largest f k)) (Rabs (f (S k)))); reflexivity.
Qed.

Lemma flip_spec : forall (m : mat), (rows m > 0)%nat -> forall j, exists s p, (s = 1 \/ s = -1) /\ (p < rows m)%nat /\
  (forall i, entry (svd_flip m) i j = s * entry m i j) /\
  (forall i, (i < rows m)%nat -> Rabs (entry (svd_flip m) i j) <= entry (svd_flip m) p j) /\
  (forall i, (i < p)%nat -> Rabs (entry (svd_flip m) i j) < entry (svd_flip m) p j).
Proof.
  intros m Hr j. destruct (largest_spec (fun r => entry m r j) (rows m - 1)) as (p & Hp & E & H1 & H2).
  cbn [svd_flip entry]. rewrite E. destruct (Rlt_dec (entry m p j) 0) as [L|L].
  - exists (-1), p. split; [right; reflexivity|]. split; [lia|]. split; [intros; ring|].
    assert (A : Rabs (entry m p j) = - entry m p j) by (apply Rabs_left; exact L).
    split; intros i Hi; rewrite Rabs_Ropp, <- A; [apply H1; lia|apply H2; exact Hi].
  - exists 1, p. split; [left; reflexivity|]. split; [lia|]. split; [intros; ring|].
    assert (A : Rabs (entry m p j) = entry m p j) by (apply Rabs_right; lra).
    split; intros i Hi; rewrite <- A; [apply H1; lia|apply H2; exact Hi].
Qed.

Lemma largest_zero : forall (f : nat -> R) (k : nat), largest f k = 0 -> forall i, (i <= k)%nat -> f i = 0.
Proof.
  intros f k E i Hi. destruct (largest_spec f k) as (p & Hp & Ep & H1 & _). rewrite E in Ep. specialize (H1 i Hi).
  rewrite <- Ep, Rabs_R0 in H1. pose proof (Rabs_pos (f i)). destruct (Req_dec (f i) 0) as [Z0|N]; [exact Z0|].
  apply Rabs_pos_lt in N. lra.
Qed.

(** Changing the signs of columns of what is flipped changes nothing. *)
Lemma flip_signs : forall (m m' : mat) (s : nat -> R), rows m' = rows m -> cols m' = cols m -> (rows m > 0)%nat ->
  (forall j, s j = 1 \/ s j = -1) ->
  (forall i j, (i < rows m)%nat -> (j < cols m)%nat -> entry m' i j = s j * entry m i j) ->
  same (svd_flip m') (svd_flip m).
Proof.
  intros m m' s Er Ec Hr Hs H. split; [exact Er|]. split; [exact Ec|]. cbn [svd_flip rows cols entry]. rewrite Er, Ec. intros i j Hi Hj.
  destruct (Hs j) as [E|E].
  - rewrite (largest_ext (fun r => entry m' r j) (fun r => entry m r j)) by (intros r Hrr; rewrite H by lia; rewrite E; ring).
    rewrite (H i j Hi Hj), E. destruct (Rlt_dec (largest (fun r => entry m r j) (rows m - 1)) 0); ring.
  - rewrite (largest_ext (fun r => entry m' r j) (fun r => - entry m r j)) by (intros r Hrr; rewrite H by lia; rewrite E; ring).
    rewrite largest_opp, (H i j Hi Hj), E.
    destruct (Rlt_dec (largest (fun r => entry m r j) (rows m - 1)) 0) as [L|L];
      destruct (Rlt_dec (- largest (fun r => entry m r j) (rows m - 1)) 0) as [L'|L']; try lra.
    assert (Z0 : largest (fun r => entry m r j) (rows m - 1) = 0) by lra.
    pose proof (largest_zero _ _ Z0 i ltac:(lia)) as Zi. cbv beta in Zi. rewrite Zi. ring.
Qed.

Lemma svd_refuses : forall (v x : mat),
  svd_execute v x = Throw InvalidArgument <-> (rows x = 0 \/ cols x = 0 \/ cols x <> rows v)%nat.
Proof.
  intros v x. unfold svd_execute, size. destruct (Nat.eqb_spec (rows x * cols x) 0) as [E|E].
  - split; [|reflexivity]. intros _. apply Nat.eq_mul_0 in E. tauto.
  - assert (rows x <> 0 /\ cols x <> 0)%nat by (split; intro Z0; apply E; rewrite Z0; lia).
    destruct (Nat.eqb_spec (cols x) (rows v)) as [E2|E2]; cbn [negb]; (split; [|]); try discriminate; intros; try tauto; lia.
Qed.

Lemma svd_ok : forall (v x : mat), (rows x > 0)%nat -> (cols x > 0)%nat -> cols x = rows v -> svd_execute v x = Ok (svd_flip (product x v)).
Proof.
  intros v x Hr Hc He. unfold svd_execute, size.
  destruct (Nat.eqb_spec (rows x * cols x) 0) as [E|E]; [apply Nat.eq_mul_0 in E; lia|].
  rewrite He, Nat.eqb_refl. reflexivity.
Qed.

Lemma svd_accepts : forall (v x : mat), (rows x > 0)%nat -> (cols x > 0)%nat -> cols x = rows v ->
  exists y, svd_execute v x = Ok y /\ rows y = rows x /\ cols y = cols v /\
    forall j, exists s p, (s = 1 \/ s = -1) /\ (p < rows x)%nat /\
      (forall i, entry y i j = s * dot (cols x) (row x i) (column v j)) /\
      (forall i, (i < rows x)%nat -> Rabs (entry y i j) <= entry y p j) /\
      (forall i, (i < p)%nat -> Rabs (entry y i j) < entry y p j).
Proof.
  intros v x Hr Hc He. eexists. split; [apply svd_ok; assumption|]. split; [reflexivity|]. split; [reflexivity|].
  intros j. destruct (flip_spec (product x v) Hr j) as (s & p & Hs & Hp & H1 & H2 & H3).
  exists s, p. split; [exact Hs|]. split; [exact Hp|]. split; [|split; [exact H2|exact H3]].
  intros i. rewrite H1, dot_sum. reflexivity.
Qed.

Lemma svd_inv : forall (v x y : mat), svd_execute v x = Ok y -> (rows x > 0 /\ cols x > 0 /\ cols x = rows v)%nat /\ y = svd_flip (product x v).
Proof.
  intros v x y. unfold svd_execute, size. destruct (Nat.eqb_spec (rows x * cols x) 0) as [E|E]; [discriminate|].
  destruct (Nat.eqb_spec (cols x) (rows v)) as [E2|E2]; cbn [negb]; [|discriminate]. intros Ey. injection Ey as <-.
  split; [|reflexivity]. split; [|split; [|exact E2]]; destruct (rows x), (cols x); lia.
Qed.

Lemma svd_sign_free : forall (v v' x y y' : mat) (s : nat -> R), rows v' = rows v -> cols v' = cols v ->
  (forall j, s j = 1 \/ s j = -1) ->
  (forall i j, (i < rows v)%nat -> (j < cols v)%nat -> entry v' i j = s j * entry v i j) ->
  svd_execute v x = Ok y -> svd_execute v' x = Ok y' -> same y' y.
Proof.
  intros v v' x y y' s Er Ec Hs H E E'. apply svd_inv in E, E'. destruct E as ((Hr & Hc & He) & ->), E' as ((_ & _ & _) & ->).
  apply (flip_signs _ _ s); [reflexivity|exact Ec|exact Hr|exact Hs|].
  cbn [product rows cols entry]. intros i j Hi Hj. rewrite <- sum_scale. apply sum_ext. intros k Hk. rewrite (H k j) by lia. ring.
Qed.

(** A single row loses its signs. *)
Lemma svd_single_row : forall (v x y : mat), svd_execute v x = Ok y -> rows x = 1%nat ->
  forall j, entry y 0%nat j = Rabs (dot (cols x) (row x 0%nat) (column v j)).
Proof.
  intros v x y E H1 j. apply svd_inv in E. destruct E as (_ & ->). cbn [svd_flip entry product rows]. rewrite H1. cbn [Nat.sub largest].
  rewrite dot_sum. unfold row, column. destruct (Rlt_dec (sum (cols x) (fun k => entry x 0%nat k * entry v k j)) 0) as [L|L].
  - rewrite Rabs_left by exact L. reflexivity.
  - rewrite Rabs_right by lra. reflexivity.
Qed.

(* ------------------------------------------------------------------ *)
(** Gram-Schmidt. *)
Definition sdot (n : nat) (a : fn) (c d : nat) : R := sum n (fun l => a l c * a l d).
Lemma sdot_sym : forall n a c d, sdot n a c d = sdot n a d c.
Proof. intros. unfold sdot. apply sum_ext. intros; ring. Qed.
Definition ortho_upto (n i : nat) (a : fn) : Prop := forall c d, (c < i)%nat -> (d < i)%nat -> sdot n a c d = delta c d.

Lemma subtract_other : forall (n : nat) (a : fn) (i j l c : nat), c <> i -> subtract n a i j l c = a l c.
Proof.
  intros n a i j. induction j as [|j IH]; intros l c N; cbn [subtract]; [reflexivity|]. cbv zeta.
  destruct (Nat.eqb_spec c i); [contradiction|]. apply IH. exact N.
Qed.
Lemma subtract_ortho : forall (n : nat) (a : fn) (i : nat), ortho_upto n i a -> forall j, (j <= i)%nat ->
  forall c, (c < j)%nat -> sdot n (subtract n a i j) i c = 0.
Proof.
  intros n a i Ho. induction j as [|j IH]; intros Hj c Hc; [lia|]. cbn [subtract]. cbv zeta. unfold sdot. rewrite Nat.eqb_refl.
  destruct (Nat.eqb_spec c i) as [E|E]; [lia|].
  set (b := subtract n a i j). set (r := sum n (fun l => b l i * b l j)).
  assert (Hb : forall l d, (d < i)%nat -> b l d = a l d) by (intros; apply subtract_other; lia).
  transitivity (sdot n b i c - r * sdot n a j c).
  - unfold sdot. rewrite <- sum_scale, <- sum_minus. apply sum_ext. intros l _. rewrite (Hb l j), (Hb l c) by lia. ring.
  - rewrite (Ho j c) by lia. destruct (Nat.eq_dec c j) as [->|N].
    + unfold delta. rewrite Nat.eqb_refl. unfold sdot, r. ring.
    + unfold b. rewrite IH by lia. unfold delta. destruct (Nat.eqb_spec j c); [lia|]. ring.
Qed.
(** Column [i] is what it was minus a combination of the earlier columns. *)
Lemma subtract_span : forall (n : nat) (a : fn) (i j : nat), (j <= i)%nat -> exists w : nat -> R,
  forall l, a l i = subtract n a i j l i + sum j (fun c => w c * a l c).
Proof.
  intros n a i. induction j as [|j IH]; intros Hj.
  - exists (fun _ => 0). intros l. cbn [subtract sum]. ring.
  - destruct (IH ltac:(lia)) as (w & Hw). cbn [subtract]. cbv zeta. set (r := sum n _).
    exists (fun c => if Nat.eqb c j then r else w c). intros l. rewrite Nat.eqb_refl. cbn [sum]. rewrite Nat.eqb_refl.
    rewrite (subtract_other n a i j l j) by lia. rewrite (Hw l).
    rewrite (sum_ext j (fun c => (if Nat.eqb c j then r else w c) * a l c) (fun c => w c * a l c)).
    + ring.
    + intros k Hk. destruct (Nat.eqb_spec k j); [lia|reflexivity].
Qed.

Lemma norm_sq : forall (n : nat) (u : nat -> R), norm n u * norm n u = sum n (fun l => u l * u l).
Proof. intros. unfold norm. apply sqrt_sqrt. apply sum_nonneg. intros. nra. Qed.
Lemma EPS_pos : 0 < EPS.
Proof. unfold EPS. lra. Qed.

Section Step.
  Variables (n i : nat) (a : fn).
  Hypothesis Ho : ortho_upto n i a.
  Let b := subtract n a i i.
  Let w := norm n (fun l => b l i).
  Hypothesis Hw : ~ w < EPS.
  Let a' : fn := fun l c => if Nat.eqb c i then b l i / w else b l c.

  Lemma step_wpos : 0 < w.
  Proof using Hw. pose proof EPS_pos. lra. Qed.
  Lemma step_other : forall l c, c <> i -> a' l c = a l c.
  Proof using. intros l c N. unfold a'. destruct (Nat.eqb_spec c i); [contradiction|]. apply subtract_other. exact N. Qed.
  Lemma step_self : forall l, a' l i = b l i / w.
  Proof using. intros l. unfold a'. rewrite Nat.eqb_refl. reflexivity. Qed.
  Lemma step_ortho : ortho_upto n (S i) a'.
  Proof using Ho Hw.
    pose proof step_wpos as Hp.
    assert (Hii : sdot n a' i i = 1).
    { unfold sdot. rewrite (sum_ext n _ (fun l => (b l i * b l i) * / (w * w))) by (intros; rewrite !step_self; field; lra).
      rewrite sum_scale_r. unfold w at 1 2. rewrite norm_sq. fold w. apply Rinv_r.
      rewrite <- (norm_sq n (fun l => b l i)). fold w. nra. }
    assert (Hic : forall c, (c < i)%nat -> sdot n a' i c = 0).
    { intros c Hc. unfold sdot. rewrite (sum_ext n _ (fun l => b l i * b l c * / w)).
      - rewrite sum_scale_r. pose proof (subtract_ortho n a i Ho i ltac:(lia) c Hc) as E. unfold sdot in E. fold b in E. rewrite E. ring.
      - intros l _. rewrite step_self, step_other by lia. unfold b at 3. rewrite subtract_other by lia. field. lra. }
    intros c d Hc Hd. destruct (Nat.eq_dec c i) as [Ec|Nc], (Nat.eq_dec d i) as [Ed|Nd].
    - subst c d. rewrite Hii. unfold delta. rewrite Nat.eqb_refl. reflexivity.
    - subst c. rewrite Hic by lia. unfold delta. destruct (Nat.eqb_spec i d); [lia|reflexivity].
    - subst d. rewrite sdot_sym, Hic by lia. unfold delta. destruct (Nat.eqb_spec c i); [lia|reflexivity].
    - rewrite <- (Ho c d) by lia. unfold sdot. apply sum_ext. intros l _. rewrite !step_other by assumption. reflexivity.
  Qed.
  Lemma step_span : exists q : nat -> R, forall l, a l i = sum (S i) (fun c => q c * a' l c).
  Proof using Hw.
    pose proof step_wpos as Hp. destruct (subtract_span n a i i ltac:(lia)) as (q & Hq). fold b in Hq.
    exists (fun c => if Nat.eqb c i then w else q c). intros l. cbn [sum]. rewrite Nat.eqb_refl, step_self, (Hq l).
    rewrite (sum_ext i (fun c => (if Nat.eqb c i then w else q c) * a' l c) (fun c => q c * a l c)).
    - field. lra.
    - intros k Hk. destruct (Nat.eqb_spec k i); [lia|]. rewrite step_other by lia. reflexivity.
  Qed.
End Step.

Definition in_span (n k : nat) (a : fn) (u : nat -> R) : Prop := exists q : nat -> R, forall l, (l < n)%nat -> u l = sum k (fun c => q c * a l c).

(** What Gram-Schmidt returns: [k] orthonormal columns, then zeros. *)
Lemma schmidt_ortho : forall (n left i : nat) (a : fn), ortho_upto n i a -> exists k, (i <= k <= i + left)%nat /\
  ortho_upto n k (schmidt n left i a) /\ (forall l c, (k <= c < i + left)%nat -> schmidt n left i a l c = 0).
Proof.
  intros n left. induction left as [|left IH]; intros i a Ho; cbn [schmidt].
  - exists i. split; [lia|]. split; [exact Ho|]. intros; lia.
  - cbv zeta. destruct (Rlt_dec (norm n (fun l => subtract n a i i l i)) EPS) as [L|L].
    + exists i. split; [lia|]. split.
      * intros c d Hc Hd. rewrite <- (Ho c d Hc Hd). unfold sdot. apply sum_ext. intros l _.
        destruct (Nat.leb_spec i c); [lia|]. destruct (Nat.leb_spec i d); [lia|]. rewrite !subtract_other by lia. reflexivity.
      * intros l c Hc. destruct (Nat.leb_spec i c); [reflexivity|lia].
    + destruct (IH (S i) _ (step_ortho n i a Ho L)) as (k & Hk & H1 & H2).
      exists k. split; [lia|]. split; [exact H1|]. intros l c Hc. apply H2. lia.
Qed.

(** When the last column is not zeroed, the given columns are combinations of the returned ones. *)
Lemma schmidt_cols_kept : forall (n left i : nat) (a : fn) c, (c < i)%nat -> forall l, schmidt n left i a l c = a l c.
Proof.
  intros n left. induction left as [|left IH]; intros i a c Hc l; cbn [schmidt]; [reflexivity|]. cbv zeta.
  destruct (Rlt_dec (norm n (fun l0 => subtract n a i i l0 i)) EPS) as [L|L].
  - destruct (Nat.leb_spec i c); [lia|]. apply subtract_other. lia.
  - rewrite IH by lia. destruct (Nat.eqb_spec c i); [lia|]. apply subtract_other. lia.
Qed.

Lemma schmidt_span : forall (n left i : nat) (a : fn), ortho_upto n i a ->
  ((left > 0)%nat -> exists l, (l < n)%nat /\ schmidt n left i a l (i + left - 1) <> 0) ->
  forall c, (i <= c < i + left)%nat -> in_span n (i + left) (schmidt n left i a) (fun l => a l c).
Proof.
  intros n left. induction left as [|left IH]; intros i a Ho Hz c Hc; [lia|].
  cbn [schmidt] in Hz |- *. cbv zeta in Hz |- *. destruct (Rlt_dec (norm n (fun l => subtract n a i i l i)) EPS) as [L|L].
  - exfalso. destruct (Hz ltac:(lia)) as (l & Hl & N). apply N. destruct (Nat.leb_spec i (i + S left - 1)); [reflexivity|lia].
  - set (a' := fun l c => if Nat.eqb c i then subtract n a i i l i / norm n (fun l0 => subtract n a i i l0 i) else subtract n a i i l c) in *.
    replace (i + S left)%nat with (S i + left)%nat in * by lia.
    pose proof (step_ortho n i a Ho L) as Ho'. fold a' in Ho'.
    destruct (Nat.eq_dec c i) as [E|N].
    + subst c. destruct (step_span n i a L) as (q & Hq). fold a' in Hq.
      exists (fun c => if Nat.ltb c (S i) then q c else 0). intros l Hl. rewrite (Hq l).
      assert (Hsplit : forall m, sum (S i + m) (fun c => (if Nat.ltb c (S i) then q c else 0) * schmidt n left (S i) a' l c) = sum (S i) (fun c => q c * a' l c)).
      { induction m as [|m IHm].
        - rewrite Nat.add_0_r. apply sum_ext. intros k Hk. destruct (Nat.ltb_spec k (S i)); [|lia].
          rewrite schmidt_cols_kept by lia. reflexivity.
        - rewrite <- plus_n_Sm. cbn [sum] in IHm |- *. rewrite IHm. destruct (Nat.ltb_spec (S i + m) (S i)); [lia|]. ring. }
      symmetry. apply Hsplit.
    + assert (Hz' : (left > 0)%nat -> exists l, (l < n)%nat /\ schmidt n left (S i) a' l (S i + left - 1) <> 0) by (intros; apply Hz; lia).
      destruct (IH (S i) a' Ho' Hz' c ltac:(lia)) as (q & Hq). exists q. intros l Hl. rewrite <- (Hq l Hl).
      unfold a'. destruct (Nat.eqb_spec c i); [contradiction|]. rewrite subtract_other by lia. reflexivity.
Qed.

(** A first column shorter than the threshold: everything is zero. *)
Lemma schmidt_small : forall (n left : nat) (a : fn), (left > 0)%nat -> norm n (fun l => a l 0%nat) < EPS -> forall l c, schmidt n left 0 a l c = 0.
Proof.
  intros n left a Hl L l c. destruct left as [|left]; [lia|]. cbn [schmidt subtract]. cbv zeta.
  destruct (Rlt_dec (norm n (fun l0 => a l0 0%nat)) EPS) as [_|N]; [reflexivity|contradiction].
Qed.
