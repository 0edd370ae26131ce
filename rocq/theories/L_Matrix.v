(** Sums, products of matrices as functions, orthonormal columns. *)
From Coq Require Import Reals Lra.
From Verif Require Import Base M_Matrix S_Matrix.
Open Scope R_scope.

Lemma fold_plus_app : forall (l1 l2 : list R), fold_right Rplus 0 (l1 ++ l2) = fold_right Rplus 0 l1 + fold_right Rplus 0 l2.
Proof. intros l1 l2. induction l1 as [|x l IH]; cbn [app fold_right]; [ring|]. rewrite IH. ring. Qed.

Lemma total_sum : forall (n : nat) (f : nat -> R), total n f = sum n f.
Proof.
  intros n f. unfold total. induction n as [|n IH]; [reflexivity|].
  rewrite seq_S, map_app, fold_plus_app, IH. cbn [map fold_right sum Nat.add]. ring.
Qed.

Lemma sum_ext : forall (n : nat) (f g : nat -> R), (forall k, (k < n)%nat -> f k = g k) -> sum n f = sum n g.
Proof.
  induction n as [|n IH]; intros f g H; [reflexivity|]. cbn [sum]. rewrite (IH f g); [|intros; apply H; lia].
  rewrite (H n) by lia. reflexivity.
Qed.
Lemma sum_zero : forall (n : nat) (f : nat -> R), (forall k, (k < n)%nat -> f k = 0) -> sum n f = 0.
Proof.
  induction n as [|n IH]; intros f H; [reflexivity|]. cbn [sum]. rewrite IH; [|intros; apply H; lia]. rewrite (H n) by lia. ring.
Qed.
Lemma sum_plus : forall (n : nat) (f g : nat -> R), sum n (fun k => f k + g k) = sum n f + sum n g.
Proof. induction n as [|n IH]; intros f g; cbn [sum]; [ring|]. rewrite IH. ring. Qed.
Lemma sum_minus : forall (n : nat) (f g : nat -> R), sum n (fun k => f k - g k) = sum n f - sum n g.
Proof. induction n as [|n IH]; intros f g; cbn [sum]; [ring|]. rewrite IH. ring. Qed.
Lemma sum_scale : forall (n : nat) (f : nat -> R) (c : R), sum n (fun k => c * f k) = c * sum n f.
Proof. induction n as [|n IH]; intros f c; cbn [sum]; [ring|]. rewrite IH. ring. Qed.
Lemma sum_scale_r : forall (n : nat) (f : nat -> R) (c : R), sum n (fun k => f k * c) = sum n f * c.
Proof. induction n as [|n IH]; intros f c; cbn [sum]; [ring|]. rewrite IH. ring. Qed.
Lemma sum_swap : forall (n m : nat) (f : nat -> nat -> R), sum n (fun i => sum m (fun j => f i j)) = sum m (fun j => sum n (fun i => f i j)).
Proof.
  induction n as [|n IH]; intros m f; cbn [sum].
  - symmetry. apply sum_zero. reflexivity.
  - rewrite IH, <- sum_plus. reflexivity.
Qed.
Lemma sum_nonneg : forall (n : nat) (f : nat -> R), (forall k, (k < n)%nat -> 0 <= f k) -> 0 <= sum n f.
Proof.
  induction n as [|n IH]; intros f H; cbn [sum]; [lra|]. assert (0 <= sum n f) by (apply IH; intros; apply H; lia).
  assert (0 <= f n) by (apply H; lia). lra.
Qed.
Lemma sum_nonneg_zero : forall (n : nat) (f : nat -> R), (forall k, (k < n)%nat -> 0 <= f k) -> sum n f = 0 ->
  forall k, (k < n)%nat -> f k = 0.
Proof.
  induction n as [|n IH]; intros f H Hs k Hk; [lia|]. cbn [sum] in Hs.
  assert (H1 : 0 <= sum n f) by (apply sum_nonneg; intros; apply H; lia).
  assert (H2 : 0 <= f n) by (apply H; lia).
  destruct (Nat.eq_dec k n) as [E|E]; [subst k; lra|]. apply IH; [intros; apply H; lia|lra|lia].
Qed.
Lemma sum_le : forall (n : nat) (f g : nat -> R), (forall k, (k < n)%nat -> f k <= g k) -> sum n f <= sum n g.
Proof.
  induction n as [|n IH]; intros f g H; cbn [sum]; [lra|]. assert (sum n f <= sum n g) by (apply IH; intros; apply H; lia).
  assert (f n <= g n) by (apply H; lia). lra.
Qed.
Definition delta (i j : nat) : R := if Nat.eqb i j then 1 else 0.
Lemma sum_delta : forall (n : nat) (f : nat -> R) (j : nat), (j < n)%nat -> sum n (fun k => f k * delta k j) = f j.
Proof.
  induction n as [|n IH]; intros f j Hj; [lia|]. cbn [sum]. destruct (Nat.eq_dec j n) as [E|E].
  - subst j. rewrite sum_zero; [unfold delta; rewrite Nat.eqb_refl; ring|].
    intros k Hk. unfold delta. destruct (Nat.eqb_spec k n); [lia|ring].
  - rewrite IH by lia. unfold delta. destruct (Nat.eqb_spec n j); [lia|ring].
Qed.
Lemma delta_sym : forall i j, delta i j = delta j i.
Proof. intros. unfold delta. rewrite Nat.eqb_sym. reflexivity. Qed.
Lemma sum_delta_l : forall (n : nat) (f : nat -> R) (j : nat), (j < n)%nat -> sum n (fun k => delta j k * f k) = f j.
Proof.
  intros n f j H. rewrite <- (sum_delta n f j H). apply sum_ext. intros k _. rewrite delta_sym. ring.
Qed.

(* ------------------------------------------------------------------ *)
(** Products of matrices as functions. *)
Definition fn := nat -> nat -> R.
Definition mm (n : nat) (a b : fn) : fn := fun i j => sum n (fun k => a i k * b k j).
Definition tr (a : fn) : fn := fun i j => a j i.

Lemma mm_assoc : forall (n m : nat) (a b c : fn) i j, mm m (mm n a b) c i j = mm n a (mm m b c) i j.
Proof.
  intros. unfold mm. rewrite (sum_ext m _ (fun k => sum n (fun l => a i l * b l k * c k j)))
    by (intros; rewrite <- sum_scale_r; reflexivity).
  rewrite sum_swap. apply sum_ext. intros l _. rewrite <- sum_scale. apply sum_ext. intros. ring.
Qed.
Lemma mm_tr : forall (n : nat) (a b : fn) i j, mm n (tr b) (tr a) i j = mm n a b j i.
Proof. intros. unfold mm, tr. apply sum_ext. intros. ring. Qed.
Lemma mm_ext : forall (n : nat) (a a' b b' : fn) i j, (forall k, (k < n)%nat -> a i k = a' i k) -> (forall k, (k < n)%nat -> b k j = b' k j) ->
  mm n a b i j = mm n a' b' i j.
Proof. intros n a a' b b' i j Ha Hb. unfold mm. apply sum_ext. intros k Hk. rewrite Ha, Hb by exact Hk. reflexivity. Qed.
Lemma mm_delta_r : forall (n : nat) (a : fn) i j, (j < n)%nat -> mm n a delta i j = a i j.
Proof. intros n a i j H. unfold mm. apply (sum_delta n (fun k => a i k) j H). Qed.
Lemma mm_delta_l : forall (n : nat) (a : fn) i j, (i < n)%nat -> mm n delta a i j = a i j.
Proof. intros n a i j H. unfold mm. apply (sum_delta_l n (fun k => a k j) i H). Qed.

(** A square matrix with orthonormal columns has orthonormal rows. *)
Lemma square_orthonormal : forall (n : nat) (v : fn),
  (forall i j, (i < n)%nat -> (j < n)%nat -> mm n (tr v) v i j = delta i j) ->
  forall i j, (i < n)%nat -> (j < n)%nat -> mm n v (tr v) i j = delta i j.
Proof.
  intros n v H.
  pose (p := mm n v (tr v)).
  assert (Hsym : forall i j, p i j = p j i).
  { intros. unfold p. rewrite <- (mm_tr n v (tr v) j i). apply mm_ext; reflexivity. }
  assert (Hidem : forall i j, (i < n)%nat -> (j < n)%nat -> mm n p p i j = p i j).
  { intros i j Hi Hj. unfold p at 1. rewrite mm_assoc.
    transitivity (mm n v (mm n (mm n (tr v) v) (tr v)) i j).
    - apply mm_ext; [reflexivity|]. intros k Hk. unfold p. rewrite mm_assoc. reflexivity.
    - apply mm_ext; [reflexivity|]. intros k Hk. rewrite <- (mm_delta_l n (tr v) k j Hk).
      apply mm_ext; [|reflexivity]. intros l Hl. apply H; assumption. }
  (* trace of p *)
  assert (Htr : sum n (fun i => p i i) = sum n (fun i => mm n (tr v) v i i)).
  { unfold p, mm. rewrite sum_swap. apply sum_ext. intros i Hi. apply sum_ext. intros k Hk. unfold tr. ring. }
  pose (q := fun i j => delta i j - p i j).
  assert (Hq : sum n (fun i => sum n (fun j => q i j * q i j)) = 0).
  { transitivity (sum n (fun i => delta i i - p i i)).
    - apply sum_ext. intros i Hi.
      transitivity (sum n (fun j => delta i j * delta i j) - 2 * sum n (fun j => delta i j * p i j) + sum n (fun j => p i j * p i j)).
      + rewrite <- sum_scale, <- sum_minus, <- sum_plus. apply sum_ext. intros. unfold q. ring.
      + rewrite (sum_delta_l n (fun j => delta i j) i Hi), (sum_delta_l n (fun j => p i j) i Hi).
        replace (sum n (fun j => p i j * p i j)) with (p i i); [ring|].
        rewrite <- (Hidem i i Hi Hi). unfold mm. apply sum_ext. intros k Hk. rewrite (Hsym k i). reflexivity.
    - rewrite sum_minus, Htr. rewrite <- sum_minus. apply sum_zero. intros i Hi. rewrite H by exact Hi. ring. }
  intros i j Hi Hj.
  assert (Hr : sum n (fun j => q i j * q i j) = 0).
  { apply (sum_nonneg_zero n (fun i => sum n (fun j => q i j * q i j))); [|exact Hq|exact Hi].
    intros k Hk. apply sum_nonneg. intros l Hl. nra. }
  assert (Hz : q i j * q i j = 0).
  { apply (sum_nonneg_zero n (fun j => q i j * q i j)); [|exact Hr|exact Hj]. intros k Hk. nra. }
  assert (Hz' : q i j = 0) by nra. unfold q in Hz'. fold p. lra.
Qed.
