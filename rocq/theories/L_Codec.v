From Verif Require Import Base L_List M_Archive S_Archive L_Archive M_Codec.

(** ** Parser algebra *)
Definition emits {A} (p : parser A) (bs : list Z) (x : A) : Prop := forall r, p (bs ++ r) = Ok (x, r).

Definition extend {A} (r : res (A * list Z)) (e : list Z) : res (A * list Z) :=
  match r with Ok (x, rest) => Ok (x, rest ++ e) | Throw x => Throw x | UB => UB end.
(** More input never changes a result that did not run out of input. *)
Definition mono {A} (p : parser A) : Prop :=
  forall bs e, (exists x, p bs = Throw x) \/ p (bs ++ e) = extend (p bs) e.
(** A parser consumes a prefix. *)
Definition consumes {A} (p : parser A) : Prop :=
  forall bs x r, p bs = Ok (x, r) -> exists q, bs = q ++ r.

Lemma get_fixed_emits w v : emits (get_fixed w) (le_bytes w v) (v mod two_pow8 w).
Proof.
  intros r. unfold get_fixed. rewrite app_length, le_bytes_length.
  destruct (Nat.ltb_spec (w + length r) w); [lia|].
  rewrite firstn_app, skipn_app, le_bytes_length, Nat.sub_diag.
  rewrite firstn_all2, skipn_all2 by (rewrite le_bytes_length; lia).
  cbn. rewrite app_nil_r, le_val_le_bytes. reflexivity.
Qed.

Lemma get_fixed_mono w : mono (get_fixed w).
Proof.
  intros bs e. unfold get_fixed. rewrite app_length.
  destruct (Nat.ltb_spec (length bs) w) as [H|H]; [left; eauto|right].
  destruct (Nat.ltb_spec (length bs + length e) w); [lia|]. cbn.
  rewrite firstn_app, skipn_app. replace (w - length bs)%nat with 0%nat by lia.
  cbn. now rewrite app_nil_r.
Qed.

Lemma get_fixed_consumes w : consumes (get_fixed w).
Proof.
  intros bs x r. unfold get_fixed. destruct (Nat.ltb _ _); [discriminate|].
  intros H. inversion H; subst. exists (firstn w bs). now rewrite firstn_skipn.
Qed.

Lemma get_fixed_noub w bs : get_fixed w bs <> UB.
Proof. unfold get_fixed. now destruct (Nat.ltb _ _). Qed.

Lemma get_block_emits s : emits (get_block (Z.of_nat (length s))) s s.
Proof.
  intros r. unfold get_block. destruct (Z.eqb_spec (Z.of_nat (length s)) 0) as [H|H].
  - destruct s; cbn in *; [reflexivity|lia].
  - destruct (s ++ r) as [|b q] eqn:E.
    { destruct s; cbn in *; [lia|discriminate]. }
    rewrite <- E, app_length.
    destruct (Z.ltb_spec (Z.of_nat (length s + length r)) (Z.of_nat (length s))); [lia|].
    rewrite Nat2Z.id. rewrite firstn_app, skipn_app, Nat.sub_diag, firstn_all, skipn_all. cbn.
    now rewrite app_nil_r.
Qed.

Lemma get_block_mono n : 0 <= n -> mono (get_block n).
Proof.
  intros Hn bs e. unfold get_block. destruct (Z.eqb_spec n 0) as [->|H]; [right; reflexivity|].
  destruct bs as [|b q]; [left; eauto|].
  destruct (Z.ltb_spec (Z.of_nat (length (b :: q))) n) as [Hlt|Hge]; [left; eauto|right].
  change ((b :: q) ++ e) with (b :: (q ++ e)).
  change (b :: (q ++ e)) with ((b :: q) ++ e). rewrite app_length.
  destruct (Z.ltb_spec (Z.of_nat (length (b :: q) + length e)) n); [lia|].
  cbn [app]. change (b :: (q ++ e)) with ((b :: q) ++ e).
  rewrite firstn_app, skipn_app. replace (Z.to_nat n - length (b :: q))%nat with 0%nat by lia.
  cbn [firstn skipn]. now rewrite app_nil_r.
Qed.

Lemma get_block_consumes n : consumes (get_block n).
Proof.
  intros bs x r. unfold get_block. destruct (Z.eqb_spec n 0).
  - intros H. inversion H; subst. now exists [].
  - destruct bs as [|b q]; [discriminate|]. destruct (Z.ltb _ _); [discriminate|].
    intros H. inversion H; subst. exists (firstn (Z.to_nat n) (b :: q)). now rewrite firstn_skipn.
Qed.

Lemma bind_emits {A B} (p : parser A) (f : A -> parser B) b1 b2 x y :
  emits p b1 x -> emits (f x) b2 y -> emits (fun bs => do a <- p bs; f (fst a) (snd a)) (b1 ++ b2) y.
Proof. intros H1 H2 r. rewrite <- app_assoc, H1. cbn. apply H2. Qed.

Lemma bind_mono {A B} (p : parser A) (f : A -> parser B) :
  mono p -> (forall bs x r, p bs = Ok (x, r) -> mono (f x)) -> mono (fun bs => do a <- p bs; f (fst a) (snd a)).
Proof.
  intros H1 H2 bs e. specialize (H2 bs). destruct (H1 bs e) as [[x H]|H].
  - left. exists x. now rewrite H.
  - rewrite H. destruct (p bs) as [[a r]|x|]; cbn.
    + destruct (H2 a r eq_refl r e) as [[x E]|E]; [left; eauto|right; auto].
    + left; eauto.
    + right; reflexivity.
Qed.

Lemma bind_consumes {A B} (p : parser A) (f : A -> parser B) :
  consumes p -> (forall x, consumes (f x)) -> consumes (fun bs => do a <- p bs; f (fst a) (snd a)).
Proof.
  intros H1 H2 bs y r H. destruct (p bs) as [[a r']|x|] eqn:E; cbn in H; try discriminate.
  apply H1 in E as [q1 ->]. apply H2 in H as [q2 ->]. exists (q1 ++ q2). now rewrite app_assoc.
Qed.

Lemma ret_mono {A} (x : A) : mono (fun bs => Ok (x, bs)).
Proof. intros bs e. right. reflexivity. Qed.
Lemma ret_consumes {A} (x : A) : consumes (fun bs => Ok (x, bs)).
Proof. intros bs y r H. inversion H; subst. now exists []. Qed.

Lemma map_emits {A B} (p : parser A) (g : A -> B) bs x :
  emits p bs x -> emits (fun b => do a <- p b; Ok (g (fst a), snd a)) bs (g x).
Proof. intros H r. rewrite H. reflexivity. Qed.
Lemma map_mono {A B} (p : parser A) (g : A -> B) : mono p -> mono (fun b => do a <- p b; Ok (g (fst a), snd a)).
Proof.
  intros H. apply (bind_mono p (fun x r => Ok (g x, r))); [exact H|]. intros bs x r _. apply ret_mono.
Qed.
Lemma map_consumes {A B} (p : parser A) (g : A -> B) : consumes p -> consumes (fun b => do a <- p b; Ok (g (fst a), snd a)).
Proof. intros H. apply (bind_consumes p (fun x r => Ok (g x, r))); [exact H|]. intros x. apply ret_consumes. Qed.

Lemma get_n_emits {A} (p : parser A) (e : A -> list Z) l :
  Forall (fun x => emits p (e x) x) l -> emits (get_n p (length l)) (flat_map e l) l.
Proof.
  induction l as [|x l IH]; intros HF r; [reflexivity|].
  inversion HF as [|? ? Hx HF']; subst. cbn [length get_n flat_map].
  rewrite <- app_assoc, Hx. cbn [bind fst snd]. rewrite (IH HF'). reflexivity.
Qed.
Lemma get_n_mono {A} (p : parser A) n : mono p -> mono (get_n p n).
Proof.
  intros H. induction n as [|n IH]; [apply ret_mono|].
  cbn [get_n]. apply (bind_mono p (fun x r => do xs <- get_n p n r; Ok (x :: fst xs, snd xs))); [exact H|].
  intros bs x r _. apply (map_mono (get_n p n) (fun l => x :: l)). exact IH.
Qed.
Lemma get_n_consumes {A} (p : parser A) n : consumes p -> consumes (get_n p n).
Proof.
  intros H. induction n as [|n IH]; [apply ret_consumes|].
  cbn [get_n]. apply (bind_consumes p (fun x r => do xs <- get_n p n r; Ok (x :: fst xs, snd xs))); [exact H|].
  intros x. apply (map_consumes (get_n p n) (fun l => x :: l)). exact IH.
Qed.
Lemma get_n_length {A} (p : parser A) n bs l r : get_n p n bs = Ok (l, r) -> length l = n.
Proof.
  revert bs l r. induction n as [|n IH]; intros bs l r H; cbn [get_n] in H; [now inversion H|].
  destruct (p bs) as [[x r1]|x|]; cbn in H; try discriminate.
  destruct (get_n p n r1) as [[xs r2]|x1|] eqn:E; cbn in H; try discriminate.
  inversion H; subst. cbn. f_equal. eauto.
Qed.

Lemma get_bool_emits (b : bool) : emits get_bool (le_bytes 1 (if b then 1 else 0)) b.
Proof.
  intros r. unfold get_bool. rewrite get_fixed_emits. cbn [bind fst snd]. now destruct b.
Qed.
Lemma get_bool_mono : mono get_bool.
Proof.
  apply (bind_mono (get_fixed 1) (fun x r => if x =? 0 then Ok (false, r) else if x =? 1 then Ok (true, r) else UB)).
  - apply get_fixed_mono.
  - intros bs x r _ bs' e. destruct (x =? 0); [right; reflexivity|]. destruct (x =? 1); right; reflexivity.
Qed.
Lemma get_bool_consumes : consumes get_bool.
Proof.
  apply (bind_consumes (get_fixed 1) (fun x r => if x =? 0 then Ok (false, r) else if x =? 1 then Ok (true, r) else UB)).
  - apply get_fixed_consumes.
  - intros x bs b r H. destruct (x =? 0); [inversion H; subst; now exists []|].
    destruct (x =? 1); [inversion H; subst; now exists []|discriminate].
Qed.

(** ** Integer representation *)
Lemma two_pow8_even w : (1 <= w)%nat -> two_pow8 w = 2 * (two_pow8 w / 2).
Proof.
  intros H. destruct w as [|w]; [lia|]. rewrite two_pow8_S.
  replace (256 * two_pow8 w) with (128 * two_pow8 w * 2) by lia. rewrite Z.div_mul by lia. lia.
Qed.
Lemma to_s_mod w v : (1 <= w)%nat -> fits_s w v = true -> to_s w (v mod two_pow8 w) = v.
Proof.
  intros Hw H. unfold to_s, fits_s in *. pose proof (two_pow8_pos w) as P. pose proof (two_pow8_even w Hw) as E.
  rewrite Z.mod_mod by lia.
  destruct (Z.ltb_spec v 0) as [Hn|Hn].
  - replace (v mod two_pow8 w) with (v + two_pow8 w).
    + destruct (Z.ltb_spec (v + two_pow8 w) (two_pow8 w / 2)); lia.
    + symmetry. rewrite <- (Z.mod_add v 1) by lia. rewrite Z.mod_small; lia.
  - rewrite Z.mod_small by lia. destruct (Z.ltb_spec v (two_pow8 w / 2)); lia.
Qed.

Lemma len32_mod {A} (l : list A) : len32 l = true -> Z.of_nat (length l) mod two_pow8 4 = Z.of_nat (length l).
Proof. unfold len32. intros H. apply Z.mod_small. change (two_pow8 4) with 4294967296. lia. Qed.

(** ** Maps *)
Lemma map_emplace_last lt k v l : forallb (fun p => lt (fst p) k) l = true ->
  map_emplace lt k v l = l ++ [(k, v)].
Proof.
  induction l as [|p r IH]; intros H; [reflexivity|].
  cbn [forallb] in H. apply andb_true_iff in H as [H1 H2]. cbn [map_emplace app]. rewrite H1, (IH H2). reflexivity.
Qed.

Lemma map_emplace_all lt l acc :
  sorted_by lt (map fst (acc ++ l)) = true ->
  fold_left (fun m p => map_emplace lt (fst p) (snd p) m) l acc = acc ++ l.
Proof.
  revert acc. induction l as [|p r IH]; intros acc H; [now rewrite app_nil_r|].
  cbn [fold_left]. rewrite map_emplace_last.
  - rewrite <- surjective_pairing. rewrite IH; rewrite <- app_assoc; auto.
  - clear IH. induction acc as [|q a IHa]; [reflexivity|].
    cbn [app map sorted_by] in H. apply andb_true_iff in H as [H1 H2].
    cbn [forallb]. rewrite IHa by exact H2. rewrite forallb_forall in H1.
    rewrite H1; [reflexivity|]. rewrite map_app. apply in_or_app. right. now left.
Qed.

Lemma distinct_app {A} (eqb : A -> A -> bool) a x r :
  distinct_by eqb (a ++ x :: r) = true -> existsb (fun y => eqb y x) a = false.
Proof.
  induction a as [|y a IH]; intros H; [reflexivity|].
  cbn [app distinct_by] in H. apply andb_true_iff in H as [H1 H2].
  cbn [existsb]. rewrite (IH H2). rewrite forallb_forall in H1.
  specialize (H1 x ltac:(apply in_or_app; right; now left)). apply negb_true_iff in H1. now rewrite H1.
Qed.

Lemma existsb_map {A B} (f : A -> B) (g : B -> bool) l : existsb g (map f l) = existsb (fun x => g (f x)) l.
Proof. induction l as [|x l IH]; [reflexivity|]. cbn. now rewrite IH. Qed.

Lemma umap_emplace_all eqb l acc :
  distinct_by eqb (map fst (acc ++ l)) = true ->
  fold_left (fun m p => umap_emplace eqb (fst p) (snd p) m) l acc = acc ++ l.
Proof.
  revert acc. induction l as [|p r IH]; intros acc H; [now rewrite app_nil_r|].
  cbn [fold_left]. unfold umap_emplace at 2.
  pose proof H as H'. rewrite map_app in H'. cbn [map] in H'. apply distinct_app in H'.
  rewrite existsb_map in H'. rewrite H', <- surjective_pairing, IH; rewrite <- app_assoc; auto.
Qed.
Lemma uset_emplace_all eqb l acc :
  distinct_by eqb (acc ++ l) = true ->
  fold_left (fun m x => uset_emplace eqb x m) l acc = acc ++ l.
Proof.
  revert acc. induction l as [|p r IH]; intros acc H; [now rewrite app_nil_r|].
  cbn [fold_left]. unfold uset_emplace at 2.
  rewrite (distinct_app _ _ _ _ H), IH; rewrite <- app_assoc; auto.
Qed.

(** ** Matrices *)
Lemma flat_map_length_const {A B} (f : A -> list B) n l :
  (forall x, length (f x) = n) -> length (flat_map f l) = (length l * n)%nat.
Proof. intros H. induction l as [|x l IH]; [reflexivity|]. cbn. rewrite app_length, H, IH. lia. Qed.

Lemma nth_flat_map_grid {B} (g : nat -> nat -> B) (d : B) n m s i j :
  (i < n)%nat -> (j < m)%nat ->
  nth (i * m + j) (flat_map (fun a => map (g a) (seq 0 m)) (seq s n)) d = g (s + i)%nat j.
Proof.
  revert s i. induction n as [|n IH]; intros s i Hi Hj; [lia|].
  cbn [seq flat_map]. destruct i as [|i].
  - rewrite app_nth1 by (rewrite map_length, seq_length; lia).
    rewrite Nat.add_0_r, (nth_indep _ d (g s 0%nat)) by (rewrite map_length, seq_length; lia).
    rewrite map_nth, seq_nth by lia. reflexivity.
  - rewrite app_nth2 by (rewrite map_length, seq_length; lia).
    rewrite map_length, seq_length. replace (S i * m + j - m)%nat with (i * m + j)%nat by lia.
    rewrite IH by lia. f_equal; lia.
Qed.

Lemma grid_length {B} (g : nat -> nat -> B) n m s :
  length (flat_map (fun a => map (g a) (seq 0 m)) (seq s n)) = (n * m)%nat.
Proof.
  rewrite (flat_map_length_const _ m). - now rewrite seq_length.
  - intros x. now rewrite map_length, seq_length.
Qed.

Lemma grid_ext {B} (l : list B) (d : B) n m :
  length l = (n * m)%nat ->
  flat_map (fun i => map (fun j => nth (i * m + j) l d) (seq 0 m)) (seq 0 n) = l.
Proof.
  intros H. apply (nth_ext _ _ d d).
  - rewrite (grid_length (fun i j => nth (i * m + j) l d)). lia.
  - intros k Hk. rewrite (grid_length (fun i j => nth (i * m + j) l d)) in Hk.
    assert (Hm : (0 < m)%nat) by (destruct m; lia).
    pose proof (Nat.div_mod k m ltac:(lia)) as E.
    pose proof (Nat.mod_upper_bound k m ltac:(lia)) as Hr.
    assert (Hq : (k / m < n)%nat) by (apply Nat.div_lt_upper_bound; lia).
    rewrite E at 1. rewrite (Nat.mul_comm m (k / m)).
    rewrite (nth_flat_map_grid (fun i j => nth (i * m + j) l d)) by assumption.
    cbn [Nat.add]. f_equal. lia.
Qed.

Lemma rowmajor_id r c l : 0 <= r -> 0 <= c -> Z.of_nat (length l) = r * c ->
  mat_rowmajor r c l = l /\ mat_of_rowmajor r c l = l.
Proof.
  intros Hr Hc Hl. unfold mat_rowmajor, mat_of_rowmajor, mat_at.
  assert (E : length l = (Z.to_nat r * Z.to_nat c)%nat) by nia.
  split; now apply grid_ext.
Qed.

Lemma colmajor_inv r c l : 0 <= r -> 0 <= c -> Z.of_nat (length l) = r * c ->
  mat_of_colmajor r c (mat_colmajor r c l) = l.
Proof.
  intros Hr Hc Hl. unfold mat_of_colmajor, mat_colmajor.
  assert (E : length l = (Z.to_nat r * Z.to_nat c)%nat) by nia.
  transitivity (flat_map (fun i => map (fun j => nth (i * Z.to_nat c + j) l VUnit) (seq 0 (Z.to_nat c))) (seq 0 (Z.to_nat r)));
    [|now apply grid_ext].
  apply flat_map_ext_in. intros i Hi. apply in_seq in Hi.
  apply map_ext_in. intros j Hj. apply in_seq in Hj.
  rewrite (nth_flat_map_grid (fun j i => mat_at c l i j)) by lia. reflexivity.
Qed.

Lemma colmajor_in r c l x : 0 <= r -> 0 <= c -> Z.of_nat (length l) = r * c ->
  In x (mat_colmajor r c l) -> In x l.
Proof.
  intros Hr Hc Hl H. unfold mat_colmajor in H. apply in_flat_map in H as (j & Hj & H).
  apply in_map_iff in H as (i & <- & Hi). apply in_seq in Hi, Hj. unfold mat_at. apply nth_In. nia.
Qed.
Lemma colmajor_length r c l : 0 <= r -> 0 <= c -> length (mat_colmajor r c l) = Z.to_nat (r * c).
Proof.
  intros Hr Hc. unfold mat_colmajor. rewrite (grid_length (fun j i => mat_at c l i j)). nia.
Qed.

(** ** Round trip *)
Lemma dec_pair_emits (pk pv : parser val) (ek ev : val -> list Z) p :
  emits pk (ek (fst p)) (fst p) -> emits pv (ev (snd p)) (snd p) ->
  emits (fun b => do a <- pk b; do c <- pv (snd a); Ok ((fst a, fst c), snd c)) (ek (fst p) ++ ev (snd p)) p.
Proof.
  intros H1 H2 r. rewrite <- app_assoc, H1. cbn [bind fst snd]. rewrite H2. cbn. now rewrite <- surjective_pairing.
Qed.

Ltac break_and := repeat match goal with H : _ && _ = true |- _ => apply andb_true_iff in H; destruct H end.

Lemma dec_enc t : forall v, wt t v = true -> emits (dec t) (enc t v) v.
Proof.
  induction t as [|w|w|w| |n t IH|t IH|k IHk x IHx|k IHk x IHx|k IHk|t IH|t IH| |a IHa b IHb|t IH];
    intros v Hv; destruct v as [vb|z|z|s|l|l|l|r c l| |va vb|[o|]]; try discriminate Hv; cbn [wt] in Hv; cbn [enc].
  - (* bool *) intros r. cbn [dec]. rewrite get_bool_emits. reflexivity.
  - intros r. cbn [dec]. rewrite get_fixed_emits. cbn. now rewrite fits_u_mod.
  - intros r. cbn [dec]. rewrite get_fixed_emits. cbn [bind fst snd]. rewrite to_s_mod; [reflexivity|lia|break_and; assumption].
  - intros r. cbn [dec]. rewrite get_fixed_emits. cbn. now rewrite fits_u_mod.
  - (* string *) intros r. cbn [dec]. break_and. rewrite <- app_assoc, get_fixed_emits. cbn [bind fst snd].
    rewrite len32_mod by assumption. rewrite get_block_emits. reflexivity.
  - (* array *) break_and. intros r. cbn [dec].
    match goal with H : Nat.eqb _ _ = true |- _ => apply Nat.eqb_eq in H; rewrite <- H end.
    rewrite (get_n_emits (dec t) (enc t)); [reflexivity|].
    apply Forall_forall. intros y Hy. apply IH. match goal with H : forallb _ _ = true |- _ => rewrite forallb_forall in H; auto end.
  - (* vector *) break_and. intros r. cbn [dec]. rewrite <- app_assoc, get_fixed_emits. cbn [bind fst snd].
    rewrite len32_mod, Nat2Z.id by assumption.
    rewrite (get_n_emits (dec t) (enc t)); [reflexivity|].
    apply Forall_forall. intros y Hy. apply IH. match goal with H : forallb _ _ = true |- _ => rewrite forallb_forall in H; auto end.
  - (* map *) break_and. intros r. cbn [dec]. rewrite <- app_assoc, get_fixed_emits. cbn [bind fst snd].
    rewrite len32_mod, Nat2Z.id by assumption.
    rewrite (get_n_emits _ (fun p => enc k (fst p) ++ enc x (snd p))).
    + cbn [bind fst snd]. rewrite map_emplace_all by assumption. reflexivity.
    + apply Forall_forall. intros y Hy.
      match goal with H : forallb _ _ = true |- _ => rewrite forallb_forall in H; specialize (H y Hy) end. break_and.
      apply dec_pair_emits; auto.
  - (* umap *) break_and. intros r. cbn [dec]. rewrite <- app_assoc, get_fixed_emits. cbn [bind fst snd].
    rewrite len32_mod, Nat2Z.id by assumption.
    rewrite (get_n_emits _ (fun p => enc k (fst p) ++ enc x (snd p))).
    + cbn [bind fst snd]. rewrite umap_emplace_all by assumption. reflexivity.
    + apply Forall_forall. intros y Hy.
      match goal with H : forallb _ _ = true |- _ => rewrite forallb_forall in H; specialize (H y Hy) end. break_and.
      apply dec_pair_emits; auto.
  - (* uset *) break_and. intros r. cbn [dec]. rewrite <- app_assoc, get_fixed_emits. cbn [bind fst snd].
    rewrite len32_mod, Nat2Z.id by assumption.
    rewrite (get_n_emits (dec k) (enc k)).
    + cbn [bind fst snd]. rewrite uset_emplace_all by assumption. reflexivity.
    + apply Forall_forall. intros y Hy. apply IHk. match goal with H : forallb _ _ = true |- _ => rewrite forallb_forall in H; auto end.
  - (* colmaj *) break_and. intros r0. cbn [dec]. rewrite <- !app_assoc, get_fixed_emits. cbn [bind fst snd].
    rewrite get_fixed_emits. cbn [bind fst snd].
    rewrite !to_s_mod by (try lia; unfold fits_s; change (two_pow8 8 / 2) with 9223372036854775808; unfold i64_max in *; lia).
    destruct (Z.ltb_spec r 0); [lia|]. destruct (Z.ltb_spec c 0); [lia|]. cbn [orb].
    assert (Hl : Z.of_nat (length l) = r * c) by lia.
    rewrite <- (colmajor_length r c l) by lia.
    rewrite (get_n_emits (dec t) (enc t)).
    + cbn [bind fst snd]. rewrite colmajor_inv by lia. reflexivity.
    + apply Forall_forall. intros y Hy. apply IH.
      match goal with H : forallb _ _ = true |- _ => rewrite forallb_forall in H; apply H end.
      apply (colmajor_in r c); auto; lia.
  - (* rowmaj *) break_and. intros r0. cbn [dec]. rewrite <- !app_assoc, get_fixed_emits. cbn [bind fst snd].
    rewrite get_fixed_emits. cbn [bind fst snd].
    rewrite !to_s_mod by (try lia; unfold fits_s; change (two_pow8 8 / 2) with 9223372036854775808; unfold i64_max in *; lia).
    destruct (Z.ltb_spec r 0); [lia|]. destruct (Z.ltb_spec c 0); [lia|]. cbn [orb].
    assert (Hl : Z.of_nat (length l) = r * c) by lia.
    destruct (rowmajor_id r c l) as [E1 E2]; try lia. rewrite E1.
    replace (Z.to_nat (r * c)) with (length l) by lia.
    rewrite (get_n_emits (dec t) (enc t)).
    + cbn [bind fst snd]. rewrite E2. reflexivity.
    + apply Forall_forall. intros y Hy. apply IH.
      match goal with H : forallb _ _ = true |- _ => rewrite forallb_forall in H; apply H end. exact Hy.
  - intros r. reflexivity.
  - break_and. intros r. cbn [dec]. rewrite <- app_assoc, IHa by assumption. cbn [bind fst snd].
    rewrite IHb by assumption. reflexivity.
  - intros r. cbn [dec]. rewrite <- app_assoc, (get_bool_emits true). cbn [bind fst snd].
    rewrite IH by assumption. reflexivity.
  - intros r. cbn [dec]. rewrite (get_bool_emits false). reflexivity.
Qed.

(** ** More input does not change a completed read *)
Lemma ub_mono {A} : mono (fun _ : list Z => @UB (A * list Z)).
Proof. intros bs e. right. reflexivity. Qed.
Lemma ub_consumes {A} : consumes (fun _ : list Z => @UB (A * list Z)).
Proof. intros bs x r H. discriminate. Qed.

Lemma get_fixed_nonneg w bs x r : bytes_ok bs = true -> get_fixed w bs = Ok (x, r) -> 0 <= x < two_pow8 w.
Proof.
  unfold get_fixed. destruct (Nat.ltb_spec (length bs) w) as [H|H]; [discriminate|].
  intros Hok E. inversion E; subst. pose proof (le_val_bound (firstn w bs) (bytes_ok_firstn _ _ Hok)) as B.
  rewrite firstn_length in B. replace (Nat.min w (length bs)) with w in B by lia. exact B.
Qed.

(** A negative count cannot come out of [get_fixed] on bytes; treat it uniformly. *)
Lemma get_block_mono_any n : mono (get_block n).
Proof.
  destruct (Z.leb_spec 0 n) as [H|H]; [now apply get_block_mono|].
  intros bs e. unfold get_block. destruct (Z.eqb_spec n 0); [lia|].
  destruct bs as [|b q]; [left; eauto|right].
  destruct (Z.ltb_spec (Z.of_nat (length (b :: q))) n); [lia|].
  cbn [app]. destruct (Z.ltb_spec (Z.of_nat (length (b :: (q ++ e)))) n); [lia|].
  replace (Z.to_nat n) with 0%nat by lia. reflexivity.
Qed.

Lemma pair_mono (pk pv : parser val) : mono pk -> mono pv ->
  mono (fun b => do a <- pk b; do c <- pv (snd a); Ok ((fst a, fst c), snd c)).
Proof.
  intros H1 H2. apply (bind_mono pk (fun a r => do c <- pv r; Ok ((a, fst c), snd c))); [exact H1|].
  intros _ a _ _. apply (map_mono pv (fun c => (a, c))). exact H2.
Qed.
Lemma pair_consumes (pk pv : parser val) : consumes pk -> consumes pv ->
  consumes (fun b => do a <- pk b; do c <- pv (snd a); Ok ((fst a, fst c), snd c)).
Proof.
  intros H1 H2. apply (bind_consumes pk (fun a r => do c <- pv r; Ok ((a, fst c), snd c))); [exact H1|].
  intros a. apply (map_consumes pv (fun c => (a, c))). exact H2.
Qed.

Lemma dec_mono t : mono (dec t).
Proof.
  induction t as [|w|w|w| |n t IH|t IH|k IHk x IHx|k IHk x IHx|k IHk|t IH|t IH| |a IHa b IHb|t IH]; cbn [dec].
  - apply (map_mono get_bool VBool), get_bool_mono.
  - apply (map_mono (get_fixed w) VInt), get_fixed_mono.
  - apply (map_mono (get_fixed w) (fun z => VInt (to_s w z))), get_fixed_mono.
  - apply (map_mono (get_fixed w) VFloat), get_fixed_mono.
  - apply (bind_mono (get_fixed 4) (fun n r => do s <- get_block n r; Ok (VStr (fst s), snd s))); [apply get_fixed_mono|].
    intros _ n _ _. apply (map_mono (get_block n) VStr), get_block_mono_any.
  - apply (map_mono (get_n (dec t) n) VList), get_n_mono, IH.
  - apply (bind_mono (get_fixed 4) (fun n r => do xs <- get_n (dec t) (Z.to_nat n) r; Ok (VList (fst xs), snd xs)));
      [apply get_fixed_mono|].
    intros _ n _ _. apply (map_mono (get_n (dec t) (Z.to_nat n)) VList), get_n_mono, IH.
  - apply (bind_mono (get_fixed 4) (fun n r => do xs <- get_n _ (Z.to_nat n) r; Ok (VMap (fold_left _ (fst xs) []), snd xs)));
      [apply get_fixed_mono|].
    intros _ n _ _.
    apply (map_mono (get_n _ (Z.to_nat n)) (fun l => VMap (fold_left (fun m p => map_emplace (key_lt k) (fst p) (snd p) m) l []))).
    apply get_n_mono, pair_mono; assumption.
  - apply (bind_mono (get_fixed 4) (fun n r => do xs <- get_n _ (Z.to_nat n) r; Ok (VMap (fold_left _ (fst xs) []), snd xs)));
      [apply get_fixed_mono|].
    intros _ n _ _.
    apply (map_mono (get_n _ (Z.to_nat n)) (fun l => VMap (fold_left (fun m p => umap_emplace (key_eq k) (fst p) (snd p) m) l []))).
    apply get_n_mono, pair_mono; assumption.
  - apply (bind_mono (get_fixed 4) (fun n r => do xs <- get_n _ (Z.to_nat n) r; Ok (VSet (fold_left _ (fst xs) []), snd xs)));
      [apply get_fixed_mono|].
    intros _ n _ _.
    apply (map_mono (get_n _ (Z.to_nat n)) (fun l => VSet (fold_left (fun m x => uset_emplace (key_eq k) x m) l []))).
    apply get_n_mono; assumption.
  - apply (bind_mono (get_fixed 8) (fun r b => do c <- get_fixed 8 b;
                  if (to_s 8 r <? 0) || (to_s 8 (fst c) <? 0) then UB
                  else do xs <- get_n (dec t) (Z.to_nat (to_s 8 r * to_s 8 (fst c))) (snd c);
                       Ok (VMat (to_s 8 r) (to_s 8 (fst c)) (mat_of_colmajor (to_s 8 r) (to_s 8 (fst c)) (fst xs)), snd xs)));
      [apply get_fixed_mono|].
    intros _ r _ _.
    apply (bind_mono (get_fixed 8) (fun c b => if (to_s 8 r <? 0) || (to_s 8 c <? 0) then UB
                  else do xs <- get_n (dec t) (Z.to_nat (to_s 8 r * to_s 8 c)) b;
                       Ok (VMat (to_s 8 r) (to_s 8 c) (mat_of_colmajor (to_s 8 r) (to_s 8 c) (fst xs)), snd xs)));
      [apply get_fixed_mono|].
    intros _ c _ _. destruct (_ || _); [apply ub_mono|].
    apply (map_mono (get_n (dec t) _) (fun l => VMat (to_s 8 r) (to_s 8 c) (mat_of_colmajor (to_s 8 r) (to_s 8 c) l))).
    apply get_n_mono, IH.
  - apply (bind_mono (get_fixed 8) (fun r b => do c <- get_fixed 8 b;
                  if (to_s 8 r <? 0) || (to_s 8 (fst c) <? 0) then UB
                  else do xs <- get_n (dec t) (Z.to_nat (to_s 8 r * to_s 8 (fst c))) (snd c);
                       Ok (VMat (to_s 8 r) (to_s 8 (fst c)) (mat_of_rowmajor (to_s 8 r) (to_s 8 (fst c)) (fst xs)), snd xs)));
      [apply get_fixed_mono|].
    intros _ r _ _.
    apply (bind_mono (get_fixed 8) (fun c b => if (to_s 8 r <? 0) || (to_s 8 c <? 0) then UB
                  else do xs <- get_n (dec t) (Z.to_nat (to_s 8 r * to_s 8 c)) b;
                       Ok (VMat (to_s 8 r) (to_s 8 c) (mat_of_rowmajor (to_s 8 r) (to_s 8 c) (fst xs)), snd xs)));
      [apply get_fixed_mono|].
    intros _ c _ _. destruct (_ || _); [apply ub_mono|].
    apply (map_mono (get_n (dec t) _) (fun l => VMat (to_s 8 r) (to_s 8 c) (mat_of_rowmajor (to_s 8 r) (to_s 8 c) l))).
    apply get_n_mono, IH.
  - apply ret_mono.
  - apply (bind_mono (dec a) (fun x r => do y <- dec b r; Ok (VPair x (fst y), snd y))); [exact IHa|].
    intros _ x _ _. apply (map_mono (dec b) (VPair x)), IHb.
  - apply (bind_mono get_bool (fun x r => if x then do y <- dec t r; Ok (VOpt (Some (fst y)), snd y) else Ok (VOpt None, r)));
      [apply get_bool_mono|].
    intros _ x _ _. destruct x; [|apply ret_mono]. apply (map_mono (dec t) (fun y => VOpt (Some y))), IH.
Qed.

(** ** Consequences *)
Lemma dec_roundtrip t v r : wt t v = true -> dec t (enc t v ++ r) = Ok (v, r).
Proof. intros H. now apply dec_enc. Qed.

Lemma dec_truncated t v p s : wt t v = true -> enc t v = p ++ s -> s <> [] -> throws (dec t p).
Proof.
  intros Hv E Hs.
  pose proof (dec_roundtrip t v [] Hv) as R. rewrite app_nil_r, E in R.
  destruct (dec_mono t p s) as [T|M]; [exact T|].
  rewrite M in R. destruct (dec t p) as [[x r]|e|]; cbn in R; try discriminate.
  inversion R as [[H1 H2]]. apply app_eq_nil in H2 as [_ H2]. contradiction.
Qed.

Lemma enc_prefix_free t v1 v2 s : wt t v1 = true -> wt t v2 = true -> enc t v2 = enc t v1 ++ s -> v1 = v2 /\ s = [].
Proof.
  intros H1 H2 E.
  pose proof (dec_roundtrip t v1 s H1) as R1. rewrite <- E in R1.
  pose proof (dec_roundtrip t v2 [] H2) as R2. rewrite app_nil_r in R2.
  rewrite R2 in R1. inversion R1. auto.
Qed.

Lemma enc_bytes_ok t : forall v, wt t v = true -> bytes_ok (enc t v) = true.
Proof.
  assert (FM : forall A (f : A -> list Z) l, (forall x, In x l -> bytes_ok (f x) = true) -> bytes_ok (flat_map f l) = true).
  { intros A f l. induction l as [|x l IH]; intros H; [reflexivity|]. cbn [flat_map]. rewrite bytes_ok_app.
    rewrite H by now left. rewrite IH; [reflexivity|]. intros y Hy. apply H. now right. }
  induction t as [|w|w|w| |n t IH|t IH|k IHk x IHx|k IHk x IHx|k IHk|t IH|t IH| |a IHa b IHb|t IH];
    intros v Hv; destruct v as [vb|z|z|s|l|l|l|r c l| |va vb|[o|]]; try discriminate Hv; cbn [wt] in Hv; cbn [enc]; break_and;
    rewrite ?bytes_ok_app, ?le_bytes_bytes_ok; cbn [andb]; try reflexivity.
  - assumption.
  - apply FM. intros y Hy. apply IH. match goal with H : forallb _ _ = true |- _ => rewrite forallb_forall in H; auto end.
  - apply FM. intros y Hy. apply IH. match goal with H : forallb _ _ = true |- _ => rewrite forallb_forall in H; auto end.
  - apply FM. intros y Hy. match goal with H : forallb _ _ = true |- _ => rewrite forallb_forall in H; specialize (H y Hy) end.
    break_and. rewrite bytes_ok_app, IHk, IHx by assumption. reflexivity.
  - apply FM. intros y Hy. match goal with H : forallb _ _ = true |- _ => rewrite forallb_forall in H; specialize (H y Hy) end.
    break_and. rewrite bytes_ok_app, IHk, IHx by assumption. reflexivity.
  - apply FM. intros y Hy. apply IHk. match goal with H : forallb _ _ = true |- _ => rewrite forallb_forall in H; auto end.
  - apply FM. intros y Hy. apply IH. match goal with H : forallb _ _ = true |- _ => rewrite forallb_forall in H; apply H end.
    apply (colmajor_in r c); auto; lia.
  - destruct (rowmajor_id r c l) as [E1 _]; try lia. rewrite E1.
    apply FM. intros y Hy. apply IH. match goal with H : forallb _ _ = true |- _ => rewrite forallb_forall in H; auto end.
  - rewrite IHa, IHb by assumption. reflexivity.
  - apply IH. assumption.
Qed.

(** The 2^32 limit is real: a longer string does not survive. *)
Lemma string_too_long_gen s : Z.of_nat (length s) = 4294967296 -> dec TString (enc TString (VStr s)) <> Ok (VStr s, []).
Proof.
  intros Hs. cbn [enc]. rewrite Hs. cbn [dec]. rewrite get_fixed_emits. cbn [bind fst snd].
  change (4294967296 mod two_pow8 4) with 0. unfold get_block. cbn [Z.eqb bind fst snd].
  intros H. inversion H as [[H1 H2]]. subst s. cbn in Hs. lia.
Qed.
Lemma long_string_exists n : 0 <= n -> exists s, bytes_ok s = true /\ Z.of_nat (length s) = n.
Proof.
  intros Hn. exists (repeat 0 (Z.to_nat n)). split.
  - unfold bytes_ok. rewrite forallb_forall. intros x Hx. apply repeat_spec in Hx. now subst.
  - rewrite repeat_length. now apply Z2Nat.id.
Qed.
Lemma string_too_long : exists s, bytes_ok s = true /\ Z.of_nat (length s) = 4294967296 /\
  dec TString (enc TString (VStr s)) <> Ok (VStr s, []).
Proof.
  destruct (long_string_exists 4294967296 ltac:(lia)) as (s & H1 & H2).
  exists s. split; [exact H1|]. split; [exact H2|]. now apply string_too_long_gen.
Qed.

(** ** C05 *)
Lemma sysdur_roundtrip p ticks r : 0 < p -> in_i64 ticks = true ->
  dec_sysdur p (enc_sysdur p ticks ++ r) = Ok (Z.quot ticks p * p, r).
Proof.
  intros Hp Hi. unfold in_i64, i64_min, i64_max in Hi.
  assert (Hq : -9223372036854775808 <= Z.quot ticks p <= 9223372036854775807
               /\ -9223372036854775808 <= Z.quot ticks p * p <= 9223372036854775807).
  { pose proof (Z.quot_rem' ticks p) as E.
    destruct (Z.leb_spec 0 ticks).
    - pose proof (Z.rem_bound_pos ticks p). pose proof (Z.quot_pos ticks p). nia.
    - pose proof (Z.rem_bound_neg_pos ticks p).
      assert (Z.quot ticks p <= 0). { rewrite <- (Z.opp_involutive ticks), Z.quot_opp_l by lia. pose proof (Z.quot_pos (-ticks) p). lia. }
      nia. }
  unfold dec_sysdur, enc_sysdur.
  destruct (Z.eqb_spec p 1) as [->|Hne].
  - rewrite dec_roundtrip. + cbn [bind fst snd]. rewrite Z.quot_1_r. unfold in_i64, i64_min, i64_max.
      destruct (Z.leb_spec (-9223372036854775808) (ticks * 1)); [|lia].
      destruct (Z.leb_spec (ticks * 1) 9223372036854775807); [|lia]. reflexivity.
    + cbn [wt]. unfold fits_s. change (two_pow8 8 / 2) with 9223372036854775808. lia.
  - rewrite dec_roundtrip. + cbn [bind fst snd]. unfold in_i64, i64_min, i64_max.
      destruct (Z.leb_spec (-9223372036854775808) (Z.quot ticks p * p)); [|lia].
      destruct (Z.leb_spec (Z.quot ticks p * p) 9223372036854775807); [|lia]. reflexivity.
    + cbn [wt]. unfold fits_s. change (two_pow8 8 / 2) with 9223372036854775808. lia.
Qed.

Lemma systp_roundtrip q ticks r : 0 < q -> in_i64 ticks = true ->
  dec_systp q (enc_systp q ticks ++ r) = Ok (Z.quot ticks q * q, r).
Proof.
  intros Hq Hi. destruct (Z.eqb_spec q 1) as [->|Hne].
  - pose proof (sysdur_roundtrip 1 ticks r ltac:(lia) Hi) as H.
    unfold dec_systp, enc_systp. unfold dec_sysdur, enc_sysdur in H. rewrite Z.quot_1_r in *. exact H.
  - pose proof (sysdur_roundtrip q ticks r Hq Hi) as H.
    unfold dec_systp, enc_systp. unfold dec_sysdur, enc_sysdur in H.
    destruct (Z.eqb_spec q 1); [lia|exact H].
Qed.

(** Truncation toward zero, in words. *)
Lemma quot_mul_spec t p : 0 < p ->
  let t' := Z.quot t p * p in
  (p | t') /\ Z.abs (t - t') < p /\ (0 <= t -> 0 <= t' <= t) /\ (t <= 0 -> t <= t' <= 0) /\ ((p | t) -> t' = t).
Proof.
  intros Hp t'. unfold t'. pose proof (Z.quot_rem' t p) as E.
  assert (E' : t - Z.quot t p * p = Z.rem t p) by lia.
  repeat split.
  - exists (Z.quot t p). reflexivity.
  - rewrite E'. pose proof (Z.rem_bound_abs t p). lia.
  - pose proof (Z.quot_pos t p). nia.
  - pose proof (Z.rem_bound_pos t p). lia.
  - pose proof (Z.rem_bound_neg_pos t p). destruct (Z.eqb_spec t 0) as [->|]; [cbn; lia|]. lia.
  - assert (Z.quot t p <= 0). { rewrite <- (Z.opp_involutive t), Z.quot_opp_l by lia. pose proof (Z.quot_pos (-t) p). lia. } nia.
  - intros [k ->]. rewrite Z.quot_mul by lia. reflexivity.
Qed.
