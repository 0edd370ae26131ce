(** Sets of terms and document counts. *)
From Verif Require Import Base L_List M_Estimator M_Stats S_Stats L_Estimator L_Stats L_Stats3 M_String M_Text S_Text L_Text L_Text2 L_Text3
  M_Grain S_Keyed L_Grain4 M_Scale M_Docs S_Docs.

Lemma str_order : total_order str_eqb str_lt.
Proof. destruct (lex_order Z Z.eqb Z.ltb z_key_order) as (a & b & c & d). repeat split; auto; apply a. Qed.
Lemma str_eqb_eq x y : str_eqb x y = true <-> x = y.
Proof. apply str_order. Qed.
Lemma str_eqb_refl x : str_eqb x x = true.
Proof. apply str_eqb_eq. reflexivity. Qed.
Lemma str_lt_irr x : str_lt x x = false. Proof. apply str_order. Qed.
Lemma str_lt_trans x y z : str_lt x y = true -> str_lt y z = true -> str_lt x z = true. Proof. apply str_order. Qed.
Lemma str_lt_total x y : str_lt x y = false -> str_lt y x = false -> x = y. Proof. apply str_order. Qed.

Lemma to_s1_inj x y : byte_ok x = true -> byte_ok y = true -> to_s 1 x = to_s 1 y -> x = y.
Proof.
  unfold byte_ok, to_s, two_pow8. change (256 ^ Z.of_nat 1) with 256. change (256 / 2) with 128. intros Hx Hy.
  rewrite !Z.mod_small by lia. destruct (Z.ltb_spec x 128), (Z.ltb_spec y 128); lia.
Qed.
Lemma chars_lt_irr x : chars_lt x x = false.
Proof. induction x as [|c x IH]; [reflexivity|]. cbn. rewrite Z.ltb_irrefl. exact IH. Qed.
Lemma chars_lt_trans : forall x y z, chars_lt x y = true -> chars_lt y z = true -> chars_lt x z = true.
Proof.
  induction x as [|a x IH]; intros [|b y] [|c z]; cbn; try discriminate.
  destruct (Z.ltb_spec (to_s 1 b) (to_s 1 a)); [discriminate|].
  destruct (Z.ltb_spec (to_s 1 a) (to_s 1 b)); destruct (Z.ltb_spec (to_s 1 c) (to_s 1 b)); try discriminate;
    destruct (Z.ltb_spec (to_s 1 b) (to_s 1 c)); destruct (Z.ltb_spec (to_s 1 c) (to_s 1 a)); try lia;
    destruct (Z.ltb_spec (to_s 1 a) (to_s 1 c)); try lia; auto.
  eauto.
Qed.
Lemma chars_lt_total : forall x y, length x = length y -> bytes_ok x = true -> bytes_ok y = true ->
  chars_lt x y = false -> chars_lt y x = false -> x = y.
Proof.
  induction x as [|a x IH]; intros [|b y] H Hx Hy; try (cbn [length] in H; lia); [reflexivity|].
  cbn [length bytes_ok forallb chars_lt] in *. apply andb_true_iff in Hx, Hy. destruct Hx as (Ha & Hx), Hy as (Hb & Hy).
  intros H1 H2.
  destruct (Z.ltb_spec (to_s 1 b) (to_s 1 a)); destruct (Z.ltb_spec (to_s 1 a) (to_s 1 b)); try discriminate; try lia.
  f_equal; [apply to_s1_inj; auto; lia|]. apply IH; auto.
Qed.
Lemma range_lt_irr x : range_lt x x = false.
Proof. unfold range_lt. rewrite Nat.ltb_irrefl. apply chars_lt_irr. Qed.
Lemma range_lt_trans x y z : range_lt x y = true -> range_lt y z = true -> range_lt x z = true.
Proof.
  unfold range_lt. destruct (Nat.ltb_spec (length x) (length y)); destruct (Nat.ltb_spec (length y) (length x)); try lia;
    destruct (Nat.ltb_spec (length y) (length z)); destruct (Nat.ltb_spec (length z) (length y)); try lia; try discriminate;
    destruct (Nat.ltb_spec (length x) (length z)); destruct (Nat.ltb_spec (length z) (length x)); try lia; auto; try discriminate.
  apply chars_lt_trans.
Qed.
Lemma range_lt_total x y : bytes_ok x = true -> bytes_ok y = true -> range_lt x y = false -> range_lt y x = false -> x = y.
Proof.
  intros Hx Hy. unfold range_lt. destruct (Nat.ltb_spec (length x) (length y)); [discriminate|].
  destruct (Nat.ltb_spec (length y) (length x)); [discriminate|]. apply chars_lt_total; auto. lia.
Qed.

(** std::set and std::map for an order that is total on a domain. *)
Section Sets.
  Context {A : Type}.
  Variable lt : A -> A -> bool.
  Variable D : A -> Prop.
  Hypothesis Hirr : forall x, lt x x = false.
  Hypothesis Htr : forall x y z, lt x y = true -> lt y z = true -> lt x z = true.
  Hypothesis Htot : forall x y, D x -> D y -> lt x y = false -> lt y x = false -> x = y.
  Notation sorted := (StronglySorted (fun a b => lt a b = true)).

  Lemma set_insert_in x l : D x -> Forall D l -> forall z, In z (set_insert lt x l) <-> z = x \/ In z l.
  Proof using Htot.
    intros Hx. induction l as [|y r IH]; intros Hl z; cbn [set_insert]; [cbn; intuition|].
    inversion Hl; subst. destruct (lt x y) eqn:E1; [cbn; intuition|]. destruct (lt y x) eqn:E2.
    - cbn [In]. rewrite IH by auto. intuition.
    - rewrite (Htot x y) by auto. cbn. intuition.
  Qed.
  Lemma set_insert_sorted x l : D x -> Forall D l -> sorted l -> sorted (set_insert lt x l).
  Proof using Htr Htot.
    intros Hx. induction l as [|y r IH]; intros Hl Hs; cbn [set_insert]; [repeat constructor|].
    inversion Hl; subst. inversion Hs; subst. rewrite Forall_forall in H4. destruct (lt x y) eqn:E1.
    - constructor; [exact Hs|]. apply Forall_forall. intros z [<-|Hz]; auto. eauto.
    - destruct (lt y x) eqn:E2; [|exact Hs]. constructor; auto. apply Forall_forall. intros z Hz.
      apply set_insert_in in Hz; auto. destruct Hz as [->|Hz]; auto.
  Qed.
  Lemma set_build l : Forall D l -> forall acc, Forall D acc -> sorted acc ->
    let s := fold_left (fun acc t => set_insert lt t acc) l acc in
    sorted s /\ Forall D s /\ forall z, In z s <-> In z l \/ In z acc.
  Proof using Htr Htot.
    induction l as [|x l IH]; intros Hl acc Ha Hs; cbn [fold_left]; [cbn; intuition|].
    inversion Hl; subst. cbv zeta.
    assert (Hd : Forall D (set_insert lt x acc)).
    { apply Forall_forall. intros z Hz. apply set_insert_in in Hz; auto. rewrite Forall_forall in Ha. destruct Hz as [->|]; auto. }
    destruct (IH H2 (set_insert lt x acc) Hd (set_insert_sorted x acc H1 Ha Hs)) as (S1 & S2 & S3).
    split; [exact S1|]. split; [exact S2|]. intro z. rewrite S3, set_insert_in by auto. cbn [In]. intuition.
  Qed.
  Lemma sorted_nodup l : sorted l -> NoDup l.
  Proof using Hirr.
    induction 1 as [|x l Hs IH Hx]; constructor; auto. intro H. rewrite Forall_forall in Hx. specialize (Hx _ H).
    rewrite Hirr in Hx. discriminate.
  Qed.

  (** Counting. *)
  Variable eqb : A -> A -> bool.
  Hypothesis Heq : forall x y, eqb x y = true <-> x = y.
  Notation csorted := (StronglySorted (fun a b : A * Z => lt (fst a) (fst b) = true)).
  Definition counts_inv (l : list A) (m : list (A * Z)) : Prop :=
    csorted m /\ Forall (fun e => D (fst e)) m /\ (forall z, In z (map fst m) <-> In z l) /\
    forall z c, In (z, c) m -> c = u32 (occ eqb z l).

  Lemma count_insert_keys x m : D x -> Forall (fun e => D (fst e)) m ->
    map fst (count_insert lt x m) = set_insert lt x (map fst m).
  Proof using Type.
    intros Hx. induction m as [|(y, c) r IH]; intros Hm; cbn [count_insert set_insert map fst]; [reflexivity|].
    inversion Hm; subst. destruct (lt x y); [reflexivity|]. destruct (lt y x); cbn [map fst]; [rewrite IH; auto|reflexivity].
  Qed.
  Lemma csorted_keys m : csorted m <-> sorted (map fst m).
  Proof using Type.
    induction m as [|e m IH]; cbn [map]; split; intro H; try constructor; inversion H; subst; try (apply IH; auto).
    - rewrite Forall_forall in *. intros z Hz. apply in_map_iff in Hz. destruct Hz as (w & <- & Hw). auto.
    - rewrite Forall_forall in *. intros w Hw. apply H3. apply in_map. auto.
  Qed.
  Lemma count_insert_in x m : D x -> Forall (fun e => D (fst e)) m -> csorted m ->
    forall z c, In (z, c) (count_insert lt x m) ->
      (z = x /\ ((~ In x (map fst m) /\ c = 1) \/ exists c', In (x, c') m /\ c = u32 (c' + 1))) \/ (z <> x /\ In (z, c) m).
  Proof using Hirr Htr Htot.
    intros Hx. induction m as [|(y, c0) r IH]; intros Hm Hs z c H; cbn [count_insert] in H.
    - destruct H as [H|[]]. injection H as <- <-. left. cbn. split; auto.
    - inversion Hm; subst. inversion Hs; subst. rewrite Forall_forall in H5. cbn [fst] in *. destruct (lt x y) eqn:E1.
      + assert (Hn : ~ In x (map fst ((y, c0) :: r))).
        { cbn [map fst]. intros [->|Hin]; [congruence|]. apply in_map_iff in Hin. destruct Hin as (w & E & Hw).
          specialize (H5 _ Hw). rewrite E in H5. pose proof (Htr x y x E1 H5). congruence. }
        destruct H as [H|H].
        * injection H as <- <-. left. auto.
        * right. split; [|exact H]. intros ->. apply Hn. apply (in_map fst) in H. exact H.
      + destruct (lt y x) eqn:E2.
        * destruct H as [H|H].
          -- injection H as <- <-. right. split; [congruence|left; auto].
          -- destruct (IH ltac:(assumption) H4 z c H) as [(-> & [(Hn & ->)|(c' & Hc & ->)])|(Hz & Hin)].
             ++ left. split; auto. left. split; auto. cbn. intros [E|Hi]; [subst; congruence|]. contradiction.
             ++ left. split; auto. right. exists c'. split; auto. right; auto.
             ++ right. split; auto. right; auto.
        * assert (x = y) by (apply Htot; auto). subst y. destruct H as [H|H].
          -- injection H as <- <-. left. split; auto. right. exists c0. split; auto. left; auto.
          -- right. split; [|right; auto]. intros ->. specialize (H5 _ H). cbn in H5. congruence.
  Qed.
  Lemma counts_step l m x : D x -> counts_inv l m -> counts_inv (l ++ [x]) (count_insert lt x m).
  Proof using Hirr Htr Htot Heq.
    intros Hx (S1 & S2 & S3 & S4).
    assert (HD : Forall D (map fst m)).
    { apply Forall_forall. intros z Hz. apply in_map_iff in Hz. destruct Hz as (w & <- & Hw). rewrite Forall_forall in S2. auto. }
    pose proof (proj1 (csorted_keys m) S1) as Sk.
    split; [|split; [|split]].
    - apply csorted_keys. rewrite count_insert_keys by auto. apply set_insert_sorted; auto.
    - apply Forall_forall. intros e He. apply (in_map fst) in He. rewrite count_insert_keys in He by auto.
      apply set_insert_in in He; auto. rewrite Forall_forall in HD. destruct He as [->|He]; auto.
    - intro z. rewrite count_insert_keys, set_insert_in, S3, in_app_iff by auto. cbn. intuition.
    - intros z c Hz. apply count_insert_in in Hz; auto. rewrite (occ_app eqb Heq).
      destruct Hz as [(-> & [(Hn & ->)|(c' & Hc & ->)])|(Hne & Hin)].
      + rewrite (occ_zero eqb Heq); [|rewrite <- S3; auto]. unfold occ. cbn [filter]. rewrite (proj2 (Heq x x) eq_refl). reflexivity.
      + rewrite (S4 _ _ Hc). unfold occ at 3. cbn [filter]. rewrite (proj2 (Heq x x) eq_refl). cbn [length].
        unfold u32. rewrite Zplus_mod_idemp_l. reflexivity.
      + rewrite (S4 _ _ Hin). unfold occ at 3. cbn [filter]. destruct (eqb z x) eqn:E; [apply Heq in E; contradiction|].
        cbn. rewrite Z.add_0_r. reflexivity.
  Qed.
  Lemma counts_build l : Forall D l -> forall l0 m, counts_inv l0 m ->
    counts_inv (l0 ++ l) (fold_left (fun m x => count_insert lt x m) l m).
  Proof using Hirr Htr Htot Heq.
    induction l as [|x l IH]; intros Hl l0 m Hm; cbn [fold_left]; [rewrite app_nil_r; auto|].
    inversion Hl; subst. replace (l0 ++ x :: l) with ((l0 ++ [x]) ++ l) by (rewrite <- app_assoc; reflexivity).
    apply IH; auto. apply counts_step; auto.
  Qed.
  Lemma counts_all l : Forall D l -> counts_inv l (fold_left (fun m x => count_insert lt x m) l []).
  Proof using Hirr Htr Htot Heq.
    intro H. apply (counts_build l H [] []). split; [constructor|]. split; [constructor|]. split; [cbn; tauto|]. intros z c [].
  Qed.
End Sets.
