(** C81: imputers and scalers. *)
From Coq Require Import Reals Lra.
From Flocq Require Import Core.Core IEEE754.BinarySingleNaN.
From Verif Require Import Base L_List M_Archive M_Estimator M_Stats M_Encoders M_Impute M_Scale M_FloatStats M_Pipeline M_Featurizer M_Recipes
  S_Stats S_Impute S_FloatStats S_Scale S_Window S_Featurizer S_Order L_Estimator L_Stats L_Stats2 L_Stats3 L_Featurizer L_Encoders L_Impute L_Float L_FloatStats6
  L_Recipes L_Recipes2 L_Recipes3 L_Recipes4 L_Recipes5 L_Order.
Close Scope R_scope.

Lemma occ_perm {T} (eqb : T -> T -> bool) x l l' : Permutation l l' -> occ eqb x l = occ eqb x l'.
Proof.
  intros P. unfold occ. f_equal. apply Permutation_length. induction P; cbn; [constructor| | |etransitivity; eassumption].
  - destruct (eqb x x0); [now constructor|assumption].
  - destruct (eqb x x0), (eqb x y); try reflexivity. apply perm_swap.
Qed.
Lemma flat_map_perm {A B} (f : A -> list B) l l' : Permutation l l' -> Permutation (flat_map f l) (flat_map f l').
Proof.
  intros P. induction P; cbn [flat_map]; [constructor|now apply Permutation_app_head| |etransitivity; eassumption].
  rewrite !app_assoc. apply Permutation_app_tail, Permutation_app_comm.
Qed.
Lemma somes_perm {T} (l l' : list (option T)) : Permutation l l' -> Permutation (somes l) (somes l').
Proof. apply flat_map_perm. Qed.
Lemma zsum_perm l l' : Permutation l l' -> zsum l = zsum l'.
Proof. intros P. unfold zsum. induction P; cbn [fold_right]; lia. Qed.

(** ** The most frequent value. *)
Section Mode.
  Context {T : Type}.
  Variables (eqb : T -> T -> bool) (order : list (option T * Z) -> list (option T * Z)).
  Hypothesis Heq : forall x y, eqb x y = true <-> x = y.
  Hypothesis Horder : forall h, Permutation h (order h).
  Notation e := (oeqb eqb).
  Lemma mode_alike (col mx : nat) (bs bs' : list (list (option T))) (a : ann_maps (fnote (option T) T T)) : bare a col -> shuffled mx bs bs' ->
    Z.of_nat (length (items mx bs)) < 2 ^ 32 ->
    (forall v w, most_frequent e (items mx bs) v -> most_frequent e (items mx bs) w -> v = w) ->
    trains_alike same_output col (mode_recipe e order col not_null cat_imputer mx) a bs bs' /\
    trains_alike same_output col (mode_recipe e order col not_null mode_imputer mx) a bs bs'.
  Proof using All.
    intros Hb (T1 & T2 & N1 & N2 & Pm) Hlen Hu.
    assert (Hlen' : Z.of_nat (length (items mx bs')) < 2 ^ 32) by (rewrite <- (Permutation_length Pm); exact Hlen).
    pose proof (somes_perm _ _ Pm) as Ps.
    destruct (somes (items mx bs)) as [|u r] eqn:S.
    - apply Permutation_nil in Ps.
      split; apply (alike_throw _ _ _ _ _ _ RuntimeError);
        [exact (mode_none eqb order Heq Horder col mx bs a Hb T1 N1 cat_imputer Hlen S)|exact (mode_none eqb order Heq Horder col mx bs' a Hb T2 N2 cat_imputer Hlen' Ps)
        |exact (mode_none eqb order Heq Horder col mx bs a Hb T1 N1 mode_imputer Hlen S)|exact (mode_none eqb order Heq Horder col mx bs' a Hb T2 N2 mode_imputer Hlen' Ps)].
    - destruct (mode_featurizer eqb order Heq Horder col mx bs a Hb T1 N1 Hlen) as (v & V1 & V2 & tc & tm & C1 & C2 & C3); [rewrite S; discriminate|].
      destruct (mode_featurizer eqb order Heq Horder col mx bs' a Hb T2 N2 Hlen') as (v' & V1' & V2' & tc' & tm' & C1' & C2' & C3').
      { intros E. rewrite E in Ps. apply Permutation_sym, Permutation_nil in Ps. discriminate Ps. }
      assert (v = v') as <-.
      { apply Hu; split; [exact V1|intros w Hw; apply (V2 w Hw)|eapply Permutation_in; [apply Permutation_sym; exact Pm|exact V1']|].
        intros w Hw. rewrite (occ_perm e (Some w) _ _ Pm), (occ_perm e (Some v') _ _ Pm). apply (V2' w). eapply Permutation_in; [exact Pm|exact Hw]. }
      split; [apply (alike_one _ _ _ _ _ _ tc tc' C1 C1')|apply (alike_one _ _ _ _ _ _ tm tm' C2 C2')]; intros l.
      + destruct (C3 l) as [-> _], (C3' l) as [-> _]. reflexivity.
      + destruct (C3 l) as [_ ->], (C3' l) as [_ ->]. reflexivity.
  Qed.
End Mode.

(** ** Minimum and maximum. *)
Section MinMax.
  Context {T : Type}.
  Variable ltb : T -> T -> bool.
  Hypothesis Hirr : forall x, ltb x x = false.
  Hypothesis Htr : forall x y z, ltb x y = true -> ltb y z = true -> ltb x z = true.
  Hypothesis Htot : forall x y, ltb x y = false -> ltb y x = false -> x = y.
  Definition lower (m x : T) : T := if ltb x m then x else m.
  Definition upper (m x : T) : T := if ltb m x then x else m.
  Lemma nlt_trans x y z : ltb x y = false -> ltb y z = false -> ltb x z = false.
  Proof using Htr Htot.
    intros A B. destruct (ltb x z) eqn:C; [|reflexivity]. destruct (ltb y x) eqn:D.
    - rewrite (Htr y x z D C) in B. discriminate B.
    - rewrite (Htot x y A D) in C. congruence.
  Qed.
  Lemma lower_comm m x y : lower (lower m x) y = lower (lower m y) x.
  Proof using Hirr Htr Htot.
    unfold lower. destruct (ltb x m) eqn:A; destruct (ltb y m) eqn:B; rewrite ?A, ?B; [| | |reflexivity].
    - destruct (ltb y x) eqn:C, (ltb x y) eqn:D; [|reflexivity|reflexivity|now apply Htot].
      pose proof (Htr _ _ _ C D) as X. rewrite Hirr in X. discriminate X.
    - destruct (ltb y x) eqn:C; [|reflexivity]. rewrite (Htr _ _ _ C A) in B. discriminate B.
    - destruct (ltb x y) eqn:C; [|reflexivity]. rewrite (Htr _ _ _ C B) in A. discriminate A.
  Qed.
  Lemma upper_comm m x y : upper (upper m x) y = upper (upper m y) x.
  Proof using Hirr Htr Htot.
    unfold upper. destruct (ltb m x) eqn:A; destruct (ltb m y) eqn:B; rewrite ?A, ?B; [| | |reflexivity].
    - destruct (ltb x y) eqn:C, (ltb y x) eqn:D; [|reflexivity|reflexivity|now apply Htot].
      pose proof (Htr _ _ _ C D) as X. rewrite Hirr in X. discriminate X.
    - destruct (ltb x y) eqn:C; [|reflexivity]. rewrite (Htr _ _ _ A C) in B. discriminate B.
    - destruct (ltb y x) eqn:C; [|reflexivity]. rewrite (Htr _ _ _ B C) in A. discriminate A.
  Qed.
  Lemma minmax_perm lo hi mx (bs bs' : list (list T)) : shuffled mx bs bs' -> trained (minmax_policy ltb lo hi) mx bs = trained (minmax_policy ltb lo hi) mx bs'.
  Proof using Hirr Htr Htot.
    intros (T1 & T2 & _ & _ & Pm). unfold minmax_policy. rewrite !trained_simple by assumption.
    rewrite (foldM_perm (minmax_fit ltb) (fun _ => True) (fun _ => True)) with (l' := items mx bs'); try exact Pm; try exact Logic.I; [reflexivity| | |].
    - intros; exact Logic.I.
    - intros s x y _ _ _. unfold minmax_fit. cbn [bind fst snd]. f_equal. f_equal; [apply lower_comm|apply upper_comm].
    - apply Forall_forall. intros; exact Logic.I.
  Qed.
  Definition mm_upd (s : option (T * T)) (x : T) : T * T := match s with None => (x, x) | Some (mn, mx) => (lower mn x, upper mx x) end.
  Lemma lower_both x y : lower x y = lower y x.
  Proof using Hirr Htr Htot.
    unfold lower. destruct (ltb x y) eqn:A, (ltb y x) eqn:B; [|reflexivity|reflexivity|symmetry; now apply Htot].
    pose proof (Htr _ _ _ A B) as X. rewrite Hirr in X. discriminate X.
  Qed.
  Lemma upper_both x y : upper x y = upper y x.
  Proof using Hirr Htr Htot.
    unfold upper. destruct (ltb x y) eqn:A, (ltb y x) eqn:B; [|reflexivity|reflexivity|now apply Htot].
    pose proof (Htr _ _ _ A B) as X. rewrite Hirr in X. discriminate X.
  Qed.
  Lemma basic_perm mx (bs bs' : list (list (option T))) : shuffled mx bs bs' -> trained (basic_stats_policy ltb) mx bs = trained (basic_stats_policy ltb) mx bs'.
  Proof using Hirr Htr Htot.
    intros (T1 & T2 & _ & _ & Pm). unfold basic_stats_policy. rewrite !trained_simple by assumption.
    rewrite (foldM_perm (fun s x => match x with None => Ok s | Some v => basic_update ltb s v end) (fun _ => True) (fun _ => True)) with (l' := items mx bs');
      try exact Pm; try exact Logic.I; [reflexivity| | |].
    - intros; exact Logic.I.
    - intros s [x|] [y|] _ _ _; cbn [bind]; try (destruct (basic_update ltb s x); reflexivity); try (destruct (basic_update ltb s y); reflexivity); [|reflexivity].
      unfold basic_update. change (match fst s with None => (x, x) | Some (mn, mx0) => (if ltb x mn then x else mn, if ltb mx0 x then x else mx0) end) with (mm_upd (fst s) x).
      change (match fst s with None => (y, y) | Some (mn, mx0) => (if ltb y mn then y else mn, if ltb mx0 y then y else mx0) end) with (mm_upd (fst s) y).
      destruct (snd s =? 18446744073709551615); cbn [bind fst snd]; [reflexivity|].
      destruct (snd s + 1 =? 18446744073709551615); [reflexivity|]. do 2 f_equal. f_equal.
      destruct (fst s) as [[mn m]|]; cbn [mm_upd].
      + f_equal; [apply lower_comm|apply upper_comm].
      + f_equal; [apply lower_both|apply upper_both].
    - apply Forall_forall. intros; exact Logic.I.
  Qed.
  Lemma min_max_alike (use_min : bool) (col mx : nat) (bs bs' : list (list (option T))) (a : ann_maps (fnote (option T) T T)) : bare a col -> shuffled mx bs bs' ->
    trains_alike eq col (min_max_recipe col ltb use_min mx) a bs bs'.
  Proof using Hirr Htr Htot. intros Hb Hs. apply learn_alike; [discriminate|exact Hb|exact Hs|]. now apply basic_perm. Qed.
  Lemma min_max_scaler_alike {prec emax : Z} {Hp : Prec_gt_0 prec} {Hm : Prec_lt_emax prec emax} (t : numty prec emax T) lo hi (col mx : nat) (bs bs' : list (list T))
    (a : ann_maps (fnote T T (binary_float prec emax))) : n_lt t = ltb -> bare a col -> shuffled mx bs bs' ->
    trains_alike eq col (min_max_scaler_recipe col t lo hi mx) a bs bs'.
  Proof using Hirr Htr Htot.
    intros El Hb Hs. apply learn_alike; [discriminate|exact Hb|exact Hs|].
    rewrite El. now apply minmax_perm.
  Qed.
End MinMax.

(** ** Integer sums. *)
Lemma std_perm mx (bs bs' : list (list (option Z))) : shuffled mx bs bs' -> Z.of_nat (length (somes (items mx bs))) < 2 ^ 64 ->
  Forall (fun x => in_i64 x = true) (somes (items mx bs)) ->
  (forall pre, prefix pre (somes (items mx bs)) -> in_i64 (zsum pre) = true) -> (forall pre, prefix pre (somes (items mx bs')) -> in_i64 (zsum pre) = true) ->
  trained std_stats_policy mx bs = trained std_stats_policy mx bs'.
Proof.
  intros (T1 & T2 & _ & _ & Pm) Hlen Hr P1 P2. pose proof (somes_perm _ _ Pm) as Ps.
  destruct (std_spec mx bs T1 Hlen Hr) as (A1 & A2 & _).
  destruct (std_spec mx bs' T2) as (B1 & B2 & _).
  { rewrite <- (Permutation_length Ps). exact Hlen. }
  { rewrite Forall_forall in Hr |- *. intros x Hx. apply Hr. eapply Permutation_in; [apply Permutation_sym; exact Ps|exact Hx]. }
  destruct (somes (items mx bs)) as [|u r] eqn:S.
  - apply Permutation_nil in Ps. rewrite A1, B1; [reflexivity|exact Ps|reflexivity].
  - destruct A2 as (mn & mxv & E & [M1 M2] & [M3 M4]); [discriminate|exact P1|].
    destruct B2 as (mn' & mxv' & E' & [M1' M2'] & [M3' M4']); [|exact P2|].
    { intros Q. rewrite Q in Ps. apply Permutation_sym, Permutation_nil in Ps. discriminate Ps. }
    rewrite E, E'. rewrite (zsum_perm _ _ Ps), (Permutation_length Ps).
    assert (mn = mn') as <-.
    { apply z_tot; [apply M2'; eapply Permutation_in; [exact Ps|exact M1]|apply M2; eapply Permutation_in; [apply Permutation_sym; exact Ps|exact M1']]. }
    assert (mxv = mxv') as <-; [|reflexivity].
    apply z_tot; [apply M4; eapply Permutation_in; [apply Permutation_sym; exact Ps|exact M3']|apply M4'; eapply Permutation_in; [exact Ps|exact M3]].
Qed.
Lemma mean_alike {lp le : Z} {HLp : Prec_gt_0 lp} {HLm : Prec_lt_emax lp le} col mx (bs bs' : list (list (option Z))) (a : ann_maps (fnote (option Z) Z double)) :
  bare a col -> shuffled mx bs bs' -> Z.of_nat (length (somes (items mx bs))) < 2 ^ 64 -> Forall (fun x => in_i64 x = true) (somes (items mx bs)) ->
  (forall pre, prefix pre (somes (items mx bs)) -> in_i64 (zsum pre) = true) -> (forall pre, prefix pre (somes (items mx bs')) -> in_i64 (zsum pre) = true) ->
  trains_alike eq col (mean_recipe (lp := lp) (le := le) col mx) a bs bs'.
Proof.
  intros Hb Hs H1 H2 H3 H4. apply learn_alike; [discriminate|exact Hb|exact Hs|].
  now apply std_perm.
Qed.
