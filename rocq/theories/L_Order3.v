(** C81: floating point statistics that do not depend on the order. *)
From Coq Require Import Reals Lra.
From Flocq Require Import Core.Core IEEE754.BinarySingleNaN.
From Verif Require Import Base L_List M_Archive M_Estimator M_Stats M_Encoders M_Impute M_Scale M_FloatStats M_Pipeline M_Featurizer M_Recipes
  S_Stats S_Impute S_FloatStats S_Scale S_Window S_Featurizer S_Order L_Estimator L_Stats L_Stats2 L_Stats3 L_Featurizer L_Encoders L_Impute L_Float L_FloatStats6
  L_Recipes L_Recipes2 L_Recipes3 L_Recipes4 L_Recipes5 L_Order L_Order2.
Open Scope R_scope.

Lemma zero_is {p e : Z} (x : binary_float p e) : is_zero x = true -> exists s, x = B754_zero s.
Proof. destruct x as [s|s| |s m ex B]; try (destruct s; discriminate); try discriminate. intros _. now exists s. Qed.

Section Floats.
  Context {p e : Z} {Hp : Prec_gt_0 p} {Hm : Prec_lt_emax p e}.
  Notation F := (binary_float p e).
  (** Equal places: the same number. *)
  Lemma place_like (x y : F) : is_nan x = false -> is_nan y = false -> place x = place y -> same_number x y.
  Proof using Hp.
    intros Nx Ny E. unfold same_number.
    destruct (place_fin x Nx) as [X1 X2], (place_fin y Ny) as [Y1 Y2].
    destruct (is_finite x) eqn:Fx.
    - assert (Fy : is_finite y = true) by (apply Y1; rewrite <- E; now apply X1). rewrite (X2 eq_refl), (Y2 Fy) in E.
      destruct x as [s|s| |s m ex B]; try discriminate Fx.
      + right. split; [reflexivity|]. destruct y as [s'|s'| |s' m' ex' B']; try discriminate Fy; [reflexivity|].
        exfalso. cbn [B2R] in E. symmetry in E. apply eq_0_F2R in E. destruct s'; discriminate E.
      + left. apply B2R_inj; [reflexivity| |exact E]. destruct y as [s'|s'| |s' m' ex' B']; try discriminate Fy; [|reflexivity].
        exfalso. cbn [B2R] in E. apply eq_0_F2R in E. destruct s; discriminate E.
    - destruct x as [s|s| |s m ex B]; try discriminate Fx; try discriminate Nx. left.
      assert (Fy : is_finite y = false).
      { destruct (is_finite y) eqn:Fy; [|reflexivity]. exfalso. destruct Y1 as [Y1 _]. specialize (Y1 eq_refl). rewrite <- E in Y1.
        destruct X1 as [_ X1]. specialize (X1 Y1). discriminate X1. }
      destruct y as [s'|s'| |s' m' ex' B']; try discriminate Fy; try discriminate Ny.
      cbn [place] in E. pose proof (bpow_gt_0 radix2 e). destruct s, s'; try reflexivity; exfalso; lra.
  Qed.
  Lemma like_sym (x y : F) : same_number x y -> same_number y x.
  Proof using Type. intros [-> |[A B]]; [now left|right; now split]. Qed.
  Lemma like_convert (x y : F) : same_number x y -> same_number (convert x : double) (convert y).
  Proof using Type.
    intros [-> |[A B]]; [now left|]. destruct (zero_is _ A) as [s ->], (zero_is _ B) as [s0 ->]. right. split; reflexivity.
  Qed.
  Lemma like_midpoint (a b a' b' : F) : same_number a a' -> same_number b b' -> same_number (midpoint a b) (midpoint a' b').
  Proof using Type.
    intros A B. apply like_convert in A. apply like_convert in B. unfold midpoint.
    revert A B. generalize (convert a : double) (convert b : double) (convert a' : double) (convert b' : double). intros x y x' y' A B.
    assert (S : same_number (fadd x y) (fadd x' y')).
    { destruct A as [<-|[A A']].
      - destruct B as [<-|[B B']]; [now left|]. destruct (zero_is _ B) as [s ->], (zero_is _ B') as [s0 ->].
        destruct x as [sx|sx| |sx mx ex Bx]; [right; now destruct sx, s, s0| | |]; left; destruct s, s0; reflexivity.
      - destruct (zero_is _ A) as [s ->], (zero_is _ A') as [s0 ->]. destruct B as [<-|[B B']].
        + destruct y as [sy|sy| |sy my ey By]; [right; now destruct sy, s, s0| | |]; left; destruct s, s0; reflexivity.
        + destruct (zero_is _ B) as [s1 ->], (zero_is _ B') as [s2 ->]. right. now destruct s, s0, s1, s2. }
    revert S. generalize (fadd x y) (fadd x' y'). clear. intros u v [<-|[A B]]; [now left|].
    destruct (zero_is _ A) as [s ->], (zero_is _ B) as [s0 ->]. right.
    assert (Q : forall s : bool, is_zero (convert (fdiv (B754_zero s : double) (of_int 2)) : F) = true).
    { intros s1. assert (Q : exists s2, fdiv (B754_zero s1 : double) (of_int 2) = B754_zero s2).
      { destruct (of_int 2 : double) as [s2|s2| |s2 m2 e2 B2] eqn:O2.
        - exfalso. apply (f_equal B2SF) in O2. vm_compute in O2. discriminate O2.
        - exfalso. apply (f_equal B2SF) in O2. vm_compute in O2. discriminate O2.
        - exfalso. apply (f_equal B2SF) in O2. vm_compute in O2. discriminate O2.
        - exists (xorb s1 s2). reflexivity. }
      destruct Q as [s2 ->]. destruct s2; reflexivity. }
    split; apply Q.
  Qed.
  (** Neither NaN nor negative zero. *)
  Definition plain (x : F) : Prop := is_nan x = false /\ x <> B754_zero true.
  Lemma plain_like (x y : F) : plain x -> plain y -> same_number x y -> x = y.
  Proof using Type.
    intros [_ X] [_ Y] [E|[A B]]; [exact E|]. destruct (zero_is _ A) as [s ->], (zero_is _ B) as [s0 ->].
    destruct s; [contradiction|]. destruct s0; [contradiction|reflexivity].
  Qed.
  Lemma of_int_plain (z : Z) : plain (of_int z : F).
  Proof using Type.
    split; [apply of_int_number|]. unfold of_int. pose proof (binary_normalize_correct p e Hp Hm mode_NE z 0 false) as B. cbv zeta in B.
    match type of B with if ?c then _ else _ => destruct c end.
    - destruct B as (B1 & B2 & B3). intros E. rewrite E in B1, B3. cbn [B2R Bsign] in B1, B3.
      destruct (Rcompare_spec (F2R (Float radix2 z 0)) 0) as [L|L|L]; [|discriminate B3|discriminate B3].
      unfold F2R in L, B1. cbn [Fnum Fexp bpow] in L, B1. rewrite Rmult_1_r in L, B1. clear B2 B3 E.
      assert (Z1 : (z <= -1)%Z) by (apply lt_IZR in L; lia). apply IZR_le in Z1.
      assert (G : round radix2 (SpecFloat.fexp p e) (round_mode mode_NE) (IZR z) <= round radix2 (SpecFloat.fexp p e) (round_mode mode_NE) (-1)).
      { apply round_le; [apply (fexp_correct p e Hp)|apply valid_rnd_round_mode|exact Z1]. }
      rewrite (round_generic radix2 (SpecFloat.fexp p e) (round_mode mode_NE) (-1)) in G; [lra|].
      replace (-1) with (- bpow radix2 0) by reflexivity. apply generic_format_opp. apply generic_format_bpow.
      unfold SpecFloat.fexp, SpecFloat.emin. red in Hp. red in Hm. lia.
    - intros E. rewrite E in B. unfold binary_overflow in B. destruct (overflow_to_inf _ _); discriminate B.
  Qed.
End Floats.

(** The places in ascending order. *)
Lemma sorted_places (l : list R) : exists s, Permutation s l /\ StronglySorted Rle s.
Proof.
  induction l as [|x l (s & P & S)]; [exists []; split; constructor|].
  assert (G : forall s : list R, StronglySorted Rle s -> exists s', Permutation s' (x :: s) /\ StronglySorted Rle s').
  { clear. induction s as [|y s IH]; intros S; [exists [x]; split; [reflexivity|repeat constructor]|].
    inversion S; subst. destruct (Rle_dec x y) as [L|L].
    - exists (x :: y :: s). split; [reflexivity|]. constructor; [exact S|]. constructor; [exact L|]. eapply Forall_impl; [|exact H2]. cbv beta. intros; lra.
    - destruct (IH H1) as (s' & P' & S'). exists (y :: s'). split; [rewrite P'; apply perm_swap|]. constructor; [exact S'|].
      rewrite Forall_forall in H2 |- *. intros z Hz. apply (Permutation_in _ P') in Hz. destruct Hz as [<-|Hz]; [lra|now apply H2]. }
  destruct (G s S) as (s' & P' & S'). exists s'. split; [|exact S']. rewrite P', P. reflexivity.
Qed.

Section Median.
  Context {p e : Z} {Hp : Prec_gt_0 p} {Hm : Prec_lt_emax p e}.
  Notation F := (binary_float p e).
  Lemma median_two (interpolate : bool) mx (bs bs' : list (list (option F))) : shuffled mx bs bs' ->
    Forall (fun x => is_nan x = false) (somes (items mx bs)) ->
    let tr := trained (median_policy Bltb interpolate midpoint fzero) mx in
    (tr bs = Throw RuntimeError /\ tr bs' = Throw RuntimeError) \/
    exists m m', tr bs = Ok (Some m) /\ tr bs' = Ok (Some m') /\ same_number m m' /\
      ((forall x, In x (somes (items mx bs)) -> plain x) -> m = m').
  Proof using Hp Hm.
    intros (T1 & T2 & _ & _ & Pm) Hn tr. pose proof (somes_perm _ _ Pm) as Ps.
    destruct (sorted_places (map place (somes (items mx bs)))) as (s & P & Ss).
    assert (Hn' : Forall (fun x => is_nan x = false) (somes (items mx bs'))).
    { rewrite Forall_forall in Hn |- *. intros x Hx. apply Hn. eapply Permutation_in; [apply Permutation_sym; exact Ps|exact Hx]. }
    destruct (median_float interpolate midpoint fzero mx bs T1 Hn s P Ss) as [A1 A2].
    destruct (median_float interpolate midpoint fzero mx bs' T2 Hn' s) as [B1 B2]; [rewrite P; now apply Permutation_map|exact Ss|].
    destruct (Nat.eq_dec (length s) 0) as [E|E]; [left; split; [exact (A1 E)|exact (B1 E)]|right].
    destruct (A2 E) as (a & b & Ia & Ib & Pa & Pb & R). destruct (B2 E) as (a' & b' & Ia' & Ib' & Pa' & Pb' & R').
    rewrite Forall_forall in Hn, Hn'.
    assert (La : same_number a a') by (apply place_like; [now apply Hn|now apply Hn'|congruence]).
    assert (Lb : same_number b b') by (apply place_like; [now apply Hn|now apply Hn'|congruence]).
    eexists. eexists. split; [exact R|]. split; [exact R'|]. split.
    - destruct (negb interpolate || Nat.odd (length s)); [exact La|now apply like_midpoint].
    - intros Hpl. assert (Hpl' : forall x, In x (somes (items mx bs')) -> plain x).
      { intros x Hx. apply Hpl. eapply Permutation_in; [apply Permutation_sym; exact Ps|exact Hx]. }
      rewrite (plain_like a a' (Hpl a Ia) (Hpl' a' Ia') La), (plain_like b b' (Hpl b Ib) (Hpl' b' Ib') Lb). reflexivity.
  Qed.
  Lemma shuffled_map {V W} (f : V -> W) mx (bs bs' : list (list V)) : shuffled mx bs bs' -> shuffled mx (map (map f) bs) (map (map f) bs').
  Proof using Type.
    intros (T1 & T2 & N1 & N2 & Pm). split; [now apply proper_map|]. split; [now apply proper_map|].
    split; [destruct bs; [contradiction|discriminate]|]. split; [destruct bs'; [contradiction|discriminate]|]. rewrite !items_map. now apply Permutation_map.
  Qed.
  Lemma median_alike {I U} (cast : I -> F) (interpolate : bool) col mx (bs bs' : list (list (option I))) (a : ann_maps (fnote (option I) U F)) :
    bare a col -> shuffled mx bs bs' -> (forall x, In (Some x) (items mx bs) -> is_nan (cast x) = false) ->
    let steps := median_recipe col cast Bltb interpolate midpoint fzero mx in
    trains_alike (fun t t' => forall rows, exists out out', delivered t rows = (out, Ok tt) /\ delivered t' rows = (out', Ok tt) /\ Forall2 same_number out out') col steps a bs bs' /\
    ((forall x, In (Some x) (items mx bs) -> cast x <> B754_zero true) -> trains_alike eq col steps a bs bs').
  Proof using Hp Hm.
    intros Hb Hs Hn steps. pose proof Hs as (T1 & T2 & N1 & N2 & Pm).
    assert (Sm : forall x, In x (somes (items mx (map (map (option_map cast)) bs))) -> exists y, In (Some y) (items mx bs) /\ x = cast y).
    { intros x Hx. rewrite items_map, somes_options in Hx. apply in_map_iff in Hx. destruct Hx as (y & <- & Hy). exists y. split; [|reflexivity].
      apply in_flat_map in Hy. destruct Hy as ([z|] & Z1 & Z2); [|destruct Z2]. destruct Z2 as [<-|[]]. exact Z1. }
    destruct (median_two interpolate mx _ _ (shuffled_map (option_map cast) mx bs bs' Hs)) as [[A B]|(m & m' & A & B & L & Pl)].
    { apply Forall_forall. intros x Hx. destruct (Sm x Hx) as (y & Hy & ->). now apply Hn. }
    - rewrite <- trained_via in A, B by assumption. assert (G : forall same, trains_alike same col steps a bs bs').
      { intros same. apply (alike_throw _ _ _ _ _ _ RuntimeError); apply (one_throws (F := F)); try assumption; try discriminate; reflexivity. }
      split; [apply G|intros _; apply G].
    - rewrite <- trained_via in A, B by assumption.
      assert (K1 : trains_one col steps a bs (median_imputer cast m)).
      { eapply (one_trains (F := F)); try assumption; [discriminate|reflexivity|exact A|reflexivity|reflexivity|reflexivity]. }
      assert (K2 : trains_one col steps a bs' (median_imputer cast m')).
      { eapply (one_trains (F := F)); try assumption; [discriminate|reflexivity|exact B|reflexivity|reflexivity|reflexivity]. }
      split.
      + apply (alike_one _ _ _ _ _ _ _ _ K1 K2). intros rows.
        eexists. eexists. split; [apply (per_value_spec (option I) F _ rows)|]. split; [apply (per_value_spec (option I) F _ rows)|].
        induction rows as [|[x|] r IH]; constructor; try exact IH; [now left|exact L].
      + intros Hz. apply (alike_one _ _ _ _ _ _ _ _ K1 K2). rewrite Pl; [reflexivity|].
        intros x Hx. destruct (Sm x Hx) as (y & Hy & ->). split; [now apply Hn|now apply Hz].
  Qed.
End Median.
