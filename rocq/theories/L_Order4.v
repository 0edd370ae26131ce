(** C81: MaxAbsScaler, RobustScaler, what does depend on the order. *)
From Coq Require Import Reals Lra.
From Coq Require Import Floats.SpecFloat.
From Flocq Require Import Core.Core IEEE754.BinarySingleNaN.
From Verif Require Import Base L_List M_Archive M_Estimator M_Stats M_Encoders M_Impute M_Scale M_FloatStats M_Pipeline M_Featurizer M_Recipes
  S_Stats S_Impute S_FloatStats S_Scale S_Window S_Featurizer S_Order L_Estimator L_Stats L_Stats2 L_Stats3 L_Featurizer L_Encoders L_Impute L_Float L_FloatStats4 L_FloatStats6
  L_Recipes L_Recipes2 L_Recipes3 L_Recipes4 L_Recipes5 L_Order L_Order2 L_Order3.
Open Scope R_scope.

Section MaxAbs.
  Context {p e : Z} {Hp : Prec_gt_0 p} {Hm : Prec_lt_emax p e}.
  Notation F := (binary_float p e).
  Definition raise (m v : F) : F := if Bltb m v then v else m.
  Definition started (m : F) : Prop := is_nan m = false /\ 0 <= place m.
  Lemma lt_nan (m : F) : Bltb m B754_nan = false.
  Proof using Type. destruct m as [s|s| |s mm ex B]; try destruct s; reflexivity. Qed.
  Lemma raise_started m v : started m -> started (raise m v).
  Proof using Hp Hm.
    intros [A B]. unfold raise. destruct (is_nan v) eqn:N.
    - destruct v; try discriminate N. rewrite lt_nan. now split.
    - rewrite place_lt by assumption. destruct (Rlt_bool_spec (place m) (place v)) as [L|L]; split; try assumption; lra.
  Qed.
  Lemma raise_comm m v w : started m -> raise (raise m v) w = raise (raise m w) v.
  Proof using Hp Hm.
    intros St. pose proof St as [A B]. destruct (is_nan v) eqn:Nv.
    { destruct v; try discriminate Nv. unfold raise. now rewrite !lt_nan. }
    destruct (is_nan w) eqn:Nw.
    { destruct w; try discriminate Nw. unfold raise. now rewrite !lt_nan. }
    unfold raise. rewrite !(place_lt m) by assumption.
    destruct (Rlt_bool_spec (place m) (place v)) as [L1|L1]; destruct (Rlt_bool_spec (place m) (place w)) as [L2|L2]; rewrite ?place_lt by assumption.
    - destruct (Rlt_bool_spec (place v) (place w)) as [L3|L3]; destruct (Rlt_bool_spec (place w) (place v)) as [L4|L4]; [lra|reflexivity|reflexivity|].
      destruct (place_like v w Nv Nw) as [E|[Z1 Z2]]; [lra|exact E|]. destruct (zero_is _ Z1) as [s ->]. cbn [place B2R] in L1. lra.
    - rewrite (Rlt_bool_false (place v)) by lra. rewrite (Rlt_bool_true (place m)) by lra. reflexivity.
    - rewrite (Rlt_bool_true (place m)) by lra. rewrite (Rlt_bool_false (place w)) by lra. reflexivity.
    - rewrite !Rlt_bool_false by lra. reflexivity.
  Qed.
  Lemma zero_started : started (fzero : F).
  Proof using Type. split; [reflexivity|]. cbn. lra. Qed.
  Lemma ma_perm mx (bs bs' : list (list F)) : shuffled mx bs bs' -> trained ma_policy mx bs = trained ma_policy mx bs'.
  Proof using Hp Hm.
    intros (T1 & T2 & _ & _ & Pm). unfold ma_policy. rewrite !trained_simple by assumption.
    rewrite (foldM_perm ma_fit started (fun _ => True)) with (l' := items mx bs'); try exact Pm; try exact zero_started; [reflexivity| | |].
    - intros s x s' I _ E. injection E as <-. exact (raise_started s _ I).
    - intros s x y I _ _. unfold ma_fit. cbn [bind]. f_equal. exact (raise_comm s _ _ I).
    - apply Forall_forall. intros; exact Logic.I.
  Qed.
  Lemma mai_perm w mx (bs bs' : list (list Z)) : shuffled mx bs bs' ->
    trained (maxabs_policy w (of_int (prec := p) (emax := e)) Bltb fzero) mx bs = trained (maxabs_policy w (of_int (prec := p) (emax := e)) Bltb fzero) mx bs'.
  Proof using Hp Hm.
    intros (T1 & T2 & _ & _ & Pm). unfold maxabs_policy. rewrite !trained_simple by assumption.
    rewrite (foldM_perm (maxabs_fit w (of_int (prec := p) (emax := e)) Bltb) started (fun _ => True)) with (l' := items mx bs'); try exact Pm; try exact zero_started; [reflexivity| | |].
    - intros s x s' I _ E. unfold maxabs_fit in E. destruct (x <? 0)%Z.
      + destruct (fits_s w (- x)); [|discriminate E]. injection E as <-. exact (raise_started s _ I).
      + injection E as <-. exact (raise_started s _ I).
    - intros s x y I _ _. unfold maxabs_fit.
      destruct (x <? 0)%Z; [destruct (fits_s w (- x))|]; (destruct (y <? 0)%Z; [destruct (fits_s w (- y))|]); cbn [bind]; try reflexivity;
        try (f_equal; exact (raise_comm s _ _ I)).
    - apply Forall_forall. intros; exact Logic.I.
  Qed.
  Lemma max_abs_alike col mx (bs bs' : list (list F)) (a : ann_maps (fnote F F F)) : bare a col -> shuffled mx bs bs' ->
    trains_alike eq col (max_abs_recipe col ma_policy mx) a bs bs'.
  Proof using Hp Hm. intros Hb Hs. apply learn_alike; [discriminate|exact Hb|exact Hs|now apply ma_perm]. Qed.
  Lemma max_abs_int_alike w col mx (bs bs' : list (list Z)) (a : ann_maps (fnote Z Z F)) : bare a col -> shuffled mx bs bs' ->
    trains_alike eq col (max_abs_recipe col (maxabs_policy w (of_int (prec := p) (emax := e)) Bltb fzero) mx) a bs bs'.
  Proof using Hp Hm. intros Hb Hs. apply learn_alike; [discriminate|exact Hb|exact Hs|now apply mai_perm]. Qed.
End MaxAbs.

Lemma robust_alike {lp le : Z} {HLp : Prec_gt_0 lp} {HLm : Prec_lt_emax lp le} {prec emax : Z} {Hp : Prec_gt_0 prec} {Hm : Prec_lt_emax prec emax}
  signed w (wc : bool) (q : float32 * float32) col mx (bs bs' : list (list Z)) (a : ann_maps (fnote Z Z (binary_float prec emax))) :
  bare a col -> shuffled mx bs bs' -> (Z.of_nat (length (items mx bs)) < 2 ^ 64)%Z -> Forall (fun x => in_i64 x = true) (items mx bs) ->
  (forall pre, prefix pre (items mx bs) -> in_i64 (zsum pre) = true) -> (forall pre, prefix pre (items mx bs') -> in_i64 (zsum pre) = true) ->
  trains_alike eq col (robust_recipe (lp := lp) (le := le) col signed w mx wc q) a bs bs'.
Proof.
  intros Hb Hs H1 H2 H3 H4. pose proof Hs as (T1 & T2 & _).
  apply learn_two_alike; [discriminate|discriminate|reflexivity|exact Hb|exact Hs| |].
  - rewrite !trained_via by assumption.
    set (f := fun x : Z => Some (of_int x : binary_float prec emax)).
    assert (Sm : forall x, In x (somes (items mx (map (map f) bs))) -> exists z, x = of_int z).
    { intros x Hx. rewrite items_map in Hx. apply in_flat_map in Hx. destruct Hx as (o & O1 & O2). apply in_map_iff in O1. destruct O1 as (z & <- & _).
      destruct O2 as [<-|[]]. now exists z. }
    destruct (median_two true mx _ _ (shuffled_map f mx bs bs' Hs)) as [[A B]|(m & m' & A & B & _ & Pl)].
    { apply Forall_forall. intros x Hx. destruct (Sm x Hx) as [z ->]. apply of_int_number. }
    + rewrite A, B. reflexivity.
    + rewrite A, B. rewrite Pl; [reflexivity|]. intros x Hx. destruct (Sm x Hx) as [z ->]. apply of_int_plain.
  - rewrite !trained_via by assumption. apply std_perm; rewrite ?items_map, ?somes_some; try assumption. now apply shuffled_map.
Qed.

(** ** What does depend on the order. *)
Definition first_of_tie (b : list (option Z)) : option (list Z) :=
  match featurize (fun _ x => [x]) 9 0 (mode_recipe (oeqb Z.eqb) (fun h => h) 0 not_null mode_imputer 9) ([[]] : ann_maps (fnote (option Z) Z Z)) [b] with
  | Some (Ok (_, [t])) => Some (fst (delivered t [None]))
  | _ => None
  end.
Lemma tie : first_of_tie [Some 1; Some 2]%Z = Some [1%Z] /\ first_of_tie [Some 2; Some 1]%Z = Some [2%Z].
Proof. vm_compute. split; reflexivity. Qed.
Section Ties.
  Context {T : Type}.
  Variables (eqb : T -> T -> bool) (order : list (option T * Z) -> list (option T * Z)).
  Hypothesis Heq : forall x y, eqb x y = true <-> x = y.
  Hypothesis Horder : forall h, Permutation h (order h).
  Lemma one_of_two (v w : T) col (a : ann_maps (fnote (option T) T T)) mx : v <> w -> (2 <= mx)%nat -> bare a col ->
    exists t, trains_one col (mode_recipe (oeqb eqb) order col not_null mode_imputer mx) a [[Some v; Some w]] t /\ delivered t [None] = ([v], Ok tt).
  Proof using Heq Horder.
    intros N M Hb.
    assert (I : items mx [[Some v; Some w]] = [Some v; Some w]).
    { unfold items. cbn [concat app]. apply firstn_all2. cbn. lia. }
    destruct (mode_featurizer eqb order Heq Horder col mx [[Some v; Some w]] a Hb) as (u & U1 & U2 & tc & tm & _ & C2 & C3).
    { split; [lia|]. constructor; [discriminate|constructor]. } { discriminate. } { rewrite I. cbn. lia. } { rewrite I. discriminate. }
    rewrite I in *. assert (Ev : eqb v v = true) by (now apply Heq). assert (Ew : eqb w w = true) by (now apply Heq).
    assert (Evw : eqb v w = false) by (destruct (eqb v w) eqn:E; [apply Heq in E; contradiction|reflexivity]).
    assert (Ewv : eqb w v = false) by (destruct (eqb w v) eqn:E; [apply Heq in E; symmetry in E; contradiction|reflexivity]).
    assert (u = v) as ->.
    { destruct U1 as [E|[E|[]]]; [now injection E|]. injection E as <-. exfalso.
      destruct (U2 v) as [_ B]; [now left|]. destruct B as (x & y & E & H); [|exact N|].
      - unfold occ. cbn [filter oeqb]. rewrite Ev, Ew, Evw, Ewv. reflexivity.
      - apply H. destruct x as [|x0 x]; cbn [app] in E |- *; injection E; intros; subst; [congruence|now left]. }
    exists tm. split; [exact C2|]. destruct (C3 [None]) as [_ ->]. reflexivity.
  Qed.
  Lemma tie_order (v w : T) col (a : ann_maps (fnote (option T) T T)) mx : v <> w -> (2 <= mx)%nat -> bare a col ->
    let steps := mode_recipe (oeqb eqb) order col not_null mode_imputer mx in
    exists t t', trains_one col steps a [[Some v; Some w]] t /\ trains_one col steps a [[Some w; Some v]] t' /\
      delivered t [None] = ([v], Ok tt) /\ delivered t' [None] = ([w], Ok tt).
  Proof using Heq Horder.
    intros N M Hb steps. destruct (one_of_two v w col a mx N M Hb) as (t & A & B).
    destruct (one_of_two w v col a mx) as (t' & A' & B'); [congruence|exact M|exact Hb|]. exists t, t'. repeat (split; [assumption|]). assumption.
  Qed.
End Ties.
Lemma overflow_order {lp le : Z} {HLp : Prec_gt_0 lp} {HLm : Prec_lt_emax lp le} : (64 <= lp)%Z -> (1024 <= le)%Z ->
  let steps := mean_recipe (lp := lp) (le := le) 0 9 in
  let bs := [[Some 9223372036854775807; Some 1; Some (-1)]]%Z in let bs' := [[Some 9223372036854775807; Some (-1); Some 1]]%Z in
  shuffled 9 bs bs' /\ trains_throwing 0 steps [[]] bs RuntimeError /\ exists t, trains_one 0 steps [[]] bs' t.
Proof.
  intros H1 H2 steps bs bs'.
  assert (P1 : proper_training 9 bs) by (split; [lia|constructor; [discriminate|constructor]]).
  assert (P2 : proper_training 9 bs') by (split; [lia|constructor; [discriminate|constructor]]).
  split; [|split].
  - split; [exact P1|]. split; [exact P2|]. split; [discriminate|]. split; [discriminate|]. cbn. constructor. apply perm_swap.
  - destruct (mean_featurizer (lp := lp) (le := le) 0 9 bs [[]] H1 H2 eq_refl P1) as (_ & A & _); [discriminate|reflexivity|repeat constructor|].
    apply (A [9223372036854775807; 1]%Z); [exists [(-1)%Z]; reflexivity|reflexivity].
  - destruct (mean_featurizer (lp := lp) (le := le) 0 9 bs' [[]] H1 H2 eq_refl P2) as (_ & _ & A); [discriminate|reflexivity|repeat constructor|].
    destruct A as (m & t & _ & A & _); [discriminate| |now exists t].
    intros pre (r & E). cbn in E. destruct pre as [|x0 [|x1 [|x2 [|x3 pre]]]]; cbn [app] in E; try reflexivity; try (injection E; intros; subst; reflexivity); discriminate E.
Qed.
Lemma float_order : exists x y : double, B2R x = bpow radix2 64 /\ B2R y = 1 /\
  let steps := float_mean_recipe (lp := 64) (le := 16384) 0 9 in
  trains_throwing 0 steps [[]] [[x; y]] RuntimeError /\ exists t, trains_one 0 steps [[]] [[y; x]] t.
Proof.
  destruct order_refused as (x & y & X & Y & A & r & B). exists x, y. split; [exact X|]. split; [exact Y|]. split.
  - apply (one_throws (F := double)); [discriminate|reflexivity|split; [lia|constructor; [discriminate|constructor]]|discriminate|reflexivity|exact A].
  - eexists. eapply (one_trains (F := double)); [discriminate|reflexivity|split; [lia|constructor; [discriminate|constructor]]|discriminate|reflexivity|exact B|reflexivity|reflexivity|reflexivity].
Qed.
