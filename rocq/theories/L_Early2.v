(** C89: the library's featurizers. *)
From Flocq Require Import Core.Core IEEE754.BinarySingleNaN.
From Verif Require Import Base L_List M_Archive M_Estimator M_Stats M_Encoders M_Impute M_Scale M_FloatStats M_FloatScale M_Pipeline M_Featurizer M_Recipes
  S_Stats S_Featurizer M_Early S_Early L_Estimator L_Featurizer L_Recipes L_Early.

(** A chain that needs the rows once, for up to [length xs] rows. *)
Definition once {V Ann Tr} (xs : list V) (steps : list (fstep V Ann Tr)) : Prop := one_maker xs steps /\ single_pass steps.
Section Once.
  Context {T U F : Type}.
  Notation ann := (fnote T U F).
  Lemma learn_once {V Tr P A X} nm (pick : ann -> option X) (tag : A -> res ann) mx (pol : policy P V A) (mk : ann_maps ann -> res Tr) (xs : list V) :
    nm <> [] -> (length xs < mx)%nat -> once xs [learn nm pick tag mx pol; Make mk].
  Proof.
    intros Hn Hm. split.
    - exists [learn nm pick tag mx pol], mk. split; [reflexivity|]. constructor; [|constructor]. cbn. split; [exact Hn|]. split; [lia|auto].
    - eexists _, _. split; [reflexivity|]. repeat constructor.
  Qed.
  Lemma index_once (eqb ltb : T -> T -> bool) order col {Tr} mx existing (mk : ann_maps ann -> res Tr) (xs : list T) :
    (length xs < mx)%nat -> once xs (index_steps eqb ltb order col mx existing ++ [Make mk]).
  Proof.
    intros Hm. split.
    - eexists (index_steps eqb ltb order col mx existing), mk. split; [reflexivity|]. unfold index_steps, learn, derive. constructor; [|constructor; [|constructor]]; cbn.
      + split; [discriminate|]. split; [lia|auto].
      + split; [discriminate|]. split; [lia|discriminate].
    - unfold index_steps, derive. cbn [app]. eexists _, _. split; [reflexivity|]. constructor; [cbn; discriminate|]. repeat constructor.
  Qed.
End Once.

Section Twice.
  Context {T U F V Tr : Type}.
  Notation ann := (fnote T U F).
  Notation store := (ann_maps ann).
  Lemma one_pass_learn {P A X} col nm (pick : ann -> option X) (tag : A -> res ann) mx (pol : policy P V A) (r : list (fstep V ann Tr)) (a : store) c bs p0 :
    (col < length a)%nat -> nm <> [] -> col_find c nm = None -> proper_training mx bs -> (length (concat bs) < mx)%nat -> p_begin pol (p_init pol) = Ok (p0, true) ->
    one_pass col (learn nm pick tag mx pol :: r) (put a col c) (concat bs) =
    do o <- trained pol mx bs;
    match o with None => UB | Some x => do n <- tag x; one_pass col r (put a col (col_add c nm n)) [] end.
  Proof.
    intros H Hn Hc [H1 H2] Hm Hb. unfold learn at 1. cbn [one_pass]. rewrite present_put by assumption. rewrite Hc. cbn [andb].
    cbn [sp_begin sp_init sp_fit sp_complete]. rewrite trained_eq by assumption. unfold items. rewrite firstn_all2 by lia. rewrite Hb. cbn [bind fst snd].
    destruct (foldM (p_fit pol) p0 (concat bs)) as [q|e|]; cbn [bind]; [|reflexivity|reflexivity].
    destruct (p_complete pol q) as [x|e|]; cbn [bind]; [|reflexivity|reflexivity].
    destruct (tag x) as [n|e|]; cbn [bind]; [|reflexivity|reflexivity]. rewrite add_put by exact H. reflexivity.
  Qed.
  (** The second estimator throws without rows: so does the featurizer. *)
  Lemma second_throws {P A X} col nm (pick : ann -> option X) (tag : A -> res ann) mx (pol : policy P V A) nm2 is_t2 mx2 {Q} (pol2 : spolicy V ann Q) (r : list (fstep V ann Tr))
      (a : store) bs p0 x n q e :
    bare a col -> nm <> [] -> nm2 <> [] -> name_eqb nm nm2 = false -> proper_training mx bs -> (length (concat bs) < mx)%nat -> p_begin pol (p_init pol) = Ok (p0, true) ->
    trained pol mx bs = Ok (Some x) -> tag x = Ok n ->
    sp_begin pol2 (put a col [(nm, [n])]) (sp_init pol2) = Ok (q, true) -> sp_complete pol2 (put a col [(nm, [n])]) q = Throw e ->
    one_pass col (learn nm pick tag mx pol :: Note true nm2 is_t2 mx2 pol2 :: r) a (concat bs) = Throw e.
  Proof.
    intros Ha Hn Hn2 Hd Hp Hm Hb Ht Hx Hq He. rewrite (put_bare a col Ha) at 1. rewrite (one_pass_learn col nm pick tag mx pol _ a [] bs p0 (bare_len a col Ha) Hn eq_refl Hp Hm Hb).
    rewrite Ht. cbn [bind]. rewrite Hx. cbn [bind one_pass]. change (col_add [] nm n) with [(nm, [n])]. rewrite present_put by (exact (bare_len a col Ha) || exact Hn2).
    assert (NF : col_find [(nm, [n])] nm2 = None) by (cbn [col_find]; now rewrite Hd).
    rewrite NF. cbn [andb]. rewrite Hq. cbn [bind fst snd foldM]. rewrite He. reflexivity.
  Qed.
End Twice.

Section Featurizers.
  Context {lp le : Z} {HLp : Prec_gt_0 lp} {HLm : Prec_lt_emax lp le}.
  Notation L := (binary_float lp le).
  (** Two estimators that want rows, then the maker. *)
  Lemma two_maker {T U F V Tr : Type} {P Q A X} nm (pick : fnote T U F -> option X) (tag : A -> res (fnote T U F)) mx (pol : policy P V A) nm2 is_t2 (pol2 : spolicy V (fnote T U F) Q)
    (rest : list (fstep V (fnote T U F) Tr)) (mk : ann_maps (fnote T U F) -> res Tr) (xs : list V) :
    nm <> [] -> nm2 <> [] -> (length xs < mx)%nat -> Forall (room xs) rest -> one_maker xs (learn nm pick tag mx pol :: Note true nm2 is_t2 mx pol2 :: rest ++ [Make mk]).
  Proof using Type.
    intros N N2 M R. exists (learn nm pick tag mx pol :: Note true nm2 is_t2 mx pol2 :: rest), mk. split; [reflexivity|].
    constructor; [cbn; repeat split; (exact N || lia)|]. constructor; [cbn; repeat split; (exact N2 || lia)|exact R].
  Qed.
  Lemma standard_early {I U P A} (apply : double * double -> I -> list I) col (t : numty 53 1024 I) (stats : policy P I A) (tag : A -> res (fnote I U L)) mx wm ws
      (a : ann_maps (fnote I U L)) bs p0 x mn mxv c avg :
    bare a col -> proper_training mx bs -> (length (concat bs) < mx)%nat -> p_begin stats (p_init stats) = Ok (p0, true) -> trained stats mx bs = Ok (Some x) -> tag x = Ok (NStats mn mxv c avg) ->
    cut_short apply col (standard_recipe col t stats tag mx wm ws) a bs = Throw RuntimeError.
  Proof using Type.
    intros Ha Hp Hm Hb Ht Hx. rewrite cut_short_spec; [| |exact (bare_len a col Ha)|exact (proj2 Hp)].
    - unfold standard_recipe, deviation_step. eapply second_throws; try eassumption; try discriminate; [reflexivity| |].
      + cbn [sp_begin sp_init]. rewrite read_put by (exact (bare_len a col Ha) || discriminate). reflexivity.
      + reflexivity.
    - exact (two_maker stats_name as_stats tag mx stats deviation_name (is_kind as_deviation) _ [] _ (concat bs) ltac:(discriminate) ltac:(discriminate) Hm ltac:(constructor)).
  Qed.
  Lemma robust_early {p e : Z} {Hp0 : Prec_gt_0 p} {Hm0 : Prec_lt_emax p e} (apply : binary_float p e * binary_float p e -> Z -> list Z) col signed w mx wc q
      (a : ann_maps (fnote Z Z (binary_float p e))) bs x :
    bare a col -> proper_training mx bs -> (length (concat bs) < mx)%nat ->
    trained (via (fun x => Some (of_int x)) (median_policy Bltb true midpoint fzero)) mx bs = Ok (Some x) ->
    cut_short apply col (robust_recipe (lp := lp) (le := le) col signed w mx wc q) a bs = Throw RuntimeError.
  Proof using Type.
    intros Ha Hp Hm Ht. rewrite cut_short_spec; [| |exact (bare_len a col Ha)|exact (proj2 Hp)].
    - unfold robust_recipe. unfold learn at 2. eapply second_throws; try eassumption; try discriminate; try reflexivity.
    - exact (two_maker median_name as_median _ mx _ stats_name (is_kind as_stats) _ [] _ (concat bs) ltac:(discriminate) ltac:(discriminate) Hm ltac:(constructor)).
  Qed.
  Lemma robust_float_early {p e : Z} {Hp0 : Prec_gt_0 p} {Hm0 : Prec_lt_emax p e} (apply : binary_float p e * binary_float p e -> binary_float p e -> list (binary_float p e)) col mx wc q
      (a : ann_maps (fnote (binary_float p e) (binary_float p e) (binary_float p e))) bs x :
    bare a col -> proper_training mx bs -> (length (concat bs) < mx)%nat ->
    trained (via as_null (median_policy Bltb true midpoint fzero)) mx bs = Ok (Some x) ->
    cut_short apply col (robust_float_recipe (lp := lp) (le := le) col mx wc q) a bs = Throw RuntimeError.
  Proof using Type.
    intros Ha Hp Hm Ht. rewrite cut_short_spec; [| |exact (bare_len a col Ha)|exact (proj2 Hp)].
    - unfold robust_float_recipe. unfold learn at 2. eapply second_throws; try eassumption; try discriminate; try reflexivity.
    - exact (two_maker median_name as_median _ mx _ stats_name (is_kind as_stats) _ [] _ (concat bs) ltac:(discriminate) ltac:(discriminate) Hm ltac:(constructor)).
  Qed.
End Featurizers.
Lemma mode_early {T U F Tr : Type} (eqb : T -> T -> bool) order col (supported : T -> bool) (finish : T -> res Tr) (apply : Tr -> T -> list T) mx (a : ann_maps (fnote T U F)) bs h :
  bare a col -> proper_training mx bs -> (length (concat bs) < mx)%nat -> trained (hist_policy eqb) mx bs = Ok (Some h) ->
  cut_short apply col (mode_recipe eqb order col supported finish mx) a bs = Throw InvalidArgument.
Proof.
  intros Ha Hp Hm Ht. rewrite cut_short_spec; [| |exact (bare_len a col Ha)|exact (proj2 Hp)].
  - unfold mode_recipe. unfold learn at 2. eapply second_throws; try eassumption; try discriminate; try reflexivity.
  - refine (two_maker histogram_name as_hist _ mx _ order_name (is_kind as_order) _ [_] _ (concat bs) _ _ Hm _); try discriminate.
    constructor; [|constructor]. unfold derive. cbn. split; [discriminate|]. split; [lia|discriminate].
Qed.
(** ** The same as training to the end *)
Section Same.
  Context {V Ann Tr : Type} (apply : Tr -> V -> list V).
  Lemma once_same col (steps : list (fstep V Ann Tr)) (a : ann_maps Ann) (bs : list (list V)) :
    once (concat bs) steps -> (col < length a)%nat -> Forall (fun b => b <> []) bs -> bs <> [] -> same_early apply col steps a bs.
  Proof. intros [A B] Hc Hne Hbs. exact (early_is_trained apply col steps a bs A B Hc Hne Hbs). Qed.
End Same.
Lemma encoders_same {T : Type} (eqb ltb : T -> T -> bool) order (col mx : nat) existing missing (bs : list (list T)) (a : ann_maps (fnote T T T)) applye applyn :
  (col < length a)%nat -> Forall (fun b => b <> []) bs -> bs <> [] -> (length (concat bs) < mx)%nat ->
  same_early applye col (label_recipe eqb ltb order col mx existing missing) a bs /\
  same_early applye col (onehot_recipe eqb ltb order col mx existing missing) a bs /\
  same_early applyn col (numericalize_recipe eqb ltb order col mx) a bs.
Proof. intros Hc Hne Hbs Hm. repeat split; apply once_same; try assumption; now apply index_once. Qed.
Section Numbers.
  Context {lp le : Z} {HLp : Prec_gt_0 lp} {HLm : Prec_lt_emax lp le} {p e : Z} {Hp : Prec_gt_0 p} {Hm : Prec_lt_emax p e}.
  Notation F := (binary_float p e).
  Lemma imputers_same {U I} (ltb : U -> U -> bool) use_min (cast : I -> F) interpolate (avg : F -> F -> F) (zero : F) col mx
      (b1 : list (list (option U))) (b2 : list (list (option I))) (b3 : list (list (option Z))) (b4 : list (list F))
      (a1 : ann_maps (fnote (option U) U F)) (a2 : ann_maps (fnote (option I) I F)) (a3 : ann_maps (fnote (option Z) Z double)) (a4 : ann_maps (fnote F F double)) y1 y2 y3 y4 :
    (col < length a1)%nat -> (col < length a2)%nat -> (col < length a3)%nat -> (col < length a4)%nat -> Forall (fun b => b <> []) b1 -> Forall (fun b => b <> []) b2 -> Forall (fun b => b <> []) b3 -> Forall (fun b => b <> []) b4 ->
    b1 <> [] -> b2 <> [] -> b3 <> [] -> b4 <> [] -> (length (concat b1) < mx)%nat -> (length (concat b2) < mx)%nat -> (length (concat b3) < mx)%nat -> (length (concat b4) < mx)%nat ->
    same_early y1 col (min_max_recipe col ltb use_min mx) a1 b1 /\
    same_early y2 col (median_recipe col cast Bltb interpolate avg zero mx) a2 b2 /\
    same_early y3 col (mean_recipe (lp := lp) (le := le) col mx) a3 b3 /\
    same_early y4 col (float_mean_recipe (lp := lp) (le := le) col mx) a4 b4.
  Proof using Type.
    intros. repeat split; apply once_same; try assumption; apply learn_once; try assumption; discriminate.
  Qed.
  Lemma scalers_same {I P} (pol : policy P I F) (t : numty p e I) lo hi col mx (bs : list (list I)) (a : ann_maps (fnote I I F)) y1 y2 :
    (col < length a)%nat -> Forall (fun b => b <> []) bs -> bs <> [] -> (length (concat bs) < mx)%nat ->
    same_early y1 col (max_abs_recipe col pol mx) a bs /\ same_early y2 col (min_max_scaler_recipe col t lo hi mx) a bs.
  Proof using Type.
    intros. split; apply once_same; try assumption; apply learn_once; try assumption; discriminate.
  Qed.
End Numbers.
