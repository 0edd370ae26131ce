(** C80: imputers and scalers of numbers, from the first row of training to the transformer. *)
From Coq Require Import Reals Lra.
From Flocq Require Import Core.Core IEEE754.BinarySingleNaN.
From Verif Require Import Base L_List M_Archive M_Estimator M_Stats M_Encoders M_Impute M_Scale M_FloatStats M_FloatScale M_Pipeline M_Featurizer M_Recipes
  S_Stats S_Impute S_FloatStats S_Scale S_Featurizer L_Estimator L_Stats L_Stats2 L_Stats3 L_Featurizer L_Impute L_Float L_Scale L_Scale2 L_Scale3 L_Scale4 L_Scale5 L_FloatStats6 L_Recipes.
Close Scope R_scope.

Lemma trained_via {P V W A} (f : V -> W) (pol : policy P W A) mx bs : proper_training mx bs ->
  trained (via f pol) mx bs = trained pol mx (map (map f) bs).
Proof.
  intros [H1 H2]. rewrite trained_eq by assumption. rewrite trained_eq.
  2:{ exact H1. }
  2:{ apply Forall_forall. intros b Hb. apply in_map_iff in Hb. destruct Hb as (b0 & <- & Hb).
      rewrite Forall_forall in H2. specialize (H2 b0 Hb). destruct b0; [contradiction|discriminate]. }
  cbn [via p_begin p_init p_fit p_complete]. rewrite <- concat_map, firstn_map.
  assert (G : forall l p, foldM (fun p x => p_fit pol p (f x)) p l = foldM (p_fit pol) p (map f l)).
  { induction l as [|x r IH]; intros p; [reflexivity|]. cbn [foldM map]. destruct (p_fit pol p (f x)); cbn [bind]; [apply IH|reflexivity|reflexivity]. }
  destruct (p_begin pol (p_init pol)) as [[p b]|e|]; cbn [bind]; [|reflexivity|reflexivity]. rewrite G. reflexivity.
Qed.
Lemma proper_map {V W} (f : V -> W) mx bs : proper_training mx bs -> proper_training mx (map (map f) bs).
Proof.
  intros [H1 H2]. split; [exact H1|]. apply Forall_forall. intros b Hb. apply in_map_iff in Hb. destruct Hb as (b0 & <- & Hb).
  rewrite Forall_forall in H2. specialize (H2 b0 Hb). destruct b0; [contradiction|discriminate].
Qed.
Lemma items_map {V W} (f : V -> W) mx bs : items mx (map (map f) bs) = map f (items mx bs).
Proof. unfold items. rewrite <- concat_map, firstn_map. reflexivity. Qed.
Lemma somes_some {A} (l : list A) : somes (map Some l) = l.
Proof. induction l as [|x r IH]; [reflexivity|]. cbn [map somes flat_map app]. f_equal. exact IH. Qed.

(** Chains of one learning estimator and the one that makes the transformer. *)
Section One.
  Context {T U F V Tr P A X : Type}.
  Notation ann := (fnote T U F).
  Variables (col : nat) (nm : name) (pick : ann -> option X) (tag : A -> res ann) (mx : nat) (pol : policy P V A) (mk : X -> res Tr).
  Variables (bs : list (list V)) (a : ann_maps ann).
  Hypothesis Hnm : nm <> [].
  Hypothesis Hbare : bare a col.
  Hypothesis Htrain : proper_training mx bs.
  Hypothesis Hbs : bs <> [].
  Hypothesis Hself : name_eqb nm nm = true.
  Notation steps := [learn nm pick tag mx pol; Make (fun a => do x <- read pick col nm a; mk x)].
  Lemma one_sound : sound_chain steps.
  Proof using Htrain Hnm.
    destruct Htrain as [H1 _]. clear - H1 Hnm. split; [|exists [learn nm pick tag mx pol]; eexists; reflexivity].
    constructor; [split; assumption|]. constructor; [exact Logic.I|constructor].
  Qed.
  Lemma one_eval (apply : Tr -> V -> list V) : learnt apply col steps a bs =
    do o <- trained pol mx bs;
    match o with None => UB | Some y => do n <- tag y;
      match pick n with None => Throw RuntimeError | Some x => do t <- mk x; Ok (put a col [(nm, [n])], [t]) end end.
  Proof using Hnm Hbare Htrain Hself.
    pose proof (bare_len a col Hbare) as Hl. rewrite (put_bare a col Hbare) at 1.
    rewrite learnt_learn by (try exact Hl; try exact Htrain; try exact Hnm; reflexivity).
    destruct (trained pol mx bs) as [[y|]|e|]; cbn [bind]; [|reflexivity|reflexivity|reflexivity].
    destruct (tag y) as [n|e|]; cbn [bind]; [|reflexivity|reflexivity].
    rewrite learnt_make, read_put by (try exact Hl; exact Hnm). cbn [col_add col_find]. rewrite Hself. cbn [find].
    unfold is_kind. destruct (pick n) eqn:Pn; cbn [bind]; [|reflexivity]. rewrite Pn. cbn [bind]. destruct (mk x); reflexivity.
  Qed.
  Lemma one_trains y n x t : trained pol mx bs = Ok (Some y) -> tag y = Ok n -> pick n = Some x -> mk x = Ok t -> trains_one col steps a bs t.
  Proof using Hnm Hbare Htrain Hself Hbs.
    intros E1 E2 E3 E4. eexists. split; [apply put_others|]. intros apply.
    pose proof (trains_learnt apply col steps a bs mx one_sound (bare_len a col Hbare) Htrain Hbs) as TL.
    rewrite one_eval, E1 in TL. cbn [bind] in TL. rewrite E2 in TL. cbn [bind] in TL. rewrite E3, E4 in TL. exact TL.
  Qed.
  Lemma one_throws e : trained pol mx bs = Throw e -> trains_throwing col steps a bs e.
  Proof using Hnm Hbare Htrain Hself Hbs.
    intros E1 apply. pose proof (trains_learnt apply col steps a bs mx one_sound (bare_len a col Hbare) Htrain Hbs) as TL.
    rewrite one_eval, E1 in TL. exact TL.
  Qed.
End One.

Section MinMax.
  Context {T : Type} (ltb : T -> T -> bool).
  Hypothesis Hirr : forall x, ltb x x = false.
  Hypothesis Htr : forall x y z, ltb x y = true -> ltb y z = true -> ltb x z = true.
  Hypothesis Htot : forall x y, ltb x y = false -> ltb y x = false -> x = y.
  Variables (use_min : bool) (col mx : nat) (bs : list (list (option T))) (a : ann_maps (fnote (option T) T T)).
  Hypothesis Hbare : bare a col.
  Hypothesis Htrain : proper_training mx bs.
  Hypothesis Hbs : bs <> [].
  Hypothesis Hlen : Z.of_nat (length (somes (items mx bs))) < 2 ^ 64.
  Lemma min_max_featurizer :
    (somes (items mx bs) = [] -> trains_throwing col (min_max_recipe col ltb use_min mx) a bs RuntimeError) /\
    (somes (items mx bs) <> [] -> exists v t, (if use_min then is_min ltb v (somes (items mx bs)) else is_max ltb v (somes (items mx bs))) /\
       trains_one col (min_max_recipe col ltb use_min mx) a bs t /\ forall l, delivered t l = (map (replace_null v) l, Ok tt)).
  Proof using All.
    destruct (basic_stats_spec ltb Hirr Htr Htot mx bs Htrain Hlen) as [B1 B2]. split.
    - intros E. apply (one_throws (F := T)); try assumption; [discriminate|reflexivity|]. exact (B1 E).
    - intros E. destruct (B2 E) as (mn & mxv & B & M1 & M2).
      exists (if use_min then mn else mxv), (min_max_imputer use_min mn mxv). split; [destruct use_min; assumption|]. split.
      + eapply (one_trains (F := T)); try assumption; [discriminate|reflexivity|exact B|reflexivity|reflexivity|reflexivity].
      + intros l. apply (per_value_spec (option T) T _ l).
  Qed.
End MinMax.
