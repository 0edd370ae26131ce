(** C80: chains in general. *)
From Coq Require Import Reals Lra.
From Flocq Require Import Core.Core IEEE754.BinarySingleNaN.
From Verif Require Import Base L_List M_Archive M_Estimator M_Stats M_Encoders M_Impute M_Scale M_FloatStats M_FloatScale M_Pipeline M_Featurizer M_Recipes
  S_Stats S_Featurizer L_Estimator L_Featurizer L_Recipes L_Recipes3 L_Recipes5.
Close Scope R_scope.
Open Scope nat_scope.

Section Chains.
  Context {V Ann Tr : Type} (apply : Tr -> V -> list V).
  Lemma concat_behind (t : Tr) (bs : list (list V)) : concat (behind apply t bs) = flat_map (apply t) (concat bs).
  Proof using Type.
    unfold behind. induction bs as [|b r IH]; [reflexivity|]. cbn [map filter concat]. rewrite flat_map_app, <- IH.
    destruct (flat_map (apply t) b); reflexivity.
  Qed.
  Lemma learnt_batching col (steps : list (fstep V Ann Tr)) : forall a bs bs', concat bs = concat bs' -> learnt apply col steps a bs = learnt apply col steps a bs'.
  Proof using Type.
    induction steps as [|st r IH]; intros a bs bs' E; [reflexivity|]. destruct st as [P required nm is_t mx pol|mk]; cbn [learnt].
    - destruct (required && present is_t a col nm); [apply IH, E|].
      assert (T : taught pol mx a bs = taught pol mx a bs') by (unfold taught, items; rewrite E; reflexivity). rewrite T.
      destruct (if required then taught pol mx a bs' else sp_complete pol a (sp_init pol)) as [n|x|]; cbn [bind]; [|reflexivity|reflexivity].
      destruct (add_annotation a (Some n) col nm) as [a'|x|]; cbn [bind]; [apply IH, E|reflexivity|reflexivity].
    - destruct (mk a) as [t|x|]; cbn [bind]; [|reflexivity|reflexivity].
      rewrite (IH a (behind apply t bs) (behind apply t bs')); [reflexivity|]. rewrite !concat_behind, E. reflexivity.
  Qed.
  Lemma chain_training col (steps : list (fstep V Ann Tr)) (a : ann_maps Ann) bs : sound_chain steps -> col < length a -> Forall (fun b => b <> []) bs -> bs <> [] ->
    trains_to apply col steps a bs (learnt apply col steps a bs).
  Proof using Type. intros S H Hne Hbs. exact (featurize_spec apply col bs Hne Hbs steps a S H). Qed.
  Lemma trains_unique col (steps : list (fstep V Ann Tr)) a bs r1 r2 : trains_to apply col steps a bs r1 -> trains_to apply col steps a bs r2 -> r1 = r2.
  Proof using Type. intros [n H] [m G]. specialize (H (Nat.max n m) ltac:(lia)). specialize (G (Nat.max n m) ltac:(lia)). congruence. Qed.
  Lemma chain_batching col (steps : list (fstep V Ann Tr)) (a : ann_maps Ann) bs bs' r : sound_chain steps -> col < length a ->
    Forall (fun b => b <> []) bs -> bs <> [] -> Forall (fun b => b <> []) bs' -> bs' <> [] -> concat bs = concat bs' ->
    trains_to apply col steps a bs r -> trains_to apply col steps a bs' r.
  Proof using Type.
    intros S H H1 H2 H3 H4 E T. pose proof (chain_training col steps a bs S H H1 H2) as T1. pose proof (chain_training col steps a bs' S H H3 H4) as T2.
    rewrite (trains_unique _ _ _ _ _ _ T T1), (learnt_batching col steps a bs bs' E). exact T2.
  Qed.
  (** An annotation that is there already is not learnt again. *)
  Lemma chain_existing col {P} nm is_t mx (pol : spolicy V Ann P) (steps : list (fstep V Ann Tr)) (a : ann_maps Ann) bs n r :
    sound_chain steps -> nm <> [] -> 1 <= mx -> col < length a -> Forall (fun b => b <> []) bs -> bs <> [] ->
    get_annotation is_t a col nm = Ok (Some n) ->
    (trains_to apply col (Note true nm is_t mx pol :: steps) a bs r <-> trains_to apply col steps a bs r).
  Proof using Type.
    intros S Hnm Hmx H H1 H2 G.
    assert (S' : sound_chain (Note true nm is_t mx pol :: steps)).
    { destruct S as [S1 (init & mk & S2)]. split; [constructor; [split; assumption|exact S1]|].
      exists (Note true nm is_t mx pol :: init), mk. rewrite S2. reflexivity. }
    pose proof (chain_training col _ a bs S' H H1 H2) as T1. pose proof (chain_training col _ a bs S H H1 H2) as T2.
    cbn [learnt] in T1. unfold present in T1. rewrite G in T1. cbn [andb] in T1.
    split; intros T.
    - rewrite (trains_unique _ _ _ _ _ _ T T1). exact T2.
    - rewrite (trains_unique _ _ _ _ _ _ T T2). exact T1.
  Qed.
End Chains.

Section Reused.
  Context {prec emax : Z} {Hp : Prec_gt_0 prec} {Hm : Prec_lt_emax prec emax}.
  Notation F := (binary_float prec emax).
  Lemma max_abs_twice (apply : F -> F -> list F) col mx mx' (bs : list (list F)) (a : ann_maps (fnote F F F)) scale :
    bare a col -> proper_training mx bs -> bs <> [] -> 1 <= mx' -> trained ma_policy mx bs = Ok (Some scale) ->
    exists a', trains_to apply col (max_abs_recipe col ma_policy mx ++ max_abs_recipe col ma_policy mx') a bs (Ok (a', [scale; scale])).
  Proof using Type.
    intros H1 H2 H3 Hmx' T1. exists (put a col [(maxabs_name, [NMaxAbs scale])]).
    set (steps := max_abs_recipe col ma_policy mx ++ max_abs_recipe col ma_policy mx').
    assert (E : learnt apply col steps a bs = Ok (put a col [(maxabs_name, [NMaxAbs scale])], [scale; scale])).
    { unfold steps, max_abs_recipe. cbn [app]. pose proof (bare_len a col H1) as Hl. rewrite (put_bare a col H1) at 1.
      rewrite learnt_learn by (try exact Hl; try exact H2; try discriminate; reflexivity). rewrite T1. cbn [bind].
      unfold learn. cbn [learnt]. rewrite read_put, present_put by (try exact Hl; discriminate).
      change (col_find (col_add [] maxabs_name (NMaxAbs scale)) maxabs_name) with (Some [NMaxAbs scale : fnote F F F]).
      cbn [find existsb is_kind as_maxabs orb andb bind fst snd].
      reflexivity. }
    rewrite <- E. destruct H2 as [G1 G2]. apply chain_training; [|exact (bare_len a col H1)|exact G2|exact H3].
    split.
    - unfold steps, max_abs_recipe. cbn [app]. repeat (constructor; [first [exact Logic.I|split; [discriminate|assumption]]|]). constructor.
    - exists [learn maxabs_name as_maxabs (fun m : F => Ok (NMaxAbs m)) mx ma_policy; Make (read as_maxabs col maxabs_name);
              learn maxabs_name as_maxabs (fun m : F => Ok (NMaxAbs m)) mx' ma_policy]. eexists. reflexivity.
  Qed.
End Reused.
