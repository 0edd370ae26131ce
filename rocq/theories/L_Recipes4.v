(** C80: medians, means, scalers. *)
From Coq Require Import Reals Lra.
From Flocq Require Import Core.Core IEEE754.BinarySingleNaN.
From Verif Require Import Base L_List M_Archive M_Estimator M_Stats M_Encoders M_Impute M_Scale M_FloatStats M_FloatScale M_Pipeline M_Featurizer M_Recipes
  S_Stats S_Impute S_FloatStats S_Scale S_Featurizer L_Estimator L_Stats L_Stats2 L_Stats3 L_Featurizer L_Impute L_Float L_Scale L_Scale2 L_Scale3 L_Scale4 L_Scale5
  L_FloatStats4 L_FloatStats5 L_FloatStats6 L_Recipes L_Recipes3.
Open Scope R_scope.

(** The median of converted values. *)
Section Median.
  Context {p e : Z} {Hp : Prec_gt_0 p} {Hm : Prec_lt_emax p e}.
  Notation F := (binary_float p e).
  Context {I : Type} (cast : I -> option F).
  Lemma median_via (interpolate : bool) mx (bs : list (list I)) (s : list R) : (p <= 53)%Z -> (e <= 1024)%Z -> proper_training mx bs ->
    let l := somes (map cast (items mx bs)) in (forall x, In x l -> is_nan x = false) -> Permutation s (map place l) -> StronglySorted Rle s ->
    (l = [] -> trained (via cast (median_policy Bltb interpolate midpoint fzero)) mx bs = Throw RuntimeError) /\
    (l <> [] -> exists m, trained (via cast (median_policy Bltb interpolate midpoint fzero)) mx bs = Ok (Some m) /\ middle interpolate l s m).
  Proof using Hp Hm.
    intros Hp53 He H l Hn P Ss. rewrite trained_via by exact H.
    pose (bs2 := map (map (fun x => match cast x with Some y => y | None => B754_nan end)) bs : list (list F)).
    assert (N2 : numbers (items mx bs2) = l).
    { unfold bs2, l in *. rewrite items_map. clear - Hn. induction (items mx bs) as [|x r IH]; [reflexivity|].
      cbn [map somes flat_map] in Hn |- *. unfold numbers in *. cbn [filter]. destruct (cast x) as [y|].
      - rewrite (Hn y) by (now left). cbn [negb app]. f_equal. apply IH. intros z Hz. apply Hn. now right.
      - cbn [is_nan negb app]. apply IH. exact Hn. }
    destruct (fmedian_spec interpolate mx bs2 s Hp53 He (proper_map _ mx bs H)) as [M1 M2]; [rewrite N2; exact P|exact Ss|].
    rewrite N2 in M1, M2. rewrite fmedian_as in M1, M2 by (apply proper_map, H).
    assert (G : trained (median_policy Bltb interpolate midpoint fzero) mx (map (map (fun x : F => if is_nan x then None else Some x)) bs2) =
                trained (median_policy Bltb interpolate midpoint fzero) mx (map (map cast) bs)).
    { unfold median_policy. rewrite trained_simple by (apply proper_map, proper_map, H). rewrite trained_simple by (apply proper_map, H).
      unfold bs2. rewrite !items_map.
      assert (Q : map (fun x : F => if is_nan x then None else Some x) (map (fun x => match cast x with Some y => y | None => B754_nan end) (items mx bs)) = map cast (items mx bs)).
      { rewrite map_map. apply map_ext_in. intros x Hx. destruct (cast x) as [y|] eqn:C; [|reflexivity]. rewrite Hn; [reflexivity|].
        unfold l, somes. apply in_flat_map. exists (Some y). split; [|now left]. rewrite <- C. now apply in_map. }
      rewrite Q. reflexivity. }
    rewrite G in M1, M2. split; [exact M1|exact M2].
  Qed.
End Median.

Section MedianImputer.
  Context {p e : Z} {Hp : Prec_gt_0 p} {Hm : Prec_lt_emax p e}.
  Notation F := (binary_float p e).
  Lemma somes_options {I} (cast : I -> F) (l : list (option I)) : somes (map (option_map cast) l) = map cast (somes l).
  Proof. apply somes_map. Qed.
  Lemma median_featurizer {I U} (cast : I -> F) (interpolate : bool) col mx (bs : list (list (option I))) (a : ann_maps (fnote (option I) U F)) (s : list R) :
    (p <= 53)%Z -> (e <= 1024)%Z -> bare a col -> proper_training mx bs -> bs <> [] ->
    let l := map cast (somes (items mx bs)) in (forall x, In x l -> is_nan x = false) -> Permutation s (map place l) -> StronglySorted Rle s ->
    let steps := median_recipe col cast Bltb interpolate midpoint fzero mx in
    (l = [] -> trains_throwing col steps a bs RuntimeError) /\
    (l <> [] -> exists m t, middle interpolate l s m /\ trains_one col steps a bs t /\
       forall rows, delivered t rows = (map (fun x => match x with None => m | Some y => cast y end) rows, Ok tt)).
  Proof using Hp Hm.
    intros Hp53 He Hbare Htrain Hbs l Hn P Ss steps.
    destruct (median_via (option_map cast) interpolate mx bs s Hp53 He Htrain) as [M1 M2].
    { rewrite somes_options. exact Hn. } { rewrite somes_options. exact P. } { exact Ss. }
    rewrite somes_options in M1, M2. fold l in M1, M2. split.
    - intros E. apply (one_throws (F := F)); try assumption; [discriminate|reflexivity|exact (M1 E)].
    - intros E. destruct (M2 E) as (m & T1 & Mid). exists m, (median_imputer cast m). split; [exact Mid|]. split.
      + eapply (one_trains (F := F)); try assumption; [discriminate|reflexivity|exact T1|reflexivity|reflexivity|reflexivity].
      + intros rows. apply (per_value_spec (option I) F _ rows).
  Qed.
End MedianImputer.

Section Mean.
  Context {lp le : Z} {HLp : Prec_gt_0 lp} {HLm : Prec_lt_emax lp le}.
  Lemma with_average_ok {T F} l mn mx : (64 <= lp)%Z -> (1024 <= le)%Z -> l <> [] -> in_i64 (zsum l) = true -> (Z.of_nat (length l) < 2 ^ 64)%Z ->
    is_min Z.ltb mn l -> is_max Z.ltb mx l -> in_i64 mn = true -> in_i64 mx = true ->
    with_average (lp := lp) (le := le) (T := T) (F := F) (mn, mx, Z.of_nat (length l), zsum l) =
      Ok (NStats mn mx (Z.of_nat (length l)) (average (lp := lp) (le := le) (zsum l) (Z.of_nat (length l)))).
  Proof using Type.
    intros H1 H2 H3 H4 H5 H6 H7 H8 H9. unfold with_average. cbn [fst snd].
    destruct (average_ok l mn mx H1 H2 H3 H4 H5 H6 H7 H8 H9) as [A _]. rewrite A. reflexivity.
  Qed.
  Lemma mean_featurizer col mx (bs : list (list (option Z))) (a : ann_maps (fnote (option Z) Z double)) :
    (64 <= lp)%Z -> (1024 <= le)%Z -> bare a col -> proper_training mx bs -> bs <> [] ->
    let data := somes (items mx bs) in (Z.of_nat (length data) < 2 ^ 64)%Z -> Forall (fun x => in_i64 x = true) data ->
    let steps := mean_recipe (lp := lp) (le := le) col mx in
    (data = [] -> trains_throwing col steps a bs RuntimeError) /\
    (forall pre, prefix pre data -> in_i64 (zsum pre) = false -> trains_throwing col steps a bs RuntimeError) /\
    (data <> [] -> (forall pre, prefix pre data -> in_i64 (zsum pre) = true) ->
       exists m t, equals m (r64 (rounded lp le (IZR (zsum data) / IZR (Z.of_nat (length data))))) /\ trains_one col steps a bs t /\
       forall rows, delivered t rows = (map (fun x => match x with None => m | Some y => of_int y end) rows, Ok tt)).
  Proof using Type.
    intros H1 H2 Hbare Htrain Hbs data Hlen Hrange steps. destruct (std_spec mx bs Htrain Hlen Hrange) as (S1 & S2 & S3). split; [|split].
    - intros E. apply (one_throws (F := double)); try assumption; [discriminate|reflexivity|exact (S1 E)].
    - intros pre Hpre Ho. apply (one_throws (F := double)); try assumption; [discriminate|reflexivity|exact (S3 pre Hpre Ho)].
    - intros E Hs. destruct (S2 E Hs) as (mn & mxv & T1 & Mn & Mx).
      assert (Hin : forall x, In x data -> in_i64 x = true) by (apply Forall_forall; exact Hrange).
      assert (Sz : in_i64 (zsum data) = true) by (apply Hs; exists []; now rewrite app_nil_r).
      pose proof (with_average_ok (T := option Z) (F := double) data mn mxv H1 H2 E Sz Hlen Mn Mx (Hin mn (proj1 Mn)) (Hin mxv (proj1 Mx))) as WA.
      destruct (average_ok data mn mxv H1 H2 E Sz Hlen Mn Mx (Hin mn (proj1 Mn)) (Hin mxv (proj1 Mx))) as [_ Av].
      eexists. exists (imputer (of_int : Z -> double) (average (lp := lp) (le := le) (zsum data) (Z.of_nat (length data)))). split; [exact Av|]. split.
      + eapply (one_trains (F := double)); try assumption; [discriminate|reflexivity|exact T1|exact WA|reflexivity|reflexivity].
      + intros rows. apply (per_value_spec (option Z) double _ rows).
  Qed.
  Context {p e : Z} {Hp : Prec_gt_0 p} {Hm : Prec_lt_emax p e}.
  Notation F := (binary_float p e).
  Lemma float_mean_featurizer col mx (bs : list (list F)) (a : ann_maps (fnote F F double)) : bare a col -> proper_training mx bs -> bs <> [] ->
    let steps := float_mean_recipe (lp := lp) (le := le) col mx in
    (forall r, trained (fstats_policy (lp := lp) (le := le)) mx bs = Ok (Some r) -> exists t, trains_one col steps a bs t /\
       forall rows, delivered t rows = (map (fun x => if is_nan x then fr_average r else convert x) rows, Ok tt)) /\
    (forall x, trained (fstats_policy (lp := lp) (le := le)) mx bs = Throw x -> trains_throwing col steps a bs x).
  Proof using Type.
    intros Hbare Htrain Hbs steps. split.
    - intros r T1. exists (per_value (fun x => if is_nan x then fr_average r else convert x)). split.
      + eapply (one_trains (F := double)); try assumption; [discriminate|reflexivity|exact T1|reflexivity|reflexivity|reflexivity].
      + intros rows. apply (per_value_spec F double _ rows).
    - intros x T1. apply (one_throws (F := double)); try assumption; [discriminate|reflexivity].
  Qed.
End Mean.

(** ** Standard scaler: three estimators, the second reads what the first has left. *)
Section Standard.
  Context {lp le : Z} {HLp : Prec_gt_0 lp} {HLm : Prec_lt_emax lp le}.
  Notation L := (binary_float lp le).
  Context {I U P A : Type}.
  Notation ann := (fnote I U L).
  Variables (t : numty 53 1024 I) (stats : policy P I A) (tag : A -> res ann) (average_of : A -> double).
  Variables (col mx : nat) (bs : list (list I)) (a : ann_maps ann).
  Hypothesis Hbare : bare a col.
  Hypothesis Htrain : proper_training mx bs.
  Hypothesis Hbs : bs <> [].
  Variables (wm ws : bool).
  Notation steps := (standard_recipe (lp := lp) (le := le) col t stats tag mx wm ws).
  Lemma standard_sound : sound_chain steps.
  Proof using Htrain.
    destruct Htrain as [H1 _]. clear - H1. unfold standard_recipe. split.
    - constructor; [split; [discriminate|exact H1]|]. constructor; [split; [discriminate|exact H1]|]. constructor; [exact Logic.I|constructor].
    - match goal with |- exists init mk, [?x; ?y; ?z] = _ => exists [x; y] end. eexists. reflexivity.
  Qed.
  Lemma dev_fold (avg : double) (l : list I) : forall s : dev_state (lp := lp) (le := le),
    foldM (fun s x => do d <- dev_fit t (fst s) (snd s) x; Ok (fst s, d)) (avg, s) l = do d <- foldM (dev_fit t avg) s l; Ok (avg, d).
  Proof using Type.
    induction l as [|x r IH]; intros s; [reflexivity|]. cbn [foldM fst snd]. destruct (dev_fit t avg s x); cbn [bind]; [apply IH|reflexivity|reflexivity].
  Qed.
  Lemma standard_eval (apply : double * double -> I -> list I) : learnt apply col steps a bs =
    do o <- trained stats mx bs;
    match o with
    | None => UB
    | Some y => do n <- tag y;
      match as_stats n with
      | None => Throw RuntimeError
      | Some st =>
        do d <- trained (dev_policy t (snd st)) mx bs;
        match d with
        | None => UB
        | Some dev => do s <- standard_create wm ws (snd st) (convert dev : double); Ok (put a col [(stats_name, [n]); (deviation_name, [NDeviation dev])], [s])
        end
      end
    end.
  Proof using Hbare Htrain.
    pose proof (bare_len a col Hbare) as Hl. rewrite (put_bare a col Hbare) at 1. unfold standard_recipe.
    rewrite learnt_learn by (try exact Hl; try exact Htrain; try discriminate; reflexivity).
    destruct (trained stats mx bs) as [[y|]|x|]; cbn [bind]; [|reflexivity|reflexivity|reflexivity].
    destruct (tag y) as [n|x|]; cbn [bind]; [|reflexivity|reflexivity].
    unfold deviation_step. cbn [learnt]. rewrite present_put by (try exact Hl; discriminate).
    change (col_find (col_add [] stats_name n) deviation_name) with (@None (list ann)). cbn [andb].
    unfold taught. cbn [sp_begin sp_init sp_fit sp_complete]. rewrite read_put by (try exact Hl; discriminate).
    change (col_find (col_add [] stats_name n) stats_name) with (Some [n]). cbn [find]. unfold is_kind at 1.
    destruct (as_stats n) as [st|] eqn:An; cbn [bind]; [|reflexivity]. rewrite An. cbn [bind snd fst].
    rewrite dev_fold. unfold dev_policy. rewrite trained_simple by exact Htrain.
    destruct (foldM (dev_fit t (snd st)) (fzero, false, 0%Z) (items mx bs)) as [q|x|]; cbn [bind snd]; [|reflexivity|reflexivity].
    destruct (dev_commit q) as [dev|x|]; cbn [bind]; [|reflexivity|reflexivity].
    rewrite add_put by exact Hl. cbn [bind].
    change (col_add (col_add [] stats_name n) deviation_name (NDeviation dev)) with [(stats_name, [n]); (deviation_name, [NDeviation dev])].
    rewrite !read_put by (try exact Hl; discriminate).
    change (col_find [(stats_name, [n]); (deviation_name, [NDeviation dev])] stats_name) with (Some [n]).
    change (col_find [(stats_name, [n]); (deviation_name, [NDeviation dev])] deviation_name) with (Some [NDeviation dev : ann]).
    cbn [find]. unfold is_kind. rewrite An. cbn [as_deviation bind]. rewrite An. cbn [bind].
    destruct wm, ws; cbn [bind]; unfold standard_create; destruct (standard_new _) as [s|x|]; reflexivity.
  Qed.
  Hypothesis Htag : forall y, match tag y with Ok n => exists st, as_stats n = Some st /\ snd st = average_of y | Throw x => True | UB => True end.
  Lemma standard_featurizer_gen :
    (forall s, standard_trained (lp := lp) (le := le) t (fun mx bs => do o <- trained stats mx bs; match o with None => Ok None | Some y => do n <- tag y; Ok (Some (average_of y)) end) wm ws mx bs = Ok (Some s) ->
       trains_one col steps a bs s) /\
    (forall x, standard_trained (lp := lp) (le := le) t (fun mx bs => do o <- trained stats mx bs; match o with None => Ok None | Some y => do n <- tag y; Ok (Some (average_of y)) end) wm ws mx bs = Throw x ->
       trains_throwing col steps a bs x).
  Proof using Hbare Htrain Hbs Htag.
    unfold standard_trained. split.
    - intros s. destruct (trained stats mx bs) as [[y|]|x|] eqn:E1; cbn [bind]; [|discriminate|discriminate|discriminate].
      specialize (Htag y). destruct (tag y) as [n|x|] eqn:E2; cbn [bind]; [|discriminate|discriminate]. destruct Htag as (st & E3 & E4).
      rewrite <- E4. destruct (trained (dev_policy t (snd st)) mx bs) as [[dev|]|x|] eqn:E5; cbn [bind]; [|discriminate|discriminate|discriminate].
      destruct (standard_create wm ws (snd st) (convert dev)) as [s'|x|] eqn:E6; cbn [bind]; [|discriminate|discriminate]. intros E. injection E as <-.
      eexists. split; [apply put_others|]. intros apply.
      pose proof (trains_learnt apply col steps a bs mx standard_sound (bare_len a col Hbare) Htrain Hbs) as TL.
      rewrite standard_eval, E1 in TL. cbn [bind] in TL. rewrite E2 in TL. cbn [bind] in TL. rewrite E3, E5 in TL. cbn [bind] in TL. rewrite E6 in TL. exact TL.
    - intros x H apply.
      pose proof (trains_learnt apply col steps a bs mx standard_sound (bare_len a col Hbare) Htrain Hbs) as TL. rewrite standard_eval in TL. revert H TL.
      destruct (trained stats mx bs) as [[y|]|x'|] eqn:E1; cbn [bind]; [|discriminate| |discriminate].
      2:{ intros E. injection E as ->. tauto. }
      specialize (Htag y). destruct (tag y) as [n|x'|] eqn:E2; cbn [bind]; [| |discriminate].
      2:{ intros E. injection E as ->. tauto. }
      destruct Htag as (st & E3 & E4). rewrite <- E4, E3.
      destruct (trained (dev_policy t (snd st)) mx bs) as [[dev|]|x'|] eqn:E5; cbn [bind]; [|discriminate| |discriminate].
      2:{ intros E. injection E as ->. tauto. }
      destruct (standard_create wm ws (snd st) (convert dev)) as [s'|x'|] eqn:E6; cbn [bind]; [discriminate| |discriminate]. intros E. injection E as ->. tauto.
  Qed.
End Standard.
