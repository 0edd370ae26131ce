(** C80: the scalers, specialised to the columns the library offers. *)
From Coq Require Import Reals Lra.
From Flocq Require Import Core.Core IEEE754.BinarySingleNaN.
From Verif Require Import Base L_List M_Archive M_Estimator M_Stats M_Encoders M_Impute M_Scale M_FloatStats M_FloatScale M_Pipeline M_Featurizer M_Recipes
  S_Stats S_Window S_Impute S_FloatStats S_Scale S_Featurizer L_Estimator L_Stats L_Stats2 L_Stats3 L_Featurizer L_Impute L_Float L_Scale L_Scale2 L_Scale3 L_Scale4 L_Scale5
  L_FloatStats4 L_FloatStats5 L_FloatStats6 L_Recipes L_Recipes3 L_Recipes4.
Open Scope R_scope.

Lemma training_not_empty {V} mx (bs : list (list V)) : proper_training mx bs -> bs <> [] -> items mx bs <> [].
Proof.
  intros [H1 H2] H. destruct bs as [|b r]; [contradiction|]. pose proof (Forall_inv H2) as Hb. destruct b as [|x b]; [contradiction|].
  unfold items. cbn [concat app]. destruct mx; [lia|discriminate].
Qed.

Section Standard.
  Context {lp le : Z} {HLp : Prec_gt_0 lp} {HLm : Prec_lt_emax lp le}.
  Notation L := (binary_float lp le).
  Lemma standard_stats {I} (t : numty 53 1024 I) (f g : nat -> list (list I) -> res (option double)) wm ws mx bs : f mx bs = g mx bs ->
    standard_trained (lp := lp) (le := le) t f wm ws mx bs = standard_trained (lp := lp) (le := le) t g wm ws mx bs.
  Proof using Type. intros E. unfold standard_trained. rewrite E. reflexivity. Qed.
  Lemma standard_int_featurizer (t : numty 53 1024 Z) col mx (bs : list (list Z)) (a : ann_maps (fnote Z Z L)) (wm ws : bool) :
    bare a col -> proper_training mx bs -> bs <> [] ->
    let steps := standard_recipe (lp := lp) (le := le) col t (via Some std_stats_policy) with_average mx wm ws in
    (forall s, standard_trained (lp := lp) (le := le) t (int_average (lp := lp) (le := le)) wm ws mx bs = Ok (Some s) -> trains_one col steps a bs s) /\
    (forall x, standard_trained (lp := lp) (le := le) t (int_average (lp := lp) (le := le)) wm ws mx bs = Throw x -> trains_throwing col steps a bs x).
  Proof using Type.
    intros H1 H2 H3 steps.
    pose (average_of := fun y : Z * Z * Z * Z => average (lp := lp) (le := le) (snd y) (snd (fst y))).
    destruct (standard_featurizer_gen (lp := lp) (le := le) (U := Z) t (via Some std_stats_policy) with_average average_of col mx bs a H1 H2 H3 wm ws) as [A B].
    { intros [[[mn mxv] c] sm]. unfold with_average. cbn [fst snd]. destruct (average_accepted _ _ _); [|exact Logic.I].
      eexists. split; reflexivity. }
    assert (E : forall mx bs, proper_training mx bs -> (do o <- trained (via Some std_stats_policy) mx bs;
       match o with None => Ok None | Some y => do n <- with_average (lp := lp) (le := le) (T := Z) (F := L) y; Ok (Some (average_of y)) end) = int_average (lp := lp) (le := le) mx bs).
    { clear. intros mx bs H. unfold int_average. rewrite trained_via by exact H.
      destruct (trained std_stats_policy mx (map (map Some) bs)) as [[[[[mn mxv] c] sm]|]|x|]; cbn [bind]; [|reflexivity|reflexivity|reflexivity].
      unfold with_average, average_of. cbn [fst snd]. destruct (average_accepted _ _ _); reflexivity. }
    specialize (E mx bs H2). split.
    - intros s Hs. apply A. rewrite <- Hs. apply standard_stats. exact E.
    - intros x Hs. apply B. rewrite <- Hs. apply standard_stats. exact E.
  Qed.
  Context {p e : Z} {Hp : Prec_gt_0 p} {Hm : Prec_lt_emax p e}.
  Notation F := (binary_float p e).
  Lemma standard_float_featurizer (t : numty 53 1024 F) col mx (bs : list (list F)) (a : ann_maps (fnote F F L)) (wm ws : bool) :
    bare a col -> proper_training mx bs -> bs <> [] ->
    let steps := standard_recipe (lp := lp) (le := le) col t (fstats_policy (lp := lp) (le := le)) float_stats mx wm ws in
    (forall s, standard_trained (lp := lp) (le := le) t (float_average (lp := lp) (le := le)) wm ws mx bs = Ok (Some s) -> trains_one col steps a bs s) /\
    (forall x, standard_trained (lp := lp) (le := le) t (float_average (lp := lp) (le := le)) wm ws mx bs = Throw x -> trains_throwing col steps a bs x).
  Proof using Type.
    intros H1 H2 H3 steps.
    destruct (standard_featurizer_gen (lp := lp) (le := le) (U := F) t (fstats_policy (lp := lp) (le := le)) float_stats fr_average col mx bs a H1 H2 H3 wm ws) as [A B].
    { intros y. cbn. eexists. split; reflexivity. }
    assert (E : (do o <- trained (fstats_policy (lp := lp) (le := le)) mx bs;
       match o with None => Ok None | Some y => do n <- float_stats (T := F) (F := L) y; Ok (Some (fr_average y)) end) = float_average (lp := lp) (le := le) mx bs).
    { unfold float_average. destruct (trained (fstats_policy (lp := lp) (le := le)) mx bs) as [[y|]|x|]; reflexivity. }
    split.
    - intros s Hs. apply A. rewrite <- Hs. apply standard_stats. exact E.
    - intros x Hs. apply B. rewrite <- Hs. apply standard_stats. exact E.
  Qed.
End Standard.

(** ** Two learning estimators and the one that makes the transformer. *)
Section Two.
  Context {T U F V Tr P1 A1 X1 P2 A2 X2 : Type}.
  Notation ann := (fnote T U F).
  Variables (col : nat) (nm1 nm2 : name) (pick1 : ann -> option X1) (pick2 : ann -> option X2) (tag1 : A1 -> res ann) (tag2 : A2 -> res ann) (mx : nat).
  Variables (pol1 : policy P1 V A1) (pol2 : policy P2 V A2) (mk : ann_maps ann -> res Tr).
  Variables (bs : list (list V)) (a : ann_maps ann).
  Hypothesis Hnm1 : nm1 <> [].
  Hypothesis Hnm2 : nm2 <> [].
  Hypothesis H12 : name_eqb nm1 nm2 = false.
  Hypothesis Hbare : bare a col.
  Hypothesis Htrain : proper_training mx bs.
  Hypothesis Hbs : bs <> [].
  Notation steps := [learn nm1 pick1 tag1 mx pol1; learn nm2 pick2 tag2 mx pol2; Make mk].
  Lemma two_sound : sound_chain steps.
  Proof using Htrain Hnm1 Hnm2.
    destruct Htrain as [H1 _]. clear - H1 Hnm1 Hnm2. split.
    - constructor; [split; assumption|]. constructor; [split; assumption|]. constructor; [exact Logic.I|constructor].
    - exists [learn nm1 pick1 tag1 mx pol1; learn nm2 pick2 tag2 mx pol2]. eexists. reflexivity.
  Qed.
  Lemma two_eval (apply : Tr -> V -> list V) : learnt apply col steps a bs =
    do o1 <- trained pol1 mx bs;
    match o1 with None => UB | Some y1 => do n1 <- tag1 y1;
    do o2 <- trained pol2 mx bs;
    match o2 with None => UB | Some y2 => do n2 <- tag2 y2;
    let a' := put a col [(nm1, [n1]); (nm2, [n2])] in do t <- mk a'; Ok (a', [t]) end end.
  Proof using Hnm1 Hnm2 H12 Hbare Htrain.
    pose proof (bare_len a col Hbare) as Hl. rewrite (put_bare a col Hbare) at 1.
    rewrite learnt_learn by (try exact Hl; try exact Htrain; try exact Hnm1; reflexivity).
    destruct (trained pol1 mx bs) as [[y1|]|e|]; cbn [bind]; [|reflexivity|reflexivity|reflexivity].
    destruct (tag1 y1) as [n1|e|]; cbn [bind]; [|reflexivity|reflexivity].
    rewrite learnt_learn; [|exact Hl|exact Hnm2| |exact Htrain].
    2:{ cbn [col_add col_find]. rewrite H12. reflexivity. }
    destruct (trained pol2 mx bs) as [[y2|]|e|]; cbn [bind]; [|reflexivity|reflexivity|reflexivity].
    destruct (tag2 y2) as [n2|e|]; cbn [bind]; [|reflexivity|reflexivity].
    rewrite learnt_make. cbn [col_add]. rewrite H12. reflexivity.
  Qed.
  Lemma two_trains y1 n1 y2 n2 t : trained pol1 mx bs = Ok (Some y1) -> tag1 y1 = Ok n1 -> trained pol2 mx bs = Ok (Some y2) -> tag2 y2 = Ok n2 ->
    mk (put a col [(nm1, [n1]); (nm2, [n2])]) = Ok t -> trains_one col steps a bs t.
  Proof using All.
    intros E1 E2 E3 E4 E5. eexists. split; [apply put_others|]. intros apply.
    pose proof (trains_learnt apply col steps a bs mx two_sound (bare_len a col Hbare) Htrain Hbs) as TL.
    rewrite two_eval, E1 in TL. cbn [bind] in TL. rewrite E2 in TL. cbn [bind] in TL. rewrite E3 in TL. cbn [bind] in TL. rewrite E4 in TL. cbn [bind] in TL.
    cbv zeta in TL. rewrite E5 in TL. exact TL.
  Qed.
  Lemma two_throws1 e : trained pol1 mx bs = Throw e -> trains_throwing col steps a bs e.
  Proof using All.
    intros E1 apply. pose proof (trains_learnt apply col steps a bs mx two_sound (bare_len a col Hbare) Htrain Hbs) as TL.
    rewrite two_eval, E1 in TL. exact TL.
  Qed.
  Lemma two_throws2 y1 n1 e : trained pol1 mx bs = Ok (Some y1) -> tag1 y1 = Ok n1 -> trained pol2 mx bs = Throw e -> trains_throwing col steps a bs e.
  Proof using All.
    intros E1 E2 E3 apply. pose proof (trains_learnt apply col steps a bs mx two_sound (bare_len a col Hbare) Htrain Hbs) as TL.
    rewrite two_eval, E1 in TL. cbn [bind] in TL. rewrite E2 in TL. cbn [bind] in TL. rewrite E3 in TL. exact TL.
  Qed.
End Two.

Section Robust.
  Context {lp le : Z} {HLp : Prec_gt_0 lp} {HLm : Prec_lt_emax lp le}.
  Context {prec emax : Z} {Hp : Prec_gt_0 prec} {Hm : Prec_lt_emax prec emax}.
  Notation F := (binary_float prec emax).
  Lemma of_int_number (x : Z) : is_nan (of_int x : F) = false.
  Proof using Type.
    unfold of_int. pose proof (binary_normalize_correct prec emax Hp Hm mode_NE x 0 false) as B.
    cbv zeta in B. match type of B with if ?c then _ else _ => destruct c end.
    - destruct B as (_ & B & _). destruct (binary_normalize prec emax Hp Hm mode_NE x 0 false); try discriminate B; reflexivity.
    - rewrite <- is_nan_SF_B2SF, B. unfold binary_overflow. destruct (overflow_to_inf _ _); reflexivity.
  Qed.
  Lemma robust_featurizer signed w (wc : bool) (qmin qmax : float32) q col mx (bs : list (list Z)) (a : ann_maps (fnote Z Z F)) (s : list R) :
    (64 <= lp)%Z -> (1024 <= le)%Z -> (24 <= prec <= 53)%Z -> (128 <= emax <= 1024)%Z -> (1 <= w <= 8)%nat -> robust_params qmin qmax = Ok q ->
    bare a col -> proper_training mx bs -> bs <> [] ->
    let data := items mx bs in (Z.of_nat (length data) < 2 ^ 64)%Z -> Forall (fun x => fits signed w x = true /\ in_i64 x = true) data ->
    let l := map of_int data : list F in Permutation s (map place l) -> StronglySorted Rle s ->
    let steps := robust_recipe (lp := lp) (le := le) col signed w mx wc q in
    (forall pre, prefix pre data -> in_i64 (zsum pre) = false -> trains_throwing col steps a bs RuntimeError) /\
    ((forall pre, prefix pre data -> in_i64 (zsum pre) = true) ->
     (w < 4)%nat \/ (forall x y, In x data -> In y data -> (x <= y)%Z -> fits signed w (y - x) = true) ->
     exists m mn mxv t, middle true l s m /\ is_min Z.ltb mn data /\ is_max Z.ltb mxv data /\ trains_one col steps a bs t /\
       fst t = (if wc then m else fzero) /\ is_finite (snd t) = true /\ (is_nan qmin = true -> B2R (snd t) = 1) /\
       (is_nan qmin = false -> 0 <= B2R (snd t) <= r32 (IZR (mxv - mn)) /\
          B2R (snd t) = r32 (r32 (IZR (mxv - mn)) * r32 (r32 (B2R qmax - B2R qmin) / 100)))).
  Proof using Type.
    intros HL1 HL2 HP HE Hw Hq Hbare Htrain Hbs data Hlen Hrange l Hs Ss steps.
    destruct (median_via (I := Z) (fun x => Some (of_int x : F)) true mx bs s (proj2 HP) (proj2 HE) Htrain) as [_ M].
    { replace (somes (map (fun x => Some (of_int x : F)) (items mx bs))) with l.
      - intros x Hx. apply in_map_iff in Hx. destruct Hx as (y & <- & _). apply of_int_number.
      - unfold l, data. rewrite <- (somes_some (map of_int (items mx bs))), map_map. reflexivity. }
    { replace (somes (map (fun x => Some (of_int x : F)) (items mx bs))) with l; [exact Hs|].
      unfold l, data. rewrite <- (somes_some (map of_int (items mx bs))), map_map. reflexivity. }
    { exact Ss. }
    replace (somes (map (fun x => Some (of_int x : F)) (items mx bs))) with l in M.
    2:{ unfold l, data. rewrite <- (somes_some (map of_int (items mx bs))), map_map. reflexivity. }
    pose proof (training_not_empty mx bs Htrain Hbs) as Hne. fold data in Hne.
    destruct M as (m & T1 & Mid). { unfold l. intros E. apply map_eq_nil in E. contradiction. }
    assert (D : somes (items mx (map (map Some) bs)) = data) by (rewrite items_map, somes_some; reflexivity).
    assert (Hin : forall x, In x data -> in_i64 x = true) by (intros x Hx; rewrite Forall_forall in Hrange; apply (Hrange x Hx)).
    destruct (std_spec mx (map (map Some) bs) (proper_map Some mx bs Htrain)) as (_ & S2 & S3).
    { rewrite D. exact Hlen. } { rewrite D. apply Forall_forall. exact Hin. }
    rewrite D in S2, S3. split.
    - intros pre Hpre Ho. eapply (two_throws2 (F := F)); try assumption; [discriminate|discriminate|reflexivity|exact T1|reflexivity|].
      rewrite trained_via by exact Htrain. exact (S3 pre Hpre Ho).
    - intros Hsum Hfit. destruct (S2 Hne Hsum) as (mn & mxv & T2 & Mn & Mx).
      assert (Sz : in_i64 (zsum data) = true) by (apply Hsum; exists []; now rewrite app_nil_r).
      pose proof (with_average_ok (lp := lp) (le := le) (T := Z) (F := F) data mn mxv HL1 HL2 Hne Sz Hlen Mn Mx (Hin mn (proj1 Mn)) (Hin mxv (proj1 Mx))) as WA.
      assert (Hle : (mn <= mxv)%Z). { destruct Mn as [M1 M2], Mx as [M3 M4]. specialize (M2 mxv M3). apply Z.ltb_ge in M2. exact M2. }
      assert (Fm : forall x, In x data -> fits signed w x = true) by (intros x Hx; rewrite Forall_forall in Hrange; apply (Hrange x Hx)).
      destruct (robust_create_ok signed w wc qmin qmax q m mn mxv (proj1 HP) (proj1 HE) Hw Hq Hle (Fm mn (proj1 Mn)) (Fm mxv (proj1 Mx))) as (t & C1 & C2 & C3 & C4 & C5).
      { destruct Hfit as [Hf|Hf]; [now left|right]. apply Hf; [exact (proj1 Mn)|exact (proj1 Mx)|exact Hle]. }
      exists m, mn, mxv, t. split; [exact Mid|]. split; [exact Mn|]. split; [exact Mx|]. split.
      + rewrite <- trained_via in T2 by exact Htrain.
        eapply (two_trains (F := F)); try assumption; [discriminate|discriminate|reflexivity|exact T1|reflexivity|exact T2|exact WA|].
        rewrite !read_put by (try apply (bare_len a col Hbare); discriminate).
        change (col_find [(median_name, [NMedian m : fnote Z Z F]); (stats_name, [NStats mn mxv (Z.of_nat (length data)) (average (lp := lp) (le := le) (zsum data) (Z.of_nat (length data)))])] median_name)
          with (Some [NMedian m : fnote Z Z F]).
        change (col_find [(median_name, [NMedian m : fnote Z Z F]); (stats_name, [NStats mn mxv (Z.of_nat (length data)) (average (lp := lp) (le := le) (zsum data) (Z.of_nat (length data)))])] stats_name)
          with (Some [NStats mn mxv (Z.of_nat (length data)) (average (lp := lp) (le := le) (zsum data) (Z.of_nat (length data))) : fnote Z Z F]).
        cbn [find is_kind as_median as_stats bind fst snd].
        unfold robust_create in C1 |- *. destruct wc; cbn [bind]; destruct (is_nan (fst q)); try exact C1.
      + split; [exact C2|]. split; [exact C3|]. split; [exact C4|exact C5].
  Qed.
  (** Floating point columns: the parts of the result. *)
  Lemma robust_float_featurizer (wc : bool) (q : float32 * float32) col mx (bs : list (list F)) (a : ann_maps (fnote F F F)) (s : list R) :
    (prec <= 53)%Z -> (emax <= 1024)%Z -> bare a col -> proper_training mx bs -> bs <> [] ->
    let l := numbers (items mx bs) in Permutation s (map place l) -> StronglySorted Rle s ->
    let steps := robust_float_recipe (lp := lp) (le := le) col mx wc q in
    (l = [] -> trains_throwing col steps a bs RuntimeError) /\
    (forall x, l <> [] -> trained (fstats_policy (lp := lp) (le := le)) mx bs = Throw x -> trains_throwing col steps a bs x) /\
    (forall r, l <> [] -> trained (fstats_policy (lp := lp) (le := le)) mx bs = Ok (Some r) ->
       exists m, middle true l s m /\ trains_one col steps a bs (robust_float_create wc q m (fr_min r) (fr_max r))).
  Proof using Type.
    intros HP HE Hbare Htrain Hbs l Hs Ss steps.
    assert (N : forall x : list F, somes (map as_null x) = numbers x).
    { intros x. unfold as_null. induction x as [|y r IH]; [reflexivity|]. unfold numbers in *. cbn [map somes flat_map filter]. destruct (is_nan y); cbn [negb app]; [exact IH|].
      f_equal. exact IH. }
    destruct (median_via (I := F) as_null true mx bs s HP HE Htrain) as [M1 M2].
    { rewrite N. intros x Hx. apply filter_In in Hx. destruct Hx as [_ Hx]. now apply negb_true_iff in Hx. }
    { rewrite N. exact Hs. } { exact Ss. } rewrite N in M1, M2. fold l in M1, M2.
    split; [|split].
    - intros E. eapply (two_throws1 (F := F)); try assumption; [discriminate|discriminate|reflexivity|exact (M1 E)].
    - intros x E T2. destruct (M2 E) as (m & T1 & Mid).
      eapply (two_throws2 (F := F)); try assumption; [discriminate|discriminate|reflexivity|exact T1|reflexivity].
    - intros r E T2. destruct (M2 E) as (m & T1 & Mid). exists m. split; [exact Mid|].
      eapply (two_trains (F := F)); try assumption; [discriminate|discriminate|reflexivity|exact T1|reflexivity|exact T2|reflexivity|].
      rewrite !read_put by (try apply (bare_len a col Hbare); discriminate).
      change (col_find [(median_name, [NMedian m : fnote F F F]); (stats_name, [NStats (fr_min r) (fr_max r) (fr_count r) (fr_average r)])] median_name)
        with (Some [NMedian m : fnote F F F]).
      change (col_find [(median_name, [NMedian m : fnote F F F]); (stats_name, [NStats (fr_min r) (fr_max r) (fr_count r) (fr_average r)])] stats_name)
        with (Some [NStats (fr_min r) (fr_max r) (fr_count r) (fr_average r) : fnote F F F]).
      cbn [find is_kind as_median as_stats bind fst snd].
      unfold robust_float_create. destruct wc; cbn [bind]; destruct (is_nan (fst q)); reflexivity.
  Qed.
End Robust.

(** ** MaxAbsScaler, MinMaxScaler. *)
Section Others.
  Context {prec emax : Z} {Hp : Prec_gt_0 prec} {Hm : Prec_lt_emax prec emax}.
  Notation F := (binary_float prec emax).
  Lemma max_abs_trains {P I} (pol : policy P I F) col mx (bs : list (list I)) (a : ann_maps (fnote I I F)) scale :
    bare a col -> proper_training mx bs -> bs <> [] -> trained pol mx bs = Ok (Some scale) -> trains_one col (max_abs_recipe col pol mx) a bs scale.
  Proof using Type.
    intros H1 H2 H3 T1. unfold max_abs_recipe.
    eexists. split; [apply put_others|]. intros apply.
    pose proof (trains_learnt apply col (max_abs_recipe col pol mx) a bs mx) as TL. unfold max_abs_recipe in TL.
    assert (E : learnt apply col [learn maxabs_name as_maxabs (fun m : F => Ok (NMaxAbs m)) mx pol; Make (read as_maxabs col maxabs_name)] a bs =
                Ok (put a col [(maxabs_name, [NMaxAbs scale])], [scale])).
    { pose proof (bare_len a col H1) as Hl. rewrite (put_bare a col H1) at 1.
      rewrite learnt_learn by (try exact Hl; try exact H2; try discriminate; reflexivity). rewrite T1. cbn [bind].
      rewrite learnt_make, read_put by (try exact Hl; discriminate). reflexivity. }
    rewrite E in TL. apply TL; [|exact (bare_len a col H1)|exact H2|exact H3].
    destruct H2 as [G _]. split.
    - constructor; [split; [discriminate|exact G]|]. constructor; [exact Logic.I|constructor].
    - exists [learn maxabs_name as_maxabs (fun m : F => Ok (NMaxAbs m)) mx pol]. eexists. reflexivity.
  Qed.
  Lemma min_max_scaler_trains {I} (t : numty prec emax I) lo hi col mx (bs : list (list I)) (a : ann_maps (fnote I I F)) mn mxv s :
    bare a col -> proper_training mx bs -> bs <> [] -> trained (minmax_policy (n_lt t) lo hi) mx bs = Ok (Some (mn, mxv)) -> mm_new t mn mxv = Ok s ->
    trains_one col (min_max_scaler_recipe col t lo hi mx) a bs s.
  Proof using Type.
    intros H1 H2 H3 T1 M. eapply (one_trains (F := F)); try assumption; [discriminate|reflexivity|exact T1|reflexivity|reflexivity|exact M].
  Qed.
End Others.
