(** C80: means and standard scores of whole columns. *)
From Coq Require Import Reals Lra.
From Flocq Require Import Core.Core IEEE754.BinarySingleNaN.
From Verif Require Import Base L_List M_Archive M_Estimator M_Stats M_Encoders M_Impute M_Scale M_FloatStats M_FloatScale M_Pipeline M_Featurizer M_Recipes
  S_Stats S_Window S_Impute S_FloatStats S_FloatScale S_Scale S_Featurizer L_Estimator L_Stats L_Stats2 L_Stats3 L_Featurizer L_Impute L_Float L_Scale L_Scale2 L_Scale3 L_Scale4 L_Scale5
  L_FloatStats2 L_FloatStats3 L_FloatStats4 L_FloatStats5 L_FloatStats6 L_FloatScale4 L_FloatScale7 L_FloatScale8 L_Recipes L_Recipes3 L_Recipes4 L_Recipes5.
Open Scope R_scope.

Lemma prefix_cases {A} (P : list A -> bool) (l : list A) : (forall q, prefix q l -> P q = true) \/ (exists q, prefix q l /\ P q = false).
Proof.
  revert P. induction l as [|x r IH]; intros P.
  - destruct (P []) eqn:E; [left|right; exists []; split; [now exists []|exact E]].
    intros q [s H]. symmetry in H. apply app_eq_nil in H. destruct H as [-> _]. exact E.
  - destruct (P []) eqn:E; [|right; exists []; split; [now exists (x :: r)|exact E]].
    destruct (IH (fun q => P (x :: q))) as [H|(q & [s H] & F)].
    + left. intros [|y q] [s G]; [exact E|]. cbn in G. injection G as -> G. apply H. now exists s.
    + right. exists (x :: q). split; [|exact F]. exists s. cbn. now rewrite H.
Qed.

Section Whole.
  Context {lp le : Z} {HLp : Prec_gt_0 lp} {HLm : Prec_lt_emax lp le}.
  Notation L := (binary_float lp le).
  Lemma int_average_defined mx (bs : list (list Z)) : (64 <= lp)%Z -> (1024 <= le)%Z -> proper_training mx bs ->
    Forall (fun x => in_i64 x = true) (items mx bs) -> (Z.of_nat (length (items mx bs)) < 2 ^ 64)%Z ->
    (exists a, int_average (lp := lp) (le := le) mx bs = Ok (Some a)) \/ int_average (lp := lp) (le := le) mx bs = Throw RuntimeError \/ int_average (lp := lp) (le := le) mx bs = Throw InvalidArgument.
  Proof using Type.
    intros H1 H2 PT HI HN. unfold int_average.
    assert (D : somes (items mx (map (map Some) bs)) = items mx bs) by (rewrite items_map, somes_some; reflexivity).
    destruct (std_spec mx (map (map Some) bs) (proper_map Some mx bs PT)) as (S1 & S2 & S3); [rewrite D; exact HN|rewrite D; exact HI|].
    rewrite D in S1, S2, S3. destruct (items mx bs) as [|x0 r] eqn:E; [right; left; rewrite (S1 eq_refl); reflexivity|]. rewrite <- E in *.
    destruct (prefix_cases (fun q => in_i64 (zsum q)) (items mx bs)) as [G|(q & Q1 & Q2)].
    - destruct (S2 ltac:(rewrite E; discriminate) G) as (mn & mxv & T & _). rewrite T. cbn [bind]. destruct (average_accepted _ _ _); eauto.
    - rewrite (S3 q Q1 Q2). cbn [bind]. auto.
  Qed.
  Context {p e : Z} {Hp : Prec_gt_0 p} {Hm : Prec_lt_emax p e}.
  Notation F := (binary_float p e).
  Lemma float_mean_whole col mx (bs : list (list F)) (a : ann_maps (fnote F F double)) :
    (p <= 53)%Z -> (e <= 1024)%Z -> (53 <= lp)%Z -> (1024 <= le)%Z -> bare a col -> proper_training mx bs -> bs <> [] ->
    let steps := float_mean_recipe (lp := lp) (le := le) col mx in
    let l := numbers (items mx bs) in let n := length l in (Z.of_nat n <= 2 ^ 53)%Z ->
    (l = [] -> trains_throwing col steps a bs RuntimeError) /\
    (trains_throwing col steps a bs RuntimeError \/ trains_throwing col steps a bs InvalidArgument \/
     exists m t, is_finite m = true /\ Rabs (B2R m - total l / INR n) <= ((1 + unit_error lp) ^ n * (1 + unit_error 53) - 1) * (magnitude l / INR n) + bpow radix2 (-1073) /\
       trains_one col steps a bs t /\
       forall rows, exists out, delivered t rows = (out, Ok tt) /\ length out = length rows /\
         forall i x, nth_error rows i = Some x -> exists y, nth_error out i = Some y /\ (is_nan x = true -> y = m) /\ (is_finite x = true -> equals y (B2R x))).
  Proof using Type.
    intros P1 P2 P3 P4 Hbare PT Hbs steps l n Hn.
    destruct (fstats_defined (lp := lp) (le := le) mx bs ltac:(lia) ltac:(lia) PT) as [D1 D2].
    destruct (float_mean_featurizer (lp := lp) (le := le) col mx bs a Hbare PT Hbs) as [M1 M2]. split.
    - intros E. apply M2. apply D2. exact E.
    - destruct D1 as [[r T]|[T|T]]; [right; right|left; now apply M2|right; left; now apply M2].
      destruct (fstats_spec mx bs r P1 P2 P3 P4 PT T Hn) as (_ & _ & _ & _ & _ & A1 & _ & _ & A2).
      destruct (M1 r T) as (t & T1 & T2). exists (fr_average r), t. split; [exact A1|]. split; [exact A2|]. split; [exact T1|].
      intros rows. rewrite T2. destruct (fmean_imputer_spec r rows P1 P2) as (out & O1 & O2 & O3). exists out.
      split; [|split; [exact O2|exact O3]]. rewrite <- O1. symmetry. apply (per_value_spec F double _ rows).
  Qed.
End Whole.

Section Scores.
  Context {lp le : Z} {HLp : Prec_gt_0 lp} {HLm : Prec_lt_emax lp le}.
  Notation L := (binary_float lp le).
  Lemma standard_int_whole signed w (wm ws : bool) col mx (bs : list (list Z)) (a : ann_maps (fnote Z Z L)) :
    (64 <= lp)%Z -> (1024 <= le)%Z -> bare a col -> proper_training mx bs -> bs <> [] ->
    Forall (fun x => (Z.abs x <= 2 ^ 53)%Z) (items mx bs) -> (Z.of_nat (length (items mx bs)) <= 2 ^ 53)%Z ->
    let t := int_ty signed w : numty 53 1024 Z in
    let steps := standard_recipe (lp := lp) (le := le) col t (via Some std_stats_policy) with_average mx wm ws in
    let xs := map IZR (items mx bs) in let n := length xs in
    let ea := ((1 + unit_error lp) * (1 + unit_error 53) - 1) * Rabs (mean xs) + bpow radix2 (-1073) in
    let g := (1 + unit_error lp) ^ (n + 3) * (1 + unit_error 53) ^ 2 in
    trains_throwing col steps a bs RuntimeError \/ trains_throwing col steps a bs InvalidArgument \/
    exists s, trains_one col steps a bs s /\ is_finite (fst s) = true /\ (wm = true -> Rabs (B2R (fst s) - mean xs) <= ea) /\ (wm = false -> B2R (fst s) = 0) /\
    (ws = false -> equals (snd s) 1) /\
    (ws = true -> exists d : double, (is_finite d = true -> near g (g * ea + tiny le) (B2R d) (std_dev xs)) /\ (is_zero d = true -> equals (snd s) 1) /\ (is_zero d = false -> snd s = d)) /\
    (is_finite (snd s) = true -> B2R (snd s) <> 0 /\ forall x, (Z.abs x <= 2 ^ 53)%Z -> let y := standard_exec t s x in is_finite y = true ->
       let z := (IZR x - B2R (fst s)) / B2R (snd s) in Rabs (B2R y - z) <= ((1 + unit_error 53) ^ 2 - 1) * Rabs z + bpow radix2 (-1075)).
  Proof using Type.
    intros H1 H2 Hbare PT Hbs HI HN t steps xs n ea g.
    destruct (standard_int_featurizer (lp := lp) (le := le) t col mx bs a wm ws Hbare PT Hbs) as [A B].
    assert (HI' : Forall (fun x => in_i64 x = true) (items mx bs)).
    { eapply Forall_impl; [|exact HI]. intros x Hx. cbv beta in Hx. unfold in_i64, i64_min, i64_max. apply andb_true_intro. split; apply Z.leb_le; lia. }
    destruct (standard_defined (lp := lp) (le := le) t (int_average (lp := lp) (le := le)) wm ws mx bs PT (int_average_defined mx bs H1 H2 PT HI' ltac:(lia)))
      as [[s T]|[T|T]]; [right; right|left; exact (B _ T)|right; left; exact (B _ T)].
    exists s. split; [exact (A s T)|]. exact (proj2 (standard_int signed w wm ws mx bs s H1 H2 PT HI HN T)).
  Qed.
  Context {p e : Z} {Hp : Prec_gt_0 p} {Hm : Prec_lt_emax p e}.
  Notation F := (binary_float p e).
  Lemma standard_float_whole (t : numty 53 1024 F) (wm ws : bool) col mx (bs : list (list F)) (a : ann_maps (fnote F F L)) : float_like t ->
    (p <= 53)%Z -> (e <= 1024)%Z -> (53 <= lp)%Z -> (1024 <= le)%Z -> bare a col -> proper_training mx bs -> bs <> [] ->
    let steps := standard_recipe (lp := lp) (le := le) col t (fstats_policy (lp := lp) (le := le)) float_stats mx wm ws in
    let xs := real_values (items mx bs) in let n := length xs in (Z.of_nat n <= 2 ^ 53)%Z ->
    let ea := ((1 + unit_error lp) ^ n * (1 + unit_error 53) - 1) * mean_magnitude xs + bpow radix2 (-1073) in
    let g := (1 + unit_error lp) ^ (n + 3) * (1 + unit_error 53) ^ 2 in
    (xs = [] -> trains_throwing col steps a bs RuntimeError) /\
    (trains_throwing col steps a bs RuntimeError \/ trains_throwing col steps a bs InvalidArgument \/
    exists s, trains_one col steps a bs s /\ is_finite (fst s) = true /\ (wm = true -> Rabs (B2R (fst s) - mean xs) <= ea) /\ (wm = false -> B2R (fst s) = 0) /\
    (ws = false -> equals (snd s) 1) /\
    (ws = true -> exists d : double, (is_finite d = true -> near g (g * ea + tiny le) (B2R d) (std_dev xs)) /\ (is_zero d = true -> equals (snd s) 1) /\ (is_zero d = false -> snd s = d)) /\
    (forall x, is_nan x = true -> standard_exec t s x = B754_nan) /\
    (is_finite (snd s) = true -> B2R (snd s) <> 0 /\ forall x, is_finite x = true -> let y := standard_exec t s x in is_finite y = true ->
       let z := (B2R x - B2R (fst s)) / B2R (snd s) in Rabs (B2R y - z) <= ((1 + unit_error 53) ^ 2 - 1) * Rabs z + bpow radix2 (-1075))).
  Proof using Hp Hm HLp HLm.
    intros FL P1 P2 P3 P4 Hbare PT Hbs steps xs n K ea g.
    destruct (standard_float_featurizer (lp := lp) (le := le) t col mx bs a wm ws Hbare PT Hbs) as [A B]. split.
    - intros E. apply B. unfold standard_trained, float_average.
      destruct (fstats_defined (lp := lp) (le := le) mx bs ltac:(lia) ltac:(lia) PT) as [_ D2]. rewrite D2; [reflexivity|].
      unfold xs, real_values in E. apply map_eq_nil in E. exact E.
    - destruct (standard_defined_float (lp := lp) (le := le) t wm ws mx bs ltac:(lia) ltac:(lia) PT)
        as [[s T]|[T|T]]; [right; right|left; exact (B _ T)|right; left; exact (B _ T)].
      exists s. split; [exact (A s T)|]. exact (proj2 (proj2 (standard_near t wm ws mx bs s FL P1 P2 P3 P4 PT T K))).
  Qed.
End Scores.

(** ** Robust, absolute and min-max scalers. *)
Section RobustFloat.
  Context {lp le : Z} {HLp : Prec_gt_0 lp} {HLm : Prec_lt_emax lp le}.
  Context {prec emax : Z} {Hp : Prec_gt_0 prec} {Hm : Prec_lt_emax prec emax}.
  Notation F := (binary_float prec emax).
  Lemma robust_float_create_ok wc (qmin qmax : float32) q (median mn mx : F) : (24 <= prec)%Z -> (128 <= emax)%Z -> robust_params qmin qmax = Ok q ->
    is_finite mn = true -> is_finite mx = true -> B2R mn <= B2R mx -> rounded prec emax (B2R mx - B2R mn) < bpow radix2 emax ->
    let s := robust_float_create wc q median mn mx in
    fst s = (if wc then median else fzero) /\ is_finite (snd s) = true /\ (is_nan qmin = true -> B2R (snd s) = 1) /\
    (is_nan qmin = false -> 0 <= B2R (snd s) <= rounded prec emax (B2R mx - B2R mn) /\
       B2R (snd s) = rounded prec emax (rounded prec emax (B2R mx - B2R mn) * r32 (r32 (B2R qmax - B2R qmin) / 100))).
  Proof using Type.
    intros Hpr He Hq Fmn Fmx Hle Hw. apply robust_params_ok in Hq. destruct Hq as [-> Hq]. unfold robust_float_create. cbn [fst snd].
    destruct Hq as [[Q1 Q2]|[Q1 [Q2 [Q3 [Q4 Q5]]]]].
    - rewrite Q1. cbv zeta. cbn [fst snd]. destruct (@one_F prec emax Hp Hm) as [O1 O2]. rewrite O1, O2.
      split; [reflexivity|]. split; [reflexivity|]. split; [reflexivity|discriminate].
    - assert (N : is_nan qmin = false) by (destruct qmin; auto; discriminate). rewrite N. cbv zeta. cbn [fst snd]. split; [reflexivity|].
      destruct hundred as [H1 H2].
      assert (big1 : 100 < bpow radix2 128) by (apply Rlt_trans with (bpow radix2 7); [cbn; lra|apply bpow_lt; lia]).
      assert (R100 : rnd (prec := 24) (emax := 128) 100 = 100). { rewrite <- H1. apply rnd_B2R. }
      assert (Hs : 0 <= rnd (prec := 24) (emax := 128) (B2R qmax - B2R qmin) <= 100).
      { split; [rewrite <- (rnd_0 (prec := 24) (emax := 128))|rewrite <- R100]; apply rnd_mono; lra. }
      destruct (fsub_ok qmax qmin Q2 Q1) as [S1 S2]; [rewrite Rabs_right by lra; lra|].
      destruct (div_pos (fsub qmax qmin) (of_int 100) S2) as [D1 [D2 _]]; [rewrite S1, H1; lra|rewrite H1; lra|].
      assert (D3 : B2R (fdiv (fsub qmax qmin) (of_int 100)) = rnd (prec := 24) (emax := 128) (rnd (prec := 24) (emax := 128) (B2R qmax - B2R qmin) / 100)).
      { destruct (div_unit (fsub qmax qmin) (of_int 100) S2) as [_ [E _]]; [rewrite H1; lra|rewrite S1, H1, !Rabs_right; lra|]. rewrite E, S1, H1. reflexivity. }
      set (ratio := fdiv (fsub qmax qmin) (of_int 100)) in *.
      destruct (@convert_widen 24 128 prec emax _ _ _ _ ratio Hpr He D1) as [C1 C2].
      assert (P0 : 0 <= rnd (prec := prec) (emax := emax) (B2R mx - B2R mn)).
      { rewrite <- (rnd_0 (prec := prec) (emax := emax)). apply rnd_mono. lra. }
      destruct (fsub_ok mx mn Fmx Fmn) as [W1 W2]; [rewrite Rabs_right by lra; exact Hw|].
      assert (Pm : 0 <= rnd (prec := prec) (emax := emax) (B2R (fsub mx mn) * B2R (convert ratio : F)) <= B2R (fsub mx mn)).
      { rewrite C1. split.
        - rewrite <- (rnd_0 (prec := prec) (emax := emax)). apply rnd_mono. apply Rmult_le_pos; [rewrite W1; exact P0|lra].
        - rewrite <- (rnd_B2R (prec := prec) (emax := emax) (fsub mx mn)) at 2. apply rnd_mono. rewrite <- (Rmult_1_r (B2R (fsub mx mn))) at 2.
          apply Rmult_le_compat_l; [rewrite W1; exact P0|lra]. }
      destruct (fmul_ok (fsub mx mn) (convert ratio) W2 C2) as [M1 M2].
      { rewrite Rabs_right by lra. eapply Rle_lt_trans; [apply Pm|]. rewrite W1. exact Hw. }
      split; [exact M2|]. split; [congruence|]. intros _. rewrite M1. split.
      + rewrite W1 in Pm |- *. exact Pm.
      + rewrite W1, C1, D3. reflexivity.
  Qed.
  Lemma robust_float_whole (wc : bool) (qmin qmax : float32) q col mx (bs : list (list F)) (a : ann_maps (fnote F F F)) (s : list R) :
    (53 <= lp)%Z -> (1024 <= le)%Z -> (24 <= prec <= 53)%Z -> (128 <= emax <= 1024)%Z -> robust_params qmin qmax = Ok q ->
    bare a col -> proper_training mx bs -> bs <> [] ->
    let l := numbers (items mx bs) in (Z.of_nat (length l) <= 2 ^ 53)%Z -> Permutation s (map place l) -> StronglySorted Rle s ->
    let steps := robust_float_recipe (lp := lp) (le := le) col mx wc q in
    (l = [] -> trains_throwing col steps a bs RuntimeError) /\
    (trains_throwing col steps a bs RuntimeError \/ trains_throwing col steps a bs InvalidArgument \/
     exists m mn mxv t, middle true l s m /\ (In mn l /\ In mxv l /\ forall x, In x l -> B2R mn <= B2R x <= B2R mxv) /\ trains_one col steps a bs t /\
       fst t = (if wc then m else fzero) /\
       (rounded prec emax (B2R mxv - B2R mn) < bpow radix2 emax -> is_finite (snd t) = true /\ (is_nan qmin = true -> B2R (snd t) = 1) /\
          (is_nan qmin = false -> 0 <= B2R (snd t) <= rounded prec emax (B2R mxv - B2R mn) /\
             B2R (snd t) = rounded prec emax (rounded prec emax (B2R mxv - B2R mn) * r32 (r32 (B2R qmax - B2R qmin) / 100))))).
  Proof using Type.
    intros P3 P4 PP EE Hq Hbare PT Hbs l Hn Hs Ss steps.
    destruct (robust_float_featurizer (lp := lp) (le := le) wc q col mx bs a s (proj2 PP) (proj2 EE) Hbare PT Hbs Hs Ss) as (A1 & A2 & A3).
    split; [exact A1|].
    assert (Hc : numbers (items mx bs) = [] \/ numbers (items mx bs) <> []) by (destruct (numbers (items mx bs)); [now left|right; discriminate]).
    destruct Hc as [El|Hne]; [left; now apply A1|].
    destruct (fstats_defined (lp := lp) (le := le) mx bs ltac:(lia) ltac:(lia) PT) as [[[r T]|[T|T]] _];
      [right; right|left; exact (A2 _ Hne T)|right; left; exact (A2 _ Hne T)].
    destruct (A3 r Hne T) as (m & Mid & T1).
    destruct (fstats_spec mx bs r (proj2 PP) (proj2 EE) P3 P4 PT T Hn) as (_ & Fl & _ & (I1 & I2 & I3) & _).
    exists m, (fr_min r), (fr_max r), (robust_float_create wc q m (fr_min r) (fr_max r)).
    split; [exact Mid|]. split; [split; [exact I1|split; [exact I2|exact I3]]|]. split; [exact T1|].
    split; [unfold robust_float_create; destruct (is_nan (fst q)); reflexivity|]. intros Hw. rewrite Forall_forall in Fl.
    destruct (robust_float_create_ok wc qmin qmax q m (fr_min r) (fr_max r) (proj1 PP) (proj1 EE) Hq (Fl _ I1) (Fl _ I2)) as (_ & C2 & C3 & C4);
      [exact (proj2 (I3 _ I1))|exact Hw|].
    split; [exact C2|]. split; [exact C3|exact C4].
  Qed.
  Lemma max_abs_float_whole col mx (bs : list (list F)) (a : ann_maps (fnote F F F)) : bare a col -> proper_training mx bs -> bs <> [] -> Forall not_infinite (items mx bs) ->
    exists scale, trains_one col (max_abs_recipe col ma_policy mx) a bs scale /\
    forall x, In x (items mx bs) -> is_finite x = true -> within (-1) 1 (ma_exec same_ty scale x) /\
      (B2R x <> 0 -> (forall y, In y (items mx bs) -> is_finite y = true -> Rabs (B2R y) <= Rabs (B2R x)) -> Rabs (B2R (ma_exec same_ty scale x)) = 1).
  Proof using Type.
    intros H1 H2 H3 H4. destruct (c27_maxabs_float mx bs H2 H4) as (scale & T & C). exists scale. split; [exact (max_abs_trains ma_policy col mx bs a scale H1 H2 H3 T)|exact C].
  Qed.
  Lemma max_abs_int_whole signed w' w col mx (bs : list (list Z)) (a : ann_maps (fnote Z Z F)) : (64 < emax)%Z -> (w <= 8)%nat ->
    bare a col -> proper_training mx bs -> bs <> [] -> Forall (fun x => fits_s w (Z.abs x) = true) (items mx bs) ->
    let t := int_ty signed w' : numty prec emax Z in
    exists scale, trains_one col (max_abs_recipe col (maxabs_policy w (of_int (prec := prec) (emax := emax)) Bltb fzero) mx) a bs scale /\
    forall x, In x (items mx bs) -> within (-1) 1 (ma_exec t scale x) /\
      (x <> 0%Z -> (forall y, In y (items mx bs) -> (Z.abs y <= Z.abs x)%Z) -> Rabs (B2R (ma_exec t scale x)) = 1).
  Proof using Type.
    intros H0 Hw H1 H2 H3 H4 t. destruct (c27_maxabs_int signed w' w mx bs H0 Hw H2 H4) as (scale & T & C). exists scale.
    split; [exact (max_abs_trains _ col mx bs a scale H1 H2 H3 T)|exact C].
  Qed.
End RobustFloat.
Lemma min_max_scaler_whole (signed : bool) (w col mx : nat) (bs : list (list Z)) (a : ann_maps (fnote Z Z double)) (lo hi : Z) : (1 <= w <= 4)%nat ->
  bare a col -> proper_training mx bs -> bs <> [] -> (lo < hi)%Z -> (forall v, fits signed w v = true <-> (lo <= v <= hi)%Z) ->
  Forall (fun v => fits signed w v = true) (items mx bs) ->
  (forall v u, In v (items mx bs) -> In u (items mx bs) -> fits signed w (v - u) = true \/ (v < u)%Z) ->
  let t := int_ty signed w : numty 53 1024 Z in
  exists s, trains_one col (min_max_scaler_recipe col t lo hi mx) a bs s /\ forall x, In x (items mx bs) -> within 0 1 (mm_exec t s x).
Proof.
  intros H1 Hbare PT Hbs H3 H4 H5 H7 t.
  destruct (c27_int_trained signed w mx bs lo hi H1 PT H3 H4 H5 (training_not_empty mx bs PT Hbs) H7) as (mn & mxv & s & T & M & R).
  exists s. split; [|exact R]. exact (min_max_scaler_trains t lo hi col mx bs a mn mxv s Hbare PT Hbs T M).
Qed.
