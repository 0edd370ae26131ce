(** Integer columns, exceptions, and what goes wrong. *)
From Coq Require Import Reals Lra Psatz.
From Flocq Require Import Core.Core IEEE754.BinarySingleNaN Plus_error.
From Verif Require Import Base L_List M_Estimator M_Stats M_Pipeline M_Impute M_Scale M_FloatStats M_FloatScale S_Stats S_FloatStats S_Scale S_FloatScale L_Estimator L_Stats L_Stats3 L_Float L_Scale2 L_Scale4 L_FloatStats L_FloatStats2 L_FloatStats3 L_FloatStats4 L_FloatScale L_FloatScale2 L_FloatScale3 L_FloatScale4.
Open Scope R_scope.

Section Int.
  Context {lp le : Z} {HLp : Prec_gt_0 lp} {HLm : Prec_lt_emax lp le}.
  Notation u := (unit_error lp).
  Notation v := (unit_error 53).
  Lemma somes_some {A} (l : list A) : somes (map Some l) = l.
  Proof using Type. induction l as [|x l IH]; [reflexivity|]. cbn. f_equal. exact IH. Qed.
  Lemma items_some {A} mx (bs : list (list A)) : somes (items mx (map (map Some) bs)) = items mx bs.
  Proof using Type. unfold items. rewrite <- concat_map, firstn_map. apply somes_some. Qed.
  Lemma proper_some {A} mx (bs : list (list A)) : proper_training mx bs -> proper_training mx (map (map Some) bs).
  Proof using Type. intros [P1 P2]. split; [exact P1|]. rewrite Forall_map. eapply Forall_impl; [|exact P2]. intros b Hb Q. apply Hb. now apply map_eq_nil in Q. Qed.
  Lemma filter_all {A} (l : list A) : filter (fun _ => negb false) l = l.
  Proof using Type. induction l as [|x l IH]; [reflexivity|]. cbn [filter negb]. f_equal. exact IH. Qed.
  Lemma rsum_IZR l : rsum (map IZR l) = IZR (zsum l).
  Proof using Type. induction l as [|x l IH]; [reflexivity|]. cbn [map rsum fold_right zsum]. fold (rsum (map IZR l)). rewrite IH. unfold zsum. cbn [fold_right]. now rewrite plus_IZR. Qed.
  Theorem standard_int signed w wm ws mx (bs : list (list Z)) (s : double * double) : (64 <= lp)%Z -> (1024 <= le)%Z -> proper_training mx bs ->
    Forall (fun x => (Z.abs x <= 2 ^ 53)%Z) (items mx bs) -> (Z.of_nat (length (items mx bs)) <= 2 ^ 53)%Z ->
    standard_trained (lp := lp) (le := le) (int_ty signed w) (int_average (lp := lp) (le := le)) wm ws mx bs = Ok (Some s) ->
    let xs := map IZR (items mx bs) in let n := length xs in
    let ea := ((1 + u) * (1 + v) - 1) * Rabs (mean xs) + bpow radix2 (-1073) in
    let g := (1 + u) ^ (n + 3) * (1 + v) ^ 2 in
    xs <> [] /\ is_finite (fst s) = true /\ (wm = true -> Rabs (B2R (fst s) - mean xs) <= ea) /\ (wm = false -> B2R (fst s) = 0) /\
    (ws = false -> equals (snd s) 1) /\
    (ws = true -> exists d : double, (is_finite d = true -> near g (g * ea + tiny le) (B2R d) (std_dev xs)) /\ (is_zero d = true -> equals (snd s) 1) /\ (is_zero d = false -> snd s = d)) /\
    (is_finite (snd s) = true -> B2R (snd s) <> 0 /\ forall x, (Z.abs x <= 2 ^ 53)%Z -> let y := standard_exec (int_ty signed w) s x in is_finite y = true ->
       let z := (IZR x - B2R (fst s)) / B2R (snd s) in Rabs (B2R y - z) <= ((1 + v) ^ 2 - 1) * Rabs z + bpow radix2 (-1075)).
  Proof using HLp HLm.
    intros H1 H2 PT Sm K T xs n ea g. set (t := int_ty signed w : numty 53 1024 Z) in *. rewrite Forall_forall in Sm.
    assert (Ex : forall z, (Z.abs z <= 2 ^ 53)%Z -> B2R (n_cv t z) = IZR z /\ is_finite (n_cv t z) = true) by (intros z Hz; apply of_int_exact; exact Hz).
    assert (Lv : map (fun x => B2R (n_cv t x)) (filter (fun x => negb (n_null t x)) (items mx bs)) = xs).
    { cbn [t int_ty n_null]. rewrite (filter_all (items mx bs)). apply map_ext_in. intros x Hx. apply Ex. now apply Sm. }
    assert (Hn : length (items mx bs) = n) by (unfold n, xs; now rewrite map_length).
    pose proof (scaler_holds (lp := lp) (le := le) t (int_average (lp := lp) (le := le)) wm ws mx bs s ea ltac:(lia) H2 PT) as Sc. cbv zeta in Sc. rewrite Lv in Sc. fold n in Sc.
    destruct Sc as (S1 & S2 & S3 & S4 & S5 & S6 & S7 & S8).
    - intros x _. cbn [t int_ty n_cv]. unfold of_int. pose proof (binary_normalize_correct 53 1024 _ _ mode_NE x 0 false) as C. cbv zeta in C. destruct (Rlt_bool _ _) in C; [apply is_finite_nan; apply C|]. destruct (binary_normalize _ _ _ _ _ _ _ _); try reflexivity. discriminate C.
    - exact T.
    - rewrite <- Hn. exact K.
    - intros a Ha. unfold int_average in Ha. set (l := items mx bs) in *. pose proof (std_spec mx (map (map Some) bs) (proper_some _ _ PT)) as Sp. rewrite items_some in Sp. fold l in Sp. cbv zeta in Sp.
      destruct Sp as (A1 & A2 & A3); [lia|apply Forall_forall; intros x Hx; specialize (Sm x Hx); unfold in_i64, i64_min, i64_max; lia|].
      destruct (trained std_stats_policy mx (map (map Some) bs)) as [r|ex|] eqn:Tr; try discriminate. 
      assert (NE : l <> []) by (intros Q; specialize (A1 Q); discriminate).
      assert (Pf : forall p, prefix p l -> in_i64 (zsum p) = true) by (intros p Hp; destruct (in_i64 (zsum p)) eqn:E; [reflexivity|]; specialize (A3 p Hp E); discriminate).
      destruct (A2 NE Pf) as (mn & mxv & Er & Mn & Mx). injection Er as ->. cbn [bind] in Ha.
      assert (In1 : forall x, In x l -> in_i64 x = true) by (intros x Hx; specialize (Sm x Hx); unfold in_i64, i64_min, i64_max; lia).
      assert (Pl : prefix l l) by (exists []; now rewrite app_nil_r).
      pose proof (average_ok (lp := lp) (le := le) l mn mxv H1 H2 NE (Pf l Pl) ltac:(lia) Mn Mx (In1 _ (proj1 Mn)) (In1 _ (proj1 Mx))) as Av. cbv zeta in Av. destruct Av as [Av1 [Av2 Av3]].
      cbv zeta in Ha. rewrite Av1 in Ha. injection Ha as <-. split; [exact Av2|]. rewrite Av3.
      assert (Me : IZR (zsum l) / IZR (Z.of_nat (length l)) = mean xs) by (unfold mean, xs; rewrite rsum_IZR, map_length, <- INR_IZR_INZ; reflexivity). rewrite Me. set (m := mean xs) in *.
      pose proof (rnd_err (prec := lp) (emax := le) m) as E1. unfold rounded. fold (rnd (prec := lp) (emax := le) m). set (b := rnd (prec := lp) (emax := le) m) in *. pose proof (rnd_err (prec := 53) (emax := 1024) b) as E2.
      fold (rnd (prec := 53) (emax := 1024) b). set (c := rnd (prec := 53) (emax := 1024) b) in *.
      pose proof (half_emin lp le ltac:(lia) H2) as h1. pose proof (half_emin 53 1024 ltac:(lia) ltac:(lia)) as h2. unfold ea. replace (-1073)%Z with (-1075 + 2)%Z by lia. rewrite bpow_plus. change (bpow radix2 2) with 4. set (h := bpow radix2 (-1075)) in *. assert (h0 : 0 < h) by apply bpow_gt_0.
      pose proof (unit_pos lp) as U. pose proof (unit_pos 53) as V. pose proof (unit_le1 53 ltac:(lia)) as V1. set (vv := unit_error 53) in *. set (uu := unit_error lp) in *.
      assert (Ab : Rabs b <= Rabs m + (uu * Rabs m + h)) by (replace b with ((b - m) + m) by ring; eapply Rle_trans; [apply Rabs_triang|]; lra).
      assert (Vb : vv * Rabs b <= vv * (Rabs m + (uu * Rabs m + h))) by (apply Rmult_le_compat_l; lra). assert (Vh : vv * h <= 1 * h) by (apply Rmult_le_compat_r; lra).
      replace (c - m) with ((c - b) + (b - m)) by ring. eapply Rle_trans; [apply Rabs_triang|]. lra.
    - split; [exact S1|]. split; [exact S3|]. split; [exact S4|]. split; [exact S5|]. split; [exact S6|]. split; [exact S7|].
      intros Fs. split; [now apply S8|]. intros x Hx y Fy. destruct (Ex x Hx) as [E1 E2]. rewrite <- E1. apply score_near; auto.
  Qed.
End Int.

(** Exceptions. *)
Section Defined.
  Context {lp le : Z} {HLp : Prec_gt_0 lp} {HLm : Prec_lt_emax lp le}.
  Lemma dev_run_defined {I} (t : numty 53 1024 I) avg (l : list I) : forall s : dev_state (lp := lp) (le := le), (exists st, foldM (dev_fit t avg) s l = Ok st) \/ foldM (dev_fit t avg) s l = Throw RuntimeError.
  Proof using Type.
    induction l as [|x l IH]; intros s; [left; now exists s|]. cbn [foldM]. unfold dev_fit at 1 3. destruct (n_null t x); [cbn [bind]; apply IH|]. unfold l2_update, add_checked. cbv zeta.
    destruct (is_nan _); cbn [bind]; [destruct (snd s =? _)%Z; cbn [bind]; auto|]. destruct (Beqb _ _ && _); cbn [bind]; auto. destruct (is_inf _); cbn [bind]; auto. destruct (snd s =? _)%Z; cbn [bind]; auto.
  Qed.
  Theorem standard_defined {I} (t : numty 53 1024 I) stats wm ws mx (bs : list (list I)) : proper_training mx bs ->
    (exists a, stats mx bs = Ok (Some a)) \/ stats mx bs = Throw RuntimeError \/ stats mx bs = Throw InvalidArgument ->
    let r := standard_trained (lp := lp) (le := le) t stats wm ws mx bs in (exists s, r = Ok (Some s)) \/ r = Throw RuntimeError \/ r = Throw InvalidArgument.
  Proof using Type.
    intros PT H r. unfold r, standard_trained. destruct H as [[a E]|[E|E]]; rewrite E; cbn [bind]; auto. unfold dev_policy. rewrite trained_simple by exact PT.
    destruct (dev_run_defined t a (items mx bs) ((fzero, false), 0%Z)) as [[st Es]|Es]; rewrite Es; cbn [bind]; auto. unfold dev_commit, l2_commit. destruct (snd (fst st)); cbn [bind]; auto. destruct (snd st =? 0)%Z; cbn [bind]; auto. destruct (Bltb _ _); cbn [bind]; auto.
    unfold standard_create, standard_new. destruct (Bltb _ _); cbn [bind]; eauto.
  Qed.
  Lemma float_average_defined {p e : Z} {Hp : Prec_gt_0 p} {Hm : Prec_lt_emax p e} mx (bs : list (list (binary_float p e))) : (p <= lp)%Z -> (e <= le)%Z -> proper_training mx bs ->
    (exists a, float_average (lp := lp) (le := le) mx bs = Ok (Some a)) \/ float_average (lp := lp) (le := le) mx bs = Throw RuntimeError \/ float_average (lp := lp) (le := le) mx bs = Throw InvalidArgument.
  Proof using Type.
    intros H1 H2 PT. unfold float_average. destruct (fstats_defined (lp := lp) (le := le) mx bs H1 H2 PT) as [[[r E]|[E|E]] _]; rewrite E; cbn; eauto.
  Qed.
  Lemma norms_defined {p e : Z} {Hp : Prec_gt_0 p} {Hm : Prec_lt_emax p e} (row : list (binary_float p e)) :
    let ok (r : res double) := (exists n, r = Ok n) \/ r = Throw RuntimeError in
    ok (float_norm (lp := lp) (le := le) l1_norm row) /\ ok (float_norm (lp := lp) (le := le) l2_norm row) /\
    (numbers row = [] -> float_norm (lp := lp) (le := le) l1_norm row = Throw RuntimeError /\ float_norm (lp := lp) (le := le) l2_norm row = Throw RuntimeError).
  Proof using Type.
    assert (G : forall (g : binary_float lp le -> binary_float lp le) cs s0, (exists s, foldM (fun s x => add_checked s (g x)) s0 cs = Ok s) \/ foldM (fun s x => add_checked s (g x)) s0 cs = Throw RuntimeError).
    { intros g. induction cs as [|c cs IH]; intros s0; [left; now exists s0|]. cbn [foldM]. unfold add_checked at 1 3. destruct (Beqb _ _ && _); cbn [bind]; auto. destruct (is_inf _); cbn [bind]; auto. }
    intros ok. unfold ok, float_norm, l1_norm, l2_norm, norm_of. rewrite cells_float. split; [|split].
    - destruct (map _ (numbers row)) as [|c cs]; cbn [bind]; auto. destruct (G (Babs (emax := le)) (c :: cs) fzero) as [[s E]|E]; rewrite E; cbn [bind]; eauto.
    - destruct (map _ (numbers row)) as [|c cs]; cbn [bind]; auto. destruct (G (fun x => fmul (Babs x) (Babs x)) (c :: cs) fzero) as [[s E]|E]; rewrite E; cbn [bind]; eauto.
    - intros ->. split; reflexivity.
  Qed.
End Defined.
