(** Medians when equal values need not be identical (C69): the run is the one on keys of the values. *)
From Coq Require Import Reals Lra.
From Flocq Require Import Core.Core IEEE754.BinarySingleNaN.
From Flocq.Prop Require Import Mult_error.
From Verif Require Import Base L_List M_Estimator M_Stats M_Scale M_FloatStats S_Stats S_FloatStats S_Scale L_Estimator L_Stats L_Stats2 L_Float L_Scale L_Scale2.

Section Keyed.
  Context {T K : Type}.
  Variables (key : T -> K) (ltb : T -> T -> bool) (kltb : K -> K -> bool) (valid : T -> Prop).
  Hypothesis Hk : forall x y, valid x -> valid y -> ltb x y = kltb (key x) (key y).
  Lemma max_push_map x l : valid x -> Forall valid l ->
    map key (max_push ltb x l) = max_push kltb (key x) (map key l) /\ Forall valid (max_push ltb x l).
  Proof using Hk.
    intros Hx. induction l as [|y r IH]; intros Hl; cbn [max_push map].
    - split; [reflexivity|]. constructor; [exact Hx|constructor].
    - inversion Hl; subst. rewrite <- Hk by assumption. destruct (ltb x y).
      + destruct (IH H2) as [A B]. cbn [map]. rewrite A. split; [reflexivity|]. constructor; assumption.
      + split; [reflexivity|]. constructor; assumption.
  Qed.
  Lemma min_push_map x l : valid x -> Forall valid l ->
    map key (min_push ltb x l) = min_push kltb (key x) (map key l) /\ Forall valid (min_push ltb x l).
  Proof using Hk.
    intros Hx. induction l as [|y r IH]; intros Hl; cbn [min_push map].
    - split; [reflexivity|]. constructor; [exact Hx|constructor].
    - inversion Hl; subst. rewrite <- Hk by assumption. destruct (ltb y x).
      + destruct (IH H2) as [A B]. cbn [map]. rewrite A. split; [reflexivity|]. constructor; assumption.
      + split; [reflexivity|]. constructor; assumption.
  Qed.
  Notation keys s := (map key (fst s), map key (snd s)).
  Notation vstate s := (Forall valid (fst s) /\ Forall valid (snd s)).
  Lemma median_fit_map (s : list T * list T) x : valid x -> vstate s ->
    (exists s', median_fit ltb s x = Ok s' /\ median_fit kltb (keys s) (key x) = Ok (keys s') /\ vstate s') \/
    (median_fit ltb s x = UB /\ median_fit kltb (keys s) (key x) = UB).
  Proof using Hk.
    destruct s as [sm lg]. cbn [fst snd]. intros Hx [V1 V2]. unfold median_fit.
    set (pr := match sm with [] => _ | t :: _ => _ end).
    set (prk := match map key sm with [] => _ | t :: _ => _ end).
    assert (Q : exists sm1 lg1, pr = (sm1, lg1) /\ prk = (map key sm1, map key lg1) /\ Forall valid sm1 /\ Forall valid lg1).
    { subst pr prk. destruct sm as [|t r]; cbn [map].
      - exists [x], lg. repeat split; try assumption. constructor; [exact Hx|constructor].
      - pose proof V1 as V1'. inversion V1'; subst. rewrite <- Hk by assumption. destruct (negb (ltb t x)).
        + destruct (max_push_map x (t :: r) Hx V1) as [A B]. do 2 eexists. split; [reflexivity|]. rewrite A. cbn [map]. repeat split; assumption.
        + destruct (min_push_map x lg Hx V2) as [A B]. do 2 eexists. split; [reflexivity|]. rewrite A. cbn [map]. repeat split; assumption. }
    clearbody pr prk. destruct Q as (sm1 & lg1 & -> & -> & W1 & W2). rewrite !map_length.
    destruct (Nat.leb (length lg1 + 2) (length sm1)).
    - destruct sm1 as [|t r]; cbn [map]; [right; split; reflexivity|]. left. inversion W1; subst.
      destruct (min_push_map t lg1) as [A B]; [assumption|assumption|]. eexists. split; [reflexivity|]. cbn [fst snd]. rewrite A. repeat split; assumption.
    - destruct (Nat.ltb (length sm1) (length lg1)).
      + destruct lg1 as [|t r]; cbn [map]; [right; split; reflexivity|]. left. inversion W2; subst.
        destruct (max_push_map t sm1) as [A B]; [assumption|assumption|]. eexists. split; [reflexivity|]. cbn [fst snd]. rewrite A. repeat split; assumption.
      + left. eexists. split; [reflexivity|]. cbn [fst snd]. repeat split; assumption.
  Qed.
  Notation mfit lt := (fun s x => match x with None => Ok s | Some v => median_fit lt s v end).
  Lemma median_run_map d : forall s : list T * list T, Forall valid (somes d) -> vstate s ->
    (exists s', foldM (mfit ltb) s d = Ok s' /\ foldM (mfit kltb) (keys s) (map (option_map key) d) = Ok (keys s') /\ vstate s') \/
    (foldM (mfit ltb) s d = UB /\ foldM (mfit kltb) (keys s) (map (option_map key) d) = UB).
  Proof using Hk.
    induction d as [|[v|] r IH]; intros s Hd Hs; cbn [foldM map option_map].
    - left. exists s. repeat split; tauto.
    - inversion Hd as [|? ? Hv Hd']; subst. destruct (median_fit_map s v Hv Hs) as [(s1 & E1 & E2 & V)|[E1 E2]].
      + rewrite E1, E2. cbn [bind]. apply (IH s1 Hd' V).
      + right. rewrite E1, E2. split; reflexivity.
    - cbn [bind]. apply (IH s Hd Hs).
  Qed.
End Keyed.

Lemma somes_map {A B} (f : A -> B) (l : list (option A)) : somes (map (option_map f) l) = map f (somes l).
Proof. induction l as [|[v|] r IH]; [reflexivity| |exact IH]. cbn [map option_map somes flat_map app]. now f_equal. Qed.

Section Weak.
  Context {T K : Type}.
  Variables (key : T -> K) (ltb : T -> T -> bool) (kltb : K -> K -> bool).
  Hypothesis Hirr : forall x, kltb x x = false.
  Hypothesis Htr : forall x y z, kltb x y = true -> kltb y z = true -> kltb x z = true.
  Hypothesis Htot : forall x y, kltb x y = false -> kltb y x = false -> x = y.
  Lemma median_keyed interpolate (avg : T -> T -> T) zero mx bs : proper_training mx bs ->
    (forall x y, In x (somes (items mx bs)) -> In y (somes (items mx bs)) -> ltb x y = kltb (key x) (key y)) ->
    forall s k0, Permutation s (map key (somes (items mx bs))) -> StronglySorted (fun x y => kltb y x = false) s ->
    let n := length s in
    (n = 0%nat -> trained (median_policy ltb interpolate avg zero) mx bs = Throw RuntimeError) /\
    (n <> 0%nat -> exists a b, In a (somes (items mx bs)) /\ In b (somes (items mx bs)) /\ key a = nth ((n - 1) / 2) s k0 /\ key b = nth (n / 2) s k0 /\
       trained (median_policy ltb interpolate avg zero) mx bs = Ok (Some (if negb interpolate || Nat.odd n then a else avg a b))).
  Proof using Hirr Htr Htot.
    intros H Hk s k0 P Ss n.
    pose (bs' := map (map (option_map key)) bs).
    assert (I' : items mx bs' = map (option_map key) (items mx bs)) by (unfold items, bs'; rewrite <- concat_map, firstn_map; reflexivity).
    assert (H' : proper_training mx bs').
    { destruct H as [H1 H2]. split; [exact H1|]. apply Forall_forall. intros b Hb. apply in_map_iff in Hb. destruct Hb as (b0 & <- & Hb).
      rewrite Forall_forall in H2. specialize (H2 b0 Hb). destruct b0; [contradiction|discriminate]. }
    assert (P' : Permutation s (somes (items mx bs'))) by (rewrite I', somes_map; exact P).
    pose proof (median_spec kltb Hirr Htr Htot false (fun a b => b) k0 mx bs' H' s P' Ss) as Q1.
    pose proof (median_spec kltb Hirr Htr Htot true (fun a b => b) k0 mx bs' H' s P' Ss) as Q2.
    unfold median_policy in Q1, Q2 |- *. rewrite trained_simple in Q1 by assumption. rewrite trained_simple in Q2 by assumption.
    rewrite trained_simple by assumption. rewrite I' in Q1, Q2.
    destruct (median_run_map key ltb kltb (fun x => In x (somes (items mx bs))) Hk (items mx bs) ([], [])) as [([sm lg] & E1 & E2 & [V1 V2])|[E1 E2]].
    { apply Forall_forall. tauto. }
    { split; constructor. }
    2:{ cbn [fst snd map] in E2. unfold median_state in *. rewrite E2 in Q1. cbn [bind] in Q1. cbn zeta in Q1.
        destruct (Nat.eqb (length s) 0); cbn in Q1; discriminate Q1. }
    cbn [fst snd map] in E2, V1, V2. unfold median_state in *. rewrite E2 in Q1, Q2. rewrite E1. cbn [bind] in Q1, Q2 |- *.
    assert (Ln : n = (length sm + length lg)%nat).
    { pose proof (med_run kltb Hirr Htr Htot (map (option_map key) (items mx bs)) [] ([], [])) as (s2 & F2 & I2).
      { split; [constructor|]. split; [constructor|]. split; [cbn; tauto|]. split; [constructor|]. now left. }
      unfold median_state in *. rewrite E2 in F2. injection F2 as <-. destruct I2 as (_ & _ & _ & P2 & _). cbn [app] in P2.
      rewrite somes_map in P2. unfold n. rewrite (Permutation_length P), <- (Permutation_length P2), app_length, !map_length. reflexivity. }
    unfold median_complete in Q1, Q2 |- *. rewrite !map_length in Q1, Q2. fold n in Q1, Q2. rewrite <- Ln in *.
    cbn zeta in Q1, Q2 |- *. clearbody n. split.
    - intros ->. reflexivity.
    - intros Hn. apply Nat.eqb_neq in Hn. rewrite Hn in *. cbn [negb orb bind] in *.
      destruct sm as [|t r]; cbn [map] in Q1, Q2; [discriminate Q1|]. injection Q1 as Q1. pose proof (Forall_inv V1) as Ht.
      destruct (Nat.odd n) eqn:On.
      + exists t, t. injection Q2 as Q2. repeat split; try assumption.
        * change (key t = nth ((n - 1) / 2) s k0) in Q1. rewrite Q1. apply Nat.odd_spec in On. destruct On as [m Em]. assert (A1 : ((n - 1) / 2 = m)%nat) by (symmetry; apply Nat.div_unique with 0%nat; lia).
          assert (A2 : (n / 2 = m)%nat) by (symmetry; apply Nat.div_unique with 1%nat; lia). rewrite A1, A2. reflexivity.
        * destruct (negb interpolate); cbn [orb bind]; reflexivity.
      + destruct lg as [|g lg'].
        * (* n = length (t :: r), even; the invariant excludes it *)
          exfalso. pose proof (med_run kltb Hirr Htr Htot (map (option_map key) (items mx bs)) [] ([], [])) as (s2 & F2 & I2).
          { split; [constructor|]. split; [constructor|]. split; [cbn; tauto|]. split; [constructor|]. now left. }
          unfold median_state in *. rewrite E2 in F2. injection F2 as <-. destruct I2 as (_ & _ & _ & _ & L2). cbn [map length] in L2, Ln.
          rewrite map_length in L2. destruct L2 as [L2|L2]; [lia|]. assert (E3 : n = 1%nat) by lia. rewrite E3 in On. discriminate On.
        * cbn [map] in Q2. cbn [bind] in Q2. injection Q2 as Q2. pose proof (Forall_inv V2) as Hg. exists t, g. repeat split; try assumption.
          destruct interpolate; reflexivity.
  Qed.
End Weak.

Section Float.
  Context {p e : Z} {Hp : Prec_gt_0 p} {Hm : Prec_lt_emax p e}.
  Notation F := (binary_float p e).
  Open Scope R_scope.
  Lemma place_lt (x y : F) : is_nan x = false -> is_nan y = false -> Bltb x y = Rlt_bool (place x) (place y).
  Proof using Hp Hm.
    intros Nx Ny.
    assert (Fin : forall z : F, is_finite z = true -> - bpow radix2 e < B2R z < bpow radix2 e).
    { intros z _. pose proof (abs_B2R_lt_emax p e z) as A. apply Rabs_def2 in A. lra. }
    pose proof (bpow_gt_0 radix2 e) as Bp.
    destruct (is_finite x) eqn:Fx; destruct (is_finite y) eqn:Fy.
    - rewrite Bltb_correct by assumption. destruct x, y; try discriminate; reflexivity.
    - specialize (Fin x Fx). destruct y as [|[]| |]; try discriminate; cbn [place];
        (replace (place x) with (B2R x) by (destruct x; try discriminate; reflexivity)).
      + rewrite Rlt_bool_false by lra. destruct x; try discriminate; reflexivity.
      + rewrite Rlt_bool_true by lra. destruct x; try discriminate; reflexivity.
    - specialize (Fin y Fy). destruct x as [|[]| |]; try discriminate; cbn [place];
        (replace (place y) with (B2R y) by (destruct y; try discriminate; reflexivity)).
      + rewrite Rlt_bool_true by lra. destruct y; try discriminate; reflexivity.
      + rewrite Rlt_bool_false by lra. destruct y; try discriminate; reflexivity.
    - destruct x as [|[]| |]; try discriminate; destruct y as [|[]| |]; try discriminate; cbn [place];
        try (rewrite Rlt_bool_false by lra; reflexivity); rewrite Rlt_bool_true by lra; reflexivity.
  Qed.
  Lemma Rltb_irr x : Rlt_bool x x = false. Proof. apply Rlt_bool_false. lra. Qed.
  Lemma Rltb_trans x y z : Rlt_bool x y = true -> Rlt_bool y z = true -> Rlt_bool x z = true.
  Proof. intros A B. apply Rlt_bool_true. destruct (Rlt_bool_spec x y), (Rlt_bool_spec y z); try discriminate. lra. Qed.
  Lemma Rltb_tot x y : Rlt_bool x y = false -> Rlt_bool y x = false -> x = y.
  Proof. destruct (Rlt_bool_spec x y), (Rlt_bool_spec y x); try discriminate. intros _ _. lra. Qed.
  Lemma ssorted_R (s : list R) : StronglySorted Rle s -> StronglySorted (fun x y => Rlt_bool y x = false) s.
  Proof. induction 1; constructor; [assumption|]. eapply Forall_impl; [|eassumption]. cbv beta. intros z Hz. now apply Rlt_bool_false. Qed.
  Lemma median_float interpolate (avg : F -> F -> F) zero mx bs : proper_training mx bs ->
    Forall (fun x => is_nan x = false) (somes (items mx bs)) ->
    forall s, Permutation s (map place (somes (items mx bs))) -> StronglySorted Rle s ->
    let n := length s in
    (n = 0%nat -> trained (median_policy Bltb interpolate avg zero) mx bs = Throw RuntimeError) /\
    (n <> 0%nat -> exists a b, In a (somes (items mx bs)) /\ In b (somes (items mx bs)) /\ place a = nth ((n - 1) / 2) s 0 /\ place b = nth (n / 2) s 0 /\
       trained (median_policy Bltb interpolate avg zero) mx bs = Ok (Some (if negb interpolate || Nat.odd n then a else avg a b))).
  Proof using Hp Hm.
    intros H Hn s P Ss. apply (median_keyed place Bltb Rlt_bool Rltb_irr Rltb_trans Rltb_tot); try assumption.
    - intros x y Hx Hy. rewrite Forall_forall in Hn. apply place_lt; now apply Hn.
    - now apply ssorted_R.
  Qed.
End Float.

Section FMedian.
  Context {p e : Z} {Hp : Prec_gt_0 p} {Hm : Prec_lt_emax p e}.
  Notation F := (binary_float p e).
  Open Scope R_scope.
  Notation some_if x := (if is_nan x then None else Some x).
  Lemma somes_numbers (l : list F) : somes (map (fun x => some_if x) l) = numbers l.
  Proof using Type. unfold numbers. induction l as [|x r IH]; [reflexivity|]. cbn [map filter]. destruct (is_nan x); cbn [negb somes flat_map app]; [exact IH|now f_equal]. Qed.
  Lemma fmedian_as (interpolate : bool) mx (bs : list (list F)) : proper_training mx bs ->
    trained (fmedian_policy interpolate) mx bs = trained (median_policy Bltb interpolate midpoint fzero) mx (map (map (fun x => some_if x)) bs).
  Proof using Hp Hm.
    intros H. unfold fmedian_policy, median_policy. rewrite trained_simple by exact H. rewrite trained_simple.
    2:{ destruct H as [H1 H2]. split; [exact H1|]. apply Forall_forall. intros b Hb. apply in_map_iff in Hb. destruct Hb as (b0 & <- & Hb).
        rewrite Forall_forall in H2. specialize (H2 b0 Hb). destruct b0; [contradiction|discriminate]. }
    unfold items. rewrite <- concat_map, firstn_map. set (l := firstn mx (concat bs)).
    assert (E : forall (l : list F) s, foldM (fun s x => if is_nan x then Ok s else median_fit Bltb s x) s l =
      foldM (fun s x => match x with None => Ok s | Some v => median_fit Bltb s v end) s (map (fun x => some_if x) l)).
    { induction l0 as [|x r IH]; intros s; [reflexivity|]. cbn [foldM map]. destruct (is_nan x); [cbn [bind]; apply IH|].
      destruct (median_fit Bltb s x); cbn [bind]; [apply IH|reflexivity|reflexivity]. }
    rewrite E. reflexivity.
  Qed.
  Lemma midpoint_ok (x y : F) : (p <= 53)%Z -> (e <= 1024)%Z -> is_finite x = true -> is_finite y = true -> B2R x <= B2R y ->
    Rabs (rounded 53 1024 (B2R x + B2R y)) < bpow radix2 1024 ->
    equals (midpoint x y) (rounded p e (rounded 53 1024 (rounded 53 1024 (B2R x + B2R y) / 2))) /\ B2R x <= B2R (midpoint x y) <= B2R y.
  Proof using Hp Hm.
    intros Hp53 He Fx Fy Hxy Hov. unfold midpoint.
    destruct (convert_widen (p' := 53) (e' := 1024) x Hp53 He Fx) as [Cx Gx].
    destruct (convert_widen (p' := 53) (e' := 1024) y Hp53 He Fy) as [Cy Gy].
    set (a := convert x : double) in *. set (b := convert y : double) in *.
    assert (Hov' : Rabs (rnd (prec := 53) (emax := 1024) (B2R a + B2R b)) < bpow radix2 1024) by (rewrite Cx, Cy; exact Hov).
    destruct (fadd_ok a b Gx Gy Hov') as [A1 A2]. rewrite Cx, Cy in A1.
    set (s := fadd a b) in *.
    destruct (of_int_exact (prec := 53) (emax := 1024) 2 ltac:(cbn; lia)) as [T1 T2].
    assert (Fmt : forall z : double, rounded 53 1024 (2 * B2R z) = 2 * B2R z).
    { intros z. apply round_generic; [apply valid_rnd_N|]. change 2 with (bpow radix2 1). rewrite Rmult_comm. apply mult_bpow_pos_exact_FLT; [exact (generic_format_B2R 53 1024 z)|lia]. }
    assert (Lo : 2 * B2R x <= B2R s).
    { rewrite A1. replace (2 * B2R x) with (rounded 53 1024 (2 * B2R x)) by (rewrite <- Cx; apply Fmt). apply rnd_mono. lra. }
    assert (Hi : B2R s <= 2 * B2R y).
    { rewrite A1. replace (2 * B2R y) with (rounded 53 1024 (2 * B2R y)) by (rewrite <- Cy; apply Fmt). apply rnd_mono. lra. }
    assert (Lo2 : B2R x <= rounded 53 1024 (B2R s / 2)).
    { replace (B2R x) with (rounded 53 1024 (B2R x)) by (rewrite <- Cx; apply (rnd_B2R a)). apply rnd_mono. lra. }
    assert (Hi2 : rounded 53 1024 (B2R s / 2) <= B2R y).
    { replace (B2R y) with (rounded 53 1024 (B2R y)) by (rewrite <- Cy; apply (rnd_B2R b)). apply rnd_mono. lra. }
    pose proof (abs_B2R_lt_emax p e x) as Bx. pose proof (abs_B2R_lt_emax p e y) as By. apply Rabs_def2 in Bx, By.
    assert (Be : bpow radix2 e <= bpow radix2 1024) by (apply bpow_le; exact He).
    destruct (fdiv_ok s (of_int 2) A2) as [D1 D2].
    { rewrite T1. lra. }
    { rewrite T1. apply Rabs_def1; unfold rounded in *; fold (rnd (prec := 53) (emax := 1024) (B2R s / 2)) in *; lra. }
    rewrite T1 in D1. change (rnd (B2R s / 2)) with (rounded 53 1024 (B2R s / 2)) in D1.
    assert (Lo3 : B2R x <= rounded p e (rounded 53 1024 (B2R s / 2))).
    { rewrite <- (rnd_B2R x) at 1. apply rnd_mono. exact Lo2. }
    assert (Hi3 : rounded p e (rounded 53 1024 (B2R s / 2)) <= B2R y).
    { rewrite <- (rnd_B2R y). apply rnd_mono. exact Hi2. }
    destruct (convert_round (p' := p) (e' := e) (fdiv s (of_int 2)) D2) as [V1 V2].
    { rewrite D1. change (rnd (rounded 53 1024 (B2R s / 2))) with (rounded p e (rounded 53 1024 (B2R s / 2))). apply Rabs_def1; lra. }
    rewrite D1 in V1. change (rnd (rounded 53 1024 (B2R s / 2))) with (rounded p e (rounded 53 1024 (B2R s / 2))) in V1.
    split; [split; [exact V2|]|].
    - rewrite V1, A1. reflexivity.
    - rewrite V1. lra.
  Qed.
  Lemma place_fin (x : F) : is_nan x = false -> (is_finite x = true <-> Rabs (place x) < bpow radix2 e) /\ (is_finite x = true -> place x = B2R x).
  Proof using Type.
    intros Nx. split.
    - destruct x as [s|[]| |s m k H]; try discriminate; cbn [is_finite place].
      + split; [intros _|reflexivity]. apply abs_B2R_lt_emax.
      + split; [discriminate|]. rewrite Rabs_Ropp, Rabs_pos_eq by apply bpow_ge_0. lra.
      + split; [discriminate|]. rewrite Rabs_pos_eq by apply bpow_ge_0. lra.
      + split; [intros _|reflexivity]. apply abs_B2R_lt_emax.
    - destruct x; try discriminate; reflexivity.
  Qed.
  Lemma fmedian_spec (interpolate : bool) mx (bs : list (list F)) (s : list R) : (p <= 53)%Z -> (e <= 1024)%Z -> proper_training mx bs ->
    let l := numbers (items mx bs) in Permutation s (map place l) -> StronglySorted Rle s ->
    let n := length s in
    (l = [] -> trained (fmedian_policy interpolate) mx bs = Throw RuntimeError) /\
    (l <> [] -> exists m, trained (fmedian_policy interpolate) mx bs = Ok (Some m) /\
       (interpolate = false \/ Nat.odd n = true -> In m l /\ place m = nth ((n - 1) / 2) s 0) /\
       (interpolate = true -> Nat.odd n = false ->
          let a := nth (n / 2 - 1) s 0 in let b := nth (n / 2) s 0 in
          Rabs a < bpow radix2 e -> Rabs b < bpow radix2 e -> Rabs (rounded 53 1024 (a + b)) < bpow radix2 1024 ->
          equals m (rounded p e (rounded 53 1024 (rounded 53 1024 (a + b) / 2))) /\ a <= B2R m <= b)).
  Proof using Hp Hm.
    intros Hp53 He H l P Ss n. rewrite fmedian_as by exact H.
    set (bs' := map (map (fun x => some_if x)) bs).
    assert (I' : somes (items mx bs') = l).
    { unfold items, bs'. rewrite <- concat_map, firstn_map, somes_numbers. reflexivity. }
    assert (H' : proper_training mx bs').
    { destruct H as [H1 H2]. split; [exact H1|]. apply Forall_forall. intros b Hb. apply in_map_iff in Hb. destruct Hb as (b0 & <- & Hb).
      rewrite Forall_forall in H2. specialize (H2 b0 Hb). destruct b0; [contradiction|discriminate]. }
    assert (Hn : Forall (fun x => is_nan x = false) l).
    { apply Forall_forall. intros x Hx. apply filter_In in Hx. destruct Hx as [_ Hx]. now apply negb_true_iff in Hx. }
    destruct (median_float interpolate midpoint fzero mx bs' H') with (s := s) as [M1 M2].
    { rewrite I'. exact Hn. } { rewrite I'. exact P. } { exact Ss. }
    fold n in M1, M2. rewrite I' in M2.
    assert (Ln : n = length l) by (unfold n; rewrite (Permutation_length P), map_length; reflexivity).
    split.
    - intros E. apply M1. rewrite Ln, E. reflexivity.
    - intros E. destruct M2 as (a & b & Ia & Ib & Pa & Pb & R); [rewrite Ln; destruct l; [contradiction|discriminate]|].
      eexists. split; [exact R|]. split.
      + intros Hodd. assert (negb interpolate || Nat.odd n = true) as -> by (destruct Hodd as [-> | ->]; [reflexivity|apply orb_true_r]).
        split; assumption.
      + intros -> Ho. rewrite Ho. cbn [negb orb]. cbv zeta. intros Fa Fb Hov.
        assert (En : ((n - 1) / 2 = n / 2 - 1)%nat).
        { rewrite <- Nat.negb_even in Ho. apply negb_false_iff in Ho. apply Nat.even_spec in Ho. destruct Ho as [k ->].
          assert (k <> 0)%nat by (intros ->; cbn in Ln; destruct l; [contradiction|discriminate]).
          replace (2 * k / 2)%nat with k by (symmetry; rewrite Nat.mul_comm; apply Nat.div_mul; lia).
          symmetry. apply Nat.div_unique with 1%nat; lia. }
        rewrite En in Pa. rewrite Forall_forall in Hn. pose proof (Hn a Ia) as Na. pose proof (Hn b Ib) as Nb.
        destruct (place_fin a Na) as [A1 A2]. destruct (place_fin b Nb) as [B1 B2].
        rewrite <- Pa in *. rewrite <- Pb in *. apply A1 in Fa. apply B1 in Fb. rewrite (A2 Fa), (B2 Fb) in *.
        assert (Le : B2R a <= B2R b).
        { rewrite Pa, Pb. clear - Ss Ln E Ho. 
          assert (G : forall (t : list R) i j, StronglySorted Rle t -> (i <= j < length t)%nat -> nth i t 0 <= nth j t 0).
          { induction t as [|x t IH]; intros i j S Hij; [cbn in Hij; lia|]. inversion S; subst. destruct j as [|j].
            - assert (i = 0)%nat as -> by lia. lra.
            - destruct i as [|i]; cbn [nth].
              + rewrite Forall_forall in H2. apply H2. apply nth_In. cbn in Hij. lia.
              + apply IH; [assumption|cbn in Hij; lia]. }
          apply G; [exact Ss|]. fold n. assert (n <> 0)%nat by (rewrite Ln; destruct l; [contradiction|discriminate]).
          pose proof (Nat.div_lt n 2). lia. }
        apply midpoint_ok; assumption.
  Qed.
  Lemma median_huge : exists x : double, is_finite x = true /\ trained (fmedian_policy true) 9 [[x; x]] = Ok (Some (B754_infinity false)).
  Proof using Type. exists Bmax_float. split; reflexivity. Qed.
End FMedian.
