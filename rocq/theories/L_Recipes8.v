(** C80: the min-max scaler over floating point columns. *)
From Coq Require Import Reals Lra.
From Flocq Require Import Core.Core IEEE754.BinarySingleNaN.
From Verif Require Import Base L_List M_Estimator M_Stats M_Scale M_Pipeline M_Featurizer M_Recipes S_Stats S_FloatStats S_Scale S_Featurizer S_Keeps S_Accuracy
  L_Estimator L_Stats L_Featurizer L_Float L_Scale L_Scale2 L_Scale5 L_Recipes L_Recipes3 L_Recipes5 L_Keeps L_Keeps2 L_Accuracy L_Accuracy2 L_Accuracy3.
Open Scope R_scope.

Section Range.
  Context {p e : Z} {Hp : Prec_gt_0 p} {Hm : Prec_lt_emax p e}.
  Notation F := (binary_float p e).
  Notation hi := (Bmax_float : F).
  Notation lo := (Bopp Bmax_float : F).
  (** [m] is a least (with [sgn] = -1: a greatest) of the numbers [l] and the bound it began with. *)
  Definition lower (l : list F) (m : F) : Prop := is_finite m = true /\ (forall x, In x l -> B2R m <= B2R x) /\ (m = hi \/ In m l).
  Definition upper (l : list F) (m : F) : Prop := is_finite m = true /\ (forall x, In x l -> B2R x <= B2R m) /\ (m = lo \/ In m l).
  Lemma max_fin : is_finite hi = true. Proof using Hp Hm. exact (proj1 (max_float_ok (prec := p) (emax := e))). Qed.
  Lemma lo_fin : is_finite lo = true. Proof using Hp Hm. rewrite is_finite_Bopp. exact max_fin. Qed.
  Lemma lo_le (x : F) : B2R lo <= B2R x.
  Proof using Hp Hm. pose proof (proj2 (max_float_ok (prec := p) (emax := e)) (Bopp x)) as H. rewrite !B2R_Bopp in *. lra. Qed.
  Lemma nan_ltb (x y : F) : is_nan x = true -> Bltb x y = false /\ Bltb y x = false.
  Proof using. destruct x as [|[]| |]; try discriminate. intros _. destruct y as [|[]| |]; split; reflexivity. Qed.
  Lemma fold_range xs : forall (mn mx : F) l, lower l mn -> upper l mx -> Forall not_infinite xs ->
    exists mn' mx', foldM (minmax_fit Bltb) (mn, mx) xs = Ok (mn', mx') /\ lower (l ++ numbers xs) mn' /\ upper (l ++ numbers xs) mx'.
  Proof using Hp Hm.
    induction xs as [|x xs IH]; intros mn mx l L U N; cbn [foldM].
    - exists mn, mx. cbn [numbers filter]. rewrite app_nil_r. auto.
    - pose proof (Forall_inv N) as N1. pose proof (Forall_inv_tail N) as N2. unfold minmax_fit at 1. cbn [bind fst snd].
      destruct (is_nan x) eqn:E.
      + destruct (nan_ltb x mn E) as [A _]. destruct (nan_ltb x mx E) as [_ B]. rewrite A, B. cbn [numbers filter]. rewrite E. cbn [negb]. apply IH; assumption.
      + assert (Fx : is_finite x = true) by (destruct x; try discriminate E; try contradiction N1; reflexivity).
        cbn [numbers filter]. rewrite E. cbn [negb]. fold (numbers xs). change (x :: numbers xs) with ([x] ++ numbers xs). rewrite app_assoc. apply IH; [| |exact N2].
        * destruct L as (L1 & L2 & L3). rewrite Bltb_correct by auto. destruct (Rlt_bool_spec (B2R x) (B2R mn)) as [C|C]; (split; [assumption|]; split).
          -- intros y Hy. apply in_app_or in Hy. destruct Hy as [Hy|[<-|[]]]; [specialize (L2 y Hy); lra|lra].
          -- right. apply in_or_app. right. now left.
          -- intros y Hy. apply in_app_or in Hy. destruct Hy as [Hy|[<-|[]]]; [exact (L2 y Hy)|exact C].
          -- destruct L3 as [L3|L3]; [now left|right; apply in_or_app; now left].
        * destruct U as (U1 & U2 & U3). rewrite Bltb_correct by auto. destruct (Rlt_bool_spec (B2R mx) (B2R x)) as [C|C]; (split; [assumption|]; split).
          -- intros y Hy. apply in_app_or in Hy. destruct Hy as [Hy|[<-|[]]]; [specialize (U2 y Hy); lra|lra].
          -- right. apply in_or_app. right. now left.
          -- intros y Hy. apply in_app_or in Hy. destruct Hy as [Hy|[<-|[]]]; [exact (U2 y Hy)|exact C].
          -- destruct U3 as [U3|U3]; [now left|right; apply in_or_app; now left].
  Qed.
  Lemma range_trained mx (bs : list (list F)) : proper_training mx bs -> Forall not_infinite (items mx bs) ->
    let l := numbers (items mx bs) in
    (l = [] -> trained (minmax_policy Bltb lo hi) mx bs = Throw InvalidArgument) /\
    (l <> [] -> exists mn mxv, trained (minmax_policy Bltb lo hi) mx bs = Ok (Some (mn, mxv)) /\ is_finite mn = true /\ is_finite mxv = true /\
       (forall x, In x l -> B2R mn <= B2R x <= B2R mxv) /\ (exists x, In x l /\ B2R x = B2R mn) /\ (exists x, In x l /\ B2R x = B2R mxv)).
  Proof using Hp Hm.
    intros H N l. unfold minmax_policy. rewrite trained_simple by exact H.
    destruct (fold_range (items mx bs) hi lo []) as (mn & mxv & E & L & U); [split; [exact max_fin|]; split; [intros x []|now left]|split; [exact lo_fin|]; split; [intros x []|now left]|exact N|].
    rewrite E. cbn [bind fst snd]. cbn [app] in L, U. fold l in L, U. destruct L as (L1 & L2 & L3). destruct U as (U1 & U2 & U3). rewrite Bltb_correct by auto. split; intros Hl.
    - rewrite Hl in *. destruct L3 as [->|[]]. destruct U3 as [->|[]].
      assert (P : 0 < B2R hi).
      { unfold Bmax_float. rewrite B2R_SF2B. cbn [SF2R cond_Zopp]. apply F2R_gt_0. cbn [Fnum]. lia. }
      rewrite Rlt_bool_true; [reflexivity|]. rewrite B2R_Bopp. lra.
    - destruct l as [|x l0] eqn:El; [now elim Hl|]. rewrite <- El in *. assert (Hx : In x l) by (rewrite El; now left). rewrite Rlt_bool_false by (specialize (L2 x Hx); specialize (U2 x Hx); lra). cbn [bind].
      exists mn, mxv. split; [reflexivity|]. split; [exact L1|]. split; [exact U1|]. split; [intros y Hy; split; auto|]. split.
      + destruct L3 as [->|L3]; [|now exists mn]. exists x. split; [exact Hx|]. pose proof (proj2 (max_float_ok (prec := p) (emax := e)) x). specialize (L2 x Hx). lra.
      + destruct U3 as [->|U3]; [|now exists mxv]. exists x. split; [exact Hx|]. pose proof (lo_le x). specialize (U2 x Hx). lra.
  Qed.
End Range.

Lemma finite_numbers {p e} (l : list (binary_float p e)) x : Forall not_infinite l -> In x (numbers l) -> is_finite x = true.
Proof.
  intros N H. unfold numbers in H. apply filter_In in H. destruct H as [H1 H2]. rewrite Forall_forall in N. specialize (N x H1). destruct x; try reflexivity; try discriminate H2; contradiction N.
Qed.

Section Column.
  Context {p e : Z} {Hp : Prec_gt_0 p} {Hm : Prec_lt_emax p e}.
  Notation F := (binary_float p e).
  Theorem min_max_scaler_same col mx (bs : list (list F)) (a : ann_maps (fnote F F F)) : (3 <= p)%Z -> bare a col -> proper_training mx bs -> bs <> [] -> Forall not_infinite (items mx bs) ->
    let l := numbers (items mx bs) in let steps := min_max_scaler_recipe col (same_ty : numty p e F) (Bopp Bmax_float) Bmax_float mx in
    (l = [] -> trains_throwing col steps a bs InvalidArgument) /\
    (l <> [] -> exists (mn mxv : F) s, (forall x, In x l -> B2R mn <= B2R x <= B2R mxv) /\ (exists x, In x l /\ B2R x = B2R mn) /\ (exists x, In x l /\ B2R x = B2R mxv) /\
       trains_one col steps a bs s /\ (forall x, is_nan x = true -> mm_exec same_ty s x = B754_nan) /\
       (B2R mn = B2R mxv -> forall x, is_nan x = false -> equals (mm_exec same_ty s x) 0) /\
       (is_finite (fsub mxv mn) = true ->
          keeps_order not_above (mm_exec same_ty s) /\
          (forall x, In x l -> within 0 1 (mm_exec same_ty s x) /\ (B2R x = B2R mn -> equals (mm_exec same_ty s x) 0) /\ (B2R mn < B2R mxv -> B2R x = B2R mxv -> equals (mm_exec same_ty s x) 1)) /\
          (B2R mn < B2R mxv -> forall x, is_finite x = true -> is_finite (mm_exec same_ty s x) = true ->
             accurate (4 * unit_error p) (half_least p e) (mm_exec same_ty s x) ((B2R x - B2R mn) / (B2R mxv - B2R mn))))).
  Proof using Type.
    intros P H1 H2 H3 N l steps. destruct (range_trained mx bs H2 N) as [T0 T1]. fold l in T0, T1. split.
    - intros El. eapply (one_throws (F := F)); first [exact H1|exact H2|exact H3|discriminate|reflexivity|exact (T0 El)].
    - intros El. destruct (T1 El) as (mn & mxv & E & F1 & F2 & R1 & R2 & R3).
      assert (Le : B2R mn <= B2R mxv) by (destruct R2 as (x & Hx & _); specialize (R1 x Hx); lra).
      assert (En : mm_new same_ty mn mxv = Ok (mn, fsub mxv mn)).
      { unfold mm_new. cbn [same_ty n_lt n_sub bind]. rewrite Bltb_correct by auto. rewrite Rlt_bool_false by lra. reflexivity. }
      exists mn, mxv, (mn, fsub mxv mn). split; [exact R1|]. split; [exact R2|]. split; [exact R3|]. split; [exact (min_max_scaler_trains same_ty _ _ col mx bs a mn mxv _ H1 H2 H3 E En)|].
      split; [intros x Hx; unfold mm_exec; cbn [same_ty n_null]; now rewrite Hx|]. split.
      + intros Eq x Hx. unfold mm_exec. cbn [same_ty n_null n_is_zero fst snd]. rewrite Hx.
        destruct (fsub_ok mxv mn F2 F1) as [S1 S2]; [replace (B2R mxv - B2R mn) with 0 by lra; rewrite rnd_0, Rabs_R0; apply bpow_gt_0|].
        rewrite (is_zero_B2R _ S2), S1. replace (B2R mxv - B2R mn) with 0 by lra. rewrite rnd_0, Req_bool_true by reflexivity. split; reflexivity.
      + intros Fs. split; [exact (mm_same_keeps mn mxv _ F1 F2 Fs En)|]. split.
        * intros x Hx. pose proof (finite_numbers _ x N Hx) as Fx. destruct (mm_same mn mxv x F1 F2 Fx Fs (R1 x Hx)) as (s & A & B & C & D & G). rewrite En in A. injection A as <-.
          split; [split; assumption|]. split; intros; split; auto.
        * intros L x Fx Fr. exact (mm_same_accurate mn mxv _ x P F1 F2 Fs ltac:(lra) En Fx Fr).
  Qed.
End Column.
Theorem min_max_scaler_single col mx (bs : list (list float32)) (a : ann_maps (fnote float32 float32 double)) : bare a col -> proper_training mx bs -> bs <> [] -> Forall not_infinite (items mx bs) ->
  let l := numbers (items mx bs) in let steps := min_max_scaler_recipe col float_to_double (Bopp Bmax_float) Bmax_float mx in
  (l = [] -> trains_throwing col steps a bs InvalidArgument) /\
  (l <> [] -> exists (mn mxv : float32) s, (forall x, In x l -> B2R mn <= B2R x <= B2R mxv) /\ (exists x, In x l /\ B2R x = B2R mn) /\ (exists x, In x l /\ B2R x = B2R mxv) /\
     trains_one col steps a bs s /\ (forall x, is_nan x = true -> mm_exec float_to_double s x = B754_nan) /\
     (B2R mn = B2R mxv -> forall x, is_nan x = false -> equals (mm_exec float_to_double s x) 0) /\
     (is_finite (fsub mxv mn) = true ->
        keeps_order not_above (mm_exec float_to_double s) /\
        (B2R mn < B2R mxv ->
           (forall x, In x l -> within 0 (1 + bpow radix2 (-23)) (mm_exec float_to_double s x) /\ (B2R x = B2R mn -> equals (mm_exec float_to_double s x) 0) /\
              (B2R x = B2R mxv -> within (1 - bpow radix2 (-23)) (1 + bpow radix2 (-23)) (mm_exec float_to_double s x))) /\
           (forall x, is_finite x = true -> accurate (bpow radix2 (-23)) (half_least 53 1024) (mm_exec float_to_double s x) ((B2R x - B2R mn) / (B2R mxv - B2R mn)))))).
Proof.
  intros H1 H2 H3 N l steps. destruct (range_trained mx bs H2 N) as [T0 T1]. fold l in T0, T1. split.
  - intros El. eapply (one_throws (F := double)); first [exact H1|exact H2|exact H3|discriminate|reflexivity|exact (T0 El)].
  - intros El. destruct (T1 El) as (mn & mxv & E & F1 & F2 & R1 & R2 & R3).
    assert (Le : B2R mn <= B2R mxv) by (destruct R2 as (x & Hx & _); specialize (R1 x Hx); lra).
    assert (En : mm_new float_to_double mn mxv = Ok (mn, fsub mxv mn)).
    { unfold mm_new. cbn [float_to_double n_lt n_sub bind]. rewrite Bltb_correct by auto. rewrite Rlt_bool_false by lra. reflexivity. }
    exists mn, mxv, (mn, fsub mxv mn). split; [exact R1|]. split; [exact R2|]. split; [exact R3|]. split; [exact (min_max_scaler_trains float_to_double _ _ col mx bs a mn mxv _ H1 H2 H3 E En)|].
    split; [intros x Hx; unfold mm_exec; cbn [float_to_double n_null]; now rewrite Hx|]. split.
    + intros Eq x Hx. unfold mm_exec. cbn [float_to_double n_null n_is_zero fst snd]. rewrite Hx.
      destruct (fsub_ok (prec := 24) (emax := 128) mxv mn F2 F1) as [S1 S2]; [replace (B2R mxv - B2R mn) with 0 by lra; rewrite rnd_0, Rabs_R0; apply bpow_gt_0|].
      rewrite (is_zero_B2R _ S2), S1. replace (B2R mxv - B2R mn) with 0 by lra. rewrite rnd_0, Req_bool_true by reflexivity. split; reflexivity.
    + intros Fs. split; [exact (mm_float_keeps mn mxv _ F1 F2 Fs En)|]. intros L. split.
      * intros x Hx. pose proof (finite_numbers _ x N Hx) as Fx. destruct (mm_float_range mn mxv x F1 F2 Fs L Fx (R1 x Hx)) as (s & A & B & C & D). rewrite En in A. injection A as <-.
        split; [exact B|]. split; [|exact D]. intros Hq. split; [exact (proj1 B)|auto].
      * intros x Fx. exact (mm_float_accurate mn mxv _ x F1 F2 Fs ltac:(lra) En Fx).
Qed.
(** What is trained with an infinite value: a range whose least value never occurred. *)
Lemma infinite_range_refuted : ~ (forall mx (bs : list (list float32)) s, proper_training mx bs -> trained (minmax_policy Bltb (Bopp Bmax_float) Bmax_float) mx bs = Ok (Some s) ->
  exists x, In x (items mx bs) /\ Beqb x (fst s) = true) /\
  ~ (forall mx (bs : list (list float32)) s, proper_training mx bs -> trained (minmax_policy Bltb (Bopp Bmax_float) Bmax_float) mx bs = Ok (Some s) ->
  forall x s', In x (items mx bs) -> is_nan x = false -> mm_new float_to_double (fst s) (snd s) = Ok s' -> is_nan (mm_exec float_to_double s' x) = false).
Proof.
  assert (P : proper_training 9 [[B754_infinity false : float32]]) by (split; [lia|constructor; [discriminate|constructor]]).
  split; intros H; specialize (H 9%nat [[B754_infinity false]] (Bmax_float, B754_infinity false) P eq_refl).
  - destruct H as (x & [<-|[]] & H). vm_compute in H. discriminate.
  - specialize (H (B754_infinity false) _ (or_introl eq_refl) eq_refl eq_refl). vm_compute in H. discriminate.
Qed.
