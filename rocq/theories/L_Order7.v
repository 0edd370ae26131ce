(** C81: the min-max scaler of a floating point column, whatever it holds. *)
From Coq Require Import Reals Lra.
From Flocq Require Import Core.Core IEEE754.BinarySingleNaN.
From Verif Require Import Base L_List M_Archive M_Estimator M_Stats M_Encoders M_Impute M_Scale M_FloatStats M_Pipeline M_Featurizer M_Recipes
  S_Stats S_Impute S_FloatStats S_Scale S_Window S_Featurizer S_Order L_Estimator L_Stats L_Featurizer L_Float L_FloatStats6
  L_Recipes L_Recipes2 L_Recipes3 L_Recipes5 L_Order L_Order2 L_Order3.
Open Scope R_scope.

Section Range.
  Context {p e : Z} {Hp : Prec_gt_0 p} {Hm : Prec_lt_emax p e}.
  Notation F := (binary_float p e).
  Lemma nan_lt (x y : F) : is_nan x = true -> Bltb x y = false /\ Bltb y x = false.
  Proof using. destruct x as [|[]| |]; try discriminate. intros _. destruct y as [|[]| |]; split; reflexivity. Qed.
  (** What two scans in different orders leave. *)
  Lemma range_fold xs : forall (mn mx : F), is_nan mn = false -> is_nan mx = false ->
    exists mn' mx', foldM (minmax_fit Bltb) (mn, mx) xs = Ok (mn', mx') /\ is_nan mn' = false /\ is_nan mx' = false /\
      (place mn' <= place mn /\ (forall x, In x xs -> is_nan x = false -> place mn' <= place x) /\ (mn' = mn \/ In mn' xs)) /\
      (place mx <= place mx' /\ (forall x, In x xs -> is_nan x = false -> place x <= place mx') /\ (mx' = mx \/ In mx' xs)).
  Proof using Hp Hm.
    induction xs as [|x xs IH]; intros mn mx N1 N2; cbn [foldM].
    - exists mn, mx. repeat split; try assumption; try lra; try (intros ? []); now left.
    - unfold minmax_fit at 1. cbn [bind fst snd]. destruct (is_nan x) eqn:E.
      + destruct (nan_lt x mn E) as [A _]. destruct (nan_lt x mx E) as [_ B]. rewrite A, B.
        destruct (IH mn mx N1 N2) as (mn' & mx' & Q & X1 & X2 & (P1 & P2 & P3) & (P4 & P5 & P6)). exists mn', mx'. split; [exact Q|]. split; [exact X1|]. split; [exact X2|].
        split.
        * split; [assumption|]. split; [intros y [<-|Hy] Ny; [congruence|auto]|]. destruct P3; [now left|right; now right].
        * split; [assumption|]. split; [intros y [<-|Hy] Ny; [congruence|auto]|]. destruct P6; [now left|right; now right].
      + rewrite !place_lt by assumption.
        destruct (IH (if Rlt_bool (place x) (place mn) then x else mn) (if Rlt_bool (place mx) (place x) then x else mx)) as (mn' & mx' & Q & X1 & X2 & (P1 & P2 & P3) & (P4 & P5 & P6)); [now destruct Rlt_bool|now destruct Rlt_bool|].
        exists mn', mx'. split; [exact Q|]. split; [exact X1|]. split; [exact X2|]. clear Q. split.
        * destruct (Rlt_bool_spec (place x) (place mn)) as [C|C].
          -- split; [lra|]. split; [intros y [<-|Hy] Ny; auto|]. destruct P3 as [->|P3]; right; [now left|now right].
          -- split; [lra|]. split; [intros y [<-|Hy] Ny; [lra|auto]|]. destruct P3 as [->|P3]; [now left|right; now right].
        * destruct (Rlt_bool_spec (place mx) (place x)) as [C|C].
          -- split; [lra|]. split; [intros y [<-|Hy] Ny; auto|]. destruct P6 as [->|P6]; right; [now left|now right].
          -- split; [lra|]. split; [intros y [<-|Hy] Ny; [lra|auto]|]. destruct P6 as [->|P6]; [now left|right; now right].
  Qed.
  Lemma range_folds xs ys (mn mx : F) : Permutation xs ys -> is_nan mn = false -> is_nan mx = false ->
    exists a b a' b', foldM (minmax_fit Bltb) (mn, mx) xs = Ok (a, b) /\ foldM (minmax_fit Bltb) (mn, mx) ys = Ok (a', b') /\
      is_nan a = false /\ is_nan b = false /\ is_nan a' = false /\ is_nan b' = false /\ place a = place a' /\ place b = place b'.
  Proof using Hp Hm.
    intros P N1 N2.
    destruct (range_fold xs mn mx N1 N2) as (a & b & Q & X1 & X2 & (P1 & P2 & P3) & (P4 & P5 & P6)).
    destruct (range_fold ys mn mx N1 N2) as (a' & b' & Q' & X1' & X2' & (P1' & P2' & P3') & (P4' & P5' & P6')).
    exists a, b, a', b'. split; [exact Q|]. split; [exact Q'|]. split; [exact X1|]. split; [exact X2|]. split; [exact X1'|]. split; [exact X2'|].
    assert (I : forall x, In x xs -> In x ys) by (intros x; now apply Permutation_in).
    assert (J : forall x, In x ys -> In x xs) by (intros x; apply Permutation_in; now apply Permutation_sym).
    split; apply Rle_antisym.
    - destruct P3' as [->|P3']; [exact P1|auto].
    - destruct P3 as [->|P3]; [exact P1'|auto].
    - destruct P6 as [->|P6]; [exact P4'|auto].
    - destruct P6' as [->|P6']; [exact P4|auto].
  Qed.
  Lemma like_sub (x y x' y' : F) : same_number x x' -> same_number y y' -> same_number (fsub x y) (fsub x' y').
  Proof using Type.
    intros A B. destruct A as [<-|[A A']].
    - destruct B as [<-|[B B']]; [now left|]. destruct (zero_is _ B) as [s ->], (zero_is _ B') as [s0 ->].
      destruct x as [sx|sx| |sx mx ex Bx]; [right; now destruct sx, s, s0| | |]; left; destruct s, s0; reflexivity.
    - destruct (zero_is _ A) as [s ->], (zero_is _ A') as [s0 ->]. destruct B as [<-|[B B']].
      + destruct y as [sy|sy| |sy my ey By]; [right; now destruct sy, s, s0| | |]; left; destruct s, s0; reflexivity.
      + destruct (zero_is _ B) as [s1 ->], (zero_is _ B') as [s2 ->]. right. now destruct s, s0, s1, s2.
  Qed.
  Lemma like_div (x x' y : F) : same_number x x' -> same_number (fdiv x y) (fdiv x' y).
  Proof using Type.
    intros [<-|[A A']]; [now left|]. destruct (zero_is _ A) as [s ->], (zero_is _ A') as [s0 ->].
    destruct y as [sy|sy| |sy my ey By]; [left|right|left|right]; destruct s, s0; try destruct sy; try split; reflexivity.
  Qed.
  Lemma like_zero (x y : F) : same_number x y -> is_zero x = is_zero y.
  Proof using Type. intros [<-|[A B]]; [reflexivity|congruence]. Qed.
  Lemma like_nonzero (x y : F) : same_number x y -> is_zero x = false -> x = y.
  Proof using Type. intros [A|[A B]] Z; [exact A|congruence]. Qed.
End Range.

Section Scaler.
  Context {p e : Z} {Hp : Prec_gt_0 p} {Hm : Prec_lt_emax p e}.
  Context {q f : Z} {Hq : Prec_gt_0 q} {Hf : Prec_lt_emax q f}.
  Notation F := (binary_float p e).
  Notation G := (binary_float q f).
  Variable cv : F -> G.
  Hypothesis cv_like : forall x y, same_number x y -> same_number (cv x) (cv y).
  Definition floats : numty q f F := mkNum is_nan Bltb (fun a b => Ok (fadd a b)) (fun a b => Ok (fsub a b)) is_zero cv.
  Lemma exec_like s s' x : same_number (fst s) (fst s') -> same_number (snd s) (snd s') -> same_number (mm_exec floats s x) (mm_exec floats s' x).
  Proof using cv_like.
    intros A B. unfold mm_exec. cbn [floats n_null n_is_zero n_cv]. rewrite <- (like_zero _ _ B). destruct (is_nan x); [now left|].
    destruct (is_zero (snd s)) eqn:Z; [now left|]. rewrite <- (like_nonzero _ _ B Z). apply like_div, like_sub; [now left|now apply cv_like].
  Qed.
  Lemma float_scaler_alike (t : numty q f F) (hi lo : F) col mx (bs bs' : list (list F)) (a : ann_maps (fnote F F G)) : t = floats -> is_nan hi = false -> is_nan lo = false ->
    bare a col -> shuffled mx bs bs' ->
    trains_alike (fun s s' => forall x, same_number (mm_exec t s x) (mm_exec t s' x)) col (min_max_scaler_recipe col t lo hi mx) a bs bs'.
  Proof using cv_like Hp Hm.
    intros -> N1 N2 Hb (T1 & T2 & B1 & B2 & Pm) apply.
    destruct (range_folds _ _ hi lo Pm N1 N2) as (mn & mxv & mn' & mxv' & E & E' & X1 & X2 & X3 & X4 & P1 & P2).
    assert (Q : trained (minmax_policy Bltb lo hi) mx bs = if Rlt_bool (place mxv) (place mn) then Throw InvalidArgument else Ok (Some (mn, mxv))).
    { unfold minmax_policy. rewrite trained_simple by exact T1. rewrite E. cbn [bind fst snd]. rewrite place_lt by assumption. now destruct Rlt_bool. }
    assert (Q' : trained (minmax_policy Bltb lo hi) mx bs' = if Rlt_bool (place mxv) (place mn) then Throw InvalidArgument else Ok (Some (mn', mxv'))).
    { unfold minmax_policy. rewrite trained_simple by exact T2. rewrite E'. cbn [bind fst snd]. rewrite place_lt by assumption. rewrite <- P1, <- P2. now destruct Rlt_bool. }
    destruct (Rlt_bool (place mxv) (place mn)) eqn:C.
    - exists (Throw InvalidArgument), (Throw InvalidArgument). split; [|split; [|reflexivity]].
      + eapply (one_throws (F := G)); first [exact Hb|exact T1|exact B1|discriminate|reflexivity|exact Q].
      + eapply (one_throws (F := G)); first [exact Hb|exact T2|exact B2|discriminate|reflexivity|exact Q'].
    - assert (M : mm_new floats mn mxv = Ok (mn, fsub mxv mn)).
      { unfold mm_new. cbn [floats n_lt n_sub bind]. rewrite place_lt by assumption. rewrite C. reflexivity. }
      assert (M' : mm_new floats mn' mxv' = Ok (mn', fsub mxv' mn')).
      { unfold mm_new. cbn [floats n_lt n_sub bind]. rewrite place_lt by assumption. rewrite <- P1, <- P2, C. reflexivity. }
      pose proof (min_max_scaler_trains floats lo hi col mx bs a mn mxv _ Hb T1 B1 Q M) as R.
      pose proof (min_max_scaler_trains floats lo hi col mx bs' a mn' mxv' _ Hb T2 B2 Q' M') as R'.
      destruct R as (a1 & _ & R1). destruct R' as (a2 & _ & R2). specialize (R1 apply). specialize (R2 apply).
      eexists. eexists. split; [exact R1|]. split; [exact R2|]. cbn [same_end]. constructor; [|constructor]. intros x.
      apply exec_like; cbn [fst snd]; [now apply place_like|]. apply like_sub; now apply place_like.
  Qed.
End Scaler.
Lemma max_nan {p e : Z} {Hp : Prec_gt_0 p} {Hm : Prec_lt_emax p e} : is_nan (Bmax_float : binary_float p e) = false.
Proof. destruct (Bmax_float : binary_float p e) eqn:E; try reflexivity. exfalso. apply (f_equal is_finite) in E. unfold Bmax_float in E. rewrite is_finite_SF2B in E. discriminate E. Qed.
Lemma min_nan {p e : Z} {Hp : Prec_gt_0 p} {Hm : Prec_lt_emax p e} : is_nan (Bopp Bmax_float : binary_float p e) = false.
Proof. rewrite is_nan_Bopp. exact max_nan. Qed.
Theorem min_max_scaler_same_alike {p e : Z} {Hp : Prec_gt_0 p} {Hm : Prec_lt_emax p e} col mx (bs bs' : list (list (binary_float p e)))
  (a : ann_maps (fnote (binary_float p e) (binary_float p e) (binary_float p e))) : bare a col -> shuffled mx bs bs' ->
  trains_alike (fun s s' => forall x, same_number (mm_exec same_ty s x) (mm_exec same_ty s' x)) col (min_max_scaler_recipe col same_ty (Bopp Bmax_float) Bmax_float mx) a bs bs'.
Proof. apply (float_scaler_alike (fun x => x)); [easy|reflexivity|exact max_nan|exact min_nan]. Qed.
Theorem min_max_scaler_single_alike col mx (bs bs' : list (list float32)) (a : ann_maps (fnote float32 float32 double)) : bare a col -> shuffled mx bs bs' ->
  trains_alike (fun s s' => forall x, same_number (mm_exec float_to_double s x) (mm_exec float_to_double s' x)) col
    (min_max_scaler_recipe col float_to_double (Bopp Bmax_float) Bmax_float mx) a bs bs'.
Proof. apply (float_scaler_alike (convert : float32 -> double)); [intros x y; apply like_convert|reflexivity|exact max_nan|exact min_nan]. Qed.
