(** C82: more of the library's featurizers behind the C interface. *)
From Coq Require Import Reals.
From Flocq Require Import Core.Core IEEE754.BinarySingleNaN.
From Verif Require Import Base M_Archive M_Estimator M_Stats M_Encoders M_Impute M_Scale M_FloatStats M_FloatScale M_Pipeline M_Featurizer M_Recipes M_Client
  S_Stats S_Window S_Impute S_FloatStats S_Scale S_Featurizer S_Client S_Encoders L_Estimator L_Stats L_Stats2 L_Stats3 L_Featurizer L_Impute L_Float L_FloatStats L_Scale4 L_Scale5 L_FloatStats6
  L_Recipes L_Recipes2 L_Recipes3 L_Recipes4 L_Recipes6 L_Recipes7 L_Recipes8 L_Client5.
Close Scope R_scope.

Lemma mapM_ok {A B} (f : A -> B) (l : list A) : mapM (fun x => Ok (f x)) l = Ok (map f l).
Proof. induction l as [|x l IH]; [reflexivity|]. cbn [mapM bind map]. rewrite IH. reflexivity. Qed.
Lemma mapM_same {A B} (f g : A -> res B) (l : list A) : (forall x, f x = g x) -> mapM f l = mapM g l.
Proof. intros H. induction l as [|x l IH]; [reflexivity|]. cbn [mapM]. rewrite H, IH. reflexivity. Qed.
Lemma known {T} (eqb ltb : T -> T -> bool) : total_order eqb ltb -> forall (x : T) l, In x l \/ ~ In x l.
Proof.
  intros (He & _) x l. destruct (in_dec (fun u v => match bool_dec (eqb u v) true with left p => left (proj1 (He u v) p) | right q => right (fun z => q (proj2 (He u v) z)) end) x l); [left|right]; assumption.
Qed.

Section Featurizers.
  Context {Arg : Type}.
  Lemma function_client {V Ann Tr Val : Type} (steps : list (fstep V Ann Tr)) (f : Tr -> V -> res Val) (value_of : Arg -> res V) rows vs xs ws t :
    mapM value_of rows = Ok vs -> mapM value_of xs = Ok ws -> rows <> [] -> trains_one 0 steps [[]] (ones vs) t ->
    client_gives steps (fun t v => (t, f t v)) value_of rows xs (mapM (f t) ws).
  Proof using. intros HR HX HN HT. rewrite <- (executed_pure value_of f t xs ws HX). exact (gives_one steps _ value_of rows vs xs t HN HR HT). Qed.
  Lemma value_client {A B Ann : Type} (steps : list (fstep A Ann (transformer A B))) (f : A -> B) (value_of : Arg -> res A) rows vs xs ws :
    mapM value_of rows = Ok vs -> mapM value_of xs = Ok ws -> rows <> [] -> trains_one 0 steps [[]] (ones vs) (per_value f) ->
    client_gives steps exec_object value_of rows xs (Ok (map f ws)).
  Proof using. intros HR HX HN HT. rewrite <- (executed_per_value value_of f xs ws HX). exact (gives_one steps exec_object value_of rows vs xs _ HN HR HT). Qed.
  Lemma enough {V} (vs : list V) mx : vs <> [] -> (length vs <= mx)%nat -> (1 <= mx)%nat.
  Proof using. intros H HM. destruct vs; [contradiction|cbn [length] in HM; lia]. Qed.

  Lemma onehot_client {T : Type} (eqb ltb : T -> T -> bool) (order : list (T * Z) -> list (T * Z)) : total_order eqb ltb -> (forall h, Permutation h (order h)) ->
    forall mx (missing : bool) (value_of : Arg -> res T) rows vs xs ws n,
    mapM value_of rows = Ok vs -> mapM value_of xs = Ok ws -> rows <> [] -> (length vs <= mx)%nat -> distinct_count vs n -> (Z.of_nat n <= 2 ^ 32)%Z ->
    let len := (Z.of_nat n + (if missing then 1 else 0))%Z in
    exists pos : T -> Z,
      (forall x, In x vs -> (if missing then 1 else 0) <= pos x < len)%Z /\ (forall x y, In x vs -> In y vs -> pos x = pos y -> x = y) /\
      forall code, (forall x, In x vs -> code x = Ok (mkSingle len 1%Z (pos x))) -> (forall x, ~ In x vs -> code x = if missing then Ok (mkSingle len 1 0)%Z else Throw InvalidArgument) ->
      client_gives (onehot_recipe (U := T) (F := T) eqb ltb order 0 mx [] missing) (fun t v => (t, onehot_execute eqb t v)) value_of rows xs (mapM code ws).
  Proof using.
    intros Hto Hord mx missing value_of rows vs xs ws n HR HX HN HM Hd Hn len. pose proof (mapM_nonempty value_of rows vs HR HN) as NV. pose proof (enough vs mx NV HM) as M1.
    pose proof (onehot_featurizer eqb ltb order Hto Hord 0 mx (ones vs) [[]] bare_new (ones_proper vs mx M1) (ones_not vs NV) n missing) as LF.
    rewrite (ones_items vs mx HM) in LF.
    assert (N0 : n <> 0%nat).
    { intros ->. destruct Hd as (l & _ & Hl & El). destruct l; [|discriminate El]. destruct vs as [|v vs]; [now elim NV|]. destruct (Hl v) as [_ G]. destruct (G (or_introl eq_refl)). }
    destruct (LF Hd Hn N0) as (e & TT & pos & A & B & D).
    exists pos. split; [intros x Hx; apply A; exact Hx|]. split; [exact B|]. intros code C1 C2.
    rewrite (mapM_same code (onehot_execute eqb e)); [exact (function_client _ (onehot_execute eqb) value_of rows vs xs ws e HR HX HN TT)|].
    intros x. destruct (known eqb ltb Hto x vs) as [I|I]; [rewrite (C1 x I); symmetry; apply A; exact I|rewrite (C2 x I); symmetry; apply D; exact I].
  Qed.
  Lemma numericalize_client {T : Type} (eqb ltb : T -> T -> bool) (order : list (T * Z) -> list (T * Z)) : total_order eqb ltb -> (forall h, Permutation h (order h)) ->
    forall mx (value_of : Arg -> res T) rows vs xs ws n,
    mapM value_of rows = Ok vs -> mapM value_of xs = Ok ws -> rows <> [] -> (length vs <= mx)%nat -> distinct_count vs n -> (Z.of_nat n <= 2 ^ 32)%Z ->
    exists number : T -> option Z,
      (forall x, In x vs <-> exists l, number x = Some l) /\ (forall x l, number x = Some l -> 0 <= l < Z.of_nat n)%Z /\
      (forall x y l, number x = Some l -> number y = Some l -> x = y) /\ (forall l, (0 <= l < Z.of_nat n)%Z -> exists x, number x = Some l) /\
      (forall x y lx ly, number x = Some lx -> number y = Some ly -> (ltb x y = true <-> (lx < ly)%Z)) /\
      client_gives (numericalize_recipe (U := T) (F := T) eqb ltb order 0 mx) (fun t v => (t, Ok (numericalize_execute eqb t v))) value_of rows xs (Ok (map number ws)).
  Proof using.
    intros Hto Hord mx value_of rows vs xs ws n HR HX HN HM Hd Hn. pose proof (mapM_nonempty value_of rows vs HR HN) as NV. pose proof (enough vs mx NV HM) as M1.
    pose proof (numericalize_featurizer eqb ltb order Hto Hord 0 mx (ones vs) [[]] bare_new (ones_proper vs mx M1) (ones_not vs NV) n) as LF.
    rewrite (ones_items vs mx HM) in LF. destruct (LF Hd Hn) as (m & TT & A & B & C & D & E). exists (numericalize_execute eqb m).
    split; [exact A|]. split; [exact B|]. split; [exact C|]. split; [exact D|]. split; [exact E|].
    rewrite <- mapM_ok. exact (function_client _ (fun m v => Ok (numericalize_execute eqb m v)) value_of rows vs xs ws m HR HX HN TT).
  Qed.
  Lemma median_client {p e : Z} {Hp : Prec_gt_0 p} {Hm : Prec_lt_emax p e} {I U : Type} (cast : I -> binary_float p e) (interpolate : bool) mx
    (value_of : Arg -> res (option I)) rows vs xs ws (s : list R) : (p <= 53)%Z -> (e <= 1024)%Z ->
    mapM value_of rows = Ok vs -> mapM value_of xs = Ok ws -> rows <> [] -> (length vs <= mx)%nat ->
    let l := map cast (somes vs) in (forall x, In x l -> is_nan x = false) -> Permutation s (map place l) -> StronglySorted Rle s ->
    let gives := client_gives (median_recipe (T := option I) (U := U) 0 cast Bltb interpolate midpoint fzero mx) exec_object value_of rows xs in
    (l = [] -> gives (Throw RuntimeError)) /\
    (l <> [] -> exists m, middle interpolate l s m /\ gives (Ok (map (fun x => match x with None => m | Some y => cast y end) ws))).
  Proof using.
    intros Hp53 He HR HX HN HM l Hn P Ss gives. pose proof (mapM_nonempty value_of rows vs HR HN) as NV. pose proof (enough vs mx NV HM) as M1.
    destruct (median_via (option_map cast) interpolate mx (ones vs) s Hp53 He (ones_proper vs mx M1)) as [W1 W2].
    { rewrite somes_options, ones_items by exact HM. exact Hn. } { rewrite somes_options, ones_items by exact HM. exact P. } { exact Ss. }
    rewrite somes_options, ones_items in W1, W2 by exact HM. fold l in W1, W2. split.
    - intros E. eapply gives_throw; [exact HN|exact HR|].
      apply (one_throws (F := binary_float p e)); first [exact bare_new|exact (ones_proper vs mx M1)|apply ones_not; exact NV|discriminate|reflexivity|exact (W1 E)].
    - intros E. destruct (W2 E) as (m & T1 & Mid). exists m. split; [exact Mid|].
      assert (TT : trains_one 0 (median_recipe (T := option I) (U := U) 0 cast Bltb interpolate midpoint fzero mx) ([[]] : ann_maps (fnote (option I) U (binary_float p e))) (ones vs) (median_imputer cast m)).
      { eapply (one_trains (F := binary_float p e)); first [exact bare_new|exact (ones_proper vs mx M1)|apply ones_not; exact NV|discriminate|exact T1|reflexivity]. }
      unfold gives, median_imputer, imputer in *. exact (value_client _ _ value_of rows vs xs ws HR HX HN TT).
  Qed.
  Lemma maxabs_client {prec emax : Z} {Hp : Prec_gt_0 prec} {Hm : Prec_lt_emax prec emax} mx (value_of : Arg -> res (binary_float prec emax)) rows vs xs ws :
    mapM value_of rows = Ok vs -> mapM value_of xs = Ok ws -> rows <> [] -> (length vs <= mx)%nat -> Forall not_infinite vs ->
    exists scaled : binary_float prec emax -> binary_float prec emax,
      (forall x, In x vs -> is_finite x = true -> within (-1) 1 (scaled x) /\
        (B2R x <> 0%R -> (forall y, In y vs -> is_finite y = true -> (Rabs (B2R y) <= Rabs (B2R x))%R) -> Rabs (B2R (scaled x)) = 1%R)) /\
      client_gives (max_abs_recipe 0 ma_policy mx) (fun t v => (t, Ok (ma_exec same_ty t v))) value_of rows xs (Ok (map scaled ws)).
  Proof using.
    intros HR HX HN HM Hf. pose proof (mapM_nonempty value_of rows vs HR HN) as NV. pose proof (enough vs mx NV HM) as M1.
    pose proof (max_abs_float_whole 0 mx (ones vs) [[]] bare_new (ones_proper vs mx M1) (ones_not vs NV)) as MF. rewrite (ones_items vs mx HM) in MF.
    destruct (MF Hf) as (scale & TT & A). exists (ma_exec same_ty scale). split; [exact A|]. rewrite <- mapM_ok.
    exact (function_client _ (fun t v => Ok (ma_exec same_ty t v)) value_of rows vs xs ws scale HR HX HN TT).
  Qed.
  Lemma min_max_scaler_client (signed : bool) (w mx : nat) (lo hi : Z) (value_of : Arg -> res Z) rows vs xs ws : (1 <= w <= 4)%nat ->
    mapM value_of rows = Ok vs -> mapM value_of xs = Ok ws -> rows <> [] -> (length vs <= mx)%nat -> (lo < hi)%Z -> (forall v, fits signed w v = true <-> (lo <= v <= hi)%Z) ->
    Forall (fun v => fits signed w v = true) vs -> (forall v u, In v vs -> In u vs -> fits signed w (v - u) = true \/ (v < u)%Z) ->
    let t := int_ty signed w : numty 53 1024 Z in
    exists scaled : Z -> double, (forall x, In x vs -> within 0 1 (scaled x)) /\
      client_gives (min_max_scaler_recipe 0 t lo hi mx) (fun s v => (s, Ok (mm_exec t s v))) value_of rows xs (Ok (map scaled ws)).
  Proof using.
    intros Hw HR HX HN HM Hlh Hfits Hall Hw2 t. pose proof (mapM_nonempty value_of rows vs HR HN) as NV. pose proof (enough vs mx NV HM) as M1.
    pose proof (min_max_scaler_whole signed w 0 mx (ones vs) [[]] lo hi Hw bare_new (ones_proper vs mx M1) (ones_not vs NV) Hlh Hfits) as MF. rewrite (ones_items vs mx HM) in MF.
    destruct (MF Hall Hw2) as (s & TT & A). exists (mm_exec t s). split; [exact A|]. rewrite <- mapM_ok.
    exact (function_client _ (fun s v => Ok (mm_exec t s v)) value_of rows vs xs ws s HR HX HN TT).
  Qed.
  Lemma mode_client {T : Type} (eqb : T -> T -> bool) (order : list (option T * Z) -> list (option T * Z)) : (forall x y, eqb x y = true <-> x = y) -> (forall h, Permutation h (order h)) ->
    forall mx (categories : bool) (value_of : Arg -> res (option T)) rows vs xs ws,
    mapM value_of rows = Ok vs -> mapM value_of xs = Ok ws -> rows <> [] -> (length vs <= mx)%nat -> (Z.of_nat (length vs) < 2 ^ 32)%Z ->
    let e := oeqb eqb in
    let gives := client_gives (mode_recipe (U := T) (F := T) e order 0 not_null (if categories then cat_imputer else mode_imputer) mx) exec_object value_of rows xs in
    (somes vs = [] -> gives (Throw RuntimeError)) /\
    (somes vs <> [] -> exists v, In (Some v) vs /\
      (forall w, In (Some w) vs -> (occ e (Some w) vs <= occ e (Some v) vs)%Z /\
        (occ e (Some w) vs = occ e (Some v) vs -> w <> v -> appears_before vs (Some v) (Some w))) /\
      gives (Ok (map (replace_null v) ws))).
  Proof using.
    intros Heq Horder mx categories value_of rows vs xs ws HR HX HN HM HL e gives. pose proof (mapM_nonempty value_of rows vs HR HN) as NV. pose proof (enough vs mx NV HM) as M1.
    assert (IT : items mx (ones vs) = vs) by exact (ones_items vs mx HM). pose proof (ones_proper vs mx M1) as HT. pose proof (ones_not vs NV) as HB. split.
    - intros E. eapply gives_throw; [exact HN|exact HR|]. apply (mode_none eqb order Heq Horder); try assumption; [exact bare_new|rewrite IT; exact HL|rewrite IT; exact E].
    - intros Hv. assert (Heq' : forall x y, e x y = true <-> x = y) by (intros [x|] [y|]; cbn; try rewrite Heq; split; congruence).
      destruct (hist_spec e Heq' mx (ones vs) HT) as (h & E1 & _).
      assert (E2 : exists o, trained (order_policy e []) mx (ones vs) = Ok (Some o)).
      { unfold order_policy. rewrite trained_simple by exact HT. rewrite (order_run e Heq'). cbn [bind]. rewrite IT.
        destruct (enum (firsts e vs)) eqn:F; [|eexists; reflexivity]. exfalso. destruct vs as [|x r]; [now elim NV|].
        assert (I : In x (x :: r)) by (left; reflexivity). apply (firsts_in e Heq') in I. rewrite <- (enum_keys (firsts e (x :: r))), F in I. destruct I. }
      destruct E2 as [o E2].
      destruct (cat_imputer_spec eqb Heq mx (ones vs) h (order h) o HT) as (v & A & B & C & D); [rewrite IT; exact HL|exact E1|exact (Horder h)|exact E2|rewrite IT; exact Hv|].
      rewrite IT in A, B. exists v. split; [exact A|]. split; [exact B|].
      assert (TT : trains_one 0 (mode_recipe (U := T) (F := T) e order 0 not_null (if categories then cat_imputer else mode_imputer) mx) [[]] (ones vs) (per_value (replace_null v))).
      { assert (M : (do m <- mode_complete e not_null (order h) o; (if categories then cat_imputer else mode_imputer) m) = Ok (per_value (replace_null v))) by (destruct categories; [exact C|exact D]).
        destruct (mode_complete e not_null (order h) o) as [m|x|] eqn:MC; [|discriminate M|discriminate M]. cbn [bind] in M. unfold e in MC.
        eexists. split; [|intros apply; pose proof (trains_learnt apply 0 _ [[]] (ones vs) mx (mode_sound eqb order 0 mx (ones vs) HT (if categories then cat_imputer else mode_imputer)) (bare_len [[]] 0 bare_new) HT HB) as TL;
          rewrite (mode_eval eqb order 0 mx (ones vs) [[]] bare_new HT (if categories then cat_imputer else mode_imputer) apply h o E1 E2), MC in TL; cbn [bind] in TL; rewrite M in TL; cbn [bind] in TL; exact TL].
        apply put_others. }
      exact (value_client _ _ value_of rows vs xs ws HR HX HN TT).
  Qed.
End Featurizers.
