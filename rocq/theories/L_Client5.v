(** C82: the library's featurizers behind the C interface. *)
From Coq Require Import Reals.
From Flocq Require Import Core.Core IEEE754.BinarySingleNaN.
From Verif Require Import Base M_Archive M_Estimator M_Stats M_Encoders M_Impute M_Scale M_FloatStats M_FloatScale M_Pipeline M_Featurizer M_Recipes M_Client
  S_Stats S_Impute S_FloatStats S_Scale S_Featurizer S_Client L_Estimator L_Stats L_Stats2 L_Stats3 L_Featurizer L_Impute L_Scale4 L_Scale5 L_FloatStats6 L_Recipes L_Recipes2 L_Recipes3 L_Recipes4.
Close Scope R_scope.

Definition ones {V} (vs : list V) : list (list V) := map (fun v => [v]) vs.
Lemma ones_concat {V} (vs : list V) : concat (ones vs) = vs.
Proof. induction vs as [|v vs IH]; [reflexivity|]. cbn [ones map concat app]. f_equal. exact IH. Qed.
Lemma ones_items {V} (vs : list V) mx : (length vs <= mx)%nat -> items mx (ones vs) = vs.
Proof. intros H. unfold items. rewrite ones_concat. apply firstn_all2. exact H. Qed.
Lemma ones_proper {V} (vs : list V) mx : (1 <= mx)%nat -> proper_training mx (ones vs).
Proof. intros H. split; [exact H|]. apply Forall_forall. intros b Hb. apply in_map_iff in Hb as (v & <- & _). discriminate. Qed.
Lemma ones_not {V} (vs : list V) : vs <> [] -> ones vs <> [].
Proof. destruct vs; [contradiction|discriminate]. Qed.

Section Generic.
  Context {V Ann Tr Arg Val : Type}.
  Variable steps : list (fstep V Ann Tr).
  Variable exec : Tr -> V -> Tr * res Val.
  Variable value_of : Arg -> res V.
  Lemma trained_featurizer (apply : Tr -> V -> list V) fuel vs : vs <> [] ->
    trained_in_cpp (featurizer_impl apply) (new_featurizer steps) fuel vs =
    match featurize apply fuel 0 steps [[]] (ones vs) with Some r => Some (rmap snd r) | None => None end.
  Proof using.
    intros H. unfold trained_in_cpp, new_featurizer, featurize. destruct vs as [|v vs]; [contradiction|].
    change (map (fun v : V => [v]) (v :: vs)) with (ones (v :: vs)).
    match goal with |- context [train ?a ?b ?c ?d] => set (tr := train a b c d) end.
    match goal with |- context [match train ?a ?b ?c ?d with _ => _ end] => change (train a b c d) with tr | _ => idtac end.
    destruct tr as [[e|x|]|]; cbn [bind rmap]; try reflexivity.
    destruct (create_transformer (featurizer_impl apply) e) as [e' [ts|x|]]; reflexivity.
  Qed.
  Lemma executed_single t xs : executed value_of (exec_single exec) [t] xs = executed value_of exec t xs.
  Proof using.
    revert t. induction xs as [|x xs IH]; intros t; [reflexivity|]. cbn [executed exec_single]. destruct (value_of x) as [v|e|]; cbn [bind]; [|reflexivity|reflexivity].
    destruct (exec t v) as [t' r]. destruct r as [y|e|]; cbn [bind]; [|reflexivity|reflexivity]. rewrite IH. reflexivity.
  Qed.
  Lemma mapM_nonempty (rows : list Arg) vs : mapM value_of rows = Ok vs -> rows <> [] -> vs <> [].
  Proof using.
    destruct rows as [|x rows]; [contradiction|]. cbn [mapM]. destruct (value_of x); cbn [bind]; [|discriminate|discriminate].
    destruct (mapM value_of rows); cbn [bind]; [|discriminate|discriminate]. intros E _. injection E as <-. discriminate.
  Qed.
  Lemma gives_one rows vs xs t : rows <> [] -> mapM value_of rows = Ok vs -> trains_one 0 steps [[]] (ones vs) t ->
    client_gives steps exec value_of rows xs (executed value_of exec t xs).
  Proof using.
    intros H HR (a' & _ & HT) apply load_tr. destruct (HT apply) as [n Hn]. exists n. intros fuel Hf. cbn [job_result]. rewrite HR.
    rewrite trained_featurizer by (eapply mapM_nonempty; [exact HR|exact H]). rewrite (Hn fuel Hf). cbn [rmap bind snd]. rewrite executed_single. reflexivity.
  Qed.
  Lemma gives_throw rows vs xs e : rows <> [] -> mapM value_of rows = Ok vs -> trains_throwing 0 steps [[]] (ones vs) e ->
    client_gives steps exec value_of rows xs (Throw e).
  Proof using.
    intros H HR HT apply load_tr. destruct (HT apply) as [n Hn]. exists n. intros fuel Hf. cbn [job_result]. rewrite HR.
    rewrite trained_featurizer by (eapply mapM_nonempty; [exact HR|exact H]). rewrite (Hn fuel Hf). reflexivity.
  Qed.
End Generic.
Lemma executed_pure {V Tr Arg Val} (value_of : Arg -> res V) (f : Tr -> V -> res Val) t xs ws : mapM value_of xs = Ok ws ->
  executed value_of (fun t v => (t, f t v)) t xs = mapM (f t) ws.
Proof.
  revert ws. induction xs as [|x xs IH]; intros ws; cbn [mapM executed].
  - intros E. injection E as <-. reflexivity.
  - destruct (value_of x) as [v|e|]; cbn [bind]; [|discriminate|discriminate]. destruct (mapM value_of xs) as [vs|e|]; cbn [bind]; [|discriminate|discriminate].
    intros E. injection E as <-. cbn [mapM]. rewrite (IH vs eq_refl). reflexivity.
Qed.
Lemma executed_per_value {A B Arg} (value_of : Arg -> res A) (f : A -> B) xs ws : mapM value_of xs = Ok ws ->
  executed value_of exec_object (per_value f) xs = Ok (map f ws).
Proof.
  revert ws. induction xs as [|x xs IH]; intros ws; cbn [mapM executed].
  - intros E. injection E as <-. reflexivity.
  - destruct (value_of x) as [v|e|]; cbn [bind]; [|discriminate|discriminate]. destruct (mapM value_of xs) as [vs|e|]; cbn [bind]; [|discriminate|discriminate].
    intros E. injection E as <-. assert (EX : exec_object (per_value f) v = (per_value f, Ok (f v))) by reflexivity.
    rewrite EX. cbn [bind map]. rewrite (IH vs eq_refl). reflexivity.
Qed.
Lemma bare_new {Ann} : bare ([[]] : ann_maps Ann) 0. Proof. reflexivity. Qed.

Lemma somes_shorter {T} (vs : list (option T)) : (length (somes vs) <= length vs)%nat.
Proof. unfold somes. induction vs as [|[v|] vs IH]; cbn [flat_map app length]; lia. Qed.

Section Featurizers.
  Context {Arg : Type}.
  Lemma min_max_client {T : Type} (ltb : T -> T -> bool) : (forall x, ltb x x = false) -> (forall x y z, ltb x y = true -> ltb y z = true -> ltb x z = true) ->
    (forall x y, ltb x y = false -> ltb y x = false -> x = y) -> forall (use_min : bool) mx (value_of : Arg -> res (option T)) rows vs xs ws,
    mapM value_of rows = Ok vs -> mapM value_of xs = Ok ws -> rows <> [] -> (length vs <= mx)%nat -> (Z.of_nat (length vs) < 2 ^ 64)%Z ->
    let gives := client_gives (min_max_recipe (T := option T) (F := T) 0 ltb use_min mx) exec_object value_of rows xs in
    (somes vs = [] -> gives (Throw RuntimeError)) /\
    (somes vs <> [] -> exists v, (if use_min then is_min ltb v (somes vs) else is_max ltb v (somes vs)) /\ gives (Ok (map (replace_null v) ws))).
  Proof using.
    intros H1 H2 H3 use_min mx value_of rows vs xs ws HR HX HN HM HL gives. pose proof (mapM_nonempty value_of rows vs HR HN) as NV.
    assert (M1 : (1 <= mx)%nat) by (destruct vs; [contradiction|cbn [length] in HM; lia]).
    assert (SL : (Z.of_nat (length (somes vs)) < 2 ^ 64)%Z).
    { pose proof (somes_shorter vs). lia. }
    destruct (basic_stats_spec ltb H1 H2 H3 mx (ones vs) (ones_proper vs mx M1)) as [B1 B2]; [rewrite ones_items by exact HM; exact SL|].
    rewrite (ones_items vs mx HM) in B1, B2. split.
    - intros E. eapply gives_throw; [exact HN|exact HR|].
      apply (one_throws (F := T)); first [exact bare_new|exact (ones_proper vs mx M1)|apply ones_not; exact NV|discriminate|reflexivity|exact (B1 E)].
    - intros E. destruct (B2 E) as (mn & mxv & B & Mn & Mx). exists (if use_min then mn else mxv). split; [destruct use_min; assumption|].
      assert (T1 : trains_one 0 (min_max_recipe (T := option T) (F := T) 0 ltb use_min mx) ([[]] : ann_maps (fnote (option T) T T)) (ones vs) (min_max_imputer use_min mn mxv)).
      { eapply (one_trains (F := T)); first [exact bare_new|exact (ones_proper vs mx M1)|apply ones_not; exact NV|discriminate|exact B|reflexivity]. }
      unfold gives. rewrite <- (executed_per_value value_of (replace_null (if use_min then mn else mxv)) xs ws HX).
      exact (gives_one _ exec_object value_of rows vs xs _ HN HR T1).
  Qed.
  Lemma mean_client {lp le : Z} {HLp : Prec_gt_0 lp} {HLm : Prec_lt_emax lp le} mx (value_of : Arg -> res (option Z)) rows vs xs ws :
    (64 <= lp)%Z -> (1024 <= le)%Z -> mapM value_of rows = Ok vs -> mapM value_of xs = Ok ws -> rows <> [] -> (length vs <= mx)%nat -> (Z.of_nat (length vs) < 2 ^ 64)%Z ->
    Forall (fun x => in_i64 x = true) (somes vs) ->
    let gives := client_gives (mean_recipe (lp := lp) (le := le) 0 mx) exec_object value_of rows xs in
    (somes vs = [] -> gives (Throw RuntimeError)) /\
    (forall pre, prefix pre (somes vs) -> in_i64 (zsum pre) = false -> gives (Throw RuntimeError)) /\
    (somes vs <> [] -> (forall pre, prefix pre (somes vs) -> in_i64 (zsum pre) = true) ->
       exists m, equals m (r64 (rounded lp le (IZR (zsum (somes vs)) / IZR (Z.of_nat (length (somes vs)))))) /\
         gives (Ok (map (fun x => match x with None => m | Some y => of_int y end) ws))).
  Proof using.
    intros P1 P2 HR HX HN HM HL Hrange gives. pose proof (mapM_nonempty value_of rows vs HR HN) as NV.
    assert (M1 : (1 <= mx)%nat) by (destruct vs; [contradiction|cbn [length] in HM; lia]).
    assert (SL : (Z.of_nat (length (somes vs)) < 2 ^ 64)%Z).
    { pose proof (somes_shorter vs). lia. }
    destruct (std_spec mx (ones vs) (ones_proper vs mx M1)) as (S1 & S2 & S3); try (rewrite ones_items by exact HM; assumption).
    rewrite (ones_items vs mx HM) in S1, S2, S3. split; [|split].
    - intros E. eapply gives_throw; [exact HN|exact HR|].
      apply (one_throws (F := double)); first [exact bare_new|exact (ones_proper vs mx M1)|apply ones_not; exact NV|discriminate|reflexivity|exact (S1 E)].
    - intros pre Hp Ho. eapply gives_throw; [exact HN|exact HR|].
      apply (one_throws (F := double)); first [exact bare_new|exact (ones_proper vs mx M1)|apply ones_not; exact NV|discriminate|reflexivity|exact (S3 pre Hp Ho)].
    - intros E Hs. destruct (S2 E Hs) as (mn & mxv & T1 & Mn & Mx).
      assert (Hin : forall x, In x (somes vs) -> in_i64 x = true) by (apply Forall_forall; exact Hrange).
      assert (Sz : in_i64 (zsum (somes vs)) = true) by (apply Hs; exists []; now rewrite app_nil_r).
      pose proof (with_average_ok (lp := lp) (le := le) (T := option Z) (F := double) (somes vs) mn mxv P1 P2 E Sz SL Mn Mx (Hin mn (proj1 Mn)) (Hin mxv (proj1 Mx))) as WA.
      destruct (average_ok (somes vs) mn mxv P1 P2 E Sz SL Mn Mx (Hin mn (proj1 Mn)) (Hin mxv (proj1 Mx))) as [_ Av].
      eexists. split; [exact Av|].
      assert (TT : trains_one 0 (mean_recipe (lp := lp) (le := le) 0 mx) ([[]] : ann_maps (fnote (option Z) Z double)) (ones vs)
                     (imputer (of_int : Z -> double) (average (lp := lp) (le := le) (zsum (somes vs)) (Z.of_nat (length (somes vs)))))).
      { eapply (one_trains (F := double)); first [exact bare_new|exact (ones_proper vs mx M1)|apply ones_not; exact NV|discriminate|exact T1|exact WA|reflexivity]. }
      unfold gives, imputer in *.
      match type of TT with trains_one _ _ _ _ (per_value ?f) => rewrite <- (executed_per_value value_of f xs ws HX) end.
      exact (gives_one _ exec_object value_of rows vs xs _ HN HR TT).
  Qed.
  Lemma label_client {T : Type} (eqb ltb : T -> T -> bool) (order : list (T * Z) -> list (T * Z)) : total_order eqb ltb -> (forall h, Permutation h (order h)) ->
    forall mx (missing : bool) (value_of : Arg -> res T) rows vs xs ws n,
    mapM value_of rows = Ok vs -> mapM value_of xs = Ok ws -> rows <> [] -> (length vs <= mx)%nat -> distinct_count vs n -> (Z.of_nat n < 2 ^ 32)%Z ->
    exists label : T -> Z,
      (forall x, In x vs -> 0 <= label x < Z.of_nat n)%Z /\ (forall x y, In x vs -> In y vs -> label x = label y -> x = y) /\
      forall code, (forall x, In x vs -> code x = Ok (label x + (if missing then 1 else 0))%Z) -> (forall x, ~ In x vs -> code x = if missing then Ok 0%Z else Throw InvalidArgument) ->
      client_gives (label_recipe (U := T) (F := T) eqb ltb order 0 mx [] missing) (fun t v => (t, label_execute eqb t v)) value_of rows xs (mapM code ws).
  Proof using.
    intros Hto Hord mx missing value_of rows vs xs ws n HR HX HN HM Hd Hn. pose proof (mapM_nonempty value_of rows vs HR HN) as NV.
    assert (M1 : (1 <= mx)%nat) by (destruct vs; [contradiction|cbn [length] in HM; lia]).
    pose proof (label_featurizer eqb ltb order Hto Hord 0 mx (ones vs) [[]] bare_new (ones_proper vs mx M1) (ones_not vs NV) n missing) as LF.
    rewrite (ones_items vs mx HM) in LF. destruct (LF Hd Hn) as (e & TT & label & A & B & C & D).
    exists label. split; [intros x Hx; apply A; exact Hx|]. split; [exact B|]. intros code C1 C2.
    assert (EM : mapM code ws = mapM (label_execute eqb e) ws).
    { assert (Q : forall x, code x = label_execute eqb e x).
      { intros x. assert (DEC : In x vs \/ ~ In x vs).
        { destruct Hto as (He & _). destruct (in_dec (fun u v => match bool_dec (eqb u v) true with left p => left (proj1 (He u v) p) | right q => right (fun z => q (proj2 (He u v) z)) end) x vs); [left|right]; assumption. }
        destruct DEC as [I|I]; [rewrite (C1 x I); symmetry; apply A; exact I|rewrite (C2 x I); symmetry; apply D; exact I]. }
      clear - Q. induction ws as [|w ws IH]; [reflexivity|]. cbn [mapM]. rewrite Q, IH. reflexivity. }
    rewrite EM, <- (executed_pure value_of (label_execute eqb) e xs ws HX). exact (gives_one _ _ value_of rows vs xs e HN HR TT).
  Qed.
End Featurizers.
