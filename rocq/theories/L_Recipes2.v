(** C80: encoders and imputers, from the first row of training to the transformer. *)
From Coq Require Import Reals Lra.
From Flocq Require Import Core.Core IEEE754.BinarySingleNaN.
From Verif Require Import Base L_List M_Archive M_Estimator M_Stats M_Encoders M_Impute M_Scale M_FloatStats M_Pipeline M_Featurizer M_Recipes
  S_Stats S_Impute S_Featurizer L_Estimator L_Stats L_Stats2 L_Featurizer L_Encoders L_Impute L_Recipes.
Close Scope R_scope.

Section Encoders.
  Context {T : Type}.
  Variables (eqb ltb : T -> T -> bool) (order : list (T * Z) -> list (T * Z)).
  Hypothesis Hto : total_order eqb ltb.
  Hypothesis Horder : forall h, Permutation h (order h).
  Notation ann := (fnote T T T).
  Variables (col mx : nat) (bs : list (list T)) (a : ann_maps ann).
  Hypothesis Hbare : bare a col.
  Hypothesis Htrain : proper_training mx bs.
  Hypothesis Hbs : bs <> [].

  Lemma index_eval {Tr} (mk : ann_maps ann -> res Tr) (apply : Tr -> T -> list T) existing h :
    trained (hist_policy eqb) mx bs = Ok (Some h) ->
    learnt apply col (index_steps eqb ltb order col mx existing ++ [Make mk]) a bs =
    let a' := put a col [(histogram_name, [NHist h]); (index_name, [NIndex (create_index_map eqb ltb (order h) existing)])] in
    do t <- mk a'; Ok (a', [t]).
  Proof using Hbare Htrain.
    intros E. pose proof (bare_len a col Hbare) as Hl. rewrite (put_bare a col Hbare) at 1. unfold index_steps. cbn [app].
    rewrite learnt_learn by (try exact Hl; try exact Htrain; try discriminate; reflexivity). rewrite E. cbn [bind].
    rewrite learnt_derive by exact Hl. rewrite read_put by (try exact Hl; discriminate).
    change (col_find (col_add [] histogram_name (NHist h)) histogram_name) with (Some [NHist h : ann]). cbn [find is_kind as_hist bind].
    rewrite learnt_make. reflexivity.
  Qed.
  Lemma read_index h m : read as_index col index_name (put a col [(histogram_name, [NHist h]); (index_name, [NIndex m])]) = Ok m.
  Proof using Hbare. rewrite read_put by (try apply (bare_len a col Hbare); discriminate). reflexivity. Qed.
  Lemma index_sound {Tr} (mk : ann_maps ann -> res Tr) existing : sound_chain (index_steps eqb ltb order col mx existing ++ [Make mk]).
  Proof using Htrain. destruct Htrain as [H1 _]. clear - H1. split.
    - unfold index_steps. repeat (constructor; [first [exact Logic.I|split; [discriminate|first [lia|assumption]]]|]). constructor.
    - do 2 eexists. reflexivity.
  Qed.
  Lemma index_trains {Tr} (mk : list (T * Z) -> res Tr) existing h t : trained (hist_policy eqb) mx bs = Ok (Some h) ->
    mk (create_index_map eqb ltb (order h) existing) = Ok t ->
    trains_one col (index_steps eqb ltb order col mx existing ++ [Make (fun a => do m <- read as_index col index_name a; mk m)]) a bs t.
  Proof using Hbare Htrain Hbs.
    intros E M. eexists. split; [|intros apply].
    2:{ pose proof (trains_learnt apply col (index_steps eqb ltb order col mx existing ++ [Make (fun a => do m <- read as_index col index_name a; mk m)]) a bs mx
          (index_sound _ existing) (bare_len a col Hbare) Htrain Hbs) as TL.
        rewrite (index_eval _ apply existing h E) in TL. cbv zeta in TL. rewrite read_index in TL. cbn [bind] in TL. rewrite M in TL. exact TL. }
    apply put_others.
  Qed.
  Lemma index_throws {Tr} (mk : list (T * Z) -> res Tr) existing h x : trained (hist_policy eqb) mx bs = Ok (Some h) ->
    mk (create_index_map eqb ltb (order h) existing) = Throw x ->
    trains_throwing col (index_steps eqb ltb order col mx existing ++ [Make (fun a => do m <- read as_index col index_name a; mk m)]) a bs x.
  Proof using Hbare Htrain Hbs.
    intros E M apply.
    pose proof (trains_learnt apply col (index_steps eqb ltb order col mx existing ++ [Make (fun a => do m <- read as_index col index_name a; mk m)]) a bs mx
          (index_sound _ existing) (bare_len a col Hbare) Htrain Hbs) as TL.
    rewrite (index_eval _ apply existing h E) in TL. cbv zeta in TL. rewrite read_index in TL. cbn [bind] in TL. rewrite M in TL. exact TL.
  Qed.

  Lemma label_featurizer (n : nat) (missing : bool) : distinct_count (items mx bs) n -> Z.of_nat n < 2 ^ 32 ->
    exists e, trains_one col (label_recipe eqb ltb order col mx [] missing) a bs e /\
    exists label : T -> Z,
      (forall x, In x (items mx bs) -> label_execute eqb e x = Ok (label x + (if missing then 1 else 0)) /\ 0 <= label x < Z.of_nat n) /\
      (forall x y, In x (items mx bs) -> In y (items mx bs) -> label x = label y -> x = y) /\
      (forall i, 0 <= i < Z.of_nat n -> exists x, In x (items mx bs) /\ label x = i) /\
      (forall x, ~ In x (items mx bs) -> label_execute eqb e x = if missing then Ok 0 else Throw InvalidArgument).
  Proof using All.
    intros Hd Hn. destruct (label_trained T eqb ltb Hto mx bs n missing Htrain Hd Hn) as (h & E & L).
    destruct (L (order h) (Horder h)) as (e & M & R). exists e. split; [|exact R].
    exact (index_trains (fun m : list (T * Z) => label_make m missing) [] h e E M).
  Qed.
  Lemma onehot_featurizer (n : nat) (missing : bool) : distinct_count (items mx bs) n -> Z.of_nat n <= 2 ^ 32 -> n <> 0%nat ->
    let len := Z.of_nat n + (if missing then 1 else 0) in
    exists e, trains_one col (onehot_recipe eqb ltb order col mx [] missing) a bs e /\
    exists pos : T -> Z,
      (forall x, In x (items mx bs) -> onehot_execute eqb e x = Ok (mkSingle len 1 (pos x)) /\ (if missing then 1 else 0) <= pos x < len) /\
      (forall x y, In x (items mx bs) -> In y (items mx bs) -> pos x = pos y -> x = y) /\
      (forall x, ~ In x (items mx bs) -> onehot_execute eqb e x = if missing then Ok (mkSingle len 1 0) else Throw InvalidArgument).
  Proof using All.
    intros Hd Hn Hn0 len. destruct (onehot_trained T eqb ltb Hto mx bs n missing Htrain Hd Hn Hn0) as (h & E & L).
    destruct (L (order h) (Horder h)) as (e & M & R). exists e. split; [|exact R].
    exact (index_trains (fun m : list (T * Z) => onehot_make m missing) [] h e E M).
  Qed.
  Lemma numericalize_featurizer n : distinct_count (items mx bs) n -> Z.of_nat n <= 2 ^ 32 ->
    exists m, trains_one col (numericalize_recipe eqb ltb order col mx) a bs m /\
    let numericalize := numericalize_execute eqb m in
    (forall x, In x (items mx bs) <-> exists l, numericalize x = Some l) /\
    (forall x l, numericalize x = Some l -> 0 <= l < Z.of_nat n) /\
    (forall x y l, numericalize x = Some l -> numericalize y = Some l -> x = y) /\
    (forall l, 0 <= l < Z.of_nat n -> exists x, numericalize x = Some l) /\
    (forall x y lx ly, numericalize x = Some lx -> numericalize y = Some ly -> (ltb x y = true <-> lx < ly)).
  Proof using All.
    intros Hd Hn. destruct (numericalize_trained T eqb ltb Hto mx bs n Htrain Hd Hn) as (h & E & L).
    specialize (L (order h) (Horder h)). exists (create_index_map eqb ltb (order h) []). split; [|exact L].
    assert (Q : forall apply : list (T * Z) -> T -> list T, learnt apply col (numericalize_recipe eqb ltb order col mx) a bs =
      Ok (put a col [(histogram_name, [NHist h]); (index_name, [NIndex (create_index_map eqb ltb (order h) [])])], [create_index_map eqb ltb (order h) []])).
    { intros apply. unfold numericalize_recipe. rewrite (index_eval _ apply [] h E). cbv zeta. rewrite read_index. reflexivity. }
    eexists. split; [|intros apply; rewrite <- (Q apply)].
    - apply put_others.
    - apply (trains_learnt apply col _ a bs mx (index_sound _ []) (bare_len a col Hbare) Htrain Hbs).
  Qed.
End Encoders.

Section Mode.
  Context {T : Type}.
  Variables (eqb : T -> T -> bool) (order : list (option T * Z) -> list (option T * Z)).
  Hypothesis Heq : forall x y, eqb x y = true <-> x = y.
  Hypothesis Horder : forall h, Permutation h (order h).
  Notation ann := (fnote (option T) T T).
  Variables (col mx : nat) (bs : list (list (option T))) (a : ann_maps ann).
  Hypothesis Hbare : bare a col.
  Hypothesis Htrain : proper_training mx bs.
  Hypothesis Hbs : bs <> [].
  Notation e := (oeqb eqb).
  Lemma mode_eval {Tr} (finish : option T -> res Tr) (apply : Tr -> option T -> list (option T)) h o :
    trained (hist_policy e) mx bs = Ok (Some h) -> trained (order_policy e []) mx bs = Ok (Some o) ->
    learnt apply col (mode_recipe e order col not_null finish mx) a bs =
    do v <- mode_complete e not_null (order h) o;
    do t <- finish v; Ok (put a col [(histogram_name, [NHist h]); (order_name, [NOrder o]); (mode_name, [NMode v])], [t]).
  Proof using Hbare Htrain.
    intros E1 E2. pose proof (bare_len a col Hbare) as Hl. rewrite (put_bare a col Hbare) at 1. unfold mode_recipe.
    rewrite learnt_learn by (try exact Hl; try exact Htrain; try discriminate; reflexivity). rewrite E1. cbn [bind].
    rewrite learnt_learn by (try exact Hl; try exact Htrain; try discriminate; reflexivity). rewrite E2. cbn [bind].
    rewrite learnt_derive by exact Hl. rewrite !read_put by (try exact Hl; discriminate).
    set (c2 := col_add (col_add [] histogram_name (NHist h)) order_name (NOrder o)).
    change (col_find c2 histogram_name) with (Some [NHist h : ann]). change (col_find c2 order_name) with (Some [NOrder o : ann]).
    cbn [find is_kind as_hist as_order bind].
    destruct (mode_complete e not_null (order h) o) as [v|x|]; cbn [bind]; [|reflexivity|reflexivity].
    rewrite learnt_make. rewrite read_put by (try exact Hl; discriminate).
    change (col_add c2 mode_name (NMode v)) with [(histogram_name, [NHist h : ann]); (order_name, [NOrder o]); (mode_name, [NMode v])].
    change (col_find [(histogram_name, [NHist h : ann]); (order_name, [NOrder o]); (mode_name, [NMode v])] mode_name) with (Some [NMode v : ann]).
    cbn [find is_kind as_mode bind]. reflexivity.
  Qed.
  Lemma mode_sound {Tr} (finish : option T -> res Tr) : sound_chain (mode_recipe (U := T) (F := T) e order col not_null finish mx).
  Proof using Htrain. destruct Htrain as [H1 _]. clear - H1. split.
    - unfold mode_recipe. repeat (constructor; [first [exact Logic.I|split; [discriminate|first [lia|assumption]]]|]). constructor.
    - do 2 eexists. unfold mode_recipe. match goal with |- [?x; ?y; ?z; ?w] = _ => change [x; y; z; w] with ([x; y; z] ++ [w]) end. reflexivity.
  Qed.
  Lemma mode_featurizer : Z.of_nat (length (items mx bs)) < 2 ^ 32 -> somes (items mx bs) <> [] ->
    exists v, In (Some v) (items mx bs) /\
      (forall w, In (Some w) (items mx bs) -> occ e (Some w) (items mx bs) <= occ e (Some v) (items mx bs) /\
        (occ e (Some w) (items mx bs) = occ e (Some v) (items mx bs) -> w <> v -> appears_before (items mx bs) (Some v) (Some w))) /\
      exists tc tm, trains_one col (mode_recipe e order col not_null cat_imputer mx) a bs tc /\
        trains_one col (mode_recipe e order col not_null mode_imputer mx) a bs tm /\
        forall l, delivered tc l = (map (replace_null v) l, Ok tt) /\ delivered tm l = (map (replace_null v) l, Ok tt).
  Proof using All.
    intros Hlen Hv.
    assert (Heq' : forall x y, e x y = true <-> x = y).
    { intros [x|] [y|]; cbn; try rewrite Heq; split; congruence. }
    destruct (hist_spec e Heq' mx bs Htrain) as (h & E1 & _).
    assert (E2 : exists o, trained (order_policy e []) mx bs = Ok (Some o)).
    { unfold order_policy. rewrite trained_simple by exact Htrain. rewrite (order_run e Heq'). cbn [bind].
      destruct (enum (firsts e (items mx bs))) eqn:F; [|eexists; reflexivity]. exfalso.
      destruct (somes (items mx bs)) as [|w r] eqn:Sw; [contradiction|].
      assert (I : In (Some w) (items mx bs)).
      { assert (I : In w (somes (items mx bs))) by (rewrite Sw; now left). apply in_flat_map in I. destruct I as ([u|] & I1 & I2); [|destruct I2].
        destruct I2 as [->|[]]. exact I1. }
      apply (firsts_in e Heq') in I. rewrite <- (enum_keys (firsts e (items mx bs))), F in I. destruct I. }
    destruct E2 as [o E2].
    destruct (cat_imputer_spec eqb Heq mx bs h (order h) o Htrain Hlen E1 (Horder h) E2 Hv) as (v & A & B & C & D).
    exists v. split; [exact A|]. split; [exact B|].
    exists (imputer (fun x => x) v), (imputer (fun x => x) v).
    assert (G : forall finish, (do m <- mode_complete e not_null (order h) o; finish m) = Ok (imputer (fun x : T => x) v) ->
      trains_one col (mode_recipe (U := T) (F := T) e order col not_null finish mx) a bs (imputer (fun x => x) v)).
    { intros finish M. destruct (mode_complete e not_null (order h) o) as [m|x|] eqn:MC; [|discriminate M|discriminate M]. cbn [bind] in M.
      eexists. split; [|intros apply; pose proof (trains_learnt apply col _ a bs mx (mode_sound finish) (bare_len a col Hbare) Htrain Hbs) as TL;
        rewrite (mode_eval finish apply h o E1 E2), MC in TL; cbn [bind] in TL; rewrite M in TL; cbn [bind] in TL; exact TL].
      apply put_others. }
    split; [exact (G cat_imputer C)|]. split; [exact (G mode_imputer D)|].
    intros l. split; apply (per_value_spec (option T) T _ l).
  Qed.
  Lemma mode_none {Tr} (finish : option T -> res Tr) : Z.of_nat (length (items mx bs)) < 2 ^ 32 -> somes (items mx bs) = [] ->
    trains_throwing col (mode_recipe (U := T) (F := T) e order col not_null finish mx) a bs RuntimeError.
  Proof using All.
    intros Hlen Hv.
    assert (Heq' : forall x y, e x y = true <-> x = y).
    { intros [x|] [y|]; cbn; try rewrite Heq; split; congruence. }
    destruct (hist_spec e Heq' mx bs Htrain) as (h & E1 & _).
    assert (E2 : exists o, trained (order_policy e []) mx bs = Ok (Some o)).
    { unfold order_policy. rewrite trained_simple by exact Htrain. rewrite (order_run e Heq'). cbn [bind].
      destruct (enum (firsts e (items mx bs))) eqn:F; [|eexists; reflexivity]. exfalso.
      destruct bs as [|b r]; [contradiction|]. destruct Htrain as [H1 H2]. pose proof (Forall_inv H2) as Hb. destruct b as [|x b]; [contradiction|].
      assert (I : In x (items mx ((x :: b) :: r))) by (destruct mx; [lia|left; reflexivity]).
      apply (firsts_in e Heq') in I. rewrite <- (enum_keys (firsts e _)), F in I. destruct I. }
    destruct E2 as [o E2]. intros apply.
    pose proof (trains_learnt apply col _ a bs mx (mode_sound finish) (bare_len a col Hbare) Htrain Hbs) as TL.
    rewrite (mode_eval finish apply h o E1 E2) in TL.
    rewrite (cat_imputer_none eqb Heq mx bs h (order h) o Htrain Hlen E1 (Horder h) E2 Hv) in TL. exact TL.
  Qed.
End Mode.
