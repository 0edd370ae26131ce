(** C81: the order of the rows. *)
From Coq Require Import Reals Lra.
From Flocq Require Import Core.Core IEEE754.BinarySingleNaN.
From Verif Require Import Base L_List M_Archive M_Estimator M_Stats M_Encoders M_Impute M_Scale M_FloatStats M_Pipeline M_Featurizer M_Recipes
  S_Stats S_Impute S_Featurizer S_Order L_Estimator L_Stats L_Stats2 L_Stats3 L_Featurizer L_Encoders L_Impute L_Recipes L_Recipes2 L_Recipes3.
Close Scope R_scope.

Section Alike.
  Context {V Ann Tr : Type}.
  Lemma alike_one (same : Tr -> Tr -> Prop) col (steps : list (fstep V Ann Tr)) a bs bs' t t' :
    trains_one col steps a bs t -> trains_one col steps a bs' t' -> same t t' -> trains_alike same col steps a bs bs'.
  Proof.
    intros (a1 & _ & T1) (a2 & _ & T2) S apply. exists (Ok (a1, [t])), (Ok (a2, [t'])). split; [apply T1|]. split; [apply T2|].
    constructor; [exact S|constructor].
  Qed.
  Lemma alike_throw (same : Tr -> Tr -> Prop) col (steps : list (fstep V Ann Tr)) a bs bs' e :
    trains_throwing col steps a bs e -> trains_throwing col steps a bs' e -> trains_alike same col steps a bs bs'.
  Proof. intros T1 T2 apply. exists (Throw e), (Throw e). split; [apply T1|]. split; [apply T2|reflexivity]. Qed.
  Lemma shuffled_sym mx (bs bs' : list (list V)) : shuffled mx bs bs' -> shuffled mx bs' bs.
  Proof. intros (A & B & C & D & E). repeat (split; [assumption|]). now apply Permutation_sym. Qed.
End Alike.

(** Folds whose steps commute. *)
Section Commute.
  Context {S V : Type}.
  Variables (f : S -> V -> res S) (Inv : S -> Prop) (P : V -> Prop).
  Hypothesis Hinv : forall s x s', Inv s -> P x -> f s x = Ok s' -> Inv s'.
  Hypothesis Hcom : forall s x y, Inv s -> P x -> P y -> (do s1 <- f s x; f s1 y) = (do s1 <- f s y; f s1 x).
  Lemma foldM_perm l l' : Permutation l l' -> Forall P l -> forall s, Inv s -> foldM f s l = foldM f s l'.
  Proof using Hinv Hcom.
    intros Pm. induction Pm; intros F s Is.
    - reflexivity.
    - cbn [foldM]. destruct (f s x) as [s1|e|] eqn:E; cbn [bind]; [|reflexivity|reflexivity].
      apply IHPm; [now apply Forall_inv_tail in F|]. exact (Hinv s x s1 Is (Forall_inv F) E).
    - pose proof (Forall_inv F) as Py. pose proof (Forall_inv (Forall_inv_tail F)) as Px. cbn [foldM].
      assert (G : forall x y, (do s1 <- f s x; do s2 <- f s1 y; foldM f s2 l) = (do s2 <- (do s1 <- f s x; f s1 y); foldM f s2 l)).
      { intros u v. destruct (f s u); reflexivity. }
      rewrite !G, (Hcom s y x Is Py Px). reflexivity.
    - rewrite IHPm1 by assumption. apply IHPm2; [|exact Is]. rewrite Forall_forall in F |- *. intros x Hx. apply F. eapply Permutation_in; [apply Permutation_sym; exact Pm1|exact Hx].
  Qed.
End Commute.

(** Chains of one or two learning estimators: what they learn decides. *)
Section LearnAlike.
  Context {T U F V Tr : Type}.
  Notation ann := (fnote T U F).
  Lemma same_end_refl {A} (r : res (A * list Tr)) : same_end eq r r.
  Proof. destruct r as [[x l]|e|]; cbn; try reflexivity. induction l; constructor; [reflexivity|assumption]. Qed.
  Lemma learn_alike {P A X} col nm (pick : ann -> option X) (tag : A -> res ann) mx (pol : policy P V A) (mk : ann_maps ann -> res Tr) bs bs' a :
    nm <> [] -> bare a col -> shuffled mx bs bs' -> trained pol mx bs = trained pol mx bs' ->
    trains_alike eq col [learn nm pick tag mx pol; Make mk] a bs bs'.
  Proof.
    intros Hnm Hb (T1 & T2 & N1 & N2 & _) E apply. pose proof (bare_len a col Hb) as Hl.
    assert (Hs : sound_chain [learn nm pick tag mx pol; Make mk : fstep V ann Tr]).
    { split; [constructor; [split; [exact Hnm|exact (proj1 T1)]|constructor; [exact Logic.I|constructor]]|].
      exists [learn nm pick tag mx pol]. eexists. reflexivity. }
    eexists. eexists. split; [exact (trains_learnt apply col _ a bs mx Hs Hl T1 N1)|]. split; [exact (trains_learnt apply col _ a bs' mx Hs Hl T2 N2)|].
    replace (learnt apply col [learn nm pick tag mx pol; Make mk] a bs) with (learnt apply col [learn nm pick tag mx pol; Make mk] a bs'); [apply same_end_refl|].
    rewrite (put_bare a col Hb). rewrite !learnt_learn by (try exact Hl; try assumption; reflexivity). rewrite E.
    destruct (trained pol mx bs') as [[y|]|x|]; cbn [bind]; [|reflexivity|reflexivity|reflexivity].
    destruct (tag y) as [n|x|]; cbn [bind]; [|reflexivity|reflexivity]. now rewrite !learnt_make.
  Qed.
  Lemma learn_two_alike {P1 A1 X1 P2 A2 X2} col nm1 nm2 (pick1 : ann -> option X1) (tag1 : A1 -> res ann) (pick2 : ann -> option X2) (tag2 : A2 -> res ann) mx
    (pol1 : policy P1 V A1) (pol2 : policy P2 V A2) (mk : ann_maps ann -> res Tr) bs bs' a :
    nm1 <> [] -> nm2 <> [] -> name_eqb nm1 nm2 = false -> bare a col -> shuffled mx bs bs' ->
    trained pol1 mx bs = trained pol1 mx bs' -> trained pol2 mx bs = trained pol2 mx bs' ->
    trains_alike eq col [learn nm1 pick1 tag1 mx pol1; learn nm2 pick2 tag2 mx pol2; Make mk] a bs bs'.
  Proof.
    intros Hn1 Hn2 H12 Hb (T1 & T2 & N1 & N2 & _) E1 E2 apply. pose proof (bare_len a col Hb) as Hl.
    set (steps := [learn nm1 pick1 tag1 mx pol1; learn nm2 pick2 tag2 mx pol2; Make mk : fstep V ann Tr]).
    assert (Hs : sound_chain steps).
    { split; [constructor; [split; [exact Hn1|exact (proj1 T1)]|constructor; [split; [exact Hn2|exact (proj1 T1)]|constructor; [exact Logic.I|constructor]]]|].
      exists [learn nm1 pick1 tag1 mx pol1; learn nm2 pick2 tag2 mx pol2]. eexists. reflexivity. }
    eexists. eexists. split; [exact (trains_learnt apply col _ a bs mx Hs Hl T1 N1)|]. split; [exact (trains_learnt apply col _ a bs' mx Hs Hl T2 N2)|].
    replace (learnt apply col steps a bs) with (learnt apply col steps a bs'); [apply same_end_refl|]. unfold steps.
    rewrite (put_bare a col Hb). rewrite !(learnt_learn _ _ nm1) by (try exact Hl; try assumption; reflexivity). rewrite E1.
    destruct (trained pol1 mx bs') as [[y|]|x|]; cbn [bind]; [|reflexivity|reflexivity|reflexivity].
    destruct (tag1 y) as [n|x|]; cbn [bind]; [|reflexivity|reflexivity].
    rewrite !learnt_learn; try exact Hl; try assumption; try (cbn [col_add col_find]; rewrite H12; reflexivity). rewrite E2.
    destruct (trained pol2 mx bs') as [[y2|]|x|]; cbn [bind]; [|reflexivity|reflexivity|reflexivity].
    destruct (tag2 y2) as [n2|x|]; cbn [bind]; [|reflexivity|reflexivity]. now rewrite !learnt_make.
  Qed.
End LearnAlike.

(** ** Encoders. *)
Lemma index_map_keys (T : Type) (eqb ltb : T -> T -> bool) : total_order eqb ltb ->
  forall h h' existing : list (T * Z), Permutation (map fst h) (map fst h') -> create_index_map eqb ltb h existing = create_index_map eqb ltb h' existing.
Proof.
  intros (H1 & H2 & H3 & H4) h h' ex P. unfold create_index_map. f_equal. apply (s_sort_ext ltb H2 H3 H4).
  unfold new_keys. revert P. generalize (map fst h) (map fst h'). clear.
  intros a b P. induction P; cbn; [constructor| | |].
  - destruct (m_find eqb ex x); [exact IHP|now constructor].
  - destruct (m_find eqb ex x), (m_find eqb ex y); try reflexivity. apply perm_swap.
  - now rewrite IHP1.
Qed.
Section Encoders.
  Context {T : Type}.
  Variables (eqb ltb : T -> T -> bool) (order : list (T * Z) -> list (T * Z)).
  Hypothesis Hto : total_order eqb ltb.
  Hypothesis Horder : forall h, Permutation h (order h).
  Variables (col mx : nat) (bs bs' : list (list T)) (a : ann_maps (fnote T T T)).
  Hypothesis Hbare : bare a col.
  Hypothesis Hsh : shuffled mx bs bs'.
  Lemma index_alike {Tr} (mk : list (T * Z) -> res Tr) existing :
    trains_alike eq col (index_steps eqb ltb order col mx existing ++ [Make (fun a => do m <- read as_index col index_name a; mk m)]) a bs bs'.
  Proof using All.
    destruct Hsh as (T1 & T2 & N1 & N2 & Pm).
    destruct (hist_spec eqb (proj1 Hto) mx bs T1) as (h & E & ND & K & _). destruct (hist_spec eqb (proj1 Hto) mx bs' T2) as (h' & E' & ND' & K' & _).
    assert (M : create_index_map eqb ltb (order h) existing = create_index_map eqb ltb (order h') existing).
    { apply (index_map_keys T eqb ltb Hto). rewrite <- (Permutation_map fst (Horder h)), <- (Permutation_map fst (Horder h')).
      apply NoDup_Permutation; [exact ND|exact ND'|]. intros k. rewrite K, K'. split; apply Permutation_in; [exact Pm|now apply Permutation_sym]. }
    destruct (mk (create_index_map eqb ltb (order h) existing)) as [t|e|] eqn:Q.
    - apply (alike_one eq _ _ _ _ _ t t); [eapply index_trains; eassumption| |reflexivity]. eapply index_trains; try eassumption. now rewrite <- M.
    - apply (alike_throw eq _ _ _ _ _ e); eapply index_throws; try eassumption. now rewrite <- M.
    - intros apply.
      pose proof (trains_learnt apply col (index_steps eqb ltb order col mx existing ++ [Make (fun a => do m <- read as_index col index_name a; mk m)]) a bs mx
          (index_sound eqb ltb order col mx bs T1 _ existing) (bare_len a col Hbare) T1 N1) as L1.
      pose proof (trains_learnt apply col (index_steps eqb ltb order col mx existing ++ [Make (fun a => do m <- read as_index col index_name a; mk m)]) a bs' mx
          (index_sound eqb ltb order col mx bs' T2 _ existing) (bare_len a col Hbare) T2 N2) as L2.
      rewrite (index_eval eqb ltb order col mx bs a Hbare T1 _ apply existing h E) in L1. rewrite (index_eval eqb ltb order col mx bs' a Hbare T2 _ apply existing h' E') in L2.
      cbv zeta in L1, L2. rewrite read_index in L1, L2 by exact Hbare. cbn [bind] in L1, L2. rewrite Q in L1. rewrite <- M, Q in L2.
      eexists. eexists. split; [exact L1|]. split; [exact L2|]. exact Logic.I.
  Qed.
  Lemma label_alike existing (missing : bool) : trains_alike eq col (label_recipe eqb ltb order col mx existing missing) a bs bs'.
  Proof using All. apply (index_alike (fun m => label_make m missing)). Qed.
  Lemma onehot_alike existing (missing : bool) : trains_alike eq col (onehot_recipe eqb ltb order col mx existing missing) a bs bs'.
  Proof using All. apply (index_alike (fun m => onehot_make m missing)). Qed.
End Encoders.
Section Numericalize.
  Context {T : Type}.
  Variables (eqb ltb : T -> T -> bool) (order : list (T * Z) -> list (T * Z)).
  Hypothesis Hto : total_order eqb ltb.
  Hypothesis Horder : forall h, Permutation h (order h).
  Lemma numericalize_alike (col mx : nat) (bs bs' : list (list T)) (a : ann_maps (fnote T T T)) : bare a col -> shuffled mx bs bs' ->
    trains_alike eq col (numericalize_recipe eqb ltb order col mx) a bs bs'.
  Proof using All.
    intros Hb Hs. pose proof (index_alike eqb ltb order Hto Horder col mx bs bs' a Hb Hs (fun m => Ok m) []) as I. intros apply.
    destruct (I apply) as (r & r' & L1 & L2 & S). exists r, r'.
    assert (G : forall b q, proper_training mx b -> b <> [] ->
      trains_to apply col (index_steps eqb ltb order col mx [] ++ [Make (fun a => do m <- read as_index col index_name a; Ok m)]) a b q ->
      trains_to apply col (numericalize_recipe eqb ltb order col mx) a b q).
    { intros b q Tb Nb L.
      pose proof (trains_learnt apply col (index_steps eqb ltb order col mx [] ++ [Make (fun a => do m <- read as_index col index_name a; Ok m)]) a b mx
          (index_sound eqb ltb order col mx b Tb _ []) (bare_len a col Hb) Tb Nb) as L1'.
      pose proof (trains_learnt apply col (numericalize_recipe eqb ltb order col mx) a b mx
          (index_sound eqb ltb order col mx b Tb _ []) (bare_len a col Hb) Tb Nb) as L2'.
      destruct (hist_spec eqb (proj1 Hto) mx b Tb) as (h & E & _).
      rewrite (index_eval eqb ltb order col mx b a Hb Tb _ apply [] h E) in L1'. unfold numericalize_recipe in L2'. rewrite (index_eval eqb ltb order col mx b a Hb Tb _ apply [] h E) in L2'.
      cbv zeta in L1', L2'. rewrite read_index in L1', L2' by exact Hb. cbn [bind] in L1', L2'.
      destruct L as (n & L). destruct L1' as (n' & L1'). specialize (L (Nat.max n n') (Nat.le_max_l _ _)). specialize (L1' (Nat.max n n') (Nat.le_max_r _ _)).
      rewrite L in L1'. injection L1' as ->. exact L2'. }
    destruct Hs as (T1 & T2 & N1 & N2 & _). split; [now apply G|]. split; [now apply G|exact S].
  Qed.
End Numericalize.
