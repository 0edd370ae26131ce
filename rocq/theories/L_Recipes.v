(** The library's featurizers end to end (C80): evaluation of the chains of M_Recipes on a column without annotations. *)
From Coq Require Import Reals Lra.
From Flocq Require Import Core.Core IEEE754.BinarySingleNaN.
From Verif Require Import Base L_List M_Archive M_Estimator M_Stats M_Encoders M_Impute M_Scale M_FloatStats M_Pipeline M_Featurizer M_Recipes
  S_Stats S_Featurizer L_Estimator L_Stats L_Featurizer.
Close Scope R_scope.

Section Columns.
  Context {Ann : Type}.
  Notation store := (ann_maps Ann).
  Definition put (a : store) (col : nat) (c : ann_col Ann) : store := nth_update a col (fun _ => c).
  Lemma nth_update_twice {A} (l : list A) i f g : nth_update (nth_update l i f) i g = nth_update l i (fun x => g (f x)).
  Proof. revert i. induction l as [|x r IH]; intros [|i]; cbn; [reflexivity|reflexivity|reflexivity|now rewrite IH]. Qed.
  Lemma put_bare (a : store) col : bare a col -> a = put a col [].
  Proof.
    unfold bare, put. revert col. induction a as [|x r IH]; intros [|i]; cbn; [discriminate|discriminate|intros E; injection E as ->; reflexivity|].
    intros E. f_equal. now apply IH.
  Qed.
  Lemma bare_len (a : store) col : bare a col -> (col < length a)%nat.
  Proof. unfold bare. intros E. apply nth_error_Some. rewrite E. discriminate. Qed.
  Lemma put_len (a : store) col c : length (put a col c) = length a.
  Proof. unfold put. revert col. induction a as [|x r IH]; intros [|i]; cbn; [reflexivity|reflexivity|reflexivity|now rewrite IH]. Qed.
  Lemma put_nth (a : store) col c : (col < length a)%nat -> nth col (put a col c) [] = c.
  Proof. unfold put. revert col. induction a as [|x r IH]; intros [|i]; cbn; [lia|lia|reflexivity|]. intros H. apply IH. lia. Qed.
  Lemma put_others (a : store) col c : others_kept col a (put a col c).
  Proof.
    split; [apply put_len|]. unfold put. revert col. induction a as [|x r IH]; intros [|i] [|j] H; cbn; try reflexivity; try lia; apply IH; lia.
  Qed.
  Lemma add_put (a : store) col c n nm : (col < length a)%nat -> add_annotation (put a col c) (Some n) col nm = Ok (put a col (col_add c nm n)).
  Proof.
    intros H. unfold add_annotation. rewrite put_len. rewrite (proj2 (Nat.leb_gt _ _)) by lia. f_equal. unfold put. rewrite nth_update_twice. reflexivity.
  Qed.
  Lemma get_put (is_t : Ann -> bool) (a : store) col c nm : (col < length a)%nat -> nm <> [] ->
    get_annotation is_t (put a col c) col nm = Ok (match col_find c nm with None => None | Some l => find is_t l end).
  Proof.
    intros H Hn. unfold get_annotation. rewrite put_len. rewrite (proj2 (Nat.leb_gt _ _)) by lia. rewrite put_nth by exact H.
    destruct nm; [contradiction|]. destruct (col_find c (z :: nm)); reflexivity.
  Qed.
  Lemma present_put (is_t : Ann -> bool) (a : store) col c nm : (col < length a)%nat -> nm <> [] ->
    present is_t (put a col c) col nm = match col_find c nm with None => false | Some l => existsb is_t l end.
  Proof.
    intros H Hn. unfold present. rewrite get_put by assumption. destruct (col_find c nm) as [l|]; [|reflexivity].
    induction l as [|x r IH]; [reflexivity|]. cbn [find existsb]. destruct (is_t x); [reflexivity|exact IH].
  Qed.
End Columns.

Section Eval.
  Context {T U F : Type}.
  Notation ann := (fnote T U F).
  Notation store := (ann_maps ann).
  Lemma read_put {X} (pick : ann -> option X) (a : store) col c nm : (col < length a)%nat -> nm <> [] ->
    read pick col nm (put a col c) = match col_find c nm with
      | None => Throw RuntimeError
      | Some l => match find (is_kind pick) l with None => Throw RuntimeError | Some n => match pick n with Some x => Ok x | None => UB end end end.
  Proof.
    intros H Hn. unfold read, get_annotation_data. rewrite get_put by assumption. cbn [bind].
    destruct (col_find c nm) as [l|]; [|reflexivity]. destruct (find (is_kind pick) l); reflexivity.
  Qed.
  Context {V Tr : Type}.
  (** What a learning estimator learns is what it learns alone. *)
  Lemma learnt_learn (apply : Tr -> V -> list V) {P A X} col nm (pick : ann -> option X) (tag : A -> res ann) mx (pol : policy P V A) r (a : store) c bs :
    (col < length a)%nat -> nm <> [] -> col_find c nm = None -> proper_training mx bs ->
    learnt apply col (learn nm pick tag mx pol :: r) (put a col c) bs =
    do o <- trained pol mx bs;
    match o with None => UB | Some x => do n <- tag x; learnt apply col r (put a col (col_add c nm n)) bs end.
  Proof.
    intros H Hn Hc [H1 H2]. unfold learn at 1. cbn [learnt]. rewrite present_put by assumption. rewrite Hc. cbn [andb].
    unfold taught. cbn [sp_begin sp_init sp_fit sp_complete]. rewrite trained_eq by assumption. unfold items.
    destruct (p_begin pol (p_init pol)) as [[p b]|e|]; cbn [bind fst snd]; [|reflexivity|reflexivity].
    destruct (if b then foldM (p_fit pol) p (firstn mx (concat bs)) else Ok p) as [q|e|]; cbn [bind]; [|reflexivity|reflexivity].
    destruct (p_complete pol q) as [x|e|]; cbn [bind]; [|reflexivity|reflexivity].
    destruct (tag x) as [n|e|]; cbn [bind]; [|reflexivity|reflexivity]. rewrite add_put by exact H. reflexivity.
  Qed.
  Lemma learnt_derive (apply : Tr -> V -> list V) {X} col nm (pick : ann -> option X) (f : store -> res ann) r (a : store) c bs :
    (col < length a)%nat ->
    learnt apply col (derive nm pick f :: r) (put a col c) bs =
    do n <- f (put a col c); learnt apply col r (put a col (col_add c nm n)) bs.
  Proof.
    intros H. unfold derive. cbn [learnt andb]. cbn [sp_complete sp_init].
    destruct (f (put a col c)) as [n|e|]; cbn [bind]; [|reflexivity|reflexivity]. rewrite add_put by exact H. reflexivity.
  Qed.
  Lemma learnt_make (apply : Tr -> V -> list V) col (mk : store -> res Tr) a bs :
    learnt apply col [Make mk] a bs = do t <- mk a; Ok (a, [t]).
  Proof. cbn [learnt]. destruct (mk a); reflexivity. Qed.
  (** The chain as a whole. *)
  Lemma trains_learnt (apply : Tr -> V -> list V) col (steps : list (fstep V ann Tr)) a bs mx :
    sound_chain steps -> (col < length a)%nat -> proper_training mx bs -> bs <> [] -> trains_to apply col steps a bs (learnt apply col steps a bs).
  Proof. intros S H [_ Hne] Hbs. exact (featurize_spec apply col bs Hne Hbs steps a S H). Qed.
End Eval.

Ltac sound_tac := split; [repeat (constructor; [first [exact Logic.I|split; [discriminate|first [lia|assumption]]]|]); constructor|do 2 eexists; cbn [app]; reflexivity].
