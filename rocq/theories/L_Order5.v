(** C81: documents and time series. *)
From Coq Require Import Reals Lra Classical_Prop.
From Flocq Require Import Core.Core IEEE754.BinarySingleNaN.
From Verif Require Import Base L_List M_Estimator M_Stats S_Stats L_Stats M_Scale S_Scale M_Encoders M_String M_Text S_Text L_Text M_Grain M_Docs S_Docs L_Docs4
  M_Pipeline M_Featurizer S_Featurizer S_Order L_Order L_Order2.
Open Scope Z_scope.

Lemma mapM_perm {A B} (f : A -> res B) l l' : Permutation l l' -> forall ys, mapM f l = Ok ys -> exists ys', mapM f l' = Ok ys' /\ Permutation ys ys'.
Proof.
  intros P. induction P; intros ys E; cbn [mapM] in *.
  - exists ys. split; [exact E|reflexivity].
  - destruct (f x) as [y|e|]; cbn [bind] in *; try discriminate. destruct (mapM f l) as [zs|e|] eqn:Q; cbn [bind] in *; try discriminate. injection E as <-.
    destruct (IHP zs eq_refl) as (zs' & -> & Pz). cbn [bind]. exists (y :: zs'). split; [reflexivity|now constructor].
  - destruct (f y) as [u|e|]; cbn [bind] in *; try discriminate. destruct (f x) as [v|e|]; cbn [bind] in *; try discriminate.
    destruct (mapM f l) as [zs|e|]; cbn [bind] in *; try discriminate. injection E as <-. exists (v :: u :: zs). split; [reflexivity|apply perm_swap].
  - destruct (IHP1 ys E) as (zs & E1 & Q1). destruct (IHP2 zs E1) as (ws & E2 & Q2). exists ws. split; [exact E2|]. now rewrite Q1.
Qed.
Lemma with_perm corpus corpus' t : Permutation corpus corpus' -> documents_with corpus t = documents_with corpus' t.
Proof.
  intros P. unfold documents_with. f_equal. apply Permutation_length. induction P; cbn [filter]; [constructor| | |etransitivity; eassumption].
  - destruct (existsb (str_eqb t) x); [now constructor|assumption].
  - destruct (existsb (str_eqb t) x), (existsb (str_eqb t) y); try reflexivity. apply perm_swap.
Qed.
Lemma number_of_ext {T} (P Q : T -> Prop) n : (forall x, P x <-> Q x) -> number_of P n -> number_of Q n.
Proof. intros E (l & A & B & C). exists l. split; [exact A|]. split; [|exact C]. intros x. now rewrite B. Qed.
Section Selected.
  Variables (corpus corpus' : list (list (list Z))).
  Hypothesis P : Permutation corpus corpus'.
  Lemma occurs_perm t : occurs corpus t -> occurs corpus' t.
  Proof using P. intros (d & A & B). exists d. split; [eapply Permutation_in; [exact P|exact A]|exact B]. Qed.
  Lemma candidate_perm mn mx t : candidate corpus mn mx t -> candidate corpus' mn mx t.
  Proof using P.
    intros [A B]. split; [now apply occurs_perm|]. unfold frequent, share in *. rewrite <- (with_perm corpus corpus' t P), <- (Permutation_length P). exact B.
  Qed.
  Lemma better_perm u t : better corpus u t -> better corpus' u t.
  Proof using P. unfold better. now rewrite !(with_perm corpus corpus' _ P). Qed.
End Selected.
Lemma selected_perm corpus corpus' mn mx k t : Permutation corpus corpus' -> selected corpus mn mx k t -> selected corpus' mn mx k t.
Proof.
  intros P [A B]. split; [now apply (candidate_perm corpus corpus' P)|]. destruct k as [k|]; [|exact Logic.I]. destruct B as (n & N & L). exists n. split; [|exact L].
  eapply number_of_ext; [|exact N]. intros u. cbv beta. split; intros [X Y].
  - split; [now apply (candidate_perm corpus corpus' P)|now apply (better_perm corpus corpus' P)].
  - apply Permutation_sym in P. split; [now apply (candidate_perm corpus' corpus P)|now apply (better_perm corpus' corpus P)].
Qed.
Lemma index_of_ext vocabulary (sel sel' : list Z -> Prop) t i : (forall u, sel u <-> sel' u) -> index_of vocabulary sel t i -> index_of vocabulary sel' t i.
Proof.
  intros E [A|(A & n & N & L)]; [now left|right]. split; [exact A|]. exists n. split; [|exact L]. eapply number_of_ext; [|exact N]. intros u. cbv beta. now rewrite E.
Qed.
Lemma documents_alike (re : list Z -> list Z -> nat -> option (nat * nat)) (nthe : list Z -> nat -> list Z) (perm : list (list Z * Z) -> list (list Z * Z)) :
  nth_element_ok nthe -> (forall h, Permutation (perm h) h) -> forall d : dcfg, dcfg_ok d = true -> is_finite (dc_min d) = true -> is_finite (dc_max d) = true ->
  forall mx bs bs' corpus, shuffled mx bs bs' -> documents_ok (items mx bs) -> Z.of_nat (length (items mx bs)) < 2 ^ 32 ->
  NoDup (map fst (match dc_vocabulary d with Some v => v | None => [] end)) -> mapM (train_terms re (dc_text d)) (items mx bs) = Ok corpus ->
  (train_docs re nthe perm d mx bs = Throw InvalidArgument /\ train_docs re nthe perm d mx bs' = Throw InvalidArgument) \/
  exists s s', train_docs re nthe perm d mx bs = Ok (Some s) /\ train_docs re nthe perm d mx bs' = Ok (Some s') /\
    ds_total s = ds_total s' /\ Permutation (ds_terms s) (ds_terms s').
Proof.
  intros Hn Hperm d Hd H1 H2 mx bs bs' corpus (T1 & T2 & _ & _ & Pm) Hok Hlen Hv Hc.
  destruct (mapM_perm _ _ _ Pm corpus Hc) as (corpus' & Hc' & Pc).
  assert (Hok' : documents_ok (items mx bs')).
  { unfold documents_ok in *. rewrite Forall_forall in Hok |- *. intros x Hx. apply Hok. eapply Permutation_in; [apply Permutation_sym; exact Pm|exact Hx]. }
  assert (Hlen' : Z.of_nat (length (items mx bs')) < 2 ^ 32) by (rewrite <- (Permutation_length Pm); exact Hlen).
  destruct (docs_trained re nthe perm Hn Hperm d Hd H1 H2 mx bs corpus T1 Hok Hlen Hv Hc) as [A B].
  destruct (docs_trained re nthe perm Hn Hperm d Hd H1 H2 mx bs' corpus' T2 Hok' Hlen' Hv Hc') as [A' B'].
  assert (Sel : forall t, selected corpus (dc_min d) (dc_max d) (dc_topk d) t <-> selected corpus' (dc_min d) (dc_max d) (dc_topk d) t).
  { intros t. split; [now apply selected_perm|apply selected_perm; now apply Permutation_sym]. }
  destruct (classic (exists t, selected corpus (dc_min d) (dc_max d) (dc_topk d) t)) as [E|E].
  - right. destruct (A E) as (s & S1 & S2 & S3 & S4 & _).
    destruct A' as (s' & S1' & S2' & S3' & S4' & _). { destruct E as (t & E). exists t. now apply Sel. }
    exists s, s'. split; [exact S1|]. split; [exact S1'|]. split; [rewrite S2, S2', (Permutation_length Pm); reflexivity|].
    apply NoDup_Permutation; [now apply NoDup_map_inv in S3|now apply NoDup_map_inv in S3'|].
    intros [t [c i]]. rewrite S4, S4', Sel, (with_perm corpus corpus' t Pc). split; intros (X & Y & W); (split; [exact X|]; split; [exact Y|]).
    + eapply index_of_ext; [|exact W]. exact Sel.
    + eapply index_of_ext; [|exact W]. intros u. symmetry. apply Sel.
  - left. split; [apply B|apply B']; intros t Ht; apply E; exists t; [exact Ht|now apply Sel].
Qed.
