(** C87: pipelines, sparse vectors, scalers. *)
From Coq Require Import Reals.
From Flocq Require Import Core.Core IEEE754.BinarySingleNaN.
From Verif Require Import Base L_List M_Encoders M_Pipeline M_Impute M_Scale M_CompareTr S_CompareTr M_Featurizer S_Order L_Order3 L_Order7.
Open Scope Z_scope.

Lemma feed_alike {X X' A B} (R : X -> X' -> Prop) (f : X -> A -> list B * res X) (g : X' -> A -> list B * res X') :
  (forall x x', R x x' -> forall a, answer_alike R (f x a) (g x' a)) -> forall l x x', R x x' -> answer_alike R (feed f x l) (feed g x' l).
Proof.
  intros H l. induction l as [|a l IH]; intros x x' r; cbn [feed]; [split; [reflexivity|exact r]|].
  destruct (H x x' r a) as [E1 E2]. destruct (f x a) as [o rx], (g x' a) as [o' rx']. cbn [fst snd] in E1, E2. subst o'.
  destruct rx as [y|e|], rx' as [y'|e'|]; try contradiction; try (split; [reflexivity|exact E2]).
  destruct (IH y y' E2) as [F1 F2]. destruct (feed f y l) as [o1 r1], (feed g y' l) as [o2 r2]. cbn [fst snd] in F1, F2. subst o2. split; [reflexivity|exact F2].
Qed.
Lemma through_alike {X X' A B U U'} (R : X -> X' -> Prop) (Q : U -> U' -> Prop) (f : X -> A -> list B * res X) (g : X' -> A -> list B * res X') x x' up up' :
  (forall x x', R x x' -> forall a, answer_alike R (f x a) (g x' a)) -> R x x' -> answer_alike Q up up' ->
  answer_alike (fun p q => Q (fst p) (fst q) /\ R (snd p) (snd q)) (through f x up) (through g x' up').
Proof.
  intros H r [E1 E2]. unfold through. rewrite <- E1. destruct (feed_alike R f g H (fst up) x x' r) as [F1 F2].
  destruct (feed f x (fst up)) as [o rx], (feed g x' (fst up)) as [o' rx']. cbn [fst snd] in F1, F2. subst o'. split; [reflexivity|]. cbn [snd].
  destruct rx as [y|e|], rx' as [y'|e'|]; try contradiction; cbn [bind]; try exact F2.
  destruct (snd up) as [u|e|], (snd up') as [u'|e'|]; try contradiction; cbn [bind]; try exact E2. cbn. now split.
Qed.
Lemma same_refl {A B} (t : transformer A B) : same_behaviour t t.
Proof.
  exists eq. split; [reflexivity|]. intros x x' <-. split; [intros a|]; (split; [reflexivity|]).
  - destruct (snd (t_exec t x a)); easy.
  - destruct (snd (t_flush t x)); easy.
Qed.
Lemma same_delivered {A B} (t t' : transformer A B) : same_behaviour t t' -> same_output t t'.
Proof.
  intros (R & r & H) rows. unfold delivered, run_all, run_exec.
  destruct (feed_alike R (t_exec t) (t_exec t') (fun x x' q => proj1 (H x x' q)) rows _ _ r) as [E1 E2].
  destruct (feed (t_exec t) (t_cur t) rows) as [o rx], (feed (t_exec t') (t_cur t') rows) as [o' rx']. cbn [fst snd] in E1, E2. subst o'.
  destruct rx as [y|e|], rx' as [y'|e'|]; try contradiction; [|now subst|reflexivity].
  destruct (proj2 (H y y' E2)) as [F1 F2]. destruct (t_flush t y) as [o1 r1], (t_flush t' y') as [o2 r2]. cbn [fst snd] in F1, F2. subst o2.
  destruct r1 as [z|e|], r2 as [z'|e'|]; try contradiction; [reflexivity|now subst|reflexivity].
Qed.
Lemma pipeline_same {A B} (l : line A B) : each_class eq_sound l -> forall v w, line_eq l v w = true ->
  same_behaviour (compile (line_chain l v)) (compile (line_chain l w)).
Proof.
  induction l as [A|A B c|A B l IH|A B C c l IH]; cbn [each_class line_eq line_chain]; intros H v w E.
  - apply same_refl.
  - exact (H v w E).
  - exact (IH H v w E).
  - destruct H as [Hc Hl]. apply andb_true_iff in E. destruct E as [El Ec]. destruct v as [v v'], w as [w w']. cbn [fst snd] in *.
    destruct (Hc _ _ Ec) as (Q & q & HQ). destruct (IH Hl _ _ El) as (R & r & HR).
    exists (fun x y => Q (fst x) (fst y) /\ R (snd x) (snd y)). split; [split; assumption|]. intros [x1 x2] [y1 y2] [q1 r1]. cbn [fst snd] in q1, r1. cbn [compile t_exec t_flush fst snd]. split.
    + intros a. apply (through_alike R Q); [exact (fun x x' p => proj1 (HR x x' p))|exact r1|exact (proj1 (HQ _ _ q1) a)].
    + destruct (through_alike R Q _ _ x2 y2 (t_flush (c_make c v) x1) (t_flush (c_make c w) y1) (fun x x' p => proj1 (HR x x' p)) r1 (proj2 (HQ _ _ q1))) as [E1 E2].
      destruct (through _ x2 _) as [o rx], (through _ y2 _) as [o' rx']. cbn [fst snd] in E1, E2. subst o'.
      destruct rx as [[u z]|e|], rx' as [[u' z']|e'|]; try contradiction; try (split; [reflexivity|exact E2]). destruct E2 as [E2 E3]. cbn [fst snd] in E2, E3.
      destruct (proj2 (HR _ _ E3)) as [F1 F2]. destruct (t_flush _ z) as [o1 r2], (t_flush _ z') as [o2 r3]. cbn [fst snd] in F1, F2. subst o2. split; [reflexivity|]. cbn [snd].
      destruct r2, r3; try contradiction; cbn [bind]; try exact F2. now split.
Qed.
Lemma pipeline_equivalence {A B} (l : line A B) : each_class eq_equivalence l -> equivalence (line_eq l).
Proof.
  induction l as [A|A B c|A B l IH|A B C c l IH]; cbn [each_class]; intros H.
  - split; [|split]; reflexivity.
  - exact H.
  - exact (IH H).
  - destruct H as [(C1 & C2 & C3) Hl]. destruct (IH Hl) as (L1 & L2 & L3). split; [|split]; cbn [line_eq members].
    + intros [v v']. cbn [fst snd]. now rewrite L1, C1.
    + intros [v v'] [w w']. cbn [fst snd]. now rewrite L2, C2.
    + intros [u u'] [v v'] [w w'] E F. cbn [fst snd] in *. apply andb_true_iff in E, F. apply andb_true_iff. split; [eapply L3; [apply E|apply F]|eapply C3; [apply E|apply F]].
Qed.
Lemma memory_refuted : ~ (forall v w : option Z * option Z, c_eq (forward_fill Z.eqb) v w = true -> same_output (c_make (forward_fill Z.eqb) v) (c_make (forward_fill Z.eqb) w)).
Proof. intros H. specialize (H (None, Some 1) (None, Some 2) eq_refl [None]). discriminate H. Qed.

(** ** Sparse vectors. *)
Lemma ordered_rest {V} (l : list (V * Z)) : forall b p, sparse_ordered b p l = true -> (b = false -> forall q, In q l -> p < snd q) /\
  match l with [] => True | x :: r => forall q, In q r -> snd x < snd q end.
Proof.
  induction l as [|[v i] r IH]; intros b p H; cbn [sparse_ordered] in H; [now split|].
  destruct ((i <=? p) && negb b) eqn:E; [discriminate|]. destruct (IH _ _ H) as [A _]. specialize (A eq_refl). split; [|exact A].
  intros -> q [<-|Hq]; [|specialize (A q Hq)]; cbn [snd] in *; rewrite andb_true_r in E; apply Z.leb_gt in E; lia.
Qed.
Lemma ordered_tail {V} (l : list (V * Z)) b p x : sparse_ordered b p (x :: l) = true -> sparse_ordered false (snd x) l = true.
Proof. destruct x as [v i]. cbn [sparse_ordered snd]. destruct ((i <=? p) && negb b); [discriminate|auto]. Qed.
Lemma make_parts {V} n (l : list (V * Z)) s : sparse_make n l = Ok s -> s = mkSparse n l /\ sparse_ordered true 0 l = true.
Proof.
  unfold sparse_make. destruct (n =? 0); [discriminate|]. destruct (n <? _); [discriminate|]. destruct l as [|x l]; [discriminate|].
  destruct (sparse_ordered true 0 (x :: l)); [|discriminate]. intros E. injection E as <-. now split.
Qed.
Section Sparse.
  Context {V : Type} (veq : V -> V -> bool).
  Definition at_ (l : list (V * Z)) i : option V := option_map fst (find (fun p => snd p =? i) l).
  Lemma at_none l i : (forall q, In q l -> i < snd q) -> at_ l i = None.
  Proof using Type.
    unfold at_. induction l as [|x l IH]; intros H; [reflexivity|]. cbn [find]. pose proof (H x (or_introl eq_refl)). destruct (Z.eqb_spec (snd x) i); [lia|]. apply IH. intros q Hq. apply H. now right.
  Qed.
  Lemma values_at l : forall l' b p b' p', sparse_ordered b p l = true -> sparse_ordered b' p' l' = true ->
    (values_eq veq l l' = true <-> forall i, opt_eq veq (at_ l i) (at_ l' i) = true).
  Proof using Type.
    induction l as [|[v i] l IH]; intros [|[v' i'] l'] b p b' p' O O'; cbn [values_eq].
    - split; reflexivity.
    - split; [discriminate|]. intros H. specialize (H i'). unfold at_ in H. cbn [find snd fst] in H. rewrite Z.eqb_refl in H. discriminate H.
    - split; [discriminate|]. intros H. specialize (H i). unfold at_ in H. cbn [find snd fst] in H. rewrite Z.eqb_refl in H. discriminate H.
    - pose proof (proj2 (ordered_rest _ _ _ O)) as G. pose proof (proj2 (ordered_rest _ _ _ O')) as G'. cbn [snd] in G, G'.
      pose proof (ordered_tail _ _ _ _ O) as T. pose proof (ordered_tail _ _ _ _ O') as T'. cbn [fst snd] in *.
      rewrite !andb_true_iff, (IH l' _ _ _ _ T T'), Z.eqb_eq. split.
      + intros [[E <-] H] j. unfold at_. cbn [find snd]. destruct (Z.eqb_spec i j) as [<-|N]; [exact E|apply H].
      + intros H. assert (Ei : i = i').
        { destruct (Z.lt_trichotomy i i') as [L|[L|L]]; [exfalso|exact L|exfalso].
          - specialize (H i). unfold at_ at 1 in H. cbn [find snd] in H. rewrite Z.eqb_refl in H. rewrite at_none in H; [discriminate H|]. intros q [<-|Hq]; [exact L|specialize (G' q Hq); lia].
          - specialize (H i'). unfold at_ at 2 in H. cbn [find snd] in H. rewrite Z.eqb_refl in H. rewrite at_none in H; [discriminate H|]. intros q [<-|Hq]; [exact L|specialize (G q Hq); lia]. }
        subst i'. pose proof (H i) as Hi. unfold at_ in Hi. cbn [find snd] in Hi. rewrite Z.eqb_refl in Hi. cbn in Hi. split; [now split|].
        intros j. destruct (Z.le_gt_cases j i) as [L|L].
        * rewrite !at_none; [reflexivity| |]; intros q Hq; [specialize (G' q Hq)|specialize (G q Hq)]; lia.
        * specialize (H j). unfold at_ in H. cbn [find snd] in H. destruct (Z.eqb_spec i j); [lia|]. exact H.
  Qed.
  Lemma sparse_same n l s n' l' s' : sparse_make n l = Ok s -> sparse_make n' l' = Ok s' ->
    (sparse_eq veq s s' = true <-> sp_elements s = sp_elements s' /\ forall i, opt_eq veq (value_at s i) (value_at s' i) = true).
  Proof using Type.
    intros H H'. apply make_parts in H, H'. destruct H as [-> O], H' as [-> O']. unfold sparse_eq, value_at. cbn [sp_elements sp_values].
    rewrite andb_true_iff, Z.eqb_eq, (values_at l l' _ _ _ _ O O'). reflexivity.
  Qed.
End Sparse.

(** ** The min-max scaler. *)
Lemma eqb_number {p e} (x y : binary_float p e) : Beqb x y = true -> same_number x y.
Proof.
  intros E. unfold Beqb, SpecFloat.SFeqb in E. unfold same_number.
  destruct x as [sx|sx| |sx mx ex Bx], y as [sy|sy| |sy my ey By]; cbn in E; try (right; split; reflexivity); left.
  all: try (destruct sx; discriminate E). all: try (destruct sy; discriminate E). all: try discriminate E.
  - destruct sx, sy; try discriminate E; reflexivity.
  - apply B2SF_inj. cbn. destruct sx, sy; try discriminate E; destruct (Z.compare_spec ex ey) as [->|?|?]; try discriminate E;
      change (Pos.compare_cont Eq mx my) with (Pos.compare mx my) in E; destruct (Pos.compare_spec mx my) as [->|?|?]; try discriminate E; reflexivity.
Qed.
Lemma mm_eq_same {p e q f : Z} {Hp : Prec_gt_0 p} {Hm : Prec_lt_emax p e} {Hq : Prec_gt_0 q} {Hf : Prec_lt_emax q f} (cv : binary_float p e -> binary_float q f) :
  (forall x y, same_number x y -> same_number (cv x) (cv y)) -> forall s s' x, mm_eq s s' = true -> same_number (mm_exec (floats cv) s x) (mm_exec (floats cv) s' x).
Proof. intros H s s' x E. apply andb_true_iff in E. destruct E as [E1 E2]. apply exec_like; [exact H|now apply eqb_number|now apply eqb_number]. Qed.
Lemma mm_equal_results :
  (forall (p e : Z) (Hp : Prec_gt_0 p) (Hm : Prec_lt_emax p e) (s s' : binary_float p e * binary_float p e) x, mm_eq s s' = true -> same_number (mm_exec same_ty s x) (mm_exec same_ty s' x)) /\
  (forall (s s' : float32 * float32) x, mm_eq s s' = true -> same_number (mm_exec float_to_double s x) (mm_exec float_to_double s' x)) /\
  (forall (p e : Z) (Hp : Prec_gt_0 p) (Hm : Prec_lt_emax p e) (t : numty p e Z) s s' x, mm_int_eq s s' = true -> mm_exec t s x = mm_exec t s' x).
Proof.
  split; [|split].
  - intros p e Hp Hm. exact (mm_eq_same (fun x => x) (fun x y H => H)).
  - exact (mm_eq_same (convert : float32 -> double) (fun x y => like_convert x y)).
  - intros p e Hp Hm t [a b] [c d] x E. apply andb_true_iff in E. cbn [fst snd] in E. destruct E as [E1 E2]. apply Z.eqb_eq in E1, E2. now subst.
Qed.
Lemma pipeline_stages {A B} (l : line A B) : forall v w, line_eq l v w = true <-> one_by_one l v w.
Proof.
  induction l as [A|A B c|A B l IH|A B C c l IH]; cbn [line_eq one_by_one]; intros v w; try (split; now auto); [apply IH|].
  rewrite andb_true_iff, IH. tauto.
Qed.
