(** C90: a flush of a grained transformer. *)
From Coq Require Import Sorted.
From Verif Require Import Base L_List M_Pipeline M_Estimator M_Stats M_Keyed S_Keyed M_Grain L_Keyed S_CompareTr L_CompareTr S_Flush L_Flush.

Section Grain.
  Context {K S A B : Type}.
  Variable keqb klt : K -> K -> bool.
  Hypothesis Hord : key_order keqb klt.
  Variable exec : S -> A -> list B * res S.
  Variable flush : S -> list B * res S.
  Notation own s := (mkTr S s exec flush).
  Notation find := (k_find (S := S) keqb).
  Notation set := (k_set (S := S) keqb klt).
  Notation asc := (ascending (S := S) klt).
  (** The entries of the left list: those of the right one, and others with what is created. *)
  Inductive over (P : S -> S -> Prop) (create : option (res S)) : list (K * S) -> list (K * S) -> Prop :=
  | o_nil : over P create [] []
  | o_both k s s' m m' : P s s' -> over P create m m' -> over P create ((k, s) :: m) ((k, s') :: m')
  | o_left k s s' m m' : create = Some (Ok s') -> P s s' -> over P create m m' -> over P create ((k, s) :: m) m'.
  Lemma over_keys P create m m' : over P create m m' -> forall x, In x m' -> exists y, In y m /\ fst y = fst x.
  Proof using Type.
    induction 1 as [|k s s' m m' p O IH|k s s' m m' c p O IH]; intros x Hx; [contradiction| |].
    - destruct Hx as [<-|Hx]; [exists (k, s); split; [now left|reflexivity]|]. destruct (IH x Hx) as (y & I & E). exists y. split; [now right|exact E].
    - destruct (IH x Hx) as (y & I & E). exists y. split; [now right|exact E].
  Qed.
  Lemma set_front : forall m' k s, (forall x, In x m' -> klt k (fst x) = true) -> set m' k s = (k, s) :: m'.
  Proof using Type. intros [|[k' s'] r] k s H; cbn [k_set]; [reflexivity|]. pose proof (H (k', s') (or_introl eq_refl)) as L. cbn [fst] in L. now rewrite L. Qed.
  Lemma find_front : forall m' k, (forall x, In x m' -> klt k (fst x) = true) -> find m' k = None.
  Proof using Hord.
    intros m' k H. unfold k_find. induction m' as [|[a v] r IH]; cbn [m_find]; [reflexivity|]. destruct (keqb a k) eqn:E.
    - apply (keqb_eq keqb klt Hord) in E. subst a. pose proof (H (k, v) (or_introl eq_refl)) as L. cbn [fst] in L. rewrite (proj1 (proj2 Hord)) in L. discriminate.
    - apply IH. intros x Hx. apply H. now right.
  Qed.
  Lemma over_front P create m m' k : over P create m m' -> (forall x, In x m -> klt k (fst x) = true) -> forall x, In x m' -> klt k (fst x) = true.
  Proof using Type. intros O H x Hx. destruct (over_keys P create m m' O x Hx) as (y & I & <-). exact (H y I). Qed.
  Lemma asc_head k s m : asc ((k, s) :: m) -> asc m /\ forall x, In x m -> klt k (fst x) = true.
  Proof using Type. intros H. inversion H as [|? ? H1 H2]; subst. rewrite Forall_forall in H2. split; [exact H1|exact H2]. Qed.
  Lemma below k k' (m : list (K * S)) : klt k k' = true -> (forall x, In x m -> klt k' (fst x) = true) -> forall x, In x m -> klt k (fst x) = true.
  Proof using Hord. intros L H x Hx. exact (proj1 (proj2 (proj2 Hord)) _ _ _ L (H x Hx)). Qed.
  (** Looking a key up in both. *)
  Lemma over_find P create m m' k : over P create m m' -> asc m ->
    match find m k, find m' k with
    | Some s, Some s' => P s s'
    | Some s, None => exists s', create = Some (Ok s') /\ P s s'
    | None, None => True
    | None, Some _ => False
    end.
  Proof using Hord.
    induction 1 as [|k0 s s' m m' p O IH|k0 s s' m m' c p O IH]; intros Hm.
    - exact I.
    - destruct (asc_head _ _ _ Hm) as [Hr _]. unfold k_find in *. cbn [m_find]. destruct (keqb k0 k); [exact p|exact (IH Hr)].
    - destruct (asc_head _ _ _ Hm) as [Hr Hk]. unfold k_find in *. cbn [m_find]. destruct (keqb k0 k) eqn:E; [|exact (IH Hr)].
      apply (keqb_eq keqb klt Hord) in E. subst k0. pose proof (find_front m' k (over_front P create m m' k O Hk)) as N. unfold k_find in N. rewrite N. eauto.
  Qed.
  (** Setting it in both, or only on the left. *)
  Lemma over_set P create m m' k s1 s1' : over P create m m' -> asc m -> P s1 s1' -> over P create (set m k s1) (set m' k s1').
  Proof using Hord.
    induction 1 as [|k0 s s' m m' p O IH|k0 s s' m m' c p O IH]; intros Hm p1; cbn [k_set].
    - constructor; [exact p1|constructor].
    - destruct (asc_head _ _ _ Hm) as [Hr _]. destruct (klt k k0); [repeat (constructor; [assumption|]); exact O|]. destruct (keqb k0 k); constructor; auto.
    - destruct (asc_head _ _ _ Hm) as [Hr Hk]. destruct (klt k k0) eqn:L.
      + rewrite set_front; [constructor; [exact p1|exact (o_left P create k0 s s' m m' c p O)]|]. apply (over_front P create m m' k O). exact (below k k0 m L Hk).
      + destruct (keqb k0 k) eqn:E.
        * apply (keqb_eq keqb klt Hord) in E. subst k0. rewrite set_front by exact (over_front P create m m' k O Hk). constructor; assumption.
        * exact (o_left P create k0 s s' _ _ c p (IH Hr p1)).
  Qed.
  Lemma over_set_left P create m m' k s1 : over P create m m' -> asc m ->
    match find m' k with Some s' => P s1 s' | None => exists s', create = Some (Ok s') /\ P s1 s' end -> over P create (set m k s1) m'.
  Proof using Hord.
    induction 1 as [|k0 s s' m m' p O IH|k0 s s' m m' c p O IH]; intros Hm p1; cbn [k_set].
    - destruct p1 as (s' & c & p). exact (o_left P create k s1 s' [] [] c p (o_nil P create)).
    - destruct (asc_head _ _ _ Hm) as [Hr Hk]. unfold k_find in p1. cbn [m_find] in p1. destruct (klt k k0) eqn:L.
      + assert (N : find ((k0, s') :: m') k = None).
        { apply find_front. intros x [<-|Hx]; [exact L|]. exact (over_front P create m m' k O (below k k0 m L Hk) x Hx). }
        unfold k_find in N. cbn [m_find] in N. rewrite N in p1. destruct p1 as (s2 & c & p2). exact (o_left P create k s1 s2 _ _ c p2 (o_both P create k0 s s' m m' p O)).
      + destruct (keqb k0 k) eqn:E; [apply (keqb_eq keqb klt Hord) in E; subst k0; constructor; assumption|]. constructor; [exact p|]. exact (IH Hr p1).
    - destruct (asc_head _ _ _ Hm) as [Hr Hk]. destruct (klt k k0) eqn:L.
      + assert (N : find m' k = None) by exact (find_front m' k (over_front P create m m' k O (below k k0 m L Hk))).
        rewrite N in p1. destruct p1 as (s2 & c2 & p2). exact (o_left P create k s1 s2 _ _ c2 p2 (o_left P create k0 s s' m m' c p O)).
      + destruct (keqb k0 k) eqn:E.
        * apply (keqb_eq keqb klt Hord) in E. subst k0. rewrite (find_front m' k (over_front P create m m' k O Hk)) in p1. destruct p1 as (s2 & c2 & p2). exact (o_left P create k s1 s2 _ _ c2 p2 O).
        * exact (o_left P create k0 s s' _ _ c p (IH Hr p1)).
  Qed.
  Lemma over_refl (P : S -> S -> Prop) create m : (forall k s, In (k, s) m -> P s s) -> over P create m m.
  Proof using Type. induction m as [|[k s] m IH]; intros H; constructor; [exact (H k s (or_introl eq_refl))|]. apply IH. intros k0 s0 Hx. exact (H k0 s0 (or_intror Hx)). Qed.
  (** Flushing. *)
  Lemma flush_keys (m : list (K * S)) : forall o m1, keyed_flush flush m = (o, Ok m1) -> map fst m1 = map fst m.
  Proof using Type.
    induction m as [|[k s] m IH]; cbn [keyed_flush]; intros o m1; [intros [= _ <-]; reflexivity|].
    destruct (flush s) as [o1 [s1|e|]]; try discriminate. destruct (keyed_flush flush m) as [o2 [m2|e|]] eqn:E; try discriminate. cbn [bind]. intros [= _ <-]. cbn [map fst]. f_equal. exact (IH o2 m2 eq_refl).
  Qed.
  Lemma asc_keys (m m1 : list (K * S)) : map fst m1 = map fst m -> asc m -> asc m1.
  Proof using Type.
    revert m1. induction m as [|[k s] m IH]; intros [|[k1 s1] m1] E; try discriminate; [intros _; constructor|]. cbn [map fst] in E. injection E as -> E. intros H.
    destruct (asc_head _ _ _ H) as [Hr Hk]. constructor; [exact (IH m1 E Hr)|]. apply Forall_forall. intros x Hx. cbn [fst].
    assert (I : In (fst x) (map fst m)) by (rewrite <- E; exact (in_map fst m1 x Hx)). apply in_map_iff in I. destruct I as (y & <- & I). exact (Hk y I).
  Qed.
  (** After the flush every entry behaves as the one it began with. *)
  Lemma over_flushed create m m' : over (fun s s' => reached (own s') s) create m m' -> (forall s', (exists k, In (k, s') m') \/ create = Some (Ok s') -> resets (own s')) ->
    forall o m1, keyed_flush flush m = (o, Ok m1) -> over (fun s s' => same_behaviour (own s) (own s')) create m1 m'.
  Proof using Type.
    induction 1 as [|k s s' m m' p O IH|k s s' m m' c p O IH]; intros H o m1; cbn [keyed_flush]; [intros [= _ <-]; constructor| |];
      destruct (flush s) as [o1 [s1|e|]] eqn:Ef; try discriminate; destruct (keyed_flush flush m) as [o2 [m2|e|]] eqn:E; try discriminate; cbn [bind]; intros [= _ <-].
    - constructor; [exact (H s' (or_introl (ex_intro _ k (or_introl eq_refl))) s o1 s1 p Ef)|]. refine (IH _ o2 m2 eq_refl). intros q [(k0 & J)|c]; [exact (H q (or_introl (ex_intro _ k0 (or_intror J))))|exact (H q (or_intror c))].
    - exact (o_left _ create k s1 s' m2 m' c (H s' (or_intror c) s o1 s1 p Ef) (IH H o2 m2 eq_refl)).
  Qed.
  Notation sb := (fun s s' => same_behaviour (own s) (own s')).
  Lemma over_flush create m m' : over sb create m m' -> (forall s', create = Some (Ok s') -> resets (own s') /\ quiet (own s')) ->
    answer_alike (over sb create) (keyed_flush flush m) (keyed_flush flush m').
  Proof using Type.
    intros O Hc. induction O as [|k s s' m m' p O IH|k s s' m m' c p O IH]; cbn [keyed_flush].
    - split; [reflexivity|constructor].
    - destruct (proj2 (same_step (own s) (own s') s s' p)) as [E F]. cbn [t_flush] in E, F. destruct (flush s) as [o [s1|e|]], (flush s') as [o' [s1'|e'|]]; cbn [fst snd] in E, F; try contradiction; subst o'.
      + destruct IH as [E2 F2]. destruct (keyed_flush flush m) as [o2 r2], (keyed_flush flush m') as [o2' r2']. cbn [fst snd] in E2, F2. subst o2'. split; [reflexivity|]. cbn [snd].
        destruct r2, r2'; try contradiction; cbn [bind]; try exact F2. constructor; [exact F|exact F2].
      + subst e'. split; reflexivity.
      + split; [reflexivity|exact I].
    - destruct (Hc s' c) as [Hr (y & Hq)]. cbn [t_flush t_cur] in Hq. destruct (proj2 (same_step (own s) (own s') s s' p)) as [E F]. cbn [t_flush] in E, F.
      rewrite Hq in E, F. cbn [fst snd] in E, F. destruct (flush s) as [o [s1|e|]]; cbn [fst snd] in E, F; try contradiction. subst o.
      pose proof (Hr s' [] y (r_new (own s')) Hq) as Hy. destruct IH as [E2 F2]. destruct (keyed_flush flush m) as [o2 r2]. cbn [fst snd map app] in *. split; [exact E2|]. cbn [snd].
      destruct r2, (snd (keyed_flush flush m')); try contradiction; cbn [bind]; try exact F2. exact (o_left sb create k s1 s' _ _ c (same_trans _ _ _ F Hy) F2).
  Qed.
  (** ** The transformer. *)
  Notation tr g := (grain_tr keqb klt exec flush g).
  Lemma reached_over (g : grain K S) x : asc (g_map g) -> reached (tr g) x ->
    g_create x = g_create g /\ g_had x = g_had g /\ asc (g_map x) /\ over (fun s s' => reached (own s') s) (g_create g) (g_map x) (g_map g).
  Proof using Hord.
    intros Hg. induction 1 as [|x [k a] o y I IH E|x o y I IH E]; cbn [grain_tr t_cur t_exec t_flush t_state] in *.
    - split; [reflexivity|]. split; [reflexivity|]. split; [exact Hg|]. apply over_refl. intros. constructor.
    - destruct IH as (C1 & C2 & C3 & C4). unfold grain_exec, keyed_exec in E. cbn [fst snd] in E. pose proof (over_find _ _ _ _ k C4 C3) as F.
      destruct (grain_step exec (g_create x) k (find (g_map x) k) a) as [o1 [s1|e|]] eqn:Es; try discriminate. cbn [bind] in E. injection E as _ <-. cbn [g_create g_had g_map].
      split; [exact C1|]. split; [exact C2|]. split; [exact (set_ascending keqb klt Hord (g_map x) k s1 C3)|]. apply over_set_left; [exact C4|exact C3|].
      unfold grain_step in Es. destruct (find (g_map x) k) as [s|], (find (g_map g) k) as [s'|]; try contradiction.
      + exact (r_row (own s') s a o1 s1 F Es).
      + destruct F as (s' & c & p). exists s'. split; [exact c|]. exact (r_row (own s') s a o1 s1 p Es).
      + rewrite C1 in Es. destruct (g_create g) as [[s|e|]|]; try discriminate. exists s. split; [reflexivity|]. exact (r_row (own s) s a o1 s1 (r_new (own s)) Es).
    - destruct IH as (C1 & C2 & C3 & C4). unfold grain_flush in E. destruct (keyed_flush flush (g_map x)) as [o1 [m1|e|]] eqn:Ef; try discriminate. cbn [bind] in E. injection E as _ <-.
      cbn [g_create g_had g_map]. split; [exact C1|]. split; [exact C2|]. split; [exact (asc_keys _ _ (flush_keys _ _ _ Ef) C3)|].
      revert Ef. clear - C4. revert o1 m1. induction C4 as [|k s s' m m' p O IH|k s s' m m' c p O IH]; intros o1 m1; cbn [keyed_flush]; [intros [= _ <-]; constructor| |];
        destruct (flush s) as [o2 [s1|e|]] eqn:Ef; try discriminate; destruct (keyed_flush flush m) as [o3 [m2|e|]] eqn:E; try discriminate; cbn [bind]; intros [= _ <-].
      + constructor; [exact (r_flush (own s') s o2 s1 p Ef)|exact (IH o3 m2 eq_refl)].
      + exact (o_left _ _ k s1 s' m2 m' c (r_flush (own s') s o2 s1 p Ef) (IH o3 m2 eq_refl)).
  Qed.
  Lemma grain_resets (g : grain K S) : asc (g_map g) -> (forall k s, In (k, s) (g_map g) -> resets (own s)) ->
    (forall s, g_create g = Some (Ok s) -> resets (own s) /\ quiet (own s)) -> resets (tr g).
  Proof using Hord.
    intros Hg Hm Hc x o y I E. destruct (reached_over g x Hg I) as (C1 & C2 & C3 & C4). cbn [grain_tr t_flush t_state] in E. unfold grain_flush in E.
    destruct (keyed_flush flush (g_map x)) as [o1 [m1|e|]] eqn:Ef; try discriminate. cbn [bind] in E. injection E as _ <-.
    assert (H0 : forall s', (exists k, In (k, s') (g_map g)) \/ g_create g = Some (Ok s') -> resets (own s')).
    { intros s' [(k & J)|J]; [exact (Hm k s' J)|exact (proj1 (Hc s' J))]. }
    pose proof (over_flushed _ _ _ C4 H0 o1 m1 Ef) as O. pose proof (asc_keys _ _ (flush_keys _ _ _ Ef) C3) as C5.
    exists (fun u v : grain K S => g_create u = g_create g /\ g_create v = g_create g /\ asc (g_map u) /\ asc (g_map v) /\ over sb (g_create g) (g_map u) (g_map v)).
    split; [cbn [at_state t_cur grain_tr t_state g_create g_map]; split; [exact C1|]; split; [reflexivity|]; split; [exact C5|]; split; [exact Hg|exact O]|].
    clear - Hord Hc. intros u v (U1 & V1 & U2 & V2 & O). cbn [at_state grain_tr t_exec t_flush t_state] in *. split.
    - intros [k a]. unfold grain_exec, keyed_exec. cbn [fst snd]. rewrite U1, V1. pose proof (over_find sb _ _ _ k O U2) as F.
      assert (G : answer_alike sb (grain_step exec (g_create g) k (find (g_map u) k) a) (grain_step exec (g_create g) k (find (g_map v) k) a)).
      { unfold grain_step. destruct (find (g_map u) k) as [s|], (find (g_map v) k) as [s'|]; try contradiction.
        - exact (proj1 (same_step (own s) (own s') s s' F) a).
        - destruct F as (s' & c & p). rewrite c. exact (proj1 (same_step (own s) (own s') s s' p) a).
        - split; [reflexivity|]. destruct (g_create g) as [[s0|e|]|]; cbn [snd]; try reflexivity. destruct (snd (exec s0 a)); try reflexivity. apply same_refl. }
      destruct G as [G1 G2]. destruct (grain_step exec (g_create g) k (find (g_map u) k) a) as [o1 r1], (grain_step exec (g_create g) k (find (g_map v) k) a) as [o2 r2]. cbn [fst snd] in *. subst o2.
      split; [reflexivity|]. cbn [snd]. destruct r1 as [s1|e|], r2 as [s2|e2|]; try contradiction; cbn [bind]; try exact G2. cbn [g_create g_map].
      split; [reflexivity|]. split; [reflexivity|]. split; [exact (set_ascending keqb klt Hord _ _ _ U2)|]. split; [exact (set_ascending keqb klt Hord _ _ _ V2)|]. exact (over_set sb _ _ _ k s1 s2 O U2 G2).
    - unfold grain_flush. destruct (over_flush _ _ _ O Hc) as [E F]. destruct (keyed_flush flush (g_map u)) as [o1 r1] eqn:Eu, (keyed_flush flush (g_map v)) as [o2 r2] eqn:Ev. cbn [fst snd] in *. subst o2.
      split; [reflexivity|]. cbn [snd]. destruct r1 as [m3|e|], r2 as [m4|e2|]; try contradiction; cbn [bind]; try exact F. cbn [g_create g_map].
      split; [exact U1|]. split; [exact V1|]. split; [exact (asc_keys _ _ (flush_keys _ _ _ Eu) U2)|]. split; [exact (asc_keys _ _ (flush_keys _ _ _ Ev) V2)|exact F].
  Qed.
End Grain.
