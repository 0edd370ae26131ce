(** C90: what a flush promises. *)
From Verif Require Import Base L_List M_Pipeline M_Impute M_Window M_Keyed M_TsImpute M_Filter S_CompareTr L_CompareTr S_Flush.

Lemma same_sym {A B} (t t' : transformer A B) : same_behaviour t t' -> same_behaviour t' t.
Proof.
  intros (R & r & H). exists (fun y x => R x y). split; [exact r|]. intros y x q. destruct (H x y q) as [H1 H2]. split.
  - intros a. destruct (H1 a) as [E F]. split; [now symmetry|]. destruct (snd (t_exec t x a)), (snd (t_exec t' y a)); try contradiction; auto; now symmetry.
  - destruct H2 as [E F]. split; [now symmetry|]. destruct (snd (t_flush t x)), (snd (t_flush t' y)); try contradiction; auto; now symmetry.
Qed.
Lemma answer_trans {X Y Z O} (R : X -> Y -> Prop) (Q : Y -> Z -> Prop) (a : list O * res X) b c :
  answer_alike R a b -> answer_alike Q b c -> answer_alike (fun x z => exists y, R x y /\ Q y z) a c.
Proof.
  intros [E F] [G H]. split; [congruence|]. destruct (snd a), (snd b), (snd c); try contradiction; try congruence; eauto.
Qed.
Lemma same_trans {A B} (t u v : transformer A B) : same_behaviour t u -> same_behaviour u v -> same_behaviour t v.
Proof.
  intros (R & r & H) (Q & q & G). exists (fun x z => exists y, R x y /\ Q y z). split; [eauto|]. intros x z (y & h & g). destruct (H x y h) as [H1 H2], (G y z g) as [G1 G2]. split.
  - intros a. exact (answer_trans R Q _ _ _ (H1 a) (G1 a)).
  - exact (answer_trans R Q _ _ _ H2 G2).
Qed.
(** Behaving the same is kept by every call. *)
Notation sb t x t' x' := (same_behaviour (at_state t x) (at_state t' x')).
Lemma same_step {A B} (t t' : transformer A B) x x' : sb t x t' x' ->
  (forall a, answer_alike (fun y y' => sb t y t' y') (t_exec t x a) (t_exec t' x' a)) /\ answer_alike (fun y y' => sb t y t' y') (t_flush t x) (t_flush t' x').
Proof.
  intros (R & r & H). cbn [t_state at_state t_cur t_exec t_flush] in *. destruct (H _ _ r) as [H1 H2]. split.
  - intros a. destruct (H1 a) as [E F]. split; [exact E|]. destruct (snd (t_exec t x a)), (snd (t_exec t' x' a)); try exact F. exists R. split; [exact F|exact H].
  - destruct H2 as [E F]. split; [exact E|]. destruct (snd (t_flush t x)), (snd (t_flush t' x')); try exact F. exists R. split; [exact F|exact H].
Qed.
Lemma at_new {A B} (t : transformer A B) : at_state t (t_cur t) = t.
Proof. now destruct t. Qed.

(** ** Pipelines. *)
Lemma feed_reached {A B} (t : transformer A B) l : forall x o y, reached t x -> feed (t_exec t) x l = (o, Ok y) -> reached t y.
Proof.
  induction l as [|a l IH]; cbn [feed]; intros x o y Hx E; [injection E as _ <-; exact Hx|].
  destruct (t_exec t x a) as [o1 [z|e|]] eqn:Ea; try discriminate. destruct (feed (t_exec t) z l) as [o2 r] eqn:El. injection E as _ ->.
  exact (IH z o2 y (r_row t x a o1 z Hx Ea) El).
Qed.
Lemma through_ok {X A B U} (f : X -> A -> list B * res X) x (up : list A * res U) o u y :
  through f x up = (o, Ok (u, y)) -> snd up = Ok u /\ feed f x (fst up) = (o, Ok y).
Proof.
  unfold through. destruct (feed f x (fst up)) as [o' rx]. intros E. injection E as -> E. destruct rx as [y'|e|]; try discriminate. cbn [bind] in E.
  destruct (snd up) as [u'|e|]; try discriminate. cbn [bind] in E. injection E as -> ->. split; reflexivity.
Qed.
Lemma reached_both {A B C} (t : transformer A B) (c : chain B C) x : reached (compile (InnerTr t c)) x -> reached t (fst x) /\ reached (compile c) (snd x).
Proof.
  induction 1 as [|[x1 x2] a o [y1 y2] Hx [I1 I2] E|[x1 x2] o [y1 y2] Hx [I1 I2] E]; cbn [compile t_cur t_exec t_flush fst snd] in *.
  - split; constructor.
  - apply through_ok in E. destruct E as [E1 E2]. destruct (t_exec t x1 a) as [o1 r1] eqn:Ea. cbn [fst snd] in *. subst r1. split.
    + exact (r_row t x1 a o1 y1 I1 Ea).
    + exact (feed_reached (compile c) o1 x2 o y2 I2 E2).
  - destruct (through (t_exec (compile c)) x2 (t_flush t x1)) as [o1 [[u z]|e|]] eqn:Et; try discriminate. apply through_ok in Et. destruct Et as [E1 E2].
    destruct (t_flush t x1) as [o2 r1] eqn:Ef. cbn [fst snd] in *. subst r1. destruct (t_flush (compile c) z) as [o3 rx] eqn:Ec. injection E as _ E.
    destruct rx as [x'|e|]; try discriminate. cbn [bind] in E. injection E as -> ->. split.
    + exact (r_flush t x1 o2 y1 I1 Ef).
    + exact (r_flush (compile c) z o3 y2 (feed_reached (compile c) o2 x2 o1 z I2 E2) Ec).
Qed.
Lemma pair_alike {A B C} (t t' : transformer A B) (n n' : transformer B C) : same_behaviour t t' -> same_behaviour n n' ->
  same_behaviour (compile (InnerTr t (TerminalTr n))) (compile (InnerTr t' (TerminalTr n'))).
Proof.
  intros (Q & q & HQ) (R & r & HR). exists (fun x y => Q (fst x) (fst y) /\ R (snd x) (snd y)). split; [split; assumption|]. intros [x1 x2] [y1 y2] [q1 r1].
  cbn [fst snd] in q1, r1. cbn [compile t_exec t_flush fst snd]. split.
  - intros a. apply (through_alike R Q); [exact (fun x x' p => proj1 (HR x x' p))|exact r1|exact (proj1 (HQ _ _ q1) a)].
  - destruct (through_alike R Q _ _ x2 y2 (t_flush t x1) (t_flush t' y1) (fun x x' p => proj1 (HR x x' p)) r1 (proj2 (HQ _ _ q1))) as [E1 E2].
    destruct (through (t_exec n) x2 (t_flush t x1)) as [o rx], (through (t_exec n') y2 (t_flush t' y1)) as [o' rx']. cbn [fst snd] in E1, E2. subst o'.
    destruct rx as [[u z]|e|], rx' as [[u' z']|e'|]; try contradiction; try (split; [reflexivity|exact E2]). destruct E2 as [E2 E3]. cbn [fst snd] in E2, E3.
    destruct (proj2 (HR _ _ E3)) as [F1 F2]. destruct (t_flush n z) as [o1 r2], (t_flush n' z') as [o2 r3]. cbn [fst snd] in F1, F2. subst o2. split; [reflexivity|]. cbn [snd].
    destruct r2, r3; try contradiction; cbn [bind]; try exact F2. now split.
Qed.
Lemma pipeline_resets {A B} (c : chain A B) : each_stage (@resets) c -> resets (compile c).
Proof.
  induction c as [A|A B t|A B c IH|A B C t c IH]; cbn [each_stage]; intros H.
  - intros x o y _ _. destruct y. rewrite (at_new (compile TerminalOther)). apply same_refl.
  - exact H.
  - exact (IH H).
  - destruct H as [Ht Hc]. intros [x1 x2] o [y1 y2] Hx E. destruct (reached_both t c _ Hx) as [I1 I2]. cbn [fst snd] in I1, I2. cbn [compile t_flush fst snd] in E.
    destruct (through (t_exec (compile c)) x2 (t_flush t x1)) as [o1 [[u z]|e|]] eqn:Et; try discriminate. apply through_ok in Et. destruct Et as [E1 E2].
    destruct (t_flush t x1) as [o2 r1] eqn:Ef. cbn [fst snd] in *. subst r1. destruct (t_flush (compile c) z) as [o3 rx] eqn:Ec. injection E as _ E.
    destruct rx as [x'|e|]; try discriminate. cbn [bind] in E. injection E as -> ->.
    exact (pair_alike (at_state t y1) t (at_state (compile c) y2) (compile c) (Ht x1 o2 y1 I1 Ef) (IH Hc z o3 y2 (feed_reached (compile c) o2 x2 o1 z I2 E2) Ec)).
Qed.
(** Two that behave the same when new behave the same after a flush, whatever was done with either. *)
Lemma equal_again {A B} (t t' : transformer A B) : same_behaviour t t' -> resets t -> resets t' -> forall x o y x' o' y',
  reached t x -> t_flush t x = (o, Ok y) -> reached t' x' -> t_flush t' x' = (o', Ok y') -> sb t y t' y'.
Proof. intros H Ht Ht' x o y x' o' y' I E I' E'. exact (same_trans _ _ _ (Ht x o y I E) (same_trans _ _ _ H (same_sym _ _ (Ht' x' o' y' I' E')))). Qed.

(** ** The transformers. *)
Lemma back_to_start {A B} (t : transformer A B) : (forall x o y, reached t x -> t_flush t x = (o, Ok y) -> y = t_cur t) -> resets t.
Proof. intros H x o y I E. rewrite (H x o y I E), at_new. apply same_refl. Qed.
Lemma stateless_resets {A B} (exec : unit -> A -> list B * res unit) flush : resets (mkTr unit tt exec flush).
Proof. apply back_to_start. intros x o [] _ _. reflexivity. Qed.
Lemma bfill_resets {T} (default : option T) : resets (bfill default).
Proof.
  apply back_to_start. intros x o y _. cbn [bfill t_flush t_cur]. unfold bfill_flush. destruct (Z.eqb_spec x 0) as [->|N]; [intros [= _ <-]; reflexivity|].
  destruct default; [intros [= _ <-]; reflexivity|discriminate].
Qed.
Lemma rolling_resets {I O} (calc : list I -> res O) (null : O) horizon mx mn t : rolling_window calc null horizon mx mn = Ok t -> resets t.
Proof.
  unfold rolling_window. destruct (Nat.ltb horizon 1); [discriminate|]. destruct (Nat.ltb mx 1); [discriminate|]. destruct (Nat.ltb mn 1); [discriminate|]. destruct (Nat.ltb mx mn); [discriminate|].
  destruct (buf_new _) as [b|e|] eqn:Eb; try discriminate. cbn [bind]. intros [= <-]. apply back_to_start. cbn [t_flush t_cur t_state]. intros x o y I0 [= _ <-].
  assert (K : b = buf_clear b /\ b_max x = b_max b).
  { split; [unfold buf_new in Eb; destruct (Nat.eqb _ _); [discriminate|]; injection Eb as <-; reflexivity|].
    revert I0. clear. intros I0. induction I0 as [|x a o y I0 IH E|x o y I0 IH E]; cbn [t_cur t_exec t_flush t_state] in *.
    - reflexivity.
    - unfold rw_exec in E. destruct (mapM _ _) as [row|e|]; try discriminate. injection E as _ <-. unfold buf_push. destruct (Nat.eqb _ _); exact IH.
    - injection E as _ <-. exact IH. }
  destruct K as [K M]. rewrite K. unfold buf_clear. cbn [b_max]. now rewrite M.
Qed.
(** The parts of a lag/lead transformer that no call changes. *)
Definition lag_frame {T} (t : lag T) := (lag_horizon t, lag_delta t, lag_offsets t, b_max (lag_buf t)).
Lemma push_max {T} (b : cbuf T) v : b_max (buf_push b v) = b_max b.
Proof. unfold buf_push. now destruct (Nat.eqb _ _). Qed.
Lemma push_nulls_max {T} (null : T) n : forall b : cbuf T, b_max (push_nulls null n b) = b_max b.
Proof. induction n as [|n IH]; intros b; cbn [push_nulls]; [reflexivity|]. now rewrite IH, push_max. Qed.
Lemma init_frame {T} (null : T) (t : lag T) : lag_frame (init_buffer null t) = lag_frame t.
Proof. unfold init_buffer, lag_frame. cbn [lag_horizon lag_delta lag_offsets lag_buf]. destruct (lag_min t <? 0); now rewrite ?push_nulls_max. Qed.
Lemma step_frame {T} (null : T) (t : lag T) x o t' : lag_step t x = (o, Ok t') -> lag_frame t' = lag_frame t.
Proof.
  unfold lag_step. destruct (negb _); [intros [= _ <-]|destruct (mapM _ _); [intros [= _ <-]|discriminate|discriminate]];
    unfold lag_frame; cbn [lag_horizon lag_delta lag_offsets lag_buf]; now rewrite push_max.
Qed.
Lemma steps_frame {T} (null : T) n : forall (t : lag T) o t', lag_steps null n t = (o, Ok t') -> lag_frame t' = lag_frame t.
Proof.
  induction n as [|n IH]; intros t o t'; cbn [lag_steps]; [intros [= _ <-]; reflexivity|].
  destruct (lag_step t null) as [o1 [t1|e|]] eqn:E; try discriminate. destruct (lag_steps null n t1) as [o2 r] eqn:F. intros [= _ ->].
  rewrite (IH _ _ _ F). exact (step_frame null t null o1 t1 E).
Qed.
Lemma same_init {T} (null : T) (t t' : lag T) : lag_frame t = lag_frame t' ->
  init_buffer null (mkLag (lag_horizon t) (lag_delta t) (lag_offsets t) (buf_clear (lag_buf t))) = init_buffer null (mkLag (lag_horizon t') (lag_delta t') (lag_offsets t') (buf_clear (lag_buf t'))).
Proof. unfold lag_frame, buf_clear. intros [= -> -> -> ->]. reflexivity. Qed.
Lemma lag_resets {T} (null : T) horizon deltas t : lag_lead null horizon deltas = Ok t -> resets t.
Proof.
  unfold lag_lead. destruct (lag_new null horizon deltas) as [t0|e|] eqn:E0; try discriminate. cbn [bind]. intros [= <-]. apply back_to_start. cbn [t_flush t_cur t_state]. intros x o y I0 E.
  assert (K : lag_frame x = lag_frame t0).
  { clear E E0. induction I0 as [|x a o' y' I0 IH E|x o' y' I0 IH E]; cbn [t_cur t_exec t_flush t_state] in *.
    - reflexivity.
    - rewrite <- IH. exact (step_frame null x a o' y' E).
    - unfold lag_flush in E. destruct (lag_steps _ _ _) as [o1 [t1|e|]] eqn:F; try discriminate. injection E as _ <-. rewrite init_frame. rewrite <- IH. rewrite <- (steps_frame null _ _ _ _ F). reflexivity. }
  unfold lag_flush in E. destruct (lag_steps _ _ _) as [o1 [t1|e|]] eqn:F; try discriminate. injection E as _ <-. pose proof (steps_frame null _ _ _ _ F) as K1.
  rewrite (same_init null t1 t0) by congruence. clear - E0. unfold lag_new in E0. destruct (horizon =? 0); [discriminate|]. destruct deltas as [|d ds]; [discriminate|].
  destruct (buf_new _) as [b|e|] eqn:Eb; try discriminate. cbn [bind] in E0. injection E0 as <-. unfold buf_new in Eb. destruct (Nat.eqb _ _); [discriminate|]. injection Eb as <-.
  match goal with |- init_buffer null ?u = init_buffer null ?v => replace u with v; [reflexivity|] end.
  match goal with |- ?v = _ => set (w := v) end. assert (F4 : b_max (lag_buf (init_buffer null w)) = b_max (lag_buf w)) by exact (f_equal snd (init_frame null w)). unfold buf_clear. rewrite F4. reflexivity.
Qed.
Lemma ts_resets {K C} (keqb klt : K -> K -> bool) cfg : resets (ts_transformer (K := K) (C := C) keqb klt cfg).
Proof. apply back_to_start. intros x o y _ [= _ <-]. reflexivity. Qed.
Lemma filter_reached {V} idx (d : V) (t : transformer (list V) (list V)) x : reached (filter_tr idx d t) x -> reached t x.
Proof.
  induction 1 as [|x a o y I IH E|x o y I IH E]; cbn [filter_tr t_cur t_exec t_flush t_state] in *.
  - constructor.
  - destruct (t_exec t x _) as [o1 r] eqn:Ex. injection E as _ ->. exact (r_row t x _ o1 y IH Ex).
  - destruct (t_flush t x) as [[|b l] r] eqn:Ex; [|discriminate]. injection E as _ ->. exact (r_flush t x [] y IH Ex).
Qed.
Lemma filter_resets {V} idx (d : V) (t : transformer (list V) (list V)) : resets t -> resets (filter_tr idx d t).
Proof.
  intros H x o y I E. cbn [filter_tr t_flush t_state] in E. destruct (t_flush t x) as [[|b l] r] eqn:Ex; [|discriminate]. injection E as _ ->.
  destruct (H x [] y (filter_reached idx d t x I) Ex) as (R & r & G). exists R. split; [exact r|]. intros u v q. destruct (G u v q) as [G1 G2].
  cbn [filter_tr at_state t_exec t_flush t_state] in *. split.
  - intros a. destruct (G1 (to_filtered idx d a)) as [F1 F2]. destruct (t_exec t u _) as [o1 r1], (t_exec t v _) as [o2 r2]. cbn [fst snd] in *. subst o2. split; [reflexivity|exact F2].
  - destruct G2 as [F1 F2]. destruct (t_flush t u) as [o1 r1], (t_flush t v) as [o2 r2]. cbn [fst snd] in *. subst o2. destruct o1; split; try reflexivity; exact F2.
Qed.
