(** C90: windows and lags of grains; forward fill. *)
From Verif Require Import Base M_Archive M_Codec M_Stats M_Pipeline M_Impute M_Window M_Keyed S_Keyed M_Grain S_Grain M_GrainWindow L_Keyed L_Grain4 L_Window2 S_CompareTr L_CompareTr S_Flush L_Flush L_Flush2 S_Order.

Lemma rw_resets {I O} (calcs : Z -> list I -> res O) (null : O) c h mx mn s : rw_new c h mx mn = Ok s -> resets (mkTr (rw I) s (rw_step calcs null) (rw_flush (O := O))).
Proof.
  intros E0. apply back_to_start. cbn [t_flush t_cur t_state]. intros x o y I0 [= _ <-].
  assert (K : rw_calc x = rw_calc s /\ rw_h x = rw_h s /\ rw_mx x = rw_mx s /\ rw_mn x = rw_mn s /\ b_max (rw_buf x) = b_max (rw_buf s)).
  { induction I0 as [|x a o2 y I0 IH E|x o2 y I0 IH E]; cbn [t_cur t_exec t_flush t_state] in *.
    - repeat split.
    - unfold rw_step, rw_exec in E. destruct (mapM _ _) as [row|e|]; try discriminate. cbn [bind] in E. injection E as _ <-. cbn [rw_calc rw_h rw_mx rw_mn rw_buf]. rewrite push_max. exact IH.
    - injection E as _ <-. exact IH. }
  destruct K as (-> & -> & -> & -> & K). unfold buf_clear. rewrite K. clear - E0. unfold rw_new in E0. destruct (Nat.ltb h 1); [discriminate|]. destruct (Nat.ltb mx 1); [discriminate|]. destruct (Nat.ltb mn 1); [discriminate|].
  destruct (Nat.ltb mx mn); [discriminate|]. unfold buf_new in E0. destruct (Nat.eqb _ _); [discriminate|]. cbn [bind] in E0. injection E0 as <-. reflexivity.
Qed.
Lemma windows_reset {I O} (calcs : Z -> list I -> res O) (null : O) c h mx mn : resets (window_tr calcs null (mkGrain false [] (Some (rw_new c h mx mn)))).
Proof.
  apply (pipeline_resets (InnerTr _ (TerminalTr decorator))). split; [|exact (stateless_resets _ _)].
  apply (grain_resets names_eqb names_lt names_order); [constructor|intros k s []|]. cbn [g_create]. intros s [= E]. split; [exact (rw_resets calcs null c h mx mn s E)|]. eexists. reflexivity.
Qed.
Lemma lag_quiet {T} (null : T) horizon deltas t : 1 <= horizon -> deltas <> [] -> horizon + Z.max 0 (- zmin deltas) + Z.max 0 (zmax deltas) < 2 ^ 32 ->
  lag_lead null horizon deltas = Ok t -> quiet t.
Proof.
  intros H1 H2 H3 E. destruct (lag_spec null horizon deltas H1 H2 H3) as (t' & E' & H). rewrite E in E'. injection E' as <-. specialize (H []). unfold run_all, run_exec in H. cbn [feed seq map length] in H.
  unfold quiet. destruct (t_flush t (t_cur t)) as [o r]. cbn [app] in H. injection H as -> ->. eauto.
Qed.
Lemma lags_reset {T} (null : T) horizon deltas : 1 <= horizon -> deltas <> [] -> horizon + Z.max 0 (- zmin deltas) + Z.max 0 (zmax deltas) < 2 ^ 32 ->
  resets (lag_tr null (mkGrain false [] (Some (lag_new null horizon deltas)))).
Proof.
  intros H1 H2 H3. apply (grain_resets names_eqb names_lt names_order); [constructor|intros k s []|]. cbn [g_create]. intros s [= E].
  assert (L : lag_lead null horizon deltas = Ok (mkTr (lag T) s (lag_step (T := T)) (lag_flush null))) by (unfold lag_lead; now rewrite E).
  split; [exact (lag_resets null horizon deltas _ L)|exact (lag_quiet null horizon deltas _ H1 H2 H3 L)].
Qed.
Lemma ffill_not : ~ (forall T (default : option T), resets (ffill default)).
Proof.
  intros H. pose proof (H Z None (Some 1) [] (Some 1) (r_row (ffill None) (None : option Z) (Some 1) [1] (Some 1) (r_new _) eq_refl) eq_refl) as S.
  pose proof (same_delivered _ _ S [None]) as D. discriminate D.
Qed.
