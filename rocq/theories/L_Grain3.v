From Verif Require Import Base L_List M_Archive M_Codec L_Codec M_Estimator L_Estimator M_Stats L_Stats M_Pipeline M_Keyed S_Keyed L_Keyed M_Grain S_Grain L_Grain.

Lemma feed_snd_app : forall (X A B : Type) (step : X -> A -> list B * res X) (l1 l2 : list A) (x : X),
  snd (M_Pipeline.feed step x (l1 ++ l2)) = do y <- snd (M_Pipeline.feed step x l1); snd (M_Pipeline.feed step y l2).
Proof.
  intros X A B step. induction l1 as [|a l1 IH]; intros l2 x; cbn [app M_Pipeline.feed]; [reflexivity|].
  destruct (step x a) as [o [x'| |]]; try reflexivity. specialize (IH l2 x'). destruct (M_Pipeline.feed step x' (l1 ++ l2)). destruct (M_Pipeline.feed step x' l1). exact IH.
Qed.

Section Training.
  Context {K S In Tr Ann : Type}.
  Variable keqb klt : K -> K -> bool.
  Hypothesis Hord : key_order keqb klt.
  Variable I : impl S In Tr.
  Variable s0 : S.
  Variable ann : S -> option Ann.
  Notation step := (ge_step (K := K) I s0).
  Notation kexec := (keyed_exec keqb klt step).
  Notation gimpl := (grain_impl keqb klt I s0 ann).
  Notation gfit := (ge_fit (Ann := Ann) keqb klt I s0).

  Lemma step_not_training : forall k (e : est S) x, e_state e <> Training -> step k (Some e) x = ([], Ok e).
  Proof using Type. intros k e x H. unfold ge_step. cbn [bind]. destruct (e_state e); congruence || reflexivity. Qed.
  Lemma alone_rows : forall k l (e : est S), snd (alone (step k) (Some e) l) = do e' <- fit_rows I e l; Ok (Some e').
  Proof using Type.
    intros k. induction l as [|x l IH]; intros e; [reflexivity|]. rewrite (alone_cons step). cbn [fit_rows].
    unfold ge_step at 1. cbn [bind]. destruct (e_state e) eqn:Es.
    - specialize (IH e). destruct (alone (step k) (Some e) l) as [o r]. cbn [snd] in *. rewrite IH. destruct l as [|y l]; cbn [fit_rows]; [reflexivity|rewrite Es; reflexivity].
    - destruct (fit I e (Some [x])) as [e' [[| |]| |]]; cbn [bind]; try reflexivity.
      + specialize (IH e'). destruct (alone (step k) (Some e') l) as [o r]. cbn [snd] in *. exact IH.
      + specialize (IH e'). destruct (alone (step k) (Some e') l) as [o r]. cbn [snd] in *. exact IH.
    - specialize (IH e). destruct (alone (step k) (Some e) l) as [o r]. cbn [snd] in *. rewrite IH. destruct l as [|y l]; cbn [fit_rows]; [reflexivity|rewrite Es; reflexivity].
    - specialize (IH e). destruct (alone (step k) (Some e) l) as [o r]. cbn [snd] in *. rewrite IH. destruct l as [|y l]; cbn [fit_rows]; [reflexivity|rewrite Es; reflexivity].
  Qed.
  Definition begun : res (est S) := let (e, r) := begin_training I (est_new s0) in do _ <- r; Ok e.
  Lemma alone_fresh : forall k l, l <> [] -> snd (alone (step k) None l) = do e <- begun; do e' <- fit_rows I e l; Ok (Some e').
  Proof using Type.
    intros k [|x l] H; [congruence|]. rewrite (alone_cons step). transitivity (do e <- begun; snd (alone (step k) (Some e) (x :: l))).
    - unfold begun, ge_step at 1. destruct (begin_training I (est_new s0)) as [e [u| |]]; cbn [bind]; try reflexivity.
      rewrite (alone_cons step). unfold ge_step at 2. cbn [bind]. reflexivity.
    - destruct begun as [e| |]; cbn [bind]; [apply alone_rows|reflexivity|reflexivity].
  Qed.

  Lemma gfit_all : forall batches m rem, (1 <= rem)%nat -> Forall (fun b => b <> []) batches -> forall c,
    fit_all (gimpl c) (mkEst Training false (mkGest m false rem None)) batches =
    do m' <- snd (M_Pipeline.feed kexec m (firstn rem (concat batches)));
    let rem' := (rem - Nat.min rem (length (concat batches)))%nat in
    Ok (mkEst (if Nat.eqb rem' 0 then Finished else Training) false (mkGest m' false rem' None)).
  Proof using Type.
    induction batches as [|b r IH]; intros m rem Hrem HF c.
    - cbn. rewrite firstn_nil. cbn. rewrite Nat.min_0_r, Nat.sub_0_r. destruct rem; [lia|reflexivity].
    - inversion HF as [|? ? Hb HF']; subst. cbn [fit_all e_state concat]. unfold fit. cbn [e_state]. destruct b as [|x b]; [contradiction|].
      cbn [i_fit grain_impl e_impl e_created]. unfold ge_fit. cbn [ge_remaining ge_map ge_inference ge_ann]. set (bb := x :: b) in *.
      rewrite firstn_app, feed_snd_app.
      replace (firstn rem bb) with (firstn (Nat.min rem (length bb)) bb)
        by (destruct (Nat.le_ge_cases rem (length bb)); [f_equal; lia|rewrite !firstn_all2 by lia; reflexivity]).
      destruct (snd (M_Pipeline.feed kexec m (firstn (Nat.min rem (length bb)) bb))) as [m'|e|]; cbn [bind]; try reflexivity.
      rewrite app_length. destruct (Nat.eqb_spec (rem - Nat.min rem (length bb)) 0) as [Hz|Hnz].
      + assert (rem <= length bb)%nat by lia. replace (rem - length bb)%nat with 0%nat by lia. cbn [firstn M_Pipeline.feed snd bind].
        replace (Nat.min rem (length bb + length (concat r))) with rem by lia. rewrite Nat.sub_diag. cbn [Nat.eqb].
        replace (rem - Nat.min rem (length bb))%nat with 0%nat by lia. cbn [bind]. destruct r; reflexivity.
      + cbn [bind]. rewrite IH by (auto; lia). replace (rem - Nat.min rem (length bb))%nat with (rem - length bb)%nat by lia.
        destruct (snd (M_Pipeline.feed kexec m' (firstn (rem - length bb) (concat r)))) as [m2|e|]; cbn [bind]; [|reflexivity|reflexivity].
        cbv zeta. replace (rem - length bb - Nat.min (rem - length bb) (length (concat r)))%nat with (rem - Nat.min rem (length bb + length (concat r)))%nat by lia. reflexivity.
  Qed.

  (** The whole training run of the grained estimator. *)
  Lemma gtrain : forall MX batches c, (1 <= MX)%nat -> Forall (fun b => b <> []) batches ->
    train (gimpl c) (est_new (gest_new MX false)) batches =
    do m <- snd (M_Pipeline.feed kexec [] (firstn MX (concat batches)));
    do p <- ge_complete_all I ann m;
    Ok (mkEst Completed false (mkGest (fst p) false (MX - Nat.min MX (length (concat batches))) (match snd p with [] => None | a => Some a end))).
  Proof using Type.
    intros MX batches c Hm HF. unfold train, begin_training, est_new. cbn [e_state i_begin grain_impl e_impl]. unfold ge_begin, gest_new. cbn [ge_inference ge_remaining negb andb].
    assert (Hb : Nat.eqb MX 0 = false) by (apply Nat.eqb_neq; lia). rewrite Hb. cbn [negb bind e_created]. rewrite gfit_all by assumption.
    destruct (snd (M_Pipeline.feed kexec [] (firstn MX (concat batches)))) as [m|e|]; cbn [bind]; try reflexivity. cbv zeta. set (rem := (MX - _)%nat).
    set (st := if Nat.eqb rem 0 then Finished else Training). assert (Hst : st = Finished \/ st = Training) by (subst st; destruct (Nat.eqb rem 0); auto).
    unfold on_data_completed. cbn [e_state]. destruct Hst as [-> | ->].
    - cbn [bind]. unfold complete_training. cbn [e_state i_complete grain_impl e_impl e_created]. unfold ge_complete. cbn [ge_map ge_inference ge_remaining ge_ann].
      destruct (ge_complete_all I ann m) as [[m' a]|e|]; cbn [bind fst snd]; try reflexivity. destruct a; reflexivity.
    - cbn [i_on_data grain_impl e_impl e_created bind]. unfold complete_training. cbn [e_state i_complete grain_impl e_impl e_created]. unfold ge_complete. cbn [ge_map ge_inference ge_remaining ge_ann].
      destruct (ge_complete_all I ann m) as [[m' a]|e|]; cbn [bind fst snd]; try reflexivity. destruct a; reflexivity.
  Qed.

  Definition completed (e : est S) : res (est S) := let (e', x) := complete_training I e in do _ <- x; Ok e'.
  Notation find := (k_find keqb).
  Lemma complete_keys : forall m m' (a : list (K * Ann)), ge_complete_all I ann m = Ok (m', a) -> forall k x, List.In (k, x) a -> exists e, List.In (k, e) m.
  Proof using Type.
    induction m as [|[k e] m IH]; intros m' a E k' x Hx; cbn [ge_complete_all] in E; [injection E as <- <-; destruct Hx|].
    destruct (complete_training I e) as [e' [u| |]]; try discriminate. cbn [bind] in E. destruct (ge_complete_all I ann m) as [[m2 a2]| |]; try discriminate. cbn [bind fst snd] in E. injection E as <- <-.
    destruct (ann (e_impl e')) as [y|].
    - destruct Hx as [[= <- <-]|Hx]; [exists e; now left|]. destruct (IH _ _ eq_refl _ _ Hx) as [e2 H2]. exists e2. now right.
    - destruct (IH _ _ eq_refl _ _ Hx) as [e2 H2]. exists e2. now right.
  Qed.
  Lemma complete_all : forall m, map_ordered klt m -> forall m' (a : list (K * Ann)), ge_complete_all I ann m = Ok (m', a) -> forall k,
    match find m k with
    | None => find m' k = None /\ find a k = None
    | Some e => exists e', completed e = Ok e' /\ find m' k = Some e' /\ find a k = ann (e_impl e')
    end.
  Proof using Hord.
    destruct Hord as [He [Hi _]]. unfold k_find. induction 1 as [|[k e] m Hm IH Hk]; intros m' a E k'; cbn [ge_complete_all] in E; [injection E as <- <-; split; reflexivity|].
    destruct (complete_training I e) as [e' [u| |]] eqn:Ec; try discriminate. cbn [bind] in E. destruct (ge_complete_all I ann m) as [[m2 a2]| |] eqn:Ea; try discriminate. cbn [bind fst snd] in E. injection E as <- <-.
    cbn [m_find]. destruct (keqb k k') eqn:Ek.
    - apply He in Ek. subst k'. exists e'. unfold completed. rewrite Ec. cbn [bind]. split; [reflexivity|]. split; [reflexivity|].
      assert (N : m_find keqb a2 k = None).
      { apply (m_find_none _ He). intros Hin. apply in_map_iff in Hin. destruct Hin as [[k1 x] [E1 Hin]]. cbn [fst] in E1. subst k1. destruct (complete_keys _ _ _ Ea _ _ Hin) as [e2 H2].
        rewrite Forall_forall in Hk. specialize (Hk _ H2). cbn [fst] in Hk. rewrite Hi in Hk. discriminate. }
      destruct (ann (e_impl e')) as [y|]; [|exact N]. cbn [m_find]. rewrite (proj2 (He k k) eq_refl). reflexivity.
    - specialize (IH _ _ eq_refl k'). destruct (m_find keqb m k') as [e1|].
      + destruct IH as [e2 [H1 [H2 H3]]]. exists e2. split; [exact H1|]. split; [exact H2|]. destruct (ann (e_impl e')); [cbn [m_find]; now rewrite Ek|exact H3].
      + destruct IH as [H2 H3]. split; [exact H2|]. destruct (ann (e_impl e')); [cbn [m_find]; now rewrite Ek|exact H3].
  Qed.
  Lemma complete_all_ok : forall m : list (K * est S), (forall k e, List.In (k, e) m -> exists e', completed e = Ok e') -> exists p, ge_complete_all I ann m = Ok p.
  Proof using Type.
    induction m as [|[k e] m IH]; intros H; [now exists ([], [])|]. destruct (H k e) as [e' E]; [now left|]. unfold completed in E. cbn [ge_complete_all].
    destruct (complete_training I e) as [e1 [u| |]]; try discriminate. cbn [bind]. destruct IH as [p ->]; [intros; apply (H k0 e0); now right|]. cbn [bind]. eexists. reflexivity.
  Qed.

  Lemma alone_trained : forall rows, train_alone I s0 rows = do e <- begun; do e' <- fit_rows I e rows; completed e'.
  Proof using Type.
    intros rows. unfold train_alone, begun, completed. destruct (begin_training I (est_new s0)) as [e [u| |]]; reflexivity.
  Qed.
  Notation own k batches MX := (of_key keqb k (firstn MX (concat batches))).
  (** Each grain's estimator went through its own training. *)
  Lemma gtrain_own : forall MX batches c e, (1 <= MX)%nat -> Forall (fun b => b <> []) batches ->
    train (gimpl c) (est_new (gest_new MX false)) batches = Ok e -> forall k,
    (own k batches MX = [] -> find (ge_map (e_impl e)) k = None /\ (forall l, ge_ann (e_impl e) = Some l -> find l k = None)) /\
    (own k batches MX <> [] -> exists ek, train_alone I s0 (own k batches MX) = Ok ek /\ find (ge_map (e_impl e)) k = Some ek /\
        (match ge_ann (e_impl e) with Some l => find l k | None => None end) = ann (e_impl ek)).
  Proof using Hord.
    intros MX batches c e Hm HF E k. rewrite gtrain in E by assumption.
    pose proof (keyed_spec keqb klt Hord step (firstn MX (concat batches)) []) as X.
    pose proof (feed_ascending keqb klt Hord step (firstn MX (concat batches)) []) as Y.
    destruct (M_Pipeline.feed kexec [] (firstn MX (concat batches))) as [o [m| |]]; try discriminate. cbn [snd bind] in E.
    specialize (Y o m (SSorted_nil _) eq_refl).
    destruct X as [p [q [Ep [_ [H2 _]]]]]. destruct (H2 m eq_refl) as [-> H3]. rewrite app_nil_r in Ep. rewrite <- Ep in H3. clear H2 Ep p.
    destruct (ge_complete_all I ann m) as [[m' a]| |] eqn:Ea; try discriminate. cbn [bind fst snd] in E. injection E as <-. cbn [e_impl ge_map ge_ann].
    pose proof (complete_all m Y m' a Ea k) as C. specialize (H3 k). cbn [k_find m_find] in H3.
    split; intros Hrows.
    - rewrite Hrows in H3. cbn in H3. injection H3 as H3. unfold k_find in *. rewrite <- H3 in C. destruct C as [C1 C2]. split; [exact C1|]. intros l El. destruct a; [discriminate|injection El as <-; exact C2].
    - rewrite alone_fresh in H3 by exact Hrows. rewrite alone_trained. destruct begun as [e0| |]; try discriminate. cbn [bind] in *.
      destruct (fit_rows I e0 (own k batches MX)) as [e1| |]; try discriminate. cbn [bind] in *. injection H3 as H3. rewrite <- H3 in C. destruct C as [e2 [C1 [C2 C3]]].
      exists e2. split; [exact C1|]. split; [exact C2|]. destruct a; exact C3.
  Qed.
  Lemma gtrain_ok : forall MX batches c, (1 <= MX)%nat -> Forall (fun b => b <> []) batches ->
    (forall k, own k batches MX <> [] -> exists ek, train_alone I s0 (own k batches MX) = Ok ek) ->
    exists e, train (gimpl c) (est_new (gest_new MX false)) batches = Ok e.
  Proof using Hord.
    intros MX batches c Hm HF H. rewrite gtrain by assumption.
    destruct (keyed_ok keqb klt Hord step (firstn MX (concat batches)) []) as [o [m [E1 H1]]].
    { intros k. cbn [k_find m_find]. destruct (own k batches MX) as [|x l] eqn:Er; [now exists None|]. rewrite alone_fresh by discriminate.
      destruct (H k) as [ek Ek]; [congruence|]. rewrite Er, alone_trained in Ek. destruct begun as [e0| |]; try discriminate. cbn [bind] in *. destruct (fit_rows I e0 (x :: l)) as [e1| |]; try discriminate. now exists (Some e1). }
    rewrite E1. cbn [snd bind]. pose proof (feed_ascending keqb klt Hord step _ _ o m (SSorted_nil _) E1) as Hm'.
    destruct (complete_all_ok m) as [p ->]; [|eexists; reflexivity].
    intros k e Hin. apply (find_In keqb klt Hord m k e Hm') in Hin. destruct (H1 k) as [_ H2]. rewrite Hin in H2. cbn [k_find m_find] in H2.
    destruct (own k batches MX) as [|x l] eqn:Er; [discriminate|]. rewrite alone_fresh in H2 by discriminate. destruct (H k) as [ek Ek]; [congruence|].
    rewrite Er, alone_trained in Ek. destruct begun as [e0| |]; try discriminate. cbn [bind] in *. destruct (fit_rows I e0 (x :: l)) as [e1| |]; try discriminate. cbn [bind] in *. injection H2 as <-. now exists ek.
  Qed.

  (** The transformer made afterwards holds one transformer per grain, made by that grain's estimator. *)
  Lemma create_all : forall m, map_ordered klt m -> forall m' (ts : list (K * Tr)), ge_create_all I m = Ok (m', ts) -> map_ordered klt ts /\ forall k,
    match find m k with
    | None => find ts k = None
    | Some e => exists t, snd (create_transformer I e) = Ok t /\ find ts k = Some t
    end.
  Proof using Type.
    unfold k_find. induction 1 as [|[k e] m Hm IH Hk]; intros m' ts E; cbn [ge_create_all] in E; [injection E as <- <-; split; [constructor|reflexivity]|].
    destruct (create_transformer I e) as [e' [t| |]] eqn:Ec; try discriminate. cbn [bind] in E. destruct (ge_create_all I m) as [[m2 ts2]| |] eqn:Ea; try discriminate. cbn [bind fst snd] in E. injection E as <- <-.
    destruct (IH _ _ eq_refl) as [IH1 IH2]. split.
    - constructor; [exact IH1|]. clear -Ea Hk. revert m2 ts2 Ea. induction m as [|[k1 e1] m IHm]; intros m2 ts2 Ea; cbn [ge_create_all] in Ea; [injection Ea as <- <-; constructor|].
      destruct (create_transformer I e1) as [e1' [t1| |]]; try discriminate. cbn [bind] in Ea. destruct (ge_create_all I m) as [[m3 ts3]| |]; try discriminate. cbn [bind fst snd] in Ea. injection Ea as <- <-.
      inversion Hk; subst. constructor; [assumption|]. eapply IHm; [assumption|reflexivity].
    - intros k'. cbn [m_find]. destruct (keqb k k'); [|apply IH2]. exists t. rewrite Ec. split; reflexivity.
  Qed.
End Training.

(** Inner estimators that only compute an annotation. *)
Section TrainingOnly.
  Context {P In A : Type}.
  Variable pol : policy P In A.
  Variable mx : nat.
  Hypothesis Hmx : (1 <= mx)%nat.
  Notation I := (tonly_impl pol).
  Lemma fit_rows_feed : forall rows (e : est (tonly (P := P) (A := A))), fit_rows I e rows = M_Estimator.feed pol e (map (fun x => [x]) rows).
  Proof using Type.
    induction rows as [|x rows IH]; intros e; [reflexivity|]. cbn [fit_rows map M_Estimator.feed]. destruct (e_state e); try reflexivity.
    unfold fit. destruct (e_state e); try reflexivity. cbn [i_fit tonly_impl]. unfold t_fit. destruct (fit_items pol (t_pol (e_impl e)) _) as [p [u| |]]; try reflexivity.
    destruct (Nat.eqb _ 0); cbn [bind]; apply IH.
  Qed.
  Lemma train_alone_trained : forall rows, rmap (fun e => t_ann (e_impl e)) (train_alone I (tonly_new pol mx true None) rows) = trained pol mx (match rows with [] => [] | _ => [rows] end).
  Proof using Hmx.
    intros rows. transitivity (trained pol mx (map (fun x => [x]) rows)).
    2:{ apply trained_batching; [exact Hmx| | |].
        - apply Forall_forall. intros b Hb. apply in_map_iff in Hb. destruct Hb as [x [<- _]]. discriminate.
        - destruct rows; constructor; [discriminate|constructor].
        - f_equal. transitivity rows.
          + induction rows as [|x l IH]; [reflexivity|]. cbn. now rewrite IH.
          + destruct rows; [reflexivity|]. cbn. now rewrite app_nil_r. }
    unfold train_alone, trained, train_batches. destruct (begin_training I (est_new (tonly_new pol mx true None))) as [e [u| |]]; try reflexivity. cbn [bind].
    rewrite fit_rows_feed. destruct (M_Estimator.feed pol e (map (fun x => [x]) rows)) as [e2| |]; try reflexivity. cbn [bind].
    unfold on_data_completed, complete_training. destruct e2 as [[| | |] cr s]; cbn [e_state e_impl e_created i_on_data tonly_impl bind]; try reflexivity.
    cbn [i_complete tonly_impl]. destruct (t_complete pol s) as [s' [v| |]]; reflexivity.
  Qed.
End TrainingOnly.
