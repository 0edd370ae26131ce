From Verif Require Import Base L_List M_Archive M_Estimator M_Pipeline M_Keyed M_Impute M_Window M_Grain M_Filter S_Keyed L_Keyed M_Errors S_Errors L_Errors.

(** ** Calls that remember first. *)
Fixpoint eager {S B} (p : call S B) : Prop :=
  match p with
  | Assign _ k => eager k
  | Emit _ Return => True
  | Emit _ _ => False
  | _ => True
  end.
Lemma eager_call {S B C} (put : C -> B -> C * res unit) (p : call S B) : eager p -> forall c l s,
  let '(c', s', _) := perform (watched put) (c, l) s p in
  let '(out, s'', _) := perform keep [] s p in
  snd c' = l ++ out /\ s' = s''.
Proof.
  induction p as [|e| |b k IH|s1 k IH]; intros H c l s; cbn [perform]; try (cbn; now rewrite app_nil_r).
  - destruct k; try easy. unfold watched. cbn [fst snd]. destruct (put c b) as [c' [[]|e|]]; cbn; easy.
  - apply IH, H.
Qed.
Lemma eager_counts {A B} (o : object A B) (allowed : use A -> Prop) :
  (forall s u, allowed u -> eager (use_call o s u)) -> counts_every_call o allowed.
Proof.
  intros H C put c s us F.
  assert (K : forall l c s, let '(c', s', _) := session o (watched put) (c, l) s us in
                            let '(out, s'', _) := session o keep [] s us in snd c' = l ++ out /\ s' = s'').
  { clear c s. induction F as [|u us Hu F IH]; intros l c s; cbn [session].
    - cbn. now rewrite app_nil_r.
    - pose proof (eager_call put (use_call o s u) (H s u Hu) c l s) as E.
      destruct (perform (watched put) (c, l) s (use_call o s u)) as [[[c1 l1] s1] q].
      destruct (perform keep [] s (use_call o s u)) as [[out s2] q2]. cbn [snd] in E. destruct E as [-> <-].
      specialize (IH (l ++ out) c1 s1).
      destruct (session o (watched put) (c1, l ++ out) s1 us) as [[c2 s3] qs].
      rewrite (session_keep o us s1 out).
      destruct (session o keep [] s1 us) as [[out2 s4] qs2]. cbn [fst snd] in *. destruct IH as [-> <-]. split; [|reflexivity].
      now rewrite app_assoc. }
  exact (K [] c s).
Qed.
Theorem rolling_counts {I O} (calc : list I -> res O) null h mx mn b0 :
  counts_every_call (rolling_o calc null h mx mn b0) (fun _ => True).
Proof.
  apply eager_counts. intros s [x|] _; cbn [use_call rolling_o o_exec o_flush eager]; [|exact Logic.I].
  destruct (mapM _ _); exact Logic.I.
Qed.
Theorem lag_counts {T} (null : T) t0 : counts_every_call (lag_o null t0) is_row.
Proof.
  apply eager_counts. intros s [x|] Hu; [|easy]. cbn [use_call lag_o o_exec]. unfold lag_call. cbn [eager].
  destruct (negb _); [exact Logic.I|]. destruct (mapM _ _); exact Logic.I.
Qed.
Theorem normalize_counts {N R D} (scale : N -> R -> D) norms : counts_every_call (normalize_o scale norms) (fun _ => True).
Proof.
  apply eager_counts. intros s [x|] _; cbn [use_call normalize_o o_exec o_flush eager]; [|exact Logic.I].
  destruct (nth_error norms s); exact Logic.I.
Qed.
(** A row that finds no norm is refused without being counted. *)
Lemma normalize_refused {N R D C} (scale : N -> R -> D) norms (put : C -> D -> C * res unit) c s row :
  nth_error norms s = None -> perform put c s (o_exec (normalize_o scale norms) s row) = (c, s, Throw RuntimeError).
Proof. intro E. cbn [normalize_o o_exec]. now rewrite E. Qed.

(** ** The filter. *)
Lemma embed_id_rows {S B D C} (put : C -> D -> C * res unit) (h : B -> D) (p : call S B) c s :
  perform put c s (embed (fun s => s) (fun b q => Emit (h b) q) s p (fun _ => Return)) = perform (fun c b => put c (h b)) c s p.
Proof.
  rewrite (perform_embed put (fun s => s) h p (fun _ => Return) c s).
  destruct (perform _ c s p) as [[c' s'] [[]|e|]]; reflexivity.
Qed.
Theorem filter_no_trace {V} idx (d : V) (o : object (list V) (list V)) :
  leaves_no_trace o is_row -> leaves_no_trace (filter_o idx d o) is_row.
Proof.
  intro H. apply no_trace_of_calls. intros C put c s [x|] Hu; [|easy]. cbn [use_call filter_o o_exec].
  change (o_state (filter_o idx d o)) with (o_state o) in *.
  rewrite embed_id_rows. exact (stage_careful o (fun c b => put c (to_transformed x b)) H c s (to_filtered idx d x)).
Qed.

(** ** Grains. *)
Lemma perform_embed_rel {S B T D C} (put : C -> D -> C * res unit) (f : S -> T) (h : B -> D) (R : T -> S -> Prop) :
  (forall s, R (f s) s) -> forall (p : call S B) c t s, R t s ->
  let '(c', s', r) := perform (fun c b => put c (h b)) c s p in
  exists t', perform put c t (embed f (fun b q => Emit (h b) q) s p (fun _ => Return)) = (c', t', r) /\ R t' s'.
Proof.
  intros Hf p. induction p as [|e| |b q IH|s1 q IH]; intros c t s Ht; cbn [perform embed]; eauto.
  - destruct (put c (h b)) as [c' [[]|e|]]; [apply IH, Ht| |]; eauto.
  - apply IH, Hf.
Qed.

Section Grains.
  Context {K A B : Type}.
  Variables keqb klt : K -> K -> bool.
  Hypothesis Hord : key_order keqb klt.
  Variable o : object A B.
  Variable create : option (res (o_state o)).
  Notation gmap := (list (K * o_state o)).
  Notation gcall := (grain_call keqb klt o create).
  Notation gview := (view keqb create).

  (** What one row does, whoever throws: the inner call on the grain's own object, and nothing else. *)
  Lemma grain_row {C} (put : C -> K * B -> C * res unit) c (m : gmap) k a :
    match gview m k with
    | Some (Ok s) =>
        let '(c', s', r) := perform (fun c b => put c (k, b)) c s (o_exec o s a) in
        exists m', perform put c m (gcall m (k, a)) = (c', m', r) /\
                   (forall k', k_find keqb m' k' = if keqb k k' then Some s' else k_find keqb m k')
    | Some (Throw e) => perform put c m (gcall m (k, a)) = (c, m, Throw e)
    | Some UB => perform put c m (gcall m (k, a)) = (c, m, UB)
    | None => perform put c m (gcall m (k, a)) = (c, m, Throw RuntimeError)
    end.
  Proof using Hord.
    unfold view, grain_call. destruct (k_find keqb m k) as [s|] eqn:E.
    - pose proof (perform_embed_rel put (fun s' => k_set keqb klt m k s') (fun b => (k, b))
                    (fun t s' => forall k', k_find keqb t k' = if keqb k k' then Some s' else k_find keqb m k')
                    (fun s' k' => find_set keqb klt Hord m k s' k') (o_exec o s a) c m s) as H.
      apply H. intro k'. destruct (keqb k k') eqn:F; [|reflexivity].
      pose proof Hord as [Q _]. apply Q in F. now subst k'.
    - destruct create as [[s|e|]|]; cbn [ends perform]; try reflexivity.
      set (m1 := k_set keqb klt m k s).
      pose proof (perform_embed_rel put (fun s' => k_set keqb klt m1 k s') (fun b => (k, b))
                    (fun t s' => forall k', k_find keqb t k' = if keqb k k' then Some s' else k_find keqb m k')) as H.
      apply H.
      + intros s' k'. rewrite (find_set keqb klt Hord). destruct (keqb k k') eqn:F; [reflexivity|].
        unfold m1. rewrite (find_set keqb klt Hord). now rewrite F.
      + intro k'. unfold m1. apply (find_set keqb klt Hord).
  Qed.

  Definition alike (m1 m2 : gmap) : Prop := forall k, gview m1 k = gview m2 k.
  Lemma alike_row {C} (put : C -> K * B -> C * res unit) c m1 m2 x : alike m1 m2 ->
    let '(c1, n1, r1) := perform put c m1 (gcall m1 x) in
    let '(c2, n2, r2) := perform put c m2 (gcall m2 x) in
    c1 = c2 /\ r1 = r2 /\ alike n1 n2.
  Proof using Hord.
    intro H. destruct x as [k a]. pose proof (grain_row put c m1 k a) as H1. pose proof (grain_row put c m2 k a) as H2.
    rewrite (H k) in H1. destruct (gview m2 k) as [[s|e|]|].
    - destruct (perform (fun c b => put c (k, b)) c s (o_exec o s a)) as [[c' s'] r].
      destruct H1 as (n1 & -> & F1), H2 as (n2 & -> & F2). repeat split. intro k'. unfold view. rewrite F1, F2.
      specialize (H k'). unfold view in H. destruct (keqb k k'); [reflexivity|exact H].
    - rewrite H1, H2. repeat split; assumption.
    - rewrite H1, H2. repeat split; assumption.
    - rewrite H1, H2. repeat split; assumption.
  Qed.
  Theorem alike_session {C} m0 (put : C -> K * B -> C * res unit) us : Forall is_row us -> forall c m1 m2, alike m1 m2 ->
    let '(c1, n1, r1) := session (grain_o keqb klt o create m0) put c m1 us in
    let '(c2, n2, r2) := session (grain_o keqb klt o create m0) put c m2 us in
    c1 = c2 /\ r1 = r2 /\ alike n1 n2.
  Proof using Hord.
    induction 1 as [|[x|] us Hu F IH]; intros c m1 m2 H; cbn [session]; [easy| |easy].
    cbn [use_call grain_o o_exec o_state]. pose proof (alike_row put c m1 m2 x H) as E.
    destruct (perform put c m1 (gcall m1 x)) as [[c1 n1] r1]. destruct (perform put c m2 (gcall m2 x)) as [[c2 n2] r2].
    destruct E as (<- & <- & E). specialize (IH c1 n1 n2 E).
    destruct (session (grain_o keqb klt o create m0) put c1 n1 us) as [[c3 n3] r3].
    destruct (session (grain_o keqb klt o create m0) put c1 n2 us) as [[c4 n4] r4].
    destruct IH as (<- & <- & IH). auto.
  Qed.

  Lemma refused_row {C} (put : C -> K * B -> C * res unit) c m x : leaves_no_trace o is_row ->
    let '(_, m', r) := perform put c m (gcall m x) in succeeds r = false -> alike m' m.
  Proof using Hord.
    intro H. destruct x as [k a]. pose proof (grain_row put c m k a) as E.
    destruct (gview m k) as [[s|e|]|] eqn:V.
    - pose proof (stage_careful o (fun c b => put c (k, b)) H c s a) as N. unfold stage in N. cbn [fst snd] in N.
      destruct (perform (fun c b => put c (k, b)) c s (o_exec o s a)) as [[c' s'] r].
      destruct E as (m' & -> & F). intro R. rewrite (N R) in F. intro k'. unfold view in *. rewrite F.
      destruct (keqb k k') eqn:Q; [|reflexivity]. pose proof Hord as [Q1 _]. apply Q1 in Q. subst k'. now rewrite V.
    - rewrite E. intros _ k'. reflexivity.
    - rewrite E. intros _ k'. reflexivity.
    - rewrite E. intros _ k'. reflexivity.
  Qed.

  Theorem grain_no_trace m0 : leaves_no_trace o is_row ->
    forall C (put : C -> K * B -> C * res unit) c m us, Forall is_row us ->
    let '(_, m', rs) := session (grain_o keqb klt o create m0) put c m us in
    exists out m'', session (grain_o keqb klt o create m0) keep [] m (succeeded us rs) = (out, m'', map (fun _ => Ok tt) (succeeded us rs)) /\
    alike m' m''.
  Proof using Hord.
    intros H C put c m us F.
    assert (G : forall m1, alike m m1 ->
      let '(_, m', rs) := session (grain_o keqb klt o create m0) put c m us in
      exists out m'', session (grain_o keqb klt o create m0) keep [] m1 (succeeded us rs) = (out, m'', map (fun _ => Ok tt) (succeeded us rs)) /\
      alike m' m'').
    { revert c m. induction F as [|[x|] us Hu F IH]; intros c m m1 E; cbn [session]; [|  |easy].
      - exists [], m1. split; [reflexivity|exact E].
      - cbn [use_call grain_o o_exec].
        change (o_state (grain_o keqb klt o create m0)) with gmap in *.
        pose proof (refused_row put c m x H) as N.
        pose proof (alike_row put c m m1 x E) as Al.
        pose proof (perform_ok put (gcall m1 x) c m1) as Pk.
        destruct (perform put c m (gcall m x)) as [[c1 n1] r1]. destruct (perform put c m1 (gcall m1 x)) as [[c2 n2] r2].
        destruct Al as (<- & <- & Al). cbn [succeeded].
        destruct r1 as [[]|e|]; cbn [succeeds] in *.
        + destruct (Pk eq_refl) as [P1 P2]. specialize (IH c1 n1 n2 Al).
          destruct (session (grain_o keqb klt o create m0) put c1 n1 us) as [[c3 n3] rs]. cbn [succeeded succeeds session use_call map].
          change (o_exec (grain_o keqb klt o create m0) m1 x) with (gcall m1 x).
          change (o_state (grain_o keqb klt o create m0)) with gmap in *.
          destruct (perform keep [] m1 (gcall m1 x)) as [[l s'] q']. cbn [fst snd] in *. subst s' q'.
          destruct IH as (out & m'' & IH & A3). rewrite session_keep, IH. cbn [fst snd]. eauto.
        + assert (E1 : alike n1 m1) by (intro k; rewrite (N eq_refl k); apply E).
          specialize (IH c1 n1 m1 E1).
          destruct (session (grain_o keqb klt o create m0) put c1 n1 us) as [[c3 n3] rs]. cbn [succeeded succeeds]. exact IH.
        + assert (E1 : alike n1 m1) by (intro k; rewrite (N eq_refl k); apply E).
          specialize (IH c1 n1 m1 E1).
          destruct (session (grain_o keqb klt o create m0) put c1 n1 us) as [[c3 n3] rs]. cbn [succeeded succeeds]. exact IH. }
    exact (G m (fun k => eq_refl)).
  Qed.

  Theorem grain_isolation {C} (put : C -> K * B -> C * res unit) c m k a k' : k' <> k ->
    k_find keqb (snd (fst (perform put c m (gcall m (k, a))))) k' = k_find keqb m k'.
  Proof using Hord.
    intro N. pose proof (grain_row put c m k a) as E. destruct (gview m k) as [[s|e|]|].
    - destruct (perform (fun c b => put c (k, b)) c s (o_exec o s a)) as [[c' s'] r].
      destruct E as (m' & -> & F). cbn [fst snd]. rewrite F. destruct (keqb k k') eqn:Q; [|reflexivity].
      pose proof Hord as [Q1 _]. apply Q1 in Q. congruence.
    - rewrite E. reflexivity.
    - rewrite E. reflexivity.
    - rewrite E. reflexivity.
  Qed.
End Grains.
