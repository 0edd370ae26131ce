From Verif Require Import Base L_List M_Archive M_Codec M_Estimator M_Stats M_Pipeline M_Keyed S_Keyed L_Keyed M_Grain S_Grain M_Filter L_Grain L_Grain2 L_Grain3 L_Grain4 L_Filter.

Section SaveLoad.
  Context {K S : Type}.
  Variable keqb klt : K -> K -> bool.
  Hypothesis Hord : key_order keqb klt.
  Variable kenc : K -> list Z.
  Variable kdec : parser K.
  Variable save : S -> list Z.
  Variable load : parser S.
  Variable kok : K -> Prop.
  Variable sok : S -> Prop.
  Variable reload : S -> S.
  Hypothesis Hk : forall k rest, kok k -> kdec (kenc k ++ rest) = Ok (k, rest).
  Hypothesis Hs : forall s rest, sok s -> load (save s ++ rest) = Ok (reload s, rest) /\ sok (reload s).
  Notation gsave := (grain_save kenc save).
  Notation gload := (grain_load keqb klt kdec load).

  Lemma of_map_inv : forall (m : list (K * S)) c g, grain_of_map m c = Ok g -> m <> [] /\ g = mkGrain true m c.
  Proof using Type. intros [|p m] c g H; [discriminate|]. injection H as <-. split; [discriminate|reflexivity]. Qed.
  Lemma grain_cycles : forall (m : list (K * S)) (g : grain K S), map_ordered klt m -> Z.of_nat (length m) < 2 ^ 64 -> Forall (fun p => kok (fst p) /\ sok (snd p)) m ->
    grain_of_map m None = Ok g ->
    (exists bs, gsave g = Ok bs /\ forall further, gload (bs ++ further) = Ok (mkGrain true (map (fun p => (fst p, reload (snd p))) m) None, further)) /\
    forall n, cycles gsave gload n g = Ok (mkGrain true (map (fun p => (fst p, Nat.iter n reload (snd p))) m) None).
  Proof using Hord Hk Hs.
    intros m g H1 H2 H3 H4. apply of_map_inv in H4. destruct H4 as [H4 ->]. assert (F : fits klt kok sok m) by (repeat split; assumption). split.
    - destruct (plain_cycle keqb klt Hord kenc kdec save load kok sok reload Hk Hs m [] F) as [bs [E _]]. exists bs. split; [exact E|]. intros further.
      destruct (plain_cycle keqb klt Hord kenc kdec save load kok sok reload Hk Hs m further F) as [bs' [E' E2]]. rewrite E in E'. injection E' as <-. exact E2.
    - intros n. rewrite (plain_cycles keqb klt Hord kenc kdec save load kok sok reload Hk Hs n m F). rewrite (iter_map reload n m). reflexivity.
  Qed.
  Lemma grain_first_cycle : forall (m : list (K * S)) (s0 : S) (g : grain K S), map_ordered klt m -> Z.of_nat (length m) < 2 ^ 64 -> Forall (fun p => kok (fst p) /\ sok (snd p)) m ->
    sok s0 -> save s0 <> [] -> grain_of_map m (Some (Ok s0)) = Ok g ->
    exists g', cycles gsave gload 1 g = Ok g' /\ g_map g' = map (fun p => (fst p, reload (snd p))) m /\ g_create g' = Some (Ok (reload s0)).
  Proof using Hord Hk Hs.
    intros m s0 g H1 H2 H3 H5 H6 H4. apply of_map_inv in H4. destruct H4 as [H4 ->]. assert (F : fits klt kok sok m) by (repeat split; assumption).
    destruct (creating_cycle keqb klt Hord kenc kdec save load kok sok reload Hk Hs m s0 F H5 H6) as [bs [E1 E2]]. cbn [cycles]. rewrite E1. cbn [bind]. specialize (E2 []). rewrite app_nil_r in E2. rewrite E2. cbn [bind fst].
    eexists. split; [reflexivity|]. split; reflexivity.
  Qed.
  Lemma grain_second_cycle : (forall s, sok s -> save s <> []) -> forall (m : list (K * S)) (s0 : S) (g : grain K S), map_ordered klt m -> Z.of_nat (length m) < 2 ^ 64 -> Forall (fun p => kok (fst p) /\ sok (snd p)) m ->
    sok s0 -> grain_of_map m (Some (Ok s0)) = Ok g ->
    exists g', cycles gsave gload 2 g = Ok g' /\ g_map g' = [].
  Proof using Hord Hk Hs.
    intros Hne m s0 g H1 H2 H3 H5 H4. apply of_map_inv in H4. destruct H4 as [H4 ->]. assert (F : fits klt kok sok m) by (repeat split; assumption).
    destruct (creating_cycle keqb klt Hord kenc kdec save load kok sok reload Hk Hs m s0 F H5 (Hne s0 H5)) as [bs [E1 E2]]. cbn [cycles]. rewrite E1. cbn [bind]. specialize (E2 []). rewrite app_nil_r in E2. rewrite E2. cbn [bind fst].
    assert (H5' : sok (reload s0)) by (apply (Hs s0 [] H5)).
    destruct (forgetting_cycle keqb klt kenc kdec save load sok reload Hs (re reload m) (reload s0) H5' (Hne _ H5')) as [bs2 [E3 E4]]. rewrite E3. cbn [bind]. specialize (E4 []). rewrite app_nil_r in E4. rewrite E4. cbn [bind fst].
    eexists. split; reflexivity.
  Qed.
  Lemma grain_position : forall (m : list (K * S)) (s0 : S) (g : grain K S), map_ordered klt m -> Z.of_nat (length m) < 2 ^ 64 -> Forall (fun p => kok (fst p) /\ sok (snd p)) m ->
    sok s0 -> save s0 <> [] -> grain_of_map m (Some (Ok s0)) = Ok g ->
    exists bs, gsave g = Ok bs /\ forall further, exists g', gload (bs ++ further) = Ok (g', save s0 ++ further).
  Proof using Hord Hk Hs.
    intros m s0 g H1 H2 H3 H5 H6 H4. apply of_map_inv in H4. destruct H4 as [H4 ->]. assert (F : fits klt kok sok m) by (repeat split; assumption).
    destruct (creating_cycle keqb klt Hord kenc kdec save load kok sok reload Hk Hs m s0 F H5 H6) as [bs [E1 E2]]. exists bs. split; [exact E1|]. intros further. eexists. apply E2.
  Qed.
End SaveLoad.
Lemma grain_created_not_saved : forall (K S : Type) (keqb klt : K -> K -> bool) (kenc : K -> list Z) (kdec : parser K) (save : S -> list Z) (load : parser S) (sok : S -> Prop) (reload : S -> S),
  (forall s rest, sok s -> load (save s ++ rest) = Ok (reload s, rest) /\ sok (reload s)) ->
  forall (m : list (K * S)) (s0 : S), sok s0 -> save s0 <> [] ->
  exists g', cycles (grain_save kenc save) (grain_load keqb klt kdec load) 1 (mkGrain false m (Some (Ok s0))) = Ok g' /\ g_map g' = [].
Proof.
  intros K S keqb klt kenc kdec save load sok reload Hs m s0 H5 H6. destruct (forgetting_cycle keqb klt kenc kdec save load sok reload Hs m s0 H5 H6) as [bs2 [E3 E4]].
  cbn [cycles]. rewrite E3. cbn [bind]. specialize (E4 []). rewrite app_nil_r in E4. rewrite E4. cbn [bind fst]. eexists. split; reflexivity.
Qed.
Lemma grain_kept : forall (K S : Type) (keqb klt : K -> K -> bool), key_order keqb klt ->
  forall (kenc : K -> list Z) (kdec : parser K) (save : S -> list Z) (load : parser S) (kok : K -> Prop) (sok : S -> Prop),
  (forall k rest, kok k -> kdec (kenc k ++ rest) = Ok (k, rest)) ->
  (forall s rest, sok s -> load (save s ++ rest) = Ok (s, rest)) ->
  forall (m : list (K * S)) (g : grain K S), map_ordered klt m -> Z.of_nat (length m) < 2 ^ 64 -> Forall (fun p => kok (fst p) /\ sok (snd p)) m ->
  grain_of_map m None = Ok g ->
  forall n, cycles (grain_save kenc save) (grain_load keqb klt kdec load) n g = Ok g.
Proof.
  intros K S keqb klt Hord kenc kdec save load kok sok Hk Hs m g H1 H2 H3 H4 n.
  assert (Hs' : forall s rest, sok s -> load (save s ++ rest) = Ok ((fun x => x) s, rest) /\ sok ((fun x => x) s)) by (intros s rest H; split; [apply Hs; exact H|exact H]).
  destruct (grain_cycles keqb klt Hord kenc kdec save load kok sok (fun x => x) Hk Hs' m g H1 H2 H3 H4) as [_ C]. rewrite C. apply of_map_inv in H4. destruct H4 as [_ ->]. f_equal. f_equal.
  rewrite <- (map_id m) at 2. apply map_ext. intros [k s]. cbn [fst snd]. f_equal. induction n as [|n IH]; [reflexivity|]. exact IH.
Qed.

Section Training.
  Context {K S In Tr Ann : Type}.
  Variable keqb klt : K -> K -> bool.
  Hypothesis Hord : key_order keqb klt.
  Variable I : impl S In Tr.
  Variable s0 : S.
  Variable ann : S -> option Ann.
  Notation gimpl := (grain_impl keqb klt I s0 ann).
  Lemma complete_ordered : forall (m m' : list (K * est S)) (a : list (K * Ann)), map_ordered klt m -> ge_complete_all I ann m = Ok (m', a) -> map fst m' = map fst m.
  Proof using Type.
    intros m. induction m as [|[k e] m IH]; intros m' a Hm E; cbn [ge_complete_all] in E; [injection E as <- <-; reflexivity|]. inversion Hm; subst.
    destruct (complete_training I e) as [e' [u| |]]; try discriminate. cbn [bind] in E. destruct (ge_complete_all I ann m) as [[m2 a2]| |]; try discriminate. cbn [bind fst snd] in E. injection E as <- <-.
    cbn [map fst]. f_equal. eapply IH; [assumption|reflexivity].
  Qed.
  Lemma ordered_keys : forall (X Y : Type) (m : list (K * X)) (m' : list (K * Y)), map fst m' = map fst m -> map_ordered klt m -> map_ordered klt m'.
  Proof using Type.
    intros X Y. unfold map_ordered. induction m as [|[k x] m IH]; intros [|[k' y] m'] E H; try discriminate; [constructor|]. cbn [map fst] in E. injection E as -> E. inversion H as [|? ? H1 H2]; subst. constructor; [apply IH; assumption|].
    apply Forall_forall. intros [k1 y1] Hin. assert (Hk : List.In k1 (map fst m)) by (rewrite <- E; apply in_map_iff; now exists (k1, y1)). apply in_map_iff in Hk. destruct Hk as [[k2 x2] [E2 Hk]]. cbn [fst] in *. subst k2. rewrite Forall_forall in H2. apply (H2 _ Hk).
  Qed.
  Lemma trained_ordered : forall MX batches c e, (1 <= MX)%nat -> Forall (fun b => b <> []) batches ->
    train (gimpl c) (est_new (gest_new MX false)) batches = Ok e -> map_ordered klt (ge_map (e_impl e)) /\ e_state e = Completed /\ e_created e = false.
  Proof using Hord.
    intros MX batches c e Hm HF E. rewrite gtrain in E by assumption.
    pose proof (feed_ascending keqb klt Hord (ge_step I s0) (firstn MX (concat batches)) []) as Y.
    destruct (M_Pipeline.feed (keyed_exec keqb klt (ge_step I s0)) [] (firstn MX (concat batches))) as [o [m| |]]; try discriminate. cbn [snd bind] in E.
    specialize (Y o m (SSorted_nil _) eq_refl). destruct (ge_complete_all I ann m) as [[m' a]| |] eqn:Ea; try discriminate. cbn [bind fst snd] in E. injection E as <-. cbn [e_impl ge_map e_state e_created].
    split; [|split; reflexivity]. eapply ordered_keys; [eapply complete_ordered; [exact Y|exact Ea]|exact Y].
  Qed.
  Lemma gtrain_transformers : forall MX batches (c : option (res Tr)) e (g : grain K Tr), (1 <= MX)%nat -> Forall (fun b => b <> []) batches ->
    train (gimpl c) (est_new (gest_new MX false)) batches = Ok e ->
    snd (create_transformer (gimpl c) e) = Ok g ->
    g_create g = c /\ map_ordered klt (g_map g) /\
    forall k, let rows := of_key keqb k (firstn MX (concat batches)) in
      (rows = [] -> ~ has_key k (g_map g)) /\
      (rows <> [] -> exists ek t, train_alone I s0 rows = Ok ek /\ snd (create_transformer I ek) = Ok t /\ List.In (k, t) (g_map g)).
  Proof using Hord.
    intros MX batches c e g Hm HF E Hc. pose proof (gtrain_own keqb klt Hord I s0 ann MX batches c e Hm HF E) as Own. destruct (trained_ordered MX batches c e Hm HF E) as [Ho [Es Ec]].
    unfold create_transformer at 1 in Hc. rewrite Es, Ec in Hc. cbn [i_create grain_impl] in Hc. unfold ge_create in Hc.
    destruct (ge_create_all I (ge_map (e_impl e))) as [[m ts]| |] eqn:Ea; try discriminate.
    destruct (create_all keqb klt I _ Ho m ts Ea) as [Hts C].
    assert (G : g_create g = c /\ g_map g = ts).
    { destruct ts as [|p ts]; [destruct c as [c|]; [|discriminate]|]; cbn [grain_of_create grain_of_map bind snd] in Hc; injection Hc as <-; split; reflexivity. }
    destruct G as [G1 G2]. rewrite G2. split; [exact G1|]. split; [exact Hts|]. intros k rows. specialize (C k). destruct (Own k) as [O1 O2]. fold rows in O1, O2. split; intros Hr.
    - destruct (O1 Hr) as [F1 _]. rewrite F1 in C. now apply (find_none keqb klt Hord).
    - destruct (O2 Hr) as [ek [T [F1 _]]]. rewrite F1 in C. destruct C as [t [C1 C2]]. exists ek, t. split; [exact T|]. split; [exact C1|]. now apply (find_In keqb klt Hord ts k t Hts).
  Qed.
  Lemma gtrain_nothing : forall (MX : nat) (e : est (gest K S Ann)),
    train (gimpl None) (est_new (gest_new MX false)) [] = Ok e -> snd (create_transformer (gimpl None) e) = Throw RuntimeError.
  Proof using Type.
    intros MX e H. unfold train, begin_training, est_new in H. cbn [e_state i_begin grain_impl e_impl] in H. unfold ge_begin, gest_new in H. cbn [ge_inference ge_remaining negb andb] in H.
    destruct (Nat.eqb MX 0); cbn [negb bind fit_all e_created] in H; injection H as <-; reflexivity.
  Qed.
End Training.

Lemma gtrain_annotations : forall (K P In A : Type) (keqb klt : K -> K -> bool), key_order keqb klt ->
  forall (pol : policy P In A) (mx MX : nat) (batches : list (list (K * In))) (e : est (gest K tonly A)),
  (1 <= mx)%nat -> (1 <= MX)%nat -> Forall (fun b => b <> []) batches ->
  train (grain_impl keqb klt (tonly_impl pol) (tonly_new pol mx true None) (fun s => t_ann s) None) (est_new (gest_new MX false)) batches = Ok e ->
  forall k, let rows := of_key keqb k (firstn MX (concat batches)) in
    match ge_ann (e_impl e) with
    | None => rows = []
    | Some l => (rows = [] -> k_find keqb l k = None) /\ (rows <> [] -> trained pol mx [rows] = Ok (k_find keqb l k) /\ k_find keqb l k <> None)
    end.
Proof.
  intros K P In A keqb klt Hord pol mx MX batches e Hmx HMX HF E k rows.
  destruct (gtrain_own keqb klt Hord (tonly_impl pol) (tonly_new pol mx true None) (fun s => t_ann s) MX batches None e HMX HF E k) as [O1 O2]. fold rows in O1, O2.
  assert (T : rows <> [] -> trained pol mx [rows] = Ok (match ge_ann (e_impl e) with Some l => k_find keqb l k | None => None end) /\ (match ge_ann (e_impl e) with Some l => k_find keqb l k | None => None end) <> None).
  { intros Hr. destruct (O2 Hr) as [ek [T1 [_ T2]]]. pose proof (train_alone_trained pol mx Hmx rows) as T3. rewrite T1 in T3. cbn [rmap bind] in T3.
    destruct rows as [|x l] eqn:Er; [congruence|]. rewrite <- Er in *. rewrite T2. split; [symmetry; exact T3|]. intros N. rewrite N in T3.
    assert (HB : Forall (fun b : list In => b <> []) [rows]) by (constructor; [rewrite Er; discriminate|constructor]).
    rewrite (L_Estimator.trained_eq pol mx Hmx [rows] HB) in T3. destruct (p_begin pol (p_init pol)) as [pb| |]; try discriminate. cbn [bind] in T3.
    destruct (if snd pb then _ else _) as [p'| |]; try discriminate. cbn [bind] in T3. destruct (p_complete pol p'); discriminate. }
  destruct (ge_ann (e_impl e)) as [l|].
  - split; [intros Hr; apply (O1 Hr); reflexivity|exact T].
  - destruct rows as [|x r]; [reflexivity|]. destruct T as [_ T]; [discriminate|congruence].
Qed.

Lemma Forall2_map_r : forall (X Y : Type) (R : X -> Y -> Prop) (f : X -> Y) l, Forall (fun x => R x (f x)) l -> Forall2 R l (map f l).
Proof. intros X Y R f l H. induction H; constructor; assumption. Qed.
Lemma filter_rows_spec : forall (V : Type) (idx : list nat) (d : V) (t : transformer (list V) (list V)) (rows : list (list V)),
  Forall (fun x => Forall (fun i => (i < length x)%nat) idx) rows ->
  exists sel, Forall2 (selected idx) rows sel /\
    forall s, row_by_row (t_exec (filter_tr idx d t)) s rows =
      (map (fun p => map (fun o => fst p ++ o) (snd p)) (combine rows (fst (row_by_row (t_exec t) s sel))), snd (row_by_row (t_exec t) s sel)).
Proof.
  intros V idx d t rows H. exists (map (to_filtered idx d) rows). split; [|intros s; apply filter_rows].
  apply Forall2_map_r. eapply Forall_impl; [|exact H]. intros x Hx. now apply sel_selected.
Qed.
Lemma filter_train_spec : forall (V : Type) (idx : list nat) (d : V) (S Tr : Type) (I : impl S (list V) Tr),
  (forall s xs, snd (i_fit I s xs) <> Ok FitReset) ->
  forall (batches : list (list (list V))) (s0 : S),
  Forall (fun b => b <> []) batches -> Forall (fun x => Forall (fun i => (i < length x)%nat) idx) (concat batches) ->
  exists sel, Forall2 (selected idx) (concat batches) sel /\
    rmap e_impl (train (filter_impl idx d I) (est_new (est_new s0)) batches) = train_alone I s0 sel.
Proof.
  intros V idx d S Tr I HR batches s0 HF H. exists (map (to_filtered idx d) (concat batches)). split; [|now apply filter_train].
  apply Forall2_map_r. eapply Forall_impl; [|exact H]. intros x Hx. now apply sel_selected.
Qed.
Lemma grain_ctors : forall (K S : Type) (m : list (K * S)) (c : option (res S)),
  (m = [] -> grain_of_map m c = Throw InvalidArgument) /\ (m <> [] -> grain_of_map m c = Ok (mkGrain true m c)) /\
  @grain_of_create K S None = Throw InvalidArgument.
Proof. intros K S [|p m] c; split; try split; intros; try reflexivity; try congruence; try discriminate. Qed.
