(** The invariant of concurrent executions of the C interface. *)
From Verif Require Import Base M_PointerTable M_PtConc M_Estimator M_CApi S_CApi L_PointerTable L_CApi L_CApi2 L_CApi3 M_Conc S_PtConc S_Conc L_PtConc L_Conc L_Conc2 L_Conc3.
Open Scope Z_scope.

Section Main.
  Context {S In Tr Arg Val : Type}.
  Variable I : impl S In Tr.
  Variable construct : res S.
  Variable value_of : Arg -> res In.
  Variable save_tr : Tr -> res (list Z).
  Variable load_tr : list Z -> res Tr.
  Variable exec_one : Tr -> In -> Tr * res Val.
  Variable exec_many : Tr -> In -> Tr * res (list (list Z)).
  Variable flush_many : Tr -> Tr * res (list (list Z)).
  Variable what : exn -> list Z.
  Hypothesis Hdef : methods_defined I construct value_of save_tr load_tr exec_one exec_many flush_many.
  Notation obj := (@obj S Tr).
  Notation call := (@call Arg).
  Notation answer := (@answer Val).
  Notation ledger := (@ledger S Tr).
  Notation prog := (@prog S Tr Val).
  Notation place := (@place S Tr Val).
  Notation conf := (@conf S Tr Val).
  Notation event := (@event Arg Val).
  Notation book := (@book S Tr Arg).
  Notation heap := (list (Z * obj)).
  Notation PROGRAM := (@program S In Tr Arg Val I construct value_of save_tr load_tr exec_one exec_many flush_many what).
  Notation DOES := (@does S In Tr Arg Val I construct value_of save_tr load_tr exec_one exec_many flush_many).
  Notation CSTEP := (@cstep S In Tr Arg Val I construct value_of save_tr load_tr exec_one exec_many flush_many what).
  Notation CRUNS := (@cruns S In Tr Arg Val I construct value_of save_tr load_tr exec_one exec_many flush_many what).
  Notation AFTER := (@after S In Tr Arg Val I construct value_of save_tr load_tr exec_one exec_many flush_many what).
  Notation BOOK_AFTER := (@book_after S In Tr Arg Val I construct value_of save_tr load_tr exec_one exec_many flush_many what).
  Notation DISCIPLINED := (@disciplined S In Tr Arg Val I construct value_of save_tr load_tr exec_one exec_many flush_many what).
  Notation ANSWERED := (@answered S In Tr Arg Val I construct value_of save_tr load_tr exec_one exec_many flush_many what).
  Notation INV := (@inv S Tr (never_lost I construct)).

  (** A call of allowed things that runs alone returns. *)
  Lemma alone_returns er cl (M : ledger) t hp t' hp' x : INV (mkWorld t hp O) M -> careful_call M cl -> subs (t, hp, PROGRAM er cl) (t', hp', Ret x) -> returned x.
  Proof using Hdef.
    intros Hi Hc R. destruct (completed I construct value_of save_tr load_tr exec_one exec_many flush_many what er cl M t hp t' hp' x O Hi R) as [G _].
    pose proof (careful_proper I construct value_of save_tr load_tr exec_one exec_many flush_many Hdef er M cl Hc) as P.
    destruct (snd (DOES er M cl)) as [e| |a|o|o n|e|]; cbn [proper answers] in *; try contradiction.
    - destruct G as (h & -> & _). exact Logic.I.
    - rewrite G. exact Logic.I.
    - rewrite G. exact Logic.I.
    - destruct G as (h & -> & _). exact Logic.I.
    - destruct G as (a & -> & _). exact Logic.I.
  Qed.

  (** What a thread has to do before it is out of the pointer table. *)
  Definition now (q : place) : option prog :=
    match q with
    | Idle => None
    | At p => Some p
    | In_table (Entered o) k | In_table (Waiting o) k | In_table (Inside o) k => Some (Table o k)
    | In_table (Chosen p _) k => Some (Table (TAdd p) k)
    | In_table (Erasing h) k => Some (Table (TRemove h) k)
    | In_table (Leaving r) k | In_table (Left r) k => Some (k r)
    end.

  (** The pointer table of the execution is one of M_PtConc. *)
  Definition in_table (q : place) : option tpc := match q with In_table q _ => Some q | _ => None end.
  Definition shown (c : conf) (d : tconf) : Prop :=
    tc_lock d = c_lock c /\ tc_table d = c_table c /\ forall i, tc_threads d i = in_table (c_threads c i).
  Lemma step_shown c es c' d : CSTEP c es c' -> shown c d -> exists ts d', truns d ts d' /\ shown c' d'.
  Proof using.
    intros St (E1 & E2 & E3). inversion St as [c0 i er f H|c0 i p p' hp' H M|c0 i o k H|c0 i q q' k l' t' H M|c0 i r k H|c0 i x H]; subst; clear St.
    - exists [], d. split; [constructor|]. split; [exact E1|]. split; [exact E2|]. cbn [c_threads]. intros j. rewrite E3. destruct (Nat.eq_dec j i) as [->|N]; [rewrite put_same, H; reflexivity|rewrite put_other by exact N; reflexivity].
    - exists [], d. split; [constructor|]. split; [exact E1|]. split; [exact E2|]. cbn [c_threads]. intros j. rewrite E3. destruct (Nat.eq_dec j i) as [->|N]; [rewrite put_same, H; reflexivity|rewrite put_other by exact N; reflexivity].
    - exists [Call i o], (mkTconf (tc_lock d) (tc_table d) (put (tc_threads d) i (Some (Entered o)))). split; [apply truns_one; constructor; rewrite E3, H; reflexivity|].
      split; [exact E1|]. split; [exact E2|]. cbn [c_threads tc_threads]. intros j. destruct (Nat.eq_dec j i) as [->|N]; [rewrite !put_same; reflexivity|rewrite !(put_other _ _ _ _ N); apply E3].
    - exists [], (mkTconf l' t' (put (tc_threads d) i (Some q'))). split; [apply truns_one; eapply t_inner; [rewrite E3, H; reflexivity|rewrite E1, E2; exact M]|].
      split; [reflexivity|]. split; [reflexivity|]. cbn [c_threads tc_threads]. intros j. destruct (Nat.eq_dec j i) as [->|N]; [rewrite !put_same; reflexivity|rewrite !(put_other _ _ _ _ N); apply E3].
    - exists [Return i r], (mkTconf (tc_lock d) (tc_table d) (put (tc_threads d) i None)). split; [apply truns_one; constructor; rewrite E3, H; reflexivity|].
      split; [exact E1|]. split; [exact E2|]. cbn [c_threads tc_threads]. intros j. destruct (Nat.eq_dec j i) as [->|N]; [rewrite !put_same; reflexivity|rewrite !(put_other _ _ _ _ N); apply E3].
    - exists [], d. split; [constructor|]. split; [exact E1|]. split; [exact E2|]. cbn [c_threads]. intros j. rewrite E3. destruct (Nat.eq_dec j i) as [->|N]; [rewrite put_same, H; reflexivity|rewrite put_other by exact N; reflexivity].
  Qed.
  Lemma runs_shown c es c' : CRUNS c es c' -> forall d ts, truns tc_start ts d -> shown c d -> exists ts' d', truns tc_start ts' d' /\ shown c' d'.
  Proof using.
    induction 1 as [c|c es es' c' c2 R IH St]; intros d ts T Sh; [eauto|]. destruct (IH d ts T Sh) as (ts1 & d1 & T1 & Sh1).
    destruct (step_shown _ _ _ _ St Sh1) as (ts2 & d2 & T2 & Sh2). exists (ts1 ++ ts2), d2. split; [eapply truns_trans; eassumption|exact Sh2].
  Qed.
  Lemma table_facts es c : CRUNS c_start es c ->
    (forall i, c_lock c = Some i <-> exists q k, c_threads c i = In_table q k /\ section q = true) /\ (forall i q k, c_threads c i = In_table q k -> knows (c_table c) q).
  Proof using.
    intros R. destruct (runs_shown _ _ _ R tc_start [] (truns_none _)) as (ts & d & T & E1 & E2 & E3); [split; [reflexivity|split; reflexivity]|].
    destruct (runs_tinv _ _ _ T start_tinv) as [V K _]. split.
    - intros i. rewrite <- E1, V. split.
      + intros (q & Q1 & Q2). rewrite E3 in Q1. destruct (c_threads c i) as [|p|q0 k]; cbn [in_table] in Q1; try discriminate. injection Q1 as ->. eauto.
      + intros (q & k & Q1 & Q2). exists q. rewrite E3, Q1. auto.
    - intros i q k Q. rewrite <- E2. apply (K i). rewrite E3, Q. reflexivity.
  Qed.

  (** *** The invariant *)
  Notation parts := (option nat -> ptable * heap).
  Definition thread_ok (x : option (bool * call * ledger)) (q : place) (w : ptable * heap) : Prop :=
    match x with
    | None => q = Idle /\ w = ([], [])
    | Some (er, cl, M) => exists (p : prog) (t : ptable) (hp : heap) (H : option Z),
        now q = Some p /\ INV (mkWorld t hp O) M /\ careful_call M cl /\ subs (t, hp, PROGRAM er cl) (fst w, snd w, p) /\
        asks H (ends er cl) p /\ tied H (fst w) /\ (ends er cl = false -> kept t (fst w) hp (snd w))
    end.
  Record J (b : book) (c : conf) (Q : parts) : Prop := mkJ {
    j_tkeys : NoDup (map fst (c_table c));
    j_hkeys : NoDup (map fst (c_heap c));
    j_ptkeys : forall q, NoDup (map fst (fst (Q q)));
    j_phkeys : forall q, NoDup (map fst (snd (Q q)));
    j_table : parted (pt_find (c_table c)) (fun q => pt_find (fst (Q q)));
    j_heap : parted (h_find (c_heap c)) (fun q => h_find (snd (Q q)));
    j_pool : INV (mkWorld (fst (Q None)) (snd (Q None)) O) (unused b);
    j_threads : forall i, thread_ok (begun b i) (c_threads c i) (Q (Some i)) }.
  Definition set_part (Q : parts) (q : option nat) (w : ptable * heap) : parts :=
    fun q' => match q, q' with None, None => w | Some i, Some j => if Nat.eqb j i then w else Q q' | _, _ => Q q' end.
  Lemma set_same Q q w : set_part Q q w q = w.
  Proof using. unfold set_part. destruct q as [i|]; [rewrite Nat.eqb_refl|]; reflexivity. Qed.
  Lemma set_other Q q w q' : q' <> q -> set_part Q q w q' = Q q'.
  Proof using. unfold set_part. intros N. destruct q as [i|], q' as [j|]; try reflexivity; [|congruence]. destruct (Nat.eqb_spec j i) as [->|]; [congruence|reflexivity]. Qed.
  Lemma same_part (q q' : option nat) : {q' = q} + {q' <> q}.
  Proof using. decide equality. apply Nat.eq_dec. Qed.

  Lemma start_J : J new_book c_start (fun _ => ([], [])).
  Proof using.
    constructor; cbn; try (constructor; fail); try (intros; constructor; fail).
    - split; [intros k v; split; [discriminate|intros (q & E); discriminate]|intros; discriminate].
    - split; [intros k v; split; [discriminate|intros (q & E); discriminate]|intros; discriminate].
    - exact (inv_none _ O).
    - intros i. split; reflexivity.
  Qed.

  (** A thread changes its own part. *)
  Lemma J_own b c Q i q' k' T' H' w' : J b c Q -> begun b i <> None ->
    (forall M, begun b i = Some M -> thread_ok (begun b i) q' w') ->
    NoDup (map fst T') -> NoDup (map fst H') -> NoDup (map fst (fst w')) -> NoDup (map fst (snd w')) ->
    parted (pt_find T') (fun q => pt_find (fst (set_part Q (Some i) w' q))) -> parted (h_find H') (fun q => h_find (snd (set_part Q (Some i) w' q))) ->
    J b (mkConf k' T' H' (put (c_threads c) i q')) (set_part Q (Some i) w').
  Proof using.
    intros [A1 A2 A3 A4 A5 A6 A7 A8] B0 Th N1 N2 N3 N4 P1 P2. constructor; cbn [c_table c_heap c_threads]; try assumption.
    - intros q. destruct (same_part (Some i) q) as [->|N]; [rewrite set_same; exact N3|rewrite (set_other _ _ _ _ N); apply A3].
    - intros q. destruct (same_part (Some i) q) as [->|N]; [rewrite set_same; exact N4|rewrite (set_other _ _ _ _ N); apply A4].
    - intros j. destruct (Nat.eq_dec j i) as [->|N].
      + rewrite put_same, set_same. destruct (begun b i) as [M|] eqn:E; [exact (Th M eq_refl)|contradiction].
      + rewrite put_other by exact N. rewrite set_other by congruence. apply A8.
  Qed.
  (** Only the place of a thread changes, and what it has to do stays the same. *)
  Lemma J_stay b c Q i q' k' : J b c Q -> now (c_threads c i) = now q' -> now q' <> None ->
    J b (mkConf k' (c_table c) (c_heap c) (put (c_threads c) i q')) Q.
  Proof using.
    intros [A1 A2 A3 A4 A5 A6 A7 A8] E N0. constructor; cbn [c_table c_heap c_threads]; try assumption.
    intros j. destruct (Nat.eq_dec j i) as [->|N]; [|rewrite put_other by exact N; apply A8].
    rewrite put_same. specialize (A8 i). unfold thread_ok in *. destruct (begun b i) as [[[er cl] M]|]; [|destruct A8 as [A8 _]; rewrite A8 in E; cbn [now] in E; congruence].
    destruct A8 as (p & t & hp & H & X & Y). exists p, t, hp, H. split; [congruence|exact Y].
  Qed.

  (** A step of the part alone. *)
  Lemma thread_step er cl M q q' w w' p p' : thread_ok (Some (er, cl, M)) q w -> now q = Some p -> sub (fst w, snd w, p) (fst w', snd w', p') -> now q' = Some p' ->
    thread_ok (Some (er, cl, M)) q' w'.
  Proof using.
    intros (p0 & t & hp & H & X & Hi & Hc & R & A & Ti & Ke) E Q E'. assert (p0 = p) by congruence. subst p0.
    destruct (sub_asks H (ends er cl) _ _ _ _ _ _ A Ti Q) as (H1 & A1 & T1 & K1).
    exists p', t, hp, H1. split; [exact E'|]. split; [exact Hi|]. split; [exact Hc|]. split; [exact (subs_more _ _ _ R Q)|]. split; [exact A1|]. split; [exact T1|].
    intros Ee. destruct (Ke Ee) as [K2 K3]. destruct (K1 Ee) as [K4 K5]. split; auto.
  Qed.
  Lemma thread_never er cl M q w p w' x : thread_ok (Some (er, cl, M)) q w -> now q = Some p -> sub (fst w, snd w, p) (fst w', snd w', Ret x) -> returned x.
  Proof using Hdef.
    intros (p0 & t & hp & H & X & Hi & Hc & R & _) E Q. assert (p0 = p) by congruence. subst p0.
    exact (alone_returns er cl M t hp _ _ _ Hi Hc (subs_more _ _ _ R Q)).
  Qed.
  Lemma begun_at b c Q i p : J b c Q -> now (c_threads c i) = Some p -> exists er cl M, begun b i = Some (er, cl, M) /\ thread_ok (Some (er, cl, M)) (c_threads c i) (Q (Some i)).
  Proof using.
    intros Hj E. pose proof (j_threads _ _ _ Hj i) as Th. destruct (begun b i) as [[[er cl] M]|]; [eauto|]. destruct Th as [Th _]. rewrite Th in E. discriminate.
  Qed.

  (** A thread uses only what is its own. *)
  Lemma own_object b c Q i a p : J b c Q -> c_threads c i = At p -> touches (At p) = Some a -> h_find (snd (Q (Some i))) a <> None.
  Proof using Hdef.
    intros Hj E Ta F. assert (N : now (c_threads c i) = Some p) by (rewrite E; reflexivity).
    destruct (begun_at _ _ _ _ _ Hj N) as (er & cl & M & _ & Th).
    assert (X : sub (fst (Q (Some i)), snd (Q (Some i)), p) (fst (Q (Some i)), snd (Q (Some i)), Ret CUB)).
    { apply sub_heap. destruct p as [x|o k|b0 k|b0 o k|b0 k|o k]; cbn [touches] in Ta; try discriminate; injection Ta as ->; constructor; exact F. }
    exact (thread_never _ _ _ _ _ _ (Q (Some i)) CUB Th N X).
  Qed.
  Lemma own_handle b c Q i h p : J b c Q -> now (c_threads c i) = Some p -> (exists k, p = Table (TGet h) k \/ p = Table (TRemove h) k) ->
    h <> 0 /\ exists v, pt_find (fst (Q (Some i))) h = Some v /\ pt_find (c_table c) h = Some v.
  Proof using.
    intros Hj N (k & Hp). destruct (begun_at _ _ _ _ _ Hj N) as (er & cl & M & _ & (p0 & t & hp & H & X & _ & _ & _ & A & Ti & _)). assert (p0 = p) by congruence. subst p0.
    assert (Y : h <> 0 /\ H = Some h) by (destruct Hp as [-> | ->]; cbn [asks] in A; intuition). destruct Y as [Y1 Y2]. split; [exact Y1|].
    destruct (pt_find (fst (Q (Some i))) h) as [v|] eqn:F; [|destruct (Ti h Y2 F)]. exists v. split; [reflexivity|]. exact (parted_find _ _ (Some i) _ _ (j_table _ _ _ Hj) F).
  Qed.

  Lemma pt_nodup_cons (t : ptable) d p : NoDup (map fst t) -> pt_find t d = None -> NoDup (map fst ((d, p) :: t)).
  Proof using. intros N F. cbn [map fst]. constructor; [exact (pt_find_none_notin _ _ F)|exact N]. Qed.
  Lemma h_nodup_cons (t : heap) d p : NoDup (map fst t) -> h_find t d = None -> NoDup (map fst ((d, p) :: t)).
  Proof using. intros N F. cbn [map fst]. constructor; [exact (h_find_notin _ _ F)|exact N]. Qed.

  Lemma parted_same {A} (F : Z -> option A) (G G' : option nat -> Z -> option A) : parted F G -> (forall q k, G' q k = G q k) -> parted F G'.
  Proof using.
    intros [P1 P2] E. split.
    - intros k v. rewrite P1. split; intros (q & X); exists q; rewrite E in *; exact X.
    - intros k q q' v v'. rewrite !E. apply P2.
  Qed.
  Lemma parted_heap_only (F : Z -> option Z) (Q : parts) i w' : parted F (fun q => pt_find (fst (Q q))) -> fst w' = fst (Q (Some i)) -> parted F (fun q => pt_find (fst (set_part Q (Some i) w' q))).
  Proof using.
    intros P E. apply (parted_same _ _ _ P). intros q k. destruct (same_part (Some i) q) as [->|N]; [rewrite set_same, E; reflexivity|rewrite (set_other _ _ _ _ N); reflexivity].
  Qed.
  Lemma parted_table_only (F : Z -> option obj) (Q : parts) i w' : parted F (fun q => h_find (snd (Q q))) -> snd w' = snd (Q (Some i)) -> parted F (fun q => h_find (snd (set_part Q (Some i) w' q))).
  Proof using.
    intros P E. apply (parted_same _ _ _ P). intros q k. destruct (same_part (Some i) q) as [->|N]; [rewrite set_same, E; reflexivity|rewrite (set_other _ _ _ _ N); reflexivity].
  Qed.

  (** *** Steps *)
  Lemma heap_step_J b c Q i p p' hp' : J b c Q -> c_threads c i = At p -> heap_move (c_heap c, p) (hp', p') ->
    exists Q', J b (mkConf (c_lock c) (c_table c) hp' (put (c_threads c) i (At p'))) Q'.
  Proof using Hdef.
    intros Hj E M. assert (N : now (c_threads c i) = Some p) by (rewrite E; reflexivity).
    destruct (begun_at _ _ _ _ _ Hj N) as (er & cl & L & Eb & Th).
    assert (B0 : begun b i <> None) by congruence.
    pose proof (j_heap _ _ _ Hj) as PH. pose proof (j_table _ _ _ Hj) as PT.
    pose proof (j_phkeys _ _ _ Hj (Some i)) as NH. pose proof (j_ptkeys _ _ _ Hj (Some i)) as NT. pose proof (j_hkeys _ _ _ Hj) as GH. pose proof (j_tkeys _ _ _ Hj) as GT.
    (* the same step of the part gives the invariant *)
    assert (Go : forall hp1, heap_move (snd (Q (Some i)), p) (hp1, p') -> NoDup (map fst hp') -> NoDup (map fst hp1) ->
      parted (h_find hp') (fun q => h_find (snd (set_part Q (Some i) (fst (Q (Some i)), hp1) q))) ->
      exists Q', J b (mkConf (c_lock c) (c_table c) hp' (put (c_threads c) i (At p'))) Q').
    { intros hp1 M1 N1 N2 P1. exists (set_part Q (Some i) (fst (Q (Some i)), hp1)). apply J_own; try assumption.
      - intros M0 _. rewrite Eb. eapply thread_step; [exact Th|exact N| |reflexivity]. cbn [fst snd]. apply sub_heap. exact M1.
      - apply parted_heap_only; [exact PT|reflexivity]. }
    assert (Up : forall hp1 a x, (h_find (snd (Q (Some i))) a <> None \/ h_find (c_heap c) a = None) ->
      (forall k, h_find hp' k = if k =? a then x else h_find (c_heap c) k) -> (forall k, h_find hp1 k = if k =? a then x else h_find (snd (Q (Some i))) k) ->
      parted (h_find hp') (fun q => h_find (snd (set_part Q (Some i) (fst (Q (Some i)), hp1) q)))).
    { intros hp1 a x O1 E1 E2. apply (parted_update _ _ _ _ (Some i) a x PH O1 E1).
      - intros k. rewrite set_same. cbn [snd]. apply E2.
      - intros q k Nq. rewrite (set_other _ _ _ _ Nq). reflexivity. }
    pose proof (fun a => own_object b c Q i a p Hj E) as Own.
    inversion M as [h0 o k a A0 F|h0 a k o F|h0 a k F|h0 a o x k F|h0 a o k F|h0 a x k F|h0 a k F]; subst; cbn [touches] in Own.
    - pose proof (parted_none _ _ (Some i) _ PH F) as F1. cbv beta in F1.
      eapply Go; [apply do_new; assumption|apply h_nodup_cons; assumption|apply h_nodup_cons; assumption|].
      apply (Up _ a (Some o)); [right; exact F| |]; intros k0; cbn [h_find]; (destruct (Z.eqb_spec a k0) as [X|X]; destruct (Z.eqb_spec k0 a) as [Y|Y]; congruence).
    - specialize (Own a eq_refl). destruct (h_find (snd (Q (Some i))) a) as [o1|] eqn:F1; [|contradiction].
      pose proof (parted_find _ _ (Some i) _ _ PH F1) as F2. assert (o1 = o) by congruence. subst o1.
      eapply Go; [apply do_read; exact F1|exact GH|exact NH|]. apply parted_table_only; [exact PH|reflexivity].
    - specialize (Own a eq_refl). destruct (Own (parted_none _ _ (Some i) _ PH F)).
    - specialize (Own a eq_refl). destruct (h_find (snd (Q (Some i))) a) as [o1|] eqn:F1; [|contradiction].
      eapply Go; [apply (do_write _ _ _ _ _ F1)|rewrite h_store_keys; exact GH|rewrite h_store_keys; exact NH|].
      apply (Up _ a (Some o)); [left; congruence| |]; intros k0; [rewrite (h_find_store _ _ _ _ _ F)|rewrite (h_find_store _ _ _ _ _ F1)]; reflexivity.
    - specialize (Own a eq_refl). destruct (Own (parted_none _ _ (Some i) _ PH F)).
    - specialize (Own a eq_refl). destruct (h_find (snd (Q (Some i))) a) as [o1|] eqn:F1; [|contradiction].
      eapply Go; [apply (do_delete _ _ _ _ F1)|apply h_free_keys; exact GH|apply h_free_keys; exact NH|].
      apply (Up _ a None); [left; congruence| |]; intros k0; apply h_find_free; assumption.
    - specialize (Own a eq_refl). destruct (Own (parted_none _ _ (Some i) _ PH F)).
  Qed.

  Lemma table_step_J b c Q i q q' k k' t' : J b c Q -> c_threads c i = In_table q k -> knows (c_table c) q -> table_move i (c_lock c, c_table c, q) (k', t', q') ->
    exists Q', J b (mkConf k' t' (c_heap c) (put (c_threads c) i (In_table q' k))) Q'.
  Proof using.
    intros Hj E Kn M.
    pose proof (j_heap _ _ _ Hj) as PH. pose proof (j_table _ _ _ Hj) as PT.
    pose proof (j_phkeys _ _ _ Hj (Some i)) as NH. pose proof (j_ptkeys _ _ _ Hj (Some i)) as NT. pose proof (j_hkeys _ _ _ Hj) as GH. pose proof (j_tkeys _ _ _ Hj) as GT.
    assert (Go : forall p p' t1, now (c_threads c i) = Some p -> sub (fst (Q (Some i)), snd (Q (Some i)), p) (t1, snd (Q (Some i)), p') -> now (In_table q' k) = Some p' ->
      NoDup (map fst t') -> NoDup (map fst t1) -> parted (pt_find t') (fun x => pt_find (fst (set_part Q (Some i) (t1, snd (Q (Some i))) x))) ->
      exists Q', J b (mkConf k' t' (c_heap c) (put (c_threads c) i (In_table q' k))) Q').
    { intros p p' t1 N Sb N' N1 N2 P1. destruct (begun_at _ _ _ _ _ Hj N) as (er & cl & L & Eb & Th). exists (set_part Q (Some i) (t1, snd (Q (Some i)))). apply J_own; try assumption.
      - congruence.
      - intros M0 _. rewrite Eb. eapply thread_step; [exact Th|exact N| |exact N']. cbn [fst snd]. exact Sb.
      - apply parted_table_only; [exact PH|reflexivity]. }
    assert (St : t' = c_table c -> now (c_threads c i) = now (In_table q' k) -> exists Q', J b (mkConf k' t' (c_heap c) (put (c_threads c) i (In_table q' k))) Q').
    { intros -> X. exists Q. apply J_stay; [exact Hj|exact X|]. destruct q'; discriminate. }
    assert (Nochange : parted (pt_find (c_table c)) (fun x => pt_find (fst (set_part Q (Some i) (fst (Q (Some i)), snd (Q (Some i))) x)))) by (apply parted_heap_only; [exact PT|reflexivity]).
    inversion M; subst; cbn [knows] in Kn.
    - eapply Go; [rewrite E; reflexivity|apply sub_null; assumption|reflexivity|exact GT|exact NT|exact Nochange].
    - apply St; [reflexivity|rewrite E; reflexivity].
    - apply St; [reflexivity|rewrite E; reflexivity].
    - apply St; [reflexivity|rewrite E; reflexivity].
    - apply St; [reflexivity|rewrite E; reflexivity].
    - destruct Kn as (K1 & K2 & K3). pose proof (parted_none _ _ (Some i) _ PT K3) as K4. cbv beta in K4.
      eapply Go; [rewrite E; reflexivity|apply sub_add; [exact K1|exact K2|exact K4]|reflexivity|apply pt_nodup_cons; assumption|apply pt_nodup_cons; assumption|].
      apply (parted_update _ _ _ _ (Some i) d (Some p) PT); [right; exact K3| | |].
      + intros x. cbn [pt_find]. destruct (Z.eqb_spec d x) as [X|X]; destruct (Z.eqb_spec x d) as [Y|Y]; congruence.
      + intros x. rewrite set_same. cbn [fst pt_find]. destruct (Z.eqb_spec d x) as [X|X]; destruct (Z.eqb_spec x d) as [Y|Y]; congruence.
      + intros x y Nx. rewrite (set_other _ _ _ _ Nx). reflexivity.
    - assert (N : now (c_threads c i) = Some (Table (TGet h) k)) by (rewrite E; reflexivity).
      destruct (own_handle b c Q i h _ Hj N (ex_intro _ k (or_introl eq_refl))) as (Hn & v & V1 & V2).
      eapply Go; [exact N|apply sub_get; exact Hn|cbn [now]; rewrite V1, V2; reflexivity|exact GT|exact NT|exact Nochange].
    - assert (N : now (c_threads c i) = Some (Table (TRemove h) k)) by (rewrite E; reflexivity).
      destruct (own_handle b c Q i h _ Hj N (ex_intro _ k (or_intror eq_refl))) as (Hn & v & V1 & V2). congruence.
    - apply St; [reflexivity|rewrite E; reflexivity].
    - assert (N : now (c_threads c i) = Some (Table (TRemove h) k)) by (rewrite E; reflexivity).
      destruct (own_handle b c Q i h _ Hj N (ex_intro _ k (or_intror eq_refl))) as (Hn & v & V1 & V2).
      eapply Go; [exact N|eapply sub_remove; [exact Hn|exact V1]|reflexivity|apply pt_erase_nodup; exact GT|apply pt_erase_nodup; exact NT|].
      apply (parted_update _ _ _ _ (Some i) h None PT); [left; congruence| | |].
      + intros x. rewrite pt_find_erase by exact GT. destruct (Z.eqb_spec h x) as [X|X]; destruct (Z.eqb_spec x h) as [Y|Y]; congruence.
      + intros x. rewrite set_same. cbn [fst]. rewrite pt_find_erase by exact NT. destruct (Z.eqb_spec h x) as [X|X]; destruct (Z.eqb_spec x h) as [Y|Y]; congruence.
      + intros x y Nx. rewrite (set_other _ _ _ _ Nx). reflexivity.
    - apply St; [reflexivity|rewrite E; reflexivity].
  Qed.

  Lemma begin_J b c Q i er cl : J b c Q -> c_threads c i = Idle -> allowed (unused b) cl ->
    begun b i = None /\ exists Q', J (AFTER b (Begins i er cl)) (mkConf (c_lock c) (c_table c) (c_heap c) (put (c_threads c) i (At (PROGRAM er cl)))) Q'.
  Proof using.
    intros Hj E A. pose proof (j_threads _ _ _ Hj i) as Th. assert (B0 : begun b i = None /\ Q (Some i) = ([], [])).
    { destruct (begun b i) as [[[er0 cl0] M0]|]; [|destruct Th as [_ Th]; auto]. destruct Th as (p & t & hp & H & X & _). rewrite E in X. discriminate. }
    destruct B0 as [B0 B1]. split; [exact B0|].
    destruct (split _ _ _ _ _ (j_pool _ _ _ Hj) A) as (t1 & h1 & t2 & h2 & sel & selh & I1 & I2 & F1 & F2 & F3 & F4).
    exists (set_part (set_part Q None (t1, h1)) (Some i) (t2, h2)).
    constructor; cbn [c_table c_heap c_threads after unused begun].
    - exact (j_tkeys _ _ _ Hj).
    - exact (j_hkeys _ _ _ Hj).
    - intros q. destruct (same_part (Some i) q) as [->|N]; [rewrite set_same; exact (i_handles _ _ _ I2)|rewrite (set_other _ _ _ _ N)].
      destruct (same_part None q) as [->|N']; [rewrite set_same; exact (i_handles _ _ _ I1)|rewrite (set_other _ _ _ _ N'); apply (j_ptkeys _ _ _ Hj)].
    - intros q. destruct (same_part (Some i) q) as [->|N]; [rewrite set_same; exact (i_keys _ _ _ I2)|rewrite (set_other _ _ _ _ N)].
      destruct (same_part None q) as [->|N']; [rewrite set_same; exact (i_keys _ _ _ I1)|rewrite (set_other _ _ _ _ N'); apply (j_phkeys _ _ _ Hj)].
    - apply (parted_give _ _ _ i sel (j_table _ _ _ Hj)).
      + intros k. rewrite B1. reflexivity.
      + intros k. rewrite set_other by discriminate. rewrite set_same. apply F1.
      + intros k. rewrite set_same. apply F2.
      + intros q k N1 N2. rewrite (set_other _ _ _ _ N2), (set_other _ _ _ _ N1). reflexivity.
    - apply (parted_give _ _ _ i selh (j_heap _ _ _ Hj)).
      + intros k. rewrite B1. reflexivity.
      + intros k. rewrite set_other by discriminate. rewrite set_same. apply F3.
      + intros k. rewrite set_same. apply F4.
      + intros q k N1 N2. rewrite (set_other _ _ _ _ N2), (set_other _ _ _ _ N1). reflexivity.
    - rewrite set_other by discriminate. rewrite set_same. exact I1.
    - intros j. destruct (Nat.eq_dec j i) as [->|N].
      + rewrite !put_same, set_same. cbn [thread_ok]. exists (PROGRAM er cl), t2, h2, (handle_of cl).
        split; [reflexivity|]. split; [exact I2|]. split; [exact (allowed_careful _ _ A)|]. split; [constructor|]. split; [apply program_asks|].
        split; [|intros _; split; auto].
        intros h Hh F. cbn [fst] in F. destruct (allowed_cases _ _ A) as [(h' & o & X1 & X2 & X3 & X4)|[(a & o & X1 & _)|(X1 & _)]]; [|congruence|congruence].
        assert (h' = h) by congruence. subst h'. pose proof (i_live _ _ _ I2 h) as V. unfold view in V. cbn [w_table] in V. rewrite F in V.
        unfold S_Conc.only in V. cbn [live] in V. rewrite X1 in V. cbn [is] in V. rewrite Z.eqb_refl, X4 in V. discriminate.
      + rewrite !put_other by exact N. rewrite set_other by congruence. rewrite set_other by discriminate. apply (j_threads _ _ _ Hj).
  Qed.

  Lemma either_given {A} (x y : option A) v : match x with Some a => Some a | None => y end = Some v -> x = Some v \/ y = Some v.
  Proof using. destruct x; auto. Qed.

  Lemma return_J b c Q i x : J b c Q -> c_threads c i = At (Ret x) ->
    returned x /\
    (exists er cl M, begun b i = Some (er, cl, M) /\ forall N, in_sight b N -> answers N (snd (DOES er M cl)) x) /\
    exists Q', J (AFTER b (Returns i x)) (mkConf (c_lock c) (c_table c) (c_heap c) (put (c_threads c) i Idle)) Q'.
  Proof using Hdef.
    intros Hj E. assert (N : now (c_threads c i) = Some (Ret x)) by (rewrite E; reflexivity).
    destruct (begun_at _ _ _ _ _ Hj N) as (er & cl & M & Eb & (p & t & hp & H & X & Hi & Hc & R & _)).
    assert (p = Ret x) by congruence. subst p. pose proof (alone_returns _ _ _ _ _ _ _ _ Hi Hc R) as Rt.
    destruct (completed I construct value_of save_tr load_tr exec_one exec_many flush_many what er cl M t hp _ _ x O Hi R) as [G1 G2].
    assert (G3 : INV (mkWorld (fst (Q (Some i))) (snd (Q (Some i))) O) (holding what (fst (DOES er M cl)) (snd (DOES er M cl)) x)) by (destruct x; cbn [returned] in Rt; try contradiction; exact G2).
    clear G2. split; [exact Rt|].
    pose proof (j_heap _ _ _ Hj) as PH. pose proof (j_table _ _ _ Hj) as PT.
    split.
    - exists er, cl, M. split; [exact Eb|]. intros L Sight.
      (* what is known elsewhere is not in the part of the thread *)
      assert (Fresh : (forall h, pt_find (fst (Q (Some i))) h <> None -> live M h = None -> live L h = None) /\ (forall a, h_find (snd (Q (Some i))) a <> None -> given M a = None -> given L a = None)).
      { destruct Sight as [-> |(j & er' & cl' & Ej & Ee)].
        - pose proof (j_pool _ _ _ Hj) as Ip. split.
          + intros h Hh _. rewrite (i_live _ _ _ Ip). unfold view. cbn [w_table]. rewrite (parted_other _ _ (Some i) None h PT Hh) by discriminate. reflexivity.
          + intros a Ha _. rewrite (i_given _ _ _ Ip). unfold owned. cbn [w_heap]. rewrite (parted_other _ _ (Some i) None a PH Ha) by discriminate. reflexivity.
        - destruct (Nat.eq_dec j i) as [->|Nj]; [assert (L = M) by congruence; subst L; auto|].
          pose proof (j_threads _ _ _ Hj j) as Tj. rewrite Ej in Tj. destruct Tj as (pj & tj & hj & Hj' & _ & Ij & _ & _ & _ & _ & Kj). destruct (Kj Ee) as [K1 K2]. split.
          + intros h Hh _. rewrite (i_live _ _ _ Ij). unfold view. cbn [w_table]. destruct (pt_find tj h) as [v|] eqn:F; [|reflexivity].
            assert (Y : pt_find (fst (Q (Some j))) h = None) by (apply (parted_other _ _ (Some i) (Some j) h PT Hh); congruence). destruct (K1 h); [congruence|exact Y].
          + intros a Ha _. rewrite (i_given _ _ _ Ij). unfold owned. cbn [w_heap]. destruct (h_find hj a) as [v|] eqn:F; [|reflexivity].
            assert (Y : h_find (snd (Q (Some j))) a = None) by (apply (parted_other _ _ (Some i) (Some j) a PH Ha); congruence). destruct (K2 a); [congruence|exact Y]. }
      destruct Fresh as [Fr1 Fr2].
      assert (Vl : forall h o, live (holding what (fst (DOES er M cl)) (snd (DOES er M cl)) x) h = Some o -> pt_find (fst (Q (Some i))) h <> None).
      { intros h o V F. rewrite (i_live _ _ _ G3) in V. unfold view in V. cbn [w_table] in V. rewrite F in V. discriminate. }
      assert (Vg : forall a o, given (holding what (fst (DOES er M cl)) (snd (DOES er M cl)) x) a = Some o -> h_find (snd (Q (Some i))) a <> None).
      { intros a o V F. rewrite (i_given _ _ _ G3) in V. unfold owned in V. cbn [w_heap] in V. rewrite F in V. discriminate. }
      destruct (snd (DOES er M cl)) as [e| |a|o|o n|e|]; cbn [answers] in *; try exact G1.
      + destruct G1 as (h & -> & F1 & F2). exists h. split; [reflexivity|]. split; [exact F1|]. apply Fr1; [|exact F2]. eapply Vl. cbn [holding behind live]. unfold assign. rewrite Z.eqb_refl. reflexivity.
      + destruct G1 as (h & -> & F1 & F2). exists h. split; [reflexivity|]. split; [exact F1|]. apply Fr1; [|exact F2]. eapply Vl. cbn [holding behind live]. unfold assign. rewrite Z.eqb_refl. reflexivity.
      + destruct G1 as (a & -> & F1 & F2). exists a. split; [reflexivity|]. split; [exact F1|]. apply Fr2; [|exact F2]. eapply Vg. cbn [holding owing given]. unfold assign. rewrite Z.eqb_refl. reflexivity.
    - exists (set_part (set_part Q None (fst (Q (Some i)) ++ fst (Q None), snd (Q (Some i)) ++ snd (Q None))) (Some i) ([], [])).
      assert (Ip : INV (mkWorld (fst (Q (Some i)) ++ fst (Q None)) (snd (Q (Some i)) ++ snd (Q None)) O) (join (unused b) (holding what (fst (DOES er M cl)) (snd (DOES er M cl)) x))).
      { apply (inv_join _ _ _ _ _ O (j_pool _ _ _ Hj) G3); cbn [w_table w_heap].
        - intros h Hh. apply (parted_other _ _ (Some i) None h PT Hh). discriminate.
        - intros a Ha. apply (parted_other _ _ (Some i) None a PH Ha). discriminate. }
      unfold after. rewrite Eb. destruct (DOES er M cl) as [M' o] eqn:Ed. cbn [fst snd] in Ip.
      constructor; cbn [c_table c_heap c_threads unused begun].
      + exact (j_tkeys _ _ _ Hj).
      + exact (j_hkeys _ _ _ Hj).
      + intros q. destruct (same_part (Some i) q) as [->|N']; [rewrite set_same; constructor|rewrite (set_other _ _ _ _ N')].
        destruct (same_part None q) as [->|N2]; [rewrite set_same; exact (i_handles _ _ _ Ip)|rewrite (set_other _ _ _ _ N2); apply (j_ptkeys _ _ _ Hj)].
      + intros q. destruct (same_part (Some i) q) as [->|N']; [rewrite set_same; constructor|rewrite (set_other _ _ _ _ N')].
        destruct (same_part None q) as [->|N2]; [rewrite set_same; exact (i_keys _ _ _ Ip)|rewrite (set_other _ _ _ _ N2); apply (j_phkeys _ _ _ Hj)].
      + apply (parted_back _ _ _ i PT).
        * intros k. rewrite set_other by discriminate. rewrite set_same. cbn [fst]. apply pt_find_app.
        * intros k. rewrite set_same. reflexivity.
        * intros q k N1 N2. rewrite (set_other _ _ _ _ N2), (set_other _ _ _ _ N1). reflexivity.
      + apply (parted_back _ _ _ i PH).
        * intros k. rewrite set_other by discriminate. rewrite set_same. cbn [snd]. apply h_find_app.
        * intros k. rewrite set_same. reflexivity.
        * intros q k N1 N2. rewrite (set_other _ _ _ _ N2), (set_other _ _ _ _ N1). reflexivity.
      + rewrite set_other by discriminate. rewrite set_same. exact Ip.
      + intros j. destruct (Nat.eq_dec j i) as [->|Nj].
        * rewrite !put_same, set_same. split; reflexivity.
        * rewrite !put_other by exact Nj. rewrite set_other by congruence. rewrite set_other by discriminate. apply (j_threads _ _ _ Hj).
  Qed.

  (** *** Executions *)
  Lemma book_after_app h1 h2 b : BOOK_AFTER b (h1 ++ h2) = BOOK_AFTER (BOOK_AFTER b h1) h2.
  Proof using. revert b. induction h1 as [|e h1 IH]; intros b; [reflexivity|]. cbn [app book_after]. apply IH. Qed.
  Lemma disciplined_app h1 h2 b : DISCIPLINED b (h1 ++ h2) <-> DISCIPLINED b h1 /\ DISCIPLINED (BOOK_AFTER b h1) h2.
  Proof using. revert b. induction h1 as [|e h1 IH]; intros b; cbn [app disciplined book_after]; [tauto|]. rewrite IH. tauto. Qed.
  Lemma answered_app h1 h2 b : ANSWERED b (h1 ++ h2) <-> ANSWERED b h1 /\ ANSWERED (BOOK_AFTER b h1) h2.
  Proof using. revert b. induction h1 as [|e h1 IH]; intros b; cbn [app answered book_after]; [tauto|]. rewrite IH. tauto. Qed.
  Lemma runs_J hist c : CRUNS c_start hist c -> DISCIPLINED new_book hist ->
    ANSWERED new_book hist /\ (forall i x, List.In (Returns i x) hist -> returned x) /\ exists Q, J (BOOK_AFTER new_book hist) c Q.
  Proof using Hdef.
    remember c_start as c0 eqn:E0. intros R. induction R as [c|c es es' c' c2 R IH St]; intros D; subst.
    - split; [exact Logic.I|]. split; [intros i x []|]. exists (fun _ => ([], [])). exact start_J.
    - apply disciplined_app in D as [D1 D2]. destruct (IH eq_refl D1) as (A & Rt & Q & Hj). destruct (table_facts _ _ R) as [_ Kn].
      rewrite answered_app, book_after_app. remember (BOOK_AFTER new_book es) as b eqn:Eb. clear Eb.
      inversion St as [c0 i er f H|c0 i p p' hp' H M|c0 i o k H|c0 i q q' k l' t' H M|c0 i r k H|c0 i x H]; subst; clear St; cbn [answered book_after disciplined] in *.
      + destruct D2 as [D2 _]. destruct (begin_J b c' Q i er f Hj H D2) as [B1 B2]. split; [auto|]. split; [|exact B2].
        intros j y Hy. apply in_app_or in Hy as [Hy|[Hy|[]]]; [eauto|discriminate].
      + split; [auto|]. rewrite app_nil_r. split; [exact Rt|]. exact (heap_step_J _ _ _ _ _ _ _ Hj H M).
      + split; [auto|]. rewrite app_nil_r. split; [exact Rt|]. exists Q. apply J_stay; [exact Hj|rewrite H; reflexivity|discriminate].
      + split; [auto|]. rewrite app_nil_r. split; [exact Rt|]. exact (table_step_J _ _ _ _ _ _ _ _ _ Hj H (Kn _ _ _ H) M).
      + split; [auto|]. rewrite app_nil_r. split; [exact Rt|]. exists Q. apply J_stay; [exact Hj|rewrite H; reflexivity|discriminate].
      + destruct (return_J b c' Q i x Hj H) as (B1 & B2 & B3). split; [auto|]. split; [|exact B3].
        intros j y Hy. apply in_app_or in Hy as [Hy|[Hy|[]]]; [eauto|]. injection Hy as <- <-. exact B1.
  Qed.
End Main.
