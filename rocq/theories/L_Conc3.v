(** Splitting and joining worlds; the invariant of concurrent executions. *)
From Verif Require Import Base M_PointerTable M_PtConc M_Estimator M_CApi S_CApi L_PointerTable L_CApi L_CApi2 L_CApi3 M_Conc S_PtConc S_Conc L_PtConc L_Conc L_Conc2.
Open Scope Z_scope.

Section Split.
  Context {S Tr Arg : Type}.
  Variable T : Prop.
  Notation obj := (@obj S Tr).
  Notation world := (@world S Tr).
  Notation ledger := (@ledger S Tr).
  Notation call := (@call Arg).
  Notation INV := (@inv S Tr T).

  Lemma inv_ext w (L L' : ledger) : INV w L -> (forall h, live L' h = live L h) -> (forall a, given L' a = given L a) -> INV w L'.
  Proof.
    intros [K N H1 H2 H3 H4 H5 H6] El Eg. constructor; try assumption.
    - intros h. rewrite El. apply H4.
    - intros a. rewrite Eg. apply H5.
  Qed.
  Lemma inv_none n : INV (mkWorld [] [] n) (nothing).
  Proof. exact (inv_time _ _ _ n (start_inv T)). Qed.
  Lemma inv_handle h p (o : obj) n : h <> 0 -> p <> 0 -> is_block o = false -> INV (mkWorld [(h, p)] [(p, o)] n) (behind nothing h (Some o)).
  Proof.
    intros H0 P0 B. constructor; cbn [w_table w_heap map fst snd].
    - constructor; [intros []|constructor].
    - intros [E|[]]. contradiction.
    - constructor; [intros []|constructor].
    - constructor; [intros []|constructor].
    - intros x q. cbn [pt_find h_find]. destruct (Z.eqb_spec h x) as [E|E]; [|discriminate]. intros [= <-]. split; [congruence|]. exists o. rewrite Z.eqb_refl. auto.
    - intros x. unfold view. cbn [w_table w_heap pt_find h_find behind live nothing]. unfold assign. destruct (Z.eqb_spec h x) as [E|E]; destruct (Z.eqb_spec x h) as [F|F]; try congruence.
      rewrite Z.eqb_refl. reflexivity.
    - intros a. unfold owned. cbn [w_heap h_find behind given nothing]. destruct (Z.eqb_spec p a) as [E|E]; [rewrite B; reflexivity|reflexivity].
    - intros _ a x. cbn [w_heap w_table h_find pt_find]. destruct (Z.eqb_spec p a) as [E|E]; [|discriminate]. intros _ _. exists h. rewrite Z.eqb_refl. congruence.
  Qed.
  Lemma inv_block a (o : obj) n : a <> 0 -> is_block o = true -> INV (mkWorld [] [(a, o)] n) (owing nothing a (Some o)).
  Proof.
    intros A0 B. constructor; cbn [w_table w_heap map fst snd].
    - constructor; [intros []|constructor].
    - intros [E|[]]. contradiction.
    - constructor.
    - constructor.
    - intros x q. discriminate.
    - intros x. reflexivity.
    - intros x. unfold owned. cbn [w_heap h_find owing given nothing]. unfold assign. destruct (Z.eqb_spec a x) as [E|E]; destruct (Z.eqb_spec x a) as [F|F]; try congruence.
      rewrite B. reflexivity.
    - intros _ b x. cbn [w_heap w_table h_find pt_find]. destruct (Z.eqb_spec a b) as [E|E]; [|discriminate]. intros [= <-]. congruence.
  Qed.

  Lemma pt_find_app t t' h : pt_find (t ++ t') h = match pt_find t h with Some p => Some p | None => pt_find t' h end.
  Proof. induction t as [|[k p] t IH]; cbn [pt_find app]; [reflexivity|]. destruct (k =? h); [reflexivity|exact IH]. Qed.
  Lemma h_find_app (l l' : list (Z * obj)) a : h_find (l ++ l') a = match h_find l a with Some o => Some o | None => h_find l' a end.
  Proof. induction l as [|[k p] t IH]; cbn [h_find app]; [reflexivity|]. destruct (k =? a); [reflexivity|exact IH]. Qed.
  Lemma NoDup_app {A} (l l' : list A) : NoDup l -> NoDup l' -> (forall x, List.In x l -> ~ List.In x l') -> NoDup (l ++ l').
  Proof.
    intros H H' D. induction H as [|x l N H IH]; [exact H'|]. cbn [app]. constructor.
    - intros Q. apply in_app_or in Q as [Q|Q]; [exact (N Q)|exact (D x (or_introl eq_refl) Q)].
    - apply IH. intros y Hy. apply D. right. exact Hy.
  Qed.
  Lemma find_of_in t h : List.In h (map fst t) -> exists p, pt_find t h = Some p.
  Proof.
    induction t as [|[k p] t IH]; cbn [map fst pt_find]; intros H; [destruct H|]. destruct (Z.eqb_spec k h) as [E|E]; [eauto|]. destruct H as [H|H]; [contradiction|exact (IH H)].
  Qed.
  Lemma heap_of_in (l : list (Z * obj)) a : List.In a (map fst l) -> exists o, h_find l a = Some o.
  Proof.
    induction l as [|[k p] t IH]; cbn [map fst h_find]; intros H; [destruct H|]. destruct (Z.eqb_spec k a) as [E|E]; [eauto|]. destruct H as [H|H]; [contradiction|exact (IH H)].
  Qed.

  Lemma inv_join w1 w2 (L M : ledger) n : INV w1 L -> INV w2 M ->
    (forall h, pt_find (w_table w2) h <> None -> pt_find (w_table w1) h = None) -> (forall a, h_find (w_heap w2) a <> None -> h_find (w_heap w1) a = None) ->
    INV (mkWorld (w_table w2 ++ w_table w1) (w_heap w2 ++ w_heap w1) n) (join L M).
  Proof.
    intros [K N H1 H2 H3 H4 H5 H6] [K' N' H1' H2' H3' H4' H5' H6'] DT DH.
    constructor; cbn [w_table w_heap]; rewrite ?map_app.
    - apply NoDup_app; [exact K'|exact K|]. intros a Ha Hb. apply heap_of_in in Ha as (o & Ho). assert (X : h_find (w_heap w1) a = None) by (apply DH; congruence). exact (h_find_notin _ _ X Hb).
    - intros Q. apply in_app_or in Q as [Q|Q]; [exact (N' Q)|exact (N Q)].
    - apply NoDup_app; [exact H1'|exact H1|]. intros h Ha Hb. apply find_of_in in Ha as (p & Hp). assert (X : pt_find (w_table w1) h = None) by (apply DT; congruence). exact (pt_find_none_notin _ _ X Hb).
    - apply NoDup_app; [exact H2'|exact H2|]. intros p Ha Hb. destruct (pt_in_find _ _ H1' Ha) as (h & Hh). destruct (pt_in_find _ _ H1 Hb) as (h' & Hh').
      destruct (H3' _ _ Hh) as (_ & o & Ho & _). destruct (H3 _ _ Hh') as (_ & o' & Ho' & _). rewrite DH in Ho' by congruence. discriminate.
    - intros h p. rewrite pt_find_app. destruct (pt_find (w_table w2) h) as [q|] eqn:E.
      + intros [= <-]. destruct (H3' _ _ E) as (X1 & o & X2 & X3). split; [exact X1|]. exists o. rewrite h_find_app, X2. auto.
      + intros Hp. destruct (H3 _ _ Hp) as (X1 & o & X2 & X3). split; [exact X1|]. exists o. rewrite h_find_app. destruct (h_find (w_heap w2) p) as [o'|] eqn:E'; [rewrite DH in X2 by congruence; discriminate|]. auto.
    - intros h. unfold view. cbn [w_table w_heap join live]. rewrite H4, H4'. unfold view. rewrite pt_find_app. destruct (pt_find (w_table w2) h) as [p|] eqn:E.
      + destruct (H3' _ _ E) as (_ & o & Ho & _). rewrite h_find_app, Ho. reflexivity.
      + cbn [either]. destruct (pt_find (w_table w1) h) as [p|] eqn:E'; [|reflexivity]. destruct (H3 _ _ E') as (_ & o & Ho & _). rewrite h_find_app.
        destruct (h_find (w_heap w2) p) as [o'|] eqn:E2; [rewrite DH in Ho by congruence; discriminate|reflexivity].
    - intros a. unfold owned. cbn [w_heap join given]. rewrite H5, H5'. unfold owned. rewrite h_find_app. destruct (h_find (w_heap w2) a) as [o|] eqn:E.
      + destruct (is_block o); [reflexivity|]. cbn [either]. rewrite DH by congruence. reflexivity.
      + reflexivity.
    - intros t a o. cbn [w_table w_heap]. rewrite h_find_app. destruct (h_find (w_heap w2) a) as [o'|] eqn:E.
      + intros [= <-] B. destruct (H6' t a o' E B) as (h & Hh). exists h. rewrite pt_find_app, Hh. reflexivity.
      + intros Ho B. destruct (H6 t a o Ho B) as (h & Hh). exists h. rewrite pt_find_app. destruct (pt_find (w_table w2) h) as [q|] eqn:E'; [rewrite DT in Hh by congruence; discriminate|exact Hh].
  Qed.

  (** What a call that is allowed is about. *)
  Lemma allowed_cases (L : ledger) (c : call) : allowed L c ->
    (exists h o, handle_of c = Some h /\ block_of c = None /\ h <> 0 /\ live L h = Some o) \/
    (exists a o, handle_of c = None /\ block_of c = Some a /\ a <> 0 /\ given L a = Some o) \/
    (handle_of c = None /\ block_of c = None).
  Proof.
    intros A. destruct c; cbn [allowed handle_of block_of] in *; unfold an_estimator, a_transformer in A; auto.
    all: try (match goal with |- context [(?h =? 0) || (?n =? 0)] => fail 1 | _ => idtac end;
              match goal with |- context [?h =? 0] => destruct (Z.eqb_spec h 0) as [E|E]; [auto|] end;
              destruct A as [A|(y0 & A)]; [contradiction|]; first [left; eauto 6; fail|right; left; eauto 6; fail]).
    - destruct (Z.eqb_spec a 0) as [E|E]; cbn [orb]; [auto|]. destruct (Z.eqb_spec n 0) as [F|F]; cbn [orb]; [auto|].
      destruct A as [A|[A|(y0 & A)]]; [contradiction|contradiction|]. right. left. eauto 6.
    - destruct (Z.eqb_spec a 0) as [E|E]; cbn [orb]; [auto|]. destruct (Z.eqb_spec n 0) as [F|F]; cbn [orb]; [auto|].
      destruct A as [A|[A|(y0 & A & _)]]; [contradiction|contradiction|]. right. left. eauto 6.
  Qed.
  Lemma allowed_careful (L : ledger) (c : call) : allowed L c -> careful_call (S_Conc.only L c) c.
  Proof.
    intros A. unfold S_Conc.only.
    destruct c; cbn [allowed careful_call handle_of block_of live given] in *; unfold an_estimator, a_transformer, est_or_dead, trans_or_dead in *; cbn [live given]; auto.
    all: try (match goal with |- context [(?h =? 0) || (?n =? 0)] => fail 1 | _ => idtac end;
              match goal with |- context [is (if ?h =? 0 then _ else _) _] => destruct (Z.eqb_spec h 0) as [E|E]; [subst; cbn [is]; auto|] end;
              cbn [is]; rewrite Z.eqb_refl; destruct A as [A|(y0 & A)]; [contradiction|]; first [rewrite A; exact Logic.I|eauto; fail]).
    - destruct (Z.eqb_spec a 0) as [E|E]; cbn [orb]; [auto|]. destruct (Z.eqb_spec n 0) as [F|F]; cbn [orb]; [auto|].
      cbn [is]. rewrite Z.eqb_refl. exact A.
    - destruct (Z.eqb_spec a 0) as [E|E]; cbn [orb]; [auto|]. destruct (Z.eqb_spec n 0) as [F|F]; cbn [orb]; [auto|].
      cbn [is]. rewrite Z.eqb_refl. exact A.
  Qed.

  (** The part that a call is about is taken out. *)
  Lemma split (tt : ptable) (hh : list (Z * obj)) (L : ledger) (c : call) : INV (mkWorld tt hh O) L -> allowed L c ->
    exists (t1 : ptable) (h1 : list (Z * obj)) (t2 : ptable) (h2 : list (Z * obj)) (sel selh : Z -> bool),
      INV (mkWorld t1 h1 O) (without L c) /\ INV (mkWorld t2 h2 O) (S_Conc.only L c) /\
      (forall k, pt_find t1 k = if sel k then None else pt_find tt k) /\ (forall k, pt_find t2 k = if sel k then pt_find tt k else None) /\
      (forall k, h_find h1 k = if selh k then None else h_find hh k) /\ (forall k, h_find h2 k = if selh k then h_find hh k else None).
  Proof.
    intros Hi A. destruct (allowed_cases L c A) as [(h & o & E1 & E2 & H0 & El)|[(a & o & E1 & E2 & A0 & Eg)|(E1 & E2)]].
    - pose proof (i_live _ _ _ Hi h) as V. rewrite El in V. unfold view in V. cbn [w_table w_heap] in V.
      destruct (pt_find tt h) as [p|] eqn:Ep; [|discriminate]. destruct (i_kinds _ _ _ Hi h p Ep) as (_ & o' & Ho & B). cbn [w_heap] in Ho. assert (o' = o) by congruence. subst o'.
      exists (pt_erase tt h), (h_free hh p), [(h, p)], [(p, o)], (fun k => k =? h), (fun k => k =? p).
      split; [|split; [|split; [|split; [|split]]]].
      + eapply inv_ext; [exact (drop_handle T _ _ _ _ _ Hi Ep Ho)| |].
        * intros k. unfold without. cbn [live behind]. rewrite E1. unfold assign. cbn [is]. destruct (k =? h); reflexivity.
        * intros k. unfold without. cbn [given behind]. rewrite E2. reflexivity.
      + assert (P0 : p <> 0) by (intros ->; exact (i_null _ _ _ Hi (h_find_in _ _ _ Ho))).
        eapply inv_ext; [exact (inv_handle h p o O H0 P0 B)| |].
        * intros k. unfold S_Conc.only. cbn [live behind nothing]. rewrite E1. unfold assign. cbn [is]. destruct (Z.eqb_spec k h) as [->|N]; [exact El|reflexivity].
        * intros k. unfold S_Conc.only. cbn [given behind nothing]. rewrite E2. reflexivity.
      + intros k. rewrite (pt_find_erase _ _ _ (i_handles _ _ _ Hi)). cbn [w_table]. destruct (Z.eqb_spec h k) as [X|X]; destruct (Z.eqb_spec k h) as [Y|Y]; congruence.
      + intros k. cbn [pt_find]. destruct (Z.eqb_spec h k) as [X|X]; destruct (Z.eqb_spec k h) as [Y|Y]; congruence.
      + intros k. rewrite (h_find_free _ _ _ (i_keys _ _ _ Hi)). reflexivity.
      + intros k. cbn [h_find]. destruct (Z.eqb_spec p k) as [X|X]; destruct (Z.eqb_spec k p) as [Y|Y]; congruence.
    - pose proof (i_given _ _ _ Hi a) as V. rewrite Eg in V. unfold owned in V. cbn [w_heap] in V.
      destruct (h_find hh a) as [o'|] eqn:Ho; [|discriminate]. destruct (is_block o') eqn:B; [|discriminate]. assert (o' = o) by congruence. subst o'.
      exists tt, (h_free hh a), [], [(a, o)], (fun k => false), (fun k => k =? a).
      split; [|split; [|split; [|split; [|split]]]].
      + eapply inv_ext; [exact (drop_block T _ _ _ _ Hi Ho B)| |].
        * intros k. unfold without. cbn [live owing]. rewrite E1. reflexivity.
        * intros k. unfold without. cbn [given owing]. rewrite E2. unfold assign. cbn [is]. destruct (k =? a); reflexivity.
      + eapply inv_ext; [exact (inv_block a o O A0 B)| |].
        * intros k. unfold S_Conc.only. cbn [live owing nothing]. rewrite E1. reflexivity.
        * intros k. unfold S_Conc.only. cbn [given owing nothing]. rewrite E2. unfold assign. cbn [is]. destruct (Z.eqb_spec k a) as [->|N]; [exact Eg|reflexivity].
      + reflexivity.
      + reflexivity.
      + intros k. rewrite (h_find_free _ _ _ (i_keys _ _ _ Hi)). reflexivity.
      + intros k. cbn [h_find]. destruct (Z.eqb_spec a k) as [X|X]; destruct (Z.eqb_spec k a) as [Y|Y]; congruence.
    - exists tt, hh, [], [], (fun k => false), (fun k => false).
      split; [|split; [|split; [|split; [|split]]]]; try reflexivity.
      + eapply inv_ext; [exact Hi| |]; intros k; unfold without; cbn [live given]; [rewrite E1|rewrite E2]; reflexivity.
      + eapply inv_ext; [exact (inv_none O)| |]; intros k; unfold S_Conc.only; cbn [live given]; [rewrite E1|rewrite E2]; reflexivity.
  Qed.
End Split.
