(** Lemmas about the C interface: the heap, the pointer table and the ledger. *)
From Verif Require Import Base M_PointerTable S_PointerTable L_PointerTable M_Estimator M_CApi S_CApi.
Open Scope Z_scope.

Section Heap.
  Context {S Tr : Type}.
  Notation obj := (@obj S Tr).
  Implicit Types hp : list (Z * obj).

  Lemma h_find_notin hp a : h_find hp a = None -> ~ List.In a (map fst hp).
  Proof.
    induction hp as [|[k o] r IH]; cbn [h_find map fst]; intros H; [intros []|].
    destruct (Z.eqb_spec k a) as [E|E]; [discriminate|]. intros [F|F]; [contradiction|]. exact (IH H F).
  Qed.
  Lemma h_find_in hp a o : h_find hp a = Some o -> List.In a (map fst hp).
  Proof.
    induction hp as [|[k x] r IH]; cbn [h_find map fst]; intros H; [discriminate|].
    destruct (Z.eqb_spec k a) as [E|E]; [left; exact E|right; exact (IH H)].
  Qed.
  Lemma notin_find hp a : ~ List.In a (map fst hp) -> h_find hp a = None.
  Proof. intros H. destruct (h_find hp a) as [o|] eqn:E; [|reflexivity]. destruct (H (h_find_in _ _ _ E)). Qed.
  Lemma h_store_keys hp a o : map fst (h_store hp a o) = map fst hp.
  Proof.
    induction hp as [|[k x] r IH]; cbn [h_store map fst]; [reflexivity|].
    destruct (k =? a); cbn [map fst]; [reflexivity|]. rewrite IH. reflexivity.
  Qed.
  Lemma h_find_store hp a o x b : h_find hp a = Some x -> h_find (h_store hp a o) b = if b =? a then Some o else h_find hp b.
  Proof.
    induction hp as [|[k y] r IH]; cbn [h_find h_store]; intros H; [discriminate|].
    destruct (Z.eqb_spec k a) as [E|E]; cbn [h_find].
    - subst k. destruct (Z.eqb_spec a b) as [F|F]; destruct (Z.eqb_spec b a) as [G|G]; congruence || reflexivity.
    - rewrite (IH H). destruct (Z.eqb_spec k b) as [F|F]; destruct (Z.eqb_spec b a) as [G|G]; congruence || reflexivity.
  Qed.
  Lemma h_free_keys hp a : NoDup (map fst hp) -> NoDup (map fst (h_free hp a)) /\ (forall b, List.In b (map fst (h_free hp a)) -> List.In b (map fst hp)).
  Proof.
    induction hp as [|[k x] r IH]; cbn [h_free map fst]; intros H; [split; [exact H|intros b []]|].
    inversion H as [|y l N D]; subst. destruct (IH D) as [IH1 IH2].
    destruct (k =? a); cbn [map fst]; (split; [|intros b Hb]).
    - exact D.
    - right. exact Hb.
    - constructor; [intros Q; exact (N (IH2 _ Q))|exact IH1].
    - destruct Hb as [Hb|Hb]; [left; exact Hb|right; exact (IH2 _ Hb)].
  Qed.
  Lemma h_find_free hp a b : NoDup (map fst hp) -> h_find (h_free hp a) b = if b =? a then None else h_find hp b.
  Proof.
    induction hp as [|[k x] r IH]; cbn [h_free h_find map fst]; intros H; [destruct (b =? a); reflexivity|].
    inversion H as [|y l N D]; subst.
    destruct (Z.eqb_spec k a) as [E|E]; cbn [h_find].
    - subst k. destruct (Z.eqb_spec b a) as [F|F].
      + subst b. apply notin_find. exact N.
      + destruct (Z.eqb_spec a b) as [G|G]; [congruence|reflexivity].
    - rewrite (IH D). destruct (Z.eqb_spec k b) as [F|F]; destruct (Z.eqb_spec b a) as [G|G]; congruence || reflexivity.
  Qed.

  Lemma pt_find_in t h p : pt_find t h = Some p -> List.In p (map snd t).
  Proof.
    induction t as [|[k q] r IH]; cbn [pt_find map snd]; intros H; [discriminate|].
    destruct (k =? h); [left; congruence|right; exact (IH H)].
  Qed.
  Lemma pt_find_target t (h1 h2 p : Z) : NoDup (map snd t) -> pt_find t h1 = Some p -> pt_find t h2 = Some p -> h1 = h2.
  Proof.
    induction t as [|[k q] r IH]; cbn [pt_find map snd]; intros D H1 H2; [discriminate|].
    inversion D as [|y l N D']; subst.
    destruct (Z.eqb_spec k h1) as [E|E]; destruct (Z.eqb_spec k h2) as [F|F].
    - congruence.
    - injection H1 as H1. subst q. destruct (N (pt_find_in _ _ _ H2)).
    - injection H2 as H2. subst q. destruct (N (pt_find_in _ _ _ H1)).
    - exact (IH D' H1 H2).
  Qed.
  Lemma pt_erase_targets t h : NoDup (map snd t) -> NoDup (map snd (pt_erase t h)) /\ (forall p, List.In p (map snd (pt_erase t h)) -> List.In p (map snd t)).
  Proof.
    induction t as [|[k x] r IH]; cbn [pt_erase map snd]; intros H; [split; [exact H|intros b []]|].
    inversion H as [|y l N D]; subst. destruct (IH D) as [IH1 IH2].
    destruct (k =? h); cbn [map snd]; (split; [|intros b Hb]).
    - exact D.
    - right. exact Hb.
    - constructor; [intros Q; exact (N (IH2 _ Q))|exact IH1].
    - destruct Hb as [Hb|Hb]; [left; exact Hb|right; exact (IH2 _ Hb)].
  Qed.
  Lemma pt_in_find t p : NoDup (map fst t) -> List.In p (map snd t) -> exists h, pt_find t h = Some p.
  Proof.
    induction t as [|[k x] r IH]; cbn [pt_find map snd fst]; intros D H; [destruct H|].
    inversion D as [|y l N D']; subst. destruct H as [H|H].
    - exists k. rewrite Z.eqb_refl. congruence.
    - destruct (IH D' H) as [h Hh]. exists h. destruct (Z.eqb_spec k h) as [E|E]; [|exact Hh].
      subst h. exfalso. apply N. clear -Hh. induction r as [|[a b] r IH]; cbn [pt_find map fst] in *; [discriminate|].
      destruct (Z.eqb_spec a k) as [E|E]; [left; exact E|right; exact (IH Hh)].
  Qed.
End Heap.

Section Inv.
  Context {S In Tr : Type}.
  Variable allocate : nat -> list Z -> Z.
  Variable draws : nat -> list Z.
  Variable what : exn -> list Z.
  Hypothesis Halloc : allocator_ok allocate.
  Hypothesis Hdraws : draws_ok draws.
  (** Whether nothing is ever leaked. *)
  Variable T : Prop.
  Notation obj := (@obj S Tr).
  Notation world := (@world S Tr).
  Notation ledger := (@ledger S Tr).

  Definition is_block (o : obj) : bool := match o with OBytes _ | OChars _ | OStrings _ => true | _ => false end.
  Definition view (w : world) (h : Z) : option obj := match pt_find (w_table w) h with Some p => h_find (w_heap w) p | None => None end.
  Definition owned (w : world) (a : Z) : option obj :=
    match h_find (w_heap w) a with Some o => if is_block o then Some o else None | None => None end.
  Definition tidy (w : world) : Prop :=
    forall a o, h_find (w_heap w) a = Some o -> is_block o = false -> exists h, pt_find (w_table w) h = Some a.
  Record inv (w : world) (L : ledger) : Prop := mkInv {
    i_keys : NoDup (map fst (w_heap w));
    i_null : ~ List.In 0 (map fst (w_heap w));
    i_handles : NoDup (map fst (w_table w));
    i_targets : NoDup (map snd (w_table w));
    i_kinds : forall h p, pt_find (w_table w) h = Some p -> h <> 0 /\ exists o, h_find (w_heap w) p = Some o /\ is_block o = false;
    i_live : forall h, live L h = view w h;
    i_given : forall a, given L a = owned w a;
    i_tidy : T -> tidy w }.

  Lemma start_inv : inv start nothing.
  Proof.
    constructor; cbn; try (constructor; fail); try (intros; discriminate); try reflexivity; try (intros []; fail).
  Qed.

  (** A new object behind a new handle. *)
  Lemma add_handle w L o w' r : inv w L -> is_block o = false ->
    thn (new_obj allocate o) (fun p => t_add draws p) w = Some (w', r) ->
    exists h, r = Ok h /\ (1 <= h < 18446744073709551616 /\ live L h = None) /\ inv w' (behind L h (Some o)).
  Proof using Halloc Hdraws.
    intros [K N H1 H2 H3 H4 H5 H6] B E. unfold thn, new_obj, t_add in E. cbn [w_time w_heap w_table] in E.
    destruct (Halloc (w_time w) (map fst (w_heap w))) as [A1 A2].
    set (a := allocate (w_time w) (map fst (w_heap w))) in *.
    unfold pt_add in E. destruct (Z.eqb_spec a 0) as [Z0|_]; [contradiction|].
    destruct (pt_draw (w_table w) (draws (Datatypes.S (w_time w)))) as [h|] eqn:D; [|discriminate].
    injection E as <- <-. destruct (pt_draw_spec _ _ _ D) as [D1 D2].
    pose proof (proj1 (Forall_forall _ _) (Hdraws (Datatypes.S (w_time w))) h D1) as R. cbv beta in R.
    exists h. split; [reflexivity|]. split; [split; [exact R|rewrite H4; unfold view; rewrite D2; reflexivity]|].
    pose proof (notin_find _ _ A1) as Fa.
    assert (Ha : forall q p, pt_find (w_table w) q = Some p -> p <> a).
    { intros q p Hq ->. destruct (H3 _ _ Hq) as [_ [x [Hx _]]]. congruence. }
    constructor; cbn [w_heap w_table map fst snd].
    - constructor; assumption.
    - intros [Q|Q]; [exact (A2 Q)|exact (N Q)].
    - constructor; [exact (pt_find_none_notin _ _ D2)|exact H1].
    - constructor; [|exact H2]. intros Q. destruct (pt_in_find _ _ H1 Q) as [q Hq]. exact (Ha _ _ Hq eq_refl).
    - intros q p. cbn [pt_find h_find]. destruct (Z.eqb_spec h q) as [Eq|Eq].
      + intros [= <-]. split; [lia|]. exists o. rewrite Z.eqb_refl. split; [reflexivity|exact B].
      + intros Hq. destruct (H3 _ _ Hq) as [Q1 [x [Q2 Q3]]]. split; [exact Q1|]. exists x. split; [|exact Q3].
        destruct (Z.eqb_spec a p) as [Ep|Ep]; [congruence|exact Q2].
    - intros q. unfold view. cbn [w_heap w_table pt_find h_find behind live assign]. unfold assign.
      destruct (Z.eqb_spec h q) as [Eq|Eq].
      + subst q. rewrite Z.eqb_refl. rewrite Z.eqb_refl. reflexivity.
      + destruct (Z.eqb_spec q h) as [Eq'|_]; [congruence|]. rewrite H4. unfold view.
        destruct (pt_find (w_table w) q) as [p|] eqn:Eqq; [|reflexivity].
        destruct (Z.eqb_spec a p) as [Ep|Ep]; [|reflexivity]. destruct (Ha _ _ Eqq (eq_sym Ep)).
    - intros b. unfold owned. cbn [w_heap h_find behind given]. rewrite H5. unfold owned.
      destruct (Z.eqb_spec a b) as [Eb|Eb]; [|reflexivity]. subst b. rewrite Fa, B. reflexivity.
    - intros t b x. cbn [w_heap w_table h_find pt_find]. destruct (Z.eqb_spec a b) as [Eb|Eb].
      + intros _ _. exists h. rewrite Z.eqb_refl. congruence.
      + intros Hx Bx. destruct (H6 t b x Hx Bx) as [q Hq]. exists q. destruct (Z.eqb_spec h q) as [Eq|Eq]; [congruence|exact Hq].
  Qed.

  (** A block for the caller. *)
  Lemma add_block w L o w' r : inv w L -> is_block o = true -> new_obj allocate o w = Some (w', r) ->
    exists a, r = Ok a /\ (a <> 0 /\ given L a = None) /\ inv w' (owing L a (Some o)).
  Proof using Halloc.
    intros [K N H1 H2 H3 H4 H5 H6] B E. unfold new_obj in E.
    destruct (Halloc (w_time w) (map fst (w_heap w))) as [A1 A2].
    set (a := allocate (w_time w) (map fst (w_heap w))) in *. injection E as <- <-.
    pose proof (notin_find _ _ A1) as Fa.
    exists a. split; [reflexivity|]. split; [split; [exact A2|rewrite H5; unfold owned; rewrite Fa; reflexivity]|].
    assert (Ha : forall q p, pt_find (w_table w) q = Some p -> p <> a).
    { intros q p Hq ->. destruct (H3 _ _ Hq) as [_ [x [Hx _]]]. congruence. }
    constructor; cbn [w_heap w_table map fst snd].
    - constructor; assumption.
    - intros [Q|Q]; [exact (A2 Q)|exact (N Q)].
    - exact H1.
    - exact H2.
    - intros q p Hq. cbn [h_find]. destruct (H3 _ _ Hq) as [Q1 [x [Q2 Q3]]]. split; [exact Q1|]. exists x. split; [|exact Q3].
      destruct (Z.eqb_spec a p) as [Ep|Ep]; [congruence|exact Q2].
    - intros q. unfold view. cbn [w_heap w_table h_find owing live]. rewrite H4. unfold view.
      destruct (pt_find (w_table w) q) as [p|] eqn:Eqq; [|reflexivity].
      destruct (Z.eqb_spec a p) as [Ep|Ep]; [|reflexivity]. destruct (Ha _ _ Eqq (eq_sym Ep)).
    - intros b. unfold owned. cbn [w_heap h_find owing given]. unfold assign. rewrite H5. unfold owned.
      destruct (Z.eqb_spec a b) as [Eb|Eb]; destruct (Z.eqb_spec b a) as [Eb'|Eb']; try congruence.
      rewrite B. reflexivity.
    - intros t b x. cbn [w_heap w_table h_find pt_find]. destruct (Z.eqb_spec a b) as [Eb|Eb].
      + intros [= <-] Bx. congruence.
      + intros Hx Bx. exact (H6 t b x Hx Bx).
  Qed.

  (** An object nobody has a handle for. *)
  Lemma add_lost w L o w' r : ~ T -> inv w L -> is_block o = false -> new_obj allocate o w = Some (w', r) ->
    inv w' L.
  Proof using Halloc.
    intros nT [K N H1 H2 H3 H4 H5 H6] B E. unfold new_obj in E.
    destruct (Halloc (w_time w) (map fst (w_heap w))) as [A1 A2].
    set (a := allocate (w_time w) (map fst (w_heap w))) in *. injection E as <- <-.
    pose proof (notin_find _ _ A1) as Fa.
    assert (Ha : forall q p, pt_find (w_table w) q = Some p -> p <> a).
    { intros q p Hq ->. destruct (H3 _ _ Hq) as [_ [x [Hx _]]]. congruence. }
    constructor; cbn [w_heap w_table map fst snd].
    - constructor; assumption.
    - intros [Q|Q]; [exact (A2 Q)|exact (N Q)].
    - exact H1.
    - exact H2.
    - intros q p Hq. cbn [h_find]. destruct (H3 _ _ Hq) as [Q1 [x [Q2 Q3]]]. split; [exact Q1|]. exists x. split; [|exact Q3].
      destruct (Z.eqb_spec a p) as [Ep|Ep]; [congruence|exact Q2].
    - intros q. unfold view. cbn [w_heap w_table h_find]. rewrite H4. unfold view.
      destruct (pt_find (w_table w) q) as [p|] eqn:Eqq; [|reflexivity].
      destruct (Z.eqb_spec a p) as [Ep|Ep]; [|reflexivity]. destruct (Ha _ _ Eqq (eq_sym Ep)).
    - intros b. unfold owned. cbn [w_heap h_find]. rewrite H5. unfold owned.
      destruct (Z.eqb_spec a b) as [Eb|Eb]; [|reflexivity]. subst b. rewrite Fa, B. reflexivity.
    - intros t. destruct (nT t).
  Qed.

  (** A method changes its object. *)
  Lemma write_handle w L h p x o : inv w L -> pt_find (w_table w) h = Some p -> h_find (w_heap w) p = Some x -> is_block o = false ->
    inv (mkWorld (w_table w) (h_store (w_heap w) p o) (w_time w)) (behind L h (Some o)).
  Proof.
    intros [K N H1 H2 H3 H4 H5 H6] Hp Hx B.
    pose proof (H3 _ _ Hp) as [Hh [x' [Hx' Bx]]]. assert (x' = x) by congruence. subst x'.
    constructor; cbn [w_heap w_table map fst snd].
    - rewrite h_store_keys. exact K.
    - rewrite h_store_keys. exact N.
    - exact H1.
    - exact H2.
    - intros q y Hq. destruct (H3 _ _ Hq) as [Q1 [z [Q2 Q3]]]. split; [exact Q1|]. rewrite (h_find_store _ _ _ _ _ Hx).
      destruct (y =? p); [exists o; split; [reflexivity|exact B]|exists z; split; [exact Q2|exact Q3]].
    - intros q. unfold view. cbn [w_heap w_table behind live]. unfold assign. rewrite H4. unfold view.
      destruct (Z.eqb_spec q h) as [Eq|Eq].
      + subst q. rewrite Hp. rewrite (h_find_store _ _ _ _ _ Hx), Z.eqb_refl. reflexivity.
      + destruct (pt_find (w_table w) q) as [y|] eqn:Eqq; [|reflexivity]. rewrite (h_find_store _ _ _ _ _ Hx).
        destruct (Z.eqb_spec y p) as [Ey|Ey]; [|reflexivity]. subst y. destruct (Eq (pt_find_target _ _ _ _ H2 Eqq Hp)).
    - intros b. unfold owned. cbn [w_heap behind given]. rewrite H5. unfold owned. rewrite (h_find_store _ _ _ _ _ Hx).
      destruct (Z.eqb_spec b p) as [Eb|Eb]; [|reflexivity]. subst b. rewrite Hx, Bx, B. reflexivity.
    - intros t b y. cbn [w_heap w_table]. rewrite (h_find_store _ _ _ _ _ Hx). destruct (Z.eqb_spec b p) as [Eb|Eb].
      + intros _ _. exists h. congruence.
      + intros Hy By. exact (H6 t b y Hy By).
  Qed.

  (** A handle is removed and its object deleted. *)
  Lemma drop_handle w L h p x : inv w L -> pt_find (w_table w) h = Some p -> h_find (w_heap w) p = Some x ->
    inv (mkWorld (pt_erase (w_table w) h) (h_free (w_heap w) p) (w_time w)) (behind L h None).
  Proof.
    intros [K N H1 H2 H3 H4 H5 H6] Hp Hx.
    pose proof (H3 _ _ Hp) as [Hh [x' [Hx' Bx]]]. assert (x' = x) by congruence. subst x'.
    destruct (h_free_keys _ p K) as [K1 K2]. destruct (pt_erase_targets _ h H2) as [P1 P2].
    constructor; cbn [w_heap w_table map fst snd].
    - exact K1.
    - intros Q. exact (N (K2 _ Q)).
    - exact (pt_erase_nodup _ _ H1).
    - exact P1.
    - intros q y. rewrite (pt_find_erase _ _ _ H1). destruct (Z.eqb_spec h q) as [Eq|Eq]; [discriminate|]. intros Hq.
      destruct (H3 _ _ Hq) as [Q1 [z [Q2 Q3]]]. split; [exact Q1|]. exists z. rewrite (h_find_free _ _ _ K). split; [|exact Q3].
      destruct (Z.eqb_spec y p) as [Ey|Ey]; [|exact Q2]. subst y. destruct (Eq (pt_find_target _ _ _ _ H2 Hp Hq)).
    - intros q. unfold view. cbn [w_heap w_table behind live]. unfold assign. rewrite H4. unfold view.
      rewrite (pt_find_erase _ _ _ H1).
      destruct (Z.eqb_spec q h) as [Eq|Eq]; destruct (Z.eqb_spec h q) as [Eq'|Eq']; try congruence.
      destruct (pt_find (w_table w) q) as [y|] eqn:Eqq; [|reflexivity]. rewrite (h_find_free _ _ _ K).
      destruct (Z.eqb_spec y p) as [Ey|Ey]; [|reflexivity]. subst y. destruct (Eq (pt_find_target _ _ _ _ H2 Eqq Hp)).
    - intros b. unfold owned. cbn [w_heap behind given]. rewrite H5. unfold owned. rewrite (h_find_free _ _ _ K).
      destruct (Z.eqb_spec b p) as [Eb|Eb]; [|reflexivity]. subst b. rewrite Hx, Bx. reflexivity.
    - intros t b y. cbn [w_heap w_table]. rewrite (h_find_free _ _ _ K). destruct (Z.eqb_spec b p) as [Eb|Eb]; [discriminate|].
      intros Hy By. destruct (H6 t b y Hy By) as [q Hq]. exists q. rewrite (pt_find_erase _ _ _ H1).
      destruct (Z.eqb_spec h q) as [Eq|Eq]; [congruence|exact Hq].
  Qed.

  (** A block is given back. *)
  Lemma drop_block w L a x : inv w L -> h_find (w_heap w) a = Some x -> is_block x = true ->
    inv (mkWorld (w_table w) (h_free (w_heap w) a) (w_time w)) (owing L a None).
  Proof.
    intros [K N H1 H2 H3 H4 H5 H6] Hx Bx.
    destruct (h_free_keys _ a K) as [K1 K2].
    assert (Ha : forall q p, pt_find (w_table w) q = Some p -> p <> a).
    { intros q p Hq ->. destruct (H3 _ _ Hq) as [_ [y [Hy By]]]. congruence. }
    constructor; cbn [w_heap w_table map fst snd].
    - exact K1.
    - intros Q. exact (N (K2 _ Q)).
    - exact H1.
    - exact H2.
    - intros q y Hq. destruct (H3 _ _ Hq) as [Q1 [z [Q2 Q3]]]. split; [exact Q1|]. exists z. rewrite (h_find_free _ _ _ K). split; [|exact Q3].
      destruct (Z.eqb_spec y a) as [Ey|Ey]; [destruct (Ha _ _ Hq Ey)|exact Q2].
    - intros q. unfold view. cbn [w_heap w_table owing live]. rewrite H4. unfold view.
      destruct (pt_find (w_table w) q) as [y|] eqn:Eqq; [|reflexivity]. rewrite (h_find_free _ _ _ K).
      destruct (Z.eqb_spec y a) as [Ey|Ey]; [destruct (Ha _ _ Eqq Ey)|reflexivity].
    - intros b. unfold owned. cbn [w_heap owing given]. unfold assign. rewrite H5. unfold owned. rewrite (h_find_free _ _ _ K).
      destruct (b =? a); reflexivity.
    - intros t b y. cbn [w_heap w_table]. rewrite (h_find_free _ _ _ K). destruct (Z.eqb_spec b a) as [Eb|Eb]; [discriminate|].
      intros Hy By. exact (H6 t b y Hy By).
  Qed.
End Inv.
