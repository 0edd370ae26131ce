(** What a call asks the pointer table for, and worlds made of parts. *)
From Verif Require Import Base M_PointerTable M_PtConc M_Estimator M_CApi S_CApi L_PointerTable L_CApi L_CApi2 L_CApi3 M_Conc S_Conc L_PtConc L_Conc.
Open Scope Z_scope.

Section Asks.
  Context {S In Tr Arg Val : Type}.
  Variable I : impl S In Tr.
  Variable construct : res S.
  Variable value_of : Arg -> res In.
  Variable save_tr : Tr -> res (list Z).
  Variable load_tr : list Z -> res Tr.
  Variable exec_one : Tr -> In -> Tr * res Val.
  Variable exec_many : Tr -> In -> Tr * res (list (list Z)).
  Variable flush_many : Tr -> Tr * res (list (list Z)).
  Variable what : exn -> list Z.
  Notation obj := (@obj S Tr).
  Notation answer := (@answer Val).
  Notation prog := (@prog S Tr Val).
  Notation code := (@code S Tr Val).
  Notation PROGRAM := (@program S In Tr Arg Val I construct value_of save_tr load_tr exec_one exec_many flush_many what).

  (** The program looks up no handle but [H], and gives nothing back unless [e]. *)
  Fixpoint asks (H : option Z) (e : bool) (p : prog) {struct p} : Prop :=
    match p with
    | Ret _ => True
    | New o k => forall a, asks H e (k a)
    | Read a k => forall o, asks H e (k o)
    | Write _ _ k => asks H e k
    | Delete _ k => e = true /\ asks H e k
    | Table (TAdd _) k => forall r, asks H e (k r)
    | Table (TGet h) k => h <> 0 /\ H = Some h /\ forall r, asks H e (k r)
    | Table (TRemove h) k => e = true /\ h <> 0 /\ H = Some h /\ forall r, asks None e (k r)
    end.
  Definition askc {A} (H : option Z) (e : bool) (m : code A) : Prop := forall k, (forall r, asks H e (k r)) -> asks H e (m k).
  Lemma askc_value {A} H e (a : A) : askc H e (value a). Proof. intros k K. apply K. Qed.
  Lemma askc_throw {A} H e x : askc H e (throw (A := A) x). Proof. intros k K. apply K. Qed.
  Lemma askc_undef {A} H e : askc H e (undef (A := A)). Proof. intros k K. apply K. Qed.
  Lemma askc_result {A} H e (r : res A) : askc H e (result r). Proof. intros k K. apply K. Qed.
  Lemma askc_check H e b : askc H e (check b). Proof. intros k K. unfold check. destruct b; apply K. Qed.
  Lemma askc_next {A B} H e (m : code A) (f : A -> code B) : askc H e m -> (forall a, askc H e (f a)) -> askc H e (next m f).
  Proof. intros Hm Hf k K. unfold next. apply Hm. intros [a|x|]; [apply Hf, K|apply K|apply K]. Qed.
  Lemma askc_check_next {A} H e b (f : unit -> code A) : (b = true -> askc H e (f tt)) -> askc H e (next (check b) f).
  Proof. intros Hf k K. unfold next, check. destruct b; [apply Hf; [reflexivity|exact K]|apply K]. Qed.
  Lemma askc_new H e o : askc H e (new o). Proof. intros k K. unfold new. cbn [asks]. intros a. apply K. Qed.
  Lemma askc_read H e a : askc H e (read a). Proof. intros k K. unfold read. cbn [asks]. intros o. apply K. Qed.
  Lemma askc_write H e a o : askc H e (write a o). Proof. intros k K. unfold write. cbn [asks]. apply K. Qed.
  Lemma askc_delete H a : askc H true (delete a). Proof. intros k K. unfold delete. cbn [asks]. split; [reflexivity|apply K]. Qed.
  Lemma askc_add H e p : askc H e (add p). Proof. intros k K. unfold add. cbn [asks]. apply K. Qed.
  Lemma askc_get H e h : h <> 0 -> H = Some h -> askc H e (get h). Proof. intros H0 HH k K. unfold get. cbn [asks]. split; [exact H0|]. split; [exact HH|exact K]. Qed.

  Ltac go := repeat first
    [ apply askc_next; [|intros ?] | apply askc_value | apply askc_throw | apply askc_undef | apply askc_result | apply askc_check | apply askc_new
    | apply askc_read | apply askc_write | apply askc_delete | apply askc_add | apply askc_get; [assumption|assumption]
    | match goal with
      | |- askc _ _ (match ?x with _ => _ end) => destruct x
      | |- askc _ _ (let (_, _) := ?x in _) => destruct x
      end ].
  Lemma asks_guarded {A} H e er (conv : A -> answer) (body : code A) : (er = true -> askc H e body) -> asks H e (guarded what er conv body).
  Proof.
    intros Hb. unfold guarded. destruct er; [|exact Logic.I]. apply (Hb eq_refl). intros [a|x|]; [exact Logic.I| |exact Logic.I].
    assert (Q : askc H e (new_error what x)) by (unfold new_error; go). apply Q. intros [h|y|]; exact Logic.I.
  Qed.
  Lemma asks_unguarded {A} H e (conv : A -> answer) (body : code A) : askc H e body -> asks H e (unguarded conv body).
  Proof. intros Hb. unfold unguarded. apply Hb. intros [a|x|]; exact Logic.I. Qed.
  (** The functions that remove a handle. *)
  Definition askd {A} (H : option Z) (m : code A) : Prop := forall k, (forall H' r, asks H' true (k r)) -> asks H true (m k).
  Lemma askd_destroy (f : Z -> obj -> code unit) h : h <> 0 -> (forall p o, askc None true (f p o)) ->
    askd (Some h) (next (get h) (fun p => next (remove h) (fun _ => next (read p) (fun o => f p o)))).
  Proof.
    intros H0 Hf k K. unfold next, get, remove, read. cbn [asks]. split; [exact H0|]. split; [reflexivity|]. intros [p|x|]; [|apply K|apply K].
    cbn [asks]. split; [reflexivity|]. split; [exact H0|]. split; [reflexivity|]. intros [z|x|]; [|apply K|apply K]. cbn [asks]. intros o. apply Hf. apply K.
  Qed.
  Lemma asks_guarded_d {A} H er (conv : A -> answer) (body : code A) : (er = true -> askd H body) -> asks H er (guarded what er conv body).
  Proof.
    intros Hb. unfold guarded. destruct er; [|exact Logic.I]. apply (Hb eq_refl). intros H' [a|x|]; [exact Logic.I| |exact Logic.I].
    assert (Q : askc H' true (new_error what x)) by (unfold new_error; go). apply Q. intros [h|y|]; exact Logic.I.
  Qed.
  Lemma asks_unguarded_d {A} H (conv : A -> answer) (body : code A) : askd H body -> asks H true (unguarded conv body).
  Proof. intros Hb. unfold unguarded. apply Hb. intros H' [a|x|]; exact Logic.I. Qed.
  Lemma askd_check {A} h (f : unit -> code A) : (h <> 0 -> askd (Some h) (f tt)) -> askd (if h =? 0 then None else Some h) (next (check (negb (h =? 0))) f).
  Proof. intros Hf k K. unfold next, check. destruct (Z.eqb_spec h 0) as [E|E]; cbn [negb]; [apply K|]. apply (Hf E). exact K. Qed.
  Lemma askc_handle {A} e h (f : unit -> code A) : (h <> 0 -> askc (Some h) e (f tt)) -> askc (if h =? 0 then None else Some h) e (next (check (negb (h =? 0))) f).
  Proof. intros Hf k K. unfold next, check. destruct (Z.eqb_spec h 0) as [E|E]; cbn [negb]; [apply K|]. apply (Hf E). exact K. Qed.

  Lemma program_asks er c : asks (handle_of c) (ends er c) (PROGRAM er c).
  Proof.
    destruct c; unfold ends; cbn [program handle_of errorless]; rewrite ?orb_false_r, ?orb_true_r, ?andb_true_r, ?andb_false_r; cbn [andb].
    - apply asks_guarded; intros Er. unfold x_create_estimator. go.
    - apply asks_guarded; intros Er. unfold x_create_estimator_default. go.
    - apply asks_guarded_d. intros _. unfold x_destroy_estimator. apply askd_check. intros H0. refine (askd_destroy (fun p o => match o with OEst _ => delete p | _ => undef end) h H0 _). intros p o. go.
    - apply asks_guarded; intros Er. unfold x_get_state, the_est. apply askc_handle. intros H0. assert (E : Some h = Some h) by reflexivity. go.
    - apply asks_guarded; intros Er. unfold x_is_training_complete, the_est. apply askc_handle. intros H0. assert (E : Some h = Some h) by reflexivity. go.
    - apply asks_guarded; intros Er. unfold x_fit, the_est. apply askc_handle. intros H0. assert (E : Some h = Some h) by reflexivity. go.
    - apply asks_guarded; intros Er. unfold x_fit_buffer, the_est. apply askc_handle. intros H0. assert (E : Some h = Some h) by reflexivity. go.
    - apply asks_guarded; intros Er. unfold x_est_call, the_est. apply askc_handle. intros H0. assert (E : Some h = Some h) by reflexivity. go.
    - apply asks_guarded; intros Er. unfold x_est_call, the_est. apply askc_handle. intros H0. assert (E : Some h = Some h) by reflexivity. go.
    - apply asks_guarded; intros Er. unfold x_create_transformer, the_est. apply askc_handle. intros H0. assert (E : Some h = Some h) by reflexivity. go.
    - apply asks_guarded; intros Er. unfold x_load. go.
    - apply asks_guarded_d. intros _. unfold x_destroy_transformer. apply askd_check. intros H0. refine (askd_destroy (fun p o => match o with OTrans _ => delete p | _ => undef end) h H0 _). intros p o. go.
    - apply asks_guarded; intros Er. unfold x_save, the_trans. apply askc_handle. intros H0. assert (E : Some h = Some h) by reflexivity. go.
    - apply asks_guarded; intros Er. subst er. unfold x_destroy_save_data. go.
    - apply asks_guarded; intros Er. unfold x_transform, the_trans. apply askc_handle. intros H0. assert (E : Some h = Some h) by reflexivity. go.
    - apply asks_guarded; intros Er. unfold x_transform_many, the_trans, x_strings. apply askc_handle. intros H0. assert (E : Some h = Some h) by reflexivity. go.
    - apply asks_guarded; intros Er. unfold x_flush, the_trans, x_strings. apply askc_handle. intros H0. assert (E : Some h = Some h) by reflexivity. go.
    - apply asks_guarded; intros Er. subst er. unfold x_destroy_transformed. go.
    - destruct (Z.eqb_spec h 0) as [E0|H0]; cbn [orb]; [exact Logic.I|]. destruct (negb out); [exact Logic.I|]. apply asks_unguarded.
      unfold x_get_error_string. assert (E : Some h = Some h) by reflexivity. go.
    - apply asks_unguarded. unfold x_destroy_error_string. go.
    - destruct (Z.eqb_spec h 0) as [E0|H0]; [exact Logic.I|]. apply asks_unguarded_d.
      unfold x_destroy_error. refine (askd_destroy (fun p o => match o with OText _ => delete p | _ => undef end) h H0 _). intros p o. go.
  Qed.

  (** The steps of a program that asks for [H] find it, and keep what they do not give back. *)
  Notation heap := (list (Z * obj)).
  Definition tied (H : option Z) (t : ptable) : Prop := forall h, H = Some h -> pt_find t h <> None.
  Definition kept (t t' : ptable) (hp hp' : heap) : Prop :=
    (forall h, pt_find t h <> None -> pt_find t' h <> None) /\ (forall a, h_find hp a <> None -> h_find hp' a <> None).
  Lemma sub_asks H e t hp p t' hp' p' : asks H e p -> tied H t -> sub (t, hp, p) (t', hp', p') ->
    exists H', asks H' e p' /\ tied H' t' /\ (e = false -> kept t t' hp hp').
  Proof.
    intros A T Q. inversion Q as [t0 h0 h1 q q' M|t0 h0 o k B|t0 h0 q d k P0 D F|t0 h0 h k H0|t0 h0 h q k H0 F]; subst.
    - exists H. assert (X : asks H e p' /\ (e = false -> kept t' t' hp hp')); [|split; [exact (proj1 X)|split; [exact T|exact (proj2 X)]]].
      inversion M as [g o k a A0 F|g a k o F|g a k F|g a o x k F|g a o k F|g a x k F|g a k F]; subst; cbn [asks] in A.
      + split; [apply A|]. intros _. split; [auto|]. intros b. cbn [h_find]. destruct (a =? b); [discriminate|auto].
      + split; [apply A|]. intros _. split; auto.
      + split; [exact Logic.I|]. intros _. split; auto.
      + split; [exact A|]. intros _. split; [auto|]. intros b. rewrite (h_find_store _ _ _ _ _ F). destruct (b =? a); [discriminate|auto].
      + split; [exact Logic.I|]. intros _. split; auto.
      + split; [apply A|]. intros E. destruct A as [A _]. congruence.
      + split; [exact Logic.I|]. intros _. split; auto.
    - destruct o as [x|h|h]; cbn [asks bad_argument] in *.
      + exists H. split; [apply A|]. split; [exact T|]. intros _. split; auto.
      + apply Z.eqb_eq in B. destruct A as [A _]. contradiction.
      + apply Z.eqb_eq in B. destruct A as (_ & A & _). contradiction.
    - exists H. cbn [asks] in A. split; [apply A|]. split; [intros h Hh; cbn [pt_find]; destruct (d =? h); [discriminate|exact (T h Hh)]|].
      intros _. split; [|auto]. intros h. cbn [pt_find]. destruct (d =? h); [discriminate|auto].
    - exists H. cbn [asks] in A. destruct A as (_ & _ & A). split; [apply A|]. split; [exact T|]. intros _. split; auto.
    - exists None. cbn [asks] in A. destruct A as (E & _ & _ & A). split; [apply A|]. split; [intros x; discriminate|]. intros. congruence.
  Qed.
End Asks.

(** *** A map made of parts *)
Section Parts.
  Context {A : Type}.
  Definition parted (F : Z -> option A) (G : option nat -> Z -> option A) : Prop :=
    (forall k v, F k = Some v <-> exists q, G q k = Some v) /\ (forall k q q' v v', G q k = Some v -> G q' k = Some v' -> q = q').
  Lemma parted_find F G q k v : parted F G -> G q k = Some v -> F k = Some v.
  Proof. intros [P _] H. apply P. eauto. Qed.
  Lemma parted_none F G q k : parted F G -> F k = None -> G q k = None.
  Proof. intros P H. destruct (G q k) as [v|] eqn:E; [|reflexivity]. rewrite (parted_find _ _ _ _ _ P E) in H. discriminate. Qed.
  Lemma parted_other F G q q' k : parted F G -> G q k <> None -> q' <> q -> G q' k = None.
  Proof. intros [_ P] H N. destruct (G q' k) as [v|] eqn:E; [|reflexivity]. destruct (G q k) as [v'|] eqn:E'; [|contradiction]. destruct (N (P _ _ _ _ _ E E')). Qed.
  (** One part changes at one place, which is its own or new. *)
  Lemma parted_update F G F' G' q a x : parted F G -> (G q a <> None \/ F a = None) ->
    (forall k, F' k = if k =? a then x else F k) -> (forall k, G' q k = if k =? a then x else G q k) -> (forall q' k, q' <> q -> G' q' k = G q' k) ->
    parted F' G'.
  Proof.
    intros P Own EF EG EO. pose proof P as [P1 P2].
    assert (Oth : forall q', q' <> q -> G q' a = None).
    { intros q' N. destruct Own as [Own|Own]; [exact (parted_other F G q q' a P Own N)|exact (parted_none F G q' a P Own)]. }
    assert (Dec : forall q' : option nat, {q' = q} + {q' <> q}) by (intros q'; decide equality; apply Nat.eq_dec).
    split.
    - intros k v. rewrite EF. destruct (Z.eqb_spec k a) as [->|N].
      + split.
        * intros ->. exists q. rewrite EG, Z.eqb_refl. reflexivity.
        * intros (q' & E). destruct (Dec q') as [->|Nq]; [rewrite EG, Z.eqb_refl in E; exact E|]. rewrite (EO _ _ Nq), (Oth _ Nq) in E. discriminate.
      + rewrite P1. split; intros (q' & E); exists q'; (destruct (Dec q') as [->|Nq]; [rewrite EG in *; destruct (Z.eqb_spec k a); [contradiction|exact E]|rewrite (EO _ _ Nq) in *; exact E]).
    - assert (Back : forall k q' v, G' q' k = Some v -> (k = a /\ q' = q) \/ (k <> a /\ G q' k = Some v)).
      { intros k q' v E. destruct (Dec q') as [->|Nq].
        - rewrite EG in E. destruct (Z.eqb_spec k a) as [->|N]; [left; auto|right; auto].
        - rewrite (EO _ _ Nq) in E. destruct (Z.eq_dec k a) as [->|N]; [rewrite (Oth _ Nq) in E; discriminate|right; auto]. }
      intros k q1 q2 v1 v2 E1 E2. destruct (Back _ _ _ E1) as [[-> ->]|[N1 B1]]; destruct (Back _ _ _ E2) as [[K2 ->]|[N2 B2]]; try congruence. exact (P2 _ _ _ _ _ B1 B2).
  Qed.
  (** Some of what nobody uses goes to a thread. *)
  Lemma parted_give F G G' i (sel : Z -> bool) : parted F G -> (forall k, G (Some i) k = None) ->
    (forall k, G' None k = if sel k then None else G None k) -> (forall k, G' (Some i) k = if sel k then G None k else None) ->
    (forall q k, q <> None -> q <> Some i -> G' q k = G q k) -> parted F G'.
  Proof.
    intros [P1 P2] Em E0 E1 E2.
    assert (Back : forall k q v, G' q k = Some v -> (q = None /\ sel k = false /\ G None k = Some v) \/ (q = Some i /\ sel k = true /\ G None k = Some v) \/ (q <> None /\ q <> Some i /\ G q k = Some v)).
    { intros k [j|] v E.
      - destruct (Nat.eq_dec j i) as [->|N].
        + rewrite E1 in E. destruct (sel k) eqn:Sk; [right; left; auto|discriminate].
        + rewrite E2 in E; [|discriminate|congruence]. right. right. split; [discriminate|]. split; [congruence|exact E].
      - rewrite E0 in E. destruct (sel k) eqn:Sk; [discriminate|]. left. auto. }
    split.
    - intros k v. rewrite P1. split.
      + intros ([j|] & E).
        * destruct (Nat.eq_dec j i) as [->|N]; [rewrite Em in E; discriminate|]. exists (Some j). rewrite E2; [exact E|discriminate|congruence].
        * destruct (sel k) eqn:Sk; [exists (Some i); rewrite E1, Sk; exact E|exists None; rewrite E0, Sk; exact E].
      + intros (q & E). destruct (Back _ _ _ E) as [(-> & _ & B)|[(-> & _ & B)|(_ & _ & B)]]; eauto.
    - intros k q1 q2 v1 v2 B1 B2.
      destruct (Back _ _ _ B1) as [(-> & S1 & C1)|[(-> & S1 & C1)|(N1 & M1 & C1)]]; destruct (Back _ _ _ B2) as [(-> & S2 & C2)|[(-> & S2 & C2)|(N2 & M2 & C2)]]; try congruence.
      + destruct (N2 (eq_sym (P2 _ _ _ _ _ C1 C2))).
      + destruct (N2 (eq_sym (P2 _ _ _ _ _ C1 C2))).
      + destruct (N1 (P2 _ _ _ _ _ C1 C2)).
      + destruct (N1 (P2 _ _ _ _ _ C1 C2)).
      + exact (P2 _ _ _ _ _ C1 C2).
  Qed.
  (** All that a thread has goes to what nobody uses. *)
  Lemma parted_back F G G' i : parted F G -> (forall k, G' None k = match G (Some i) k with Some v => Some v | None => G None k end) -> (forall k, G' (Some i) k = None) ->
    (forall q k, q <> None -> q <> Some i -> G' q k = G q k) -> parted F G'.
  Proof.
    intros [P1 P2] E0 E1 E2.
    assert (Back : forall k q v, G' q k = Some v -> (q = None /\ (G None k = Some v \/ G (Some i) k = Some v)) \/ (q <> None /\ q <> Some i /\ G q k = Some v)).
    { intros k [j|] v E.
      - destruct (Nat.eq_dec j i) as [->|N]; [rewrite E1 in E; discriminate|]. rewrite E2 in E; [|discriminate|congruence]. right. split; [discriminate|]. split; [congruence|exact E].
      - rewrite E0 in E. left. split; [reflexivity|]. destruct (G (Some i) k); [right; exact E|left; exact E]. }
    split.
    - intros k v. rewrite P1. split.
      + intros ([j|] & E).
        * destruct (Nat.eq_dec j i) as [->|N]; [exists None; rewrite E0, E; reflexivity|]. exists (Some j). rewrite E2; [exact E|discriminate|congruence].
        * exists None. rewrite E0. destruct (G (Some i) k) as [v'|] eqn:E'; [|exact E]. discriminate (P2 _ _ _ _ _ E E').
      + intros (q & E). destruct (Back _ _ _ E) as [(-> & [B|B])|(_ & _ & B)]; eauto.
    - intros k q1 q2 v1 v2 B1 B2.
      destruct (Back _ _ _ B1) as [(-> & C1)|(N1 & M1 & C1)]; destruct (Back _ _ _ B2) as [(-> & C2)|(N2 & M2 & C2)]; try congruence.
      + destruct C1 as [C1|C1]; [destruct (N2 (eq_sym (P2 _ _ _ _ _ C1 C2)))|destruct (M2 (eq_sym (P2 _ _ _ _ _ C1 C2)))].
      + destruct C2 as [C2|C2]; [destruct (N1 (P2 _ _ _ _ _ C1 C2))|destruct (M1 (P2 _ _ _ _ _ C1 C2))].
      + exact (P2 _ _ _ _ _ C1 C2).
  Qed.
End Parts.
