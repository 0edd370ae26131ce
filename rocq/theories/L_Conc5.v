(** Races, leaks and deadlocks. *)
From Verif Require Import Base M_PointerTable M_PtConc M_Estimator M_CApi S_CApi L_PointerTable L_CApi L_CApi2 L_CApi3 M_Conc S_PtConc S_Conc L_PtConc L_Conc L_Conc2 L_Conc3 L_Conc4.
Open Scope Z_scope.

Section Main.
  Context {S In Tr Arg Val : Type}.
  Variable I : impl S In Tr.
  Variable construct : res S.
  Variable value_of : Arg -> res In.
  Variable save_tr : Tr -> res (list Z).
  Variable load_tr : list Z -> res Tr.
  Variable exec_one : Tr -> In -> Tr * res Val.
  Variable exec_many : Tr -> In -> Tr * res (list (list Z)).
  Variable flush_many : Tr -> Tr * res (list (list Z)).
  Variable what : exn -> list Z.
  Notation obj := (@obj S Tr).
  Notation call := (@call Arg).
  Notation answer := (@answer Val).
  Notation prog := (@prog S Tr Val).
  Notation code := (@code S Tr Val).
  Notation conf := (@conf S Tr Val).
  Notation heap := (list (Z * obj)).
  Notation PROGRAM := (@program S In Tr Arg Val I construct value_of save_tr load_tr exec_one exec_many flush_many what).
  Notation CSTEP := (@cstep S In Tr Arg Val I construct value_of save_tr load_tr exec_one exec_many flush_many what).
  Notation CRUNS := (@cruns S In Tr Arg Val I construct value_of save_tr load_tr exec_one exec_many flush_many what).
  Notation BOOK_AFTER := (@book_after S In Tr Arg Val I construct value_of save_tr load_tr exec_one exec_many flush_many what).
  Notation DISCIPLINED := (@disciplined S In Tr Arg Val I construct value_of save_tr load_tr exec_one exec_many flush_many what).

  Section Defined.
  Hypothesis Hdef : methods_defined I construct value_of save_tr load_tr exec_one exec_many flush_many.
  Lemma no_race hist c i a : CRUNS c_start hist c -> DISCIPLINED new_book hist -> touches (c_threads c i) = Some a ->
    h_find (c_heap c) a <> None /\ forall j, touches (c_threads c j) = Some a -> j = i.
  Proof using Hdef.
    intros R D Ta. destruct (runs_J I construct value_of save_tr load_tr exec_one exec_many flush_many what Hdef hist c R D) as (_ & _ & Q & Hj).
    assert (Own : forall j, touches (c_threads c j) = Some a -> h_find (snd (Q (Some j))) a <> None).
    { intros j Tj. destruct (c_threads c j) as [|p|q k] eqn:E; try discriminate. eapply own_object; eassumption. }
    pose proof (Own i Ta) as Oi. pose proof (j_heap _ _ _ _ _ _ _ _ _ _ _ _ Hj) as PH. split.
    - destruct (h_find (snd (Q (Some i))) a) as [o|] eqn:F; [|contradiction]. rewrite (parted_find _ _ (Some i) _ _ PH F). discriminate.
    - intros j Tj. pose proof (Own j Tj) as Oj. destruct (Nat.eq_dec j i) as [E|N]; [exact E|]. exfalso. apply Oj.
      apply (parted_other _ _ (Some i) (Some j) a PH Oi). congruence.
  Qed.

  Lemma find_none_nil (t : ptable) : (forall h, pt_find t h = None) -> t = [].
  Proof using. destruct t as [|[h p] t]; [reflexivity|]. intros H. specialize (H h). cbn [pt_find] in H. rewrite Z.eqb_refl in H. discriminate. Qed.
  Lemma hfind_none_nil (t : heap) : (forall h, h_find t h = None) -> t = [].
  Proof using. destruct t as [|[h p] t]; [reflexivity|]. intros H. specialize (H h). cbn [h_find] in H. rewrite Z.eqb_refl in H. discriminate. Qed.
  Lemma conc_no_leak hist c : CRUNS c_start hist c -> DISCIPLINED new_book hist -> never_lost I construct ->
    (forall i, c_threads c i = Idle) -> empty (unused (BOOK_AFTER new_book hist)) -> c_heap c = [] /\ c_table c = [].
  Proof using Hdef.
    intros R D NL Id Em. destruct (runs_J I construct value_of save_tr load_tr exec_one exec_many flush_many what Hdef hist c R D) as (_ & _ & Q & Hj).
    assert (P : forall q, Q q = ([], [])).
    { intros [i|].
      - pose proof (j_threads _ _ _ _ _ _ _ _ _ _ _ _ Hj i) as Th. unfold thread_ok in Th. destruct (begun (BOOK_AFTER new_book hist) i) as [[[er cl] M]|].
        + destruct Th as (p & t & hp & H & X & _). rewrite Id in X. discriminate.
        + apply Th.
      - destruct (empty_heap I construct _ _ NL (j_pool _ _ _ _ _ _ _ _ _ _ _ _ Hj) Em) as [E1 E2]. cbn [w_heap w_table] in E1, E2. rewrite (surjective_pairing (Q None)), E1, E2. reflexivity. }
    split.
    - apply hfind_none_nil. intros a. destruct (h_find (c_heap c) a) as [o|] eqn:F; [|reflexivity]. apply (j_heap _ _ _ _ _ _ _ _ _ _ _ _ Hj) in F as (q & F). rewrite P in F. discriminate.
    - apply find_none_nil. intros a. destruct (pt_find (c_table c) a) as [o|] eqn:F; [|reflexivity]. apply (j_table _ _ _ _ _ _ _ _ _ _ _ _ Hj) in F as (q & F). rewrite P in F. discriminate.
  Qed.
  End Defined.

  (** *** How often a program uses the pointer table *)
  Fixpoint fewer (n : nat) (p : prog) {struct p} : Prop :=
    match p with
    | Ret _ => True
    | New o k => forall a, fewer n (k a)
    | Read a k => forall o, fewer n (k o)
    | Write _ _ k => fewer n k
    | Delete _ k => fewer n k
    | Table _ k => match n with O => False | Datatypes.S m => forall r, fewer m (k r) end
    end.
  Lemma fewer_more p : forall n m, fewer n p -> (n <= m)%nat -> fewer m p.
  Proof using.
    induction p as [x|o k IH|a k IH|a o k IH|a k IH|o k IH]; intros n m F L; cbn [fewer] in *; try (intros; eapply IH; eauto; fail); [exact Logic.I|].
    destruct n as [|n]; [contradiction|]. destruct m as [|m]; [lia|]. intros r. eapply IH; [apply F|lia].
  Qed.
  Definition cost (n : nat) {A} (m : code A) : Prop := forall k b, (forall r, fewer b (k r)) -> fewer (n + b) (m k).
  Lemma cost_value {A} (a : A) : cost 0 (value a). Proof using. intros k b K. apply K. Qed.
  Lemma cost_throw {A} e : cost 0 (throw (A := A) e). Proof using. intros k b K. apply K. Qed.
  Lemma cost_undef {A} : cost 0 (undef (A := A)). Proof using. intros k b K. apply K. Qed.
  Lemma cost_result {A} (r : res A) : cost 0 (M_Conc.result r). Proof using. intros k b K. apply K. Qed.
  Lemma cost_check x : cost 0 (check x). Proof using. intros k b K. unfold check. destruct x; apply K. Qed.
  Lemma cost_new o : cost 0 (new o). Proof using. intros k b K. unfold new. cbn [fewer Nat.add]. intros a. apply K. Qed.
  Lemma cost_read a : cost 0 (read a). Proof using. intros k b K. unfold read. cbn [fewer Nat.add]. intros o. apply K. Qed.
  Lemma cost_write a o : cost 0 (write a o). Proof using. intros k b K. unfold write. cbn [fewer Nat.add]. apply K. Qed.
  Lemma cost_delete a : cost 0 (delete a). Proof using. intros k b K. unfold delete. cbn [fewer Nat.add]. apply K. Qed.
  Lemma cost_add p : cost 1 (add p). Proof using. intros k b K. unfold add. cbn [fewer Nat.add]. exact K. Qed.
  Lemma cost_get p : cost 1 (get p). Proof using. intros k b K. unfold get. cbn [fewer Nat.add]. exact K. Qed.
  Lemma cost_remove p : cost 1 (remove p). Proof using. intros k b K. unfold remove. cbn [fewer Nat.add]. intros r. apply K. Qed.
  Lemma cost_weak {A} n m (x : code A) : cost n x -> (n <= m)%nat -> cost m x.
  Proof using. intros C L k b K. eapply fewer_more; [apply C, K|apply Nat.add_le_mono_r; exact L]. Qed.
  Lemma cost_next {A B} n m (x : code A) (f : A -> code B) : cost n x -> (forall a, cost m (f a)) -> cost (n + m) (next x f).
  Proof using.
    intros Cx Cf k b K. unfold next. rewrite <- Nat.add_assoc. apply Cx. intros [a|e|]; [apply Cf, K| |]; (eapply fewer_more; [apply K|apply Nat.le_add_l]).
  Qed.
  Lemma cost_next0 {A B} m (x : code A) (f : A -> code B) : cost 0 x -> (forall a, cost m (f a)) -> cost m (next x f).
  Proof using. apply cost_next. Qed.
  Lemma cost_next1 {A B} m (x : code A) (f : A -> code B) : cost 1 x -> (forall a, cost m (f a)) -> cost (Datatypes.S m) (next x f).
  Proof using. apply (cost_next 1). Qed.
  Lemma fewer_guarded {A} n er (conv : A -> answer) (body : code A) : cost n body -> fewer (n + 1) (guarded what er conv body).
  Proof using.
    intros C. unfold guarded. destruct er; [|destruct n; exact Logic.I]. apply C. intros [a|e|]; [exact Logic.I| |exact Logic.I].
    unfold new_error, next, new, add. cbn [fewer]. intros a r. destruct r; exact Logic.I.
  Qed.
  Lemma fewer_unguarded {A} n (conv : A -> answer) (body : code A) : cost n body -> fewer n (unguarded conv body).
  Proof using. intros C. unfold unguarded. rewrite <- (Nat.add_0_r n). apply C. intros [a|e|]; exact Logic.I. Qed.
  Ltac leaf := first [apply cost_value|apply cost_throw|apply cost_undef|apply cost_result|apply cost_check|apply cost_new|apply cost_read|apply cost_write|apply cost_delete].
  Ltac one := first [apply cost_add|apply cost_get|apply cost_remove].
  Ltac go := repeat first
    [ apply cost_next0; [first [leaf|match goal with |- cost _ (next _ _) => fail end]|intros ?] | apply cost_next1; [one|intros ?] | leaf | one
    | (eapply cost_weak; [first [leaf|one]|repeat constructor])
    | match goal with
      | |- cost _ (match ?x with _ => _ end) => destruct x
      | |- cost _ (let (_, _) := ?x in _) => destruct x
      end ].
  Lemma cost_est h : cost 1 (the_est h). Proof using. unfold the_est. go. Qed.
  Lemma cost_trans h : cost 1 (the_trans h). Proof using. unfold the_trans. go. Qed.
  Ltac one ::= first [apply cost_add|apply cost_get|apply cost_remove|apply cost_est|apply cost_trans].
  Lemma program_fewer er c : fewer 3 (PROGRAM er c).
  Proof using.
    destruct c; cbn [program]; try (apply (fewer_guarded 2)).
    - unfold x_create_estimator. go.
    - unfold x_create_estimator_default. go.
    - unfold x_destroy_estimator. go.
    - unfold x_get_state. go.
    - unfold x_is_training_complete. go.
    - unfold x_fit. go.
    - unfold x_fit_buffer. go.
    - unfold x_est_call. go.
    - unfold x_est_call. go.
    - unfold x_create_transformer. go.
    - unfold x_load. go.
    - unfold x_destroy_transformer. go.
    - unfold x_save. go.
    - unfold x_destroy_save_data. go.
    - unfold x_transform. go.
    - unfold x_transform_many, x_strings. go.
    - unfold x_flush, x_strings. go.
    - unfold x_destroy_transformed. go.
    - destruct ((h =? 0) || negb out); [exact Logic.I|]. apply fewer_unguarded. unfold x_get_error_string. go.
    - apply fewer_unguarded. unfold x_destroy_error_string. go.
    - destruct (h =? 0); [exact Logic.I|]. apply fewer_unguarded. unfold x_destroy_error. go.
  Qed.
  Definition short (c : conf) : Prop := forall i p, now (c_threads c i) = Some p -> fewer 3 p.
  Lemma fewer_back (o : tcall) k r : fewer 3 (Table o k) -> fewer 3 (k r).
  Proof using. cbn [fewer]. intros F. eapply fewer_more; [apply F|lia]. Qed.
  Lemma step_short c es c' : CSTEP c es c' -> short c -> short c'.
  Proof using.
    intros St Sh. inversion St as [c0 i er f H|c0 i p p' hp' H M|c0 i o k H|c0 i q q' k l' t' H M|c0 i r k H|c0 i x H]; subst; clear St;
      intros j y; cbn [c_threads]; (destruct (Nat.eq_dec j i) as [->|N]; [rewrite put_same; cbn [now]|rewrite put_other by exact N; apply Sh]).
    - intros [= <-]. apply program_fewer.
    - intros [= <-]. specialize (Sh i p). rewrite H in Sh. specialize (Sh eq_refl). inversion M; subst; cbn [fewer] in *; auto; try exact Logic.I.
    - intros [= <-]. apply (Sh i). rewrite H. reflexivity.
    - specialize (Sh i). rewrite H in Sh. intros E. inversion M; subst; cbn [now] in *; try (apply Sh; exact E); injection E as <-; eapply fewer_back; apply Sh; reflexivity.
    - intros [= <-]. apply (Sh i). rewrite H. reflexivity.
    - discriminate.
  Qed.
  Lemma runs_short hist c : CRUNS c_start hist c -> short c.
  Proof using.
    intros R. remember c_start as c0 eqn:E0. induction R as [c|c es es' c' c2 R IH St]; subst; [intros i p; discriminate|exact (step_short _ _ _ St (IH eq_refl))].
  Qed.

  (** *** No deadlock *)
  Lemma cruns_trans c es c' es' c2 : CRUNS c es c' -> CRUNS c' es' c2 -> CRUNS c (es ++ es') c2.
  Proof using.
    intros R R'. induction R' as [c'|c' fs fs' d d2 R' IH St]; [rewrite app_nil_r; exact R|]. rewrite app_assoc. eapply cruns_more; [apply IH, R|exact St].
  Qed.
  Lemma cruns_one c es c' : CSTEP c es c' -> CRUNS c es c'.
  Proof using. intros St. exact (cruns_more _ _ _ _ _ _ _ _ _ c [] es c c' (cruns_none _ _ _ _ _ _ _ _ _ c) St). Qed.
  Lemma silent c d es c2 : CSTEP c [] d -> CRUNS d es c2 -> CRUNS c es c2.
  Proof using. intros St R. change es with ([] ++ es). eapply cruns_trans; [apply cruns_one; exact St|exact R]. Qed.
  Definition keeps_k (c c' : conf) : Prop :=
    c_heap c' = c_heap c /\ forall j, match c_threads c j with In_table q k => exists q', c_threads c' j = In_table q' k | x => c_threads c' j = x end.
  Lemma keeps_trans c d e : keeps_k c d -> keeps_k d e -> keeps_k c e.
  Proof using.
    intros [A1 A2] [B1 B2]. split; [congruence|]. intros j. specialize (A2 j). specialize (B2 j). destruct (c_threads c j) as [|p|q k].
    - rewrite A2 in B2. exact B2.
    - rewrite A2 in B2. exact B2.
    - destruct A2 as (q' & A2). rewrite A2 in B2. exact B2.
  Qed.
  Lemma lift_runs d ts d' : truns d ts d' -> ts = [] -> forall c, shown c d -> exists c', CRUNS c [] c' /\ shown c' d' /\ keeps_k c c'.
  Proof using.
    induction 1 as [d|d ts ts' d1 d2 R IH St]; intros E c Sh.
    - exists c. split; [apply cruns_none|]. split; [exact Sh|]. split; [reflexivity|]. intros j. destruct (c_threads c j); eauto.
    - apply app_eq_nil in E as [E1 E2]. subst. destruct (IH eq_refl c Sh) as (c1 & R1 & (S1 & S2 & S3) & K1).
      inversion St as [|e0 i q q' k' t' H M|]; subst. rewrite S3 in H. destruct (c_threads c1 i) as [|p|q0 k] eqn:Ei; try discriminate. cbn [in_table] in H. injection H as ->.
      exists (mkConf k' t' (c_heap c1) (put (c_threads c1) i (In_table q' k))). split; [|split].
      + change (@nil (@event Arg Val)) with (@nil (@event Arg Val) ++ []). eapply cruns_more; [exact R1|]. eapply c_table_step; [exact Ei|]. rewrite <- S1, <- S2. exact M.
      + split; [reflexivity|]. split; [reflexivity|]. cbn [tc_threads c_threads]. intros j. destruct (Nat.eq_dec j i) as [->|N]; [rewrite !put_same; reflexivity|rewrite !put_other by exact N; apply S3].
      + eapply keeps_trans; [exact K1|]. split; [reflexivity|]. cbn [c_threads]. intros j. destruct (Nat.eq_dec j i) as [->|N].
        * rewrite put_same, Ei. eauto.
        * rewrite put_other by exact N. destruct (c_threads c1 j); eauto.
  Qed.
  Definition showing (c : conf) : tconf := mkTconf (c_lock c) (c_table c) (fun i => in_table (c_threads c i)).
  Lemma showing_shown c : shown c (showing c). Proof using. split; [reflexivity|]. split; reflexivity. Qed.
  (** Thread [i] alone leaves the critical section. *)
  Lemma out_of_section c i q k : c_threads c i = In_table q k -> section q = true -> Z.of_nat (length (c_table c)) < 18446744073709551615 ->
    exists c' r, CRUNS c [] c' /\ c_lock c' = None /\ c_threads c' i = In_table (Left r) k /\ (length (c_table c') <= Datatypes.S (length (c_table c)))%nat /\ (forall j, j <> i -> c_threads c' j = c_threads c j).
  Proof using.
    intros H Sq Room. destruct (leave_section (showing c) i q) as (d & T & D1 & (r & D2) & D3 & D4); [cbn [showing tc_threads]; rewrite H; reflexivity|exact Sq|exact Room|].
    destruct (lift_runs _ _ _ T eq_refl c (showing_shown c)) as (c' & R & (E1 & E2 & E3) & K1 & K2). exists c', r.
    split; [exact R|]. split; [congruence|]. split; [|split; [rewrite <- E2; exact D3|]].
    - specialize (K2 i). rewrite H in K2. destruct K2 as (q' & K2). rewrite E3, K2 in D2. cbn [in_table] in D2. congruence.
    - intros j N. specialize (D4 j N). rewrite E3 in D4. cbn [showing tc_threads] in D4. specialize (K2 j). destruct (c_threads c j) as [|p|q0 k0]; try exact K2.
      destruct K2 as (q' & K2). rewrite K2 in *. cbn [in_table] in D4. congruence.
  Qed.
  Definition finishes (c : conf) (i : nat) : Prop := exists c' x, CRUNS c [Returns i x] c'.
  Lemma finishes_after c d i : CRUNS c [] d -> finishes d i -> finishes c i.
  Proof using. intros R (c' & x & R'). exists c', x. exact (cruns_trans _ [] _ _ _ R R'). Qed.
  Lemma finishes_silent c d i : CSTEP c [] d -> finishes d i -> finishes c i.
  Proof using. intros St. apply finishes_after, cruns_one, St. Qed.
  Lemma fresh_address (hp : heap) : exists a, a <> 0 /\ h_find hp a = None.
  Proof using load_tr. exists (alloc_of [] O (map fst hp)). destruct (alloc_of_ok load_tr [] O (map fst hp)) as [H1 H2]. split; [exact H2|]. apply notin_find. exact H1. Qed.
  Notation MOST := 18446744073709551615.
  (** From the mutex on. *)
  Lemma from_lock c i o k n : (forall r c, c_threads c i = At (k r) -> c_lock c = None -> Z.of_nat (length (c_table c)) + Z.of_nat n < MOST -> finishes c i) ->
    c_threads c i = In_table (Waiting o) k -> c_lock c = None -> Z.of_nat (length (c_table c)) + Z.of_nat (Datatypes.S n) < MOST -> finishes c i.
  Proof using.
    intros IH H L Room. set (d := mkConf (Some i) (c_table c) (c_heap c) (put (c_threads c) i (In_table (Inside o) k))).
    destruct (out_of_section d i (Inside o) k) as (e & r & R & E1 & E2 & E3 & _); [apply put_same|reflexivity|cbn [d c_table]; lia|].
    cbn [d c_table] in E3. eapply finishes_silent; [eapply c_table_step; [exact H|rewrite L; apply move_lock]|]. eapply finishes_after; [exact R|].
    eapply finishes_silent; [eapply c_leave; exact E2|]. apply (IH r); cbn [c_threads c_lock c_table]; [apply put_same|exact E1|lia].
  Qed.
  Lemma from_entry c i o k n : (forall r c, c_threads c i = At (k r) -> c_lock c = None -> Z.of_nat (length (c_table c)) + Z.of_nat n < MOST -> finishes c i) ->
    c_threads c i = In_table (Entered o) k -> c_lock c = None -> Z.of_nat (length (c_table c)) + Z.of_nat (Datatypes.S n) < MOST -> finishes c i.
  Proof using.
    intros IH H L Room. destruct (bad_argument o) eqn:B.
    - eapply finishes_silent; [eapply c_table_step; [exact H|apply move_refuse; exact B]|]. eapply finishes_silent; [eapply c_leave; apply put_same|].
      apply (IH (Throw InvalidArgument)); cbn [c_threads c_lock c_table]; [apply put_same|exact L|lia].
    - eapply finishes_silent; [eapply c_table_step; [exact H|apply move_enter; exact B]|]. eapply from_lock; [exact IH|cbn [c_threads]; apply put_same|exact L|exact Room].
  Qed.
  Lemma from_code p : forall n c i, c_threads c i = At p -> c_lock c = None -> fewer n p -> Z.of_nat (length (c_table c)) + Z.of_nat n < MOST -> finishes c i.
  Proof using.
    assert (Done : forall c i x, c_threads c i = At (Ret x) -> finishes c i) by (intros c i x H; eexists; exists x; apply cruns_one; apply c_return; exact H).
    induction p as [x|o k IH|a k IH|a o k IH|a k IH|o k IH]; intros n c i H L F Room; cbn [fewer] in F.
    - exact (Done c i x H).
    - destruct (fresh_address (c_heap c)) as (a & A1 & A2). eapply finishes_silent; [eapply c_heap_step; [exact H|apply do_new; eassumption]|].
      apply (IH a n); cbn [c_threads c_lock c_table]; [apply put_same|exact L|apply F|exact Room].
    - destruct (h_find (c_heap c) a) as [o|] eqn:E.
      + eapply finishes_silent; [eapply c_heap_step; [exact H|apply do_read; exact E]|]. apply (IH o n); cbn [c_threads c_lock c_table]; [apply put_same|exact L|apply F|exact Room].
      + eapply finishes_silent; [eapply c_heap_step; [exact H|apply bad_read; exact E]|]. eapply Done. apply put_same.
    - destruct (h_find (c_heap c) a) as [y|] eqn:E.
      + eapply finishes_silent; [eapply c_heap_step; [exact H|eapply do_write; exact E]|]. apply (IH n); cbn [c_threads c_lock c_table]; [apply put_same|exact L|apply F|exact Room].
      + eapply finishes_silent; [eapply c_heap_step; [exact H|apply bad_write; exact E]|]. eapply Done. apply put_same.
    - destruct (h_find (c_heap c) a) as [y|] eqn:E.
      + eapply finishes_silent; [eapply c_heap_step; [exact H|eapply do_delete; exact E]|]. apply (IH n); cbn [c_threads c_lock c_table]; [apply put_same|exact L|apply F|exact Room].
      + eapply finishes_silent; [eapply c_heap_step; [exact H|apply bad_delete; exact E]|]. eapply Done. apply put_same.
    - destruct n as [|n]; [contradiction|]. eapply finishes_silent; [eapply c_enter; exact H|].
      eapply (from_entry _ i o k n); cbn [c_threads c_lock c_table]; [|apply put_same|exact L|exact Room].
      intros r d Hd Ld Rd. exact (IH r n d i Hd Ld (F r) Rd).
  Qed.
  Lemma conc_no_deadlock hist c i : CRUNS c_start hist c -> c_threads c i <> Idle -> Z.of_nat (length (c_table c)) < 18446744073709551611 -> finishes c i.
  Proof using.
    intros R NI Room. destruct (table_facts _ _ _ _ _ _ _ _ _ _ _ R) as [VL _]. pose proof (runs_short _ _ R) as Sh.
    (* the mutex becomes free *)
    assert (Free : exists d p, CRUNS c [] d /\ c_lock d = None /\ Z.of_nat (length (c_table d)) < 18446744073709551612 /\ fewer 3 p /\
      ((c_threads d i = At p) \/ exists o k, p = Table o k /\ (c_threads d i = In_table (Entered o) k \/ c_threads d i = In_table (Waiting o) k) \/ exists r k, p = k r /\ c_threads d i = In_table (Left r) k)).
    { assert (Own : forall q k, c_threads c i = In_table q k -> section q = true -> exists d r, CRUNS c [] d /\ c_lock d = None /\ Z.of_nat (length (c_table d)) < 18446744073709551612 /\ fewer 3 (k r) /\ c_threads d i = In_table (Left r) k).
      { intros q k H Sq. destruct (out_of_section c i q k H Sq) as (d & r & D1 & D2 & D3 & D4 & _); [lia|]. exists d, r. split; [exact D1|]. split; [exact D2|]. split; [lia|]. split; [|exact D3].
        apply (runs_short _ _ (cruns_trans _ _ _ _ _ R D1) i). rewrite D3. reflexivity. }
      assert (Oth : (forall q k, c_threads c i = In_table q k -> section q = false) -> exists d, CRUNS c [] d /\ c_lock d = None /\ Z.of_nat (length (c_table d)) < 18446744073709551612 /\ c_threads d i = c_threads c i).
      { intros Ns. destruct (c_lock c) as [j|] eqn:L; [|exists c; split; [apply cruns_none|]; split; [exact L|]; split; [lia|reflexivity]].
        assert (exists q k, c_threads c j = In_table q k /\ section q = true) as (q & k & Q1 & Q2) by (apply VL; reflexivity).
        assert (N : i <> j) by (intros ->; rewrite (Ns _ _ Q1) in Q2; discriminate).
        destruct (out_of_section c j q k Q1 Q2) as (d & r & D1 & D2 & _ & D4 & D5); [lia|]. exists d. split; [exact D1|]. split; [exact D2|]. split; [lia|]. apply D5. exact N. }
      destruct (c_threads c i) as [|p|q k] eqn:E; [contradiction| |].
      - destruct Oth as (d & D1 & D2 & D3 & D4); [discriminate|]. exists d, p. split; [exact D1|]. split; [exact D2|]. split; [exact D3|]. split; [apply (Sh i); rewrite E; reflexivity|]. left. exact D4.
      - destruct (section q) eqn:Sq.
        + destruct (Own q k eq_refl Sq) as (d & r & D1 & D2 & D3 & D4 & D5). exists d, (k r). split; [exact D1|]. split; [exact D2|]. split; [exact D3|]. split; [exact D4|]. right. exists (TAdd 0), k. right. eauto.
        + destruct Oth as (d & D1 & D2 & D3 & D4); [intros q0 k0 [= <- <-]; exact Sq|]. pose proof (Sh i) as Shi. rewrite E in Shi.
          destruct q as [o|o|o|x y|h|r|r]; try discriminate; cbn [now] in Shi.
          * exists d, (Table o k). split; [exact D1|]. split; [exact D2|]. split; [exact D3|]. split; [exact (Shi _ eq_refl)|]. right. exists o, k. left. auto.
          * exists d, (Table o k). split; [exact D1|]. split; [exact D2|]. split; [exact D3|]. split; [exact (Shi _ eq_refl)|]. right. exists o, k. left. auto.
          * exists d, (k r). split; [exact D1|]. split; [exact D2|]. split; [exact D3|]. split; [exact (Shi _ eq_refl)|]. right. exists (TAdd 0), k. right. eauto. }
    destruct Free as (d & p & D1 & D2 & D3 & D4 & D5). eapply finishes_after; [exact D1|]. clear R NI Room VL Sh D1.
    destruct D5 as [D5|(o & k & [(-> & [D5|D5])|(r & k' & -> & D5)])].
    - eapply from_code; [exact D5|exact D2|exact D4|cbn; lia].
    - cbn [fewer] in D4. eapply (from_entry _ i o k 2); [|exact D5|exact D2|cbn; lia]. intros r e He Le Re. exact (from_code _ 2 e i He Le (D4 r) Re).
    - cbn [fewer] in D4. eapply (from_lock _ i o k 2); [|exact D5|exact D2|cbn; lia]. intros r e He Le Re. exact (from_code _ 2 e i He Le (D4 r) Re).
    - eapply finishes_silent; [eapply c_leave; exact D5|]. eapply (from_code _ 3); [cbn [c_threads]; apply put_same|exact D2|exact D4|cbn [c_table]; lia].
  Qed.
End Main.
