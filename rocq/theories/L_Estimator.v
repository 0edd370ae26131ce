From Verif Require Import Base L_List M_Estimator S_Estimator.

Section L.
  Context {S In Tr : Type}.
  Variable I : impl S In Tr.
  Notation est := (est S).

  Ltac go := repeat match goal with
    | |- context [let (_, _) := ?x in _] => destruct x as [? ?] eqn:?
    | |- context [match ?x with _ => _ end] => destruct x eqn:?
    end.

  Lemma wrong_state_refused (e : est) (o : eop In) :
    allowed o (e_state e) = false -> estep I e o = (e, EThrow RuntimeError).
  Proof.
    destruct o; unfold estep, begin_training, fit, on_data_completed, complete_training, create_transformer, allowed;
      destruct (e_state e); intros H; try discriminate H; reflexivity.
  Qed.

  Lemma step_state (e : est) (o : eop In) :
    allowed o (e_state e) = true ->
    (failed (snd (estep I e o)) /\ e_state (fst (estep I e o)) = e_state e /\ e_created (fst (estep I e o)) = e_created e) \/
    (~ failed (snd (estep I e o)) /\ may_move o (e_state e) (e_state (fst (estep I e o))) = true
       /\ e_created (fst (estep I e o)) = match o with OCreate => true | _ => e_created e end).
  Proof.
    intros H. unfold failed.
    destruct o as [|xs| | |]; destruct e as [st cr s]; cbn [e_state e_created e_impl] in *;
      destruct st; try discriminate H;
      cbn [estep begin_training fit on_data_completed complete_training create_transformer e_state e_created e_impl].
    - destruct (i_begin I s) as [s' [[|]|x|]]; cbn; [right|right|left|left]; repeat split; eauto;
        intros [[? E]|E]; discriminate E.
    - destruct xs as [[|x xs]|]; cbn; [left; repeat split; eauto| |left; repeat split; eauto].
      destruct (i_fit I s (x :: xs)) as [s' [[| |]|y|]]; cbn; [right|right|right|left|left]; repeat split; eauto;
        intros [[? E]|E]; discriminate E.
    - destruct (i_on_data I s) as [s' [[|]|x|]]; cbn; [right|right|left|left]; repeat split; eauto;
        intros [[? E]|E]; discriminate E.
    - cbn. right; repeat split; eauto; intros [[? E]|E]; discriminate E.
    - destruct (i_complete I s) as [s' [u|x|]]; cbn; [right|left|left]; repeat split; eauto;
        intros [[? E]|E]; discriminate E.
    - destruct (i_complete I s) as [s' [u|x|]]; cbn; [right|left|left]; repeat split; eauto;
        intros [[? E]|E]; discriminate E.
    - destruct cr.
      + cbn. left; repeat split; eauto.
      + destruct (i_create I s) as [s' [[t|]|x|]]; cbn; [right|left|left|left]; repeat split; eauto;
          intros [[? E]|E]; discriminate E.
  Qed.

  Lemma may_move_rank (o : eop In) a b : may_move o a b = true -> (rank a <= rank b)%nat.
  Proof. destruct o, a, b; cbn; intros H; try discriminate H; lia. Qed.

  Lemma step_rank (e : est) (o : eop In) : (rank (e_state e) <= rank (e_state (fst (estep I e o))))%nat.
  Proof.
    destruct (allowed o (e_state e)) eqn:A.
    - destruct (step_state e o A) as [(_ & -> & _)|(_ & H & _)]; [lia|now apply (may_move_rank o)].
    - rewrite wrong_state_refused by exact A. cbn. lia.
  Qed.

  (** The states along a history, starting state included, never go backwards. *)
  Lemma run_monotone (ops : list (eop In)) (e : est) :
    StronglySorted (fun a b => (rank a <= rank b)%nat) (e_state e :: map (fun p => e_state (fst p)) (erun I e ops)).
  Proof.
    revert e. induction ops as [|o r IH]; intros e.
    - cbn. constructor; constructor.
    - cbn [erun]. pose proof (step_rank e o) as R. destruct (estep I e o) as [e' x]. cbn [fst] in R.
      cbn [map fst]. specialize (IH e'). constructor; [exact IH|].
      inversion IH as [|? ? _ HF]; subst. constructor; [exact R|].
      eapply Forall_impl; [|exact HF]. cbn. intros a Ha. lia.
  Qed.

  (** C11 *)
  Definition created_out (x : eout Tr) : bool := match x with ETransformer _ => true | _ => false end.
  Definition n_created (e : est) (ops : list (eop In)) : nat :=
    length (filter (fun p => created_out (snd p)) (erun I e ops)).

  Lemma created_step (e : est) (o : eop In) : created_out (snd (estep I e o)) = true ->
    o = OCreate /\ e_state e = Completed /\ e_created e = false /\ e_created (fst (estep I e o)) = true.
  Proof.
    destruct o as [|xs| | |]; cbn [estep];
      [destruct (begin_training I e) as [? []]|destruct (fit I e xs) as [? []]|destruct (on_data_completed I e) as [? []]
      |destruct (complete_training I e) as [? []]|]; cbn; try discriminate.
    unfold create_transformer. destruct e as [st cr s]; cbn. destruct st; cbn; try discriminate.
    destruct cr; cbn; [discriminate|].
    destruct (i_create I s) as [s' [[t|]|x|]]; cbn; try discriminate. auto.
  Qed.
  Lemma created_sticky (e : est) (o : eop In) : e_created e = true -> e_created (fst (estep I e o)) = true.
  Proof.
    intros H. destruct (allowed o (e_state e)) eqn:A.
    - destruct (step_state e o A) as [(_ & _ & ->)|(_ & _ & ->)]; [exact H|now destruct o].
    - now rewrite wrong_state_refused.
  Qed.
  Lemma n_created_zero (ops : list (eop In)) (e : est) : e_created e = true -> n_created e ops = 0%nat.
  Proof.
    revert e. induction ops as [|o r IH]; intros e H; [reflexivity|].
    unfold n_created in *. cbn [erun]. pose proof (created_step e o) as C. pose proof (created_sticky e o H) as K.
    destruct (estep I e o) as [e' x]. cbn [filter fst snd] in *.
    destruct (created_out x); [destruct (C eq_refl) as (_ & _ & C1 & _); congruence|]. now apply IH.
  Qed.
  Lemma n_created_le1 (ops : list (eop In)) (e : est) : (n_created e ops <= 1)%nat.
  Proof.
    revert e. induction ops as [|o r IH]; intros e; [unfold n_created; cbn; lia|].
    pose proof (created_step e o) as C.
    unfold n_created in *. cbn [erun]. destruct (estep I e o) as [e' x]. cbn [filter fst snd] in *.
    destruct (created_out x).
    - destruct (C eq_refl) as (_ & _ & _ & C1). cbn [length].
      pose proof (n_created_zero r e' C1) as Z. unfold n_created in Z. rewrite Z. lia.
    - apply IH.
  Qed.
  Lemma created_only_completed (ops : list (eop In)) (e : est) p : List.In p (erun I e ops) ->
    created_out (snd p) = true -> e_state (fst p) = Completed.
  Proof.
    revert e. induction ops as [|o r IH]; intros e Hin Hc; [contradiction|].
    cbn [erun] in Hin. pose proof (created_step e o) as C.
    pose proof (step_state e o) as SS.
    destruct (estep I e o) as [e' x]. cbn [fst snd] in *.
    destruct Hin as [<-|Hin]; [|eauto]. cbn [fst snd] in *.
    destruct (C Hc) as (-> & St & _). rewrite St in *.
    destruct (SS eq_refl) as [(F & _)|(_ & M & _)].
    - destruct x; try discriminate Hc. destruct F as [[? F]|F]; discriminate F.
    - destruct (e_state e'); try discriminate M. reflexivity.
  Qed.
End L.

(** ** Annotations *)
Lemma name_eqb_eq a b : name_eqb a b = true <-> a = b.
Proof.
  revert b. induction a as [|x a IH]; intros [|y b]; cbn; try (split; [discriminate|discriminate]); [tauto|].
  rewrite andb_true_iff, IH, Z.eqb_eq. split; [intros [-> ->]; reflexivity|intros H; inversion H; auto].
Qed.

Definition anns {Ann} (m : ann_maps Ann) (col : nat) (n : name) : list Ann :=
  match col_find (nth col m []) n with Some l => l | None => [] end.

Lemma nth_update_length {A} (l : list A) i f : length (nth_update l i f) = length l.
Proof. revert i. induction l as [|x l IH]; intros [|i]; cbn; auto. Qed.
Lemma nth_nth_update {A} (l : list A) i j f d : (i < length l)%nat ->
  nth j (nth_update l i f) d = if Nat.eqb i j then f (nth j l d) else nth j l d.
Proof.
  revert i j. induction l as [|x l IH]; intros i j H; [cbn in H; lia|].
  destruct i as [|i], j as [|j]; cbn; auto. apply IH. cbn in H. lia.
Qed.

Lemma col_find_add {Ann} (c : ann_col Ann) n a n' :
  col_find (col_add c n a) n' =
  if name_eqb n n' then Some (match col_find c n with Some l => l ++ [a] | None => [a] end) else col_find c n'.
Proof.
  induction c as [|[m l] r IH]; cbn [col_add col_find].
  - destruct (name_eqb n n') eqn:E; reflexivity.
  - destruct (name_eqb m n) eqn:E1; cbn [col_find].
    + apply name_eqb_eq in E1. subst m. destruct (name_eqb n n'); reflexivity.
    + destruct (name_eqb m n') eqn:E2.
      * destruct (name_eqb n n') eqn:E3; [|reflexivity].
        apply name_eqb_eq in E2, E3. subst. assert (name_eqb n' n' = true) by now apply name_eqb_eq. congruence.
      * exact IH.
Qed.

Lemma add_step_anns {Ann} (m : ann_maps Ann) o col n :
  anns (add_step m o) col n =
  anns m col n ++ match o with
                  | (Some a, c, n') => if Nat.ltb c (length m) && Nat.eqb c col && name_eqb n' n then [a] else []
                  | (None, _, _) => []
                  end.
Proof.
  destruct o as [[[a|] c] n']; unfold add_step, add_annotation; cbn [fst snd]; [|now rewrite app_nil_r].
  destruct (Nat.leb_spec (length m) c) as [H|H].
  - destruct (Nat.ltb_spec c (length m)); [lia|]. cbn. now rewrite app_nil_r.
  - destruct (Nat.ltb_spec c (length m)); [|lia]. cbn [andb].
    unfold anns. rewrite nth_nth_update by lia.
    destruct (Nat.eqb c col) eqn:E; cbn [andb]; [|now rewrite app_nil_r].
    apply Nat.eqb_eq in E. subst c. rewrite col_find_add.
    destruct (name_eqb n' n) eqn:E2; [|now rewrite app_nil_r].
    apply name_eqb_eq in E2. subst n'. destruct (col_find (nth col m []) n); reflexivity.
Qed.
Lemma add_step_length {Ann} (m : ann_maps Ann) o : length (add_step m o) = length m.
Proof.
  destruct o as [[[a|] c] n']; unfold add_step, add_annotation; cbn [fst snd]; auto.
  destruct (Nat.leb _ _); auto. apply nth_update_length.
Qed.

(** What a history added for one column and name. *)
Definition added {Ann} (ncols : nat) (ops : list (option Ann * nat * name)) (col : nat) (n : name) : list Ann :=
  flat_map (fun o => match o with
                     | (Some a, c, n') => if Nat.ltb c ncols && Nat.eqb c col && name_eqb n' n then [a] else []
                     | (None, _, _) => []
                     end) ops.

Lemma add_run_anns {Ann} (ops : list (option Ann * nat * name)) m col n :
  anns (add_run m ops) col n = anns m col n ++ added (length m) ops col n.
Proof.
  unfold add_run. revert m. induction ops as [|o r IH]; intros m; cbn [fold_left].
  - cbn. now rewrite app_nil_r.
  - rewrite IH, add_step_anns, add_step_length. cbn [added flat_map]. now rewrite app_assoc.
Qed.
Lemma add_run_length {Ann} (ops : list (option Ann * nat * name)) m : length (add_run m ops) = length m.
Proof.
  unfold add_run. revert m. induction ops as [|o r IH]; intros m; cbn [fold_left]; auto.
  now rewrite IH, add_step_length.
Qed.

Lemma get_after_adds {Ann} (is_t : Ann -> bool) m ops col n :
  n <> [] -> (col < length m)%nat ->
  get_annotation_data is_t (add_run m ops) col n =
  match find is_t (anns m col n ++ added (length m) ops col n) with Some a => Ok a | None => Throw RuntimeError end.
Proof.
  intros Hn Hc. unfold get_annotation_data, get_annotation. rewrite add_run_length.
  destruct (Nat.leb_spec (length m) col); [lia|].
  destruct n as [|z n]; [contradiction|]. rewrite <- add_run_anns. unfold anns.
  destruct (col_find (nth col (add_run m ops) []) (z :: n)) as [l|]; cbn; [|reflexivity].
  destruct (find is_t l); reflexivity.
Qed.

Lemma get_keeps_answer {Ann} (is_t : Ann -> bool) m ops col n a :
  get_annotation_data is_t m col n = Ok a -> get_annotation_data is_t (add_run m ops) col n = Ok a.
Proof.
  intros H.
  assert (Hc : (col < length m)%nat /\ n <> []).
  { unfold get_annotation_data, get_annotation in H.
    destruct (Nat.leb_spec (length m) col); [discriminate H|]. destruct n; [discriminate H|]. split; [lia|discriminate]. }
  destruct Hc as [Hc Hn].
  rewrite get_after_adds by assumption.
  pose proof (get_after_adds is_t m [] col n Hn Hc) as E. cbn [add_run fold_left] in E.
  change (added (length m) [] col n) with (@nil Ann) in E. rewrite app_nil_r in E.
  change (add_run m []) with m in E. rewrite E in H.
  clear E. induction (anns m col n) as [|x l IH]; cbn [find app] in *; [discriminate H|].
  destruct (is_t x); auto.
Qed.

(** ** Batching *)
Section Batch.
  Context {P In A : Type}.
  Variable pol : policy P In A.
  Variable max_items : nat.
  Hypothesis Hmax : (1 <= max_items)%nat.
  Notation tonly_impl := (tonly_impl pol).

  Definition res_of {X} (r : P * res X) : res P := match r with (p, Ok _) => Ok p | (_, Throw e) => Throw e | (_, UB) => UB end.

  Lemma fit_items_foldM p xs : res_of (fit_items pol p xs) = foldM (p_fit pol) p xs.
  Proof.
    revert p. induction xs as [|x r IH]; intros p; [reflexivity|]. cbn [fit_items foldM].
    destruct (p_fit pol p x); cbn; auto.
  Qed.
  Lemma foldM_app {X Y} (f : X -> Y -> res X) s a b : foldM f s (a ++ b) = do s' <- foldM f s a; foldM f s' b.
  Proof.
    revert s. induction a as [|x r IH]; intros s; [reflexivity|]. cbn [app foldM].
    destruct (f s x); cbn; auto.
  Qed.

  (** Feeding batches is folding the policy over the first [remaining] items. *)
  Lemma feed_eq batches p rem cr : (1 <= rem)%nat -> Forall (fun b => b <> []) batches ->
    feed pol (mkEst Training cr (mkT p true false rem None)) batches =
    do p' <- foldM (p_fit pol) p (firstn rem (concat batches));
    let rem' := (rem - Nat.min rem (length (concat batches)))%nat in
    Ok (mkEst (if Nat.eqb rem' 0 then Finished else Training) cr (mkT p' true false rem' None)).
  Proof.
    revert p rem. induction batches as [|b r IH]; intros p rem Hrem HF.
    - cbn. rewrite firstn_nil. cbn. rewrite Nat.min_0_r, Nat.sub_0_r. destruct rem; [lia|reflexivity].
    - inversion HF as [|? ? Hb HF']; subst. cbn [feed e_state concat].
      unfold fit. cbn [e_state]. destruct b as [|x b]; [contradiction|].
      cbn [i_fit M_Estimator.tonly_impl e_impl e_created]. unfold t_fit. cbn [t_remaining t_pol t_required t_has t_ann].
      set (bb := x :: b) in *.
      pose proof (fit_items_foldM p (firstn (Nat.min rem (length bb)) bb)) as FI.
      rewrite firstn_app, foldM_app.
      replace (firstn rem bb) with (firstn (Nat.min rem (length bb)) bb)
        by (destruct (Nat.le_ge_cases rem (length bb)); [f_equal; lia|rewrite !firstn_all2 by lia; reflexivity]).
      destruct (fit_items pol p (firstn (Nat.min rem (length bb)) bb)) as [p' [u|e|]]; cbn [res_of] in FI; rewrite <- FI; cbn [bind].
      + rewrite app_length.
        destruct (Nat.eqb_spec (rem - Nat.min rem (length bb)) 0) as [Hz|Hnz].
        * (* finished: the rest is ignored *)
          assert (rem <= length bb)%nat by lia.
          replace (rem - length bb)%nat with 0%nat by lia. cbn [firstn foldM bind].
          replace (Nat.min rem (length bb + length (concat r))) with rem by lia.
          rewrite Nat.sub_diag. cbn [Nat.eqb].
          replace (rem - Nat.min rem (length bb))%nat with 0%nat by lia.
          destruct r; reflexivity.
        * rewrite IH by (auto; lia).
          replace (rem - Nat.min rem (length bb))%nat with (rem - length bb)%nat by lia.
          destruct (foldM (p_fit pol) p' (firstn (rem - length bb) (concat r))) as [p2|e|]; cbn [bind]; [|reflexivity|reflexivity].
          replace (rem - length bb - Nat.min (rem - length bb) (length (concat r)))%nat
            with (rem - Nat.min rem (length bb + length (concat r)))%nat by lia.
          reflexivity.
      + reflexivity.
      + reflexivity.
  Qed.

  Lemma trained_eq batches : Forall (fun b => b <> []) batches ->
    trained pol max_items batches =
    do pb <- p_begin pol (p_init pol);
    do p' <- (if snd pb then foldM (p_fit pol) (fst pb) (firstn max_items (concat batches)) else Ok (fst pb));
    do a <- p_complete pol p'; Ok (Some a).
  Proof.
    intros HF. unfold trained, train_batches, begin_training. cbn [est_new e_state e_impl i_begin M_Estimator.tonly_impl].
    unfold t_begin, tonly_new. cbn [t_required negb t_ann t_pol t_remaining].
    destruct (p_begin pol (p_init pol)) as [[p [|]]|e|]; cbn [bind fst snd e_created]; try reflexivity.
    - rewrite feed_eq by auto.
      destruct (foldM (p_fit pol) p (firstn max_items (concat batches))) as [p'|e|]; cbn [bind]; try reflexivity.
      set (st := if Nat.eqb _ 0 then Finished else Training).
      unfold on_data_completed. cbn [e_state].
      destruct st eqn:Est; subst st; try (destruct (Nat.eqb _ 0); discriminate Est).
      + cbn [i_on_data M_Estimator.tonly_impl e_impl e_created bind].
        unfold complete_training. cbn [e_state i_complete M_Estimator.tonly_impl e_impl e_created]. unfold t_complete. cbn [t_has t_pol t_ann].
        destruct (p_complete pol p') as [a|e|]; reflexivity.
      + cbn [bind]. unfold complete_training. cbn [e_state i_complete M_Estimator.tonly_impl e_impl e_created]. unfold t_complete. cbn [t_has t_pol t_ann].
        destruct (p_complete pol p') as [a|e|]; reflexivity.
    - match goal with |- context [feed pol ?e batches] =>
        assert (F : feed pol e batches = Ok e) by (destruct batches; reflexivity) end.
      rewrite F. cbn [bind on_data_completed e_state]. unfold complete_training. cbn [e_state i_complete M_Estimator.tonly_impl e_impl e_created].
      unfold t_complete. cbn [t_has t_pol t_ann].
      destruct (p_complete pol p) as [a|e|]; reflexivity.
  Qed.

  Lemma trained_batching b1 b2 : Forall (fun b => b <> []) b1 -> Forall (fun b => b <> []) b2 ->
    firstn max_items (concat b1) = firstn max_items (concat b2) ->
    trained pol max_items b1 = trained pol max_items b2.
  Proof. intros H1 H2 E. rewrite !trained_eq by assumption. now rewrite E. Qed.

  (** [Complete] is reported exactly by the fit call that reaches [max_items]. *)
  Lemma fit_reports_complete p rem xs cr : xs <> [] -> (1 <= rem)%nat ->
    foldM (p_fit pol) p (firstn rem xs) <> UB ->
    (forall e, foldM (p_fit pol) p (firstn rem xs) <> Throw e) ->
    snd (fit tonly_impl (mkEst Training cr (mkT p true false rem None)) (Some xs))
    = Ok (if Nat.leb rem (length xs) then FitComplete else FitContinue).
  Proof.
    clear Hmax. intros Hx Hr HU HT. destruct xs as [|x xs]; [contradiction|]. set (xx := x :: xs) in *.
    unfold fit. cbn [e_state]. unfold xx at 1. cbn [i_fit M_Estimator.tonly_impl e_impl]. fold xx. unfold t_fit. cbn [t_remaining t_pol].
    pose proof (fit_items_foldM p (firstn (Nat.min rem (length xx)) xx)) as FI.
    replace (firstn (Nat.min rem (length xx)) xx) with (firstn rem xx) in *
        by (destruct (Nat.le_ge_cases rem (length xx)); [f_equal; lia|rewrite !firstn_all2 by lia; reflexivity]).
    destruct (fit_items pol p (firstn rem xx)) as [p' [u|e|]]; cbn [res_of] in FI.
    - destruct (Nat.leb_spec rem (length xx)).
      + replace (rem - Nat.min rem (length xx))%nat with 0%nat by lia. reflexivity.
      + destruct (Nat.eqb_spec (rem - Nat.min rem (length xx)) 0); [lia|]. reflexivity.
    - exfalso. eapply HT. now rewrite <- FI.
    - exfalso. apply HU. now rewrite <- FI.
  Qed.
End Batch.

(** An annotation that is there already is never replaced, and makes training unnecessary. *)
Section Existing.
  Context {P In A : Type}.
  Variable pol : policy P In A.
  Lemma ann_kept_step a (e : est (tonly (P := P) (A := A))) (o : eop In) :
    t_ann (e_impl e) = Some a -> t_ann (e_impl (fst (estep (tonly_impl pol) e o))) = Some a.
  Proof.
    intros H. destruct e as [st cr s]. cbn in H. destruct o as [|items| | |]; cbn [estep].
    - unfold begin_training. cbn [e_state e_impl e_created]. destruct st; try exact H. cbn [tonly_impl i_begin]. unfold t_begin. rewrite H.
      destruct (negb (t_required s)); cbn; auto.
    - unfold fit. cbn [e_state e_impl e_created]. destruct st; try exact H. destruct items as [[|x l]|]; try exact H.
      cbn [tonly_impl i_fit]. unfold t_fit.
      destruct (fit_items pol (t_pol s) (firstn (Nat.min (t_remaining s) (length (x :: l))) (x :: l))) as [p' [u|z|]]; cbn; try exact H.
      destruct (Nat.eqb _ 0); exact H.
    - unfold on_data_completed. cbn [e_state e_impl e_created]. destruct st; exact H.
    - unfold complete_training. cbn [e_state e_impl e_created]. cbn [tonly_impl i_complete]. unfold t_complete.
      destruct st; try exact H; destruct (t_has s); try exact H; destruct (p_complete pol (t_pol s)); cbn; try exact H; now rewrite H.
    - unfold create_transformer. cbn [e_state e_impl e_created]. destruct st; try exact H. destruct cr; exact H.
  Qed.
  Lemma ann_kept a ops : forall e : est (tonly (P := P) (A := A)), t_ann (e_impl e) = Some a ->
    Forall (fun p => t_ann (e_impl (fst p)) = Some a) (erun (tonly_impl pol) e ops).
  Proof.
    induction ops as [|o r IH]; intros e H; cbn [erun]; [constructor|].
    pose proof (ann_kept_step a e o H) as H1. destruct (estep (tonly_impl pol) e o) as [e1 x]. constructor; [exact H1|now apply IH].
  Qed.
  Lemma existing_skips mx a batches :
    train_batches pol (est_new (tonly_new pol mx true (Some a))) batches =
    Ok (mkEst Completed false (mkT (p_init pol) true true mx (Some a))).
  Proof. unfold train_batches. cbn. destruct batches; reflexivity. Qed.
End Existing.
