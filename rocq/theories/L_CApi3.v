(** Histories of calls of the C interface. *)
From Verif Require Import Base M_PointerTable S_PointerTable L_PointerTable M_Estimator M_CApi S_CApi L_CApi L_CApi2.
Open Scope Z_scope.

Section Histories.
  Context {S In Tr Arg Val : Type}.
  Variable I : impl S In Tr.
  Variable construct : res S.
  Variable value_of : Arg -> res In.
  Variable save_tr : Tr -> res (list Z).
  Variable load_tr : list Z -> res Tr.
  Variable exec_one : Tr -> In -> Tr * res Val.
  Variable exec_many : Tr -> In -> Tr * res (list (list Z)).
  Variable flush_many : Tr -> Tr * res (list (list Z)).
  Variable what : exn -> list Z.
  Variable allocate : nat -> list Z -> Z.
  Variable draws : nat -> list Z.
  Hypothesis Halloc : allocator_ok allocate.
  Hypothesis Hdraws : draws_ok draws.
  Notation obj := (@obj S Tr).
  Notation world := (@world S Tr).
  Notation ledger := (@ledger S Tr).
  Notation answer := (@answer Val).
  Notation act := (@act S Tr).
  Notation call := (@call Arg).
  Notation STEP := (@step S In Tr Arg Val I construct value_of save_tr load_tr exec_one exec_many flush_many what allocate draws).
  Notation RUN := (@run S In Tr Arg Val I construct value_of save_tr load_tr exec_one exec_many flush_many what allocate draws).
  Notation DOES := (@does S In Tr Arg Val I construct value_of save_tr load_tr exec_one exec_many flush_many).
  Notation MEETS := (@meets S In Tr Arg Val I construct value_of save_tr load_tr exec_one exec_many flush_many what).
  Notation AFTER := (@holds_after S In Tr Arg Val I construct value_of save_tr load_tr exec_one exec_many flush_many what).
  Notation CAREFUL := (@careful S In Tr Arg Val I construct value_of save_tr load_tr exec_one exec_many flush_many what).
  Notation INV := (@inv S Tr (never_lost I construct)).

  Lemma run_meets l : forall w L xs w', INV w L -> RUN w l = Some (xs, w') ->
    MEETS L l xs /\ (Forall returned xs -> INV w' (AFTER L l xs)).
  Proof using Halloc Hdraws.
    induction l as [|[er c] l IH]; intros w L xs w' Hi E; cbn [run] in E.
    - injection E as <- <-. split; [exact Logic.I|intros _; exact Hi].
    - destruct (STEP er c w) as [[w1 x]|] eqn:Es; [|discriminate].
      pose proof (every_step I construct value_of save_tr load_tr exec_one exec_many flush_many what allocate draws Halloc Hdraws
                    er c w L Hi w1 x Es) as [G1 G2].
      destruct (DOES er L c) as [L' o] eqn:Ed. cbn [fst snd] in G1, G2.
      destruct x as [a|e|e|].
      + destruct (RUN w1 l) as [[xs' w2]|] eqn:Er; [|discriminate]. injection E as <- <-.
        destruct (IH w1 _ xs' w2 G2 Er) as [M1 M2]. cbn [meets holds_after]. rewrite Ed. split; [split; [exact G1|exact M1]|].
        intros F. inversion F as [|? ? _ F']; subst. exact (M2 F').
      + destruct (RUN w1 l) as [[xs' w2]|] eqn:Er; [|discriminate]. injection E as <- <-.
        destruct (IH w1 _ xs' w2 G2 Er) as [M1 M2]. cbn [meets holds_after]. rewrite Ed. split; [split; [exact G1|exact M1]|].
        intros F. inversion F as [|? ? _ F']; subst. exact (M2 F').
      + injection E as <- <-. cbn [meets]. rewrite Ed. split; [split; [exact G1|reflexivity]|].
        intros F. inversion F as [|? ? Q _]. destruct Q.
      + injection E as <- <-. cbn [meets]. rewrite Ed. split; [split; [exact G1|reflexivity]|].
        intros F. inversion F as [|? ? Q _]. destruct Q.
  Qed.

  Lemma empty_heap w L : never_lost I construct -> INV w L -> empty L -> w_heap w = [] /\ w_table w = [].
  Proof.
    intros T Hi [E1 E2].
    assert (Ht : w_table w = []).
    { destruct (w_table w) as [|[h p] t] eqn:Et; [reflexivity|]. exfalso.
      assert (F : pt_find (w_table w) h = Some p) by (rewrite Et; cbn [pt_find]; rewrite Z.eqb_refl; reflexivity).
      destruct (i_kinds _ _ _ Hi h p F) as [_ [o [Ho _]]]. pose proof (i_live _ _ _ Hi h) as HL. rewrite E1 in HL.
      unfold view in HL. rewrite F, Ho in HL. discriminate. }
    split; [|exact Ht]. destruct (w_heap w) as [|[a o] t] eqn:Eh; [reflexivity|]. exfalso.
    assert (F : h_find (w_heap w) a = Some o) by (rewrite Eh; cbn [h_find]; rewrite Z.eqb_refl; reflexivity).
    destruct (is_block o) eqn:B.
    - pose proof (i_given _ _ _ Hi a) as HG. rewrite E2 in HG. unfold owned in HG. rewrite F, B in HG. discriminate.
    - destruct (i_tidy _ _ _ Hi T a o F B) as [h Hh]. rewrite Ht in Hh. discriminate.
  Qed.

  Lemma c_calls l xs w : RUN start l = Some (xs, w) -> MEETS nothing l xs.
  Proof using Halloc Hdraws. intros E. exact (proj1 (run_meets l start nothing xs w (start_inv _) E)). Qed.
  Lemma c_no_leak l xs w : never_lost I construct -> RUN start l = Some (xs, w) -> Forall returned xs -> empty (AFTER nothing l xs) ->
    w_heap w = [] /\ w_table w = [].
  Proof using Halloc Hdraws.
    intros T E F. apply empty_heap; [exact T|]. exact (proj2 (run_meets l start nothing xs w (start_inv _) E) F).
  Qed.

  (** Careful use of defined methods. *)
  Hypothesis Hdef : methods_defined I construct value_of save_tr load_tr exec_one exec_many flush_many.
  Definition proper (o : @outcome S Tr Val) : Prop := match o with Undefined | Escapes _ => False | _ => True end.
  Lemma proper_of {A} (r : res A) (k : A -> @outcome S Tr Val) : r <> UB -> (forall a, proper (k a)) -> proper (outcome_of r k).
  Proof using. intros H K. destruct r as [a|e|]; [exact (K a)|exact Logic.I|destruct (H eq_refl)]. Qed.
  Lemma proper_est L h ok k : est_or_dead L h -> (forall e, proper (snd (k e))) -> proper (snd (with_estimator L h ok k)).
  Proof using.
    unfold with_estimator, est_or_dead. intros H K. destruct (ok && negb (h =? 0)); [|exact Logic.I].
    destruct (live L h) as [[]|]; try contradiction; try exact Logic.I. apply K.
  Qed.
  Lemma proper_trans L h ok k : trans_or_dead L h -> (forall e, proper (snd (k e))) -> proper (snd (with_transformer L h ok k)).
  Proof using.
    unfold with_transformer, trans_or_dead. intros H K. destruct (ok && negb (h =? 0)); [|exact Logic.I].
    destruct (live L h) as [[]|]; try contradiction; try exact Logic.I. apply K.
  Qed.
  Lemma proper_value {A} (L : ledger) ok h (r : res A) k : r <> UB -> (forall e, proper (snd (k e))) -> proper (snd (with_value L ok h r k)).
  Proof using.
    unfold with_value. intros H K. destruct (ok && negb (h =? 0)); [|exact Logic.I].
    destruct r as [a|e|]; [apply K|exact Logic.I|destruct (H eq_refl)].
  Qed.
  Lemma begin_defined e : snd (begin_training I e) <> UB.
  Proof using Hdef.
    destruct Hdef as [_ [_ [_ [_ [H _]]]]]. unfold begin_training. destruct (e_state e); try discriminate.
    specialize (H (e_impl e)). destruct (i_begin I (e_impl e)) as [s [[]|x|]]; cbn [snd] in *; congruence.
  Qed.
  Lemma fit_defined e xs : snd (fit I e xs) <> UB.
  Proof using Hdef.
    destruct Hdef as [_ [_ [_ [_ [_ [H _]]]]]]. unfold fit. destruct (e_state e); try discriminate.
    destruct xs as [[|x xs]|]; try discriminate.
    specialize (H (e_impl e) (x :: xs)). destruct (i_fit I (e_impl e) (x :: xs)) as [s [[]|z|]]; cbn [snd] in *; congruence.
  Qed.
  Lemma on_data_defined e : snd (on_data_completed I e) <> UB.
  Proof using Hdef.
    destruct Hdef as [_ [_ [_ [_ [_ [_ [H _]]]]]]]. unfold on_data_completed. destruct (e_state e); try discriminate.
    specialize (H (e_impl e)). destruct (i_on_data I (e_impl e)) as [s [[]|x|]]; cbn [snd] in *; congruence.
  Qed.
  Lemma complete_defined e : snd (complete_training I e) <> UB.
  Proof using Hdef.
    destruct Hdef as [_ [_ [_ [_ [_ [_ [_ [H _]]]]]]]]. unfold complete_training.
    specialize (H (e_impl e)). destruct (i_complete I (e_impl e)) as [s [u|x|]]; cbn [snd] in *; destruct (e_state e); cbn [snd]; congruence.
  Qed.
  Lemma create_defined e : snd (create_transformer I e) <> UB.
  Proof using Hdef.
    destruct Hdef as [_ [_ [_ [_ [_ [_ [_ [_ [H _]]]]]]]]]. unfold create_transformer. destruct (e_state e); try discriminate.
    destruct (e_created e); [discriminate|].
    specialize (H (e_impl e)). destruct (i_create I (e_impl e)) as [s [[]|x|]]; cbn [snd] in *; congruence.
  Qed.
  Lemma values_defined l : mapM value_of l <> UB.
  Proof using Hdef.
    destruct Hdef as [_ [H _]]. induction l as [|x l IH]; cbn [mapM]; [discriminate|]. specialize (H x).
    destruct (value_of x) as [v|e|]; cbn [bind]; [|discriminate|congruence].
    destruct (mapM value_of l) as [vs|e|]; cbn [bind]; [discriminate|discriminate|congruence].
  Qed.
  Lemma strings_proper l : proper (@strings S Tr Val l). Proof using. destruct l; exact Logic.I. Qed.

  Lemma careful_proper errors L c : careful_call L c -> proper (snd (DOES errors L c)).
  Proof using Hdef.
    intros Hc. unfold does. destruct (errors || errorless c); [|exact Logic.I].
    pose proof begin_defined as D1. pose proof fit_defined as D2. pose proof on_data_defined as D3. pose proof complete_defined as D4.
    pose proof create_defined as D5. pose proof values_defined as D6.
    destruct Hdef as [C1 [C2 [C3 [C4 [_ [_ [_ [_ [_ [C5 [C6 C7]]]]]]]]]]]. clear Hdef.
    destruct c; cbn [careful_call] in Hc; cbn [effect].
    - subst out. cbn [snd]. apply proper_of; [exact C1|]. intros s. specialize (D1 (est_new s)).
      destruct (begin_training I (est_new s)) as [e r]. apply proper_of; [exact D1|]. intros _. exact Logic.I.
    - subst out. cbn [snd]. apply proper_of; [exact C1|]. intros s. exact Logic.I.
    - apply proper_est; [exact Hc|]. intros e. exact Logic.I.
    - apply proper_est; [exact Hc|]. intros e. exact Logic.I.
    - apply proper_est; [exact Hc|]. intros e. exact Logic.I.
    - apply proper_value; [apply C2|]. intros v. apply proper_est; [exact Hc|]. intros e. specialize (D2 e (Some [v])).
      destruct (fit I e (Some [v])) as [e' r]. apply proper_of; [exact D2|]. intros f. exact Logic.I.
    - destruct xs as [[|x l]|]; [exact Logic.I| |exact Logic.I].
      apply proper_value; [apply D6|]. intros v. apply proper_est; [exact Hc|]. intros e. specialize (D2 e (Some v)).
      destruct (fit I e (Some v)) as [e' r]. apply proper_of; [exact D2|]. intros f. exact Logic.I.
    - apply proper_est; [exact Hc|]. intros e. specialize (D3 e).
      destruct (on_data_completed I e) as [e' r]. apply proper_of; [exact D3|]. intros f. exact Logic.I.
    - apply proper_est; [exact Hc|]. intros e. specialize (D4 e).
      destruct (complete_training I e) as [e' r]. apply proper_of; [exact D4|]. intros f. exact Logic.I.
    - apply proper_est; [exact Hc|]. intros e. specialize (D5 e).
      destruct (create_transformer I e) as [e' r]. apply proper_of; [exact D5|]. intros f. exact Logic.I.
    - destruct b as [[|x l]|]; [exact Logic.I| |exact Logic.I]. cbn [snd]. destruct out; [|exact Logic.I].
      apply proper_of; [apply C4|]. intros t. exact Logic.I.
    - apply proper_trans; [exact Hc|]. intros e. exact Logic.I.
    - apply proper_trans; [exact Hc|]. intros t. cbn [snd]. apply proper_of; [apply C3|]. intros b. exact Logic.I.
    - destruct (Z.eqb_spec a 0) as [E|E]; [exact Logic.I|]. destruct (Z.eqb_spec n 0) as [E'|E']; [exact Logic.I|]. cbn [orb].
      destruct Hc as [Hc|[Hc|[b Hb]]]; [contradiction|contradiction|]. unfold the_block. rewrite Hb. exact Logic.I.
    - apply proper_value; [apply C2|]. intros v. apply proper_trans; [exact Hc|]. intros t. specialize (C5 t v).
      destruct (exec_one t v) as [t' r]. apply proper_of; [exact C5|]. intros f. exact Logic.I.
    - apply proper_value; [apply C2|]. intros v. apply proper_trans; [exact Hc|]. intros t. specialize (C6 t v).
      destruct (exec_many t v) as [t' r]. apply proper_of; [exact C6|exact strings_proper].
    - apply proper_trans; [exact Hc|]. intros t. specialize (C7 t).
      destruct (flush_many t) as [t' r]. apply proper_of; [exact C7|exact strings_proper].
    - destruct (Z.eqb_spec a 0) as [E|E]; destruct (Z.eqb_spec n 0) as [E'|E']; try exact Logic.I. cbn [andb orb].
      destruct Hc as [Hc|[Hc|[l [Hb Hn]]]]; [contradiction|contradiction|]. unfold the_block. rewrite Hb, Hn, Z.eqb_refl. exact Logic.I.
    - destruct (Z.eqb_spec h 0) as [E|E]; [destruct out; exact Logic.I|]. destruct out; [|exact Logic.I]. cbn [andb negb].
      destruct Hc as [Hc|[s Hs]]; [contradiction|]. rewrite Hs. exact Logic.I.
    - destruct (Z.eqb_spec a 0) as [E|E]; [exact Logic.I|].
      destruct Hc as [Hc|[s Hs]]; [contradiction|]. unfold the_block. rewrite Hs. exact Logic.I.
    - destruct (Z.eqb_spec h 0) as [E|E]; [exact Logic.I|].
      destruct Hc as [Hc|[s Hs]]; [contradiction|]. rewrite Hs. exact Logic.I.
  Qed.
  Lemma careful_returned l : forall L xs, MEETS L l xs -> CAREFUL L l xs -> Forall returned xs /\ length xs = length l.
  Proof using Hdef.
    induction l as [|[er c] l IH]; intros L xs M C; destruct xs as [|x xs]; cbn [meets careful] in *; try contradiction.
    - split; [constructor|reflexivity].
    - destruct C as [C1 C2]. pose proof (careful_proper er L c C1) as P. destruct (DOES er L c) as [L' o]. cbn [snd] in P.
      destruct M as [A M].
      assert (R : returned x).
      { destruct o; cbn [answers proper] in *; try contradiction.
        - destruct A as [h [-> _]]. exact Logic.I.
        - subst x. exact Logic.I.
        - subst x. exact Logic.I.
        - destruct A as [h [-> _]]. exact Logic.I.
        - destruct A as [h [-> _]]. exact Logic.I. }
      destruct x as [a|e|e|]; try contradiction.
      + destruct (IH _ xs M C2) as [Q1 Q2]. split; [constructor; assumption|cbn [length]; rewrite Q2; reflexivity].
      + destruct (IH _ xs M C2) as [Q1 Q2]. split; [constructor; assumption|cbn [length]; rewrite Q2; reflexivity].
  Qed.
End Histories.

(** lia on a small context *)
Ltac slia := repeat match goal with x : ?T |- _ => match T with forall _, _ => clear x | impl _ _ _ => clear x | res _ => clear x end end; lia.

(** The calls return when the random engine finds an unused handle. *)
Section Returns.
  Context {S In Tr Arg Val : Type}.
  Variable I : impl S In Tr.
  Variable construct : res S.
  Variable value_of : Arg -> res In.
  Variable save_tr : Tr -> res (list Z).
  Variable load_tr : list Z -> res Tr.
  Variable exec_one : Tr -> In -> Tr * res Val.
  Variable exec_many : Tr -> In -> Tr * res (list (list Z)).
  Variable flush_many : Tr -> Tr * res (list (list Z)).
  Variable what : exn -> list Z.
  Variable allocate : nat -> list Z -> Z.
  Variable draws : nat -> list Z.
  Variable N : nat.
  Hypothesis Henough : draws_enough N draws.
  Notation obj := (@obj S Tr).
  Notation world := (@world S Tr).
  Notation act := (@act S Tr).
  Notation STEP := (@step S In Tr Arg Val I construct value_of save_tr load_tr exec_one exec_many flush_many what allocate draws).
  Notation RUN := (@run S In Tr Arg Val I construct value_of save_tr load_tr exec_one exec_many flush_many what allocate draws).

  Definition small (w : world) : Prop := (length (w_table w) <= w_time w)%nat.
  Definition total (k : nat) {A} (m : act A) : Prop := forall w, small w -> (w_time w + k <= N)%nat ->
    exists w' r, m w = Some (w', r) /\ small w' /\ (w_time w' <= w_time w + k)%nat.

  Lemma t_done k {A} (a : A) : total k (done a). Proof using. intros w H _. exists w, (Ok a). split; [reflexivity|]. split; [exact H|slia]. Qed.
  Lemma t_raise k {A} e : total k (@raise S Tr A e). Proof using. intros w H _. exists w, (Throw e). split; [reflexivity|]. split; [exact H|slia]. Qed.
  Lemma t_undef k {A} : total k (@undefined S Tr A). Proof using. intros w H _. exists w, UB. split; [reflexivity|]. split; [exact H|slia]. Qed.
  Lemma t_lift k {A} (r : res A) : total k (lift r). Proof using. intros w H _. exists w, r. split; [reflexivity|]. split; [exact H|slia]. Qed.
  Lemma t_require k b : total k (@require S Tr b). Proof using. unfold require. destruct b; [apply t_done|apply t_raise]. Qed.
  Lemma t_seq k1 k2 {A B} (m : act A) (f : A -> act B) : total k1 m -> (forall a, total k2 (f a)) -> total (k1 + k2) (thn m f).
  Proof using.
    intros Hm Hf w H Hn. destruct (Hm w H) as [w1 [r [E [H1 H2]]]]; [slia|]. unfold thn. rewrite E. destruct r as [a|e|].
    - destruct (Hf a w1 H1) as [w2 [r2 [E2 [H3 H4]]]]; [slia|]. exists w2, r2. split; [exact E2|]. split; [exact H3|slia].
    - exists w1, (Throw e). split; [reflexivity|]. split; [exact H1|slia].
    - exists w1, UB. split; [reflexivity|]. split; [exact H1|slia].
  Qed.
  Lemma t_thn k {A B} (m : act A) (f : A -> act B) : total 0 m -> (forall a, total k (f a)) -> total k (thn m f).
  Proof using. exact (t_seq 0 k m f). Qed.
  Lemma t_thn1 k {A B} (m : act A) (f : A -> act B) : total 1 m -> (forall a, total k (f a)) -> total (Datatypes.S k) (thn m f).
  Proof using. exact (t_seq 1 k m f). Qed.
  Lemma t_new k o : total (Datatypes.S k) (@new_obj S Tr allocate o).
  Proof using.
    intros w H _. unfold new_obj. cbv zeta. eexists. eexists. split; [reflexivity|]. unfold small in *. cbn [w_table w_time]. slia.
  Qed.
  Lemma t_read k a : total k (@read_obj S Tr a).
  Proof using. intros w H _. unfold read_obj. destruct (h_find (w_heap w) a); eexists; eexists; (split; [reflexivity|split; [exact H|slia]]). Qed.
  Lemma t_write k a o : total k (@write_obj S Tr a o).
  Proof using. intros w H _. unfold write_obj. destruct (h_find (w_heap w) a); eexists; eexists; (split; [reflexivity|split; [exact H|cbn [w_time]; slia]]). Qed.
  Lemma t_delete k a : total k (@delete_obj S Tr a).
  Proof using.
    intros w H _. unfold delete_obj. destruct (h_find (w_heap w) a); eexists; eexists; (split; [reflexivity|split; [exact H|cbn [w_time]; slia]]).
  Qed.
  Lemma t_getp k h : total k (@t_get S Tr h).
  Proof using. intros w H _. eexists. eexists. split; [reflexivity|]. split; [exact H|slia]. Qed.
  Lemma t_removep k h : total k (@t_remove S Tr h).
  Proof using.
    intros w H _. unfold t_remove, pt_remove. destruct (h =? 0); [eexists; eexists; split; [reflexivity|split; [exact H|cbn [w_time]; slia]]|].
    destruct (pt_find (w_table w) h); (eexists; eexists; split; [reflexivity|]); [|split; [exact H|cbn [w_time]; slia]].
    unfold small in *. cbn [w_table w_time].
    assert (forall t, (length (pt_erase t h) <= length t)%nat) as Q.
    { clear. induction t as [|[x p] t IH]; cbn [pt_erase length]; [slia|]. destruct (x =? h); cbn [length]; slia. }
    specialize (Q (w_table w)). slia.
  Qed.
  Lemma draw_none t ds : pt_draw t ds = None -> incl ds (map fst t).
  Proof using.
    induction ds as [|d ds IH]; cbn [pt_draw]; intros H; [intros x []|].
    destruct (pt_find t d) as [p|] eqn:E; [|discriminate]. intros x [<-|Hx]; [|exact (IH H x Hx)].
    clear -E. induction t as [|[k q] t IH]; cbn [pt_find map fst] in *; [discriminate|].
    destruct (Z.eqb_spec k d) as [E'|E']; [left; exact E'|right; exact (IH E)].
  Qed.
  Lemma t_addp k p : total (Datatypes.S k) (@t_add S Tr draws p).
  Proof using Henough.
    intros w H Hn. unfold t_add, pt_add. destruct (p =? 0).
    - eexists. eexists. split; [reflexivity|]. unfold small in *. cbn [w_table w_time]. slia.
    - destruct (pt_draw (w_table w) (draws (w_time w))) as [h|] eqn:E.
      + eexists. eexists. split; [reflexivity|]. unfold small in *. cbn [w_table w_time length]. slia.
      + exfalso. apply draw_none in E. destruct (Henough (w_time w)) as [N1 N2]; [slia|].
        pose proof (NoDup_incl_length N1 E) as Q. rewrite map_length in Q. unfold small in H. slia.
  Qed.
  Lemma t_get_est k h : total k (@get_est S Tr h).
  Proof using.
    unfold get_est. apply t_thn; [apply t_getp|]. intros p. apply t_thn; [apply t_read|]. intros [];
      (apply t_done || apply t_undef).
  Qed.
  Lemma t_get_trans k h : total k (@get_trans S Tr h).
  Proof using.
    unfold get_trans. apply t_thn; [apply t_getp|]. intros p. apply t_thn; [apply t_read|]. intros [];
      (apply t_done || apply t_undef).
  Qed.
  Lemma t_api {A} er (body : act A) : total 2 body -> forall w, small w -> (w_time w + 4 <= N)%nat ->
    exists w' x, api what allocate draws er body w = Some (w', x) /\ small w' /\ (w_time w' <= w_time w + 4)%nat.
  Proof using Henough.
    intros Hb w H Hn. unfold api. destruct er; [|exists w, (CFalse None); split; [reflexivity|split; [exact H|slia]]].
    destruct (Hb w H) as [w1 [r [E [H1 H2]]]]; [slia|]. rewrite E. destruct r as [a|e|].
    - exists w1, (CTrue a). split; [reflexivity|]. split; [exact H1|slia].
    - assert (T : total 2 (create_error what allocate draws e)).
      { unfold create_error. apply t_thn1; [apply t_new|]. intros p. apply t_addp. }
      destruct (T w1 H1) as [w2 [r2 [E2 [H3 H4]]]]; [slia|]. rewrite E2.
      destruct r2 as [h|x|]; eexists; eexists; (split; [reflexivity|split; [exact H3|slia]]).
    - exists w1, CUB. split; [reflexivity|]. split; [exact H1|slia].
  Qed.
  Lemma t_bare {A} (body : act A) : total 2 body -> forall w, small w -> (w_time w + 4 <= N)%nat ->
    exists w' x, bare body w = Some (w', x) /\ small w' /\ (w_time w' <= w_time w + 4)%nat.
  Proof using.
    intros Hb w H Hn. unfold bare. destruct (Hb w H) as [w1 [r [E [H1 H2]]]]; [slia|]. rewrite E.
    destruct r as [a|e|]; eexists; eexists; (split; [reflexivity|split; [exact H1|slia]]).
  Qed.
  Lemma t_cmap {A B} (f : A -> B) (m : option (world * cres A)) n :
    (exists w' x, m = Some (w', x) /\ small w' /\ (w_time w' <= n)%nat) -> exists w' y, cmap f m = Some (w', y) /\ small w' /\ (w_time w' <= n)%nat.
  Proof using. intros [w' [x [-> H]]]. cbn [cmap]. destruct x; eexists; eexists; (split; [reflexivity|exact H]). Qed.
  Lemma t_strings k l : total (Datatypes.S k) (@output_strings S Tr allocate l).
  Proof using. unfold output_strings. destruct l; [apply t_done|]. apply t_thn1; [apply t_new|]. intros a. apply t_done. Qed.

  Lemma step_total er c w : small w -> (w_time w + 4 <= N)%nat ->
    exists w' x, STEP er c w = Some (w', x) /\ small w' /\ (w_time w' <= w_time w + 4)%nat.
  Proof using Henough.
    intros H Hn. destruct c; cbn [step]; apply t_cmap;
      try (apply t_api; [|exact H|exact Hn]).
    - unfold c_create_estimator. apply t_thn; [apply t_lift|]. intros s. apply t_thn1; [apply t_new|]. intros p.
      destruct (begin_training I (est_new s)) as [e r]. apply t_thn; [apply t_write|]. intros _. apply t_thn; [apply t_lift|]. intros _.
      apply t_thn1; [apply t_addp|]. intros h. destruct out; [apply t_done|apply t_undef].
    - unfold c_create_estimator_default. apply t_thn; [apply t_lift|]. intros s. apply t_thn1; [apply t_new|]. intros p.
      apply t_thn1; [apply t_addp|]. intros h. destruct out; [apply t_done|apply t_undef].
    - unfold c_destroy_estimator. apply t_thn; [apply t_require|]. intros _. apply t_thn; [apply t_getp|]. intros p.
      apply t_thn; [apply t_removep|]. intros _. apply t_thn; [apply t_read|]. intros []; (apply t_delete || apply t_undef).
    - unfold c_get_state. apply t_thn; [apply t_require|]. intros _. apply t_thn; [apply t_require|]. intros _.
      apply t_thn; [apply t_get_est|]. intros [p e]. apply t_done.
    - unfold c_is_training_complete. apply t_thn; [apply t_require|]. intros _. apply t_thn; [apply t_require|]. intros _.
      apply t_thn; [apply t_get_est|]. intros [p e]. apply t_done.
    - unfold c_fit. apply t_thn; [apply t_require|]. intros _. apply t_thn; [apply t_require|]. intros _.
      apply t_thn; [apply t_lift|]. intros v. apply t_thn; [apply t_get_est|]. intros [p e]. destruct (fit I e (Some [v])) as [e' r].
      apply t_thn; [apply t_write|]. intros _. apply t_thn; [apply t_lift|]. intros f. apply t_done.
    - unfold c_fit_buffer. apply t_thn; [apply t_require|]. intros _. apply t_thn; [apply t_require|]. intros _.
      destruct xs as [[|x l]|]; [apply t_raise| |apply t_raise].
      apply t_thn; [apply t_lift|]. intros v. apply t_thn; [apply t_get_est|]. intros [p e]. destruct (fit I e (Some v)) as [e' r].
      apply t_thn; [apply t_write|]. intros _. apply t_thn; [apply t_lift|]. intros f. apply t_done.
    - unfold c_est_call. apply t_thn; [apply t_require|]. intros _. apply t_thn; [apply t_get_est|]. intros [p e].
      destruct (on_data_completed I e) as [e' r]. apply t_thn; [apply t_write|]. intros _. apply t_lift.
    - unfold c_est_call. apply t_thn; [apply t_require|]. intros _. apply t_thn; [apply t_get_est|]. intros [p e].
      destruct (complete_training I e) as [e' r]. apply t_thn; [apply t_write|]. intros _. apply t_lift.
    - unfold c_create_transformer. apply t_thn; [apply t_require|]. intros _. apply t_thn; [apply t_require|]. intros _.
      apply t_thn; [apply t_get_est|]. intros [p e]. destruct (create_transformer I e) as [e' r].
      apply t_thn; [apply t_write|]. intros _. apply t_thn; [apply t_lift|]. intros t. apply t_thn1; [apply t_new|]. intros q. apply t_addp.
    - unfold c_load. destruct b as [[|x l]|]; [apply t_raise| |apply t_raise]. apply t_thn; [apply t_require|]. intros _.
      apply t_thn; [apply t_lift|]. intros t. apply t_thn1; [apply t_new|]. intros q. apply t_addp.
    - unfold c_destroy_transformer. apply t_thn; [apply t_require|]. intros _. apply t_thn; [apply t_getp|]. intros p.
      apply t_thn; [apply t_removep|]. intros _. apply t_thn; [apply t_read|]. intros []; (apply t_delete || apply t_undef).
    - unfold c_save. apply t_thn; [apply t_require|]. intros _. apply t_thn; [apply t_require|]. intros _.
      apply t_thn; [apply t_get_trans|]. intros [p t]. apply t_thn; [apply t_lift|]. intros b. apply t_thn1; [apply t_new|]. intros a. apply t_done.
    - unfold c_destroy_save_data. apply t_thn; [apply t_require|]. intros _. apply t_thn; [apply t_require|]. intros _.
      apply t_thn; [apply t_read|]. intros []; (apply t_delete || apply t_undef).
    - unfold c_transform. apply t_thn; [apply t_require|]. intros _. apply t_thn; [apply t_require|]. intros _.
      apply t_thn; [apply t_lift|]. intros v. apply t_thn; [apply t_get_trans|]. intros [p t]. destruct (exec_one t v) as [t' r].
      apply t_thn; [apply t_write|]. intros _. apply t_lift.
    - unfold c_transform_many. apply t_thn; [apply t_require|]. intros _. apply t_thn; [apply t_require|]. intros _.
      apply t_thn; [apply t_lift|]. intros v. apply t_thn; [apply t_get_trans|]. intros [p t]. destruct (exec_many t v) as [t' r].
      apply t_thn; [apply t_write|]. intros _. apply t_thn; [apply t_lift|]. intros l. apply t_strings.
    - unfold c_flush. apply t_thn; [apply t_require|]. intros _. apply t_thn; [apply t_require|]. intros _.
      apply t_thn; [apply t_get_trans|]. intros [p t]. destruct (flush_many t) as [t' r].
      apply t_thn; [apply t_write|]. intros _. apply t_thn; [apply t_lift|]. intros l. apply t_strings.
    - unfold c_destroy_transformed. apply t_thn; [apply t_require|]. intros _. apply t_thn; [apply t_require|]. intros _.
      destruct (a =? 0); [apply t_done|]. apply t_thn; [apply t_read|]. intros []; try apply t_undef.
      destruct (n =? Z.of_nat (length l)); [apply t_delete|apply t_undef].
    - unfold c_get_error_string. destruct ((h =? 0) || negb out); [exists w, (CFalse None); split; [reflexivity|split; [exact H|slia]]|].
      apply t_bare; [|exact H|exact Hn]. apply t_thn; [apply t_getp|]. intros p. apply t_thn; [apply t_read|]. intros []; (apply t_new || apply t_undef).
    - unfold c_destroy_error_string. apply t_bare; [|exact H|exact Hn]. destruct (a =? 0); [apply t_done|].
      apply t_thn; [apply t_read|]. intros []; (apply t_delete || apply t_undef).
    - unfold c_destroy_error. destruct (h =? 0); [exists w, (CFalse None); split; [reflexivity|split; [exact H|slia]]|].
      apply t_bare; [|exact H|exact Hn]. apply t_thn; [apply t_getp|]. intros p. apply t_thn; [apply t_removep|]. intros _.
      apply t_thn; [apply t_read|]. intros []; (apply t_delete || apply t_undef).
  Qed.
  Lemma run_total l : forall w, small w -> (w_time w + 4 * length l <= N)%nat -> exists xs w', RUN w l = Some (xs, w').
  Proof using Henough.
    induction l as [|[er c] l IH]; intros w H Hn; cbn [run]; [exists [], w; reflexivity|]. cbn [length] in Hn.
    destruct (step_total er c w H) as [w1 [x [E [H1 H2]]]]; [slia|]. rewrite E.
    assert (Hn1 : (w_time w1 + 4 * length l <= N)%nat) by slia.
    destruct x as [a|e|e|]; [| |eexists; eexists; reflexivity|eexists; eexists; reflexivity];
      destruct (IH w1 H1 Hn1) as [xs [w2 ->]]; eexists; eexists; reflexivity.
  Qed.
End Returns.
