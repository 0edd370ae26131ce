(** C82: what a client program ends with. *)
From Verif Require Import Base M_Estimator M_Pipeline M_CApi S_CApi S_Conc M_Client S_Client.
Open Scope Z_scope.

Section Client.
  Context {S In Tr Arg Val : Type}.
  Variable I : impl S In Tr.
  Variable construct : res S.
  Variable value_of : Arg -> res In.
  Variable save_tr : Tr -> res (list Z).
  Variable load_tr : list Z -> res Tr.
  Variable exec_one : Tr -> In -> Tr * res Val.
  Variable exec_many : Tr -> In -> Tr * res (list (list Z)).
  Variable flush_many : Tr -> Tr * res (list (list Z)).
  Variable what : exn -> list Z.
  Notation obj := (@obj S Tr).
  Notation call := (@call Arg).
  Notation answer := (@answer Val).
  Notation ledger := (@ledger S Tr).
  Notation outcome := (@outcome S Tr Val).
  Notation does := (@does S In Tr Arg Val I construct value_of save_tr load_tr exec_one exec_many flush_many).
  Notation meets := (@meets S In Tr Arg Val I construct value_of save_tr load_tr exec_one exec_many flush_many what).
  Notation holds_after := (@holds_after S In Tr Arg Val I construct value_of save_tr load_tr exec_one exec_many flush_many what).
  Notation client := (@client Arg Val).
  Notation trained_in_cpp := (trained_in_cpp I construct).
  Notation executed := (@executed In Tr Arg Val value_of exec_one).

  Section Leads.
    Context {R : Type}.
    Variable P : ledger -> client R -> Prop.
    (** From what the caller holds, the program makes no call that it may not make, comes to its end after [n] calls at the most, and [P] holds there. *)
    Inductive leads : nat -> ledger -> client R -> Prop :=
    | leads_end n L p : ended p -> P L p -> leads n L p
    | leads_step n L c k : allowed L c -> (forall x, ~ returned x -> k x = Fails x) ->
        (forall x, answers L (snd (does true L c)) x -> leads n (holding what (fst (does true L c)) (snd (does true L c)) x) (k x)) -> leads (Datatypes.S n) L (Calls c k).
    Lemma leads_more n L p : leads n L p -> forall m, (n <= m)%nat -> leads m L p.
    Proof using.
      intros H. induction H as [n L p E HP|n L c k A EN H IH]; intros m Hm; [apply leads_end; assumption|].
      destruct m as [|m]; [lia|]. apply leads_step; [exact A|exact EN|]. intros x An. apply IH; [exact An|lia].
    Qed.
    Lemma leads_call n L c k L' o : allowed L c -> (forall x, ~ returned x -> k x = Fails x) -> does true L c = (L', o) -> (forall x, answers L o x -> leads n (holding what L' o x) (k x)) -> leads (Datatypes.S n) L (Calls c k).
    Proof using. intros A EN D H. apply leads_step; [exact A|exact EN|]. rewrite D. exact H. Qed.
    Lemma leads_meets n L p : leads n L p -> forall l xs p', meets L l xs -> plays p l xs p' -> ended p' -> P (holds_after L l xs) p'.
    Proof using.
      intros H. induction H as [n L p E HP|n L c k A EN H IH]; intros l xs p' M Pl En.
      - inversion Pl; subst; [exact HP|destruct E].
      - inversion Pl as [q|c' k' x l' xs' q Pl' E1 E2 E3 E4]; [subst p'; destruct En|]. subst.
        cbn [S_CApi.meets] in M. cbn [S_CApi.holds_after]. destruct (does true L c) as [L' o]. cbn [fst snd] in *. destruct M as [An M]. apply (IH x An l' xs' p'); [|exact Pl'|exact En].
        destruct x; try exact M; subst xs'; inversion Pl'; subst; exact Logic.I.
    Qed.
    Lemma demand_stops (k : answer -> client R) x : ~ returned x -> match x with CTrue a => k a | _ => Fails x end = Fails x.
    Proof using. intros H. destruct x as [a|e|e|]; try reflexivity. exfalso. apply H. exact Logic.I. Qed.
    Lemma leads_returned n L p : leads n L p -> forall l xs v, plays p l xs (Ends v) -> meets L l xs -> Forall returned xs.
    Proof using.
      intros H. induction H as [n L p E HP|n L c k A EN H IH]; intros l xs v Pl M.
      - inversion Pl; subst; [constructor|destruct E].
      - inversion Pl as [q|c' k' x l' xs' q Pl' E1 E2 E3 E4]; subst. cbn [S_CApi.meets] in M. destruct (does true L c) as [L' o]. cbn [fst snd] in *. destruct M as [An M].
        assert (D : returned x \/ ~ returned x) by (destruct x; cbn; tauto). destruct D as [D|D].
        + constructor; [exact D|]. apply (IH x An l' xs' v Pl'). destruct x; first [exact M|destruct D].
        + rewrite (EN x D) in Pl'. inversion Pl'.
    Qed.
    Lemma leads_says n L c k L' a : allowed L c -> does true L c = (L', Says a) -> leads n L' (k a) -> leads (Datatypes.S n) L (demand c k).
    Proof using. intros Al D H. unfold demand. eapply leads_call; [exact Al|apply demand_stops|exact D|]. intros x A. cbn [answers] in A. subst x. exact H. Qed.
    Lemma leads_handle n L c k L' o : allowed L c -> does true L c = (L', NewHandle o) -> (forall h, h <> 0 -> live L h = None -> leads n (behind L' h (Some o)) (k (AHandle h))) -> leads (Datatypes.S n) L (demand c k).
    Proof using.
      intros Al D H. unfold demand. eapply leads_call; [exact Al|apply demand_stops|exact D|]. intros x A. cbn [answers] in A. destruct A as (h & -> & F & G). apply H; [lia|exact G].
    Qed.
    Lemma leads_block n L c k L' o m : allowed L c -> does true L c = (L', NewBlock o m) -> (forall a, a <> 0 -> given L a = None -> leads n (owing L' a (Some o)) (k (ABlock a m))) -> leads (Datatypes.S n) L (demand c k).
    Proof using.
      intros Al D H. unfold demand. eapply leads_call; [exact Al|apply demand_stops|exact D|]. intros x A. cbn [answers] in A. destruct A as (h & -> & F & G). apply H; [exact F|exact G].
    Qed.
    (** [P] accepts a refusal with the text of [e]; that the program is undefined. *)
    Definition refusal (e : exn) : Prop := forall L h, live L h = Some (OText (what e)) -> P L (Fails (CFalse (Some h))).
    Definition undefinedness : Prop := forall L, P L (Fails CUB).
    Definition on {A} (r : res A) (K : A -> Prop) : Prop := match r with Ok a => K a | Throw e => refusal e | UB => undefinedness end.
    Lemma on_bind {A B} (r : res A) (f : A -> res B) K : on (bind r f) K <-> on r (fun a => on (f a) K).
    Proof using. destruct r; reflexivity. Qed.
    Lemma on_weak {A} (r : res A) (K K' : A -> Prop) : (forall a, K a -> K' a) -> on r K -> on r K'.
    Proof using. intros H. destruct r; [exact (H a)|exact (fun z => z)|exact (fun z => z)]. Qed.
    Lemma leads_of {A} n L c k L' (r : res A) (f : A -> outcome) : allowed L c -> does true L c = (L', outcome_of r f) ->
      on r (fun a => does true L c = (L', f a) -> leads (Datatypes.S n) L (demand c k)) -> leads (Datatypes.S n) L (demand c k).
    Proof using.
      intros Al D H. destruct r as [a|e|]; cbn [on outcome_of] in D, H.
      - exact (H D).
      - eapply leads_call; [exact Al|apply demand_stops|exact D|]. intros x An. cbn [answers] in An. destruct An as (h & -> & _). apply leads_end; [exact Logic.I|]. apply H.
        cbn [holding behind live]. unfold assign. rewrite Z.eqb_refl. reflexivity.
      - eapply leads_call; [exact Al|apply demand_stops|exact D|]. intros x An. cbn [answers] in An. subst x. apply leads_end; [exact Logic.I|]. apply H.
    Qed.

    (** The caller holds [h] for [o], and else what he held before. *)
    Variable L0 : ledger.
    Definition has (L : ledger) (h : Z) (o : obj) : Prop :=
      h <> 0 /\ live L h = Some o /\ live L0 h = None /\ (forall k, k <> h -> live L k = live L0 k) /\ (forall a, given L a = given L0 a).
    Lemma has_behind L h o o' : has L h o -> has (behind L h (Some o')) h o'.
    Proof using.
      intros (A & B & C & D & E). split; [exact A|]. split; [cbn; unfold assign; rewrite Z.eqb_refl; reflexivity|]. split; [exact C|]. split; [|exact E].
      intros k N. cbn. unfold assign. destruct (Z.eqb_spec k h); [contradiction|]. apply D. exact N.
    Qed.
    Lemma has_new h o : h <> 0 -> live L0 h = None -> has (behind L0 h (Some o)) h o.
    Proof using.
      intros A B. split; [exact A|]. split; [cbn; unfold assign; rewrite Z.eqb_refl; reflexivity|]. split; [exact B|]. split; [|reflexivity].
      intros k N. cbn. unfold assign. destruct (Z.eqb_spec k h); [contradiction|reflexivity].
    Qed.
    Lemma has_gone L h o : has L h o -> same_things L0 (behind L h None).
    Proof using.
      intros (A & B & C & D & E). split; [|exact E]. intros k. cbn. unfold assign. destruct (Z.eqb_spec k h) as [->|N]; [symmetry; exact C|apply D; exact N].
    Qed.

    Lemma is_est L h e : has L h (OEst e) -> an_estimator L h.
    Proof using. intros (A & B & _). right. exists e. exact B. Qed.
    Lemma is_tr L h t : has L h (OTrans t) -> a_transformer L h.
    Proof using. intros (A & B & _). right. exists t. exact B. Qed.
    Lemma with_est L h e ok (k : est S -> ledger * outcome) : has L h (OEst e) -> ok = true -> with_estimator L h ok k = k e.
    Proof using. intros (A & B & _) ->. unfold with_estimator. rewrite B. destruct (Z.eqb_spec h 0); [contradiction|]. reflexivity. Qed.
    Lemma with_tr L h e ok (k : Tr -> ledger * outcome) : has L h (OTrans e) -> ok = true -> with_transformer L h ok k = k e.
    Proof using. intros (A & B & _) ->. unfold with_transformer. rewrite B. destruct (Z.eqb_spec h 0); [contradiction|]. reflexivity. Qed.
    Lemma with_val {A} L h (r : res A) (k : A -> ledger * outcome) : h <> 0 -> with_value L true h r k = match r with Ok v => k v | Throw e => (L, Refuse e) | UB => (L, Undefined) end.
    Proof using. intros H. unfold with_value. destruct (Z.eqb_spec h 0); [contradiction|]. reflexivity. Qed.

    (** The training loop. *)
    Lemma rows_lead rows vrows : mapM value_of rows = Ok vrows -> forall m k fuel iter viter h e L r, mapM value_of iter = Ok viter -> has L h (OEst e) ->
      train_loop I (map (fun v => [v]) vrows) fuel (map (fun v => [v]) viter) e = Some r ->
      on r (fun e' => forall L', has L' h (OEst e') -> leads m L' k) -> leads (3 * fuel + m) L (train_rows fuel h rows iter k).
    Proof using.
      intros HR m k fuel. induction fuel as [|n IH]; intros iter viter h e L r HI HL HT HK; [discriminate HT|].
      replace (3 * Datatypes.S n + m)%nat with (Datatypes.S (Datatypes.S (Datatypes.S (3 * n + m)))) by lia.
      cbn [train_loop train_rows] in *. eapply leads_says; [eapply is_est; exact HL|cbn [S_CApi.does S_CApi.effect orb]; rewrite (with_est _ _ _ _ _ HL eq_refl); cbv beta iota; reflexivity|].
      cbv beta iota. destruct (e_state e) eqn:ES; cbn [state_number Z.eqb Pos.eqb].
      1,3,4: injection HT as <-; apply leads_more with m; [apply HK; exact HL|lia].
      destruct iter as [|x rest]; cbn [mapM] in HI.
      { injection HI as <-. cbn [map] in HT. injection HT as <-. apply leads_end; [exact Logic.I|]. apply HK. }
      destruct (value_of x) as [v|z|] eqn:EV; cbn [bind] in HI; [|discriminate|discriminate].
      destruct (mapM value_of rest) as [vrest|z|] eqn:ER; cbn [bind] in HI; [|discriminate|discriminate]. injection HI as <-. cbn [map] in HT.
      assert (H0 : h <> 0) by apply HL.
      assert (DF : does true L (Fit h x true) = (behind L h (Some (OEst (fst (fit I e (Some [v]))))), outcome_of (snd (fit I e (Some [v]))) (fun f => Says (ACode (fit_number f))))).
      { cbn [S_CApi.does S_CApi.effect orb]. rewrite (with_val L h _ _ H0), EV. rewrite (with_est _ _ e) by (exact HL || reflexivity). destruct (fit I e (Some [v])); reflexivity. }
      unfold ok1 in HT. destruct (fit I e (Some [v])) as [e1 rf]. cbn [fst snd] in DF, HT. eapply leads_of; [eapply is_est; exact HL|exact DF|].
      destruct rf as [f|z|]; cbn [bind on] in HT |- *.
      2,3: injection HT as <-; exact HK.
      clear DF. intros DF. eapply leads_says; [eapply is_est; exact HL|exact DF|]. cbv beta iota. assert (H1 : has (behind L h (Some (OEst e1))) h (OEst e1)) by (eapply has_behind; exact HL).
      assert (NEXT : f <> FitReset ->
        match map (fun w : In => [w]) vrest with
        | [] => match (do a <- snd (on_data_completed I e1); Ok (fst (on_data_completed I e1), a)) with
                | Ok (e2, _) => train_loop I (map (fun w => [w]) vrows) n (map (fun w => [w]) vrows) e2
                | Throw x => Some (Throw x)
                | UB => Some UB
                end
        | _ => train_loop I (map (fun w => [w]) vrows) n (map (fun w => [w]) vrest) e1
        end = Some r ->
        leads (Datatypes.S (3 * n + m)) (behind L h (Some (OEst e1)))
          match rest with
          | [] => demand (OnDataCompleted h) (fun _ => train_rows n h rows rows k)
          | _ => train_rows n h rows rest k
          end).
      { intros _ HT'. destruct rest as [|x' rest'].
        - cbn [mapM] in ER. injection ER as <-. cbn [map] in HT'.
          assert (DO : does true (behind L h (Some (OEst e1))) (OnDataCompleted h) =
            (behind (behind L h (Some (OEst e1))) h (Some (OEst (fst (on_data_completed I e1)))), outcome_of (snd (on_data_completed I e1)) (fun _ => Says ADone))).
          { cbn [S_CApi.does S_CApi.effect orb]. rewrite (with_est _ _ e1) by (exact H1 || reflexivity). destruct (on_data_completed I e1); reflexivity. }
          destruct (on_data_completed I e1) as [e2 ro]. cbn [fst snd] in DO, HT'. eapply leads_of; [eapply is_est; exact H1|exact DO|].
          destruct ro as [[]|z|]; cbn [bind on] in HT' |- *.
          2,3: injection HT' as <-; exact HK.
          clear DO. intros DO. eapply leads_says; [eapply is_est; exact H1|exact DO|]. cbv beta.
          eapply IH; [exact HR| |exact HT'|exact HK]. eapply has_behind; exact H1.
        - assert (NE : exists v' vrest', vrest = v' :: vrest').
          { cbn [mapM] in ER. destruct (value_of x'); cbn [bind] in ER; try discriminate. destruct (mapM value_of rest'); cbn [bind] in ER; try discriminate.
            injection ER as <-. do 2 eexists. reflexivity. }
          destruct NE as (v' & vrest' & ->). cbn [map] in HT'. apply leads_more with (3 * n + m)%nat; [|lia]. eapply IH; [exact ER|exact H1|exact HT'|exact HK]. }
      destruct f; cbn [fit_number Z.eqb Pos.eqb].
      - apply NEXT; [discriminate|exact HT].
      - apply NEXT; [discriminate|exact HT].
      - apply leads_more with (3 * n + m)%nat; [|lia]. eapply IH; [exact HR|exact H1|exact HT|exact HK].
    Qed.

    Lemma trainer_leads m fuel rows vrows k r : mapM value_of rows = Ok vrows -> trained_in_cpp fuel vrows = Some r ->
      on r (fun t => forall L' h, has L' h (OTrans t) -> leads m L' (k h)) -> leads (Datatypes.S (3 * fuel + (4 + m))) L0 (trainer fuel rows k).
    Proof using.
      intros HR HT HK. unfold S_Client.trained_in_cpp in HT. unfold trainer.
      assert (EX : exists r0, r0 = construct) by (eexists; reflexivity). destruct EX as [r0 E0]. rewrite <- E0 in HT.
      assert (DC : does true L0 (CreateEstimator true) = (L0, outcome_of r0 (fun s => outcome_of (snd (begin_training I (est_new s))) (fun _ => NewHandle (OEst (fst (begin_training I (est_new s)))))))).
      { cbn [S_CApi.does S_CApi.effect orb]. rewrite <- E0. destruct r0 as [s|e|]; cbn [outcome_of]; [|reflexivity|reflexivity]. destruct (begin_training I (est_new s)); reflexivity. }
      clear E0. eapply leads_of; [reflexivity|exact DC|]. destruct r0 as [s|e|]; cbn [on].
      2,3: injection HT as <-; exact HK.
      clear DC. intros DC. eapply leads_of; [reflexivity|exact DC|]. unfold train, ok1 in HT. destruct (begin_training I (est_new s)) as [e1 rb]. cbn [fst snd] in DC, HT.
      destruct rb as [[]|z|]; cbn [on bind] in HT |- *.
      2,3: destruct vrows as [|v vrows]; injection HT as <-; exact HK.
      clear DC. intros DC. eapply leads_handle; [reflexivity|exact DC|]. clear DC. intros h H0 HN. cbv beta iota zeta.
      (* completing *)
      set (completing := demand (CompleteTraining h) _).
      assert (COMP : forall e L, has L h (OEst e) ->
        on (do e2 <- ok1 (complete_training I e); snd (create_transformer I (fst e2))) (fun t => forall L' h, has L' h (OTrans t) -> leads m L' (k h)) -> leads (4 + m) L completing).
      { intros e L HL HO. unfold completing, ok1 in *. cbn [Nat.add].
        assert (DM : does true L (CompleteTraining h) = (behind L h (Some (OEst (fst (complete_training I e)))), outcome_of (snd (complete_training I e)) (fun _ => Says ADone))).
        { cbn [S_CApi.does S_CApi.effect orb]. rewrite (with_est _ _ e) by (exact HL || reflexivity). destruct (complete_training I e); reflexivity. }
        assert (CS : snd (complete_training I e) = Ok tt -> e_state (fst (complete_training I e)) = Completed).
        { unfold complete_training. destruct (e_state e); cbn [snd]; try discriminate; destruct (i_complete I (e_impl e)) as [s' [[]|z|]]; cbn [snd]; try discriminate; reflexivity. }
        destruct (complete_training I e) as [e2 rc]. cbn [fst snd] in *. eapply leads_of; [eapply is_est; exact HL|exact DM|].
        destruct rc as [[]|z|]; cbn [on bind] in HO |- *; [|exact HO|exact HO]. specialize (CS eq_refl).
        clear DM. intros DM. eapply leads_says; [eapply is_est; exact HL|exact DM|]. clear DM. cbv beta. cbn [fst] in HO.
        assert (H1 : has (behind L h (Some (OEst e2))) h (OEst e2)) by (eapply has_behind; exact HL).
        eapply leads_says; [eapply is_est; exact H1|cbn [S_CApi.does S_CApi.effect orb]; rewrite (with_est _ _ _ _ _ H1 eq_refl); cbv beta iota; reflexivity|]. rewrite CS. cbv beta iota.
        set (L1 := behind L h (Some (OEst e2))) in *. clearbody L1. clear L HL.
        assert (DT : does true L1 (CreateTransformer h true) = (behind L1 h (Some (OEst (fst (create_transformer I e2)))), outcome_of (snd (create_transformer I e2)) (fun t => NewHandle (OTrans t)))).
        { cbn [S_CApi.does S_CApi.effect orb]. rewrite (with_est _ _ e2) by (exact H1 || reflexivity). destruct (create_transformer I e2); reflexivity. }
        destruct (create_transformer I e2) as [e3 rt]. cbn [fst snd] in *. eapply leads_of; [eapply is_est; exact H1|exact DT|].
        destruct rt as [t|z|]; cbn [on] in HO |- *; [|exact HO|exact HO].
        clear DT. intros DT. eapply leads_handle; [eapply is_est; exact H1|exact DT|]. clear DT. intros ht Ht0 HtN. cbv beta iota.
        assert (NE : ht <> h) by (intros ->; destruct H1 as (_ & H1 & _); congruence).
        set (L2 := behind (behind L1 h (Some (OEst e3))) ht (Some (OTrans t))).
        assert (LH : live L2 h = Some (OEst e3)).
        { unfold L2. cbn. unfold assign. destruct (Z.eqb_spec h ht) as [E|_]; [congruence|]. rewrite Z.eqb_refl. reflexivity. }
        eapply leads_says.
        { right. exists e3. exact LH. }
        { cbn [S_CApi.does S_CApi.effect orb]. unfold with_estimator. rewrite LH. destruct (Z.eqb_spec h 0); [contradiction|]. cbn [andb negb]. reflexivity. }
        cbv beta. apply HO. destruct H1 as (Q1 & Q2 & Q3 & Q4 & Q5). split; [exact Ht0|]. split.
        { unfold L2. cbn. unfold assign. destruct (Z.eqb_spec ht h) as [E|_]; [contradiction|]. rewrite Z.eqb_refl. reflexivity. }
        split; [rewrite <- (Q4 ht NE); exact HtN|]. split; [|exact Q5].
        intros k0 N0. unfold L2. cbn. unfold assign. destruct (Z.eqb_spec k0 h) as [->|N1]; [symmetry; exact Q3|].
        destruct (Z.eqb_spec k0 ht) as [E|_]; [contradiction|]. destruct (Z.eqb_spec k0 h) as [E|_]; [contradiction|]. apply Q4. exact N1. }
      assert (HE : has (behind L0 h (Some (OEst e1))) h (OEst e1)) by (apply has_new; assumption).
      destruct rows as [|x rows].
      - cbn [mapM] in HR. injection HR as <-. cbn [bind fst] in HT. injection HT as <-. apply leads_more with (4 + m)%nat; [|lia]. eapply COMP; [exact HE|exact HK].
      - assert (NE : exists v vs, vrows = v :: vs).
        { cbn [mapM] in HR. destruct (value_of x); cbn [bind] in HR; try discriminate. destruct (mapM value_of rows); cbn [bind] in HR; try discriminate.
          injection HR as <-. do 2 eexists. reflexivity. }
        destruct NE as (v & vs & EV). 
        assert (HT' : match train_loop I (map (fun w => [w]) vrows) fuel (map (fun w => [w]) vrows) e1 with
                      | Some (Ok e2) => Some (do e <- (do p <- ok1 (complete_training I e2); Ok (fst p)); snd (create_transformer I e))
                      | Some (Throw z) => Some (Throw z) | Some UB => Some UB | None => None end = Some r).
        { rewrite EV in HT |- *. cbn [fst] in HT. destruct (train_loop I (map (fun w => [w]) (v :: vs)) fuel (map (fun w => [w]) (v :: vs)) e1) as [[e2|z|]|]; exact HT. }
        clear HT. destruct (train_loop I (map (fun w => [w]) vrows) fuel (map (fun w => [w]) vrows) e1) as [r2|] eqn:EL; [|discriminate HT'].
        eapply rows_lead; [exact HR|exact HR|exact HE|exact EL|].
        destruct r2 as [e2|z|]; cbn [on].
        + intros L' HL'. eapply COMP; [exact HL'|]. injection HT' as <-. destruct (ok1 (complete_training I e2)) as [p|z|]; exact HK.
        + injection HT' as <-. exact HK.
        + injection HT' as <-. exact HK.
    Qed.
    Lemma transform_leads m xs : forall k t h L, has L h (OTrans t) ->
      on (executed t xs) (fun vs => forall L' t', has L' h (OTrans t') -> leads m L' (k vs)) -> leads (length xs + m) L (transform_rows h xs k).
    Proof using.
      induction xs as [|x xs IH]; intros k t h L HL HO; cbn [transform_rows S_Client.executed length Nat.add] in *.
      { cbn [on] in HO. eapply HO. exact HL. }
      assert (H0 : h <> 0) by apply HL.
      destruct (value_of x) as [v|z|] eqn:EV; cbn [bind] in HO.
      2, 3: eapply (leads_of _ L _ _ L (value_of x) (fun _ : In => Undefined)); [eapply is_tr; exact HL|cbn [S_CApi.does S_CApi.effect orb]; rewrite (with_val _ _ _ _ H0), EV; reflexivity|];
            rewrite EV; exact HO.
      assert (DT : does true L (Transform h x true) = (behind L h (Some (OTrans (fst (exec_one t v)))), outcome_of (snd (exec_one t v)) (fun y => Says (AValue y)))).
      { cbn [S_CApi.does S_CApi.effect orb]. rewrite (with_val _ _ _ _ H0), EV. rewrite (with_tr _ _ t) by (exact HL || reflexivity). destruct (exec_one t v); reflexivity. }
      destruct (exec_one t v) as [t' ry]. cbn [fst snd] in DT. eapply leads_of; [eapply is_tr; exact HL|exact DT|].
      destruct ry as [y|z|]; cbn [on bind] in HO |- *; [|exact HO|exact HO].
      clear DT. intros DT. eapply leads_says; [eapply is_tr; exact HL|exact DT|]. cbv beta iota. eapply IH; [eapply has_behind; exact HL|].
      rewrite on_bind in HO. eapply on_weak; [|exact HO]. intros ys. exact (fun z => z).
    Qed.
    Lemma destroy_leads n h t L p : has L h (OTrans t) -> (forall L', same_things L0 L' -> leads n L' p) -> leads (Datatypes.S n) L (demand (DestroyTransformer h) (fun _ => p)).
    Proof using.
      intros HL H. eapply leads_says; [eapply is_tr; exact HL|cbn [S_CApi.does S_CApi.effect orb]; rewrite (with_tr _ _ _ _ _ HL eq_refl); cbv beta iota; reflexivity|]. apply H. eapply has_gone. exact HL.
    Qed.
  End Leads.

  (** The programs. *)
  Definition at_end {R} (L0 : ledger) (r : res R) (L : ledger) (p : client R) : Prop := ends_with what L r p /\ (forall v, r = Ok v -> same_things L0 L).
  Lemma at_end_throw {R} L0 e : refusal (at_end (R := R) L0 (Throw e)) e.
  Proof using. intros L h H. split; [exists h; split; [reflexivity|exact H]|discriminate]. Qed.
  Lemma at_end_ub {R} L0 : undefinedness (at_end (R := R) L0 UB).
  Proof using. intros L. split; [reflexivity|discriminate]. Qed.
  Lemma on_at_end {R A} L0 (r : res A) (r' : res R) (K : A -> Prop) : (forall a, r = Ok a -> K a) -> (forall e, r = Throw e -> r' = Throw e) -> (r = UB -> r' = UB) -> on (at_end L0 r') r K.
  Proof using.
    intros H1 H2 H3. destruct r as [a|e|]; cbn [on]; [apply H1; reflexivity|rewrite (H2 e eq_refl); apply at_end_throw|rewrite (H3 eq_refl); apply at_end_ub].
  Qed.

  Theorem tester_leads fuel rows vs xs r L : mapM value_of rows = Ok vs -> trained_in_cpp fuel vs = Some r ->
    leads (at_end L (do t <- r; executed t xs)) (3 * fuel + length xs + 6) L (tester fuel rows xs).
  Proof using.
    intros HR HT. set (result := do t <- r; executed t xs). unfold tester.
    replace (3 * fuel + length xs + 6)%nat with (Datatypes.S (3 * fuel + (4 + (length xs + 1)))) by lia.
    eapply trainer_leads; [exact HR|exact HT|]. apply on_at_end.
    - intros t Et L' h HL'. subst r. cbn [bind] in result. eapply transform_leads; [exact HL'|]. apply on_at_end.
      + intros ys Ey L2 t' H2. unfold result. rewrite Ey. eapply destroy_leads; [exact H2|]. intros L3 S3. apply leads_end; [exact Logic.I|].
        split; [reflexivity|]. intros _ _. exact S3.
      + intros e Ee. exact Ee.
      + intros Ee. exact Ee.
    - intros e ->. reflexivity.
    - intros ->. reflexivity.
  Qed.
  Theorem loader_leads bytes xs L : bytes <> [] -> leads (at_end L (do t <- load_tr bytes; executed t xs)) (length xs + 2) L (loader bytes xs).
  Proof using.
    intros HB. set (result := do t <- load_tr bytes; executed t xs). unfold loader.
    assert (DL : does true L (LoadTransformer (Some bytes) true) = (L, outcome_of (load_tr bytes) (fun t => NewHandle (OTrans t)))).
    { cbn [S_CApi.does S_CApi.effect orb]. destruct bytes; [contradiction|]. reflexivity. }
    replace (length xs + 2)%nat with (Datatypes.S (length xs + 1)) by lia.
    eapply leads_of; [exact Logic.I|exact DL|]. apply on_at_end.
    - intros t Et D. eapply leads_handle; [exact Logic.I|exact D|]. intros h H0 HN. cbv beta iota. eapply transform_leads; [apply has_new; [exact H0|exact HN]|]. apply on_at_end.
      + intros ys Ey L2 t' H2. unfold result. rewrite Et. cbn [bind]. rewrite Ey. eapply destroy_leads; [exact H2|]. intros L3 S3. apply leads_end; [exact Logic.I|].
        split; [reflexivity|]. intros _ _. exact S3.
      + intros e Ee. unfold result. rewrite Et. exact Ee.
      + intros Ee. unfold result. rewrite Et. exact Ee.
    - intros e Ee. unfold result. rewrite Ee. reflexivity.
    - intros Ee. unfold result. rewrite Ee. reflexivity.
  Qed.
  (** The client that saves: it ends with a block that has the bytes. *)
  Definition saved_end (L : ledger) (bytes : list Z) (L' : ledger) (p : client (Z * Z)) : Prop :=
    exists a, p = Ends (a, Z.of_nat (length bytes)) /\ given L a = None /\ same_things (owing L a (Some (OBytes bytes))) L'.
  Theorem saver_leads fuel rows vs L t bytes : mapM value_of rows = Ok vs -> trained_in_cpp fuel vs = Some (Ok t) -> save_tr t = Ok bytes ->
    leads (saved_end L bytes) (3 * fuel + 7) L (saver fuel rows).
  Proof using.
    intros HR HT HS. unfold saver. replace (3 * fuel + 7)%nat with (Datatypes.S (3 * fuel + (4 + 2))) by lia.
    eapply trainer_leads; [exact HR|exact HT|]. cbn [on]. intros L1 h HL1.
    eapply leads_block.
    { eapply is_tr; exact HL1. }
    { cbn [S_CApi.does S_CApi.effect orb]. rewrite (with_tr _ _ _ t _ _ HL1 eq_refl), HS. reflexivity. }
    intros a Ha HN. cbv beta iota. destruct HL1 as (Q1 & Q2 & Q3 & Q4 & Q5).
    eapply leads_says.
    { right. exists t. exact Q2. }
    { cbn [S_CApi.does S_CApi.effect orb]. unfold with_transformer. cbn [owing live]. rewrite Q2. destruct (Z.eqb_spec h 0); [contradiction|]. cbn [andb negb]. reflexivity. }
    cbv beta. apply leads_end; [exact Logic.I|]. exists a. split; [reflexivity|]. rewrite <- Q5. split; [exact HN|]. split.
    - intros k. cbn. unfold assign. destruct (Z.eqb_spec k h) as [->|N]; [symmetry; exact Q3|apply Q4; exact N].
    - intros b. cbn. unfold assign. destruct (b =? a); [reflexivity|apply Q5].
  Qed.
End Client.
