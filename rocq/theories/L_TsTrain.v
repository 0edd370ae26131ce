From Flocq Require Import IEEE754.BinarySingleNaN.
From Verif Require Import Base L_List M_Archive M_Codec M_Estimator M_Stats M_Pipeline M_Keyed M_Scale M_TsImpute M_FloatText M_TsSave M_TsRows M_TsTrain.
Open Scope Z_scope.

Lemma foldM_app' {A B} (f : A -> B -> res A) : forall l a m, foldM f a (l ++ m) = do x <- foldM f a l; foldM f x m.
Proof. induction l as [|b l IH]; intros a m; [reflexivity|]. cbn [app foldM]. destruct (f a b) as [x|e|]; cbn [bind]; [apply IH|reflexivity|reflexivity]. Qed.

Section Train.
  Notation key := (list (list Z)).
  Notation text_row := (list (list Z) * (Z * list (option (list Z))))%type.
  Notation double := (binary_float 53 1024).
  Variable underflow : list Z -> bool.
  Variable types : list Z.
  Variable how : strategy.
  Variable suppress : bool.
  Variable ann : Z * list (key * list double).
  Notation fstep := (fun (p : Z * list (key * Z)) (r : text_row) => tsfreq_fit key_eqb p (fst r, fst (snd r))).
  Notation mstep := (med_text_fit underflow types).
  Notation finish := (mapM (fun e : key * list (double * Z) => do v <- med_finish types (snd e); Ok (fst e, v))).

  Definition e1 (st : tstate) p a : elem text_row := mkElem freq_stage (mkEst st false (p, a)) None.
  Definition e2 (st : tstate) p a : elem text_row := mkElem (med_stage underflow types) (mkEst st false (p, a)) None.
  Definition e3 (st : tstate) b t : elem text_row := mkElem (imp_stage types how suppress ann) (mkEst st b tt) t.
  Notation E1 := (fun p => mkEst Training false [e1 Training p None; e2 Pending [] None; e3 Pending false None]).
  Notation E2 := (fun q p => mkEst Training false [e1 Completed q (Some (fst q)); e2 Training p None; e3 Pending false None]).
  Notation E3 := (fun q p m => mkEst Finished false [e1 Completed q (Some (fst q)); e2 Completed p (Some m); e3 Finished false None]).
  Notation E4 := (fun q p m s => mkEst Completed false [e1 Completed q (Some (fst q)); e2 Completed p (Some m); e3 Completed true (Some s)]).

  Lemma begin_ok : begin_training pipeline_impl (est_new (ts_chain underflow types how suppress ann)) = (E1 (i64_max, []), Ok tt).
  Proof. reflexivity. Qed.
  Lemma fit1 p b : b <> [] -> ok1 (fit pipeline_impl (E1 p) (Some b)) = do p' <- foldM fstep p b; Ok (E1 p', FitContinue).
  Proof.
    intros H. destruct b as [|x b]; [congruence|]. set (l := x :: b). unfold fit. cbn [e_state e_impl e_created pipeline_impl i_fit].
    change (fit_chain [e1 Training p None; e2 Pending [] None; e3 Pending false None] l) with
      (do q <- el_fit (e1 Training p None) l; match snd q with
          | FitContinue => Ok (fst q :: [e2 Pending [] None; e3 Pending false None], FitContinue)
          | _ => do c1 <- complete_chained (fst q) [e2 Pending [] None; e3 Pending false None]; Ok (c1, if all_finished c1 then FitComplete else FitReset)
          end).
    unfold el_fit, lift1. unfold fit. cbn [e1 el_est e_state]. unfold l at 1.
    cbn [e1 el_stage ps_impl freq_stage freq_impl i_fit e_impl fst snd e_created]. fold l.
    destruct (foldM fstep p l) as [p'|e|]; reflexivity.
  Qed.
  Lemma fit2 q p b : b <> [] -> ok1 (fit pipeline_impl (E2 q p) (Some b)) = do p' <- foldM mstep p b; Ok (E2 q p', FitContinue).
  Proof.
    intros H. destruct b as [|x b]; [congruence|]. set (l := x :: b). unfold fit. cbn [e_state e_impl e_created pipeline_impl i_fit].
    change (fit_chain [e1 Completed q (Some (fst q)); e2 Training p None; e3 Pending false None] l) with
      (do r <- (do q <- el_fit (e2 Training p None) l; match snd q with
          | FitContinue => Ok (fst q :: [e3 Pending false None], FitContinue)
          | _ => do c1 <- complete_chained (fst q) [e3 Pending false None]; Ok (c1, if all_finished c1 then FitComplete else FitReset)
          end); Ok (e1 Completed q (Some (fst q)) :: fst r, snd r)).
    unfold el_fit, lift1. unfold fit. cbn [e2 el_est e_state]. unfold l at 1.
    cbn [e2 el_stage ps_impl med_stage med_impl i_fit e_impl fst snd e_created]. fold l.
    destruct (foldM mstep p l) as [p'|e|]; reflexivity.
  Qed.
  Lemma on1 p : ok1 (on_data_completed pipeline_impl (E1 p)) = Ok (E2 p [], tt).
  Proof. reflexivity. Qed.
  Lemma on2 q p : ok1 (on_data_completed pipeline_impl (E2 q p)) = do m <- finish p; Ok (E3 q p m, tt).
  Proof.
    unfold on_data_completed. cbn [e_state e_impl e_created pipeline_impl i_on_data].
    change (on_data_chain [e1 Completed q (Some (fst q)); e2 Training p None; e3 Pending false None]) with
      (do r <- (do x <- Ok (e2 Finished p None); do c1 <- complete_chained x [e3 Pending false None]; Ok (c1, all_finished c1));
       Ok (e1 Completed q (Some (fst q)) :: fst r, snd r)).
    cbn [bind]. unfold complete_chained, el_complete, lift1, complete_training. cbn [e2 el_est e_state el_stage ps_impl med_stage med_impl i_complete e_impl fst snd e_created].
    destruct (finish p) as [m|e|]; reflexivity.
  Qed.
  Lemma complete3 q p m : ok1 (complete_training pipeline_impl (E3 q p m)) = do s <- se_construct (ann_settings types how suppress ann); Ok (E4 q p m s, tt).
  Proof.
    unfold complete_training. cbn [e_state e_impl e_created pipeline_impl i_complete].
    change (complete_chain [e1 Completed q (Some (fst q)); e2 Completed p (Some m); e3 Finished false None]) with
      (do r <- (do r <- (do x <- el_complete (e3 Finished false None); Ok [x]); Ok (e2 Completed p (Some m) :: r)); Ok (e1 Completed q (Some (fst q)) :: r)).
    unfold el_complete, lift1, complete_training. cbn [e3 el_est e_state el_stage ps_impl imp_stage imp_impl i_complete e_impl fst snd e_created bind with_est ps_is_tr negb andb].
    unfold create_transformer. cbn [e_state e_created i_create or_else e_impl]. unfold imp_impl. cbn [i_create]. destruct (se_construct _) as [s|e|]; reflexivity.
  Qed.

  Variable bs : list (list text_row).
  Lemma loop1 : forall it p fuel, it <> [] -> Forall (fun b => b <> []) it ->
    train_loop pipeline_impl bs (length it + fuel) it (E1 p) =
    match foldM fstep p (concat it) with Ok p' => train_loop pipeline_impl bs fuel bs (E2 p' []) | Throw e => Some (Throw e) | UB => Some UB end.
  Proof.
    induction it as [|b it IH]; intros p fuel N H; [congruence|]. inversion H as [|? ? Hb H']; subst. cbn [length plus concat train_loop e_state].
    rewrite fit1 by exact Hb. rewrite foldM_app'. destruct (foldM fstep p b) as [p'|e|]; cbn [bind]; try reflexivity.
    destruct it as [|b' it]; [rewrite on1; cbn [bind]; reflexivity|]. rewrite IH; [reflexivity|discriminate|exact H'].
  Qed.
  Lemma loop2 : forall it q p fuel, it <> [] -> Forall (fun b => b <> []) it ->
    train_loop pipeline_impl bs (length it + fuel) it (E2 q p) =
    match foldM mstep p (concat it) with
    | Ok p' => match finish p' with Ok m => train_loop pipeline_impl bs fuel bs (E3 q p' m) | Throw e => Some (Throw e) | UB => Some UB end
    | Throw e => Some (Throw e) | UB => Some UB end.
  Proof.
    induction it as [|b it IH]; intros q p fuel N H; [congruence|]. inversion H as [|? ? Hb H']; subst. cbn [length plus concat train_loop e_state].
    rewrite fit2 by exact Hb. rewrite foldM_app'. destruct (foldM mstep p b) as [p'|e|]; cbn [bind]; try reflexivity.
    destruct it as [|b' it].
    - cbn [concat foldM]. rewrite on2. destruct (finish p') as [m|e|]; reflexivity.
    - rewrite IH; [reflexivity|discriminate|exact H'].
  Qed.
  (** Training, in three steps. *)
  Definition steps (rows : list text_row) : res (est (list (elem text_row))) :=
    do q <- foldM fstep (i64_max, []) rows;
    do p <- foldM mstep [] rows;
    do m <- finish p;
    do s <- se_construct (ann_settings types how suppress ann);
    Ok (E4 q p m s).
  Lemma train_steps : bs <> [] -> Forall (fun b => b <> []) bs -> forall fuel, (length bs + (length bs + 1) <= fuel)%nat ->
    train pipeline_impl bs fuel (est_new (ts_chain underflow types how suppress ann)) = Some (steps (concat bs)).
  Proof.
    intros N H fuel Hf. unfold train. rewrite begin_ok. unfold ok1 at 1. cbn [fst snd bind].
    replace fuel with (length bs + (length bs + (1 + (fuel - (length bs + (length bs + 1))))))%nat by lia.
    rewrite loop1 by assumption. unfold steps. destruct (foldM fstep (i64_max, []) (concat bs)) as [q|e|]; cbn [bind]; try reflexivity.
    rewrite loop2 by assumption. destruct (foldM mstep [] (concat bs)) as [p|e|]; cbn [bind]; try reflexivity.
    destruct (finish p) as [m|e|]; cbn [bind]; try reflexivity.
    cbn [plus train_loop e_state]. rewrite complete3. destruct (se_construct _) as [s|e|]; reflexivity.
  Qed.
End Train.

(** The same through the C interface. *)
Lemma train_bytes_loop places duration_text m (bs : list (list (list Z))) rows :
  Forall2 (fun b r => mapM (load_row places duration_text m) b = Ok r) bs rows ->
  forall fuel it itr e, Forall2 (fun b r => mapM (load_row places duration_text m) b = Ok r) it itr ->
  train_loop (api_impl places duration_text m) bs fuel it e = train_loop pipeline_impl rows fuel itr e.
Proof.
  intros H. induction fuel as [|fuel IH]; intros it itr e Hi; [reflexivity|]. cbn [train_loop].
  destruct (e_state e) eqn:Ee; try reflexivity. destruct Hi as [|b r it itr Hb Hi]; [reflexivity|].
  assert (F : fit (api_impl places duration_text m) e (Some b) = fit pipeline_impl e (Some r)).
  { unfold fit. rewrite Ee. destruct b as [|x b]; [cbn in Hb; injection Hb as <-; reflexivity|].
    cbn [api_impl i_fit]. rewrite Hb. destruct r as [|y r]; [|reflexivity]. exfalso. clear -Hb. cbn [mapM] in Hb.
    destruct (load_row places duration_text m x) as [y|e|]; cbn [bind] in Hb; try discriminate. destruct (mapM _ b) as [z|e|]; discriminate. }
  rewrite F. destruct (ok1 (fit pipeline_impl e (Some r))) as [[e1 f]|x|]; try reflexivity.
  assert (G : match it with [] => match ok1 (on_data_completed (api_impl places duration_text m) e1) with
                            | Ok (e2, _) => train_loop (api_impl places duration_text m) bs fuel bs e2 | Throw x => Some (Throw x) | UB => Some UB end
              | _ => train_loop (api_impl places duration_text m) bs fuel it e1 end =
              match itr with [] => match ok1 (on_data_completed pipeline_impl e1) with
                            | Ok (e2, _) => train_loop pipeline_impl rows fuel rows e2 | Throw x => Some (Throw x) | UB => Some UB end
              | _ => train_loop pipeline_impl rows fuel itr e1 end).
  { destruct Hi as [|b2 r2 it itr Hb2 Hi].
    - change (on_data_completed (api_impl places duration_text m) e1) with (on_data_completed pipeline_impl e1).
      destruct (ok1 (on_data_completed pipeline_impl e1)) as [[e2 u]|x|]; try reflexivity. now apply IH.
    - apply IH. now constructor. }
  destruct f; [exact G|exact G|]. now apply IH.
Qed.
Lemma train_bytes places duration_text m (bs : list (list (list Z))) rows :
  Forall2 (fun b r => mapM (load_row places duration_text m) b = Ok r) bs rows ->
  forall fuel e, train (api_impl places duration_text m) bs fuel e = train pipeline_impl rows fuel e.
Proof.
  intros H fuel e. unfold train. change (begin_training (api_impl places duration_text m) e) with (begin_training pipeline_impl e).
  destruct (ok1 (begin_training pipeline_impl e)) as [[e1 u]|x|]; try reflexivity. rewrite (train_bytes_loop places duration_text m bs rows H fuel bs rows e1 H).
  reflexivity.
Qed.
