From Verif Require Import Base L_List M_Archive M_Estimator L_Estimator M_Pipeline S_Stats M_Featurizer S_Featurizer.

Section L.
  Context {V Ann Tr : Type}.
  Variable apply : Tr -> V -> list V.
  Variable col : nat.
  Notation store := (ann_maps Ann).
  Notation selem := (selem V Ann Tr).
  Notation fstep := (fstep V Ann Tr).
  Notation fimpl := (featurizer_impl (V := V) (Ann := Ann) (Tr := Tr) apply).
  Notation fresh := (fresh (V := V) (Ann := Ann) (Tr := Tr) col).

  (** An element that is through with its training. *)
  Definition done (e : selem) : Prop :=
    se_state e = Completed /\ (ss_is_tr (se_stage e) = true -> exists t, se_tr e = Some t) /\ (ss_is_tr (se_stage e) = false -> se_tr e = None).
  Definition seb (b : list V) : bool := match b with [] => false | _ => true end.
  Definition pass (e : selem) (bs : list (list V)) : list (list V) :=
    match se_tr e with Some t => behind apply t bs | None => bs end.
  Definition flow (D : list selem) (bs : list (list V)) : list (list V) := fold_left (fun b e => pass e b) D bs.
  Definition step1 (e : selem) (xs : list V) : list V := match se_tr e with Some t => flat_map (apply t) xs | None => xs end.
  Definition thr (D : list selem) (xs : list V) : list V := fold_left (fun b e => step1 e b) D xs.

  Lemma thr_nil D : thr D [] = [].
  Proof. induction D as [|e D IH]; [reflexivity|]. cbn [thr fold_left]. replace (step1 e []) with (@nil V); [exact IH|]. unfold step1. now destruct (se_tr e). Qed.
  Lemma filter_map_step e bs : filter seb (map (step1 e) (filter seb bs)) = filter seb (map (step1 e) bs).
  Proof.
    induction bs as [|[|x b] r IH]; [reflexivity| |].
    - cbn [filter seb map]. replace (step1 e []) with (@nil V) by (unfold step1; now destruct (se_tr e)). cbn [seb]. exact IH.
    - cbn [filter seb map]. destruct (seb (step1 e (x :: b))); [f_equal|]; exact IH.
  Qed.
  Lemma pass_eq e bs : Forall (fun b => b <> []) bs -> pass e bs = filter seb (map (step1 e) bs).
  Proof.
    intros H. unfold pass, step1, behind. destruct (se_tr e) as [t|]; [reflexivity|].
    rewrite map_id. induction H as [|b r Hb _ IH]; [reflexivity|]. destruct b; [contradiction|]. cbn [filter seb]. now rewrite <- IH.
  Qed.
  Lemma filter_ne bs : Forall (fun b : list V => b <> []) (filter seb bs).
  Proof. induction bs as [|[|x b] r IH]; cbn [filter seb]; auto. constructor; [discriminate|exact IH]. Qed.
  Lemma flow_eq D : forall bs, Forall (fun b => b <> []) bs -> flow D bs = filter seb (map (thr D) bs) /\ Forall (fun b => b <> []) (flow D bs).
  Proof.
    induction D as [|e D IH]; intros bs H.
    - cbn [flow fold_left]. split; [|exact H]. unfold thr; cbn [fold_left]. rewrite map_id.
      induction H as [|b r Hb _ IH]; [reflexivity|]. destruct b; [contradiction|]. cbn [filter seb]. now rewrite <- IH.
    - cbn [flow fold_left]. rewrite (pass_eq e bs H).
      destruct (IH (filter seb (map (step1 e) bs)) (filter_ne _)) as [E F]. split; [|exact F].
      unfold flow in E. rewrite E. clear. induction bs as [|b r IH]; [reflexivity|].
      cbn [map filter]. destruct (step1 e b) as [|y yy] eqn:S1; cbn [seb].
      + cbn [thr fold_left]. rewrite S1. change (fold_left (fun b e => step1 e b) D []) with (thr D []). rewrite thr_nil. cbn [seb]. exact IH.
      + cbn [map filter]. cbn [thr fold_left]. rewrite S1.
        change (fold_left (fun b e => step1 e b) D (y :: yy)) with (thr D (y :: yy)). destruct (seb (thr D (y :: yy))); [f_equal|]; exact IH.
  Qed.
  Lemma thr_app D e xs : thr (D ++ [e]) xs = step1 e (thr D xs).
  Proof. unfold thr. now rewrite fold_left_app. Qed.
  Lemma flow_app D e bs : flow (D ++ [e]) bs = pass e (flow D bs).
  Proof. unfold flow. now rewrite fold_left_app. Qed.

  Lemma all_fin_app D (c : list selem) : c <> [] -> s_all_finished (D ++ c) = s_all_finished c.
  Proof.
    intros Hc. induction D as [|e D IH]; [reflexivity|]. cbn [app s_all_finished]. rewrite <- IH.
    destruct (D ++ c) eqn:E; [destruct D, c; cbn in E; congruence|reflexivity].
  Qed.

  Lemma transform_done e xs : done e -> se_transform apply e xs = Ok (step1 e xs).
  Proof.
    intros (_ & T & N). unfold se_transform, step1. destruct (ss_is_tr (se_stage e)).
    - destruct (T eq_refl) as [t ->]. reflexivity.
    - now rewrite (N eq_refl).
  Qed.
  Lemma done_not_training e : done e -> s_training e = false /\ s_pending e = false /\ s_completed e = true.
  Proof. intros (H & _). unfold s_training, s_pending, s_completed. now rewrite H. Qed.

  Lemma fit_done D : forall a (c : list selem) xs, Forall done D -> c <> [] -> xs <> [] ->
    s_fit apply a (D ++ c) xs =
    match thr D xs with
    | [] => Ok (a, D ++ c, FitContinue)
    | ys => do q <- s_fit apply a c ys; Ok (fst (fst q), D ++ snd (fst q), snd q)
    end.
  Proof.
    induction D as [|e D IH]; intros a c xs H Hc Hx.
    - cbn [app thr fold_left]. destruct xs as [|x xs]; [contradiction|].
      destruct (s_fit apply a c (x :: xs)) as [[[a1 c1] f]|y|]; reflexivity.
    - inversion H as [|? ? He HD]; subst. cbn [app].
      assert (E : s_fit apply a (e :: D ++ c) xs =
        (do ys <- se_transform apply e xs;
          match ys with
          | [] => Ok (a, e :: D ++ c, FitContinue)
          | _ => do q <- s_fit apply a (D ++ c) ys; Ok (fst (fst q), e :: snd (fst q), snd q)
          end)).
      { cbn [s_fit]. destruct (D ++ c) eqn:DC; [destruct D, c; cbn in DC; congruence|].
        destruct (done_not_training e He) as (-> & _). reflexivity. }
      rewrite E, (transform_done e xs He). cbn [bind thr fold_left].
      change (fold_left (fun b e => step1 e b) D (step1 e xs)) with (thr D (step1 e xs)).
      destruct (step1 e xs) as [|y ys] eqn:S1.
      + now rewrite thr_nil.
      + rewrite (IH a c (y :: ys) HD Hc ltac:(discriminate)). destruct (thr D (y :: ys)) as [|z zs]; [reflexivity|].
        destruct (s_fit apply a c (z :: zs)) as [[[a1 c1] f]|w|]; reflexivity.
  Qed.
  Lemma on_data_done D : forall a (c : list selem), Forall done D -> c <> [] ->
    s_on_data a (D ++ c) = do q <- s_on_data a c; Ok (fst (fst q), D ++ snd (fst q), snd q).
  Proof.
    induction D as [|e D IH]; intros a c H Hc.
    - cbn [app]. destruct (s_on_data a c) as [[[a1 c1] f]|y|]; reflexivity.
    - inversion H as [|? ? He HD]; subst. cbn [app].
      assert (E : s_on_data a (e :: D ++ c) = (do q <- s_on_data a (D ++ c); Ok (fst (fst q), e :: snd (fst q), snd q))).
      { cbn [s_on_data]. destruct (D ++ c) eqn:DC; [destruct D, c; cbn in DC; congruence|].
        destruct (done_not_training e He) as (-> & _). reflexivity. }
      rewrite E, (IH a c HD Hc). destruct (s_on_data a c) as [[[a1 c1] f]|y|]; reflexivity.
  Qed.
  Lemma complete_done D : forall a e, Forall done D ->
    s_complete_n (length (D ++ [e])) a (D ++ [e]) = do p <- se_complete a e; Ok (fst p, D ++ [snd p]).
  Proof.
    induction D as [|d D IH]; intros a e H.
    - cbn [app length s_complete_n]. destruct (se_complete a e) as [[a1 e1]|y|]; reflexivity.
    - inversion H as [|? ? He HD]; subst. cbn [app length].
      assert (E : s_complete_n (S (length (D ++ [e]))) a (d :: D ++ [e]) = (do q <- s_complete_n (length (D ++ [e])) a (D ++ [e]); Ok (fst q, d :: snd q))).
      { cbn [s_complete_n]. destruct (D ++ [e]) eqn:DC; [destruct D; discriminate DC|].
        destruct (done_not_training d He) as (_ & _ & ->). reflexivity. }
      rewrite E, (IH a e HD). destruct (se_complete a e) as [[a1 e1]|y|]; reflexivity.
  Qed.
  Lemma made_app (c d : list selem) : made (c ++ d) = made c ++ made d.
  Proof. unfold made. apply flat_map_app. Qed.

  (** ** The training loop from the moment the rest of the chain has begun. *)
  Section Loop.
    Variable bs : list (list V).
    Hypothesis Hne : Forall (fun b => b <> []) bs.
    Hypothesis Hbs : bs <> [].
    Definition pst (c : list selem) : tstate := if s_all_finished c then Finished else Training.
    Definition conclude (r : option (res (est (store * list selem)))) : option (res (store * list Tr)) :=
      match r with
      | Some (Ok e2) => 
          match (do p <- ok1 (complete_training fimpl e2); Ok (fst p)) with
          | Ok e => let (e', r) := create_transformer fimpl e in Some (do t <- r; Ok (fst (e_impl e'), t))
          | Throw x => Some (Throw x)
          | UB => Some UB
          end
      | Some (Throw x) => Some (Throw x)
      | Some UB => Some UB
      | None => None
      end.
    Definition go (fuel : nat) (a : store) (c : list selem) : option (res (store * list Tr)) :=
      conclude (train_loop fimpl bs fuel bs (mkEst (pst c) false (a, c))).
    (** The same behind a step that may fail. *)
    Definition go_r (fuel : nat) (D : list selem) (r : res (store * list selem)) : option (res (store * list Tr)) :=
      match r with Ok p => go fuel (fst p) (D ++ snd p) | Throw x => Some (Throw x) | UB => Some UB end.
    Definition joined (D : list selem) (r : res (store * list Tr)) : res (store * list Tr) := rmap (fun p => (fst p, made D ++ snd p)) r.

    Lemma go_finished fuel a D e : Forall done D -> se_state e = Finished ->
      go (S fuel) a (D ++ [e]) = Some (do p <- se_complete a e; Ok (fst p, made D ++ made [snd p])).
    Proof using apply.
      intros HD He. unfold go, pst. rewrite all_fin_app by discriminate. cbn [s_all_finished]. rewrite He.
      cbn [train_loop e_state conclude]. unfold complete_training. cbn [e_state e_impl e_created featurizer_impl i_complete].
      cbn [fst snd]. rewrite (complete_done D a e HD). destruct (se_complete a e) as [[a1 e1]|y|]; cbn [rmap bind s_imp ok1 fst snd]; try reflexivity.
      unfold create_transformer. cbn [e_state e_created e_impl featurizer_impl i_create fst snd bind]. now rewrite made_app.
    Qed.

    Section Stage.
      Context {P : Type}.
      Variables (required : bool) (nm : name) (is_t : Ann -> bool) (pol : spolicy V Ann P).
      Definition nel (st : tstate) (o : own P) : selem :=
        mkSE (mkSS (own P) (note_impl col required nm is_t pol) false) (mkEst st false o) None.
      Lemma nel_fit a p rem xs : xs <> [] ->
        se_fit a (nel Training (mkOwn p false rem)) xs =
        do p' <- foldM (sp_fit pol) p (firstn rem xs);
        let rem' := (rem - Nat.min rem (length xs))%nat in
        Ok (a, nel (if Nat.eqb rem' 0 then Finished else Training) (mkOwn p' false rem'), if Nat.eqb rem' 0 then FitComplete else FitContinue).
      Proof using apply.
        intros Hx. unfold se_fit, slift, fit. cbn [shared e_state se_est nel]. destruct xs as [|x xs]; [contradiction|]. set (xx := x :: xs) in *.
        cbn [se_stage nel ss_impl note_impl i_fit shared e_impl e_created]. unfold n_fit. cbn [fst snd ow_remaining ow_pol ow_has].
        pose proof (fit_items_foldM (at_store pol a) p (firstn (Nat.min rem (length xx)) xx)) as FI.
        replace (firstn (Nat.min rem (length xx)) xx) with (firstn rem xx) in *
          by (destruct (Nat.le_ge_cases rem (length xx)); [f_equal; lia|rewrite !firstn_all2 by lia; reflexivity]).
        change (p_fit (at_store pol a)) with (sp_fit pol) in FI.
        destruct (fit_items (at_store pol a) p (firstn rem xx)) as [p' [u|y|]]; cbn [res_of] in FI; rewrite <- FI; cbn [bind snd]; try reflexivity.
        cbv zeta. destruct (Nat.eqb (rem - Nat.min rem (length xx)) 0); reflexivity.
      Qed.
      Lemma nel_on_data a o : se_on_data a (nel Training o) = Ok (a, nel Finished o).
      Proof using apply. reflexivity. Qed.
      Lemma nel_complete a st p rem : st = Training \/ st = Finished ->
        se_complete a (nel st (mkOwn p false rem)) =
        do n <- sp_complete pol a p; do a' <- add_annotation a (Some n) col nm; Ok (a', nel Completed (mkOwn p false rem)).
      Proof using apply.
        intros Hst. unfold se_complete, slift, complete_training.
        destruct Hst as [-> | ->]; cbn [shared e_state se_est nel se_stage ss_impl note_impl i_complete e_impl e_created]; unfold n_complete;
          cbn [fst snd ow_has ow_pol]; (destruct (sp_complete pol a p) as [n|y|]; [|reflexivity|reflexivity]); cbn [bind];
          destruct (add_annotation a (Some n) col nm) as [a'|y|]; reflexivity.
      Qed.
      Lemma nel_has_complete a p rem : se_complete a (nel Finished (mkOwn p true rem)) = Ok (a, nel Completed (mkOwn p true rem)).
      Proof using apply. reflexivity. Qed.
      Lemma done_nel o : done (nel Completed o).
      Proof using apply. repeat split. discriminate. Qed.

      Variables (D R : list selem) (a : store).
      Hypothesis HD : Forall done D.
      Hypothesis HR : R <> [].
      Notation fl := (flow D).

      Lemma chained_ne e q : s_complete_chained a e R = Ok q -> snd q <> [].
      Proof using apply.
        unfold s_complete_chained. destruct (se_complete a e) as [[x1 x2]|y|]; cbn [bind]; try discriminate.
        destruct (s_begin (fst (x1, x2)) R) as [[[a1 c1] b]|y|]; cbn [bind]; try discriminate.
        intros E. injection E as <-. discriminate.
      Qed.

      Lemma loop_finished f it c : (1 <= f)%nat -> train_loop fimpl bs f it (mkEst Finished false (a, c)) = Some (Ok (mkEst Finished false (a, c))).
      Proof using apply. intros H. destruct f; [lia|reflexivity]. Qed.

      (** on_data_completed at the end of the data. *)
      Lemma end_of_data p rem :
        ok1 (on_data_completed fimpl (mkEst Training false (a, D ++ nel Training (mkOwn p false rem) :: R))) =
        do q <- s_complete_chained a (nel Finished (mkOwn p false rem)) R; Ok (mkEst (pst (D ++ snd q)) false (fst q, D ++ snd q), tt).
      Proof using apply HD HR.
        unfold on_data_completed. cbn [e_state e_impl e_created featurizer_impl i_on_data fst snd].
        rewrite (on_data_done D a _ HD) by discriminate.
        assert (E : s_on_data a (nel Training (mkOwn p false rem) :: R) =
          do q <- s_complete_chained a (nel Finished (mkOwn p false rem)) R; Ok (fst q, snd q, s_all_finished (snd q))).
        { cbn [s_on_data]. destruct R as [|r0 R0]; [contradiction|]. reflexivity. }
        rewrite E. pose proof (chained_ne (nel Finished (mkOwn p false rem))) as NE.
        destruct (s_complete_chained a (nel Finished (mkOwn p false rem)) R) as [q|y|]; cbn [bind s_imp fst snd ok1]; try reflexivity.
        unfold pst. rewrite all_fin_app by (now apply NE). destruct (s_all_finished (snd q)); reflexivity.
      Qed.

      Definition or_fail (r : res P) (X : P -> option (res (store * list Tr))) : option (res (store * list Tr)) :=
        match r with Ok p => X p | Throw x => Some (Throw x) | UB => Some UB end.

      Lemma stage_loop : forall iter p rem (X : P -> option (res (store * list Tr))), (1 <= rem)%nat -> iter <> [] -> Forall (fun b => b <> []) iter ->
        (forall p' rem', foldM (sp_fit pol) p (firstn rem (concat (fl iter))) = Ok p' ->
           exists m, forall f, (m <= f)%nat -> go_r f D (s_complete_chained a (nel Finished (mkOwn p' false rem')) R) = X p') ->
        exists n, forall fuel, (n <= fuel)%nat ->
          conclude (train_loop fimpl bs fuel iter (mkEst Training false (a, D ++ nel Training (mkOwn p false rem) :: R))) =
          or_fail (foldM (sp_fit pol) p (firstn rem (concat (fl iter)))) X.
      Proof using apply HD HR.
        induction iter as [|b rest IH]; intros p rem X Hrem Hit Hnb HX; [contradiction|].
        inversion Hnb as [|? ? Hb Hrest]; subst.
        rewrite (proj1 (flow_eq D (b :: rest) Hnb)) in HX |- *. cbn [map filter] in HX |- *.
        pose proof (proj1 (flow_eq D rest Hrest)) as FR.
        assert (LOOP : forall f, train_loop fimpl bs (S f) (b :: rest) (mkEst Training false (a, D ++ nel Training (mkOwn p false rem) :: R)) =
          match ok1 (fit fimpl (mkEst Training false (a, D ++ nel Training (mkOwn p false rem) :: R)) (Some b)) with
          | Throw x => Some (Throw x)
          | UB => Some UB
          | Ok (e1, FitReset) => train_loop fimpl bs f bs e1
          | Ok (e1, _) =>
              match rest with
              | [] => match ok1 (on_data_completed fimpl e1) with
                      | Ok (e2, _) => train_loop fimpl bs f bs e2
                      | Throw x => Some (Throw x)
                      | UB => Some UB
                      end
              | _ => train_loop fimpl bs f rest e1
              end
          end) by reflexivity.
        assert (FIT : ok1 (fit fimpl (mkEst Training false (a, D ++ nel Training (mkOwn p false rem) :: R)) (Some b)) =
          match s_fit apply a (D ++ nel Training (mkOwn p false rem) :: R) b with
          | Ok (s, FitComplete) => Ok (mkEst Finished false s, FitComplete)
          | Ok (s, f) => Ok (mkEst Training false s, f)
          | Throw x => Throw x
          | UB => UB
          end).
        { unfold fit. cbn [e_state]. destruct b as [|b0 bb]; [contradiction|]. cbn [e_impl e_created featurizer_impl i_fit fst snd].
          destruct (s_fit apply a (D ++ nel Training (mkOwn p false rem) :: R) (b0 :: bb)) as [[s [| |]]|y|]; reflexivity. }
        (* what happens when the element takes up state [p1] with [rem1] left and wants more *)
        assert (MORE : forall p1 rem1, (1 <= rem1)%nat ->
          (forall p' rem', foldM (sp_fit pol) p1 (firstn rem1 (concat (filter seb (map (thr D) rest)))) = Ok p' ->
             exists m, forall f, (m <= f)%nat -> go_r f D (s_complete_chained a (nel Finished (mkOwn p' false rem')) R) = X p') ->
          exists n, forall f, (n <= f)%nat ->
            conclude (match rest with
              | [] => match ok1 (on_data_completed fimpl (mkEst Training false (a, D ++ nel Training (mkOwn p1 false rem1) :: R))) with
                      | Ok (e2, _) => train_loop fimpl bs f bs e2
                      | Throw x => Some (Throw x)
                      | UB => Some UB
                      end
              | _ => train_loop fimpl bs f rest (mkEst Training false (a, D ++ nel Training (mkOwn p1 false rem1) :: R))
              end) = or_fail (foldM (sp_fit pol) p1 (firstn rem1 (concat (filter seb (map (thr D) rest))))) X).
        { intros p1 rem1 H1 HX1. destruct rest as [|b2 rest2].
          - cbn [map filter concat] in HX1 |- *. rewrite firstn_nil in HX1 |- *. cbn [foldM or_fail] in HX1 |- *.
            destruct (HX1 p1 rem1 eq_refl) as [m Hm]. exists m. intros f Hf. rewrite end_of_data. rewrite <- (Hm f Hf).
            destruct (s_complete_chained a (nel Finished (mkOwn p1 false rem1)) R) as [q|y|]; cbn [bind go_r]; [reflexivity|reflexivity|reflexivity].
          - rewrite <- FR. apply IH; [exact H1|discriminate|exact Hrest|]. rewrite FR. exact HX1. }
        destruct (thr D b) as [|y ys] eqn:TB; cbn [seb] in HX |- *.
        - (* nothing left of this batch *)
          destruct (MORE p rem Hrem HX) as [n Hn]. exists (S n). intros fuel Hf. destruct fuel as [|f]; [lia|].
          rewrite LOOP, FIT, (fit_done D a (nel Training (mkOwn p false rem) :: R) b HD ltac:(discriminate) Hb), TB. apply Hn. lia.
        - assert (SF : s_fit apply a (nel Training (mkOwn p false rem) :: R) (y :: ys) =
            do p' <- foldM (sp_fit pol) p (firstn rem (y :: ys));
            let rem' := (rem - Nat.min rem (length (y :: ys)))%nat in
            if Nat.eqb rem' 0
            then do q <- s_complete_chained a (nel Finished (mkOwn p' false rem')) R;
                 Ok (fst q, snd q, if s_all_finished (snd q) then FitComplete else FitReset)
            else Ok (a, nel Training (mkOwn p' false rem') :: R, FitContinue)).
          { cbn [s_fit]. destruct R as [|r0 R0]; [contradiction|]. cbn [s_training nel se_state se_est e_state]. fold (nel Training (mkOwn p false rem)).
            rewrite nel_fit by discriminate. destruct (foldM (sp_fit pol) p (firstn rem (y :: ys))) as [p'|z|]; cbn [bind]; try reflexivity.
            cbv zeta. destruct (Nat.eqb (rem - Nat.min rem (length (y :: ys))) 0) eqn:E0; cbn [fst snd]; [|reflexivity].
            destruct (s_complete_chained a (nel Finished (mkOwn p' false (rem - Nat.min rem (length (y :: ys))))) (r0 :: R0)) as [q|z|]; reflexivity. }
          assert (FD : s_fit apply a (D ++ nel Training (mkOwn p false rem) :: R) b =
            do q <- s_fit apply a (nel Training (mkOwn p false rem) :: R) (y :: ys); Ok (fst (fst q), D ++ snd (fst q), snd q))
            by (rewrite (fit_done D a (nel Training (mkOwn p false rem) :: R) b HD ltac:(discriminate) Hb), TB; reflexivity).
          cbn [concat] in HX |- *. rewrite firstn_app, foldM_app in HX |- *. clear TB. set (yy := y :: ys) in *.
          destruct (foldM (sp_fit pol) p (firstn rem yy)) as [p'|z|] eqn:FM; cbn [bind] in HX, SF |- *.
          + set (rem' := (rem - Nat.min rem (length yy))%nat) in *.
            destruct (Nat.eqb_spec rem' 0) as [Hz|Hnz].
            * (* that was the last item it takes *)
              assert (rem <= length yy)%nat by (unfold rem' in Hz; lia).
              replace (rem - length yy)%nat with 0%nat in HX |- * by lia. cbn [firstn foldM] in HX |- *. cbn [or_fail].
              destruct (HX p' rem' eq_refl) as [m Hm]. exists (S (S m)). intros fuel Hf. destruct fuel as [|f]; [lia|].
              rewrite LOOP, FIT, FD, SF.
              cbv zeta. rewrite Hz in *. cbn [Nat.eqb].
              rewrite <- (Hm f ltac:(lia)). pose proof (chained_ne (nel Finished (mkOwn p' false 0))) as NE.
              destruct (s_complete_chained a (nel Finished (mkOwn p' false 0)) R) as [[a2 c2]|z|]; cbn [bind fst snd go_r]; [|reflexivity|reflexivity].
              specialize (NE _ eq_refl). cbn [snd] in NE. unfold go, pst. rewrite all_fin_app by exact NE.
              destruct (s_all_finished c2); [|reflexivity].
              assert (LF : forall it, train_loop fimpl bs f it (mkEst Finished false (a2, D ++ c2)) = Some (Ok (mkEst Finished false (a2, D ++ c2))))
                by (intros it; destruct f; [lia|reflexivity]).
              destruct rest as [|b2 rest2].
              { cbn [on_data_completed e_state ok1 snd fst bind]. reflexivity. }
              { now rewrite !LF. }
            * assert (rem > length yy)%nat by (unfold rem' in Hnz; lia).
              assert (rem' = rem - length yy)%nat by (unfold rem'; lia).
              rewrite <- H0 in HX |- *. destruct (MORE p' rem' ltac:(lia) HX) as [n Hn]. exists (S n). intros fuel Hf. destruct fuel as [|f]; [lia|].
              rewrite LOOP, FIT, FD, SF.
              cbv zeta. destruct (Nat.eqb_spec rem' 0) as [Hz|_]; [contradiction|]. cbn [bind fst snd]. apply Hn. lia.
          + exists 1%nat. intros fuel Hf. destruct fuel as [|f]; [lia|].
            rewrite LOOP, FIT, FD, SF. reflexivity.
          + exists 1%nat. intros fuel Hf. destruct fuel as [|f]; [lia|].
            rewrite LOOP, FIT, FD, SF. reflexivity.
      Qed.
    End Stage.

    Lemma go_r_cons f (D : list selem) (x : selem) (r : res (store * list selem * bool)) :
      go_r f D (do y <- r; Ok (fst (fst y), x :: snd (fst y))) = go_r f (D ++ [x]) (rmap fst r).
    Proof using apply. destruct r as [[[a c] b]|y|]; cbn [bind rmap go_r fst snd]; [|reflexivity|reflexivity]. now rewrite <- app_assoc. Qed.
    Lemma begin_cons (a : store) (e : selem) (R : list selem) : R <> [] -> s_pending e = true ->
      rmap fst (s_begin a (e :: R)) =
      do p <- se_begin a e; if s_training (snd p) then Ok (fst p, snd p :: R) else s_complete_chained (fst p) (snd p) R.
    Proof using apply.
      intros HR Hp. destruct R as [|r0 R0]; [contradiction|].
      assert (E : s_begin a (e :: r0 :: R0) =
        do p <- se_begin a e;
        do q <- (if s_training (snd p) then Ok (fst p, snd p :: r0 :: R0) else s_complete_chained (fst p) (snd p) (r0 :: R0));
        Ok (fst q, snd q, negb (s_all_finished (snd q)))).
      { cbn [s_begin]. rewrite Hp. reflexivity. }
      rewrite E. destruct (se_begin a e) as [p|y|]; cbn [bind]; try reflexivity.
      destruct (if s_training (snd p) then Ok (fst p, snd p :: r0 :: R0) else s_complete_chained (fst p) (snd p) (r0 :: R0)) as [[a1 c1]|y|]; reflexivity.
    Qed.
    Lemma pending_last (init : list fstep) (mk : store -> res Tr) : s_all_finished (map fresh (init ++ [Make mk])) = false.
    Proof using apply. rewrite map_app. cbn [map]. rewrite all_fin_app by discriminate. reflexivity. Qed.
    Lemma add_ok (a : store) (n : Ann) (nm : name) : (col < length a)%nat -> exists a', add_annotation a (Some n) col nm = Ok a' /\ length a' = length a.
    Proof using apply.
      intros H. unfold add_annotation. destruct (Nat.leb_spec (length a) col); [lia|]. eexists. split; [reflexivity|]. apply nth_update_length.
    Qed.
    Lemma get_ok (is_t : Ann -> bool) (a : store) nm : (col < length a)%nat -> nm <> [] -> exists o, get_annotation is_t a col nm = Ok o.
    Proof using apply.
      intros H Hn. unfold get_annotation. destruct (Nat.leb_spec (length a) col); [lia|]. destruct nm; [contradiction|].
      destruct (col_find _ _); eauto.
    Qed.
    Lemma flow_plain (D : list selem) (x : selem) : se_tr x = None -> flow (D ++ [x]) bs = flow D bs.
    Proof using apply. intros H. rewrite flow_app. unfold pass. now rewrite H. Qed.
    Lemma joined_plain (D : list selem) (x : selem) r : se_tr x = None -> joined (D ++ [x]) r = joined D r.
    Proof using apply. intros H. unfold joined. rewrite made_app. unfold made at 2. cbn [flat_map]. rewrite H. now rewrite !app_nil_r. Qed.

    Lemma chain_spec (mk : store -> res Tr) : forall (init : list fstep) (a : store) (D : list selem), Forall (sound_step (V := V)) init -> Forall done D -> (col < length a)%nat ->
      exists n, forall f, (n <= f)%nat ->
        go_r f D (rmap fst (s_begin a (map fresh (init ++ [Make mk])))) = Some (joined D (learnt apply col (init ++ [Make mk]) a (flow D bs))).
    Proof using apply Hne Hbs.
      induction init as [|st init IH]; intros a D Hs HD Hc.
      - exists 1%nat. intros f Hf. destruct f as [|f]; [lia|]. cbn [app map].
        cbn [fresh s_begin se_begin slift begin_training shared se_est est_new e_state e_impl se_stage ss_impl make_impl i_begin snd fst bind rmap go_r unshared e_created].
        rewrite (go_finished (S f - 1) a D _ HD eq_refl) || idtac.
        match goal with |- go (S f) a (D ++ [?e]) = _ => rewrite (go_finished f a D e HD eq_refl) end.
        unfold se_complete. cbn [slift complete_training shared se_est e_state e_impl se_stage ss_impl make_impl i_complete snd fst bind unshared e_created ss_is_tr andb negb].
        unfold create_transformer. cbn [shared se_est e_state e_created e_impl i_create make_impl fst snd].
        cbn [learnt]. destruct (mk a) as [t|y|]; cbn [rmap bind fst snd joined]; reflexivity.
      - inversion Hs as [|? ? Hst Hs']; subst. cbn [app map].
        set (R := map fresh (init ++ [Make mk])).
        assert (HR : R <> []) by (unfold R; rewrite map_app; destruct (map fresh init); discriminate).
        destruct st as [P required nm is_t mx pol|mk1].
        + destruct Hst as [Hnm Hmx].
          assert (FIN : forall p rem D1 a1, Forall done D1 -> (col < length a1)%nat ->
            exists m, forall f, (m <= f)%nat -> go_r f D1 (s_complete_chained a1 (nel required nm is_t pol Finished (mkOwn p false rem)) R) =
              Some (joined D1 (do n <- sp_complete pol a1 p; do a' <- add_annotation a1 (Some n) col nm; learnt apply col (init ++ [Make mk]) a' (flow D1 bs)))).
          { intros p rem D1 a1 HD1 Hc1. unfold s_complete_chained. rewrite nel_complete by (now right).
            destruct (sp_complete pol a1 p) as [n|y|]; cbn [bind go_r joined rmap]; [|exists 0%nat; reflexivity|exists 0%nat; reflexivity].
            destruct (add_ok a1 n nm Hc1) as (a' & Ea & La). rewrite Ea. cbn [bind fst snd].
            destruct (IH a' (D1 ++ [nel required nm is_t pol Completed (mkOwn p false rem)]) Hs') as [m Hm].
            { apply Forall_app. split; [exact HD1|constructor; [apply done_nel|constructor]]. }
            { lia. }
            exists m. intros f Hf. specialize (Hm f Hf). fold R in Hm. rewrite go_r_cons, Hm.
            rewrite flow_plain by reflexivity. now rewrite joined_plain by reflexivity. }
          rewrite begin_cons by (exact HR || reflexivity).
          destruct required; cbn [fresh learnt andb].
          * destruct (get_ok is_t a nm Hc Hnm) as [o Eo]. unfold present. rewrite Eo.
            assert (SB : se_begin a (nel true nm is_t pol Pending (mkOwn (sp_init pol) false mx)) =
              match o with
              | Some _ => Ok (a, nel true nm is_t pol Finished (mkOwn (sp_init pol) true mx))
              | None => do s <- sp_begin pol a (sp_init pol); Ok (a, nel true nm is_t pol (if snd s then Training else Finished) (mkOwn (fst s) false mx))
              end).
            { unfold se_begin, slift, begin_training. cbn [shared nel se_est e_state se_stage ss_impl note_impl i_begin e_impl e_created].
              unfold n_begin. cbn [negb fst snd]. rewrite Eo. destruct o; [reflexivity|]. cbn [ow_pol].
              destruct (sp_begin pol a (sp_init pol)) as [[p [|]]|y|]; reflexivity. }
            unfold nel in SB at 1. change (est_new (mkOwn (sp_init pol) false mx)) with (mkEst Pending false (mkOwn (sp_init pol) false mx)).
            rewrite SB. clear SB. destruct o as [u|]; cbn [bind fst snd].
            -- cbn [s_training nel se_state se_est e_state]. fold (nel true nm is_t pol Finished (mkOwn (sp_init pol) true mx)).
               unfold s_complete_chained. rewrite nel_has_complete. cbn [bind fst snd].
               destruct (IH a (D ++ [nel true nm is_t pol Completed (mkOwn (sp_init pol) true mx)]) Hs') as [m Hm].
               { apply Forall_app. split; [exact HD|constructor; [apply done_nel|constructor]]. }
               { exact Hc. }
               exists m. intros f Hf. specialize (Hm f Hf). fold R in Hm. rewrite go_r_cons, Hm.
               rewrite flow_plain by reflexivity. now rewrite joined_plain by reflexivity.
            -- unfold taught. destruct (sp_begin pol a (sp_init pol)) as [[p [|]]|y|]; cbn [bind fst snd].
               ++ cbn [s_training nel se_state se_est e_state]. fold (nel true nm is_t pol Training (mkOwn p false mx)).
                  destruct (stage_loop true nm is_t pol D R a HD HR bs p mx
                    (fun p' => Some (joined D (do n <- sp_complete pol a p'; do a' <- add_annotation a (Some n) col nm; learnt apply col (init ++ [Make mk]) a' (flow D bs))))
                    Hmx Hbs Hne) as [n Hn].
                  { intros p' rem' _. apply FIN; assumption. }
                  exists n. intros f Hf. cbn [go_r fst snd]. unfold go, pst. rewrite all_fin_app by discriminate.
                  assert (AF : s_all_finished (nel true nm is_t pol Training (mkOwn p false mx) :: R) = false).
                  { change (nel true nm is_t pol Training (mkOwn p false mx) :: R) with ([nel true nm is_t pol Training (mkOwn p false mx)] ++ R).
                    rewrite all_fin_app by exact HR. apply pending_last. }
                  rewrite AF, (Hn f Hf). unfold items.
                  destruct (foldM (sp_fit pol) p (firstn mx (concat (flow D bs)))) as [p'|y|]; cbn [or_fail bind joined rmap]; reflexivity.
               ++ cbn [s_training nel se_state se_est e_state]. fold (nel true nm is_t pol Finished (mkOwn p false mx)).
                  destruct (FIN p mx D a HD Hc) as [m Hm]. exists m. intros f Hf. rewrite (Hm f Hf). reflexivity.
               ++ exists 0%nat. reflexivity.
               ++ exists 0%nat. reflexivity.
          * assert (SB : se_begin a (nel false nm is_t pol Pending (mkOwn (sp_init pol) false mx)) = Ok (a, nel false nm is_t pol Finished (mkOwn (sp_init pol) false mx))) by reflexivity.
            unfold nel in SB at 1. change (est_new (mkOwn (sp_init pol) false mx)) with (mkEst Pending false (mkOwn (sp_init pol) false mx)).
            rewrite SB. clear SB. cbn [bind fst snd s_training nel se_state se_est e_state]. fold (nel false nm is_t pol Finished (mkOwn (sp_init pol) false mx)).
            apply FIN; assumption.
        + rewrite begin_cons by (exact HR || reflexivity).
          cbn [fresh se_begin slift begin_training shared se_est est_new e_state e_impl se_stage ss_impl make_impl i_begin snd fst bind unshared e_created s_training se_state].
          unfold s_complete_chained, se_complete.
          cbn [slift complete_training shared se_est e_state e_impl se_stage ss_impl make_impl i_complete snd fst bind unshared e_created ss_is_tr andb negb].
          unfold create_transformer. cbn [shared se_est e_state e_created e_impl i_create make_impl fst snd learnt].
          destruct (mk1 a) as [t|y|]; cbn [rmap bind fst snd go_r joined]; [|exists 0%nat; reflexivity|exists 0%nat; reflexivity].
          cbn [unshared shared e_state e_created e_impl fst snd se_est se_stage ss_impl make_impl i_create rmap bind].
          match goal with |- context [?e :: snd (fst _)] => set (x := e) end.
          assert (Dx : done x) by (repeat split; [eexists; reflexivity|discriminate]).
          destruct (IH a (D ++ [x]) Hs') as [m Hm].
          { apply Forall_app. split; [exact HD|constructor; [exact Dx|constructor]]. }
          { exact Hc. }
          exists m. intros f Hf. specialize (Hm f Hf). fold R in Hm. rewrite go_r_cons, Hm. f_equal.
          rewrite flow_app. change (pass x (flow D bs)) with (behind apply t (flow D bs)).
          destruct (learnt apply col (init ++ [Make mk]) a (behind apply t (flow D bs))) as [[a2 ts]|y|]; cbn [joined rmap bind fst snd]; [|reflexivity|reflexivity].
          do 2 f_equal. rewrite made_app, <- app_assoc. reflexivity.
    Qed.

    Lemma featurize_spec (steps : list fstep) (a : store) : sound_chain steps -> (col < length a)%nat ->
      exists n, forall fuel, (n <= fuel)%nat -> featurize apply fuel col steps a bs = Some (learnt apply col steps a bs).
    Proof using apply Hne Hbs.
      intros [HS (init & mk & ->)] Hc. apply Forall_app in HS. destruct HS as [HS _].
      destruct (chain_spec mk init a [] HS ltac:(constructor) Hc) as [n Hn]. exists n. intros f Hf. specialize (Hn f Hf).
      unfold featurize, train, begin_training. cbn [est_new e_state e_impl e_created featurizer_impl i_begin fst snd].
      assert (FB : forall (a1 : store) (c1 : list selem) b, s_begin a (map fresh (init ++ [Make mk])) = Ok (a1, c1, b) -> b = negb (s_all_finished c1)).
      { assert (G : forall (l : list selem) (a1 a2 : store) (c2 : list selem) b, l <> [] -> Forall (fun e => se_state e = Pending) l -> s_begin (V := V) (Tr := Tr) a1 l = Ok (a2, c2, b) ->
          (match l with [_] => True | _ => b = negb (s_all_finished c2) end)).
        { intros l a1 a2 c2 b Hl Hp. destruct l as [|e [|e2 r]]; [contradiction|trivial|].
          inversion Hp as [|? ? Hpe _]; subst. cbn [s_begin]. unfold s_pending at 1. rewrite Hpe.
          destruct (se_begin a1 e) as [p|y|]; cbn [bind]; try discriminate.
          match goal with |- (do q <- ?X; _) = _ -> _ => destruct X as [q|y|] end; cbn [bind]; try discriminate.
          intros E. injection E as <- <- <-. reflexivity. }
        intros a1 c1 b E. destruct init as [|i0 ir].
        - cbn in E. injection E as <- <- <-. reflexivity.
        - pose proof (G (map fresh ((i0 :: ir) ++ [Make mk])) a a1 c1 b) as G0.
          rewrite map_app in G0, E. cbn [map app] in G0, E. destruct (map fresh ir ++ [fresh (Make mk)]) eqn:EE; [destruct (map fresh ir); discriminate EE|].
          apply G0; [discriminate| |exact E].
          assert (PF : forall s, se_state (fresh s) = Pending) by (intros [? ? ? ? ? ?|?]; reflexivity).
          rewrite <- EE. constructor; [apply PF|]. apply Forall_app. split; [|constructor; [apply PF|constructor]].
          apply Forall_forall. intros z Hz. apply in_map_iff in Hz. destruct Hz as (w & <- & _). apply PF. }
      destruct (s_begin a (map fresh (init ++ [Make mk]))) as [[[a1 c1] b]|y|] eqn:SB; cbn [s_imp rmap go_r fst snd app joined made flat_map] in Hn |- *.
      - specialize (FB a1 c1 b eq_refl). subst b. unfold go, conclude, pst in Hn.
        assert (J : joined [] (learnt apply col (init ++ [Make mk]) a (flow [] bs)) = learnt apply col (init ++ [Make mk]) a bs).
        { change (flow [] bs) with bs. destruct (learnt apply col (init ++ [Make mk]) a bs) as [[u v]|y|]; reflexivity. }
        rewrite J in Hn. rewrite <- Hn. clear. unfold go_r, go, conclude, pst. cbn [rmap bind fst snd app].
        destruct (s_all_finished c1); cbn [negb ok1 snd fst bind].
        + destruct (train_loop fimpl bs f bs (mkEst Finished false (a1, c1))) as [[e2|y|]|]; cbn [bind]; try reflexivity.
        + destruct (train_loop fimpl bs f bs (mkEst Training false (a1, c1))) as [[e2|y|]|]; cbn [bind]; try reflexivity.
      - change (flow [] bs) with bs in Hn. destruct (learnt apply col (init ++ [Make mk]) a bs) as [[u v]|z|]; cbn [rmap joined] in Hn; try discriminate Hn.
        injection Hn as ->. reflexivity.
      - change (flow [] bs) with bs in Hn. destruct (learnt apply col (init ++ [Make mk]) a bs) as [[u v]|z|]; cbn [rmap joined] in Hn; try discriminate Hn. reflexivity.
    Qed.
  End Loop.
End L.
