(** C89: completing the training early. *)
From Verif Require Import Base L_List M_Archive M_Estimator L_Estimator M_Pipeline S_Stats M_Featurizer S_Featurizer M_Early S_Early L_Featurizer.

Section L.
  Context {V Ann Tr : Type}.
  Variable apply : Tr -> V -> list V.
  Variable col : nat.
  Notation store := (ann_maps Ann).
  Notation selem := (selem V Ann Tr).
  Notation fstep := (fstep V Ann Tr).
  Notation fimpl := (featurizer_impl (V := V) (Ann := Ann) (Tr := Tr) apply).
  Notation fresh := (fresh (V := V) (Ann := Ann) (Tr := Tr) col).

  Lemma begin_length : forall (c : list selem) (a : store) y, s_begin a c = Ok y -> length (snd (fst y)) = length c.
  Proof.
    induction c as [|e r IH]; intros a y E; [discriminate E|]. destruct r as [|e2 r].
    - cbn [s_begin] in E. destruct (se_begin a e) as [p|x|]; try discriminate E. injection E as <-. reflexivity.
    - assert (E' : s_begin a (e :: e2 :: r) = if s_pending e then
          do p <- se_begin a e;
          do q <- (if s_training (snd p) then Ok (fst p, snd p :: e2 :: r) else s_complete_chained (fst p) (snd p) (e2 :: r));
          Ok (fst q, snd q, negb (s_all_finished (snd q)))
        else do y <- s_begin a (e2 :: r); Ok (fst (fst y), e :: snd (fst y), snd y)) by reflexivity.
      rewrite E' in E. clear E'. destruct (s_pending e).
      + destruct (se_begin a e) as [p|x|]; try discriminate E. cbn [bind] in E. destruct (s_training (snd p)).
        * injection E as <-. reflexivity.
        * unfold s_complete_chained in E. destruct (se_complete (fst p) (snd p)) as [x|x|]; try discriminate E. cbn [bind] in E.
          destruct (s_begin (fst x) (e2 :: r)) as [z|z|] eqn:B; try discriminate E. cbn [bind] in E. injection E as <-. cbn [fst snd length]. f_equal. exact (IH _ _ B).
      + destruct (s_begin a (e2 :: r)) as [z|z|] eqn:B; try discriminate E. cbn [bind] in E. injection E as <-. cbn [fst snd length]. f_equal. exact (IH _ _ B).
  Qed.
  (** Completing what has only begun: the rest learns from nothing. *)
  Definition fin (a : store) (c : list selem) : res (store * list selem) := s_complete_n (length c) a c.
  Lemma complete_cons (a : store) (e : selem) (c : list selem) : c <> [] -> fin a (e :: c) =
    do p <- (if s_completed e then Ok (a, e :: c) else s_complete_chained a e c);
    match snd p with [] => UB | e1 :: r1 => do q <- s_complete_n (length c) (fst p) r1; Ok (fst q, e1 :: snd q) end.
  Proof. intros H. unfold fin. cbn [length]. destruct c as [|x c]; [contradiction|]. reflexivity. Qed.
  Lemma fin_done (a : store) (e : selem) (c : list selem) : c <> [] -> done e -> fin a (e :: c) = do q <- fin a c; Ok (fst q, e :: snd q).
  Proof. intros H D. rewrite complete_cons by exact H. destruct (done_not_training e D) as (_ & _ & ->). reflexivity. Qed.
  Lemma fin_done_all (D : list selem) : forall (a : store) (c : list selem), c <> [] -> Forall done D -> fin a (D ++ c) = do q <- fin a c; Ok (fst q, D ++ snd q).
  Proof.
    induction D as [|d D IH]; intros a c H HD; cbn [app].
    - destruct (fin a c) as [[a1 c1]|x|]; reflexivity.
    - inversion HD as [|? ? Hd HD']; subst. rewrite fin_done; [|destruct D; [exact H|discriminate]|exact Hd]. rewrite IH by assumption. destruct (fin a c) as [[a1 c1]|x|]; reflexivity.
  Qed.
  Definition result (r : res (store * list selem)) : res (store * list Tr) := rmap (fun p => (fst p, made (snd p))) r.
  Notation nel := (nel (V := V) (Ann := Ann) (Tr := Tr) col).
  Definition is_note (xs : list V) (f : fstep) : Prop := room xs f.
  Lemma fresh_ne (notes : list fstep) mk : map fresh (notes ++ [Make mk]) <> [].
  Proof. rewrite map_app. destruct (map fresh notes); discriminate. Qed.
  Lemma begun_ne (a : store) (c : list selem) y : c <> [] -> s_begin a c = Ok y -> snd (fst y) <> [].
  Proof. intros H E. apply begin_length in E. destruct c; [contradiction|]. destruct (snd (fst y)); [discriminate E|discriminate]. Qed.
  (** One estimator that is through, and the rest. *)
  Lemma chained_fin (a : store) (e : selem) (R : list selem) e' a' : R <> [] -> se_complete a e = Ok (a', e') -> done e' -> se_tr e' = None -> s_completed e = false ->
    result (fin a (e :: R)) = result (do y <- s_begin a' R; fin (fst (fst y)) (snd (fst y))).
  Proof.
    intros HR E D T C. rewrite complete_cons by exact HR. rewrite C. unfold s_complete_chained. rewrite E. cbn [bind fst snd].
    destruct (s_begin a' R) as [y|x|] eqn:B; cbn [bind fst snd]; try reflexivity. rewrite <- (begin_length _ _ _ B). fold (fin (fst (fst y)) (snd (fst y))).
    destruct (fin (fst (fst y)) (snd (fst y))) as [[a2 c2]|x|]; cbn [bind result rmap fst snd made flat_map]; try reflexivity. rewrite T. reflexivity.
  Qed.
  Lemma begun_fin (mk : store -> res Tr) : forall (notes : list fstep) (a : store) xs, Forall (room xs) notes -> (col < length a)%nat ->
    result (do y <- s_begin a (map fresh (notes ++ [Make mk])); fin (fst (fst y)) (snd (fst y))) = one_pass col (notes ++ [Make mk]) a [].
  Proof using apply.
    induction notes as [|st notes IH]; intros a xs Hs Hc.
    - cbn [app map fresh]. cbn [s_begin se_begin slift begin_training shared se_est est_new e_state e_impl se_stage ss_impl make_impl i_begin snd fst bind rmap unshared e_created].
      unfold fin. cbn [length s_complete_n]. unfold se_complete. cbn [slift complete_training shared se_est e_state e_impl se_stage ss_impl make_impl i_complete snd fst bind unshared e_created ss_is_tr andb negb].
      unfold create_transformer. cbn [shared se_est e_state e_created e_impl i_create make_impl fst snd one_pass].
      destruct (mk a) as [t|y|]; reflexivity.
    - inversion Hs as [|? ? Hst Hs']; subst. destruct st as [P required nm is_t mx pol|mk1]; [|contradiction]. destruct Hst as (Hnm & _ & Hmx). cbn [app map].
      set (R := map fresh (notes ++ [Make mk])). assert (HR : R <> []) by apply fresh_ne.
      assert (FIN : forall p rem a1, (col < length a1)%nat -> forall st, st = Training \/ st = Finished ->
        result (fin a1 (nel required nm is_t pol st (mkOwn p false rem) :: R)) =
        do n <- sp_complete pol a1 p; do a' <- add_annotation a1 (Some n) col nm; one_pass col (notes ++ [Make mk]) a' []).
      { intros p rem a1 Hc1 st Hst. assert (NC : s_completed (nel required nm is_t pol st (mkOwn p false rem)) = false) by (destruct Hst as [-> | ->]; reflexivity).
        pose proof (nel_complete apply col required nm is_t pol a1 st p rem Hst) as E.
        destruct (sp_complete pol a1 p) as [n|y|]; cbn [bind] in E |- *.
        - destruct (add_ok apply col a1 n nm Hc1) as (a' & Ea & La). rewrite Ea in E |- *. cbn [bind] in E |- *.
          rewrite (chained_fin a1 _ R _ a' HR E (done_nel apply col required nm is_t pol _) eq_refl NC). unfold R. rewrite (IH a' xs Hs') by lia. reflexivity.
        - rewrite complete_cons by exact HR. rewrite NC. unfold s_complete_chained. rewrite E. reflexivity.
        - rewrite complete_cons by exact HR. rewrite NC. unfold s_complete_chained. rewrite E. reflexivity. }
      assert (CH : forall p rem a1, (col < length a1)%nat ->
        result (do q <- s_complete_chained a1 (nel required nm is_t pol Finished (mkOwn p false rem)) R; fin (fst q) (snd q)) =
        do n <- sp_complete pol a1 p; do a' <- add_annotation a1 (Some n) col nm; one_pass col (notes ++ [Make mk]) a' []).
      { intros p rem a1 Hc1. rewrite <- (FIN p rem a1 Hc1 Finished (or_intror eq_refl)). rewrite complete_cons by exact HR. cbn [s_completed nel se_state se_est e_state].
        unfold s_complete_chained. destruct (se_complete a1 (nel required nm is_t pol Finished (mkOwn p false rem))) as [x|x|] eqn:EC; cbn [bind]; try reflexivity.
        destruct (s_begin (fst x) R) as [y|y|] eqn:B; cbn [bind fst snd]; try reflexivity. rewrite <- (begin_length _ _ _ B). fold (fin (fst (fst y)) (snd (fst y))).
        rewrite fin_done; [reflexivity|exact (begun_ne _ _ _ HR B)|].
        pose proof (nel_complete apply col required nm is_t pol a1 Finished p rem (or_intror eq_refl)) as E. rewrite EC in E. destruct (sp_complete pol a1 p) as [n|?|]; cbn [bind] in E; try discriminate E.
        destruct (add_annotation a1 (Some n) col nm) as [a'|?|]; cbn [bind] in E; try discriminate E. injection E as ->. apply (done_nel apply). }
      assert (BC : result (do y <- s_begin a (fresh (Note required nm is_t mx pol) :: R); fin (fst (fst y)) (snd (fst y))) =
        result (do q <- rmap fst (s_begin a (fresh (Note required nm is_t mx pol) :: R)); fin (fst q) (snd q))).
      { destruct (s_begin a (fresh (Note required nm is_t mx pol) :: R)) as [y|y|]; reflexivity. }
      rewrite BC, (begin_cons apply) by (exact HR || reflexivity). clear BC. cbn [one_pass].
      destruct required; cbn [fresh andb].
      + destruct (get_ok apply col is_t a nm Hc Hnm) as [o Eo]. unfold present. rewrite Eo.
        assert (SB : se_begin a (nel true nm is_t pol Pending (mkOwn (sp_init pol) false mx)) =
          match o with
          | Some _ => Ok (a, nel true nm is_t pol Finished (mkOwn (sp_init pol) true mx))
          | None => do s <- sp_begin pol a (sp_init pol); Ok (a, nel true nm is_t pol (if snd s then Training else Finished) (mkOwn (fst s) false mx))
          end).
        { unfold se_begin, slift, begin_training. cbn [shared nel se_est e_state se_stage ss_impl note_impl i_begin e_impl e_created].
          unfold n_begin. cbn [negb fst snd]. rewrite Eo. destruct o; [reflexivity|]. cbn [ow_pol].
          destruct (sp_begin pol a (sp_init pol)) as [[p [|]]|y|]; reflexivity. }
        unfold nel in SB at 1. change (est_new (mkOwn (sp_init pol) false mx)) with (mkEst Pending false (mkOwn (sp_init pol) false mx)).
        rewrite SB. clear SB. destruct o as [u|]; cbn [bind fst snd].
        * cbn [s_training nel se_state se_est e_state]. fold (nel true nm is_t pol Finished (mkOwn (sp_init pol) true mx)).
          unfold s_complete_chained. rewrite (nel_has_complete apply). cbn [bind fst snd]. rewrite <- (IH a xs Hs' Hc). fold R.
          destruct (s_begin a R) as [y|y|] eqn:B; cbn [bind fst snd]; try reflexivity.
          rewrite fin_done; [|exact (begun_ne _ _ _ HR B)|apply (done_nel apply)]. destruct (fin (fst (fst y)) (snd (fst y))) as [[a2 c2]|z|]; reflexivity.
        * destruct (sp_begin pol a (sp_init pol)) as [[p [|]]|y|]; cbn [bind fst snd]; try reflexivity.
          -- cbn [s_training nel se_state se_est e_state]. fold (nel true nm is_t pol Training (mkOwn p false mx)). cbn [bind fst snd foldM].
             rewrite (FIN p mx a Hc Training (or_introl eq_refl)). reflexivity.
          -- cbn [s_training nel se_state se_est e_state]. fold (nel true nm is_t pol Finished (mkOwn p false mx)). rewrite (CH p mx a Hc). reflexivity.
      + assert (SB : se_begin a (nel false nm is_t pol Pending (mkOwn (sp_init pol) false mx)) = Ok (a, nel false nm is_t pol Finished (mkOwn (sp_init pol) false mx))) by reflexivity.
        unfold nel in SB at 1. change (est_new (mkOwn (sp_init pol) false mx)) with (mkEst Pending false (mkOwn (sp_init pol) false mx)).
        rewrite SB. clear SB. cbn [bind fst snd s_training nel se_state se_est e_state]. fold (nel false nm is_t pol Finished (mkOwn (sp_init pol) false mx)).
        rewrite (CH _ mx a Hc). reflexivity.
  Qed.

  (** ** Handing over the rows *)
  Definition silent (D : list selem) : Prop := Forall (fun e => done e /\ se_tr e = None) D.
  Lemma silent_done D : silent D -> Forall done D.
  Proof. apply Forall_impl. tauto. Qed.
  Lemma silent_thr D : silent D -> forall xs, thr apply D xs = xs.
  Proof. induction 1 as [|e D [_ T] _ IH]; intros xs; [reflexivity|]. unfold thr in *. cbn [fold_left]. unfold step1 at 2. rewrite T. apply IH. Qed.
  Lemma silent_made D : silent D -> made D = [].
  Proof. induction 1 as [|e D [_ T] _ IH]; [reflexivity|]. unfold made in *. cbn [flat_map]. now rewrite T, IH. Qed.
  Lemma result_silent D (r : res (store * list selem)) : silent D -> result (do q <- r; Ok (fst q, D ++ snd q)) = result r.
  Proof using Type. intros HD. destruct r as [[a1 c1]|y|]; cbn [bind result rmap fst snd]; try reflexivity. unfold result. cbn [rmap fst snd]. now rewrite made_app, (silent_made _ HD). Qed.
  Section Feed.
    Context {P : Type}.
    Variables (required : bool) (nm : name) (is_t : Ann -> bool) (pol : spolicy V Ann P) (D R : list selem) (a : store).
    Hypothesis HD : silent D.
    Hypothesis HR : R <> [].
    Notation el p rem := (nel required nm is_t pol Training (mkOwn p false rem)).
    Lemma fit_one p rem (b : list V) : b <> [] -> (length b < rem)%nat ->
      ok1 (fit fimpl (mkEst Training false (a, D ++ el p rem :: R)) (Some b)) =
      do p' <- foldM (sp_fit pol) p b; Ok (mkEst Training false (a, D ++ el p' (rem - length b) :: R), FitContinue).
    Proof using HD HR.
      intros Hb Hl. unfold fit. cbn [e_state e_impl e_created]. destruct b as [|x b']; [contradiction|]. set (b := x :: b') in *. cbn [featurizer_impl i_fit fst snd].
      rewrite (fit_done apply D a (el p rem :: R) b (silent_done _ HD)) by (discriminate || exact Hb). rewrite (silent_thr _ HD).
      assert (FT : s_fit apply a (el p rem :: R) b = do p' <- foldM (sp_fit pol) p b; Ok (a, el p' (rem - length b) :: R, FitContinue)).
      { destruct R as [|r0 R0] eqn:ER; [contradiction|].
        assert (E : s_fit apply a (el p rem :: r0 :: R0) b = do q <- se_fit a (el p rem) b;
          match snd q with
          | FitContinue => Ok (fst (fst q), snd (fst q) :: r0 :: R0, FitContinue)
          | _ => do z <- s_complete_chained (fst (fst q)) (snd (fst q)) (r0 :: R0); Ok (fst z, snd z, if s_all_finished (snd z) then FitComplete else FitReset)
          end) by reflexivity.
        rewrite E, (nel_fit apply col required nm is_t pol a p rem b Hb), firstn_all2 by lia. destruct (foldM (sp_fit pol) p b) as [p'|y|]; cbn [bind]; try reflexivity.
        rewrite Nat.min_r by lia. cbv zeta. destruct (Nat.eqb_spec (rem - length b) 0) as [Z0|_]; [lia|]. reflexivity. }
      unfold b in *. rewrite FT. destruct (foldM (sp_fit pol) p (x :: b')) as [p'|y|]; reflexivity.
    Qed.
    Lemma feed_all : forall (bs : list (list V)) p rem, Forall (fun b => b <> []) bs -> (length (concat bs) < rem)%nat ->
      feed_while fimpl (mkEst Training false (a, D ++ el p rem :: R)) bs =
      do p' <- foldM (sp_fit pol) p (concat bs); Ok (mkEst Training false (a, D ++ el p' (rem - length (concat bs)) :: R)).
    Proof using HD HR.
      induction bs as [|b bs IH]; intros p rem Hb Hl.
      - cbn [concat foldM bind length feed_while]. now rewrite Nat.sub_0_r.
      - inversion Hb as [|? ? Hb1 Hb2]; subst. cbn [concat] in *. rewrite app_length in Hl. cbn [feed_while e_state]. rewrite (fit_one p rem b Hb1) by lia.
        rewrite foldM_app, app_length. destruct (foldM (sp_fit pol) p b) as [p'|y|]; cbn [bind fst]; try reflexivity. rewrite (IH p' (rem - length b)%nat Hb2) by lia.
        destruct (foldM (sp_fit pol) p' (concat bs)) as [p2|y|]; cbn [bind]; try reflexivity. rewrite Nat.sub_add_distr. reflexivity.
    Qed.
  End Feed.

  (** ** The whole client *)
  Section Whole.
    Variable bs : list (list V).
    Hypothesis Hne : Forall (fun b => b <> []) bs.
    Definition rest_of (a : store) (c : list selem) : res (store * list Tr) :=
      do e <- feed_while fimpl (mkEst (pst c) false (a, c)) bs; finish_now apply e.
    Lemma finish_any (a : store) (c : list selem) st : st = Training \/ st = Finished -> finish_now apply (mkEst st false (a, c)) = result (fin a c).
    Proof using Type.
      intros H. unfold finish_now, complete_training. destruct H as [-> | ->]; cbn [e_state e_impl e_created featurizer_impl i_complete fst snd]; unfold fin;
        destruct (s_complete_n (length c) a c) as [[a1 c1]|y|]; reflexivity.
    Qed.
    Lemma rest_finished (a : store) (c : list selem) : s_all_finished c = true -> rest_of a c = result (fin a c).
    Proof using Type.
      intros H. unfold rest_of, pst. rewrite H. replace (feed_while fimpl (mkEst Finished false (a, c)) bs) with (@Ok (est (store * list selem)) (mkEst Finished false (a, c))) by (case bs; reflexivity).
      cbn [bind]. apply finish_any. now right.
    Qed.
    Definition rest_r (D : list selem) (r : res (store * list selem)) : res (store * list Tr) := do p <- r; rest_of (fst p) (D ++ snd p).
    Lemma rest_cons (D : list selem) (x : selem) (r : res (store * list selem * bool)) :
      rest_r D (do y <- r; Ok (fst (fst y), x :: snd (fst y))) = rest_r (D ++ [x]) (rmap fst r).
    Proof using Type. destruct r as [[[a c] b]|y|]; cbn [bind rmap rest_r fst snd]; [|reflexivity|reflexivity]. now rewrite <- app_assoc. Qed.
    Lemma whole_spec (mk : store -> res Tr) : forall (notes : list fstep) (a : store) (D : list selem), Forall (room (concat bs)) notes -> silent D -> (col < length a)%nat ->
      rest_r D (rmap fst (s_begin a (map fresh (notes ++ [Make mk])))) = one_pass col (notes ++ [Make mk]) a (concat bs).
    Proof using Hne.
      induction notes as [|st notes IH]; intros a D Hs HD Hc.
      - cbn [app map fresh]. cbn [s_begin se_begin slift begin_training shared se_est est_new e_state e_impl se_stage ss_impl make_impl i_begin snd fst bind rmap rest_r unshared e_created].
        rewrite rest_finished by (rewrite all_fin_app by discriminate; reflexivity).
        rewrite fin_done_all by (discriminate || now apply silent_done). rewrite (result_silent D _ HD). unfold fin. cbn [length s_complete_n].
        unfold se_complete. cbn [slift complete_training shared se_est e_state e_impl se_stage ss_impl make_impl i_complete snd fst bind unshared e_created ss_is_tr andb negb].
        unfold create_transformer. cbn [shared se_est e_state e_created e_impl i_create make_impl fst snd one_pass].
        destruct (mk a) as [t|y|]; reflexivity.
      - inversion Hs as [|? ? Hst Hs']; subst. destruct st as [P required nm is_t mx pol|mk1]; [|contradiction]. destruct Hst as (Hnm & _ & Hmx). cbn [app map].
        set (R := map fresh (notes ++ [Make mk])). assert (HR : R <> []) by apply fresh_ne.
        assert (NX : forall o a1, (col < length a1)%nat -> rest_r (D ++ [nel required nm is_t pol Completed o]) (rmap fst (s_begin a1 R)) = one_pass col (notes ++ [Make mk]) a1 (concat bs)).
        { intros o a1 Hc1. apply IH; [exact Hs'| |exact Hc1]. apply Forall_app. split; [exact HD|]. constructor; [|constructor]. split; [apply (done_nel apply)|reflexivity]. }
        assert (CH : forall p rem, rest_r D (s_complete_chained a (nel required nm is_t pol Finished (mkOwn p false rem)) R) =
          do n <- sp_complete pol a p; do a' <- add_annotation a (Some n) col nm; one_pass col (notes ++ [Make mk]) a' (concat bs)).
        { intros p rem. unfold s_complete_chained. rewrite (nel_complete apply) by (now right). destruct (sp_complete pol a p) as [n|y|]; cbn [bind rest_r]; try reflexivity.
          destruct (add_ok apply col a n nm Hc) as (a' & Ea & La). rewrite Ea. cbn [bind fst snd]. rewrite <- (NX (mkOwn p false rem) a') by lia. rewrite <- rest_cons. reflexivity. }
        rewrite (begin_cons apply) by (exact HR || reflexivity). cbn [one_pass].
        destruct required; cbn [fresh andb].
        + destruct (get_ok apply col is_t a nm Hc Hnm) as [o Eo]. unfold present. rewrite Eo.
          assert (SB : se_begin a (nel true nm is_t pol Pending (mkOwn (sp_init pol) false mx)) =
            match o with
            | Some _ => Ok (a, nel true nm is_t pol Finished (mkOwn (sp_init pol) true mx))
            | None => do s <- sp_begin pol a (sp_init pol); Ok (a, nel true nm is_t pol (if snd s then Training else Finished) (mkOwn (fst s) false mx))
            end).
          { unfold se_begin, slift, begin_training. cbn [shared nel se_est e_state se_stage ss_impl note_impl i_begin e_impl e_created].
            unfold n_begin. cbn [negb fst snd]. rewrite Eo. destruct o; [reflexivity|]. cbn [ow_pol].
            destruct (sp_begin pol a (sp_init pol)) as [[p [|]]|y|]; reflexivity. }
          unfold nel in SB at 1. change (est_new (mkOwn (sp_init pol) false mx)) with (mkEst Pending false (mkOwn (sp_init pol) false mx)).
          rewrite SB. clear SB. destruct o as [u|]; cbn [bind fst snd].
          * cbn [s_training nel se_state se_est e_state]. fold (nel true nm is_t pol Finished (mkOwn (sp_init pol) true mx)).
            unfold s_complete_chained. rewrite (nel_has_complete apply). cbn [bind fst snd]. rewrite <- (NX (mkOwn (sp_init pol) true mx) a Hc), <- rest_cons. reflexivity.
          * destruct (sp_begin pol a (sp_init pol)) as [[p [|]]|y|]; cbn [bind fst snd]; try reflexivity.
            -- cbn [s_training nel se_state se_est e_state]. fold (nel true nm is_t pol Training (mkOwn p false mx)). cbn [rest_r bind fst snd]. unfold rest_of, pst.
               rewrite all_fin_app by discriminate. change (nel true nm is_t pol Training (mkOwn p false mx) :: R) with ([nel true nm is_t pol Training (mkOwn p false mx)] ++ R) at 1.
               rewrite all_fin_app by exact HR. unfold R at 1. rewrite (pending_last col notes mk) || rewrite (pending_last apply col notes mk). rewrite (feed_all true nm is_t pol D R a HD HR bs p mx Hne (Hmx eq_refl)).
               destruct (foldM (sp_fit pol) p (concat bs)) as [p'|y|]; cbn [bind]; try reflexivity. rewrite finish_any by (now left). rewrite fin_done_all by (discriminate || now apply silent_done).
               pose proof (nel_complete apply col true nm is_t pol a Training p' (mx - length (concat bs)) (or_introl eq_refl)) as E.
               rewrite (result_silent D _ HD). destruct (sp_complete pol a p') as [n|y|]; cbn [bind] in E |- *.
               ++ destruct (add_ok apply col a n nm Hc) as (a' & Ea & La). rewrite Ea in E |- *. cbn [bind] in E |- *.
                  rewrite (chained_fin a _ R _ a' HR E (done_nel apply col true nm is_t pol _) eq_refl eq_refl). unfold R. apply (begun_fin mk notes a' (concat bs) Hs'). lia.
               ++ rewrite complete_cons by exact HR. cbn [s_completed nel se_state se_est e_state]. unfold s_complete_chained. rewrite E. reflexivity.
               ++ rewrite complete_cons by exact HR. cbn [s_completed nel se_state se_est e_state]. unfold s_complete_chained. rewrite E. reflexivity.
            -- cbn [s_training nel se_state se_est e_state]. fold (nel true nm is_t pol Finished (mkOwn p false mx)). apply CH.
        + assert (SB : se_begin a (nel false nm is_t pol Pending (mkOwn (sp_init pol) false mx)) = Ok (a, nel false nm is_t pol Finished (mkOwn (sp_init pol) false mx))) by reflexivity.
          unfold nel in SB at 1. change (est_new (mkOwn (sp_init pol) false mx)) with (mkEst Pending false (mkOwn (sp_init pol) false mx)).
          rewrite SB. clear SB. cbn [bind fst snd s_training nel se_state se_est e_state]. fold (nel false nm is_t pol Finished (mkOwn (sp_init pol) false mx)). apply CH.
    Qed.
  End Whole.

  Lemma begin_flag (steps : list fstep) mk (a a1 : store) (c1 : list selem) b : s_begin a (map fresh (steps ++ [Make mk])) = Ok (a1, c1, b) -> b = negb (s_all_finished c1).
  Proof using Type.
    assert (PF : forall s, se_state (fresh s) = Pending) by (intros [? ? ? ? ? ?|?]; reflexivity).
    intros E. destruct steps as [|i0 ir].
    - cbn in E. injection E as <- <- <-. reflexivity.
    - rewrite map_app in E. cbn [map app] in E. destruct (map fresh ir ++ [fresh (Make mk)]) as [|e2 r] eqn:EE; [destruct (map fresh ir); discriminate EE|].
      assert (E' : s_begin a (fresh i0 :: e2 :: r) = if s_pending (fresh i0) then
          do p <- se_begin a (fresh i0);
          do q <- (if s_training (snd p) then Ok (fst p, snd p :: e2 :: r) else s_complete_chained (fst p) (snd p) (e2 :: r));
          Ok (fst q, snd q, negb (s_all_finished (snd q)))
        else do y <- s_begin a (e2 :: r); Ok (fst (fst y), fresh i0 :: snd (fst y), snd y)) by reflexivity.
      rewrite E' in E. unfold s_pending in E. rewrite PF in E. destruct (se_begin a (fresh i0)) as [p|y|]; cbn [bind] in E; try discriminate E.
      match type of E with (do q <- ?X; _) = _ => destruct X as [q|y|] end; cbn [bind] in E; try discriminate E. injection E as <- <- <-. reflexivity.
  Qed.
  Theorem cut_short_spec (steps : list fstep) (a : store) (bs : list (list V)) : one_maker (concat bs) steps -> (col < length a)%nat -> Forall (fun b => b <> []) bs ->
    cut_short apply col steps a bs = one_pass col steps a (concat bs).
  Proof using Type.
    intros (notes & mk & -> & Hr) Hc Hne. rewrite <- (whole_spec bs Hne mk notes a [] Hr ltac:(constructor) Hc).
    unfold cut_short, begin_training. cbn [est_new e_state e_impl e_created featurizer_impl i_begin fst snd].
    pose proof (begin_flag notes mk a) as FB. destruct (s_begin a (map fresh (notes ++ [Make mk]))) as [[[a1 c1] b]|y|]; try reflexivity.
    specialize (FB a1 c1 b eq_refl). subst b. cbn [s_imp rmap rest_r fst snd app bind]. unfold rest_of, pst. destruct (s_all_finished c1); reflexivity.
  Qed.
  (** ** Featurizers that need the rows once *)
  Lemma later_alike (mk : store -> res Tr) : forall (notes : list fstep) (a : store) (bs : list (list V)) xs ys, Forall (room xs) notes -> Forall wants_none notes ->
    learnt apply col (notes ++ [Make mk]) a bs = one_pass col (notes ++ [Make mk]) a ys.
  Proof using Type.
    induction notes as [|st notes IH]; intros a bs xs ys Hr Hw.
    - cbn [app learnt one_pass]. destruct (mk a); reflexivity.
    - inversion Hr as [|? ? R1 R2]; subst. inversion Hw as [|? ? W1 W2]; subst. destruct st as [P required nm is_t mx pol|mk1]; [|contradiction].
      cbn [app learnt one_pass wants_none] in *. destruct required; cbn [andb].
      + destruct (present is_t a col nm); [now apply (IH a bs xs ys)|]. unfold taught. destruct (W1 eq_refl a) as [p ->]. cbn [bind fst snd].
        destruct (sp_complete pol a p) as [n|y|]; cbn [bind]; try reflexivity. destruct (add_annotation a (Some n) col nm) as [a'|y|]; cbn [bind]; try reflexivity. now apply (IH a' bs xs ys).
      + cbn [bind fst snd]. destruct (sp_complete pol a (sp_init pol)) as [n|y|]; cbn [bind]; try reflexivity.
        destruct (add_annotation a (Some n) col nm) as [a'|y|]; cbn [bind]; try reflexivity. now apply (IH a' bs xs ys).
  Qed.
  Theorem one_pass_learnt (steps : list fstep) (a : store) (bs : list (list V)) : one_maker (concat bs) steps -> single_pass steps ->
    learnt apply col steps a bs = one_pass col steps a (concat bs).
  Proof using Type.
    intros (notes & mk & -> & Hr) (f & rest & E & Hw). destruct notes as [|st notes].
    - cbn [app learnt one_pass]. destruct (mk a); reflexivity.
    - cbn [app] in E. injection E as <- <-. apply Forall_app in Hw. destruct Hw as [Hw _]. inversion Hr as [|? ? R1 R2]; subst.
      destruct st as [P required nm is_t mx pol|mk1]; [|contradiction]. destruct R1 as (Hnm & _ & Hmx). cbn [app learnt one_pass]. destruct required; cbn [andb].
      + destruct (present is_t a col nm); [now apply (later_alike mk notes a bs (concat bs))|]. unfold taught. destruct (sp_begin pol a (sp_init pol)) as [s|y|]; cbn [bind]; try reflexivity.
        assert (I : items mx bs = concat bs). { unfold items. apply firstn_all2. specialize (Hmx eq_refl). lia. } rewrite I.
        destruct (if snd s then foldM (sp_fit pol) (fst s) (concat bs) else Ok (fst s)) as [p|y|]; cbn [bind]; try reflexivity.
        destruct (sp_complete pol a p) as [n|y|]; cbn [bind]; try reflexivity. destruct (add_annotation a (Some n) col nm) as [a'|y|]; cbn [bind]; try reflexivity.
        now apply (later_alike mk notes a' bs (concat bs)).
      + cbn [bind fst snd]. destruct (sp_complete pol a (sp_init pol)) as [n|y|]; cbn [bind]; try reflexivity.
        destruct (add_annotation a (Some n) col nm) as [a'|y|]; cbn [bind]; try reflexivity. now apply (later_alike mk notes a' bs (concat bs)).
  Qed.
  Lemma trains_to_unique (steps : list fstep) (a : store) (bs : list (list V)) r r' : trains_to apply col steps a bs r -> trains_to apply col steps a bs r' -> r = r'.
  Proof using Type. intros [n A] [m B]. specialize (A (n + m)%nat ltac:(lia)). specialize (B (n + m)%nat ltac:(lia)). congruence. Qed.
  Theorem early_is_trained (steps : list fstep) (a : store) (bs : list (list V)) : one_maker (concat bs) steps -> single_pass steps ->
    (col < length a)%nat -> Forall (fun b => b <> []) bs -> bs <> [] -> forall r, trains_to apply col steps a bs r <-> cut_short apply col steps a bs = r.
  Proof using Type.
    intros Hm Hs Hc Hne Hbs r. rewrite (cut_short_spec steps a bs Hm Hc Hne), <- (one_pass_learnt steps a bs Hm Hs).
    assert (T : trains_to apply col steps a bs (learnt apply col steps a bs)).
    { apply (featurize_spec apply col bs Hne Hbs); [|exact Hc]. destruct Hm as (notes & mk & -> & Hr). split; [|now exists notes, mk].
      apply Forall_app. split; [|repeat constructor]. revert Hr. apply Forall_impl. intros [P required nm is_t mx pol|mk1] G; [|contradiction]. cbn in *. tauto. }
    split; [intros H; exact (trains_to_unique steps a bs _ _ T H)|intros <-; exact T].
  Qed.
End L.
