From Verif Require Import Base M_PointerTable S_PointerTable.

Definition pt_inv (t : ptable) : Prop := NoDup (map fst t) /\ pt_find t 0 = None.

Lemma pt_find_erase t h k : NoDup (map fst t) -> pt_find (pt_erase t h) k = if h =? k then None else pt_find t k.
Proof.
  induction t as [|[a p] r IH]; intros ND; cbn [pt_erase pt_find]; [now destruct (h =? k)|].
  inversion ND as [|? ? Hn ND']; subst.
  destruct (Z.eqb_spec a h) as [->|Hah]; cbn [pt_find].
  - destruct (Z.eqb_spec h k) as [->|]; [|reflexivity].
    clear -Hn. cbn [fst] in Hn. induction r as [|[b q] r IH]; [reflexivity|]. cbn [pt_find].
    destruct (Z.eqb_spec b k) as [->|]; [exfalso; apply Hn; now left|]. apply IH. intros H. apply Hn. now right.
  - rewrite IH by exact ND'. destruct (Z.eqb_spec a k) as [->|]; [|reflexivity].
    destruct (Z.eqb_spec h k); [congruence|reflexivity].
Qed.
Lemma pt_erase_nodup t h : NoDup (map fst t) -> NoDup (map fst (pt_erase t h)).
Proof.
  induction t as [|[a p] r IH]; intros ND; cbn [pt_erase]; auto.
  inversion ND as [|? ? Hn ND']; subst. destruct (a =? h); auto. cbn [map fst]. constructor; [|now apply IH].
  intros Hin. apply Hn. clear -Hin. induction r as [|[b q] r IH]; [exact Hin|].
  cbn [pt_erase] in Hin. destruct (b =? h); cbn [map fst] in *; [now right|]. destruct Hin as [->|Hin]; [now left|right; auto].
Qed.
Lemma pt_find_none_notin t h : pt_find t h = None -> ~ In h (map fst t).
Proof.
  induction t as [|[a p] r IH]; intros H; [auto|]. cbn [pt_find map fst] in *.
  destruct (Z.eqb_spec a h); [discriminate|]. intros [->|Hin]; [congruence|]. now apply IH.
Qed.
Lemma pt_draw_spec t ds h : pt_draw t ds = Some h -> In h ds /\ pt_find t h = None.
Proof.
  induction ds as [|d r IH]; intros H; [discriminate|]. cbn [pt_draw] in H.
  destruct (pt_find t d) eqn:E; [destruct (IH H); split; auto; now right|]. inversion H; subst. split; [now left|exact E].
Qed.

Lemma pt_step_ok t o t' x l : pt_inv t -> op_draws_ok o -> (forall h, pt_find t h = l h) ->
  pt_step t o = Some (t', x) ->
  pt_inv t' /\ answer_ok l o x /\ (forall h, pt_find t' h = live_after [(o, x)] (l h) h).
Proof.
  intros [ND Z0] Hd Hl E. destruct o as [p ds|h|h]; cbn [pt_step answer_ok] in *.
  - unfold pt_add in E. destruct (Z.eqb_spec p 0) as [->|Hp].
    + inversion E; subst. cbn. repeat split; auto.
    + destruct (pt_draw t ds) as [h|] eqn:D; [|discriminate]. inversion E; subst. cbn [answer_ok].
      apply pt_draw_spec in D as [D1 D2]. cbn in Hd. rewrite Forall_forall in Hd. specialize (Hd _ D1).
      repeat split.
      * cbn. constructor; [now apply pt_find_none_notin|exact ND].
      * cbn [pt_find]. destruct (Z.eqb_spec h 0); [lia|exact Z0].
      * exists h. rewrite <- Hl. repeat split; auto; lia.
      * intros k. cbn [pt_find live_after]. destruct (h =? k); [reflexivity|apply Hl].
  - unfold pt_get in E. destruct (Z.eqb_spec h 0) as [->|Hh].
    + inversion E; subst. rewrite <- Hl, Z0. repeat split; auto.
    + rewrite <- Hl. destruct (pt_find t h); inversion E; subst; repeat split; auto.
  - unfold pt_remove in E. destruct (Z.eqb_spec h 0) as [->|Hh].
    + inversion E; subst. rewrite <- Hl, Z0. repeat split; auto.
    + rewrite <- Hl. destruct (pt_find t h) eqn:F; inversion E; subst.
      * repeat split; auto.
        -- now apply pt_erase_nodup.
        -- rewrite pt_find_erase by exact ND. destruct (h =? 0); auto.
        -- intros k. rewrite pt_find_erase by exact ND. cbn. destruct (h =? k); [reflexivity|apply Hl].
      * repeat split; auto.
Qed.

Lemma live_after_app a b cur h : live_after (a ++ b) cur h = live_after b (live_after a cur h) h.
Proof.
  revert cur. induction a as [|[o x] a IH]; intros cur; [reflexivity|]. cbn [app live_after].
  destruct o, x; auto.
Qed.

Lemma pt_run_ok ops t outs t' hist :
  pt_inv t -> Forall op_draws_ok ops -> (forall h, pt_find t h = live hist h) ->
  pt_run t ops = Some (t', outs) ->
  (forall h, pt_find t' h = live (hist ++ combine ops outs) h) /\ length outs = length ops /\
  forall i o x, nth_error ops i = Some o -> nth_error outs i = Some x ->
    answer_ok (live (hist ++ combine (firstn i ops) (firstn i outs))) o x.
Proof.
  revert t outs hist. induction ops as [|o r IH]; intros t outs hist Hi HF Hl E; cbn [pt_run] in E.
  - inversion E; subst. cbn. rewrite app_nil_r. repeat split; auto. intros i o x H. now destruct i.
  - destruct (pt_step t o) as [[t1 x]|] eqn:S; [|discriminate].
    destruct (pt_run t1 r) as [[t2 xs]|] eqn:R; [|discriminate]. inversion E; subst.
    inversion HF as [|? ? Hd HF']; subst.
    destruct (pt_step_ok t o t1 x (live hist) Hi Hd Hl S) as (I1 & A1 & L1).
    assert (L1' : forall h, pt_find t1 h = live (hist ++ [(o, x)]) h).
    { intros h. unfold live. rewrite live_after_app. apply L1. }
    destruct (IH t1 xs (hist ++ [(o, x)]) I1 HF' L1' R) as (J1 & J2 & J3).
    split; [|split].
    + intros h. rewrite J1. now rewrite <- app_assoc.
    + cbn. now rewrite J2.
    + intros i o' x' H1 H2. destruct i as [|i]; cbn [nth_error firstn combine] in *.
      * inversion H1; inversion H2; subst. now rewrite app_nil_r.
      * specialize (J3 i o' x' H1 H2). now rewrite <- app_assoc in J3.
Qed.

Lemma pt_all_histories ops outs t' : Forall op_draws_ok ops -> pt_run [] ops = Some (t', outs) ->
  length outs = length ops /\
  forall i o x, nth_error ops i = Some o -> nth_error outs i = Some x ->
    answer_ok (live (combine (firstn i ops) (firstn i outs))) o x.
Proof.
  intros HF E. destruct (pt_run_ok ops [] outs t' [] ltac:(split; [constructor|reflexivity]) HF ltac:(reflexivity) E) as (_ & H2 & H3).
  auto.
Qed.

(** Adding terminates as soon as the engine produces an unused handle. *)
Lemma pt_add_returns t p ds d : In d ds -> pt_find t d = None -> exists t' x, pt_step t (PAdd p ds) = Some (t', x).
Proof.
  intros Hin Hf. cbn [pt_step]. unfold pt_add. destruct (p =? 0); [eauto|].
  assert (exists h, pt_draw t ds = Some h) as [h ->].
  { induction ds as [|a r IH]; [contradiction|]. cbn [pt_draw]. destruct (pt_find t a) eqn:E; [|eauto].
    destruct Hin as [->|Hin]; [congruence|]. auto. }
  eauto.
Qed.
