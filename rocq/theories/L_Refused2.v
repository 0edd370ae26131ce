(** The estimator value by value; batches; the policies. *)
From Coq Require Import ZArith Lia.
From Flocq Require Import Core.Core IEEE754.BinarySingleNaN.
From Verif Require Import Base M_Estimator M_Stats M_Pipeline M_Keyed M_Scale M_FloatStats M_FloatScale M_Docs M_Errors M_Refused S_Stats S_Refused.
From Verif Require Import L_Estimator L_Stats2 L_Stats3 L_Refused.
Open Scope Z_scope.

Section Wrapper.
  Context {P In A : Type}.
  Variable t : trainee P In A.
  Notation est' := (est (@tonly P A)).

  Lemma lessons_tries : forall xs (e : est'), e_state e = Training -> (length xs <= t_remaining (e_impl e))%nat ->
    t_has (e_impl e) = false -> t_ann (e_impl e) = None -> (0 < t_remaining (e_impl e))%nat ->
    let (e', qs) := lessons t e (singles xs) in
    let (p, rs) := tries t (t_pol (e_impl e)) xs in
    map ending qs = rs /\ (e_state e' = Training \/ e_state e' = Finished) /\ t_pol (e_impl e') = p /\ t_has (e_impl e') = false /\ t_ann (e_impl e') = None.
  Proof using.
    induction xs as [|x r IH]; intros e Est Hlen Hh Ha Hpos; cbn [singles map lessons tries].
    { split; [reflexivity|]. split; [left; exact Est|]. split; [reflexivity|]. split; assumption. }
    fold (singles r). destruct e as [st cr [p rq hs rem an]]. cbn [e_state e_impl t_pol t_has t_ann t_remaining length] in *. subst st hs an.
    assert (Ef : fit (learner t) (mkEst Training cr (mkT p rq false rem None)) (Some [x]) =
      match after p (f_fit t p x) with
      | (p', Ok _) => (mkEst (if Nat.eqb (rem - 1) 0 then Finished else Training) cr (mkT p' rq false (rem - 1) None),
                       Ok (if Nat.eqb (rem - 1) 0 then FitComplete else FitContinue))
      | (p', Throw y) => (mkEst Training cr (mkT p' rq false rem None), Throw y)
      | (p', UB) => (mkEst Training cr (mkT p' rq false rem None), UB)
      end).
    { unfold fit. cbn [e_state i_fit learner e_impl]. unfold l_fit. cbn [t_remaining t_pol t_required t_has t_ann length].
      replace (Nat.min rem 1) with 1%nat by lia. cbn [firstn l_items].
      destruct (after p (f_fit t p x)) as [p' [u|y|]]; try reflexivity. destruct (Nat.eqb (rem - 1) 0); reflexivity. }
    rewrite Ef. clear Ef. destruct (after p (f_fit t p x)) as [p' [u|y|]].
    - destruct (Nat.eqb (rem - 1) 0) eqn:En.
      + apply Nat.eqb_eq in En. destruct r as [|x' r']; [|cbn [length] in Hlen; lia].
        cbn [singles map lessons tries]. destruct u. cbn [map ending].
        split; [reflexivity|]. split; [right; reflexivity|]. repeat split.
      + apply Nat.eqb_neq in En. specialize (IH (mkEst Training cr (mkT p' rq false (rem - 1) None)) eq_refl).
        cbn [e_impl t_remaining t_has t_ann t_pol] in IH. specialize (IH ltac:(lia) eq_refl eq_refl ltac:(lia)).
        destruct (lessons t (mkEst Training cr (mkT p' rq false (rem - 1) None)) (singles r)) as [e2 qs].
        destruct (tries t p' r) as [p2 rs]. destruct IH as [IH1 IH2]. destruct u. split; [cbn [map ending]; now rewrite IH1|exact IH2].
    - specialize (IH (mkEst Training cr (mkT p' rq false rem None)) eq_refl).
      cbn [e_impl t_remaining t_has t_ann t_pol] in IH. specialize (IH ltac:(lia) eq_refl eq_refl ltac:(lia)).
      destruct (lessons t (mkEst Training cr (mkT p' rq false rem None)) (singles r)) as [e2 qs].
      destruct (tries t p' r) as [p2 rs]. destruct IH as [IH1 IH2]. split; [cbn [map ending]; now rewrite IH1|exact IH2].
    - specialize (IH (mkEst Training cr (mkT p' rq false rem None)) eq_refl).
      cbn [e_impl t_remaining t_has t_ann t_pol] in IH. specialize (IH ltac:(lia) eq_refl eq_refl ltac:(lia)).
      destruct (lessons t (mkEst Training cr (mkT p' rq false rem None)) (singles r)) as [e2 qs].
      destruct (tries t p' r) as [p2 rs]. destruct IH as [IH1 IH2]. split; [cbn [map ending]; now rewrite IH1|exact IH2].
  Qed.

  Lemma finish_eq : forall (e : est'), (e_state e = Training \/ e_state e = Finished) -> t_has (e_impl e) = false -> t_ann (e_impl e) = None ->
    (let (e3, r3) := on_data_completed (learner t) e in
     do _ <- r3; let (e4, r4) := complete_training (learner t) e3 in do _ <- r4; Ok (t_ann (e_impl e4))) =
    do a <- f_complete t (t_pol (e_impl e)); Ok (Some a).
  Proof using.
    intros [st cr [p rq hs rem an]] Hs Hh Ha. cbn [e_state e_impl t_pol t_has t_ann] in *. subst hs an.
    destruct Hs as [-> | ->]; unfold on_data_completed; cbn [e_state i_on_data learner e_impl e_created bind];
      unfold complete_training; cbn [e_state i_complete learner e_impl e_created]; unfold t_complete; cbn [t_has t_pol t_ann shell p_complete simple_policy];
      destruct (f_complete t p); reflexivity.
  Qed.

  Theorem estimator_tries : forall mx xs, (0 < mx)%nat -> (length xs <= mx)%nat ->
    let (rs, a) := trained_anyway t mx (singles xs) in
    let (p, qs) := tries t (f_init t) xs in
    map ending rs = qs /\ a = (do r <- f_complete t p; Ok (Some r)).
  Proof using.
    intros mx xs Hmx Hlen. unfold trained_anyway, begin_training, est_new, tonly_new. cbn [e_state e_impl i_begin learner]. unfold t_begin.
    cbn [t_required negb t_ann t_pol t_remaining e_created shell p_begin simple_policy p_init].
    pose proof (lessons_tries xs (mkEst Training false (mkT (f_init t) true false mx None)) eq_refl Hlen eq_refl eq_refl Hmx) as H.
    cbn [e_impl t_pol] in H.
    destruct (lessons t (mkEst Training false (mkT (f_init t) true false mx None)) (singles xs)) as [e2 qs].
    destruct (tries t (f_init t) xs) as [p rs]. destruct H as (H1 & H2 & H3 & H4 & H5).
    split; [exact H1|]. cbn [bind]. rewrite finish_eq by assumption. rewrite H3. reflexivity.
  Qed.

  Lemma taken_length : forall pol p bs rs l, @taken P In A pol p bs rs l -> (length l <= length (concat bs))%nat.
  Proof using. intros pol p bs rs l H. induction H; cbn [concat]; [lia| |]; rewrite !app_length in *; cbn [length]; lia. Qed.

  Theorem batches_tries : forall pol, learns_like t pol -> forgetful t -> forall mx bs,
    (length (concat bs) < mx)%nat -> Forall (fun b => b <> []) bs ->
    let (rs, a) := trained_anyway t mx bs in
    (forall q, List.In q rs -> q <> UB) ->
    exists l, taken pol (p_init pol) bs rs l /\ a = trained pol mx (singles l).
  Proof using.
    intros pol Hlike Hforget mx bs Hlen Hne. unfold trained_anyway, begin_training, est_new, tonly_new. cbn [e_state e_impl i_begin learner]. unfold t_begin.
    cbn [t_required negb t_ann t_pol t_remaining e_created shell p_begin simple_policy p_init].
    pose proof (lessons_batches t pol Hlike Hforget bs (mkEst Training false (mkT (f_init t) true false mx None)) eq_refl) as H.
    cbn [e_impl t_pol t_remaining t_has t_ann] in H. specialize (H Hlen Hne eq_refl eq_refl).
    destruct (lessons t (mkEst Training false (mkT (f_init t) true false mx None)) bs) as [e2 qs].
    intros Hub. destruct (H Hub) as (l & p' & Ht & Hf & Hs & Hp & Hh & Ha).
    destruct Hlike as (Hi & Hb & Hc & Hl). rewrite Hi in Ht, Hf.
    exists l. split; [exact Ht|]. cbn [bind]. rewrite finish_eq by (assumption || (left; exact Hs)). rewrite Hp, Hc.
    rewrite trained_eq; [|lia|].
    - rewrite Hb. cbn [bind fst snd].
      assert (Ec : concat (singles l) = l) by (unfold singles; clear; induction l as [|x r IH]; [reflexivity|cbn [map concat app]; now rewrite IH]).
      rewrite Ec. rewrite firstn_all2; [|apply taken_length in Ht; lia]. rewrite Hf. reflexivity.
    - apply Forall_map. apply Forall_forall. intros x _. discriminate.
  Qed.

  (** The policy alone. *)
  Lemma tries_app : forall xs ys p, tries t p (xs ++ ys) =
    let (p1, q1) := tries t p xs in let (p2, q2) := tries t p1 ys in (p2, q1 ++ q2).
  Proof using.
    induction xs as [|x r IH]; intros ys p; cbn [app tries].
    - destruct (tries t p ys). reflexivity.
    - destruct (after p (f_fit t p x)) as [p1 q]. rewrite IH. destruct (tries t p1 r) as [p2 qs]. destruct (tries t p2 ys). reflexivity.
  Qed.
  Lemma tries_length : forall xs p, length (snd (tries t p xs)) = length xs.
  Proof using.
    induction xs as [|x r IH]; intros p; cbn [tries]; [reflexivity|]. destruct (after p (f_fit t p x)) as [p1 q].
    specialize (IH p1). destruct (tries t p1 r). cbn [snd length] in *. congruence.
  Qed.
  Lemma tries_no_trace : forall pol, learns_like t pol -> forgetful t -> forall xs p,
    let (p', rs) := tries t p xs in foldM (p_fit pol) p (accepted xs rs) = Ok p'.
  Proof using.
    intros pol Hlike Hforget. induction xs as [|x r IH]; intros p; cbn [tries accepted]; [reflexivity|].
    pose proof (like_inv t pol Hlike p x) as Hi. specialize (Hforget p x). destruct (after p (f_fit t p x)) as [p1 q].
    specialize (IH p1). destruct (tries t p1 r) as [p2 qs]. cbn [fst snd] in *. destruct q as [u|y|]; cbn [accepts].
    - cbn [foldM]. rewrite Hi. exact IH.
    - rewrite (Hforget eq_refl) in IH. exact IH.
    - rewrite (Hforget eq_refl) in IH. exact IH.
  Qed.
End Wrapper.

(** ** The policies. *)
Lemma checked_forgetful {P In A} (pol : policy P In A) : forgetful (checked_first pol).
Proof. intros p x. cbn [checked_first f_fit]. destruct (p_fit pol p x); cbn; [discriminate| |]; reflexivity. Qed.
Lemma checked_like {P In A} (pol : policy P In A) : (forall p, p_begin pol p = Ok (p, true)) -> learns_like (checked_first pol) pol.
Proof.
  intros Hb. split; [reflexivity|]. split; [exact Hb|]. split; [reflexivity|].
  intros p x. cbn [checked_first f_fit]. destruct (p_fit pol p x) as [q|e|]; cbn; split; try reflexivity; try discriminate.
  intros p' H. injection H as ->. reflexivity.
Qed.
Lemma freq_forgetful : forgetful freq_t.
Proof.
  intros [f [l|]] x; cbn [freq_t f_fit snd fst]; [|cbn; discriminate].
  destruct (x <=? l); [reflexivity|]. destruct (negb (in_i64 (x - l))); [reflexivity|]. destruct (x - l <=? f); cbn; discriminate.
Qed.
Lemma freq_like : learns_like freq_t freq_policy.
Proof.
  split; [reflexivity|]. split; [reflexivity|]. split; [reflexivity|].
  intros [f [l|]] x; cbn [freq_t f_fit freq_policy simple_policy p_fit freq_fit snd fst].
  - destruct (x <=? l); [split; [reflexivity|discriminate]|]. destruct (negb (in_i64 (x - l))); [split; [reflexivity|discriminate]|].
    destruct (x - l <=? f); cbn; (split; [reflexivity|]); intros p' H; injection H as <-; reflexivity.
  - split; [reflexivity|]. intros p' H; injection H as <-; reflexivity.
Qed.
Lemma tsfreq_forgetful {K} (keqb : K -> K -> bool) : forgetful (tsfreq_t keqb).
Proof.
  intros [f m] [k x]. cbn [tsfreq_t f_fit snd fst]. destruct (m_find keqb m k) as [l|]; [|cbn; discriminate].
  destruct (x <=? l); [reflexivity|]. destruct (negb (in_i64 (x - l))); [reflexivity|]. cbn; discriminate.
Qed.
Lemma tsfreq_like {K} (keqb : K -> K -> bool) : learns_like (tsfreq_t keqb) (tsfreq_policy keqb).
Proof.
  split; [reflexivity|]. split; [reflexivity|]. split; [reflexivity|].
  intros [f m] [k x]; cbn [tsfreq_t f_fit tsfreq_policy simple_policy p_fit tsfreq_fit snd fst]. destruct (m_find keqb m k) as [l|].
  - destruct (x <=? l); [split; [reflexivity|discriminate]|]. destruct (negb (in_i64 (x - l))); [split; [reflexivity|discriminate]|].
    cbn; (split; [reflexivity|]); intros p' H; injection H as <-; reflexivity.
  - split; [reflexivity|]. intros p' H; injection H as <-; reflexivity.
Qed.

(** Statistics: what [basic_call] does is what [basic_update] says. *)
Lemma basic_after {T R} (ltb : T -> T -> bool) (s : stats_state (T := T) * R) (x : T) k :
  match basic_update ltb (fst s) x with
  | Ok b => after s (basic_call ltb s x k) = after (b, snd s) (k (b, snd s))
  | Throw e => exists s', after s (basic_call ltb s x k) = (s', Throw e)
  | UB => False
  end.
Proof.
  unfold basic_update, basic_call. destruct (snd (fst s) =? 18446744073709551615); [eexists; reflexivity|reflexivity].
Qed.
Lemma int_stats_like : learns_like int_stats_t std_stats_policy.
Proof.
  split; [reflexivity|]. split; [reflexivity|]. split; [reflexivity|].
  intros s [v|]; cbn [int_stats_t f_fit std_stats_policy simple_policy p_fit].
  - unfold std_update. match goal with |- context [basic_call Z.ltb s v ?k] => pose proof (basic_after Z.ltb s v k) as H end.
    destruct (basic_update Z.ltb (fst s) v) as [b|e|]; [|destruct H as [s' H]; rewrite H; split; [reflexivity|discriminate]|contradiction].
    rewrite H. cbn [bind snd fst]. cbv zeta.
    destruct ((0 <? v) && negb (in_i64 (i64_max - i64_cast v))); [split; [reflexivity|discriminate]|].
    destruct ((0 <? v) && (i64_max - i64_cast v <? snd s)); [split; [reflexivity|discriminate]|].
    destruct ((v <? 0) && negb (in_i64 (i64_min - i64_cast v))); [split; [reflexivity|discriminate]|].
    destruct ((v <? 0) && (snd s <? i64_min - i64_cast v)); [split; [reflexivity|discriminate]|].
    destruct (negb (in_i64 (snd s + i64_cast v))); [split; [reflexivity|discriminate]|].
    cbn. split; [reflexivity|]. intros p' E. injection E as <-. reflexivity.
  - split; [reflexivity|]. intros p' E. injection E as <-. reflexivity.
Qed.
Lemma int_stats_step s v : in_i64 v = true -> in_i64 (snd s) = true -> forall b, basic_update Z.ltb (fst s) v = Ok b ->
  after s (f_fit int_stats_t s (Some v)) = if in_i64 (snd s + v) then ((b, snd s + v), Ok tt) else ((b, snd s), Throw RuntimeError).
Proof.
  intros Hv Hs b Hb. cbn [int_stats_t f_fit].
  match goal with |- context [basic_call Z.ltb s v ?k] => pose proof (basic_after Z.ltb s v k) as H end.
  rewrite Hb in H. rewrite H. clear H. cbn [snd fst]. cbv zeta. unfold i64_cast. rewrite to_s_id by exact Hv.
  assert (X1 : (0 <? v) && negb (in_i64 (i64_max - v)) = false) by (unfold in_i64, i64_min, i64_max in *; lia).
  assert (X2 : (v <? 0) && negb (in_i64 (i64_min - v)) = false) by (unfold in_i64, i64_min, i64_max in *; lia).
  rewrite X1, X2. destruct (in_i64 (snd s + v)) eqn:F.
  - assert (Y1 : (0 <? v) && (i64_max - v <? snd s) = false) by (unfold in_i64, i64_min, i64_max in *; lia).
    assert (Y2 : (v <? 0) && (snd s <? i64_min - v) = false) by (unfold in_i64, i64_min, i64_max in *; lia).
    rewrite Y1, Y2. reflexivity.
  - destruct ((0 <? v) && (i64_max - v <? snd s)) eqn:Y1; [reflexivity|].
    destruct ((v <? 0) && (snd s <? i64_min - v)) eqn:Y2; [reflexivity|].
    unfold in_i64, i64_min, i64_max in *. lia.
Qed.
Lemma int_stats_tries : forall xs l s, basic_inv Z.ltb l (fst s) -> in_i64 (snd s) = true -> Forall (fun x => in_i64 x = true) (somes xs) ->
  Z.of_nat (length l + length (somes xs)) < 2 ^ 64 ->
  let (s', rs) := tries int_stats_t s xs in
  basic_inv Z.ltb (l ++ somes xs) (fst s') /\ snd s' = snd s + zsum (somes (accepted xs rs)) /\ Forall (fun r => r <> UB) rs.
Proof.
  induction xs as [|[v|] r IH]; intros l s HI Hs HF HL; cbn [tries].
  - cbn [somes flat_map accepted zsum fold_right]. rewrite app_nil_r, Z.add_0_r. repeat split; try constructor; apply HI.
  - cbn [somes flat_map app] in HF, HL |- *. fold (somes r) in *. inversion HF as [|? ? Hv Hr]; subst. cbn [length] in HL.
    destruct (basic_step Z.ltb z_irr z_tr z_tot l (fst s) v HI) as (b & Hb & Ib); [lia|].
    rewrite (int_stats_step s v Hv Hs b Hb). destruct (in_i64 (snd s + v)) eqn:F.
    + specialize (IH (l ++ [v]) (b, snd s + v) Ib F Hr). destruct (tries int_stats_t (b, snd s + v) r) as [s' rs].
      destruct IH as (I1 & I2 & I3); [rewrite app_length; cbn [length]; lia|]. rewrite <- app_assoc in I1.
      split; [exact I1|]. split; [|constructor; [discriminate|exact I3]]. cbn [accepted accepts somes flat_map app]. fold (somes (accepted r rs)).
      cbn [zsum fold_right]. fold (zsum (somes (accepted r rs))). cbn [snd] in I2. lia.
    + specialize (IH (l ++ [v]) (b, snd s) Ib Hs Hr). destruct (tries int_stats_t (b, snd s) r) as [s' rs].
      destruct IH as (I1 & I2 & I3); [rewrite app_length; cbn [length]; lia|]. rewrite <- app_assoc in I1.
      split; [exact I1|]. split; [|constructor; [discriminate|exact I3]]. cbn [accepted accepts]. exact I2.
  - cbn [int_stats_t f_fit after]. specialize (IH l s HI Hs HF HL). destruct (tries int_stats_t s r) as [s' rs].
    destruct IH as (I1 & I2 & I3). split; [exact I1|]. split; [|constructor; [discriminate|exact I3]].
    cbn [accepted accepts]. cbn [somes flat_map app]. exact I2.
Qed.
Theorem int_stats_all : forall mx xs, (0 < mx)%nat -> (length xs <= mx)%nat -> Forall (fun x => in_i64 x = true) (somes xs) ->
  Z.of_nat (length xs) < 2 ^ 64 -> somes xs <> [] ->
  let (rs, a) := trained_anyway int_stats_t mx (singles xs) in
  exists mn mxv, a = Ok (Some (mn, mxv, Z.of_nat (length (somes xs)), zsum (somes (accepted xs rs)))) /\
    is_min Z.ltb mn (somes xs) /\ is_max Z.ltb mxv (somes xs) /\ Forall (fun r => r <> UB) rs.
Proof.
  intros mx xs Hmx Hlen HF HL Hne. pose proof (estimator_tries int_stats_t mx xs Hmx Hlen) as He.
  destruct (trained_anyway int_stats_t mx (singles xs)) as [rs a].
  assert (HL' : Z.of_nat (length (@nil Z) + length (somes xs)) < 2 ^ 64).
  { cbn [length]. assert (length (somes xs) <= length xs)%nat.
    { clear. induction xs as [|[v|] r IH]; [cbn; lia| |]; cbn [somes flat_map app length] in *; fold (somes r) in *; lia. }
    lia. }
  pose proof (int_stats_tries xs [] (f_init int_stats_t) (conj eq_refl eq_refl) eq_refl HF HL') as Ht.
  destruct (tries int_stats_t (f_init int_stats_t) xs) as [s qs]. destruct He as [He1 ->]. destruct Ht as (I1 & I2 & I3).
  cbn [app] in I1. assert (Ea : accepted xs rs = accepted xs qs).
  { rewrite <- He1. clear. revert rs. induction xs as [|x r IH]; intros [|q qs]; cbn [map accepted]; try reflexivity.
    rewrite IH. destruct q; reflexivity. }
  assert (Eu : Forall (fun r => r <> UB) rs).
  { rewrite <- He1 in I3. rewrite Forall_map in I3. revert I3. apply Forall_impl. intros [f|e|]; cbn; congruence. }
  destruct s as [[mm c] sm]. destruct I1 as [I1 I4]. cbn [fst snd int_stats_t f_init] in I1, I2, I4.
  cbn [int_stats_t f_complete std_stats_policy simple_policy p_complete]. unfold basic_commit. cbn [fst snd]. rewrite I1.
  destruct (Z.eqb_spec (Z.of_nat (length (somes xs))) 0) as [X|_]; [exfalso; apply Hne; apply length_zero_iff_nil; lia|].
  destruct mm as [[mn mxv]|]; [|contradiction]. destruct I4 as [M1 M2].
  assert (Eb : (mxv <? mn) = false) by (apply (proj2 M1 mxv), (proj1 M2)).
  rewrite Eb. cbn [bind]. exists mn, mxv. split; [|split; [exact M1|split; [exact M2|exact Eu]]].
  rewrite Ea, I2. reflexivity.
Qed.
