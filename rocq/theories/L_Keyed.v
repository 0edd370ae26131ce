From Verif Require Import Base M_Estimator M_Stats M_Pipeline M_Keyed S_Keyed.

Section Keyed.
  Context {K S A B : Type}.
  Variable keqb klt : K -> K -> bool.
  Hypothesis Hord : key_order keqb klt.
  Variable step : K -> option S -> A -> list B * res S.
  Notation find := (k_find (S := S) keqb).
  Notation set := (k_set (S := S) keqb klt).

  Lemma keqb_refl : forall k, keqb k k = true.
  Proof using Hord. intros k. apply (proj1 Hord). reflexivity. Qed.
  Lemma keqb_eq : forall a b, keqb a b = true -> a = b.
  Proof using Hord. intros a b. apply (proj1 Hord). Qed.
  Lemma keqb_neq : forall a b, a <> b -> keqb a b = false.
  Proof using Hord. intros a b H. destruct (keqb a b) eqn:E; [|reflexivity]. apply keqb_eq in E. contradiction. Qed.
  Lemma keqb_sym : forall a b, keqb a b = keqb b a.
  Proof using Hord.
    intros a b. destruct (keqb a b) eqn:E; [apply keqb_eq in E; subst; symmetry; apply keqb_refl|].
    destruct (keqb b a) eqn:E'; [|reflexivity]. apply keqb_eq in E'. subst. rewrite keqb_refl in E. discriminate.
  Qed.
  Lemma find_set : forall m k s k', find (set m k s) k' = if keqb k k' then Some s else find m k'.
  Proof using Hord.
    intros m k s k'. unfold k_find. induction m as [|[a v] m IH]; cbn [k_set m_find]; [reflexivity|].
    destruct (klt k a) eqn:L; cbn [m_find]; [reflexivity|]. destruct (keqb a k) eqn:E; cbn [m_find].
    - apply keqb_eq in E. subst a. destruct (keqb k k'); reflexivity.
    - rewrite IH. destruct (keqb a k') eqn:E1; [|reflexivity]. apply keqb_eq in E1. subst a. rewrite (keqb_sym k k'), E. reflexivity.
  Qed.

  (** Keys in strictly ascending order. *)
  Definition ascending (m : list (K * S)) : Prop := StronglySorted (fun a b => klt (fst a) (fst b) = true) m.
  Lemma set_in : forall m k s x, In x (set m k s) -> fst x = k \/ In x m.
  Proof using Hord.
    induction m as [|[a v] m IH]; cbn [k_set]; intros k s x H.
    - destruct H as [<-|[]]. now left.
    - destruct (klt k a); [destruct H as [<-|H]; auto|]. destruct (keqb a k); [destruct H as [<-|H]; auto; right; now right|].
      destruct H as [<-|H]; [right; now left|]. destruct (IH k s x H); [now left|right; now right].
  Qed.
  Lemma set_ascending : forall m k s, ascending m -> ascending (set m k s).
  Proof using Hord.
    pose proof Hord as [_ [Irr [Tr Tot]]].
    induction m as [|[a v] m IH]; cbn [k_set]; intros k s H; [repeat constructor|].
    inversion H as [|? ? H1 H2]; subst. destruct (klt k a) eqn:L.
    - constructor; [exact H|]. constructor; [exact L|]. eapply Forall_impl; [|exact H2]. intros x Hx. cbn [fst] in *. eauto.
    - destruct (keqb a k) eqn:E.
      + apply keqb_eq in E. subst a. constructor; assumption.
      + constructor; [apply IH; exact H1|]. apply Forall_forall. intros x Hx. apply set_in in Hx. cbn [fst]. destruct Hx as [Hx|Hx].
        * rewrite Hx. destruct (klt a k) eqn:E2; [reflexivity|]. rewrite (Tot a k E2 L), keqb_refl in E. discriminate.
        * rewrite Forall_forall in H2. apply (H2 x Hx).
  Qed.

  Notation exec := (keyed_exec (S := S) keqb klt step).
  Notation own m k l := (alone (step k) (find m k) l).
  Lemma of_key_cons : forall {X} k (x : K * X) l, of_key keqb k (x :: l) = if keqb (fst x) k then snd x :: of_key keqb k l else of_key keqb k l.
  Proof using Type. intros X k x l. unfold of_key. cbn [filter]. destruct (keqb (fst x) k); reflexivity. Qed.
  Lemma of_key_app : forall {X} k (a b : list (K * X)), of_key keqb k (a ++ b) = of_key keqb k a ++ of_key keqb k b.
  Proof using Type. intros X k a b. unfold of_key. now rewrite filter_app, map_app. Qed.
  Lemma of_key_pair : forall {X} k k' (l : list X), of_key keqb k (map (pair k') l) = if keqb k' k then l else [].
  Proof using Type.
    intros X k k' l. induction l as [|x l IH]; [now destruct (keqb k' k)|]. cbn [map]. rewrite of_key_cons. cbn [fst snd]. rewrite IH.
    destruct (keqb k' k); reflexivity.
  Qed.
  Lemma alone_cons : forall k s a l, alone (step k) s (a :: l) =
    match step k s a with
    | (o, Ok s') => let (o', r) := alone (step k) (Some s') l in (o ++ o', r)
    | (o, Throw e) => (o, Throw e)
    | (o, UB) => (o, UB)
    end.
  Proof using Type.
    intros k s a l. unfold alone. cbn [feed]. destruct (step k s a) as [o [s'| |]]; cbn [bind]; reflexivity.
  Qed.

  Notation failure := same_failure.
  Lemma keyed_spec : forall l m, let (out, r) := feed exec m l in
    exists p q, l = p ++ q /\
    (forall k, of_key keqb k out = fst (own m k (of_key keqb k p))) /\
    (forall m', r = Ok m' -> q = [] /\ forall k, snd (own m k (of_key keqb k p)) = Ok (find m' k)) /\
    (is_ok r = false -> exists p' k a, p = p' ++ [(k, a)] /\ failure r (snd (own m k (of_key keqb k p)))).
  Proof using Hord.
    induction l as [|[k0 a] l IH]; intros m; cbn [feed].
    - exists [], []. split; [reflexivity|]. split; [reflexivity|]. split; [|discriminate]. intros m' [= <-]. split; reflexivity.
    - unfold keyed_exec at 1. cbn [fst snd]. destruct (step k0 (find m k0) a) as [o r] eqn:E. destruct r as [s|e|]; cbn [bind].
      + specialize (IH (set m k0 s)). destruct (feed exec (set m k0 s) l) as [out r]. destruct IH as [p [q [-> [H1 [H2 H3]]]]].
        assert (G : forall k, own m k (of_key keqb k ((k0, a) :: p)) = if keqb k0 k then (let (o', r') := own (set m k0 s) k (of_key keqb k p) in (o ++ o', r')) else own (set m k0 s) k (of_key keqb k p)).
        { intros k. rewrite of_key_cons. cbn [fst snd]. destruct (keqb k0 k) eqn:Ek.
          - rewrite alone_cons. pose proof (keqb_eq _ _ Ek). subst k0. rewrite E, find_set, keqb_refl. reflexivity.
          - rewrite find_set, Ek. reflexivity. }
        exists ((k0, a) :: p), q. split; [reflexivity|]. split; [|split].
        * intros k. rewrite G, of_key_app, of_key_pair. specialize (H1 k). destruct (keqb k0 k); cbn [app]; [|exact H1].
          destruct (own (set m k0 s) k (of_key keqb k p)) as [o' r']. cbn [fst] in *. now rewrite H1.
        * intros m' Hr. destruct (H2 m' Hr) as [-> H4]. split; [reflexivity|]. intros k. rewrite G. specialize (H4 k). destruct (keqb k0 k); [|exact H4].
          destruct (own (set m k0 s) k (of_key keqb k p)) as [o' r']. exact H4.
        * intros Hr. destruct (H3 Hr) as [p' [k [a' [-> Hf]]]]. exists ((k0, a) :: p'), k, a'. split; [reflexivity|].
          rewrite G. destruct (keqb k0 k); [|exact Hf]. destruct (own (set m k0 s) k (of_key keqb k (p' ++ [(k, a')]))) as [o' r']. exact Hf.
      + exists [(k0, a)], l. split; [reflexivity|].
        assert (G : forall k, own m k (of_key keqb k [(k0, a)]) = if keqb k0 k then (o, Throw e) else ([], Ok (find m k))).
        { intros k. rewrite of_key_cons. cbn [fst snd]. destruct (keqb k0 k) eqn:Ek; [|reflexivity]. pose proof (keqb_eq _ _ Ek). subst k0. rewrite alone_cons, E. reflexivity. }
        split; [|split; [discriminate|]].
        * intros k. rewrite G, of_key_pair. destruct (keqb k0 k); reflexivity.
        * intros _. exists [], k0, a. split; [reflexivity|]. rewrite G, keqb_refl. reflexivity.
      + exists [(k0, a)], l. split; [reflexivity|].
        assert (G : forall k, own m k (of_key keqb k [(k0, a)]) = if keqb k0 k then (o, UB) else ([], Ok (find m k))).
        { intros k. rewrite of_key_cons. cbn [fst snd]. destruct (keqb k0 k) eqn:Ek; [|reflexivity]. pose proof (keqb_eq _ _ Ek). subst k0. rewrite alone_cons, E. reflexivity. }
        split; [|split; [discriminate|]].
        * intros k. rewrite G, of_key_pair. destruct (keqb k0 k); reflexivity.
        * intros _. exists [], k0, a. split; [reflexivity|]. rewrite G, keqb_refl. exact I.
  Qed.
  (** It succeeds if every key alone does. *)
  Lemma keyed_ok : forall l m, (forall k, exists s, snd (own m k (of_key keqb k l)) = Ok s) ->
    exists out m', feed exec m l = (out, Ok m') /\ forall k, of_key keqb k out = fst (own m k (of_key keqb k l)) /\ snd (own m k (of_key keqb k l)) = Ok (find m' k).
  Proof using Hord.
    intros l m H. pose proof (keyed_spec l m) as X. destruct (feed exec m l) as [out r]. destruct X as [p [q [El [H1 [H2 H3]]]]].
    destruct (is_ok r) eqn:Er.
    - destruct r as [m'| |]; try discriminate. destruct (H2 m' eq_refl) as [-> H4]. rewrite app_nil_r in El. subst p. exists out, m'. split; [reflexivity|]. intros k. auto.
    - exfalso. destruct (H3 eq_refl) as [p' [k [a [Ep Hf]]]]. destruct (H k) as [s Hs]. subst l. rewrite of_key_app in Hs.
      unfold alone in Hs, Hf. revert Hs Hf. generalize (of_key keqb k p) (of_key keqb k q) (find m k). clear.
      set (st := fun s a => _). intros l1 l2. induction l1 as [|x l1 IH]; intros s0 Hs Hf; cbn [feed app] in *.
      + destruct r; exact Hf.
      + destruct (st s0 x) as [o [s'| |]]; try discriminate.
        specialize (IH s'). destruct (feed st s' (l1 ++ l2)) as [o1 r1]. destruct (feed st s' l1) as [o2 r2]. cbn [snd] in *. auto.
  Qed.
  Lemma feed_ascending : forall l m out m', ascending m -> feed exec m l = (out, Ok m') -> ascending m'.
  Proof using Hord.
    induction l as [|[k a] l IH]; intros m out m' H E; cbn [feed] in E; [injection E as <- <-; exact H|].
    unfold keyed_exec at 1 in E. cbn [fst snd] in E. destruct (step k (find m k) a) as [o [s| |]]; cbn [bind] in E; try discriminate.
    destruct (feed exec (set m k s) l) as [o' r] eqn:E'. injection E as _ ->. eapply IH; [|exact E']. now apply set_ascending.
  Qed.

  (** A machine given the rows of one key only. *)
  Lemma of_only : forall {X} k (l : list (K * X)), of_key keqb k (only keqb k l) = of_key keqb k l.
  Proof using Type.
    intros X k l. unfold of_key, only. f_equal. induction l as [|x l IH]; [reflexivity|]. cbn [filter]. destruct (keqb (fst x) k) eqn:E; [|exact IH]. cbn [filter]. now rewrite E, IH.
  Qed.
  Lemma only_run : forall k l m, exists r', feed exec m (only keqb k l) = (map (pair k) (fst (own m k (of_key keqb k l))), r') /\
    match snd (own m k (of_key keqb k l)), r' with Ok s, Ok m' => find m' k = s | Throw e, Throw e' => e = e' | UB, UB => True | _, _ => False end.
  Proof using Hord.
    intros k l. induction l as [|[k0 a] l IH]; intros m.
    - exists (Ok m). split; reflexivity.
    - rewrite of_key_cons. unfold only. cbn [filter fst snd]. fold (only keqb k l). destruct (keqb k0 k) eqn:E; [|apply IH]. apply keqb_eq in E. subst k0.
      rewrite alone_cons. cbn [feed]. unfold keyed_exec at 1. cbn [fst snd]. destruct (step k (find m k) a) as [o [s|e|]]; cbn [bind fst snd].
      + destruct (IH (set m k s)) as [r' [E H]]. rewrite E. rewrite find_set, keqb_refl in H. rewrite find_set, keqb_refl. destruct (alone (step k) (Some s) (of_key keqb k l)) as [o' r]. exists r'. cbn [fst snd] in *.
        rewrite map_app. split; [reflexivity|exact H].
      + exists (Throw e). split; reflexivity.
      + exists UB. split; reflexivity.
  Qed.
  (** Each key gets what it would get alone; the run fails when some key alone would. *)
  Lemma keyed_independent : forall l m o r, feed exec m l = (o, r) ->
    exists p q, l = p ++ q /\ (is_ok r = true -> q = []) /\
      (forall k, of_key keqb k o = of_key keqb k (fst (feed exec m (only keqb k p)))) /\
      (forall m' k, r = Ok m' -> exists m'', snd (feed exec m (only keqb k p)) = Ok m'' /\ find m'' k = find m' k) /\
      (is_ok r = false -> exists p' k a, p = p' ++ [(k, a)] /\ failure r (snd (feed exec m (only keqb k p)))).
  Proof using Hord.
    intros l m o r E. pose proof (keyed_spec l m) as X. rewrite E in X. destruct X as [p [q [El [H1 [H2 H3]]]]]. exists p, q. split; [exact El|]. split; [|split; [|split]].
    - intros Hr. destruct r as [m'| |]; try discriminate. exact (proj1 (H2 m' eq_refl)).
    - intros k. rewrite H1. destruct (only_run k p m) as [r' [-> _]]. cbn [fst]. rewrite of_key_pair, keqb_refl. reflexivity.
    - intros m' k Hr. destruct (H2 m' Hr) as [_ H4]. destruct (only_run k p m) as [r' [-> H5]]. cbn [snd]. rewrite H4 in H5. destruct r' as [m''| |]; try contradiction. exists m''. split; [reflexivity|exact H5].
    - intros Hr. destruct (H3 Hr) as [p' [k [a [Ep Hf]]]]. exists p', k, a. split; [exact Ep|]. destruct (only_run k p m) as [r' [-> H5]]. cbn [snd].
      destruct (snd (own m k (of_key keqb k p))) as [s|e|]; destruct r as [m'|e'|]; try contradiction; destruct r' as [m''|e''|]; try contradiction; cbn [same_failure] in *; congruence || exact I.
  Qed.

  (** Flushing, when no entry fails. *)
  Variable flush : S -> list B * res S.
  Lemma keyed_flush_ok : forall m, ascending m -> (forall k s, In (k, s) m -> exists s', snd (flush s) = Ok s') ->
    exists out m', keyed_flush flush m = (out, Ok m') /\ ascending m' /\
      forall k, (match find m k with
                 | Some s => of_key keqb k out = fst (flush s) /\ (exists s', snd (flush s) = Ok s' /\ find m' k = Some s')
                 | None => of_key keqb k out = [] /\ find m' k = None
                 end).
  Proof using Hord.
    pose proof Hord as [_ [Irr [Tr Tot]]].
    induction m as [|[k0 s0] m IH]; intros Ha Hf; cbn [keyed_flush].
    - exists [], []. split; [reflexivity|]. split; [constructor|]. intros k. split; reflexivity.
    - inversion Ha as [|? ? A1 A2]; subst. destruct (Hf k0 s0) as [s1 E1]; [now left|]. destruct IH as [out [m' [E [Am H]]]]; [exact A1|intros; apply (Hf k s); now right|].
      destruct (flush s0) as [o r0] eqn:E0. cbn [snd] in E1. subst r0. rewrite E. cbn [bind]. eexists. eexists. split; [reflexivity|].
      assert (N : forall s, find m k0 = Some s -> False).
      { intros s Hs. assert (Hin : exists v, In (k0, v) m).
        { clear -Hs Hord. unfold k_find in Hs. induction m as [|[a v] m IH]; [discriminate|]. cbn [m_find] in Hs. destruct (keqb a k0) eqn:E.
          - apply keqb_eq in E. subst a. exists v. now left.
          - destruct (IH Hs) as [v' Hv]. exists v'. now right. }
        destruct Hin as [v Hin]. rewrite Forall_forall in A2. specialize (A2 _ Hin). cbn [fst] in A2. rewrite Irr in A2. discriminate. }
      split.
      + constructor; [exact Am|]. assert (Hk : forall x, In x m' -> exists v, In (fst x, v) m).
        { clear -E. revert out m' E. induction m as [|[a v] m IH]; intros out m' E x Hx; cbn [keyed_flush] in E; [injection E as <- <-; destruct Hx|].
          destruct (flush v) as [o [s'| |]]; try discriminate. destruct (keyed_flush flush m) as [o' r'] eqn:E'. destruct r' as [m2| |]; cbn [bind] in E; try discriminate.
          injection E as <- <-. destruct Hx as [<-|Hx]; [exists v; now left|]. destruct (IH _ _ eq_refl x Hx) as [v' Hv']. exists v'. now right. }
        apply Forall_forall. intros x Hx. destruct (Hk x Hx) as [v Hv]. rewrite Forall_forall in A2. exact (A2 _ Hv).
      + intros k. specialize (H k). rewrite of_key_app, of_key_pair. unfold k_find in *. cbn [m_find]. destruct (keqb k0 k) eqn:Ek.
        * pose proof (keqb_eq _ _ Ek). subst k. destruct (m_find keqb m k0) as [s|] eqn:Es; [exfalso; eapply N; exact eq_refl|].
          destruct H as [-> _]. rewrite app_nil_r, E0. split; [reflexivity|]. exists s1. split; reflexivity.
        * cbn [app]. exact H.
  Qed.
  (** Flushed keys come out in ascending order. *)
  Lemma keyed_flush_order : forall m out m', ascending m -> keyed_flush flush m = (out, Ok m') ->
    StronglySorted (fun a b : K * B => klt (fst b) (fst a) = false) out.
  Proof using Hord.
    pose proof Hord as [_ [Irr [Tr Tot]]].
    assert (Hk : forall (m : list (K*S)) (out : list (K*B)) (m1 : list (K*S)) (x : K*B), keyed_flush flush m = (out, Ok m1) -> In x out -> exists v : S, In (fst x, v) m).
    { induction m as [|[a v] m IH]; intros out m' x E Hx; cbn [keyed_flush] in E; [injection E as <- <-; destruct Hx|].
      destruct (flush v) as [o [s'| |]]; try discriminate. destruct (keyed_flush flush m) as [o' r'] eqn:E'. destruct r' as [m2| |]; cbn [bind] in E; try discriminate.
      injection E as <- <-. apply in_app_iff in Hx. destruct Hx as [Hx|Hx].
      - apply in_map_iff in Hx. destruct Hx as [b [<- _]]. exists v. now left.
      - destruct (IH _ _ x eq_refl Hx) as [v' Hv']. exists v'. now right. }
    induction m as [|[a v] m IH]; intros out m' Ha E; cbn [keyed_flush] in E; [injection E as <- <-; constructor|].
    inversion Ha as [|? ? A1 A2]; subst. destruct (flush v) as [o [s'| |]]; try discriminate. destruct (keyed_flush flush m) as [o' r'] eqn:E'.
    destruct r' as [m2| |]; cbn [bind] in E; try discriminate. injection E as <- <-. specialize (IH o' m2 A1 eq_refl).
    assert (Hall : Forall (fun x : K * B => klt (fst x) a = false) o').
    { apply Forall_forall. intros x Hx. destruct (Hk _ _ _ x E' Hx) as [v' Hv]. rewrite Forall_forall in A2. specialize (A2 _ Hv). cbn [fst] in A2.
      destruct (klt (fst x) a) eqn:L; [|reflexivity]. rewrite (Irr a) || idtac. pose proof (Tr _ _ _ A2 L) as X. rewrite Irr in X. discriminate. }
    clear E'. induction o as [|b o IHo]; cbn [map app]; [exact IH|]. constructor; [exact IHo|]. apply Forall_app. split.
    - apply Forall_forall. intros x Hx. apply in_map_iff in Hx. destruct Hx as [b' [<- _]]. cbn [fst]. apply Irr.
    - exact Hall.
  Qed.
End Keyed.
