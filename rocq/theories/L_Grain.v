From Verif Require Import Base L_List M_Archive M_Codec L_Codec M_Estimator M_Stats L_Stats M_Pipeline M_Keyed S_Keyed L_Keyed M_Grain S_Grain.

Section Inference.
  Context {K S A B : Type}.
  Variable keqb klt : K -> K -> bool.
  Hypothesis Hord : key_order keqb klt.
  Variable exec : S -> A -> list B * res S.
  Variable flush : S -> list B * res S.
  Notation grain := (grain K S).
  Notation gexec := (grain_exec keqb klt exec).
  Notation kexec c := (keyed_exec keqb klt (grain_step (K := K) exec c)).
  Notation find := (k_find (S := S) keqb).

  Lemma grain_feed : forall l (g : grain), M_Pipeline.feed gexec g l =
    (fst (M_Pipeline.feed (kexec (g_create g)) (g_map g) l),
     do m <- snd (M_Pipeline.feed (kexec (g_create g)) (g_map g) l); Ok (mkGrain (g_had g) m (g_create g))).
  Proof using Type.
    induction l as [|x l IH]; intros g; [destruct g; reflexivity|]. cbn [M_Pipeline.feed]. unfold grain_exec at 1.
    destruct (kexec (g_create g) (g_map g) x) as [o [m| |]]; cbn [bind]; try reflexivity.
    rewrite IH. cbn [g_create g_map g_had]. destruct (M_Pipeline.feed (kexec (g_create g)) m l) as [o' r]. reflexivity.
  Qed.
  Lemma alone_some : forall (c : option (res S)) k l (s : S), alone (grain_step (K := K) exec c k) (Some s) l =
    (fst (M_Pipeline.feed exec s l), do s' <- snd (M_Pipeline.feed exec s l); Ok (Some s')).
  Proof using Type.
    intros c k. induction l as [|a l IH]; intros s; [reflexivity|]. rewrite (alone_cons (grain_step exec c)). cbn [grain_step M_Pipeline.feed].
    destruct (exec s a) as [o [s'| |]]; try reflexivity. rewrite IH. destruct (M_Pipeline.feed exec s' l) as [o' r]. reflexivity.
  Qed.
  Lemma alone_created : forall (s : S) k l, l <> [] -> alone (grain_step (K := K) exec (Some (Ok s)) k) None l = alone (grain_step (K := K) exec (Some (Ok s)) k) (Some s) l.
  Proof using Type. intros s k [|a l] H; [congruence|]. rewrite !(alone_cons (grain_step exec (Some (Ok s)))). reflexivity. Qed.

  Lemma find_In : forall (m : list (K * S)) k s, map_ordered klt m -> (find m k = Some s <-> In (k, s) m).
  Proof using Hord.
    destruct Hord as [He [Hi _]]. intros m k s Hm. unfold k_find. split; intros H.
    - apply (m_find_in _ He) in H. exact H.
    - apply (m_find_nodup _ He); [|exact H]. clear H. induction Hm as [|[a v] m Hm IH Ha]; [constructor|]. cbn [map]. constructor; [|exact IH].
      intros Hin. apply in_map_iff in Hin. destruct Hin as [[a' v'] [E Hin]]. cbn [fst] in E. subst a'. rewrite Forall_forall in Ha. specialize (Ha _ Hin). cbn [fst] in Ha. rewrite Hi in Ha. discriminate.
  Qed.
  Lemma find_none : forall (m : list (K * S)) k, find m k = None <-> ~ has_key k m.
  Proof using Hord.
    destruct Hord as [He _]. intros m k. unfold k_find. rewrite (m_find_none _ He). split; intros H Hin.
    - destruct Hin as [v Hin]. apply H. apply in_map_iff. exists (k, v). split; [reflexivity|exact Hin].
    - apply in_map_iff in Hin. destruct Hin as [[a v] [E Hin]]. cbn [fst] in E. subst a. apply H. now exists v.
  Qed.
  Lemma keyed_flush_inv : forall (m : list (K * S)) out m', keyed_flush flush m = (out, Ok m') -> forall k s, In (k, s) m -> exists s', snd (flush s) = Ok s'.
  Proof using Type.
    induction m as [|[a v] m IH]; intros out m' E k s Hin; [destruct Hin|]. cbn [keyed_flush] in E.
    destruct (flush v) as [o [s'| |]] eqn:Ef; try discriminate. destruct (keyed_flush flush m) as [o' r'] eqn:E'. destruct r' as [m2| |]; cbn [bind] in E; try discriminate.
    destruct Hin as [[= <- <-]|Hin]; [rewrite Ef; now exists s'|]. eapply IH; [reflexivity|exact Hin].
  Qed.

  Notation single s := (mkTr S s exec flush).
  Lemma delivered_single : forall (s : S) l o s1 o' s2, M_Pipeline.feed exec s l = (o, Ok s1) -> flush s1 = (o', Ok s2) ->
    delivered (single s) l = (o ++ o', Ok tt).
  Proof using Type. intros s l o s1 o' s2 H1 H2. unfold delivered, run_all, run_exec. cbn [t_exec t_cur t_flush t_state]. rewrite H1, H2. reflexivity. Qed.
  Lemma delivered_single_inv : forall (s : S) l o, delivered (single s) l = (o, Ok tt) ->
    exists o1 s1 o2 s2, M_Pipeline.feed exec s l = (o1, Ok s1) /\ flush s1 = (o2, Ok s2) /\ o = o1 ++ o2.
  Proof using Type.
    intros s l o H. unfold delivered, run_all, run_exec in H. cbn [t_exec t_cur t_flush t_state] in H. destruct (M_Pipeline.feed exec s l) as [o1 [s1| |]]; try discriminate.
    destruct (flush s1) as [o2 [s2| |]] eqn:E; try discriminate. cbn [rmap bind] in H. injection H as <-. now exists o1, s1, o2, s2.
  Qed.

  (** Success: every grain is served by a transformer of its own. *)
  Lemma grain_outputs : forall (g : grain) rows o, map_ordered klt (g_map g) -> delivered (grain_tr keqb klt exec flush g) rows = (o, Ok tt) ->
    forall k,
      (forall s, In (k, s) (g_map g) -> delivered (single s) (of_key keqb k rows) = (of_key keqb k o, Ok tt)) /\
      (~ has_key k (g_map g) -> of_key keqb k rows <> [] ->
         exists s, g_create g = Some (Ok s) /\ delivered (single s) (of_key keqb k rows) = (of_key keqb k o, Ok tt)) /\
      (~ has_key k (g_map g) -> of_key keqb k rows = [] -> of_key keqb k o = []).
  Proof using Hord.
    intros g rows o Hm H k. unfold delivered, run_all, run_exec in H. cbn [t_exec t_cur t_flush t_state grain_tr] in H. rewrite grain_feed in H.
    pose proof (keyed_spec keqb klt Hord (grain_step exec (g_create g)) rows (g_map g)) as X.
    destruct (M_Pipeline.feed (kexec (g_create g)) (g_map g) rows) as [o1 [m1| |]] eqn:E1; try discriminate. cbn [fst snd bind] in H.
    destruct X as [p [q [Ep [H1 [H2 _]]]]]. destruct (H2 m1 eq_refl) as [-> H3]. rewrite app_nil_r in Ep. subst p. clear H2.
    unfold grain_flush in H. cbn [g_map g_had g_create] in H. destruct (keyed_flush flush m1) as [o2 [m2| |]] eqn:E2; try discriminate. cbn [bind rmap] in H. injection H as <-.
    pose proof (feed_ascending keqb klt Hord (grain_step exec (g_create g)) rows (g_map g) o1 m1 Hm E1) as Hm1.
    destruct (keyed_flush_ok keqb klt Hord flush m1 Hm1 (keyed_flush_inv m1 o2 m2 E2)) as [o2' [m2' [E2' [_ Hf]]]]. rewrite E2 in E2'. injection E2' as <- <-.
    specialize (H1 k). specialize (H3 k). specialize (Hf k). rewrite of_key_app.
    assert (Core : forall s, alone (grain_step exec (g_create g) k) (find (g_map g) k) (of_key keqb k rows) = alone (grain_step exec (g_create g) k) (Some s) (of_key keqb k rows) ->
      delivered (single s) (of_key keqb k rows) = (of_key keqb k o1 ++ of_key keqb k o2, Ok tt)).
    { intros s Es. rewrite Es, alone_some in H1, H3. cbn [fst snd] in H1, H3. destruct (M_Pipeline.feed exec s (of_key keqb k rows)) as [oo [s1| |]] eqn:Ef; try discriminate.
      cbn [snd bind fst] in *. injection H3 as H3. rewrite <- H3 in Hf. destruct Hf as [Hf1 [s' [Hf2 _]]]. rewrite H1, Hf1.
      eapply delivered_single; [exact Ef|]. rewrite <- Hf2. apply surjective_pairing. }
    split; [|split].
    - intros s Hs. apply Core. apply (find_In (g_map g) k s Hm) in Hs. now rewrite Hs.
    - intros Hn Hr. apply find_none in Hn. rewrite Hn in *. destruct (g_create g) as [[s|e|]|] eqn:Ec.
      + exists s. split; [reflexivity|]. apply Core. now apply alone_created.
      + exfalso. destruct (of_key keqb k rows) as [|a l]; [congruence|]. rewrite (alone_cons (grain_step exec (Some (Throw e)))) in H3. discriminate.
      + exfalso. destruct (of_key keqb k rows) as [|a l]; [congruence|]. rewrite (alone_cons (grain_step exec (Some UB))) in H3. discriminate.
      + exfalso. destruct (of_key keqb k rows) as [|a l]; [congruence|]. rewrite (alone_cons (grain_step exec None)) in H3. discriminate.
    - intros Hn Hr. apply find_none in Hn. rewrite Hn, Hr in *. cbn in H1, H3. injection H3 as H3. rewrite <- H3 in Hf. destruct Hf as [Hf _]. now rewrite H1, Hf.
  Qed.
  (** It succeeds when each grain has a transformer that would. *)
  Lemma grain_succeeds : forall (g : grain) rows, map_ordered klt (g_map g) ->
    (forall k s, In (k, s) (g_map g) -> exists ok, delivered (single s) (of_key keqb k rows) = (ok, Ok tt)) ->
    (forall k, ~ has_key k (g_map g) -> of_key keqb k rows <> [] -> exists s ok, g_create g = Some (Ok s) /\ delivered (single s) (of_key keqb k rows) = (ok, Ok tt)) ->
    exists o, delivered (grain_tr keqb klt exec flush g) rows = (o, Ok tt).
  Proof using Hord.
    intros g rows Hm Ha Hb.
    assert (Cases : forall k, (exists s, alone (grain_step exec (g_create g) k) (find (g_map g) k) (of_key keqb k rows) = alone (grain_step exec (g_create g) k) (Some s) (of_key keqb k rows) /\
                exists ok, delivered (single s) (of_key keqb k rows) = (ok, Ok tt)) \/ (find (g_map g) k = None /\ of_key keqb k rows = [])).
    { intros k. destruct (find (g_map g) k) as [s|] eqn:Ef.
      - left. exists s. split; [reflexivity|]. apply (Ha k s). now apply find_In.
      - apply find_none in Ef. destruct (of_key keqb k rows) as [|a l] eqn:Er; [right; split; reflexivity|]. left.
        destruct (Hb k Ef) as [s [ok [Ec Hd]]]; [congruence|]. rewrite Er in Hd. exists s. rewrite Ec. split; [apply alone_created; discriminate|]. now exists ok. }
    destruct (keyed_ok keqb klt Hord (grain_step exec (g_create g)) rows (g_map g)) as [o1 [m1 [E1 H1]]].
    { intros k. destruct (Cases k) as [[s [-> [ok Hd]]]|[-> ->]].
      - apply delivered_single_inv in Hd. destruct Hd as [o1 [s1 [o2 [s2 [E [_ _]]]]]]. rewrite alone_some, E. cbn [snd bind]. now exists (Some s1).
      - now exists None. }
    pose proof (feed_ascending keqb klt Hord (grain_step exec (g_create g)) rows (g_map g) o1 m1 Hm E1) as Hm1.
    destruct (keyed_flush_ok keqb klt Hord flush m1 Hm1) as [o2 [m2 [E2 _]]].
    { intros k s Hs. apply (find_In m1 k s Hm1) in Hs. destruct (H1 k) as [_ H2]. rewrite Hs in H2. destruct (Cases k) as [[s0 [Es [ok Hd]]]|[En Er]].
      - rewrite Es, alone_some in H2. apply delivered_single_inv in Hd. destruct Hd as [oo [s1 [o2 [s2 [E [Ef _]]]]]]. rewrite E in H2. cbn [snd bind] in H2. injection H2 as ->. rewrite Ef. now exists s2.
      - rewrite En, Er in H2. discriminate. }
    exists (o1 ++ o2). unfold delivered, run_all, run_exec. cbn [t_exec t_cur t_flush t_state grain_tr]. rewrite grain_feed, E1. cbn [fst snd bind].
    unfold grain_flush. cbn [g_map g_had g_create]. rewrite E2. reflexivity.
  Qed.
  Lemma grain_unknown : forall (g : grain) k a, ~ has_key k (g_map g) -> g_create g = None ->
    grain_exec keqb klt exec g (k, a) = ([], Throw RuntimeError).
  Proof using Hord. intros g k a Hn Hc. apply find_none in Hn. unfold grain_exec, keyed_exec. cbn [fst snd]. rewrite Hn, Hc. reflexivity. Qed.
  (** A failing run fails as one grain's rows alone do. *)
  Lemma grain_failure : forall (g : grain) rows o r, M_Pipeline.feed gexec g rows = (o, r) -> is_ok r = false ->
    exists p k a q, rows = p ++ (k, a) :: q /\ same_failure r (snd (M_Pipeline.feed gexec g (only keqb k (p ++ [(k, a)])))) /\
      forall k', of_key keqb k' o = of_key keqb k' (fst (M_Pipeline.feed gexec g (only keqb k' (p ++ [(k, a)])))).
  Proof using Hord.
    intros g rows o r H Hr. rewrite grain_feed in H. destruct (M_Pipeline.feed (kexec (g_create g)) (g_map g) rows) as [o1 r1] eqn:E1. cbn [fst snd] in H. injection H as <- <-.
    assert (Hr1 : is_ok r1 = false) by (destruct r1; [discriminate|reflexivity|reflexivity]).
    destruct (keyed_independent keqb klt Hord (grain_step exec (g_create g)) rows (g_map g) o1 r1 E1) as [p [q [-> [_ [H1 [_ H3]]]]]].
    destruct (H3 Hr1) as [p' [k [a [-> Hf]]]]. exists p', k, a, q. split; [now rewrite <- app_assoc|]. split.
    - rewrite grain_feed. cbn [snd]. destruct (snd (M_Pipeline.feed (kexec (g_create g)) (g_map g) (only keqb k (p' ++ [(k, a)])))); destruct r1; exact Hf.
    - intros k'. rewrite grain_feed. cbn [fst]. apply H1.
  Qed.
End Inference.
