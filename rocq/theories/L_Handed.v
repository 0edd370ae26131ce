From Verif Require Import Base L_List M_Archive M_Estimator M_Pipeline S_Pipeline L_Pipeline S_Handed.

Lemma handed_feed {A B} (t : transformer A B) l : forall s,
  handed t s l = (fst (feed (t_exec t) s l), match snd (feed (t_exec t) s l) with Ok s' => Some s' | _ => None end).
Proof.
  induction l as [|a r IH]; intros s; cbn [handed feed]; [reflexivity|].
  destruct (t_exec t s a) as [o [s'|e|]]; [|reflexivity|reflexivity]. rewrite IH. destruct (feed (t_exec t) s' r) as [o' rx']. reflexivity.
Qed.

Section Both.
  Context {S X A B C : Type}.
  Variable up : S -> A -> list B * res S.
  Variable down : X -> B -> list C * res X.
  (** The values handed out are those of the downstream part on what the upstream part hands out. *)
  Lemma feed_both_out l : forall s x, fst (feed (both up down) (s, x) l) = fst (feed down x (fst (feed up s l))).
  Proof.
    induction l as [|a r IH]; intros s x; cbn [feed]; [reflexivity|].
    unfold both at 1. cbn [fst snd]. unfold through. destruct (up s a) as [bs rs]. cbn [fst snd].
    assert (E : fst (match rs with Ok s1 => let (o', rx') := feed up s1 r in (bs ++ o', rx') | Throw e => (bs, Throw e) | UB => (bs, UB) end)
                = bs ++ match rs with Ok s1 => fst (feed up s1 r) | _ => [] end).
    { destruct rs as [s1|e|]; [|now rewrite app_nil_r|now rewrite app_nil_r]. now destruct (feed up s1 r). }
    assert (E' : fst (match rs with Ok x' => let (o', rx') := feed up x' r in (bs ++ o', rx') | _ => (bs, rs) end) = bs ++ match rs with Ok s1 => fst (feed up s1 r) | _ => [] end).
    { rewrite <- E. destruct rs; reflexivity. }
    rewrite E', feed_app. destruct (feed down x bs) as [o1 [x1|e|]] eqn:Ed; cbn [bind].
    - destruct rs as [s1|e|]; cbn [bind].
      + specialize (IH s1 x1). destruct (feed (both up down) (s1, x1) r) as [o2 r2]. destruct (feed down x1 (fst (feed up s1 r))) as [o3 r3]. cbn [fst] in *. now rewrite IH.
      + cbn. now rewrite app_nil_r.
      + cbn. now rewrite app_nil_r.
    - reflexivity.
    - reflexivity.
  Qed.
End Both.

Lemma other_out {A} (l : list A) : forall s : unit, feed (fun (s : unit) (a : A) => ([a], Ok s)) s l = (l, Ok s).
Proof. induction l as [|a r IH]; intros s; [reflexivity|]. cbn. now rewrite IH. Qed.

Lemma handed_on_ok {A B} (c : chain A B) : forall l, fst (run_exec (compile c) (t_cur (compile c)) l) = handed_on c l.
Proof.
  induction c as [A|A B t|A B c IH|A B C t c IH]; intros l; cbn [compile handed_on].
  - unfold run_exec. cbn [t_exec t_cur]. now rewrite other_out.
  - now rewrite handed_feed.
  - apply IH.
  - unfold run_exec. cbn [t_exec t_cur].
    rewrite handed_feed, <- IH. exact (feed_both_out (t_exec t) (t_exec (compile c)) l (t_cur t) (t_cur (compile c))).
Qed.

Lemma handed_out_ok {A B} (c : chain A B) : forall l, fst (delivered (compile c) l) = handed_out c l.
Proof.
  induction c as [A|A B t|A B c IH|A B C t c IH]; intros l; cbn [compile handed_out].
  - unfold delivered, run_all, run_exec. cbn [t_exec t_cur t_flush]. rewrite other_out. cbn. now rewrite app_nil_r.
  - rewrite handed_feed. unfold delivered, run_all, run_exec. destruct (feed (t_exec t) (t_cur t) l) as [o [s|e|]]; cbn [fst snd]; try reflexivity. now destruct (t_flush t s).
  - apply IH.
  - rewrite handed_feed.
    pose proof (fun m : list B => handed_on_ok c m) as On. unfold run_exec in On.
    change (t_state (compile (InnerTr t c))) with (t_state t * t_state (compile c))%type in *.
    assert (F0 : fst (feed (both (t_exec t) (t_exec (compile c))) (t_cur t, t_cur (compile c)) l) = fst (feed (t_exec (compile c)) (t_cur (compile c)) (fst (feed (t_exec t) (t_cur t) l)))) by apply feed_both_out.
    pose proof (fun o s' x' => proj1 (feed_both (t_exec t) (t_exec (compile c)) l (t_cur t) (t_cur (compile c)) o s' x')) as F1.
    pose proof (fun o s' x' => proj2 (feed_both (t_exec t) (t_exec (compile c)) l (t_cur t) (t_cur (compile c)) o s' x')) as F2.
    unfold delivered, run_all, run_exec. cbn [t_exec t_cur t_flush].
    change (feed (fun (s : t_state t * t_state (compile c)) (a : A) => through (t_exec (compile c)) (snd s) (t_exec t (fst s) a)) (t_cur t, t_cur (compile c)) l)
      with (feed (both (t_exec t) (t_exec (compile c))) (t_cur t, t_cur (compile c)) l).
    destruct (feed (both (t_exec t) (t_exec (compile c))) (t_cur t, t_cur (compile c)) l) as [o2 r2] eqn:EB. cbn [fst] in F0.
    destruct (feed (t_exec t) (t_cur t) l) as [m1 r1] eqn:E1. cbn [fst snd] in *.
    destruct r1 as [s1|e|].
    + destruct (feed (t_exec (compile c)) (t_cur (compile c)) m1) as [o1 [x1|e|]] eqn:E3; cbn [fst] in F0.
      * specialize (F2 o1 s1 x1 (ex_intro _ m1 (conj eq_refl E3))). inversion F2; subst o2 r2. cbn [fst snd]. unfold through.
        destruct (t_flush t s1) as [m2 r2] eqn:E2. cbn [fst snd].
        assert (Hm : feed (t_exec (compile c)) (t_cur (compile c)) (m1 ++ m2) = (o1 ++ fst (feed (t_exec (compile c)) x1 m2), snd (feed (t_exec (compile c)) x1 m2))).
        { rewrite feed_app, E3. now destruct (feed (t_exec (compile c)) x1 m2). }
        destruct r2 as [s2|e2|].
        -- rewrite <- IH. unfold delivered, run_all, run_exec. rewrite Hm. destruct (feed (t_exec (compile c)) x1 m2) as [o4 [x4|e4|]]; cbn [bind fst snd]; [|reflexivity|reflexivity].
           destruct (t_flush (compile c) x4) as [o5 r5]. cbn [fst]. now rewrite app_assoc.
        -- rewrite <- On, Hm. destruct (feed (t_exec (compile c)) x1 m2) as [o4 [x4|e4|]]; reflexivity.
        -- rewrite <- On, Hm. destruct (feed (t_exec (compile c)) x1 m2) as [o4 [x4|e4|]]; reflexivity.
      * transitivity o2.
        { destruct r2 as [[s x]|e0|]; [exfalso|reflexivity|reflexivity]. destruct (F1 o2 s x eq_refl) as (m & G1 & G2). inversion G1; subst. rewrite E3 in G2. discriminate. }
        subst o2. destruct (t_flush t s1) as [m2 [s2|e2|]].
        -- rewrite <- IH. unfold delivered, run_all, run_exec. rewrite feed_app, E3. reflexivity.
        -- rewrite <- On, feed_app, E3. reflexivity.
        -- rewrite <- On, feed_app, E3. reflexivity.
      * transitivity o2.
        { destruct r2 as [[s x]|e0|]; [exfalso|reflexivity|reflexivity]. destruct (F1 o2 s x eq_refl) as (m & G1 & G2). inversion G1; subst. rewrite E3 in G2. discriminate. }
        subst o2. destruct (t_flush t s1) as [m2 [s2|e2|]].
        -- rewrite <- IH. unfold delivered, run_all, run_exec. rewrite feed_app, E3. reflexivity.
        -- rewrite <- On, feed_app, E3. reflexivity.
        -- rewrite <- On, feed_app, E3. reflexivity.
    + transitivity o2; [|now rewrite F0, On]. destruct r2 as [[s x]|e0|]; [exfalso|reflexivity|reflexivity]. destruct (F1 o2 s x eq_refl) as (m & G1 & G2). discriminate.
    + transitivity o2; [|now rewrite F0, On]. destruct r2 as [[s x]|e0|]; [exfalso|reflexivity|reflexivity]. destruct (F1 o2 s x eq_refl) as (m & G1 & G2). discriminate.
Qed.
