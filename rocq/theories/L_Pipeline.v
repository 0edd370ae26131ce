From Verif Require Import Base L_List M_Archive M_Estimator M_Pipeline S_Pipeline.

(** ** Inference *)
Lemma feed_app {X A B} (step : X -> A -> list B * res X) a b x :
  feed step x (a ++ b) = match feed step x a with
                         | (o, Ok x') => let (o', r) := feed step x' b in (o ++ o', r)
                         | (o, r) => (o, r)
                         end.
Proof.
  revert x. induction a as [|y a IH]; intros x; cbn [feed app].
  - now destruct (feed step x b).
  - destruct (step x y) as [o [x'|e|]]; try reflexivity. rewrite IH.
    destruct (feed step x' a) as [o1 [x1|e1|]]; try reflexivity.
    destruct (feed step x1 b) as [o2 r2]. now rewrite app_assoc.
Qed.

Section Compose.
  Context {S X A B C : Type}.
  Variable up : S -> A -> list B * res S.
  Variable down : X -> B -> list C * res X.
  Definition both (p : S * X) (a : A) : list C * res (S * X) := through down (snd p) (up (fst p) a).

  (** Success of the composed run, and only that, is success of upstream then downstream. *)
  Lemma feed_both l : forall s x o s' x',
    feed both (s, x) l = (o, Ok (s', x')) <->
    exists m, feed up s l = (m, Ok s') /\ feed down x m = (o, Ok x').
  Proof.
    induction l as [|a r IH]; intros s x o s' x'; cbn [feed].
    - split.
      + intros H. inversion H; subst. exists []. split; reflexivity.
      + intros (m & H1 & H2). inversion H1; subst. cbn in H2. inversion H2; subst. reflexivity.
    - unfold both at 1. cbn [fst snd]. unfold through. destruct (up s a) as [bs rs] eqn:Eu. cbn [fst snd].
      destruct (feed down x bs) as [o1 [x1|e|]] eqn:Ed; cbn [bind].
      + destruct rs as [s1|e|]; cbn [bind].
        * destruct (feed both (s1, x1) r) as [o2 r2] eqn:Ef. split.
          -- intros H. inversion H; subst. destruct (proj1 (IH s1 x1 o2 s' x') Ef) as (m & H1 & H2).
             exists (bs ++ m). rewrite H1. split; [reflexivity|]. rewrite feed_app, Ed, H2. reflexivity.
          -- intros (m & H1 & H2). destruct (feed up s1 r) as [m2 rs2] eqn:Eu2. inversion H1; subst.
             rewrite feed_app, Ed in H2. destruct (feed down x1 m2) as [o3 r3] eqn:Ed2. inversion H2; subst.
             assert (E : feed both (s1, x1) r = (o3, Ok (s', x'))) by (apply IH; now exists m2).
             rewrite E in Ef. inversion Ef; subst. reflexivity.
        * split; [discriminate|]. intros (m & H1 & _). discriminate.
        * split; [discriminate|]. intros (m & H1 & _). discriminate.
      + split; [discriminate|]. intros (m & H1 & H2). destruct rs as [s1|e1|]; try discriminate.
        destruct (feed up s1 r) as [m2 rs2]. inversion H1; subst. rewrite feed_app, Ed in H2. discriminate.
      + split; [discriminate|]. intros (m & H1 & H2). destruct rs as [s1|e1|]; try discriminate.
        destruct (feed up s1 r) as [m2 rs2]. inversion H1; subst. rewrite feed_app, Ed in H2. discriminate.
  Qed.
End Compose.

Lemma streamed_ok {A B} (c : chain A B) : forall l o,
  (exists s, run_exec (compile c) (t_cur (compile c)) l = (o, Ok s)) <-> streamed c l = Some o.
Proof.
  assert (G : forall A B (t : transformer A B) l o, (exists s, run_exec t (t_cur t) l = (o, Ok s)) <-> stage_streamed t l = Some o).
  { intros A0 B0 t l o. unfold stage_streamed. destruct (run_exec t (t_cur t) l) as [o1 [s1|e|]]; split.
    - intros (s & H). inversion H; subst. reflexivity.
    - intros [= <-]. now exists s1.
    - intros (s & H). discriminate.
    - discriminate.
    - intros (s & H). discriminate.
    - discriminate. }
  induction c as [A|A B t|A B c IH|A B C t c IH]; intros l o; cbn [compile streamed].
  - unfold run_exec. cbn. split.
    + intros (s & H). assert (E : forall l, feed (fun (s : unit) (a : A) => ([a], Ok s)) tt l = (l, Ok tt)).
      { clear. induction l as [|a r IH]; [reflexivity|]. cbn. now rewrite IH. }
      rewrite E in H. inversion H; subst. reflexivity.
    + intros [= <-]. exists tt. induction l as [|a r IH]; [reflexivity|]. cbn. now rewrite IH.
  - apply G.
  - apply IH.
  - unfold run_exec. cbn [t_exec t_cur].
    change (feed _ (t_cur t, t_cur (compile c)) l) with (feed (both (t_exec t) (t_exec (compile c))) (t_cur t, t_cur (compile c)) l).
    split.
    + intros ([s' x'] & H). apply feed_both in H. destruct H as (m & H1 & H2).
      unfold stage_streamed, run_exec. rewrite H1. apply IH. now exists x'.
    + unfold stage_streamed, run_exec. destruct (feed (t_exec t) (t_cur t) l) as [m [s'|e|]] eqn:E; try discriminate.
      intros H. apply IH in H. destruct H as (x' & H). exists (s', x'). apply feed_both. now exists m.
Qed.

Lemma delivered_ok {A B} (c : chain A B) : forall l o, delivered (compile c) l = (o, Ok tt) <-> staged c l = Some o.
Proof.
  assert (G : forall A B (t : transformer A B) l o, delivered t l = (o, Ok tt) <-> stage_outputs t l = Some o).
  { intros A0 B0 t l o. unfold stage_outputs. destruct (delivered t l) as [o1 [[]|e|]]; split; try discriminate; congruence. }
  induction c as [A|A B t|A B c IH|A B C t c IH]; intros l o; cbn [compile staged].
  - assert (E : forall l, feed (fun (s : unit) (a : A) => ([a], Ok s)) tt l = (l, Ok tt)).
    { clear. induction l as [|a r IH]; [reflexivity|]. cbn. now rewrite IH. }
    unfold delivered, run_all, run_exec. cbn. rewrite E. cbn. rewrite app_nil_r. split; congruence.
  - apply G.
  - apply IH.
  - unfold stage_outputs, delivered at 1 2, run_all, run_exec. cbn [t_exec t_cur t_flush].
    change (feed _ (t_cur t, t_cur (compile c)) l) with (feed (both (t_exec t) (t_exec (compile c))) (t_cur t, t_cur (compile c)) l).
    destruct (feed (t_exec t) (t_cur t) l) as [m1 r1] eqn:E1.
    destruct r1 as [s1|e|].
    + destruct (t_flush t s1) as [m2 r2] eqn:E2. destruct r2 as [s2|e|]; cbn [rmap bind].
      * destruct (feed (t_exec (compile c)) (t_cur (compile c)) m1) as [o1 [x1|e|]] eqn:E3.
        -- assert (F : feed (both (t_exec t) (t_exec (compile c))) (t_cur t, t_cur (compile c)) l = (o1, Ok (s1, x1))) by (apply feed_both; now exists m1).
           rewrite F. cbn [fst snd]. unfold through. rewrite E2. cbn [fst snd].
           destruct (feed (t_exec (compile c)) x1 m2) as [o2 [x2|e|]] eqn:E4; cbn [bind].
           ++ rewrite <- IH. unfold delivered, run_all, run_exec. rewrite feed_app, E3, E4.
              destruct (t_flush (compile c) x2) as [o3 [x3|e|]]; cbn [bind rmap]; rewrite ?app_assoc; split; congruence.
           ++ rewrite <- IH. unfold delivered, run_all, run_exec. rewrite feed_app, E3, E4. cbn. split; congruence.
           ++ rewrite <- IH. unfold delivered, run_all, run_exec. rewrite feed_app, E3, E4. cbn. split; congruence.
        -- rewrite <- IH. unfold delivered, run_all, run_exec. rewrite feed_app, E3. cbn [rmap bind].
           destruct (feed (both (t_exec t) (t_exec (compile c))) (t_cur t, t_cur (compile c)) l) as [o2 [[s3 x3]|e3|]] eqn:F.
           ++ apply feed_both in F. destruct F as (m & F1 & F2). rewrite E1 in F1. inversion F1; subst. congruence.
           ++ cbn. split; congruence.
           ++ cbn. split; congruence.
        -- rewrite <- IH. unfold delivered, run_all, run_exec. rewrite feed_app, E3. cbn [rmap bind].
           destruct (feed (both (t_exec t) (t_exec (compile c))) (t_cur t, t_cur (compile c)) l) as [o2 [[s3 x3]|e3|]] eqn:F.
           ++ apply feed_both in F. destruct F as (m & F1 & F2). rewrite E1 in F1. inversion F1; subst. congruence.
           ++ cbn. split; congruence.
           ++ cbn. split; congruence.
      * destruct (feed (both (t_exec t) (t_exec (compile c))) (t_cur t, t_cur (compile c)) l) as [o2 [[s3 x3]|e3|]] eqn:F; cbn; try (split; congruence).
        apply feed_both in F. destruct F as (m & F1 & F2). rewrite E1 in F1. inversion F1; subst. cbn [fst snd]. unfold through. rewrite E2. cbn [fst snd].
        destruct (feed (t_exec (compile c)) x3 m2) as [o4 [x4|e4|]]; cbn; split; congruence.
      * destruct (feed (both (t_exec t) (t_exec (compile c))) (t_cur t, t_cur (compile c)) l) as [o2 [[s3 x3]|e3|]] eqn:F; cbn; try (split; congruence).
        apply feed_both in F. destruct F as (m & F1 & F2). rewrite E1 in F1. inversion F1; subst. cbn [fst snd]. unfold through. rewrite E2. cbn [fst snd].
        destruct (feed (t_exec (compile c)) x3 m2) as [o4 [x4|e4|]]; cbn; split; congruence.
    + cbn. destruct (feed (both (t_exec t) (t_exec (compile c))) (t_cur t, t_cur (compile c)) l) as [o2 [[s3 x3]|e3|]] eqn:F; cbn; try (split; congruence).
      apply feed_both in F. destruct F as (m & F1 & F2). congruence.
    + cbn. destruct (feed (both (t_exec t) (t_exec (compile c))) (t_cur t, t_cur (compile c)) l) as [o2 [[s3 x3]|e3|]] eqn:F; cbn; try (split; congruence).
      apply feed_both in F. destruct F as (m & F1 & F2). congruence.
Qed.

Lemma execute_one_spec {A B} (t : transformer A B) s a b s' :
  execute_one t s a = Ok (b, s') <-> t_exec t s a = ([b], Ok s').
Proof.
  unfold execute_one. destruct (t_exec t s a) as [o r]. destruct r as [s1|e|]; cbn; [|split; congruence|split; congruence].
  destruct o as [|x [|y o]]; split; try congruence.
Qed.

(** ** Save and load *)
Lemma p_roundtrip cs : Forall round_trips cs -> forall p rest, p_load cs (p_save cs p ++ rest) = Ok (p, rest).
Proof.
  induction 1 as [|c r H HF IH]; intros p rest; cbn [p_save p_load params] in *.
  - now destruct p.
  - destruct p as [x p]. cbn [fst snd]. rewrite <- app_assoc, IH. cbn [bind snd fst]. rewrite H. reflexivity.
Qed.
Lemma p_save_order cs p : p_save cs p = concat (rev (stage_bytes cs p)).
Proof.
  induction cs as [|c r IH]; [reflexivity|]. destruct p as [x p]. cbn [p_save stage_bytes rev fst snd].
  rewrite concat_app, IH. cbn. now rewrite app_nil_r.
Qed.
