From Verif Require Import Base L_List M_Archive M_Estimator M_Pipeline M_Keyed M_Impute M_Window M_Errors S_Errors.

(** ** Generic facts. *)
Section Generic.
  Context {S B : Type}.
  Implicit Types (p : call S B) (s : S).

  Lemma perform_keep p : forall s (l : list B),
    perform keep l s p = (l ++ fst (fst (perform keep [] s p)), snd (fst (perform keep [] s p)), snd (perform keep [] s p)).
  Proof.
    induction p as [|e| |b k IH|s1 k IH]; intros s l; cbn [perform].
    - cbn; now rewrite app_nil_r.
    - cbn; now rewrite app_nil_r.
    - cbn; now rewrite app_nil_r.
    - unfold keep at 1 3 5 7. rewrite (IH s (l ++ [b])), (IH s ([] ++ [b])). cbn [fst snd app]. now rewrite <- app_assoc.
    - apply IH.
  Qed.

  Lemma perform_ok {C} (put : C -> B -> C * res unit) p : forall c s,
    let '(_, s', r) := perform put c s p in
    r = Ok tt -> snd (fst (perform keep [] s p)) = s' /\ snd (perform keep [] s p) = Ok tt.
  Proof.
    induction p as [|e| |b k IH|s1 k IH]; intros c s; cbn [perform]; try (intros; now split); try discriminate.
    - destruct (put c b) as [c' [u|e|]]; try discriminate.
      specialize (IH c' s). destruct (perform put c' s k) as [[c2 s2] r]. intro E. specialize (IH E).
      unfold keep at 1 3. rewrite (perform_keep k s ([] ++ [b])). exact IH.
    - apply IH.
  Qed.
End Generic.

Lemma session_keep {A B} (o : object A B) us : forall s (l : list B),
  session o keep l s us =
  (l ++ fst (fst (session o keep [] s us)), snd (fst (session o keep [] s us)), snd (session o keep [] s us)).
Proof.
  induction us as [|u r IH]; intros s l; cbn [session].
  - cbn. now rewrite app_nil_r.
  - rewrite (perform_keep _ s l). destruct (perform keep [] s (use_call o s u)) as [[c1 s1] q]. cbn [fst snd].
    rewrite (IH s1 (l ++ c1)), (IH s1 c1). cbn [fst snd]. now rewrite app_assoc.
Qed.

(** One call at a time is enough. *)
Lemma no_trace_of_calls {A B} (o : object A B) (allowed : use A -> Prop) :
  (forall C (put : C -> B -> C * res unit) c s u, allowed u ->
     let '(_, s', r) := perform put c s (use_call o s u) in succeeds r = false -> s' = s) ->
  leaves_no_trace o allowed.
Proof.
  intros H C put c s us F. revert c s. induction F as [|u us Hu F IH]; intros c s; cbn [session].
  - exists []. reflexivity.
  - specialize (H C put c s u Hu).
    pose proof (perform_ok put (use_call o s u) c s) as K.
    destruct (perform put c s (use_call o s u)) as [[c1 s1] q].
    specialize (IH c1 s1). destruct (session o put c1 s1 us) as [[c2 s2] qs].
    destruct IH as [out IH]. cbn [succeeded].
    destruct q as [[]|e|]; cbn [succeeds] in *.
    + destruct (K eq_refl) as [K1 K2]. cbn [session map].
      destruct (perform keep [] s (use_call o s u)) as [[l s'] q']. cbn [fst snd] in *. subst s' q'.
      rewrite session_keep, IH. cbn [fst snd]. eexists. reflexivity.
    + rewrite (H eq_refl) in IH. eauto.
    + rewrite (H eq_refl) in IH. eauto.
Qed.

(** ** Careful calls. *)
Lemma perform_assigns {S B C} (put : C -> B -> C * res unit) (p : call S B) : only_assigns p -> forall c s,
  exists s', perform put c s p = (c, s', Ok tt).
Proof.
  induction p as [|e| |b k IH|s1 k IH]; cbn [only_assigns]; intros H c s; try easy; cbn [perform].
  - eauto.
  - apply IH, H.
Qed.
Lemma careful_no_trace {S B C} (put : C -> B -> C * res unit) (p : call S B) c s : careful_call p ->
  let '(_, s', r) := perform put c s p in succeeds r = false -> s' = s.
Proof.
  intro H. destruct p as [|e| |b k|s1 k]; cbn [perform]; try easy.
  - destruct (put c b) as [c' [[]|e|]]; cbn [careful_call] in H; try easy.
    destruct (perform_assigns put k H c' s) as [s' ->]. easy.
  - cbn [careful_call] in H. destruct (perform_assigns put k H c s1) as [s' ->]. easy.
Qed.
Theorem careful_leaves_no_trace {A B} (o : object A B) : careful o -> leaves_no_trace o is_row.
Proof.
  intro H. apply no_trace_of_calls. intros C put c s [a|] Hu; [|easy]. apply careful_no_trace, H.
Qed.

Lemma embed_assigns {S B T D} (f : S -> T) (g : B -> call T D -> call T D) (p : call S B) k :
  only_assigns p -> (forall s, only_assigns (k s)) -> forall s, only_assigns (embed f g s p k).
Proof. intros H K. revert H. induction p as [|e| |b r IH|s1 r IH]; cbn [only_assigns embed]; intros H s; [apply K|easy|easy|easy|apply IH, H]. Qed.
Lemma splice_assigns {A B D} (o1 : object A B) (o2 : object B D) p k :
  only_assigns p -> (forall s1 s2, only_assigns (k s1 s2)) -> forall s1 s2, only_assigns (splice o1 o2 s1 s2 p k).
Proof. intros H K. revert H. induction p as [|e| |b r IH|s r IH]; cbn [only_assigns splice]; intros H s1 s2; [apply K|easy|easy|easy|apply IH, H]. Qed.

Theorem chain_careful {A B D} (o1 : object A B) (o2 : object B D) : careful o1 -> careful o2 -> careful (chain_o o1 o2).
Proof.
  intros H1 H2 [s1 s2] a. cbn [chain_o o_exec fst snd]. specialize (H1 s1 a).
  destruct (o_exec o1 s1 a) as [|e| |b r|s r]; cbn [splice]; try exact Logic.I.
  - specialize (H2 s2 b). cbn [careful_call] in H1.
    destruct (o_exec o2 s2 b) as [|e| |d q|s q]; cbn [embed]; try exact Logic.I.
    + assert (K : only_assigns (splice o1 o2 s1 s2 r (fun _ _ => Return))) by (apply splice_assigns; easy).
      destruct (splice o1 o2 s1 s2 r (fun _ _ => Return)); easy.
    + cbn [careful_call] in *. apply embed_assigns; [exact H2|]. intro s. apply splice_assigns; easy.
    + cbn [careful_call only_assigns] in *. apply embed_assigns; [exact H2|]. intro s'. apply splice_assigns; easy.
  - cbn [careful_call only_assigns] in *. apply splice_assigns; easy.
Qed.

(** ** A call inside another. *)
Lemma perform_embed {S B T D C} (put : C -> D -> C * res unit) (f : S -> T) (h : B -> D) (p : call S B) k : forall c s,
  perform put c (f s) (embed f (fun b q => Emit (h b) q) s p k) =
  let '(c', s', r) := perform (fun c b => put c (h b)) c s p in
  match r with Ok _ => perform put c' (f s') (k s') | _ => (c', f s', r) end.
Proof.
  induction p as [|e| |b q IH|s1 q IH]; intros c s; cbn [perform embed]; try reflexivity.
  - destruct (put c (h b)) as [c' [[]|e|]]; [apply IH|reflexivity|reflexivity].
  - apply IH.
Qed.

(** The consumer that the next stage is: it runs its call and keeps its new state. *)
Definition stage {B D C} (o2 : object B D) (put : C -> D -> C * res unit) (x : C * o_state o2) (b : B) : (C * o_state o2) * res unit :=
  perform put (fst x) (snd x) (o_exec o2 (snd x) b).
Lemma perform_splice {A B D C} (o1 : object A B) (o2 : object B D) (put : C -> D -> C * res unit) p k : forall c s1 s2,
  perform put c (s1, s2) (splice o1 o2 s1 s2 p k) =
  let '((c', s2'), s1', r) := perform (stage o2 put) (c, s2) s1 p in
  match r with Ok _ => perform put c' (s1', s2') (k s1' s2') | _ => (c', (s1', s2'), r) end.
Proof.
  induction p as [|e| |b q IH|s q IH]; intros c s1 s2; cbn [perform splice]; try reflexivity.
  - rewrite (perform_embed put (fun s => (s1, s)) (fun d => d) (o_exec o2 s2 b) (fun s2' => splice o1 o2 s1 s2' q k) c s2).
    change (fun (c0 : C) (b0 : D) => put c0 b0) with put.
    assert (E : stage o2 put (c, s2) b = perform put c s2 (o_exec o2 s2 b)) by reflexivity. rewrite E.
    destruct (perform put c s2 (o_exec o2 s2 b)) as [[c' s2'] [[]|e|]]; [apply IH|reflexivity|reflexivity].
  - apply IH.
Qed.

Lemma stage_careful {B D C} (o2 : object B D) (put : C -> D -> C * res unit) :
  leaves_no_trace o2 is_row -> forall c s b,
  let '((_, s'), r) := stage o2 put (c, s) b in succeeds r = false -> s' = s.
Proof.
  intros H c s b. unfold stage. cbn [fst snd].
  specialize (H C put c s [Row b] (Forall_cons (Row b) (Logic.I : is_row (Row b)) (Forall_nil _))). cbn [session use_call] in H.
  destruct (perform put c s (o_exec o2 s b)) as [[c' s'] r]. cbn [succeeded] in H. intro E. rewrite E in H.
  destruct H as [out H]. cbn [session map] in H. injection H as _ <-. reflexivity.
Qed.

Theorem chain_no_trace {A B D} (o1 : object A B) (o2 : object B D) :
  careful o1 -> leaves_no_trace o2 is_row -> leaves_no_trace (chain_o o1 o2) is_row.
Proof.
  intros H1 H2. apply no_trace_of_calls. intros C put c [s1 s2] [a|] Hu; [|easy]. cbn [use_call chain_o o_exec fst snd].
  change (o_state (chain_o o1 o2)) with (o_state o1 * o_state o2)%type in *.
  rewrite perform_splice. specialize (H1 s1 a). pose proof (stage_careful o2 put H2) as K.
  destruct (o_exec o1 s1 a) as [|e| |b r|s r]; cbn [perform].
  - easy. - easy. - easy.
  - specialize (K c s2 b). destruct (stage o2 put (c, s2) b) as [[c' s2'] [[]|e|]]; cbn [careful_call] in H1.
    + destruct (perform_assigns (stage o2 put) r H1 (c', s2') s1) as [s1' ->]. easy.
    + rewrite (K eq_refl). easy.
    + rewrite (K eq_refl). easy.
  - cbn [careful_call only_assigns] in H1. destruct (perform_assigns (stage o2 put) r H1 (c, s2) s) as [s1' ->]. easy.
Qed.

(** ** Stateless transformers and the forward fill. *)
Lemma unit_no_trace {A B} (f : A -> list B * res unit) : leaves_no_trace (stateless_o f) (fun _ => True).
Proof.
  apply no_trace_of_calls. intros C put c s u _. destruct (perform put c s (use_call (stateless_o f) s u)) as [[c' s'] r].
  intros _. cbn in s, s'. now destruct s, s'.
Qed.
Lemma stateless_careful {A B} (f : A -> list B * res unit) :
  (forall a, match f a with ([], _) => True | ([_], Ok _) => True | _ => False end) -> careful (stateless_o f).
Proof.
  intros H s a. cbn [stateless_o o_exec]. specialize (H a). destruct (f a) as [[|b [|b' l]] [[]|e|]]; cbn; easy.
Qed.
Lemma ffill_careful {T} (d : option T) : careful (ffill_o d).
Proof. intros s [v|]; cbn; [easy|destruct s; easy]. Qed.
Theorem ffill_no_trace {T} (d : option T) : leaves_no_trace (ffill_o d) (fun _ => True).
Proof.
  apply no_trace_of_calls. intros C put c s [a|] _.
  - apply careful_no_trace, ffill_careful.
  - cbn. easy.
Qed.

(** ** Backward fill. *)
Lemma perform_emits {S B C} (put : C -> B -> C * res unit) l (k : call S B) : forall c s,
  exists c', perform put c s (emits l k) = perform put c' s k \/
             (exists r, succeeds r = false /\ perform put c s (emits l k) = (c', s, r)).
Proof.
  induction l as [|b r IH]; intros c s; cbn [emits perform].
  - exists c. now left.
  - destruct (put c b) as [c' [[]|e|]].
    + apply IH.
    + exists c'. right. exists (Throw e). easy.
    + exists c'. right. exists UB. easy.
Qed.
Theorem bfill_no_trace {T} (d : option T) : leaves_no_trace (bfill_o d) is_row.
Proof.
  apply no_trace_of_calls. intros C put c s [x|] Hu; [|easy]. cbn [use_call bfill_o o_exec]. unfold bfill_call.
  change (o_state (bfill_o d)) with Z in *.
  destruct x as [v|]; [|cbn; easy].
  destruct (perform_emits put (repeat v (Z.to_nat (u32 (s + 1)))) (Assign 0 Return) c s) as [c' [->|(r & E & ->)]]; cbn; easy.
Qed.
Lemma bfill_drain_counts {T C} (put : C -> T -> C * res unit) (d : T) n : forall c l,
  let '(c', p, r) := perform (accepting put) (c, l) (Z.of_nat n) (bfill_drain d n) in
  exists done, (done <= n)%nat /\ snd c' = l ++ repeat d done /\ p = Z.of_nat (n - done) /\ (succeeds r = true -> done = n).
Proof.
  induction n as [|m IH]; intros c l; cbn [bfill_drain perform].
  - exists 0%nat. cbn. rewrite app_nil_r. easy.
  - unfold accepting at 1. cbn [fst snd]. destruct (put c d) as [c' [[]|e|]].
    + specialize (IH c' (l ++ [d])). destruct (perform (accepting put) (c', l ++ [d]) (Z.of_nat m) (bfill_drain d m)) as [[c2 p] r].
      destruct IH as (k & Hk & E1 & E2 & E3). exists (S k). split; [lia|]. split; [rewrite E1; cbn [repeat]; now rewrite <- app_assoc|].
      split; [rewrite E2; f_equal; lia|intro E; specialize (E3 E); lia].
    + exists 0%nat. cbn [snd repeat succeeds]. rewrite app_nil_r. split; [lia|]. split; [reflexivity|]. split; [f_equal; lia|easy].
    + exists 0%nat. cbn [snd repeat succeeds]. rewrite app_nil_r. split; [lia|]. split; [reflexivity|]. split; [f_equal; lia|easy].
Qed.

(** The backward fill's flush, tried any number of times. *)
Theorem bfill_flushes {T C} (put : C -> T -> C * res unit) (d : T) us : Forall (fun u => u = Flush) us -> forall c l pending, 0 <= pending ->
  let '(c', p, rs) := session (bfill_o (Some d)) (accepting put) (c, l) pending us in
  exists done, 0 <= done <= pending /\ snd c' = l ++ repeat d (Z.to_nat done) /\ p = pending - done /\
               (existsb succeeds rs = true -> done = pending).
Proof.
  induction 1 as [|u us -> F IH]; intros c l pending P; cbn [session use_call].
  - exists 0. cbn. rewrite app_nil_r. split; [lia|]. split; [reflexivity|]. split; [lia|easy].
  - cbn [bfill_o o_flush]. change (o_state (bfill_o (Some d))) with Z in *. destruct (pending =? 0) eqn:E.
    + apply Z.eqb_eq in E. subst pending. cbn [perform].
      specialize (IH c l 0 ltac:(lia)).
      destruct (session (bfill_o (Some d)) (accepting put) (c, l) 0 us) as [[c2 p2] rs].
      destruct IH as (k & Hk & E1 & E2 & E3). exists k. split; [lia|]. split; [exact E1|]. split; [exact E2|]. intros _. lia.
    + pose proof (bfill_drain_counts put d (Z.to_nat pending) c l) as H. rewrite Z2Nat.id in H by lia.
      change (o_state (mkObj Z 0 bfill_call (fun pending0 : Z => if pending0 =? 0 then Return else bfill_drain d (Z.to_nat pending0)))) with Z.
      destruct (perform (accepting put) (c, l) pending (bfill_drain d (Z.to_nat pending))) as [[[c1 l1] p1] r1].
      destruct H as (k & Hk & E1 & E2 & E3). cbn [snd] in E1. subst l1 p1.
      specialize (IH c1 (l ++ repeat d k) (Z.of_nat (Z.to_nat pending - k)) ltac:(lia)).
      destruct (session (bfill_o (Some d)) (accepting put) (c1, l ++ repeat d k) (Z.of_nat (Z.to_nat pending - k)) us) as [[c2 p2] rs].
      destruct IH as (j & Hj & F1 & F2 & F3). exists (Z.of_nat k + j). split; [lia|]. split.
      { rewrite F1, <- app_assoc, <- repeat_app. do 2 f_equal. lia. }
      split; [lia|]. cbn [existsb]. intro X. apply orb_true_iff in X. destruct X as [X|X]; [specialize (E3 X); lia|specialize (F3 X); lia].
Qed.

Lemma ffill_keep {T} (d : option T) us : forall (s : o_state (ffill_o d)) rs out s',
  session (ffill_o d) keep [] s us = (out, s', rs) -> rs = map (fun _ => Ok tt) us -> s' = last_value s us.
Proof.
  induction us as [|u us IH]; intros s rs out s'; cbn [session].
  - intros E _. injection E as _ <- _. reflexivity.
  - destruct (perform keep [] s (use_call (ffill_o d) s u)) as [[c1 s1] q] eqn:P. rewrite session_keep.
    destruct (session (ffill_o d) keep [] s1 us) as [[o2 s2] qs] eqn:Q. cbn [fst snd]. intros E R.
    injection E as _ <- <-. cbn [map] in R. injection R as -> R. specialize (IH s1 qs o2 s2 Q R).
    destruct u as [[v|]|]; cbn in P; cbn [last_value].
    + injection P as _ <-. exact IH.
    + destruct s as [w|]; cbn in P; [|discriminate]. injection P as _ <-. exact IH.
    + injection P as _ <-. exact IH.
Qed.
Theorem ffill_state {T C} (d : option T) (put : C -> T -> C * res unit) c s us :
  let '(_, s', rs) := session (ffill_o d) put c s us in s' = last_value s (succeeded us rs).
Proof.
  pose proof (ffill_no_trace d C put c s us) as H.
  destruct (session (ffill_o d) put c s us) as [[c' s'] rs].
  destruct H as [out H]; [apply Forall_forall; easy|]. exact (ffill_keep d _ _ _ _ _ H eq_refl).
Qed.
Theorem ffill_null {T C} (d : option T) (put : C -> T -> C * res unit) c s us :
  let '(c', s', rs) := session (ffill_o d) put c s us in
  forall v, last_value s (succeeded us rs) = Some v ->
  fst (fst (perform put c' s' (o_exec (ffill_o d) s' None))) = fst (put c' v).
Proof.
  pose proof (ffill_state d put c s us) as H. destruct (session (ffill_o d) put c s us) as [[c' s'] rs].
  intros v E. cbn in s'. rewrite H, E. cbn. now destruct (put c' v) as [c2 [[]|e|]].
Qed.
