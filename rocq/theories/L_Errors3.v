(** The calls of M_Errors, made with a consumer that accepts everything, are the ones of the other models. *)
From Verif Require Import Base L_List M_Archive M_Estimator M_Pipeline M_Keyed M_Impute M_Window M_Scale M_Grain M_Filter S_Keyed L_Keyed M_Errors S_Errors L_Errors L_Errors2.

Definition ended {S} (s : S) (r : res unit) : res S := match r with Ok _ => Ok s | Throw e => Throw e | UB => UB end.
Lemma recorded_eq {S B} (s : S) (p : call S B) :
  recorded s p = (fst (fst (perform keep [] s p)), ended (snd (fst (perform keep [] s p))) (snd (perform keep [] s p))).
Proof. unfold recorded. now destruct (perform keep [] s p) as [[l s'] r]. Qed.
Lemma recorded_emit {S B} (s : S) (b : B) k : recorded s (Emit b k) = (b :: fst (recorded s k), snd (recorded s k)).
Proof. rewrite !recorded_eq. cbn [perform]. unfold keep at 1 3 5. rewrite perform_keep. reflexivity. Qed.
Lemma recorded_assign {S B} (s s' : S) (k : call S B) : recorded s (Assign s' k) = recorded s' k.
Proof. reflexivity. Qed.
Lemma recorded_emits {S B} (l : list B) (k : call S B) : forall s : S, recorded s (emits l k) = (l ++ fst (recorded s k), snd (recorded s k)).
Proof.
  induction l as [|b r IH]; intro s; cbn [emits app]; [now destruct (recorded s k)|]. rewrite recorded_emit, IH. reflexivity.
Qed.

Lemma ffill_recorded {T} (d : option T) s x : recorded s (o_exec (ffill_o d) s x) = ffill_exec s x.
Proof. destruct x as [v|]; [reflexivity|]. destruct s; reflexivity. Qed.
Lemma bfill_recorded {T} (d : option T) s x : recorded s (o_exec (bfill_o d) s x) = bfill_exec s x.
Proof.
  cbn [bfill_o o_exec]. unfold bfill_call, bfill_exec. destruct x as [v|]; [|reflexivity].
  change (o_state (bfill_o d)) with Z in *. rewrite recorded_emits. cbn. now rewrite app_nil_r.
Qed.
Lemma bfill_drain_recorded {T} (d : T) n : forall s, s = Z.of_nat n -> recorded s (bfill_drain d n) = (repeat d n, Ok 0).
Proof.
  induction n as [|m IH]; intros s ->; cbn [bfill_drain repeat]; [reflexivity|].
  rewrite recorded_emit, recorded_assign, IH by reflexivity. reflexivity.
Qed.
Lemma bfill_flush_recorded {T} (d : option T) s : 0 <= s -> recorded s (o_flush (bfill_o d) s) = bfill_flush d s.
Proof.
  intro H. cbn [bfill_o o_flush]. unfold bfill_flush. change (o_state (bfill_o d)) with Z in *.
  destruct (s =? 0); [reflexivity|]. destruct d as [d|]; [|reflexivity].
  apply bfill_drain_recorded. lia.
Qed.
Lemma rolling_recorded {I O} (calc : list I -> res O) null h mx mn b0 b x :
  recorded b (o_exec (rolling_o calc null h mx mn b0) b x) = rw_exec calc null h mx mn b x.
Proof.
  cbn [rolling_o o_exec]. rewrite recorded_assign. unfold rw_exec. cbv zeta. destruct (mapM _ _); reflexivity.
Qed.
Lemma lag_call_recorded {T} (t : lag T) x s k :
  recorded s (lag_call t x k) =
  match lag_step t x with
  | (o, Ok t') => let (o', r) := recorded t' k in (o ++ o', r)
  | (o, r) => (o, r)
  end.
Proof.
  unfold lag_call, lag_step, lag_pushed. cbv zeta. cbn [lag_buf]. rewrite recorded_assign.
  destruct (negb _); [now destruct (recorded _ k)|]. destruct (mapM _ _) as [m|e|]; cbn [ends]; [|reflexivity|reflexivity].
  rewrite recorded_emit. now destruct (recorded _ k).
Qed.
Lemma lag_recorded {T} (null : T) t0 t x : recorded t (o_exec (lag_o null t0) t x) = lag_step t x.
Proof.
  cbn [lag_o o_exec]. change (o_state (lag_o null t0)) with (lag T) in *. rewrite lag_call_recorded.
  destruct (lag_step t x) as [o [t'|e|]]; [|reflexivity|reflexivity]. cbn. now rewrite app_nil_r.
Qed.
Lemma lag_step_state {T} (t : lag T) x : match snd (lag_step t x) with Ok t' => t' = lag_pushed t x | _ => True end.
Proof. unfold lag_step. cbv zeta. destruct (negb _); [reflexivity|]. destruct (mapM _ _); cbn; auto. Qed.
Lemma lag_drain_recorded {T} (null : T) n : forall t s, recorded s (lag_drain null n t) =
  match lag_steps null n t with
  | (o, Ok t') => (o, Ok (lag_reset null t'))
  | (o, r) => (o, r)
  end.
Proof.
  induction n as [|m IH]; intros t s; cbn [lag_drain lag_steps]; [reflexivity|].
  rewrite lag_call_recorded. pose proof (lag_step_state t null) as E.
  destruct (lag_step t null) as [o [t'|e|]]; [|reflexivity|reflexivity]. cbn [snd] in E. subst t'. rewrite IH.
  destruct (lag_steps null m (lag_pushed t null)) as [o' [t'|e|]]; reflexivity.
Qed.
Lemma lag_flush_recorded {T} (null : T) t0 t : recorded t (o_flush (lag_o null t0) t) = lag_flush null t.
Proof.
  cbn [lag_o o_flush]. change (o_state (lag_o null t0)) with (lag T) in *. rewrite lag_drain_recorded. reflexivity.
Qed.
Lemma pivot_recorded {T} (ms : list (matrix T)) s : recorded s (o_exec (stateless_o (pivot (T := T))) s ms) = pivot ms.
Proof.
  cbn [stateless_o o_exec]. destruct (pivot ms) as [l [[]|e|]]; change (o_state (stateless_o (pivot (T := T)))) with unit in *;
    rewrite recorded_emits; cbn; rewrite app_nil_r; now destruct s.
Qed.

Lemma perform_map {S B D} (h : B -> D) (p : call S B) : forall s l,
  perform (fun (c : list D) b => keep c (h b)) (map h l) s p =
  let '(l', s', r) := perform keep l s p in (map h l', s', r).
Proof.
  induction p as [|e| |b k IH|s1 k IH]; intros s l; cbn [perform]; try reflexivity.
  - unfold keep at 1 3. replace (map h l ++ [h b]) with (map h (l ++ [b])) by apply map_app. apply IH.
  - apply IH.
Qed.
Lemma filter_recorded {V} idx (d : V) o s x :
  recorded s (o_exec (filter_o idx d o) s x) =
  let (l, r) := recorded s (o_exec o s (to_filtered idx d x)) in (map (to_transformed x) l, r).
Proof.
  cbn [filter_o o_exec]. change (o_state (filter_o idx d o)) with (o_state o) in *. rewrite !recorded_eq, embed_id_rows.
  pose proof (perform_map (to_transformed x) (o_exec o s (to_filtered idx d x)) s []) as P. cbn [map] in P. rewrite P. clear P.
  now destruct (perform keep [] s (o_exec o s (to_filtered idx d x))) as [[l s'] r].
Qed.
Lemma embed_raise {S B T D} (p : call S B) (f : S -> T) : forall s t, t = f s ->
  recorded t (embed f (fun (_ : B) (_ : call T D) => Raise RuntimeError) s p (fun _ => Return)) =
  match recorded s p with
  | ([], r) => ([], rmap f r)
  | _ => ([], Throw RuntimeError)
  end.
Proof.
  induction p as [|e| |b k IH|s1 k IH]; intros s t ->; cbn [embed]; try reflexivity.
  - rewrite recorded_emit. reflexivity.
  - rewrite !recorded_assign. now apply IH.
Qed.
Lemma filter_flush_recorded {V} idx (d : V) o s :
  recorded s (o_flush (filter_o idx d o) s) =
  match recorded s (o_flush o s) with ([], r) => ([], r) | (_ :: _, _) => ([], Throw RuntimeError) end.
Proof.
  cbn [filter_o o_flush]. change (o_state (filter_o idx d o)) with (o_state o) in *.
  rewrite (embed_raise (o_flush o s) (fun s => s) s s eq_refl). destruct (recorded s (o_flush o s)) as [[|b l] [a|e|]]; reflexivity.
Qed.

(** ** The chain. *)
Lemma stage_feed {A B D} (o1 : object A B) (o2 : object B D) (p : call (o_state o1) B) : forall c s1 s2,
  let '((c', s2'), s1', r) := perform (stage o2 keep) (c, s2) s1 p in
  (c', ended (s1', s2') r) =
  let (l, q) := through (fun s b => recorded s (o_exec o2 s b)) s2 (recorded s1 p) in (c ++ l, q).
Proof.
  induction p as [|e| |b k IH|s k IH]; intros c s1 s2; cbn [perform].
  - cbn. now rewrite app_nil_r.
  - cbn. now rewrite app_nil_r.
  - cbn. now rewrite app_nil_r.
  - rewrite recorded_emit. unfold through. cbn [fst snd feed]. unfold stage at 1. cbn [fst snd].
    rewrite (perform_keep (o_exec o2 s2 b) s2 c), (recorded_eq s2).
    destruct (perform keep [] s2 (o_exec o2 s2 b)) as [[l s2'] [[]|e|]]; cbn [fst snd ended].
    + specialize (IH (c ++ l) s1 s2'). destruct (perform (stage o2 keep) (c ++ l, s2') s1 k) as [[[c2 s3] s4] r].
      unfold through in IH. rewrite IH.
      destruct (feed (fun s b => recorded s (o_exec o2 s b)) s2' (fst (recorded s1 k))) as [l2 q]. now rewrite app_assoc.
    + reflexivity.
    + reflexivity.
  - rewrite recorded_assign. apply IH.
Qed.
Lemma chain_recorded {A B D} (o1 : object A B) (o2 : object B D) s1 s2 a :
  recorded (s1, s2) (o_exec (chain_o o1 o2) (s1, s2) a) =
  through (fun s b => recorded s (o_exec o2 s b)) s2 (recorded s1 (o_exec o1 s1 a)).
Proof.
  cbn [chain_o o_exec fst snd]. change (o_state (chain_o o1 o2)) with (o_state o1 * o_state o2)%type in *.
  rewrite recorded_eq, perform_splice. pose proof (stage_feed o1 o2 (o_exec o1 s1 a) [] s1 s2) as H.
  destruct (perform (stage o2 keep) ([], s2) s1 (o_exec o1 s1 a)) as [[[c' s2'] s1'] r].
  destruct (through _ s2 (recorded s1 (o_exec o1 s1 a))) as [l q]. cbn [app] in H. rewrite <- H.
  destruct r as [[]|e|]; reflexivity.
Qed.
Lemma chain_flush_recorded {A B D} (o1 : object A B) (o2 : object B D) s1 s2 :
  recorded (s1, s2) (o_flush (chain_o o1 o2) (s1, s2)) =
  match through (fun s b => recorded s (o_exec o2 s b)) s2 (recorded s1 (o_flush o1 s1)) with
  | (o, Ok (u, x)) => let (o', rx) := recorded x (o_flush o2 x) in (o ++ o', do x' <- rx; Ok (u, x'))
  | (o, rx) => (o, rx)
  end.
Proof.
  cbn [chain_o o_flush fst snd]. change (o_state (chain_o o1 o2)) with (o_state o1 * o_state o2)%type in *.
  rewrite recorded_eq, perform_splice. pose proof (stage_feed o1 o2 (o_flush o1 s1) [] s1 s2) as H.
  destruct (perform (stage o2 keep) ([], s2) s1 (o_flush o1 s1)) as [[[c' s2'] s1'] r].
  destruct (through _ s2 (recorded s1 (o_flush o1 s1))) as [l q]. cbn [app] in H. injection H as -> <-.
  destruct r as [[]|e|]; cbn [ended fst snd]; [|reflexivity|reflexivity].
  rewrite (perform_embed keep (fun s => (s1', s)) (fun d => d) (o_flush o2 s2') (fun _ => Return) l s2').
  change (fun (c0 : list D) (b : D) => keep c0 b) with (@keep D).
  rewrite (perform_keep (o_flush o2 s2') s2' l), (recorded_eq s2').
  destruct (perform keep [] s2' (o_flush o2 s2')) as [[l2 s2''] [[]|e|]]; reflexivity.
Qed.

(** ** Grains. *)
Section Grains.
  Context {K A B : Type}.
  Variables keqb klt : K -> K -> bool.
  Hypothesis Hord : key_order keqb klt.
  Variable o : object A B.
  Variable create : option (res (o_state o)).
  Notation gmap := (list (K * o_state o)).
  Notation rexec := (fun s a => recorded s (o_exec o s a)).

  (** The same values, the same outcome, and in the end the same object under every key. *)
  Lemma grain_recorded (m : gmap) x :
    fst (recorded m (grain_call keqb klt o create m x)) = fst (keyed_exec keqb klt (grain_step rexec create) m x) /\
    match snd (recorded m (grain_call keqb klt o create m x)), snd (keyed_exec keqb klt (grain_step rexec create) m x) with
    | Ok m1, Ok m2 => forall k, k_find keqb m1 k = k_find keqb m2 k
    | Throw e1, Throw e2 => e1 = e2
    | UB, UB => True
    | _, _ => False
    end.
  Proof using Hord.
    destruct x as [k a]. pose proof (grain_row keqb klt Hord o create keep [] m k a) as H. unfold view in H.
    rewrite recorded_eq. unfold keyed_exec, grain_step. cbn [fst snd].
    destruct (k_find keqb m k) as [s|] eqn:E.
    - pose proof (perform_map (fun b : B => (k, b)) (o_exec o s a) s []) as P. cbn [map] in P. rewrite P in H. clear P.
      rewrite recorded_eq. destruct (perform keep [] s (o_exec o s a)) as [[l s'] r]. destruct H as (m' & -> & F). cbn [fst snd].
      split; [reflexivity|]. destruct r as [[]|e|]; cbn [ended bind]; auto. intro k'. rewrite F, (find_set keqb klt Hord). reflexivity.
    - destruct create as [[s|e|]|]; [|rewrite H; cbn; auto|rewrite H; cbn; auto|rewrite H; cbn; auto].
      pose proof (perform_map (fun b : B => (k, b)) (o_exec o s a) s []) as P. cbn [map] in P. rewrite P in H. clear P.
      rewrite recorded_eq. destruct (perform keep [] s (o_exec o s a)) as [[l s'] r]. destruct H as (m' & -> & F). cbn [fst snd].
      split; [reflexivity|]. destruct r as [[]|e|]; cbn [ended bind]; auto. intro k'. rewrite F, (find_set keqb klt Hord). reflexivity.
  Qed.
End Grains.
Lemma grain_flush_recorded {K A B} (o : object A B) (m : list (K * o_state o)) : forall pre,
  recorded (pre ++ m) (grain_drain o pre m) =
  let (l, r) := keyed_flush (fun s => recorded s (o_flush o s)) m in (l, do m' <- r; Ok (pre ++ m')).
Proof.
  induction m as [|[k s] m IH]; intro pre; cbn [grain_drain keyed_flush].
  - reflexivity.
  - rewrite recorded_eq.
    rewrite (perform_embed keep (fun s' => pre ++ (k, s') :: m) (fun b => (k, b)) (o_flush o s) (fun s' => grain_drain o (pre ++ [(k, s')]) m) [] s).
    pose proof (perform_map (fun b : B => (k, b)) (o_flush o s) s []) as P. cbn [map] in P. rewrite P. clear P.
    rewrite (recorded_eq s). destruct (perform keep [] s (o_flush o s)) as [[l s'] [[]|e|]]; cbn [ended fst snd]; [|reflexivity|reflexivity].
    specialize (IH (pre ++ [(k, s')])). rewrite recorded_eq in IH.
    rewrite perform_keep. replace (pre ++ (k, s') :: m) with ((pre ++ [(k, s')]) ++ m) by (rewrite <- app_assoc; reflexivity).
    destruct (perform keep [] ((pre ++ [(k, s')]) ++ m) (grain_drain o (pre ++ [(k, s')]) m)) as [[l2 m2] r2]. cbn [fst snd] in *.
    destruct (keyed_flush (fun s => recorded s (o_flush o s)) m) as [l3 r3]. injection IH as -> E. rewrite E.
    destruct r3 as [m3|e|]; cbn [bind]; [|reflexivity|reflexivity]. now rewrite <- app_assoc.
Qed.
