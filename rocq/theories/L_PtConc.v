(** The methods of the pointer table are linearizable. *)
From Verif Require Import Base M_PointerTable S_PointerTable L_PointerTable M_PtConc S_PtConc.
Open Scope Z_scope.

Lemma put_same {A} (f : nat -> A) i x : put f i x i = x.
Proof. unfold put. rewrite Nat.eqb_refl. reflexivity. Qed.
Lemma put_other {A} (f : nat -> A) i x j : j <> i -> put f i x j = f j.
Proof. unfold put. intros H. destruct (Nat.eqb_spec j i) as [E|E]; [contradiction|reflexivity]. Qed.

Lemma pt_run_snoc (ops : list pt_op) : forall (t t' t2 : ptable) (xs : list pt_out) (o : pt_op) (x : pt_out),
  pt_run t ops = Some (t', xs) -> pt_step t' o = Some (t2, x) -> pt_run t (ops ++ [o]) = Some (t2, xs ++ [x]).
Proof.
  induction ops as [|a ops IH]; intros t t' t2 xs o x H S; cbn [pt_run app] in *.
  - injection H as <- <-. rewrite S. reflexivity.
  - destruct (pt_step t a) as [[t1 y]|]; [|discriminate]. destruct (pt_run t1 ops) as [[t3 ys]|] eqn:E; [|discriminate].
    injection H as <- <-. rewrite (IH _ _ _ _ _ _ E S). reflexivity.
Qed.
Lemma seen_app l l' : seen (l ++ l') = seen l ++ seen l'.
Proof. induction l as [|[e|i o x] l IH]; cbn [seen app]; [reflexivity|rewrite IH; reflexivity|exact IH]. Qed.
Lemma effects_app l l' : effects (l ++ l') = effects l ++ effects l'.
Proof. induction l as [|[e|i o x] l IH]; cbn [effects app]; [reflexivity|exact IH|rewrite IH; reflexivity]. Qed.

Fixpoint phases (st : nat -> phase) (l : list xevent) {struct l} : nat -> phase :=
  match l with
  | [] => st
  | Seen (Call i o) :: r => phases (put st i (Begun o)) r
  | Effect i p x :: r => phases (put st i (Effective (result x))) r
  | Seen (Return i v) :: r => phases (put st i Out) r
  end.
Lemma orderly_app l l' : forall st, orderly st l -> orderly (phases st l) l' -> orderly st (l ++ l').
Proof.
  induction l as [|[[i o|i v]|i p x] l IH]; intros st H G; cbn [orderly phases app] in *; [exact G| | |]; destruct H as [H1 H2]; (split; [exact H1|apply IH; assumption]).
Qed.
Lemma phases_app l l' : forall st, phases st (l ++ l') = phases (phases st l) l'.
Proof. induction l as [|[[i o|i v]|i p x] l IH]; intros st; cbn [phases app]; [reflexivity|apply IH..]. Qed.

Definition phase_of (q : option tpc) : phase :=
  match q with
  | None => Out
  | Some (Entered o) | Some (Waiting o) | Some (Inside o) => Begun o
  | Some (Chosen p _) => Begun (TAdd p)
  | Some (Erasing h) => Begun (TRemove h)
  | Some (Leaving r) | Some (Left r) => Effective r
  end.
(** What a thread knows at its place. *)
Definition knows (t : ptable) (q : tpc) : Prop :=
  match q with
  | Waiting o | Inside o => bad_argument o = false
  | Chosen p d => p <> 0 /\ 1 <= d < 18446744073709551616 /\ pt_find t d = None
  | Erasing h => h <> 0 /\ pt_find t h <> None
  | _ => True
  end.
Record tinv (hist : list tevent) (c : tconf) : Prop := mkTinv {
  v_lock : forall i, tc_lock c = Some i <-> exists q, tc_threads c i = Some q /\ section q = true;
  v_knows : forall i q, tc_threads c i = Some q -> knows (tc_table c) q;
  v_ext : exists ext, seen ext = hist /\ orderly (fun _ => Out) ext /\ (forall i, phases (fun _ => Out) ext i = phase_of (tc_threads c i)) /\
    Forall op_draws_ok (map fst (effects ext)) /\ pt_run [] (map fst (effects ext)) = Some (tc_table c, map snd (effects ext)) }.

Lemma start_tinv : tinv [] tc_start.
Proof.
  constructor; cbn.
  - intros i. split; [discriminate|]. intros (q & H & _). discriminate.
  - intros i q H. discriminate.
  - exists []. cbn. repeat split; try constructor.
Qed.

(** The moment at which a statement takes effect, if it does. *)
Definition takes (t : ptable) (q q' : tpc) : option (pt_op * pt_out) :=
  match q, q' with
  | Entered o, Left r => Some (match o with TAdd p => PAdd p [] | TGet h => PGet h | TRemove h => PRemove h end, PThrow InvalidArgument)
  | Chosen p d, _ => Some (PAdd p [d], PHandle d)
  | Inside (TGet h), _ => Some (PGet h, match pt_find t h with None => PThrow InvalidArgument | Some p => PPtr p end)
  | Inside (TRemove h), Leaving _ => Some (PRemove h, PThrow InvalidArgument)
  | Erasing h, _ => Some (PRemove h, PDone)
  | _, _ => None
  end.
Lemma takes_ok i (k : option nat) t q k' t' q' : table_move i (k, t, q) (k', t', q') -> knows t q ->
  match takes t q q' with
  | None => t' = t /\ phase_of (Some q') = phase_of (Some q)
  | Some (o, x) => pt_step t o = Some (t', x) /\ op_draws_ok o /\ (exists a, phase_of (Some q) = Begun a /\ same_call a o) /\ phase_of (Some q') = Effective (result x)
  end.
Proof.
  intros M K. inversion M; subst; cbn [takes knows phase_of] in *.
  - destruct o as [p|h|h]; cbn [bad_argument pt_step pt_add pt_get pt_remove op_draws_ok] in *;
      unfold pt_add, pt_get, pt_remove; rewrite H0; (split; [reflexivity|]); (split; [constructor|]); (split; [|reflexivity]); eexists; split; reflexivity.
  - split; reflexivity.
  - split; reflexivity.
  - split; reflexivity.
  - split; reflexivity.
  - destruct K as (K1 & K2 & K3). cbn [pt_step]. unfold pt_add. destruct (Z.eqb_spec p 0) as [E|E]; [contradiction|]. cbn [pt_draw]. rewrite K3.
    split; [reflexivity|]. split; [constructor; [lia|constructor]|]. split; [|reflexivity]. eexists. split; reflexivity.
  - cbn [bad_argument] in K. cbn [pt_step]. unfold pt_get. rewrite K. destruct (pt_find t' h) as [p|] eqn:E;
      (split; [reflexivity|]); (split; [constructor|]); (split; [|reflexivity]); eexists; split; reflexivity.
  - cbn [bad_argument] in K. cbn [pt_step]. unfold pt_remove. rewrite K, H0.
    (split; [reflexivity|]); (split; [constructor|]); (split; [|reflexivity]); eexists; split; reflexivity.
  - split; reflexivity.
  - destruct K as (K1 & K2). cbn [pt_step]. unfold pt_remove. destruct (Z.eqb_spec h 0) as [E|E]; [contradiction|]. destruct (pt_find t h) as [p|]; [|contradiction].
    (split; [reflexivity|]); (split; [constructor|]); (split; [|reflexivity]); eexists; split; reflexivity.
  - split; reflexivity.
Qed.
Lemma move_table i k t q k' t' q' : table_move i (k, t, q) (k', t', q') -> t' <> t -> section q = true.
Proof. intros M N. inversion M; subst; try contradiction; reflexivity. Qed.
Lemma move_knows i k t q k' t' q' : table_move i (k, t, q) (k', t', q') -> knows t q -> knows t' q'.
Proof.
  intros M K. inversion M; subst; cbn [knows bad_argument] in *; try exact Logic.I; try assumption.
  - apply Z.eqb_neq in K. auto.
  - apply Z.eqb_neq in K. split; [exact K|congruence].
Qed.
(** How the mutex changes: only at the lock and at the unlock. *)
Lemma move_lock_cases i k t q k' t' q' : table_move i (k, t, q) (k', t', q') ->
  (section q = false /\ section q' = true /\ k = None /\ k' = Some i) \/ (section q = true /\ section q' = false /\ k' = None) \/ (section q = section q' /\ k' = k).
Proof. intros M. inversion M; subst; cbn [section]; auto. Qed.

Lemma step_tinv hist c es c' : tinv hist c -> tstep c es c' -> tinv (hist ++ es) c'.
Proof.
  intros [VL VK (ext & E1 & E2 & E3 & E4 & E5)] St. inversion St as [c0 i o H|c0 i q q' k' t' H M|c0 i r H]; subst; clear St.
  - constructor; cbn [tc_lock tc_table tc_threads].
    + intros j. destruct (Nat.eq_dec j i) as [->|N].
      * rewrite put_same. split.
        -- intros L. apply VL in L as (q & Q & _). congruence.
        -- intros (q & [= <-] & Q). discriminate.
      * rewrite (put_other _ _ _ _ N). apply VL.
    + intros j q. destruct (Nat.eq_dec j i) as [->|N]; [rewrite put_same; intros [= <-]; exact Logic.I|rewrite (put_other _ _ _ _ N); apply VK].
    + exists (ext ++ [Seen (Call i o)]). rewrite seen_app, effects_app, phases_app. cbn [seen effects phases]. rewrite app_nil_r.
      split; [reflexivity|]. split; [|split; [|split; [exact E4|exact E5]]].
      * apply orderly_app; [exact E2|]. cbn [orderly]. split; [|exact Logic.I]. rewrite E3, H. reflexivity.
      * intros j. destruct (Nat.eq_dec j i) as [->|N]; [rewrite !put_same; reflexivity|rewrite !(put_other _ _ _ _ N); apply E3].
  - pose proof (VK i q H) as K. constructor; cbn [tc_lock tc_table tc_threads].
    + destruct (move_lock_cases _ _ _ _ _ _ _ M) as [(S1 & S2 & K1 & K2)|[(S1 & S2 & K2)|(S1 & K2)]].
      * intros j. rewrite K2. destruct (Nat.eq_dec j i) as [->|N].
        -- rewrite put_same. split; [intros _; exists q'; split; [reflexivity|exact S2]|reflexivity].
        -- rewrite (put_other _ _ _ _ N). split; [congruence|]. intros Hj. apply VL in Hj. congruence.
      * intros j. rewrite K2. destruct (Nat.eq_dec j i) as [->|N].
        -- rewrite put_same. split; [discriminate|]. intros (x & [= <-] & X). congruence.
        -- rewrite (put_other _ _ _ _ N). split; [discriminate|]. intros Hj. apply VL in Hj.
           assert (L : tc_lock c = Some i) by (apply VL; eauto). congruence.
      * intros j. rewrite K2. destruct (Nat.eq_dec j i) as [->|N].
        -- rewrite put_same, VL. split; intros (x & X1 & X2).
           ++ exists q'. split; [reflexivity|]. rewrite <- S1. congruence.
           ++ exists q. split; [exact H|]. rewrite S1. congruence.
        -- rewrite (put_other _ _ _ _ N). apply VL.
    + intros j x. destruct (Nat.eq_dec j i) as [->|N].
      * rewrite put_same. intros [= <-]. exact (move_knows _ _ _ _ _ _ _ M K).
      * rewrite (put_other _ _ _ _ N). intros Hj. pose proof (VK j x Hj) as Kj.
        destruct (section q) eqn:Sq.
        -- assert (L : tc_lock c = Some i) by (apply VL; eauto).
           destruct (section x) eqn:Sx; [assert (L' : tc_lock c = Some j) by (apply VL; eauto); congruence|].
           destruct x; try discriminate; exact Kj.
        -- assert (t' = tc_table c) as ->; [|exact Kj]. clear -M Sq. inversion M; subst; try reflexivity; discriminate.
    + pose proof (takes_ok _ _ _ _ _ _ _ M K) as TK. destruct (takes (tc_table c) q q') as [[o x]|].
      * destruct TK as (T1 & T2 & T3 & T4). exists (ext ++ [Effect i o x]). rewrite seen_app, effects_app, phases_app, !map_app. cbn [seen effects phases map fst snd].
        rewrite !app_nil_r. split; [reflexivity|]. split; [|split; [|split]].
        -- apply orderly_app; [exact E2|]. cbn [orderly]. split; [|exact Logic.I]. rewrite E3, H. exact T3.
        -- intros j. destruct (Nat.eq_dec j i) as [->|N]; [rewrite !put_same; symmetry; exact T4|rewrite !(put_other _ _ _ _ N); apply E3].
        -- apply Forall_app. split; [exact E4|]. constructor; [exact T2|constructor].
        -- exact (pt_run_snoc _ _ _ _ _ _ _ E5 T1).
      * destruct TK as (T1 & T2). exists ext. rewrite app_nil_r. split; [reflexivity|]. split; [exact E2|]. split; [|split; [exact E4|rewrite T1; exact E5]].
        intros j. destruct (Nat.eq_dec j i) as [->|N]; [rewrite put_same, T2, <- H; apply E3|rewrite (put_other _ _ _ _ N); apply E3].
  - constructor; cbn [tc_lock tc_table tc_threads].
    + intros j. destruct (Nat.eq_dec j i) as [->|N].
      * rewrite put_same. split.
        -- intros L. apply VL in L as (q & Q1 & Q2). rewrite H in Q1. injection Q1 as <-. discriminate.
        -- intros (q & Q & _). discriminate.
      * rewrite (put_other _ _ _ _ N). apply VL.
    + intros j q. destruct (Nat.eq_dec j i) as [->|N]; [rewrite put_same; discriminate|rewrite (put_other _ _ _ _ N); apply VK].
    + exists (ext ++ [Seen (Return i r)]). rewrite seen_app, effects_app, phases_app. cbn [seen effects phases]. rewrite app_nil_r.
      split; [reflexivity|]. split; [|split; [|split; [exact E4|exact E5]]].
      * apply orderly_app; [exact E2|]. cbn [orderly]. split; [|exact Logic.I]. rewrite E3, H. reflexivity.
      * intros j. destruct (Nat.eq_dec j i) as [->|N]; [rewrite !put_same; reflexivity|rewrite !(put_other _ _ _ _ N); apply E3].
Qed.
Lemma runs_tinv c0 hist c : truns c0 hist c -> tinv [] c0 -> tinv hist c.
Proof. induction 1 as [c|c es es' c' c2 R IH St]; intros V; [exact V|]. exact (step_tinv _ _ _ _ (IH V) St). Qed.

Theorem linearizable hist c : truns tc_start hist c -> one_after_the_other hist (tc_table c).
Proof. intros R. destruct (runs_tinv _ _ _ R start_tinv) as [_ _ (ext & E1 & E2 & _ & E4 & E5)]. exists ext. auto. Qed.
Theorem exclusive hist c i j q q' : truns tc_start hist c -> tc_threads c i = Some q -> tc_threads c j = Some q' ->
  section q = true -> section q' = true -> i = j.
Proof.
  intros R Hi Hj Si Sj. destruct (runs_tinv _ _ _ R start_tinv) as [VL _ _].
  assert (tc_lock c = Some i) by (apply VL; eauto). assert (tc_lock c = Some j) by (apply VL; eauto). congruence.
Qed.

(** *** No deadlock *)
Lemma unused_below (n : nat) (t : ptable) : (length t < n)%nat -> exists d, 1 <= d <= Z.of_nat n /\ pt_find t d = None.
Proof.
  intros H. destruct (existsb (fun k => match pt_find t (Z.of_nat k) with None => true | Some _ => false end) (seq 1 n)) eqn:E.
  - apply existsb_exists in E as (k & K1 & K2). apply in_seq in K1. exists (Z.of_nat k). split; [lia|]. destruct (pt_find t (Z.of_nat k)); [discriminate|reflexivity].
  - exfalso. assert (I : incl (map Z.of_nat (seq 1 n)) (map fst t)).
    { intros d Hd. apply in_map_iff in Hd as (k & <- & Hk). destruct (in_dec Z.eq_dec (Z.of_nat k) (map fst t)) as [Hi|Hi]; [exact Hi|].
      exfalso. assert (X : existsb (fun k => match pt_find t (Z.of_nat k) with None => true | Some _ => false end) (seq 1 n) = true).
      { apply existsb_exists. exists k. split; [exact Hk|]. destruct (pt_find t (Z.of_nat k)) as [p|] eqn:F; [|reflexivity].
        destruct Hi. clear -F. induction t as [|[a b] t IH]; cbn [pt_find map fst] in *; [discriminate|]. destruct (Z.eqb_spec a (Z.of_nat k)) as [A|A]; [left; exact A|right; exact (IH F)]. }
      congruence. }
    apply NoDup_incl_length in I; [|apply FinFun.Injective_map_NoDup; [intros a b Q; lia|apply seq_NoDup]].
    rewrite !map_length, seq_length in I. lia.
Qed.
Lemma unused_handle (t : ptable) : Z.of_nat (length t) < 18446744073709551615 -> exists d, 1 <= d < 18446744073709551616 /\ pt_find t d = None.
Proof.
  intros H. destruct (unused_below (S (length t)) t (Nat.lt_succ_diag_r _)) as (d & D1 & D2). exists d. split; [|exact D2].
  rewrite Nat2Z.inj_succ in D1. lia.
Qed.

Lemma truns_trans c es c' es' c2 : truns c es c' -> truns c' es' c2 -> truns c (es ++ es') c2.
Proof.
  intros R R'. induction R' as [c'|c' fs fs' d d2 R' IH St]; [rewrite app_nil_r; exact R|]. rewrite app_assoc. eapply truns_more; [apply IH, R|exact St].
Qed.
Lemma truns_one c es c' : tstep c es c' -> truns c es c'.
Proof. intros St. exact (truns_more c [] es c c' (truns_none c) St). Qed.
(** Thread [i] alone goes on to the end of the critical section. *)
Lemma inner c i q q' k' t' es c2 : tc_threads c i = Some q -> table_move i (tc_lock c, tc_table c, q) (k', t', q') ->
  truns (mkTconf k' t' (put (tc_threads c) i (Some q'))) es c2 -> truns c es c2.
Proof. intros H M R. change es with ([] ++ es). eapply truns_trans; [apply truns_one; eapply t_inner; eassumption|exact R]. Qed.
(** What may have changed: the thread has left, the mutex is free, at most one entry more. *)
Definition out_of (c : tconf) (i : nat) (c' : tconf) : Prop :=
  truns c [] c' /\ tc_lock c' = None /\ (exists r, tc_threads c' i = Some (Left r)) /\
  (length (tc_table c') <= Datatypes.S (length (tc_table c)))%nat /\ (forall j, j <> i -> tc_threads c' j = tc_threads c j).
Lemma erase_shorter t h : (length (pt_erase t h) <= length t)%nat.
Proof. induction t as [|[k p] t IH]; cbn [pt_erase length]; [lia|]. destruct (k =? h); cbn [length]; lia. Qed.
Lemma leave_section c i q : tc_threads c i = Some q -> section q = true -> Z.of_nat (length (tc_table c)) < 18446744073709551615 -> exists c', out_of c i c'.
Proof.
  intros H Sq Room.
  assert (Fin : forall c r, tc_threads c i = Some (Leaving r) -> exists c', truns c [] c' /\ tc_lock c' = None /\ (exists r, tc_threads c' i = Some (Left r)) /\
    tc_table c' = tc_table c /\ (forall j, j <> i -> tc_threads c' j = tc_threads c j)).
  { intros d r Hd. eexists. split; [eapply inner; [exact Hd|apply move_unlock|apply truns_none]|]. cbn [tc_lock tc_table tc_threads].
    split; [reflexivity|]. split; [exists r; apply put_same|]. split; [reflexivity|]. intros j N. apply put_other. exact N. }
  assert (Go : forall q' k' t' r, table_move i (tc_lock c, tc_table c, q) (k', t', q') -> q' = Leaving r -> (length t' <= Datatypes.S (length (tc_table c)))%nat -> exists c', out_of c i c').
  { intros q' k' t' r M -> Len. set (d := mkTconf k' t' (put (tc_threads c) i (Some (Leaving r)))).
    destruct (Fin d r) as (c' & R & F1 & F2 & F3 & F4); [apply put_same|]. exists c'. split; [eapply inner; eassumption|]. split; [exact F1|]. split; [exact F2|].
    split; [rewrite F3; exact Len|]. intros j N. rewrite (F4 j N). apply put_other. exact N. }
  assert (Ch : forall d p x, tc_threads d i = Some (Chosen p x) -> tc_table d = tc_table c -> (forall j, j <> i -> tc_threads d j = tc_threads c j) ->
    exists c', truns d [] c' /\ tc_lock c' = None /\ (exists r, tc_threads c' i = Some (Left r)) /\
      (length (tc_table c') <= Datatypes.S (length (tc_table c)))%nat /\ (forall j, j <> i -> tc_threads c' j = tc_threads c j)).
  { intros d p x Hd Td Od. set (e := mkTconf (tc_lock d) ((x, p) :: tc_table d) (put (tc_threads d) i (Some (Leaving (Ok x))))).
    destruct (Fin e (Ok x)) as (c' & R & F1 & F2 & F3 & F4); [apply put_same|]. exists c'. split; [eapply inner; [exact Hd|apply move_insert|exact R]|]. split; [exact F1|].
    split; [exact F2|]. split; [rewrite F3; cbn [e tc_table length]; rewrite Td; lia|]. intros j N. rewrite (F4 j N), <- (Od j N). apply put_other. exact N. }
  assert (Er : forall d h, tc_threads d i = Some (Erasing h) -> tc_table d = tc_table c -> (forall j, j <> i -> tc_threads d j = tc_threads c j) ->
    exists c', truns d [] c' /\ tc_lock c' = None /\ (exists r, tc_threads c' i = Some (Left r)) /\
      (length (tc_table c') <= Datatypes.S (length (tc_table c)))%nat /\ (forall j, j <> i -> tc_threads c' j = tc_threads c j)).
  { intros d h Hd Td Od. set (e := mkTconf (tc_lock d) (pt_erase (tc_table d) h) (put (tc_threads d) i (Some (Leaving (Ok 0))))).
    destruct (Fin e (Ok 0)) as (c' & R & F1 & F2 & F3 & F4); [apply put_same|]. exists c'. split; [eapply inner; [exact Hd|apply move_erase|exact R]|]. split; [exact F1|].
    split; [exact F2|]. split; [rewrite F3; cbn [e tc_table]; rewrite Td; pose proof (erase_shorter (tc_table c) h); lia|]. intros j N. rewrite (F4 j N), <- (Od j N). apply put_other. exact N. }
  destruct q as [o|o|[p|h|h]|p d|h|r|r]; try discriminate.
  - destruct (unused_handle _ Room) as (d & D1 & D2).
    destruct (Ch (mkTconf (tc_lock c) (tc_table c) (put (tc_threads c) i (Some (Chosen p d)))) p d) as (c' & R & O); [apply put_same|reflexivity|intros j N; apply put_other; exact N|].
    exists c'. split; [|exact O]. eapply inner; [exact H|apply move_draw; eassumption|exact R].
  - eapply Go; [apply move_get|reflexivity|lia].
  - destruct (pt_find (tc_table c) h) as [p|] eqn:F.
    + destruct (Er (mkTconf (tc_lock c) (tc_table c) (put (tc_threads c) i (Some (Erasing h)))) h) as (c' & R & O); [apply put_same|reflexivity|intros j N; apply put_other; exact N|].
      exists c'. split; [|exact O]. eapply inner; [exact H|eapply move_hit; eassumption|exact R].
    + eapply Go; [apply move_miss; exact F|reflexivity|lia].
  - destruct (Ch c p d H eq_refl) as (c' & R & O); [reflexivity|]. exists c'. split; assumption.
  - destruct (Er c h H eq_refl) as (c' & R & O); [reflexivity|]. exists c'. split; assumption.
  - destruct (Fin c r H) as (c' & R & F1 & F2 & F3 & F4). exists c'. split; [exact R|]. split; [exact F1|]. split; [exact F2|]. split; [rewrite F3; lia|exact F4].
Qed.
Theorem no_deadlock hist c i q : truns tc_start hist c -> tc_threads c i = Some q -> Z.of_nat (length (tc_table c)) < 18446744073709551614 ->
  exists c' r, truns c [] c' /\ tc_threads c' i = Some (Left r).
Proof.
  intros R H Room. destruct (runs_tinv _ _ _ R start_tinv) as [VL _ _].
  assert (Waits : forall d o, tc_lock d = None -> tc_threads d i = Some (Waiting o) -> Z.of_nat (length (tc_table d)) < 18446744073709551615 ->
    exists c' r, truns d [] c' /\ tc_threads c' i = Some (Left r)).
  { intros d o Ld Hd Rd. set (e := mkTconf (Some i) (tc_table d) (put (tc_threads d) i (Some (Inside o)))).
    destruct (leave_section e i (Inside o)) as (c' & R' & _ & (r & Hr) & _); [apply put_same|reflexivity|exact Rd|].
    exists c', r. split; [|exact Hr]. eapply inner; [exact Hd|rewrite Ld; apply move_lock|exact R']. }
  (* the mutex becomes free *)
  assert (Free : forall q0, tc_threads c i = Some q0 -> section q0 = false -> exists d, truns c [] d /\ tc_lock d = None /\ tc_threads d i = Some q0 /\ Z.of_nat (length (tc_table d)) < 18446744073709551615).
  { intros q0 H0 S0. destruct (tc_lock c) as [j|] eqn:L; [|exists c; split; [apply truns_none|]; split; [exact L|]; split; [exact H0|lia]].
    assert (exists x, tc_threads c j = Some x /\ section x = true) as (x & X1 & X2) by (apply VL; reflexivity).
    assert (N : i <> j) by (intros ->; congruence).
    destruct (leave_section c j x X1 X2) as (d & D1 & D2 & _ & D4 & D5); [lia|]. exists d. split; [exact D1|]. split; [exact D2|]. split; [rewrite (D5 i N); exact H0|].
    lia. }
  destruct (section q) eqn:Sq.
  - destruct (leave_section c i q H Sq) as (d & D1 & _ & (r & D3) & _); [lia|]. eauto.
  - destruct (Free q H Sq) as (d & D1 & D2 & D3 & D4). destruct q as [o|o|o|p x|h|r|r]; try discriminate.
    + destruct (bad_argument o) eqn:B.
      * eexists. eexists. split; [change (@nil tevent) with (@nil tevent ++ []); eapply truns_trans; [exact D1|]; eapply inner; [exact D3|apply move_refuse; exact B|apply truns_none]|apply put_same].
      * set (e := mkTconf (tc_lock d) (tc_table d) (put (tc_threads d) i (Some (Waiting o)))).
        destruct (Waits e o) as (c' & r & R' & Hr); [exact D2|apply put_same|exact D4|].
        exists c', r. split; [|exact Hr]. change (@nil tevent) with (@nil tevent ++ []). eapply truns_trans; [exact D1|]. eapply inner; [exact D3|apply move_enter; exact B|exact R'].
    + destruct (Waits d o D2 D3 D4) as (c' & r & R' & Hr). exists c', r. split; [|exact Hr]. change (@nil tevent) with (@nil tevent ++ []). eapply truns_trans; eassumption.
    + exists c, r. split; [apply truns_none|exact H].
Qed.
