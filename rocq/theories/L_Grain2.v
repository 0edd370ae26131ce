From Verif Require Import Base L_List M_Archive M_Codec L_Codec M_Estimator M_Stats L_Stats M_Pipeline M_Keyed S_Keyed L_Keyed M_Grain S_Grain L_Grain.

Section SaveLoad.
  Context {K S : Type}.
  Variable keqb klt : K -> K -> bool.
  Hypothesis Hord : key_order keqb klt.
  Variable kenc : K -> list Z.
  Variable kdec : parser K.
  Variable save : S -> list Z.
  Variable load : parser S.
  Variable kok : K -> Prop.
  Variable sok : S -> Prop.
  Variable reload : S -> S.
  Hypothesis Hk : forall k rest, kok k -> kdec (kenc k ++ rest) = Ok (k, rest).
  Hypothesis Hs : forall s rest, sok s -> load (save s ++ rest) = Ok (reload s, rest) /\ sok (reload s).
  Notation grain := (grain K S).
  Notation gsave := (grain_save kenc save).
  Notation gload := (grain_load keqb klt kdec load).
  Notation find := (k_find (S := S) keqb).
  Definition re (m : list (K * S)) : list (K * S) := map (fun p => (fst p, reload (snd p))) m.

  Lemma set_last : forall (m : list (K * S)) k s, Forall (fun p => klt (fst p) k = true) m -> k_set keqb klt m k s = m ++ [(k, s)].
  Proof using Hord.
    destruct Hord as [He [Hi [Ht _]]]. induction m as [|[a v] m IH]; intros k s H; [reflexivity|]. inversion H as [|? ? H1 H2]; subst. cbn [fst] in H1. cbn [k_set app].
    destruct (klt k a) eqn:E; [pose proof (Ht _ _ _ H1 E) as X; rewrite Hi in X; discriminate|].
    destruct (keqb a k) eqn:E2; [apply He in E2; subst a; rewrite Hi in H1; discriminate|]. now rewrite IH.
  Qed.
  Lemma find_below : forall (m : list (K * S)) k, Forall (fun p => klt (fst p) k = true) m -> find m k = None.
  Proof using Hord.
    intros m k H. apply (find_none keqb klt Hord). intros [s Hin]. rewrite Forall_forall in H. specialize (H _ Hin). cbn [fst] in H. destruct Hord as [_ [Hi _]]. rewrite Hi in H. discriminate.
  Qed.
  Lemma load_entries_ok : forall (m acc : list (K * S)) rest, map_ordered klt (acc ++ m) -> Forall (fun p => kok (fst p) /\ sok (snd p)) m ->
    load_entries keqb klt kdec load (length m) acc (flat_map (fun p => kenc (fst p) ++ save (snd p)) m ++ rest) = Ok (acc ++ re m, rest).
  Proof using Hord Hk Hs.
    induction m as [|[k s] m IH]; intros acc rest Hm Hok; [cbn; now rewrite app_nil_r|]. inversion Hok as [|? ? [K1 S1] Hok']; subst. cbn [fst snd] in K1, S1.
    cbn [length load_entries flat_map fst snd]. rewrite <- !app_assoc, Hk by exact K1. cbn [bind fst snd]. rewrite (proj1 (Hs s _ S1)). cbn [bind fst snd].
    assert (Hb : Forall (fun p : K * S => klt (fst p) k = true) acc).
    { clear -Hm. induction acc as [|p acc IH]; [constructor|]. cbn [app] in Hm. inversion Hm as [|? ? H1 H2]; subst. constructor; [|exact (IH H1)]. rewrite Forall_forall in H2. apply (H2 (k, s)). apply in_app_iff. right. now left. }
    rewrite find_below by exact Hb. rewrite set_last by exact Hb. rewrite IH.
    - cbn [re map]. rewrite <- app_assoc. reflexivity.
    - rewrite <- app_assoc. cbn [app]. clear -Hm. revert Hm. unfold map_ordered. induction acc as [|p acc IH]; cbn [app]; intros H.
      + inversion H as [|? ? H1 H2]; subst. constructor; assumption.
      + inversion H as [|? ? H1 H2]; subst. constructor; [exact (IH H1)|]. clear -H2. apply Forall_app in H2. destruct H2 as [H2 H3]. apply Forall_app. split; [exact H2|]. inversion H3; subst. constructor; assumption.
    - exact Hok'.
  Qed.
  Lemma re_ordered : forall m : list (K * S), map_ordered klt m -> map_ordered klt (re m).
  Proof using Type.
    unfold map_ordered. induction m as [|p m IH]; intros H; [constructor|]. inversion H as [|? ? H1 H2]; subst. cbn [re map]. constructor; [exact (IH H1)|].
    apply Forall_forall. intros x Hx. apply in_map_iff in Hx. destruct Hx as [y [<- Hy]]. cbn [fst]. rewrite Forall_forall in H2. now apply H2.
  Qed.
  Lemma re_ok : forall m : list (K * S), Forall (fun p => kok (fst p) /\ sok (snd p)) m -> Forall (fun p => kok (fst p) /\ sok (snd p)) (re m).
  Proof using Hs.
    intros m H. apply Forall_forall. intros x Hx. apply in_map_iff in Hx. destruct Hx as [y [<- Hy]]. rewrite Forall_forall in H. destruct (H y Hy) as [H1 H2]. cbn [fst snd]. split; [exact H1|]. apply (Hs (snd y) [] H2).
  Qed.
  Lemma count_ok : forall m : list (K * S), (Z.of_nat (length m) < 2 ^ 64)%Z -> forall rest,
    get_fixed 8 (le_bytes 8 (Z.of_nat (length m)) ++ rest) = Ok (Z.of_nat (length m), rest).
  Proof using Type.
    intros m H rest. rewrite (get_fixed_emits 8 (Z.of_nat (length m)) rest). f_equal. f_equal. apply Z.mod_small. change (two_pow8 8) with (2 ^ 64). split; [apply Nat2Z.is_nonneg|exact H].
  Qed.
  Definition fits (m : list (K * S)) : Prop := m <> [] /\ (Z.of_nat (length m) < 2 ^ 64)%Z /\ map_ordered klt m /\ Forall (fun p => kok (fst p) /\ sok (snd p)) m.
  Lemma re_fits : forall m, fits m -> fits (re m).
  Proof using Hs.
    intros m [H1 [H2 [H3 H4]]]. split; [|split; [|split]].
    - destruct m; [congruence|discriminate].
    - unfold re. now rewrite map_length.
    - now apply re_ordered.
    - now apply re_ok.
  Qed.
  (** Without creation on demand. *)
  Lemma plain_cycle : forall m further, fits m ->
    exists bs, gsave (mkGrain true m None) = Ok bs /\ gload (bs ++ further) = Ok (mkGrain true (re m) None, further).
  Proof using Hord Hk Hs.
    intros m further [H1 [H2 [H3 H4]]]. eexists. split; [reflexivity|]. cbn [g_had g_map g_create].
    unfold grain_load. rewrite <- !app_assoc, count_ok by exact H2. cbn [bind fst snd]. rewrite Nat2Z.id.
    rewrite load_entries_ok by assumption. cbn [bind fst snd app]. rewrite (get_bool_emits false). cbn [bind fst snd negb].
    destruct m as [|p m]; [congruence|]. reflexivity.
  Qed.
  Fixpoint iter (n : nat) (m : list (K * S)) : list (K * S) := match n with O => m | Datatypes.S n' => iter n' (re m) end.
  Lemma plain_cycles : forall n m, fits m -> cycles gsave gload n (mkGrain true m None) = Ok (mkGrain true (iter n m) None).
  Proof using Hord Hk Hs.
    induction n as [|n IH]; intros m H; [reflexivity|]. cbn [cycles iter]. destruct (plain_cycle m [] H) as [bs [E1 E2]]. rewrite E1. cbn [bind].
    rewrite app_nil_r in E2. rewrite E2. cbn [bind fst]. apply IH. now apply re_fits.
  Qed.
  Lemma iter_map : forall n m, iter n m = map (fun p => (fst p, Nat.iter n reload (snd p))) m.
  Proof using Type.
    induction n as [|n IH]; intros m; cbn [iter].
    - cbn [Nat.iter nat_rect]. induction m as [|[k s] m IHm]; [reflexivity|]. cbn [map fst snd]. now rewrite <- IHm.
    - rewrite IH. unfold re. rewrite map_map. apply map_ext. intros [k s]. cbn [fst snd]. f_equal. clear. induction n as [|n IH]; [reflexivity|]. change (reload (Nat.iter n reload (reload s)) = reload (Nat.iter (Datatypes.S n) reload s)). now rewrite IH.
  Qed.

  (** With creation on demand: one cycle. *)
  Lemma creating_cycle : forall m s0, fits m -> sok s0 -> save s0 <> [] ->
    exists bs, gsave (mkGrain true m (Some (Ok s0))) = Ok bs /\
      forall further, gload (bs ++ further) = Ok (mkGrain false (re m) (Some (Ok (reload s0))), save s0 ++ further).
  Proof using Hord Hk Hs.
    intros m s0 [H1 [H2 [H3 H4]]] H5 H6. eexists. split; [reflexivity|]. intros further. cbn [g_had g_map g_create].
    unfold grain_load. rewrite <- !app_assoc, count_ok by exact H2. cbn [bind fst snd]. rewrite Nat2Z.id.
    rewrite load_entries_ok by assumption. cbn [bind fst snd app]. rewrite (get_bool_emits true). cbn [bind fst snd negb].
    pose proof (proj1 (Hs s0 further H5)) as X. destruct (save s0) as [|b l] eqn:E; [congruence|]. cbn [app] in X |- *. rewrite X. cbn [bind fst]. destruct m as [|p m]; [congruence|]. reflexivity.
  Qed.
  Lemma count0 : forall rest, get_fixed 8 (le_bytes 8 0 ++ rest) = Ok (0, rest).
  Proof using Type. intros rest. rewrite (get_fixed_emits 8 0 rest). reflexivity. Qed.
  Lemma forgetting_cycle : forall m s0, sok s0 -> save s0 <> [] ->
    exists bs, gsave (mkGrain false m (Some (Ok s0))) = Ok bs /\
      forall further, gload (bs ++ further) = Ok (mkGrain true [] (Some (Ok (reload s0))), save s0 ++ further).
  Proof using Hs.
    intros m s0 H5 H6. eexists. split; [reflexivity|]. intros further. cbn [g_had g_map g_create].
    unfold grain_load. rewrite <- !app_assoc, count0. cbn [bind fst snd]. change (Z.to_nat 0) with 0%nat. cbn [load_entries bind fst snd]. rewrite (get_bool_emits true). cbn [bind fst snd negb].
    pose proof (proj1 (Hs s0 further H5)) as X. destruct (save s0) as [|b l] eqn:E; [congruence|]. cbn [app] in X |- *. rewrite X. reflexivity.
  Qed.
  Lemma forgotten_save : forall m s0, sok s0 -> gsave (mkGrain false m (Some (Ok s0))) = gsave (mkGrain true [] (Some (Ok s0))).
  Proof using Type. reflexivity. Qed.
End SaveLoad.
