(** A grained transformer whose parts are determined by the rows of their grain since the last flush or reload. *)
From Verif Require Import Base L_List M_Archive M_Codec L_Codec M_Estimator M_Stats L_Stats M_Pipeline M_Keyed S_Keyed L_Keyed M_Grain S_Grain L_Grain L_Grain2.
From Verif Require Import S_Window S_GrainWindow.

Section Pure.
  Context {K S : Type}.
  Variable keqb klt : K -> K -> bool.
  Lemma set_length : forall (m : list (K * S)) k s, (length (k_set keqb klt m k s) <= length m + 1)%nat.
  Proof.
    induction m as [|[a v] m IH]; intros k s; cbn [k_set]; [cbn; lia|]. destruct (klt k a); [cbn; lia|]. destruct (keqb a k); cbn; [lia|]. specialize (IH k s). lia.
  Qed.
  Lemma keys_ordered : forall (m m' : list (K * S)), map fst m' = map fst m -> map_ordered klt m -> map_ordered klt m'.
  Proof.
    unfold map_ordered. induction m as [|p m IH]; intros m' E H; destruct m' as [|p' m']; try discriminate; [constructor|].
    injection E as E1 E2. inversion H as [|? ? H1 H2]; subst. constructor; [exact (IH m' E2 H1)|].
    apply Forall_forall. intros x Hx. assert (Hf : In (fst x) (map fst m)) by (rewrite <- E2; apply in_map; exact Hx).
    apply in_map_iff in Hf. destruct Hf as [y [Ey Hy]]. rewrite Forall_forall in H2. rewrite E1, <- Ey. exact (H2 y Hy).
  Qed.
  Lemma has_keys : forall (m m' : list (K * S)) k, map fst m' = map fst m -> has_key k m' -> has_key k m.
  Proof.
    intros m m' k E [s Hs]. assert (Hf : In k (map fst m)) by (rewrite <- E; apply in_map_iff; exists (k, s); auto).
    apply in_map_iff in Hf. destruct Hf as [[k2 s2] [Ek Hin]]. cbn [fst] in Ek. subst k2. exists s2. exact Hin.
  Qed.
  Lemma sorted_keys : forall m : list (K * S), map_ordered klt m -> StronglySorted (fun a b => klt a b = true) (map fst m).
  Proof.
    unfold map_ordered. induction m as [|p m IH]; intros H; [constructor|]. inversion H as [|? ? H1 H2]; subst. cbn [map]. constructor; [exact (IH H1)|].
    apply Forall_forall. intros x Hx. apply in_map_iff in Hx. destruct Hx as [y [<- Hy]]. rewrite Forall_forall in H2. exact (H2 y Hy).
  Qed.
  Lemma sorted_filter : forall (f : K -> bool) ks, StronglySorted (fun a b => klt a b = true) ks -> StronglySorted (fun a b => klt a b = true) (filter f ks).
  Proof.
    induction ks as [|k ks IH]; intros H; [constructor|]. inversion H as [|? ? H1 H2]; subst. cbn [filter]. destruct (f k); [|exact (IH H1)].
    constructor; [exact (IH H1)|]. apply Forall_forall. intros x Hx. apply filter_In in Hx. rewrite Forall_forall in H2. apply H2. tauto.
  Qed.
End Pure.

Section History.
  Context {K S A B : Type}.
  Variable keqb klt : K -> K -> bool.
  Hypothesis Hord : key_order keqb klt.
  Variable kenc : K -> list Z.
  Variable kdec : parser K.
  Variable kok : K -> Prop.
  Hypothesis Hk : forall k rest, kok k -> kdec (kenc k ++ rest) = Ok (k, rest).
  Variable exec : S -> A -> list B * res S.
  Variable flush : S -> list B * res S.
  Variable save : S -> list Z.
  Variable load : parser S.
  Variable rep : S -> list A -> Prop.
  Variable good : list A -> Prop.
  Variable out : list A -> list B.
  Variable left : list A -> list B.
  Variable s0 : S.
  Hypothesis Hexec : forall s l x, rep s l -> good (l ++ [x]) -> exists s', exec s x = (out (l ++ [x]), Ok s') /\ rep s' (l ++ [x]).
  Hypothesis Hflush : forall s l, rep s l -> exists s', flush s = (left l, Ok s') /\ rep s' [].
  Hypothesis Hleft : left [] = [].
  Hypothesis Hload : forall s l rest, rep s l -> load (save s ++ rest) = Ok (s0, rest).
  Hypothesis Hsave : save s0 <> [].
  Hypothesis H0 : rep s0 [].

  Notation grain := (grain K S).
  Notation gexec := (grain_exec keqb klt exec).
  Notation gflush := (grain_flush flush).
  Notation greload := (reloaded (grain_save kenc save) (grain_load keqb klt kdec load)).

  Definition hinv (g : grain) (h : list (K * A)) (n : nat) : Prop :=
    map_ordered klt (g_map g) /\ g_create g = Some (Ok s0) /\ (length (g_map g) <= n)%nat /\
    (forall k s, In (k, s) (g_map g) -> kok k /\ rep s (of_key keqb k h)) /\
    (forall k, ~ has_key k (g_map g) -> of_key keqb k h = []).

  Lemma hinv_more : forall g h n m, hinv g h n -> (n <= m)%nat -> hinv g h m.
  Proof using Type. intros g h n m (I1 & I2 & I3 & I4 & I5) L. split; [exact I1|]. split; [exact I2|]. split; [exact (Nat.le_trans _ _ _ I3 L)|]. split; [exact I4|exact I5]. Qed.
  Lemma set_has : forall (m : list (K * S)) k s k' s', map_ordered klt m -> In (k', s') (k_set keqb klt m k s) ->
    (k' = k /\ s' = s) \/ (k' <> k /\ In (k', s') m).
  Proof using All.
    intros m k s k' s' Hm Hin.
    assert (Hm' : map_ordered klt (k_set keqb klt m k s)) by (apply (set_ascending keqb klt Hord); exact Hm).
    apply (find_In keqb klt Hord) in Hin; [|exact Hm']. unfold k_find in Hin. pose proof (find_set keqb klt Hord m k s k') as F. unfold k_find in F. rewrite F in Hin.
    destruct (keqb k k') eqn:E.
    - apply (keqb_eq keqb klt Hord) in E. subst k'. injection Hin as <-. left. auto.
    - right. split; [intros ->; rewrite (keqb_refl keqb klt Hord) in E; discriminate|]. apply (find_In keqb klt Hord); assumption.
  Qed.

  Lemma row_step : forall g h n k x, hinv g h n -> kok k -> good (of_key keqb k h ++ [x]) ->
    exists g', gexec g (k, x) = (map (pair k) (out (of_key keqb k h ++ [x])), Ok g') /\ hinv g' (h ++ [(k, x)]) (n + 1).
  Proof using All.
    intros g h n k x (I1 & I2 & I3 & I4 & I5) Kk Hg.
    assert (E : exists s', grain_step exec (g_create g) k (k_find keqb (g_map g) k) x = (out (of_key keqb k h ++ [x]), Ok s') /\ rep s' (of_key keqb k h ++ [x])).
    { rewrite I2. destruct (k_find keqb (g_map g) k) as [s|] eqn:F.
      - apply (find_In keqb klt Hord) in F; [|exact I1]. destruct (I4 k s F) as [_ R]. destruct (Hexec s _ x R Hg) as [s' E]. exists s'. exact E.
      - apply (find_none keqb klt Hord) in F. pose proof (I5 k F) as Z. rewrite Z in Hg |- *. destruct (Hexec s0 _ x H0 Hg) as [s' E]. exists s'. exact E. }
    destruct E as [s' [E R]]. exists (mkGrain (g_had g) (k_set keqb klt (g_map g) k s') (g_create g)).
    split.
    { unfold grain_exec, keyed_exec. cbn [fst snd]. rewrite E. reflexivity. }
    unfold hinv. cbn [g_map g_create]. split; [apply (set_ascending keqb klt Hord); exact I1|]. split; [exact I2|].
    split; [pose proof (set_length keqb klt (g_map g) k s') as L; lia|]. split.
    - intros k' t Hin. rewrite (of_key_app keqb), (of_key_cons keqb). cbn [fst snd]. change (of_key keqb k' []) with (@nil A). destruct (set_has _ _ _ _ _ I1 Hin) as [[-> ->]|[N Hin']].
      + rewrite (keqb_refl keqb klt Hord). split; assumption.
      + rewrite (keqb_neq keqb klt Hord) by congruence. rewrite app_nil_r. exact (I4 k' t Hin').
    - intros k' N. rewrite (of_key_app keqb), (of_key_cons keqb). cbn [fst snd]. change (of_key keqb k' []) with (@nil A).
      pose proof (find_set keqb klt Hord (g_map g) k s' k') as F.
      destruct (keqb k k') eqn:Ek.
      + exfalso. apply N. exists s'. apply (find_In keqb klt Hord); [apply (set_ascending keqb klt Hord); exact I1|]. exact F.
      + rewrite app_nil_r. apply I5. intros [t Ht]. apply N. exists t. apply (find_In keqb klt Hord); [apply (set_ascending keqb klt Hord); exact I1|]. rewrite F. apply (find_In keqb klt Hord); assumption.
  Qed.

  Lemma flush_map : forall (m : list (K * S)) h, (forall k s, In (k, s) m -> kok k /\ rep s (of_key keqb k h)) ->
    exists m', keyed_flush flush m = (flat_map (fun k => map (pair k) (left (of_key keqb k h))) (map fst m), Ok m') /\ map fst m' = map fst m /\
      (forall k s, In (k, s) m' -> kok k /\ rep s []).
  Proof using All.
    induction m as [|[k s] m IH]; intros h H.
    - exists []. split; [reflexivity|]. split; [reflexivity|]. intros k s [].
    - destruct (IH h) as (m' & E & M & R); [intros k' s' Hin; apply H; right; exact Hin|]. destruct (H k s (or_introl eq_refl)) as [Kk Rs].
      destruct (Hflush s _ Rs) as (s' & F & R'). exists ((k, s') :: m'). cbn [keyed_flush]. rewrite F, E. split; [reflexivity|].
      split; [cbn [map fst]; now rewrite M|]. intros k2 s2 [X|X]; [injection X as <- <-; auto|exact (R k2 s2 X)].
  Qed.

  (** The grains that have rows, in order, and the others, which have nothing left. *)
  Lemma only_live : forall (ks : list K) h, flat_map (fun k => map (pair k) (left (of_key keqb k h))) ks =
    flat_map (fun k => map (pair k) (left (of_key keqb k h))) (filter (fun k => match of_key keqb k h with [] => false | _ => true end) ks).
  Proof using All.
    induction ks as [|k ks IH]; intros h; [reflexivity|]. cbn [flat_map filter]. rewrite IH. destruct (of_key keqb k h) eqn:E; [rewrite Hleft; reflexivity|].
    cbn [flat_map]. rewrite E. reflexivity.
  Qed.

  Lemma flush_step : forall g h n, hinv g h n ->
    exists ks g', gflush g = (flat_map (fun k => map (pair k) (left (of_key keqb k h))) ks, Ok g') /\ hinv g' [] n /\
      StronglySorted (fun a b => klt a b = true) ks /\ forall k, In k ks <-> of_key keqb k h <> [].
  Proof using All.
    intros g h n (I1 & I2 & I3 & I4 & I5). destruct (flush_map (g_map g) h I4) as (m' & E & M & R).
    exists (filter (fun k => match of_key keqb k h with [] => false | _ => true end) (map fst (g_map g))), (mkGrain (g_had g) m' (g_create g)).
    split; [unfold grain_flush; rewrite E, only_live; reflexivity|]. split; [|split].
    - unfold hinv. cbn [g_map g_create]. split; [exact (keys_ordered klt _ _ M I1)|]. split; [exact I2|].
      split; [rewrite <- (map_length fst), M, map_length; exact I3|]. split; [intros k s Hin; exact (R k s Hin)|]. intros k _. reflexivity.
    - apply (sorted_filter klt). apply (sorted_keys klt). exact I1.
    - intros k. rewrite filter_In. split.
      + intros [_ X] Y. rewrite Y in X. discriminate.
      + intros X. split; [|destruct (of_key keqb k h); congruence].
        destruct (k_find keqb (g_map g) k) as [s|] eqn:F.
        * apply (find_In keqb klt Hord) in F; [|exact I1]. apply in_map_iff. exists (k, s). auto.
        * apply (find_none keqb klt Hord) in F. destruct (X (I5 k F)).
  Qed.

  Lemma reload_grain : forall g h n, hinv g h n -> Z.of_nat n < 2 ^ 64 ->
    exists bs, grain_save kenc save g = Ok bs /\ exists g', (forall further, exists rest, grain_load keqb klt kdec load (bs ++ further) = Ok (g', rest)) /\ hinv g' [] n.
  Proof using All.
    intros [had m c] h n (I1 & I2 & I3 & I4 & I5) Hn. cbn [g_map g_create] in *. subst c.
    set (sok := fun s : S => exists l, rep s l).
    assert (Hs : forall s rest, sok s -> load (save s ++ rest) = Ok ((fun _ : S => s0) s, rest) /\ sok ((fun _ : S => s0) s)).
    { intros s rest [l R]. split; [exact (Hload s l rest R)|]. exists []. exact H0. }
    assert (S0 : sok s0) by (exists []; exact H0).
    assert (Forget : forall had m, (had = false \/ m = []) -> exists bs, grain_save kenc save (mkGrain had m (Some (Ok s0))) = Ok bs /\
              exists g', (forall further, exists rest, grain_load keqb klt kdec load (bs ++ further) = Ok (g', rest)) /\ hinv g' [] n).
    { intros had' m2 Hx. destruct (forgetting_cycle keqb klt kenc kdec save load sok (fun _ => s0) Hs m2 s0 S0 Hsave) as (bs & E1 & E2).
      exists bs. split; [destruct Hx as [->| ->]; [exact E1|destruct had'; [rewrite <- E1; reflexivity|rewrite <- E1; reflexivity]]|].
      exists (mkGrain true [] (Some (Ok s0))). split; [intros further; exists (save s0 ++ further); apply E2|].
      unfold hinv. cbn [g_map g_create length]. split; [constructor|]. split; [reflexivity|]. split; [lia|]. split; [intros k s []|reflexivity]. }
    destruct had; [|apply Forget; auto]. destruct m as [|p m]; [apply Forget; auto|].
    destruct (creating_cycle keqb klt Hord kenc kdec save load kok sok (fun _ => s0) Hk Hs (p :: m) s0) as (bs & E1 & E2); [|exact S0|exact Hsave|].
    { split; [discriminate|]. split; [lia|]. split; [exact I1|]. apply Forall_forall. intros [k s] Hin. destruct (I4 k s Hin) as [X Y]. split; [exact X|]. exists (of_key keqb k h). exact Y. }
    exists bs. split; [exact E1|]. eexists. split; [intros further; eexists; apply E2|].
    unfold hinv. cbn [g_map g_create]. split; [apply re_ordered; exact I1|]. split; [reflexivity|].
    split; [unfold re; rewrite map_length; exact I3|]. split; [|reflexivity].
    intros k s Hin. unfold re in Hin. apply in_map_iff in Hin. destruct Hin as [[k2 s2] [Ek Hin]]. cbn [fst snd] in Ek. injection Ek as <- <-.
    split; [exact (proj1 (I4 _ _ Hin))|exact H0].
  Qed.

  Lemma new_hinv : hinv (mkGrain false [] (Some (Ok s0))) [] 0.
  Proof using All. unfold hinv. cbn. split; [constructor|]. split; [reflexivity|]. split; [lia|]. split; [intros k s []|reflexivity]. Qed.
End History.

(** A history of uses, for anything that keeps an invariant. *)
Section Uses.
  Context {X R Y : Type}.
  Variable one : X -> use R -> list Y * res X.
  Variable inv : X -> list (use R) -> Prop.
  Variable due : list (use R) -> use R -> list Y -> Prop.
  Variable us : list (use R).
  Hypothesis Hone : forall x p u q, us = p ++ u :: q -> inv x p -> exists o x', one x u = (o, Ok x') /\ inv x' (p ++ [u]) /\ due p u o.
  Lemma uses_ok : forall q p x, us = p ++ q -> inv x p ->
    exists os x', row_by_row one x q = (os, Ok x') /\ inv x' us /\ length os = length q /\
      forall p' u q', q = p' ++ u :: q' -> exists o, nth_error os (length p') = Some o /\ due (p ++ p') u o.
  Proof using Hone.
    induction q as [|u q IH]; intros p x E Hi.
    - exists [], x. split; [reflexivity|]. rewrite app_nil_r in E. subst p. split; [exact Hi|]. split; [reflexivity|]. intros p' u q' X'. destruct p'; discriminate.
    - destruct (Hone x p u q E Hi) as (o & x1 & E1 & I1 & D). destruct (IH (p ++ [u]) x1) as (os & x2 & E2 & I2 & L & N); [rewrite <- app_assoc; exact E|exact I1|].
      exists (o :: os), x2. cbn [row_by_row]. rewrite E1, E2. split; [reflexivity|]. split; [exact I2|]. split; [cbn [length]; now rewrite L|].
      intros p' u' q' X'. destruct p' as [|v p'].
      + cbn [app] in X'. injection X' as <- <-. exists o. rewrite app_nil_r. auto.
      + cbn [app] in X'. injection X' as <- X'. destruct (N p' u' q' X') as (o' & No & Do). exists o'. cbn [length nth_error]. split; [exact No|]. rewrite <- app_assoc in Do. exact Do.
  Qed.
End Uses.

Lemma since_snoc : forall (A : Type) (p : list (use A)) u, since (p ++ [u]) = match u with Row a => since p ++ [a] | _ => [] end.
Proof. intros A p u. unfold since. rewrite fold_left_app. reflexivity. Qed.
