From Flocq Require Import IEEE754.BinarySingleNaN.
From Verif Require Import Base L_List M_Estimator M_Stats S_Stats L_Stats M_Pipeline M_Keyed S_Keyed L_Keyed M_Scale M_TsImpute S_TsImpute L_TsImpute L_TsImpute3.

Section Median.
  Context {K : Type}.
  Variable keqb klt : K -> K -> bool.
  Hypothesis Hord : key_order keqb klt.
  Variable types : list Z.
  Notation double := (binary_float 53 1024).
  Notation w := (length types).

  Definition cell_step (t : Z) (e : double * Z) (x : option double) : double * Z :=
    match x with Some v => if supports_median t then (fadd (fst e) v, snd e + 1) else e | None => e end.
  Lemma med_row_ok : forall row ts s, length ts = length row -> length s = length row ->
    exists s', med_row ts s row = Ok s' /\ length s' = length row /\
      forall i, (i < length row)%nat -> nth i s' (fzero, 0) = cell_step (nth i ts 0) (nth i s (fzero, 0)) (nth i row None).
  Proof using Type.
    clear. induction row as [|x row IH]; intros ts s Ht Hs; cbn [length] in *.
    - exists s. split; [reflexivity|]. split; [exact Hs|]. intros i Hi. lia.
    - destruct ts as [|t ts]; [discriminate|]. destruct s as [|e s]; [discriminate|]. cbn [length] in *. destruct (IH ts s) as [s' [E [El Hn]]]; [lia|lia|].
      assert (G : med_row (t :: ts) (e :: s) (x :: row) = Ok (cell_step t e x :: s')).
      { cbn [med_row tl]. destruct x as [v|]; [|rewrite E; reflexivity]. cbn [cell_step]. destruct (supports_median t); [|rewrite E; reflexivity]. destruct e as [a n]. rewrite E. reflexivity. }
      exists (cell_step t e x :: s'). split; [exact G|]. split; [cbn [length]; lia|]. intros [|i] Hi; cbn [nth]; [reflexivity|]. apply Hn. lia.
  Qed.
  (** The machine of one key. *)
  Definition med_step (k : K) (s : option (list (double * Z))) (row : list (option double)) : list unit * res (list (double * Z)) :=
    ([], med_row types (match s with Some s => s | None => repeat (fzero, 0) (length row) end) row).
  Lemma fold_keyed : forall l m, foldM (med_fit keqb klt types) m l = snd (feed (keyed_exec keqb klt med_step) m l).
  Proof using Type.
    clear. induction l as [|x l IH]; intros m; [reflexivity|]. cbn [foldM feed]. unfold keyed_exec at 1. cbn [med_step]. unfold med_fit at 1.
    destruct (med_row types _ (snd x)) as [s| |]; cbn [bind]; [|reflexivity|reflexivity]. rewrite IH.
    destruct (feed (keyed_exec keqb klt med_step) (k_set keqb klt m (fst x) s) l). reflexivity.
  Qed.
  Definition colstat (t : Z) (l : list (option double)) (e : double * Z) : double * Z := fold_left (cell_step t) l e.
  Lemma alone_med : forall k rows s, Forall (fun r => length r = w) rows -> length s = w ->
    exists s', alone (med_step k) (Some s) rows = ([], Ok (Some s')) /\ length s' = w /\
      forall i, (i < w)%nat -> nth i s' (fzero, 0) = colstat (nth i types 0) (cells_of i rows) (nth i s (fzero, 0)).
  Proof using Type.
    clear. intros k rows. induction rows as [|r rows IH]; intros s H Hs.
    - exists s. split; [reflexivity|]. split; [exact Hs|]. reflexivity.
    - inversion H as [|? ? Hr H']; subst. rewrite alone_cons. cbn [med_step]. destruct (med_row_ok r types s) as [s1 [E [El Hn]]]; [congruence|congruence|]. rewrite E.
      destruct (IH s1 H') as [s' [E' [El' Hn']]]; [congruence|]. rewrite E'. exists s'. split; [reflexivity|]. split; [exact El'|]. intros i Hi. rewrite Hn' by exact Hi. cbn [cells_of map]. unfold colstat. cbn [fold_left]. f_equal. apply Hn. congruence.
  Qed.
  Lemma alone_med_first : forall k rows, Forall (fun r => length r = w) rows -> rows <> [] ->
    exists s', alone (med_step k) None rows = ([], Ok (Some s')) /\ length s' = w /\
      forall i, (i < w)%nat -> nth i s' (fzero, 0) = colstat (nth i types 0) (cells_of i rows) (fzero, 0).
  Proof using Type.
    clear. intros k [|r rows] H Hn; [contradiction|]. inversion H as [|? ? Hr H']; subst.
    assert (E : alone (med_step k) None (r :: rows) = alone (med_step k) (Some (repeat (fzero, 0) (length r))) (r :: rows)) by (rewrite !alone_cons; reflexivity).
    rewrite E. destruct (alone_med k (r :: rows) (repeat (fzero, 0) (length r)) H) as [s' [E' [El Hs]]]; [now rewrite repeat_length|]. exists s'. split; [exact E'|]. split; [exact El|]. intros i Hi. rewrite Hs by exact Hi. f_equal. apply nth_repeat.
  Qed.
  Lemma colstat_float : forall t l e, supports_median t = true -> colstat t l e = (fold_left fadd (somes l) (fst e), snd e + Z.of_nat (length (somes l))).
  Proof using Type.
    clear. intros t l e Ht. revert e. unfold colstat. induction l as [|x l IH]; intros e; cbn [fold_left somes flat_map].
    - destruct e; cbn [fst snd length]. f_equal. lia.
    - rewrite IH. destruct x as [v|]; cbn [cell_step].
      + rewrite Ht. cbn [fst snd app fold_left length]. fold (somes l). f_equal. lia.
      + reflexivity.
  Qed.
  Lemma colstat_other : forall t l e, supports_median t = false -> colstat t l e = e.
  Proof using Type. clear. intros t l e Ht. revert e. unfold colstat. induction l as [|x l IH]; intros e; cbn [fold_left]; [reflexivity|]. rewrite IH. destruct x; cbn [cell_step]; [now rewrite Ht|reflexivity]. Qed.

  Definition value_of (t : Z) (e : double * Z) : double := if supports_median t then fdiv (fst e) (of_int (snd e)) else fst e.
  Lemma med_finish_ok : forall s ts, length ts = length s -> (forall i, (i < length s)%nat -> supports_median (nth i ts 0) = true -> snd (nth i s (fzero, 0)) <> 0) ->
    exists v, med_finish ts s = Ok v /\ length v = length s /\ forall i, (i < length s)%nat -> nth i v fzero = value_of (nth i ts 0) (nth i s (fzero, 0)).
  Proof using Type.
    clear. induction s as [|[a n] s IH]; intros ts Ht Hz; cbn [length] in *.
    - exists []. destruct ts; (split; [reflexivity|]; split; [reflexivity|]; intros i Hi; lia).
    - destruct ts as [|t ts]; [discriminate|]. cbn [length] in Ht. destruct (IH ts) as [v [E [El Hn]]]; [lia|intros i Hi; apply (Hz (S i)); lia|].
      assert (G : med_finish (t :: ts) ((a, n) :: s) = Ok (value_of t (a, n) :: v)).
      { cbn [med_finish]. unfold value_of. cbn [fst snd]. destruct (supports_median t) eqn:S1; [|cbn [bind]; rewrite E; reflexivity].
        destruct (n =? 0) eqn:En; [exfalso; specialize (Hz 0%nat ltac:(lia) S1); cbn [nth snd] in Hz; lia|]. cbn [bind]. rewrite E. reflexivity. }
      exists (value_of t (a, n) :: v). split; [exact G|]. split; [cbn [length]; lia|]. intros [|i] Hi; cbn [nth]; [reflexivity|]. apply Hn. lia.
  Qed.
  Lemma med_finish_bad : forall s ts i, length ts = length s -> (i < length s)%nat -> supports_median (nth i ts 0) = true -> snd (nth i s (fzero, 0)) = 0 ->
    med_finish ts s = Throw RuntimeError.
  Proof using Type.
    clear. induction s as [|[a n] s IH]; intros ts i Ht Hi S1 Hz; cbn [length] in *; [lia|]. destruct ts as [|t ts]; [discriminate|]. cbn [length] in Ht. cbn [med_finish].
    destruct (supports_median t && (n =? 0)) eqn:B.
    - apply andb_true_iff in B. destruct B as [-> ->]. reflexivity.
    - destruct i as [|i]; cbn [nth snd] in *; [rewrite S1 in B; subst n; discriminate|]. destruct (supports_median t); [cbn [andb] in B; rewrite B|]; cbn [bind]; rewrite (IH ts i) by (try assumption; lia); reflexivity.
  Qed.

  Notation finish := (fun m => mapM (fun e : K * list (double * Z) => do v <- med_finish types (snd e); Ok (fst e, v)) m).
  Lemma finish_ok : forall m, (forall k s, In (k, s) m -> exists v, med_finish types s = Ok v) ->
    exists r, finish m = Ok r /\ forall k, match k_find keqb m k with
                                           | Some s => exists v, med_finish types s = Ok v /\ m_find keqb r k = Some v
                                           | None => m_find keqb r k = None end.
  Proof using Type.
    clear. induction m as [|[k0 s0] m IH]; intros H; cbn [mapM]; [exists []; split; [reflexivity|intros; reflexivity]|].
    destruct IH as [r [E Hr]]; [intros; apply (H k s); now right|]. destruct (H k0 s0) as [v0 E0]; [now left|]. cbn [fst snd]. rewrite E0. cbn [bind]. rewrite E. cbn [bind]. exists ((k0, v0) :: r). split; [reflexivity|].
    intros k. unfold k_find in *. cbn [m_find]. destruct (keqb k0 k); [exists v0; split; [exact E0|reflexivity]|apply Hr].
  Qed.
  Lemma finish_bad : forall m k s, In (k, s) m -> (forall k s, In (k, s) m -> (exists v, med_finish types s = Ok v) \/ med_finish types s = Throw RuntimeError) ->
    med_finish types s = Throw RuntimeError -> finish m = Throw RuntimeError.
  Proof using Type.
    clear. induction m as [|[k0 s0] m IH]; intros k s Hin Ha Hb; [destruct Hin|]. cbn [mapM fst snd]. destruct (Ha k0 s0) as [[v E]|E]; [now left| |rewrite E; reflexivity]. rewrite E. cbn [bind].
    destruct Hin as [[= <- <-]|Hin]; [congruence|]. rewrite (IH k s Hin); [reflexivity| |exact Hb]. intros k1 s1 H1. apply (Ha k1 s1). now right.
  Qed.
  Lemma in_find : forall (m : list (K * list (double * Z))) k s, ascending klt m -> In (k, s) m -> k_find keqb m k = Some s.
  Proof using Hord.
    pose proof Hord as [He [Irr _]]. intros m k s. unfold k_find. induction m as [|[a v] m IH]; intros Ha Hin; [destruct Hin|]. inversion Ha as [|? ? A1 A2]; subst. cbn [m_find]. destruct Hin as [[= -> ->]|Hin].
    - rewrite (keqb_refl keqb klt Hord). reflexivity.
    - destruct (keqb a k) eqn:E; [|now apply IH]. apply (keqb_eq keqb klt Hord) in E. subst a. rewrite Forall_forall in A2. specialize (A2 _ Hin). cbn [fst] in A2. rewrite Irr in A2. discriminate.
  Qed.

  Variable mx : nat.
  Variable bs : list (list (K * list (option double))).
  Hypothesis Hp : proper_training mx bs.
  Hypothesis Hw : Forall (fun x => length (snd x) = w) (items mx bs).
  Notation rows k := (of_key keqb k (items mx bs)).
  Lemma rows_wide : forall k, Forall (fun r => length r = w) (rows k).
  Proof using Hw.
    intros k. unfold of_key. apply Forall_map, Forall_forall. intros x Hx. apply filter_In in Hx. rewrite Forall_forall in Hw. exact (Hw x (proj1 Hx)).
  Qed.
  Lemma trained_state : exists m, foldM (med_fit keqb klt types) [] (items mx bs) = Ok m /\ ascending klt m /\
    forall k, match k_find keqb m k with
              | Some s => rows k <> [] /\ length s = w /\ forall i, (i < w)%nat -> nth i s (fzero, 0) = colstat (nth i types 0) (cells_of i (rows k)) (fzero, 0)
              | None => rows k = []
              end.
  Proof using Hord Hw.
    destruct (keyed_ok keqb klt Hord med_step (items mx bs) []) as [out [m [E H]]].
    { intros k. change (k_find keqb [] k) with (@None (list (double * Z))). destruct (rows k) as [|r q] eqn:Er; [exists None; reflexivity|].
      rewrite <- Er. destruct (alone_med_first k (rows k) (rows_wide k)) as [s' [-> _]]; [rewrite Er; discriminate|]. now exists (Some s'). }
    exists m. split; [rewrite fold_keyed, E; reflexivity|]. split; [apply (feed_ascending keqb klt Hord med_step (items mx bs) [] out m); [constructor|exact E]|].
    intros k. destruct (H k) as [_ H2]. change (k_find keqb [] k) with (@None (list (double * Z))) in H2. destruct (rows k) as [|r q] eqn:Er.
    - cbn in H2. injection H2 as <-. reflexivity.
    - rewrite <- Er in *. assert (N : rows k <> []) by (rewrite Er; discriminate). destruct (alone_med_first k (rows k) (rows_wide k) N) as [s' [Ea [El Hs]]]. rewrite Ea in H2. cbn [snd] in H2. injection H2 as <-. split; [exact N|]. split; [exact El|exact Hs].
  Qed.
  Lemma training_ok :
    (forall k c, rows k <> [] -> (c < w)%nat -> float_column (nth c types 0) = true -> somes (cells_of c (rows k)) <> []) ->
    exists m, trained (med_policy keqb klt types) mx bs = Ok (Some m) /\ forall k,
      match m_find keqb m k with
      | Some v => rows k <> [] /\ length v = w /\ forall c, (c < w)%nat -> float_column (nth c types 0) = true ->
          let col := somes (cells_of c (rows k)) in nth c v fzero = fdiv (fold_left fadd col fzero) (of_int (Z.of_nat (length col)))
      | None => rows k = []
      end.
  Proof using Hord Hp Hw.
    intros Hv. destruct trained_state as [m [E [Ha H]]]. unfold med_policy. rewrite trained_simple by exact Hp. rewrite E. cbn [bind].
    assert (Fk : forall k s, k_find keqb m k = Some s -> exists v, med_finish types s = Ok v /\ length v = w /\ forall i, (i < w)%nat -> nth i v fzero = value_of (nth i types 0) (nth i s (fzero, 0))).
    { intros k s Hs. specialize (H k). rewrite Hs in H. destruct H as [N [El Hn]]. destruct (med_finish_ok s types) as [v [Ev [Elv Hnv]]]; [congruence| |exists v; rewrite <- El; auto].
      rewrite El. intros i Hi St. rewrite Hn by exact Hi. rewrite colstat_float by exact St. cbn [fst snd]. specialize (Hv k i N Hi (eq_trans (eq_sym (supports_float _)) St)). destruct (somes (cells_of i (rows k))); [contradiction|cbn [length]; lia]. }
    destruct (finish_ok m) as [r [Er Hr]].
    { intros k s Hin. apply (in_find m k s Ha) in Hin. destruct (Fk k s Hin) as [v [Ev _]]. now exists v. }
    rewrite Er. cbn [bind]. exists r. split; [reflexivity|]. intros k. specialize (Hr k). specialize (H k). destruct (k_find keqb m k) as [s|] eqn:Es.
    - destruct Hr as [v [Ev ->]]. destruct (Fk k s Es) as [v' [Ev' [El Hn]]]. rewrite Ev in Ev'. injection Ev' as <-. destruct H as [N [Els Hs]]. split; [exact N|]. split; [exact El|]. intros c Hc Hfl. rewrite <- supports_float in Hfl. rewrite Hn by exact Hc.
      unfold value_of. rewrite Hfl, Hs by exact Hc. rewrite colstat_float by exact Hfl. reflexivity.
    - rewrite Hr. exact H.
  Qed.
  Lemma training_bad : forall k c, rows k <> [] -> (c < w)%nat -> float_column (nth c types 0) = true -> somes (cells_of c (rows k)) = [] ->
    trained (med_policy keqb klt types) mx bs = Throw RuntimeError.
  Proof using Hord Hp Hw.
    intros k c N Hc Hfl Hnone. rewrite <- supports_float in Hfl. destruct trained_state as [m [E [Ha H]]]. unfold med_policy. rewrite trained_simple by exact Hp. rewrite E. cbn [bind].
    assert (Hs : forall k s, k_find keqb m k = Some s -> (exists v, med_finish types s = Ok v) \/ med_finish types s = Throw RuntimeError).
    { intros k0 s Hk. specialize (H k0). rewrite Hk in H. destruct H as [_ [El _]]. clear -El. revert s El. induction types as [|t ts IH]; intros [|[a n] s] El; cbn [length] in El; try discriminate; [left; now exists []|].
      cbn [med_finish]. destruct (IH s) as [[v E]|E]; [lia| |]; rewrite E; destruct (supports_median t); [destruct (n =? 0)| |destruct (n =? 0)|]; cbn [bind]; eauto. }
    pose proof (H k) as Hk. destruct (k_find keqb m k) as [s|] eqn:Es; [|contradiction]. destruct Hk as [_ [El Hn]].
    rewrite (finish_bad m k s); [reflexivity| | |].
    - clear -Es Hord. unfold k_find in Es. induction m as [|[a v] m IH]; [discriminate|]. cbn [m_find] in Es. destruct (keqb a k) eqn:Ea; [injection Es as ->; apply (keqb_eq keqb klt Hord) in Ea; subst; now left|right; now apply IH].
    - intros k0 s0 Hin. apply (Hs k0). now apply in_find.
    - apply (med_finish_bad s types c); [congruence|congruence|exact Hfl|]. rewrite Hn by exact Hc. rewrite colstat_float by exact Hfl. rewrite Hnone. reflexivity.
  Qed.
End Median.
