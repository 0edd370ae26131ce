From Verif Require Import Base L_List M_Estimator M_Stats S_Stats M_Pipeline M_Keyed S_Keyed L_Keyed S_Impute M_TsImpute S_TsImpute.

Lemma last_cons' : forall {A} (x : A) l d, last (x :: l) d = last l x.
Proof. intros A x l. revert x. induction l as [|y l IH]; intros x d; [reflexivity|]. change (last (y :: l) d = last (y :: l) x). now rewrite !IH. Qed.
Section Imputer.
  Context {K C : Type}.
  Notation cells := (list (option C)).
  Notation row := (bool * Z * cells)%type.

  (** ** Gaps *)
  Definition gap_row (w : nat) (m : Z) : row := (true, m, repeat None w).
  Variable cfg : config (K := K) (C := C).
  Notation freq := (ts_freq cfg).
  Hypothesis Hf : 0 < freq.

  Lemma div_gap : forall d, 0 < d -> d <= freq -> (d - 1) / freq = 0.
  Proof using Hf. intros d H1 H2. apply Z.div_small. lia. Qed.
  Lemma missing_none : forall a t, t <= a + freq -> missing freq a t = [].
  Proof using Hf.
    intros a t H. unfold missing. assert (Z.to_nat ((t - a - 1) / freq) = 0%nat) as ->; [|reflexivity].
    destruct (Z.lt_ge_cases 0 (t - a)) as [L|L].
    - replace (t - a - 1) with ((t - a) - 1) by lia. rewrite div_gap by lia. reflexivity.
    - assert ((t - a - 1) / freq < 0); [|lia]. apply Z.div_lt_upper_bound; lia.
  Qed.
  Lemma missing_some : forall a t, a + freq < t -> missing freq a t = (a + freq) :: missing freq (a + freq) t.
  Proof using Hf.
    intros a t H. unfold missing. replace ((t - a - 1) / freq) with ((t - (a + freq) - 1) / freq + 1).
    - assert (0 <= (t - (a + freq) - 1) / freq) by (apply Z.div_pos; lia). rewrite Z2Nat.inj_add by lia. change (Z.to_nat 1) with 1%nat.
      rewrite Nat.add_1_r. cbn [seq map]. f_equal; [lia|]. rewrite <- seq_shift, map_map. apply map_ext. intros i. lia.
    - replace (t - a - 1) with (t - (a + freq) - 1 + 1 * freq) by lia. rewrite Z.div_add by lia. reflexivity.
  Qed.
  Lemma gen_loop_ok : forall fuel a t w, a <= t -> t - a <= Z.of_nat fuel -> in_i64 (a + freq) = true -> in_i64 (t + freq) = true ->
    gen_loop cfg fuel (a + freq) t w = Ok (map (gap_row w) (missing freq a t)).
  Proof using Hf.
    induction fuel as [|fuel IH]; intros a t w H1 H2 H3 H4; cbn [gen_loop].
    - destruct (a + freq <? t) eqn:E; [lia|]. rewrite missing_none by lia. reflexivity.
    - destruct (a + freq <? t) eqn:E; [|rewrite missing_none by lia; reflexivity].
      unfold tick_add. assert (G : in_i64 (a + freq + freq) = true) by (unfold in_i64, i64_min, i64_max in *; lia). rewrite G. cbn [bind].
      rewrite IH by lia. cbn [bind]. rewrite (missing_some a t) by lia. reflexivity.
  Qed.
  Lemma generate_rows_ok : forall t (c : cells) a, a <= t -> in_i64 (a + freq) = true -> in_i64 (t + freq) = true ->
    generate_rows cfg (t, c) a = Ok (map (gap_row (length c)) (missing freq a t) ++ [(false, t, c)]).
  Proof using Hf.
    intros t c a H1 H2 H3. unfold generate_rows, tick_add. rewrite H2. cbn [bind fst snd]. rewrite gen_loop_ok by (try assumption; lia).
    reflexivity.
  Qed.
  Lemma gaps_after_app : forall l1 l2 a, gaps_after freq a (l1 ++ l2) = gaps_after freq a l1 ++ gaps_after freq (last (map fst l1) a) (l2 : list (Z * cells)).
  Proof using Type.
    clear Hf. induction l1 as [|[t c] l1 IH]; intros l2 a; [reflexivity|]. cbn [app gaps_after map fst]. rewrite IH, <- app_assoc. cbn [app]. f_equal. f_equal. f_equal.
    now rewrite last_cons'.
  Qed.

  (** ** Cells *)
  Fixpoint orz (cur prev : cells) : cells :=
    match cur with
    | [] => []
    | Some c :: cs => Some c :: orz cs (tl prev)
    | None :: cs => hd None prev :: orz cs (tl prev)
    end.
  Lemma orz_length : forall a b, length (orz a b) = length a.
  Proof using Type. clear. induction a as [|[x|] a IH]; intros b; cbn [orz length]; auto. Qed.
  Lemma orz_nth : forall a b i, nth i (orz a b) None = match nth i a None with Some v => Some v | None => if Nat.ltb i (length a) then nth i b None else None end.
  Proof using Type.
    clear. induction a as [|[x|] a IH]; intros b i; cbn [orz length]; [now destruct i| |]; destruct i as [|i]; cbn [nth]; auto.
    - rewrite IH. destruct (nth i a None); [reflexivity|]. change (Nat.ltb (S i) (S (length a))) with (Nat.ltb i (length a)). destruct (Nat.ltb i (length a)); [|reflexivity]. destruct b; [destruct i|]; reflexivity.
    - destruct b; reflexivity.
    - rewrite IH. destruct (nth i a None); [reflexivity|]. change (Nat.ltb (S i) (S (length a))) with (Nat.ltb i (length a)). destruct (Nat.ltb i (length a)); [|reflexivity]. destruct b; [destruct i|]; reflexivity.
  Qed.
  Lemma cells_ext : forall a b : cells, length a = length b -> (forall i, (i < length a)%nat -> nth i a None = nth i b None) -> a = b.
  Proof using Type. clear. intros a b H1 H2. apply (nth_ext a b None None H1). auto. Qed.
  Lemma impute_ok : forall cur prev : cells, (length cur <= length prev)%nat -> impute prev cur = Ok (orz cur prev).
  Proof using Type.
    clear. induction cur as [|[x|] cur IH]; intros [|p prev] H; cbn [length] in H; try lia; cbn [impute orz tl hd]; try reflexivity.
    - rewrite IH by lia. reflexivity.
    - rewrite IH by lia. reflexivity.
  Qed.
  Lemma orz_refl : forall a, orz a a = a.
  Proof using Type. clear. induction a as [|[x|] a IH]; cbn [orz hd tl]; [|rewrite IH|rewrite IH]; reflexivity. Qed.
  Lemma orz_nil : forall a, orz a [] = a.
  Proof using Type. clear. induction a as [|[x|] a IH]; cbn [orz hd tl]; [|rewrite IH|rewrite IH]; reflexivity. Qed.
  Lemma orz_complete : forall a b, no_nulls a = true -> orz a b = a.
  Proof using Type.
    clear. unfold no_nulls. induction a as [|[x|] a IH]; intros b H; cbn [orz forallb] in *; [reflexivity| |discriminate]. now rewrite IH.
  Qed.
  (** One row from the one before it. *)
  Definition put (r : row) (c : cells) : row := (added r, time r, c).
  Fixpoint ff (prev : cells) (rows : list row) : list row :=
    match rows with
    | [] => []
    | r :: rs => let c := orz (snd r) prev in put r c :: ff c rs
    end.
  Definition wide (w : nat) (rows : list row) : Prop := Forall (fun r => length (snd r) = w) rows.
  Lemma impute_rows_ok : forall w rows prev, wide w rows -> length prev = w -> impute_rows prev rows = Ok (ff prev rows).
  Proof using Type.
    clear. intros w. induction rows as [|r rows IH]; intros prev H Hp; [reflexivity|]. inversion H; subst. cbn [impute_rows ff].
    unfold r_cells. rewrite impute_ok by lia. cbn [bind]. rewrite IH; [reflexivity|assumption|]. rewrite orz_length. assumption.
  Qed.
  Definition lastc (prev : cells) (rows : list row) : cells := last (map snd rows) prev.
  Lemma lastc_cons : forall p r rows, lastc p (r :: rows) = lastc (snd r) rows.
  Proof using Type.
    clear. intros p r rows. unfold lastc. cbn [map]. apply last_cons'.
  Qed.
  Lemma lastc_app : forall a b p, lastc p (a ++ b) = lastc (lastc p a) b.
  Proof using Type. clear. induction a as [|r a IH]; intros b p; [reflexivity|]. cbn [app]. rewrite !lastc_cons. apply IH. Qed.
  Lemma ff_app : forall a b p, ff p (a ++ b) = ff p a ++ ff (lastc p (ff p a)) b.
  Proof using Type.
    clear. induction a as [|r a IH]; intros b p; [reflexivity|]. cbn [app ff]. rewrite IH, lastc_cons. reflexivity.
  Qed.
  Lemma ff_wide : forall w a p, wide w a -> wide w (ff p a).
  Proof using Type. clear. intros w. induction a as [|r a IH]; intros p H; [constructor|]. inversion H; subst. cbn [ff]. constructor; [apply orz_length|now apply IH]. Qed.
  Lemma lastc_wide : forall w a p, wide w a -> length p = w -> length (lastc p a) = w.
  Proof using Type. clear. intros w. induction a as [|r a IH]; intros p H Hp; [exact Hp|]. inversion H; subst. rewrite lastc_cons. now apply IH. Qed.
  Lemma ff_marks : forall a p, map (fun r => (added r, time r, length (snd r))) (ff p a) = map (fun r => (added r, time r, length (snd r))) a.
  Proof using Type. clear. induction a as [|r a IH]; intros p; [reflexivity|]. cbn [ff map]. rewrite IH. unfold put, added, time. cbn [fst snd]. now rewrite orz_length. Qed.
  Lemma ff_length : forall a p, length (ff p a) = length a.
  Proof using Type. clear. induction a as [|r a IH]; intros p; [reflexivity|]. cbn [ff length]. now rewrite IH. Qed.

  (** ** Backward *)
  Definition hdc (p : cells) (rows : list row) : cells := match rows with [] => p | r :: _ => snd r end.
  Fixpoint bf (p : cells) (rows : list row) : list row :=
    match rows with
    | [] => []
    | r :: rs => put r (orz (snd r) (hdc p (bf p rs))) :: bf p rs
    end.
  Lemma hdc_rev : forall rows p, lastc p rows = hdc p (rev rows).
  Proof using Type.
    clear. intros rows p. unfold lastc. induction rows as [|r rows IH] using rev_ind; [reflexivity|]. rewrite map_app, rev_app_distr. cbn [map rev app hdc]. now rewrite last_last.
  Qed.
  Lemma rev_ff : forall rows p, rev (ff p (rev rows)) = bf p rows.
  Proof using Type.
    clear. induction rows as [|r rows IH]; intros p; [reflexivity|]. cbn [rev bf]. rewrite ff_app, rev_app_distr, hdc_rev, IH. reflexivity.
  Qed.
  Lemma hdc_app : forall a b p, hdc p (a ++ b) = hdc (hdc p b) a.
  Proof using Type. clear. intros [|x a] b p; reflexivity. Qed.
  Lemma bf_app : forall a b p, bf p (a ++ b) = bf (hdc p (bf p b)) a ++ bf p b.
  Proof using Type.
    clear. induction a as [|r a IH]; intros b p; [reflexivity|]. cbn [app bf]. rewrite IH. cbn [app]. now rewrite hdc_app.
  Qed.
  Lemma bf_last : forall a y, bf (snd y) (a ++ [y]) = bf [] (a ++ [y]).
  Proof using Type. clear. intros a y. rewrite !bf_app. cbn [bf hdc]. now rewrite orz_refl, orz_nil. Qed.
  Lemma bf_length : forall a p, length (bf p a) = length a.
  Proof using Type. clear. induction a as [|r a IH]; intros p; [reflexivity|]. cbn [bf length]. now rewrite IH. Qed.
  Lemma bf_wide : forall w a p, wide w a -> wide w (bf p a).
  Proof using Type. clear. intros w. induction a as [|r a IH]; intros p H; [constructor|]. inversion H; subst. cbn [bf]. constructor; [apply orz_length|now apply IH]. Qed.
  Lemma bf_marks : forall a p, map (fun r => (added r, time r, length (snd r))) (bf p a) = map (fun r => (added r, time r, length (snd r))) a.
  Proof using Type. clear. induction a as [|r a IH]; intros p; [reflexivity|]. cbn [bf map]. rewrite IH. unfold put, added, time. cbn [fst snd]. now rewrite orz_length. Qed.
  (** [a] has nothing that [b] has not. *)
  Definition below (a b : cells) : Prop := forall i, nth i a None = None \/ nth i a None = nth i b None.
  Lemma hdc_below : forall w rows p, wide w rows -> below (hdc [] (bf [] rows)) (hdc p (bf p rows)).
  Proof using Type.
    clear. intros w. induction rows as [|r rows IH]; intros p H i; cbn [bf hdc].
    - left. now destruct i.
    - inversion H as [|? ? H1 H2]; subst. specialize (IH p H2 i). cbn [put snd]. rewrite !orz_nth. destruct (nth i (snd r) None); [now right|]. destruct (Nat.ltb i (length (snd r))); [|now left].
      exact IH.
  Qed.
  Lemma orz_orz : forall r a b, below a b -> orz (orz r a) b = orz r b.
  Proof using Type.
    clear. intros r a b H. apply cells_ext; [now rewrite !orz_length|]. intros i Hi. rewrite !orz_nth, !orz_length. destruct (nth i r None) eqn:E; [reflexivity|].
    destruct (Nat.ltb i (length r)); [|reflexivity]. destruct (H i) as [G|G]; rewrite G; [reflexivity|]. now destruct (nth i b None).
  Qed.
  Lemma bf_bf : forall w rows p, wide w rows -> bf p (bf [] rows) = bf p rows.
  Proof using Type.
    clear. intros w. induction rows as [|r rows IH]; intros p H; [reflexivity|]. inversion H as [|? ? H1 H2]; subst. cbn [bf]. rewrite (IH p H2). f_equal.
    cbn [put snd]. rewrite orz_orz; [reflexivity|]. apply (hdc_below _ _ _ H2).
  Qed.
  Notation split := (split_complete (C := C)).
  Lemma split_app : forall rows, fst (split rows) ++ snd (split rows) = rows.
  Proof using Type.
    clear. induction rows as [|r rows IH]; [reflexivity|]. cbn [split_complete]. destruct (no_nulls (r_cells r)); [|reflexivity].
    destruct (split rows) as [a b]. cbn [fst snd app] in *. now rewrite IH.
  Qed.
  Lemma split_fst_complete : forall rows, Forall (fun r : row => no_nulls (snd r) = true) (fst (split rows)).
  Proof using Type.
    clear. induction rows as [|r rows IH]; [constructor|]. cbn [split_complete]. destruct (no_nulls (r_cells r)) eqn:E; [|constructor].
    destruct (split rows) as [a b]. constructor; assumption.
  Qed.
  Lemma split_complete_app : forall T rows, Forall (fun r : row => no_nulls (snd r) = true) T -> split (T ++ rows) = (T ++ fst (split rows), snd (split rows)).
  Proof using Type.
    clear. induction T as [|r T IH]; intros rows H; [cbn [app]; now destruct (split rows)|]. inversion H as [|? ? H1 H2]; subst. cbn [app split_complete]. unfold r_cells at 1. rewrite H1, IH by assumption. reflexivity.
  Qed.
  Lemma bf_complete : forall T rows p, Forall (fun r : row => no_nulls (snd r) = true) T -> bf p (T ++ rows) = T ++ bf p rows.
  Proof using Type.
    clear. induction T as [|r T IH]; intros rows p H; [reflexivity|]. inversion H as [|? ? H1 H2]; subst. cbn [app bf]. rewrite IH, orz_complete by assumption. destruct r as [[a t] c]. reflexivity.
  Qed.
  Lemma bf_step : forall w g gen, wide w g -> bf [] (g ++ gen) = fst (split (bf [] g)) ++ bf [] (snd (split (bf [] g)) ++ gen).
  Proof using Type.
    clear. intros w g gen H. rewrite !bf_app, app_assoc. f_equal. rewrite <- (bf_bf w g _ H).
    rewrite <- (split_app (bf [] g)) at 1. rewrite bf_complete by apply split_fst_complete. reflexivity.
  Qed.

  (** ** Median *)
  Definition med_cell (med : option (list C)) (i : nat) (t : Z) (x : option C) : option C :=
    match x with Some v => Some v | None => if supports_median t then match med with Some ms => nth_error ms i | None => None end else None end.
  Lemma median_cells_ok : forall c types med, length types = length c ->
    match med with Some ms => (length c <= length ms)%nat | None => ts_suppress cfg = true end ->
    exists c', median_cells cfg types med c = Ok c' /\ length c' = length c /\
      forall i, (i < length c)%nat -> nth i c' None = med_cell med i (nth i types 0) (nth i c None).
  Proof using Type.
    clear Hf. induction c as [|x c IH]; intros types med Ht Hm; cbn [length] in *.
    - exists []. split; [reflexivity|]. split; [reflexivity|]. intros i Hi. lia.
    - destruct types as [|t types]; [discriminate|]. cbn [median_cells]. cbn [length] in Ht.
      destruct (IH types (option_map (@tl C) med)) as [c' [E [El Ec]]]; [lia|destruct med as [[|m ms]|]; cbn [option_map tl length] in *; try assumption; lia|].
      assert (G : exists x', (if supports_median t then match x with Some _ => Ok x | None => match med with None => if ts_suppress cfg then Ok None else Throw RuntimeError | Some [] => UB | Some (m :: _) => Ok (Some m) end end else Ok x) = Ok x' /\ x' = med_cell med 0 t x).
      { unfold med_cell. destruct x as [v|]; [exists (Some v); split; [now destruct (supports_median t)|reflexivity]|]. destruct (supports_median t); [|now exists None].
        destruct med as [[|m ms]|]; cbn [length] in Hm; [lia| |rewrite Hm; now exists None]. exists (Some m). split; reflexivity. }
      destruct G as [x' [-> ->]]. cbn [bind]. rewrite E. cbn [bind]. eexists. split; [reflexivity|]. split; [cbn [length]; lia|].
      intros [|i] Hi; cbn [nth]; [reflexivity|]. rewrite Ec by lia. unfold med_cell. destruct (nth i c None); [reflexivity|]. destruct (supports_median (nth i types 0)); [|reflexivity].
      destruct med as [[|m ms]|]; cbn [option_map tl]; try reflexivity. now destruct i.
  Qed.
  Definition med_row_of (med : option (list C)) (a b : row) : Prop :=
    added a = added b /\ time a = time b /\ length (snd a) = length (snd b) /\
    forall i, (i < length (snd b))%nat -> nth i (snd a) None = med_cell med i (nth i (ts_types cfg) 0) (nth i (snd b) None).
  Lemma median_rows_ok : forall k w rows, wide w rows -> length (ts_types cfg) = w ->
    match ts_medians cfg k with Some ms => (w <= length ms)%nat | None => ts_suppress cfg = true end ->
    exists out, median_rows cfg k rows = Ok out /\ Forall2 (med_row_of (ts_medians cfg k)) out rows.
  Proof using Type.
    clear Hf. intros k w rows Hw Ht Hm. unfold median_rows. induction Hw as [|r rows Hr Hw IH]; cbn [mapM]; [exists []; split; [reflexivity|constructor]|].
    destruct IH as [out [E F]]. destruct (median_cells_ok (snd r) (ts_types cfg) (ts_medians cfg k)) as [c [Ec [El Hc]]]; [congruence|now rewrite Hr|].
    unfold r_cells. rewrite Ec. cbn [bind]. unfold r_cells in E. rewrite E. cbn [bind]. eexists. split; [reflexivity|]. constructor; [|exact F].
    split; [reflexivity|]. split; [reflexivity|]. split; assumption.
  Qed.
End Imputer.
