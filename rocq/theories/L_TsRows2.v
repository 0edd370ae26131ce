(** The time series imputer treats related rows alike (C68). *)
From Verif Require Import Base L_List M_Estimator M_Stats M_Pipeline M_Keyed S_Keyed L_Keyed M_TsImpute M_TsSave M_TsRows S_TsRows.
Open Scope Z_scope.

Definition rres {A B} (R : A -> B -> Prop) (x : res A) (y : res B) : Prop :=
  match x, y with
  | Ok a, Ok b => R a b
  | Throw e, Throw e' => e = e'
  | UB, UB => True
  | _, _ => False
  end.
Lemma rres_bind {A B A' B'} (R : A -> B -> Prop) (Q : A' -> B' -> Prop) x y f g :
  rres R x y -> (forall a b, R a b -> rres Q (f a) (g b)) -> rres Q (bind x f) (bind y g).
Proof. destruct x, y; cbn; intros H F; try contradiction; auto. Qed.
Lemma forall2_rev {A B} (R : A -> B -> Prop) l m : Forall2 R l m -> Forall2 R (rev l) (rev m).
Proof. induction 1 as [|a b l m H _ IH]; cbn; [constructor|]. apply Forall2_app; [exact IH|]. now repeat constructor. Qed.
Lemma forall2_last {A B} (R : A -> B -> Prop) l m d e : Forall2 R l m -> R d e -> R (last l d) (last m e).
Proof.
  intros H Hd. induction H as [|a b l m H Hl IH]; [exact Hd|]. destruct Hl as [|a' b' l m H' Hl]; [exact H|exact IH].
Qed.

Section Related.
  Context {K1 K2 C1 C2 : Type}.
  Variables (eq1 lt1 : K1 -> K1 -> bool) (eq2 lt2 : K2 -> K2 -> bool).
  Variable KR : K1 -> K2 -> Prop.
  Variable R : Z -> C1 -> C2 -> Prop.
  Variable ids : list Z.

  Definition orel (id : Z) (x : option C1) (y : option C2) : Prop :=
    match x, y with Some a, Some b => R id a b | None, None => True | _, _ => False end.
  Definition crel (l : list Z) : list (option C1) -> list (option C2) -> Prop := each3 orel l.
  Definition trel (r : bool * Z * list (option C1)) (s : bool * Z * list (option C2)) : Prop :=
    r_added r = r_added s /\ r_time r = r_time s /\ crel ids (r_cells r) (r_cells s).
  Definition rows_rel := Forall2 trel.
  Definition irel (x : Z * list (option C1)) (y : Z * list (option C2)) : Prop := fst x = fst y /\ crel ids (snd x) (snd y).
  Definition srel (x : (bool * Z * list (option C1)) * list (bool * Z * list (option C1))) (y : (bool * Z * list (option C2)) * list (bool * Z * list (option C2))) : Prop :=
    trel (fst x) (fst y) /\ rows_rel (snd x) (snd y).
  Definition some_rel {A B} (Q : A -> B -> Prop) (x : option A) (y : option B) : Prop :=
    match x, y with Some a, Some b => Q a b | None, None => True | _, _ => False end.
  Definition mrel : list Z -> list C1 -> list C2 -> Prop := each3 (fun id a b => supports_median id = true -> R id a b).

  Variable c1 : config (K := K1) (C := C1).
  Variable c2 : config (K := K2) (C := C2).
  Hypothesis Hfreq : ts_freq c1 = ts_freq c2.
  Hypothesis Hsuppress : ts_suppress c1 = ts_suppress c2.

  Lemma crel_length l x y : crel l x y -> length x = length l /\ length y = length l.
  Proof. induction 1 as [|? ? ? ? ? ? _ _ [H1 H2]]; cbn; [auto|]. now rewrite H1, H2. Qed.
  Lemma crel_nulls l : crel l (repeat None (length l)) (repeat None (length l)).
  Proof. induction l as [|a l IH]; cbn; constructor; [exact I|exact IH]. Qed.

  Lemma gen_related f : forall temp t w, w = length ids -> rres rows_rel (gen_loop c1 f temp t w) (gen_loop c2 f temp t w).
  Proof.
    induction f as [|f IH]; intros temp t w Hw; cbn [gen_loop]; destruct (temp <? t); try exact I; try (cbn; constructor).
    rewrite <- Hfreq. unfold tick_add. destruct (in_i64 (temp + ts_freq c1)); cbn [bind]; [|exact I].
    eapply rres_bind; [apply IH, Hw|]. intros a b H. cbn. constructor; [|exact H]. split; [reflexivity|]. split; [reflexivity|].
    cbn. rewrite Hw. apply crel_nulls.
  Qed.
  Lemma generate_related x y last : irel x y -> rres rows_rel (generate_rows c1 x last) (generate_rows c2 y last).
  Proof.
    intros [H1 H2]. unfold generate_rows. rewrite <- Hfreq, <- H1. unfold tick_add.
    destruct (in_i64 (last + ts_freq c1)); cbn [bind]; [|exact I].
    destruct (crel_length _ _ _ H2) as [L1 L2]. rewrite L1, L2.
    eapply rres_bind; [now apply gen_related|]. intros a b H. cbn. apply Forall2_app; [exact H|].
    constructor; [|constructor]. split; [reflexivity|]. split; [reflexivity|exact H2].
  Qed.
  Lemma impute_related l : forall p q x y, crel l p q -> crel l x y -> rres (crel l) (impute p x) (impute q y).
  Proof.
    induction l as [|id l IH]; intros p q x y Hp Hx; inversion Hx as [|? u v ? us vs Hu Hus]; subst; [constructor|].
    inversion Hp as [|? a b ? as' bs Ha Has]; subst. cbn [impute tl].
    destruct u as [u|], v as [v|]; try contradiction.
    - eapply rres_bind; [now apply IH|]. intros c d H. constructor; assumption.
    - eapply rres_bind; [now apply IH|]. intros c d H. constructor; assumption.
  Qed.
  Lemma nulls_related l x y : crel l x y -> no_nulls x = no_nulls y.
  Proof. induction 1 as [|id u v l x y Hu _ IH]; [reflexivity|]. unfold no_nulls in *. cbn [forallb]. rewrite IH. destruct u, v; try contradiction; reflexivity. Qed.
  Lemma impute_rows_related rs : forall ss p q, rows_rel rs ss -> crel ids p q -> rres rows_rel (impute_rows p rs) (impute_rows q ss).
  Proof.
    induction rs as [|r rs IH]; intros ss p q H Hp; inversion H as [|? s ? ss' Hr Hrs]; subst; [constructor|]. cbn [impute_rows].
    destruct Hr as (H1 & H2 & H3). eapply rres_bind; [exact (impute_related _ _ _ _ _ Hp H3)|]. intros a b Hab.
    eapply rres_bind; [now apply IH|]. intros a' b' Hab'. cbn. constructor; [|exact Hab']. rewrite H1, H2. split; [reflexivity|]. split; [reflexivity|exact Hab].
  Qed.
  Lemma median_related l : forall x y m n, crel l x y -> some_rel (mrel l) m n -> rres (crel l) (median_cells c1 l m x) (median_cells c2 l n y).
  Proof.
    induction l as [|id l IH]; intros x y m n Hx Hm; inversion Hx as [|? u v ? us vs Hu Hus]; subst; [constructor|]. cbn [median_cells].
    eapply (rres_bind (orel id)).
    - destruct (supports_median id) eqn:E; [|exact Hu]. destruct u as [u|], v as [v|]; try contradiction; [exact Hu|].
      destruct m as [m|], n as [n|]; try contradiction.
      + cbn in Hm. inversion Hm as [|? a b ? as' bs Ha Has]; subst. cbn. now apply Ha.
      + rewrite <- Hsuppress. destruct (ts_suppress c1); cbn; [exact I|reflexivity].
    - intros a b Hab. eapply rres_bind.
      + apply IH; [exact Hus|]. destruct m as [m|], n as [n|]; try contradiction; [|exact I]. cbn in Hm |- *. inversion Hm; subst. assumption.
      + intros a' b' H. constructor; assumption.
  Qed.
  Hypothesis Htypes1 : ts_types c1 = ids.
  Hypothesis Htypes2 : ts_types c2 = ids.
  Definition medians_related : Prop := ts_strategy c1 = Median -> forall a b, KR a b -> some_rel (mrel ids) (ts_medians c1 a) (ts_medians c2 b).
  Hypothesis Hmedians : medians_related.
  Lemma median_rows_related k k' rs : ts_strategy c1 = Median -> KR k k' -> forall ss, rows_rel rs ss -> rres rows_rel (median_rows c1 k rs) (median_rows c2 k' ss).
  Proof.
    intros Hs Hk. unfold median_rows. rewrite Htypes1, Htypes2. pose proof (Hmedians Hs k k' Hk) as Hm.
    induction rs as [|r rs IH]; intros ss H; [inversion H; constructor|]. destruct ss as [|s ss]; [inversion H|].
    assert (Hr : trel r s) by (inversion H; assumption). assert (Hrs : rows_rel rs ss) by (inversion H; assumption). cbn [mapM].
    destruct Hr as (H1 & H2 & H3). eapply (rres_bind trel); [eapply rres_bind; [apply (median_related ids _ _ _ _ H3 Hm)|]|].
    - intros a b Hab. cbn. rewrite H1, H2. split; [reflexivity|]. split; [reflexivity|exact Hab].
    - intros a b Hab. eapply rres_bind; [now apply IH|]. intros a' b' Hab'. cbn. constructor; assumption.
  Qed.
  Lemma split_related rs : forall ss, rows_rel rs ss -> rows_rel (fst (split_complete rs)) (fst (split_complete ss)) /\ rows_rel (snd (split_complete rs)) (snd (split_complete ss)).
  Proof.
    induction rs as [|r rs IH]; intros ss H; [inversion H; split; constructor|]. destruct ss as [|s ss]; [inversion H|].
    assert (Hr : trel r s) by (inversion H; assumption). assert (Hrs : rows_rel rs ss) by (inversion H; assumption). cbn [split_complete].
    destruct Hr as (H1 & H2 & H3). rewrite (nulls_related _ _ _ H3). destruct (no_nulls (r_cells s)).
    - destruct (IH ss Hrs) as [A B]. destruct (split_complete rs), (split_complete ss). cbn in *. split; [|exact B].
      constructor; [|exact A]. split; [exact H1|]. split; [exact H2|exact H3].
    - cbn. split; [constructor|exact H].
  Qed.
  Hypothesis Hstrategy : ts_strategy c1 = ts_strategy c2.

  Definition out_rel (x : list (bool * Z * list (option C1)) * ((bool * Z * list (option C1)) * list (bool * Z * list (option C1))))
      (y : list (bool * Z * list (option C2)) * ((bool * Z * list (option C2)) * list (bool * Z * list (option C2)))) : Prop :=
    rows_rel (fst x) (fst y) /\ srel (snd x) (snd y).
  Lemma body_related k k' st st' x y : KR k k' -> srel st st' -> irel x y -> rres out_rel (ts_body c1 k st x) (ts_body c2 k' st' y).
  Proof.
    intros Hk Hs Hx. destruct st as [prev buf], st' as [prev' buf']. destruct Hs as [Hp Hb]. cbn in Hp, Hb. unfold ts_body. rewrite <- Hstrategy.
    pose proof Hp as (_ & Ht & Hc).
    destruct (ts_strategy c1) eqn:Es.
    - eapply rres_bind; [rewrite Ht; apply (generate_related _ _ _ Hx)|]. intros g g' Hg.
      eapply rres_bind; [apply (impute_rows_related _ _ _ _ Hg Hc)|]. intros a b H. cbn. split; [exact H|]. split; [|exact Hb].
      cbn. unfold back. now apply forall2_last.
    - eapply rres_bind; [rewrite Ht; apply (generate_related _ _ _ Hx)|]. intros g g' Hg. cbv zeta.
      assert (Hbg : rows_rel (buf ++ g) (buf' ++ g')) by (apply Forall2_app; assumption).
      eapply rres_bind.
      + apply impute_rows_related; [now apply forall2_rev|]. assert (T : trel (back (buf ++ g) prev) (back (buf' ++ g') prev')) by (unfold back; now apply forall2_last).
        apply T.
      + intros a b H. pose proof (split_related _ _ (forall2_rev _ _ _ H)) as [A B].
        destruct (split_complete (rev a)), (split_complete (rev b)). cbn in A, B |- *. split; [exact A|]. split; [|exact B].
        cbn. unfold back. apply forall2_last; [now apply forall2_rev|exact Hp].
    - eapply rres_bind; [rewrite Ht; apply (generate_related _ _ _ Hx)|]. intros g g' Hg.
      eapply rres_bind; [apply (median_rows_related _ _ _ Es Hk _ Hg)|]. intros a b H. cbn. split; [exact H|]. split; [|exact Hb].
      cbn. unfold back. now apply forall2_last.
    - reflexivity.
  Qed.
  Lemma step_related k k' st st' x y : KR k k' -> some_rel srel st st' -> irel x y ->
    rows_rel (fst (ts_step c1 k st x)) (fst (ts_step c2 k' st' y)) /\ rres srel (snd (ts_step c1 k st x)) (snd (ts_step c2 k' st' y)).
  Proof.
    intros Hk Hs Hx. unfold ts_step.
    assert (G : rres out_rel
      (match st with Some s => if fst x <? r_time (fst s) then Throw RuntimeError else ts_body c1 k s x | None => ts_body c1 k ((false, fst x, snd x), []) x end)
      (match st' with Some s => if fst y <? r_time (fst s) then Throw RuntimeError else ts_body c2 k' s y | None => ts_body c2 k' ((false, fst y, snd y), []) y end)).
    { destruct st as [s|], st' as [s'|]; try contradiction.
      - cbn in Hs. pose proof Hs as ((_ & Ht & _) & _). pose proof Hx as (Hf & _). rewrite Ht, Hf. destruct (fst y <? r_time (fst s')); [reflexivity|].
        now apply body_related.
      - apply body_related; [exact Hk| |exact Hx]. destruct Hx as [Hf Hc]. split; [|constructor]. split; [reflexivity|]. split; [exact Hf|exact Hc]. }
    destruct (match st with Some s => _ | None => _ end) as [[o s]|e|], (match st' with Some s => _ | None => _ end) as [[o' s']|e'|]; try contradiction; cbn in G |- *.
    - destruct G as [G1 G2]. split; assumption.
    - split; [constructor|exact G].
    - split; [constructor|exact I].
  Qed.

  Hypothesis Hord1 : key_order eq1 lt1.
  Hypothesis Hord2 : key_order eq2 lt2.
  Hypothesis Hkeys : forall a b a' b', KR a b -> KR a' b' -> eq1 a a' = eq2 b b'.

  Notation state1 := (list (K1 * ((bool * Z * list (option C1)) * list (bool * Z * list (option C1))))).
  Notation state2 := (list (K2 * ((bool * Z * list (option C2)) * list (bool * Z * list (option C2))))).
  Definition map_rel (m : state1) (n : state2) : Prop := forall a b, KR a b -> some_rel srel (k_find eq1 m a) (k_find eq2 n b).
  Lemma set_related m n k k' s t : map_rel m n -> KR k k' -> srel s t -> map_rel (k_set eq1 lt1 m k s) (k_set eq2 lt2 n k' t).
  Proof.
    intros Hm Hk Hs a b Hab. rewrite (find_set eq1 lt1 Hord1), (find_set eq2 lt2 Hord2). rewrite (Hkeys _ _ _ _ Hk Hab).
    destruct (eq2 k' b); [exact Hs|]. now apply Hm.
  Qed.
  Definition krel {A B} (Q : A -> B -> Prop) (x : K1 * A) (y : K2 * B) : Prop := KR (fst x) (fst y) /\ Q (snd x) (snd y).
  Lemma exec_related m n x y : map_rel m n -> krel irel x y ->
    let T1 := ts_transformer eq1 lt1 c1 in let T2 := ts_transformer eq2 lt2 c2 in
    Forall2 (krel trel) (fst (t_exec T1 m x)) (fst (t_exec T2 n y)) /\ rres map_rel (snd (t_exec T1 m x)) (snd (t_exec T2 n y)).
  Proof.
    intros Hm [Hk Hx]. cbv zeta. unfold ts_transformer. cbn [t_exec]. unfold keyed_exec.
    pose proof (step_related _ _ _ _ _ _ Hk (Hm _ _ Hk) Hx) as [A B].
    destruct (ts_step c1 (fst x) (k_find eq1 m (fst x)) (snd x)) as [o r], (ts_step c2 (fst y) (k_find eq2 n (fst y)) (snd y)) as [o' r'].
    cbn [fst snd] in *. split.
    - clear B. induction A as [|a b l l' Hab _ IH]; cbn; constructor; [|exact IH]. split; [exact Hk|exact Hab].
    - eapply rres_bind; [exact B|]. intros a b Hab. cbn. now apply set_related.
  Qed.
  Lemma refused_related m n x y : map_rel m n -> krel irel x y -> map_rel (ts_refused eq1 lt1 c1 m x) (ts_refused eq2 lt2 c2 n y).
  Proof.
    intros Hm [Hk Hx]. unfold ts_refused. rewrite <- Hstrategy. pose proof (Hm _ _ Hk) as H.
    destruct (ts_strategy c1); try exact Hm.
    destruct (k_find eq1 m (fst x)), (k_find eq2 n (fst y)); try contradiction; [exact Hm|].
    apply set_related; [exact Hm|exact Hk|]. destruct Hx as [Hf Hc]. split; [|constructor]. split; [reflexivity|]. split; [exact Hf|exact Hc].
  Qed.
End Related.
