From Verif Require Import Base M_Estimator M_Stats M_Pipeline M_Impute S_Stats S_Impute L_Stats L_Stats2 L_Stats3.

(** ** Forward fill *)
Section FF.
  Context {T : Type}.
  Implicit Types (l : list (option T)) (s d : option T).

  Lemma somes_cons : forall (x : option T) l, somes (x :: l) = match x with Some v => v :: somes l | None => somes l end.
  Proof using Type. intros [v|] l; reflexivity. Qed.

  (** As a recursive function. *)
  Fixpoint ff s l : list T :=
    match l with
    | [] => []
    | Some v :: r => v :: ff (Some v) r
    | None :: r => match s with Some v => v :: ff s r | None => [] end
    end.
  Lemma rev_last_app : forall (a : list T) v, match rev (a ++ [v]) with x :: _ => Some x | [] => None end = Some v.
  Proof using Type. intros a v. rewrite rev_app_distr. reflexivity. Qed.

  Lemma filled_forward_step : forall s x l i, filled_forward s (x :: l) (S i) =
    filled_forward (match x with Some v => Some v | None => s end) l i.
  Proof using Type.
    intros s x l i. unfold filled_forward. rewrite (firstn_cons (S i) x l), somes_cons. destruct x as [v|]; [|reflexivity].
    cbn [rev]. destruct (rev (somes (firstn (S i) l))); reflexivity.
  Qed.
  Lemma filled_forward_0 : forall s x l, filled_forward s (x :: l) 0 = match x with Some v => Some v | None => s end.
  Proof using Type. intros s [v|] l; reflexivity. Qed.

  Lemma ff_run : forall l s, (s <> None \/ forall r, l <> None :: r) ->
    exists s', feed ffill_exec s l = (ff s l, Ok s') /\ pointwise (ff s l) l (filled_forward s l).
  Proof using Type.
    induction l as [|x l IH]; intros s H.
    - exists s. split; [reflexivity|]. split; [reflexivity|]. cbn. intros; lia.
    - destruct x as [v|].
      + destruct (IH (Some v)) as [s' [E [P1 P2]]]; [left; discriminate|].
        exists s'. split.
        * cbn [feed ffill_exec ff]. rewrite E. reflexivity.
        * split; [cbn; now rewrite P1|]. intros [|i] Hi; [reflexivity|].
          rewrite filled_forward_step. cbn [ff nth_error]. apply P2. cbn in Hi. lia.
      + destruct s as [v|]; [|exfalso; destruct H as [H|H]; [now apply H|now apply (H l)]].
        destruct (IH (Some v)) as [s' [E [P1 P2]]]; [left; discriminate|].
        exists s'. split.
        * cbn [feed ffill_exec ff]. rewrite E. reflexivity.
        * split; [cbn; now rewrite P1|]. intros [|i] Hi; [reflexivity|].
          rewrite filled_forward_step. cbn [ff nth_error]. apply P2. cbn in Hi. lia.
  Qed.

  Lemma ffill_spec : forall d l, (d <> None \/ forall r, l <> None :: r) ->
    exists out, delivered (ffill d) l = (out, Ok tt) /\ pointwise out l (filled_forward d l).
  Proof using Type.
    intros d l H. destruct (ff_run l d H) as [s' [E P]]. exists (ff d l). split; [|exact P].
    unfold delivered, run_all, run_exec. cbn [t_exec t_cur ffill t_flush t_state]. rewrite E. cbn. now rewrite app_nil_r.
  Qed.
  Lemma ffill_no_source : forall l, delivered (ffill None) (None :: l) = ([], Throw RuntimeError).
  Proof using Type. reflexivity. Qed.
End FF.

(** ** Backward fill *)
Section BF.
  Context {T : Type}.
  Implicit Types (l : list (option T)) (d : option T).

  Lemma pointwise_app : forall (A B : Type) (o1 o2 : list B) (l1 l2 : list A) f,
    pointwise o1 l1 f -> pointwise o2 l2 (fun i => f (length l1 + i)%nat) -> pointwise (o1 ++ o2) (l1 ++ l2) f.
  Proof using Type.
    intros A B o1 o2 l1 l2 f [L1 P1] [L2 P2]. split; [rewrite !app_length; lia|]. intros i Hi. rewrite app_length in Hi.
    destruct (Nat.lt_ge_cases i (length l1)) as [H|H].
    - rewrite nth_error_app1 by lia. now apply P1.
    - rewrite nth_error_app2 by lia. rewrite L1. rewrite P2 by lia. f_equal. lia.
  Qed.
  Lemma nth_error_repeat : forall (x : T) n i, (i < n)%nat -> nth_error (repeat x n) i = Some x.
  Proof using Type. intros x n. induction n; intros [|i] H; cbn; try lia; [reflexivity|]. apply IHn. lia. Qed.

  Lemma somes_nulls : forall n l, somes (repeat None n ++ l) = somes l.
  Proof using Type. induction n; intros l; cbn [repeat app]; [reflexivity|]. rewrite somes_cons. apply IHn. Qed.
  Lemma skipn_repeat_app : forall (A : Type) (x : A) n i (l : list A), (i <= n)%nat -> skipn i (repeat x n ++ l) = repeat x (n - i) ++ l.
  Proof using Type. intros A x n. induction n; intros [|i] l H; cbn; try lia; [reflexivity|reflexivity|]. apply IHn. lia. Qed.

  Lemma null_run_repeat : forall n l, null_run (repeat None n ++ l) = (n + null_run l)%nat.
  Proof using Type. induction n; intros; cbn; auto. Qed.

  (** [n]: nulls seen since the last value. *)
  Lemma bf_run : forall l d n,
    (Z.of_nat (n + null_run l) < 2 ^ 32 - 1) -> Z.of_nat (longest_null_run l) < 2 ^ 32 - 1 ->
    (d <> None \/ l = [] /\ n = O \/ exists v r, l = r ++ [Some v]) ->
    exists out z, feed bfill_exec (Z.of_nat n) l = (out, Ok z) /\
     exists out', bfill_flush d z = (out', Ok 0) /\
     pointwise (out ++ out') (repeat (@None T) n ++ l) (filled_backward d (repeat None n ++ l)).
  Proof using Type.
    induction l as [|x l IH]; intros d n Hn Hl Hd.
    - exists [], (Z.of_nat n). split; [reflexivity|]. unfold bfill_flush. destruct (Z.eqb_spec (Z.of_nat n) 0) as [E|E].
      + assert (n = O) by lia; subst n. exists []. split; [reflexivity|]. split; [reflexivity|]. cbn. intros; lia.
      + destruct d as [v|].
        2:{ destruct Hd as [H|[[_ H]|[v [r H]]]]; [congruence|lia|destruct r; discriminate]. }
        exists (repeat v n). split; [now rewrite Nat2Z.id|]. rewrite app_nil_r. cbn [app].
        split; [now rewrite !repeat_length|]. intros i Hi. rewrite repeat_length in Hi. rewrite nth_error_repeat by lia.
        unfold filled_backward. rewrite <- (app_nil_r (repeat None n)), skipn_repeat_app by lia. now rewrite somes_nulls.
    - destruct x as [v|].
      + cbn [longest_null_run null_run] in Hl, Hn.
        destruct (IH d O) as [out [z [E [out' [E' P]]]]].
        * cbn [plus]. destruct l; cbn [null_run longest_null_run] in *; lia.
        * lia.
        * destruct Hd as [H|[[H _]|[w [r H]]]]; [now left|discriminate|].
          destruct r as [|y r]; [injection H as _ H; right; left; split; auto|]. injection H as _ H. right; right. now exists w, r.
        * exists (repeat v (S n) ++ out), z. split.
          { cbn [feed bfill_exec]. change (Z.of_nat 0) with 0 in E. rewrite E.
            assert (Hr : Z.to_nat (u32 (Z.of_nat n + 1)) = S n) by (unfold u32; rewrite Z.mod_small by lia; lia). rewrite Hr. reflexivity. }
          exists out'. split; [exact E'|]. rewrite <- (app_assoc (repeat v (S n)) out out'). cbn [repeat app] in P.
          replace (repeat None n ++ Some v :: l) with ((repeat None n ++ [Some v]) ++ l) by (rewrite <- app_assoc; reflexivity). apply pointwise_app.
          { split; [rewrite app_length, !repeat_length; cbn; lia|]. intros i Hi. rewrite app_length, repeat_length in Hi. cbn in Hi.
            rewrite nth_error_repeat by lia. unfold filled_backward. rewrite <- app_assoc, skipn_repeat_app by lia. rewrite somes_nulls. reflexivity. }
          destruct P as [P1 P2]. split; [exact P1|]. intros i Hi. rewrite P2 by auto. rewrite app_length, repeat_length. cbn [length].
          unfold filled_backward. rewrite <- app_assoc.
          replace (skipn (n + 1 + i) (repeat None n ++ [Some v] ++ l)) with (skipn i l); [reflexivity|].
          rewrite skipn_app, repeat_length. rewrite (skipn_all2 (repeat None n)) by (rewrite repeat_length; lia).
          replace (n + 1 + i - n)%nat with (S i) by lia. reflexivity.
      + cbn [null_run] in Hn.
        destruct (IH d (S n)) as [out [z [E [out' [E' P]]]]].
        * lia.
        * cbn [longest_null_run] in Hl. lia.
        * destruct Hd as [H|[[H _]|[w [r H]]]]; [now left|discriminate|]. destruct r as [|y r]; [discriminate|]. injection H as _ H. right; right. now exists w, r.
        * exists out, z. split.
          { cbn [feed bfill_exec]. replace (u32 (Z.of_nat n + 1)) with (Z.of_nat (S n)).
            2:{ unfold u32. rewrite Z.mod_small by lia. lia. }
            rewrite E. reflexivity. }
          exists out'. split; [exact E'|].
          replace (repeat None n ++ None :: l) with (repeat (@None T) (S n) ++ l); [exact P|].
          clear. induction n; [reflexivity|]. cbn [repeat app]. f_equal. exact IHn.
  Qed.

  Lemma longest_ge_null_run : forall l, (null_run l <= longest_null_run l)%nat.
  Proof using Type. intros [|x l]; cbn [null_run longest_null_run]; [lia|]. destruct x; lia. Qed.

  Lemma bfill_spec : forall d l, Z.of_nat (longest_null_run l) < 2 ^ 32 - 1 ->
    (d <> None \/ l = [] \/ exists v r, l = r ++ [Some v]) ->
    exists out, delivered (bfill d) l = (out, Ok tt) /\ pointwise out l (filled_backward d l).
  Proof using Type.
    intros d l Hl Hd. destruct (bf_run l d O) as [out [z [E [out' [E' P]]]]].
    - pose proof (longest_ge_null_run l). lia.
    - exact Hl.
    - destruct Hd as [H|[H|H]]; auto.
    - exists (out ++ out'). split; [|exact P]. unfold delivered, run_all, run_exec. cbn [t_exec t_cur bfill t_flush t_state].
      change (Z.of_nat 0) with 0 in E. rewrite E, E'. reflexivity.
  Qed.

  (** A trailing null and no default: everything up to the last value is delivered, then flush throws. *)
  Lemma feed_app : forall (X A B : Type) (step : X -> A -> list B * res X) (l1 l2 : list A) (x : X),
    feed step x (l1 ++ l2) =
    match feed step x l1 with (o, Ok x') => let (o', r) := feed step x' l2 in (o ++ o', r) | (o, Throw e) => (o, Throw e) | (o, UB) => (o, UB) end.
  Proof using Type.
    intros X A B step. induction l1 as [|a l1 IH]; intros l2 x; cbn [app feed].
    - destruct (feed step x l2); reflexivity.
    - destruct (step x a) as [o [x'|e|]]; try reflexivity. rewrite IH.
      destruct (feed step x' l1) as [o1 [x1|e|]]; try reflexivity. destruct (feed step x1 l2). now rewrite app_assoc.
  Qed.
  Lemma feed_nulls : forall k n, Z.of_nat (n + k) < 2 ^ 32 -> feed (@bfill_exec T) (Z.of_nat n) (repeat None k) = ([], Ok (Z.of_nat (n + k))).
  Proof using Type.
    induction k; intros n H; cbn [repeat feed bfill_exec]; [now rewrite Nat.add_0_r|].
    unfold u32. rewrite Z.mod_small by lia. replace (Z.of_nat n + 1) with (Z.of_nat (S n)) by lia. rewrite IHk by lia. do 3 f_equal. lia.
  Qed.
  Lemma feed_after_value : forall l v z o r, feed (@bfill_exec T) z (l ++ [Some v]) = (o, r) -> r = Ok 0.
  Proof using Type.
    intros l v z o r. rewrite feed_app. assert (H : exists o' z', feed (@bfill_exec T) z l = (o', Ok z')).
    { clear. revert z. induction l as [|x l IH]; intros z; cbn [feed]; [eauto|].
      destruct x as [w|]; cbn [bfill_exec]; edestruct IH as [o' [z' E]]; rewrite E; eauto. }
    destruct H as [o' [z' E]]. rewrite E. cbn. now intros [= _ <-].
  Qed.
  Lemma bfill_pending : forall l k, Z.of_nat (longest_null_run l) < 2 ^ 32 - 1 -> (l = [] \/ exists v r, l = r ++ [Some v]) ->
    Z.of_nat (S k) < 2 ^ 32 ->
    exists out, delivered (bfill None) (l ++ repeat None (S k)) = (out, Throw RuntimeError) /\ pointwise out l (filled_backward None l).
  Proof using Type.
    intros l k Hl Hd Hk. destruct (bf_run l None O) as [out [z [E [out' [E' P]]]]].
    - pose proof (longest_ge_null_run l). lia.
    - exact Hl.
    - right. destruct Hd; auto.
    - change (Z.of_nat 0) with 0 in E.
      assert (z = 0). { destruct Hd as [-> |[v [r ->]]]; [cbn in E; now inversion E|]. apply feed_after_value in E. now injection E. }
      subst z. cbn in E'. injection E' as <-. rewrite app_nil_r in P.
      exists out. split; [|exact P]. unfold delivered, run_all, run_exec. cbn [t_exec t_cur bfill t_flush t_state].
      rewrite feed_app, E. change 0 with (Z.of_nat 0). rewrite feed_nulls by lia. unfold bfill_flush.
      destruct (Z.eqb_spec (Z.of_nat (0 + S k)) 0); [lia|]. cbn. now rewrite !app_nil_r.
  Qed.
  (** 2^32 - 1 pending nulls: the count plus one wraps to 0 and nothing at all is delivered for them. *)
  Lemma bfill_wrap : forall d v n, Z.of_nat n = 2 ^ 32 - 1 -> delivered (bfill d) (repeat None n ++ [Some v]) = ([], Ok tt).
  Proof using Type.
    intros d v n Hn. unfold delivered, run_all, run_exec. cbn [t_exec t_cur bfill t_flush t_state].
    rewrite feed_app. change 0 with (Z.of_nat 0). rewrite feed_nulls by lia. cbn [plus feed bfill_exec].
    rewrite Hn. change (u32 (2 ^ 32 - 1 + 1)) with 0. reflexivity.
  Qed.
End BF.

(** ** Statistic imputers *)
Lemma per_value_feed : forall (A B : Type) (f : A -> B) l,
  feed (fun (s : unit) (x : A) => ([f x], Ok s)) tt l = (map f l, Ok tt).
Proof. intros A B f. induction l as [|a l IH]; cbn [feed map]; [reflexivity|]. rewrite IH. reflexivity. Qed.
Lemma per_value_spec : forall (A B : Type) (f : A -> B) l, delivered (per_value f) l = (map f l, Ok tt).
Proof.
  intros A B f l. change (delivered (per_value f) l) with
    (let (o, r) := (match feed (fun (s : unit) (x : A) => ([f x], Ok s)) tt l with
       | (o, Ok s') => (o ++ [], Ok s') | (o, r) => (o, r) end) in (o, rmap (fun _ : unit => tt) r)).
  rewrite per_value_feed. cbn. now rewrite app_nil_r.
Qed.

Lemma map_ext_replace : forall (T : Type) (v : T) l, map (fun x => match x with None => v | Some y => y end) l = map (replace_null v) l.
Proof. reflexivity. Qed.

Lemma oeqb_spec : forall (T : Type) (eqb : T -> T -> bool), (forall x y, eqb x y = true <-> x = y) ->
  forall x y, oeqb eqb x y = true <-> x = y.
Proof.
  intros T eqb H [x|] [y|]; cbn; try (split; intros; congruence).
  rewrite H. split; intros; congruence.
Qed.

Section Mode.
  Context {T : Type} (eqb : T -> T -> bool) (Heq : forall x y, eqb x y = true <-> x = y).
  Let e := oeqb eqb.
  Lemma cat_imputer_spec : forall mx bs h h' o,
    proper_training mx bs -> Z.of_nat (length (items mx bs)) < 2 ^ 32 ->
    trained (hist_policy e) mx bs = Ok (Some h) -> Permutation h h' -> trained (order_policy e []) mx bs = Ok (Some o) ->
    somes (items mx bs) <> [] ->
    exists v, In (Some v) (items mx bs) /\
      (forall w, In (Some w) (items mx bs) -> occ e (Some w) (items mx bs) <= occ e (Some v) (items mx bs) /\
        (occ e (Some w) (items mx bs) = occ e (Some v) (items mx bs) -> w <> v -> appears_before (items mx bs) (Some v) (Some w))) /\
      (do m <- mode_complete e not_null h' o; cat_imputer m) = Ok (imputer (fun x => x) v) /\
      (do m <- mode_complete e not_null h' o; mode_imputer m) = Ok (imputer (fun x => x) v).
  Proof using Heq.
    intros mx bs h h' o Hp Hlen Hh Hperm Ho Hne.
    destruct (mode_trained e (oeqb_spec T eqb Heq) not_null mx bs h h' o Hp Hlen Hh Hperm Ho) as [[v [E [Hi [Hs Hm]]]]|[E Hall]].
    - destruct v as [v|]; [|discriminate]. exists v. split; [exact Hi|]. split.
      + intros w Hw. destruct (Hm (Some w) Hw eq_refl) as [A B]. split; [exact A|]. intros C D. apply B; [exact C|congruence].
      + rewrite E. split; reflexivity.
    - exfalso. destruct (somes (items mx bs)) as [|w r] eqn:Es; [now apply Hne|].
      assert (In (Some w) (items mx bs)).
      { assert (H : In w (somes (items mx bs))) by (rewrite Es; left; reflexivity). unfold somes in H. apply in_flat_map in H.
        destruct H as [[x|] [H1 H2]]; [|destruct H2]. destruct H2 as [<-|[]]. exact H1. }
      specialize (Hall _ H). discriminate.
  Qed.
  Lemma cat_imputer_none : forall mx bs h h' o,
    proper_training mx bs -> Z.of_nat (length (items mx bs)) < 2 ^ 32 ->
    trained (hist_policy e) mx bs = Ok (Some h) -> Permutation h h' -> trained (order_policy e []) mx bs = Ok (Some o) ->
    somes (items mx bs) = [] -> mode_complete e not_null h' o = Throw RuntimeError.
  Proof using Heq.
    intros mx bs h h' o Hp Hlen Hh Hperm Ho Hnone.
    destruct (mode_trained e (oeqb_spec T eqb Heq) not_null mx bs h h' o Hp Hlen Hh Hperm Ho) as [[v [E [Hi [Hs Hm]]]]|[E Hall]]; [|exact E].
    exfalso. destruct v as [v|]; [|discriminate]. assert (H : In v (somes (items mx bs))).
    { unfold somes. apply in_flat_map. exists (Some v). split; [exact Hi|left; reflexivity]. }
    rewrite Hnone in H. destruct H.
  Qed.
End Mode.

Lemma median_imputer_spec : forall (T : Type) (ltb : T -> T -> bool),
  (forall x, ltb x x = false) -> (forall x y z, ltb x y = true -> ltb y z = true -> ltb x z = true) ->
  (forall x y, ltb x y = false -> ltb y x = false -> x = y) ->
  forall (interpolate : bool) (avg : T -> T -> T) (zero : T) mx bs, proper_training mx bs ->
  forall s, Permutation s (somes (items mx bs)) -> StronglySorted (fun x y => ltb y x = false) s -> s <> [] ->
  exists t, (do m <- trained (median_policy ltb interpolate avg zero) mx bs; Ok (option_map (median_imputer (fun x => x)) m)) = Ok (Some t) /\
  forall l, delivered t l =
    (map (replace_null (if negb interpolate || Nat.odd (length s) then nth ((length s - 1) / 2) s zero
                        else avg (nth (length s / 2 - 1) s zero) (nth (length s / 2) s zero))) l, Ok tt).
Proof.
  intros T ltb H1 H2 H3 interpolate avg zero mx bs Hp s Hperm Hs Hne.
  rewrite (median_spec ltb H1 H2 H3 interpolate avg zero mx bs Hp s Hperm Hs). cbv zeta.
  destruct s as [|x s]; [congruence|]. change (Nat.eqb (length (x :: s)) 0) with false. cbv iota.
  remember (x :: s) as q. destruct (negb interpolate || Nat.odd (length q)); eexists; (split; [reflexivity|]); intros l; apply per_value_spec.
Qed.
Lemma min_max_imputer_spec : forall (T : Type) (ltb : T -> T -> bool),
  (forall x, ltb x x = false) -> (forall x y z, ltb x y = true -> ltb y z = true -> ltb x z = true) ->
  (forall x y, ltb x y = false -> ltb y x = false -> x = y) ->
  forall (use_min : bool) mx bs, proper_training mx bs -> Z.of_nat (length (somes (items mx bs))) < 2 ^ 64 ->
  somes (items mx bs) <> [] ->
  exists v t, (if use_min then is_min ltb v (somes (items mx bs)) else is_max ltb v (somes (items mx bs))) /\
    (do r <- trained (basic_stats_policy ltb) mx bs;
     Ok (option_map (fun st => min_max_imputer use_min (fst (fst st)) (snd (fst st))) r)) = Ok (Some t) /\
    forall l, delivered t l = (map (replace_null v) l, Ok tt).
Proof.
  intros T ltb H1 H2 H3 use_min mx bs Hp Hc Hne.
  destruct (proj2 (basic_stats_spec ltb H1 H2 H3 mx bs Hp Hc) Hne) as [mn [mxv [E [Hmn Hmx]]]]. rewrite E.
  exists (if use_min then mn else mxv). eexists. split; [destruct use_min; assumption|]. split; [reflexivity|]. intros l. apply per_value_spec.
Qed.
Lemma mean_imputer_spec : forall (D : Type) (to_double : Z -> D) (average : Z -> Z -> D) mx bs, proper_training mx bs ->
  let data := somes (items mx bs) in
  Z.of_nat (length data) < 2 ^ 64 -> Forall (fun x => in_i64 x = true) data -> data <> [] ->
  (forall p, prefix p data -> in_i64 (zsum p) = true) ->
  exists t, (do r <- trained std_stats_policy mx bs;
     Ok (option_map (fun st => mean_imputer to_double average (snd st) (snd (fst st))) r)) = Ok (Some t) /\
    forall l, delivered t l =
      (map (fun x => match x with None => average (zsum data) (Z.of_nat (length data)) | Some y => to_double y end) l, Ok tt).
Proof.
  intros D td avg mx bs Hp data Hc Hf Hne Hpre.
  destruct (proj1 (proj2 (std_spec mx bs Hp Hc Hf)) Hne Hpre) as [mn [mxv [E _]]]. rewrite E.
  eexists. split; [reflexivity|]. intros l. apply per_value_spec.
Qed.
