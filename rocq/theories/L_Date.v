(** The calendar of date.h. *)
From Coq Require Import Zquot.
From Verif Require Import Base M_Date S_Date.
Open Scope Z_scope.

Lemma quot_floor (a b : Z) : 0 < b -> Z.quot (if 0 <=? a then a else a - (b - 1)) b = a / b.
Proof.
  intro Hb. destruct (Z.leb_spec 0 a).
  - apply Z.quot_div_nonneg; lia.
  - rewrite <- (Z.opp_involutive (a - (b - 1))). rewrite Z.quot_opp_l by lia. rewrite Z.quot_div_nonneg by lia.
    assert (- (a - (b - 1)) / b = - (a / b)); [|lia].
    symmetry. apply Z.div_unique with (r := b - 1 - a mod b).
    + left. pose proof (Z.mod_pos_bound a b Hb). lia.
    + pose proof (Z.div_mod a b). lia.
Qed.

(** Days before March 1st of the year y. *)
Definition before_march (y : Z) : Z := 365 * y + y / 4 - y / 100 + y / 400 - 719468.
(** Months counted from March: the days before them. *)
Definition month_offset (m : Z) : Z := (153 * (if 2 <? m then m - 3 else m + 9) + 2) / 5.
Definition shifted (y m : Z) : Z := y - (if m <=? 2 then 1 else 0).

Lemma to_days_eq y m d : to_days y m d = before_march (shifted y m) + month_offset m + d - 1.
Proof.
  unfold to_days. cbv zeta. fold (shifted y m). fold (month_offset m). set (s := shifted y m).
  change (if 0 <=? s then s else s - 399) with (if 0 <=? s then s else s - (400 - 1)).
  rewrite quot_floor by lia. unfold before_march.
  generalize (month_offset m). intro o. clearbody s. Z.div_mod_to_equations. lia.
Qed.
Lemma before_march_step y : before_march (y + 1) = before_march y + 365 + (if leap (y + 1) then 1 else 0).
Proof.
  unfold before_march, leap.
  destruct (Z.eqb_spec ((y + 1) mod 4) 0), (Z.eqb_spec ((y + 1) mod 100) 0), (Z.eqb_spec ((y + 1) mod 400) 0); cbn [andb orb negb];
    Z.div_mod_to_equations; lia.
Qed.
Lemma before_march_bounds y k : 0 <= k -> 365 * k <= before_march (y + k) - before_march y.
Proof.
  intro Hk. pattern k. apply natlike_ind; [rewrite Z.add_0_r; lia| |exact Hk].
  intros x Hx IH. replace (y + Z.succ x) with (y + x + 1) by lia. rewrite before_march_step. destruct (leap _); lia.
Qed.

Lemma month_cases m : 1 <= m <= 12 ->
  m = 1 \/ m = 2 \/ m = 3 \/ m = 4 \/ m = 5 \/ m = 6 \/ m = 7 \/ m = 8 \/ m = 9 \/ m = 10 \/ m = 11 \/ m = 12.
Proof. lia. Qed.
Ltac months m Hm := let H := fresh in pose proof (month_cases m Hm) as H; clear Hm; repeat (destruct H as [H|H]; [subst m|]); [..|subst m].

Ltac eval_offsets := repeat match goal with
  | |- context [month_offset ?k] => let v := eval vm_compute in (month_offset k) in progress change (month_offset k) with v
  | H : context [month_offset ?k] |- _ => let v := eval vm_compute in (month_offset k) in progress change (month_offset k) with v in H
  end.
Lemma next_valid x : valid_date x -> valid_date (next_date x).
Proof.
  destruct x as ((y, m), d). cbn [valid_date next_date]. intros (Hm & Hd). destruct (Z.ltb_spec d (month_length y m)); [cbn [valid_date]; lia|].
  destruct (Z.ltb_spec m 12); cbn [valid_date]; (split; [lia|]).
  - split; [lia|]. unfold month_length. destruct (m + 1 =? 2); [destruct (leap y); lia|]. destruct (_ || _); lia.
  - split; [lia|]. cbn. lia.
Qed.
Lemma to_days_next y m d y' m' d' : valid_date (y, m, d) -> next_date (y, m, d) = (y', m', d') -> to_days y' m' d' = to_days y m d + 1.
Proof.
  cbn [valid_date next_date]. intros (Hm & Hd). rewrite !to_days_eq.
  destruct (Z.ltb_spec d (month_length y m)); [intro E; injection E as <- <- <-; lia|].
  assert (Ed : d = month_length y m) by lia. subst d. clear Hd H.
  destruct (Z.ltb_spec m 12).
  - intro E. injection E as <- <- <-. unfold shifted, month_length.
    months m Hm; eval_offsets; cbn - [before_march leap Z.sub]; try lia.
    replace (y - 0) with (y - 1 + 1) by lia. rewrite before_march_step. replace (y - 1 + 1) with y by lia. destruct (leap y); lia.
  - assert (m = 12) by lia. subst m. intro E. injection E as <- <- <-. unfold month_length, shifted. eval_offsets. cbn - [before_march Z.sub Z.add].
    replace (y + 1 - 1) with y by lia. replace (y - 0) with y by lia. lia.
Qed.

(** Every numbering agrees with to_days. *)
Lemma calendar_to_days c : calendar c -> forall n y m d, c n = (y, m, d) -> to_days y m d = n.
Proof.
  intros (H0 & Hv & Hn).
  assert (P : forall n, let '(y, m, d) := c n in let '(y', m', d') := c (n + 1) in to_days y' m' d' = to_days y m d + 1).
  { intro n. pose proof (Hv n) as Hvn. pose proof (Hn n) as Hnn. destruct (c n) as ((y, m), d) eqn:E. rewrite Hnn.
    destruct (next_date (y, m, d)) as ((y', m'), d') eqn:E'. eapply to_days_next; eassumption. }
  assert (Q : forall n, let '(y, m, d) := c n in to_days y m d = n).
  { intro n. destruct (Z.le_gt_cases 0 n) as [H|H].
    - pattern n. apply natlike_ind; [rewrite H0; reflexivity| |exact H]. intros x Hx IH. specialize (P x). replace (Z.succ x) with (x + 1) by lia.
      destruct (c x) as ((y, m), d), (c (x + 1)) as ((y', m'), d'). lia.
    - assert (R : forall k, 0 <= k -> let '(y, m, d) := c (- k) in to_days y m d = - k).
      { apply natlike_ind; [change (- 0) with 0; rewrite H0; reflexivity|]. intros x Hx IH. specialize (P (- Z.succ x)).
        replace (- Z.succ x + 1) with (- x) in P by lia. destruct (c (- Z.succ x)) as ((y, m), d), (c (- x)) as ((y', m'), d'). lia. }
      specialize (R (- n)). rewrite Z.opp_involutive in R. apply R. lia. }
  intros n y m d E. specialize (Q n). rewrite E in Q. exact Q.
Qed.

(** to_days is injective on dates. *)
Lemma offset_bounds y m d : valid_date (y, m, d) -> 0 <= month_offset m + d - 1 <= 364 + (if leap (shifted y m + 1) then 1 else 0).
Proof.
  cbn [valid_date]. intros (Hm & Hd). unfold month_length, shifted in *.
  months m Hm; eval_offsets; cbn - [leap Z.sub Z.add] in *; try (destruct (leap _); lia).
  replace (y - 1 + 1) with y by lia. destruct (leap y); lia.
Qed.
Lemma offset_inj y m d y' m' d' : valid_date (y, m, d) -> valid_date (y', m', d') -> shifted y m = shifted y' m' ->
  month_offset m + d = month_offset m' + d' -> (y, m, d) = (y', m', d').
Proof.
  cbn [valid_date]. intros (Hm & Hd) (Hm' & Hd') Hs Ho.
  assert (Hl : forall y m, 1 <= m <= 12 -> month_length y m <= if m =? 2 then 29 else if (m =? 4) || (m =? 6) || (m =? 9) || (m =? 11) then 30 else 31).
  { intros a b _. unfold month_length. destruct (b =? 2); [destruct (leap a); lia|lia]. }
  pose proof (Hl y m Hm) as L1. pose proof (Hl y' m' Hm') as L2. clear Hl.
  assert (E : m = m').
  { assert (D : d <= if m =? 2 then 29 else if (m =? 4) || (m =? 6) || (m =? 9) || (m =? 11) then 30 else 31) by lia.
    assert (D' : d' <= if m' =? 2 then 29 else if (m' =? 4) || (m' =? 6) || (m' =? 9) || (m' =? 11) then 30 else 31) by lia.
    assert (P : 1 <= d) by lia. assert (P' : 1 <= d') by lia. clear L1 L2 Hd Hd' Hs. 
    months m Hm; cbn in D; months m' Hm'; cbn in D'; eval_offsets; lia. }
  subst m'. unfold shifted in Hs. assert (y = y') by lia. assert (d = d') by lia. subst. reflexivity.
Qed.
Lemma to_days_inj y m d y' m' d' : valid_date (y, m, d) -> valid_date (y', m', d') -> to_days y m d = to_days y' m' d' -> (y, m, d) = (y', m', d').
Proof.
  intros V V' E. rewrite !to_days_eq in E. pose proof (offset_bounds _ _ _ V) as B. pose proof (offset_bounds _ _ _ V') as B'.
  assert (Hs : shifted y m = shifted y' m').
  { destruct (Z.lt_trichotomy (shifted y m) (shifted y' m')) as [H|[H|H]]; [exfalso|exact H|exfalso].
    - pose proof (before_march_step (shifted y m)). pose proof (before_march_bounds (shifted y m + 1) (shifted y' m' - shifted y m - 1) ltac:(lia)).
      replace (shifted y m + 1 + (shifted y' m' - shifted y m - 1)) with (shifted y' m') in H1 by lia. lia.
    - pose proof (before_march_step (shifted y' m')). pose proof (before_march_bounds (shifted y' m' + 1) (shifted y m - shifted y' m' - 1) ltac:(lia)).
      replace (shifted y' m' + 1 + (shifted y m - shifted y' m' - 1)) with (shifted y m) in H1 by lia. lia. }
  apply offset_inj; auto. rewrite Hs in E. lia.
Qed.
Lemma calendar_inv c : calendar c -> forall y m d, valid_date (y, m, d) -> c (to_days y m d) = (y, m, d).
Proof.
  intros Hc y m d V. destruct (c (to_days y m d)) as ((y', m'), d') eqn:E. pose proof (calendar_to_days c Hc _ _ _ _ E) as H.
  apply to_days_inj; auto. destruct Hc as (_ & Hv & _). specialize (Hv (to_days y m d)). rewrite E in Hv. exact Hv.
Qed.
Lemma calendar_unique c c' : calendar c -> calendar c' -> forall n, c n = c' n.
Proof.
  intros H H' n. destruct (c n) as ((y, m), d) eqn:E, (c' n) as ((y', m'), d') eqn:E'.
  apply to_days_inj; [destruct H as (_ & Hv & _); specialize (Hv n); rewrite E in Hv; exact Hv|destruct H' as (_ & Hv & _); specialize (Hv n); rewrite E' in Hv; exact Hv|].
  rewrite (calendar_to_days c H _ _ _ _ E), (calendar_to_days c' H' _ _ _ _ E'). reflexivity.
Qed.
