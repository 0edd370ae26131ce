(** A gmtime, and the cases in which the fields are not those documented. *)
From Coq Require Import Zquot String.
From Verif Require Import Base M_Archive M_Codec M_Save M_Stats M_Scale M_String M_Text M_Grain M_Docs M_Date S_Stats S_Date L_Stats L_Docs L_Date L_Date2 L_Date3 L_Date4.
Open Scope Z_scope.

Definition gmtime (s : Z) : option tm :=
  let '(y, m, d) := raw_date (s / 86400) in
  Some (mkTm (y - 1900) (m - 1) d (s mod 86400 / 3600) (s mod 3600 / 60) (s mod 60) (weekday (s / 86400)) (s / 86400 - jan1 y)).
Lemma gmtime_raw : gmtime_ok raw_date gmtime.
Proof.
  intros s _. unfold gmtime. destruct (raw_date (s / 86400)) as ((y, m), d) eqn:E.
  eexists. exists y, m, d. split; [reflexivity|]. split; [reflexivity|]. cbn [tm_year tm_mon tm_mday tm_hour tm_min tm_sec tm_wday tm_yday].
  repeat (split; [reflexivity|]). replace (s / 86400 - (s / 86400 - jan1 y)) with (jan1 y) by lia. apply calendar_jan1, raw_calendar.
Qed.

Section Ticks.
  Variable ticks : Z.
  Variable gm : Z -> option tm.
  Variable c : Z -> Z * Z * Z.
  Hypothesis Ht : 10000000 <= ticks.
  Hypothesis Hc : calendar c.
  Hypothesis Hg : gmtime_ok c gm.

  Lemma fields_at t : - 2 ^ 63 <= t < 2 ^ 63 -> 0 <= t \/ (ticks | t) ->
    exists f, time_point ticks gm t = Ok f /\ fields_of c ticks t f /\ fields_ranges f.
  Proof using Ht Hc Hg.
    intros H1 H2. assert (0 < ticks) by lia. destruct (time_point_clock ticks H gm c Hc Hg t Ht H1) as (f & F1 & F2 & F3). exists f. split; [exact F1|]. split; [|exact F3].
    apply time_point_at; auto.
  Qed.
  Lemma holiday_at t dates names : - 2 ^ 63 <= t < 2 ^ 63 -> 0 <= t \/ (86400 * ticks | t) -> (List.length dates <= List.length names)%nat ->
    exists table f name, holiday_map dates names = Ok table /\ time_point ticks gm t = Ok f /\
      date_execute ticks gm table t = Ok (with_holiday f name) /\ holiday dates names (day_number ticks t) name.
  Proof using Ht Hc Hg.
    intros H1 H2 H3. assert (P : 0 < ticks) by lia. destruct (time_point_clock ticks P gm c Hc Hg t Ht H1) as (f & F1 & _). destruct (holiday_map_total dates names H3) as (table & T).
    pose proof (clock_range ticks P t Ht H1) as B.
    destruct (date_execute_ok ticks gm t f dates names table ltac:(lia) F1 T) as (name & E & Hn). rewrite (holiday_day ticks t P H2) in Hn.
    exists table, f, name. auto.
  Qed.
  Lemma before_1970 t : - ticks < t < 0 -> exists f, time_point ticks gm t = Ok f /\ (year f, month f, day f) = (1970, 1, 1) /\ c (day_number ticks t) = (1969, 12, 31).
  Proof using Ht Hc Hg.
    intro H. assert (P : 0 < ticks) by lia. assert (Q : Z.quot t ticks = 0) by (apply Z.quot_small_iff; lia).
    assert (E : c (Z.quot t ticks / 86400) = (1970, 1, 1)) by (rewrite Q; apply Hc).
    destruct (time_point_ok ticks P gm c Hc Hg t 1970 1 1 ltac:(rewrite Q; lia) E ltac:(lia)) as (f & F1 & F2 & _). exists f. split; [exact F1|].
    destruct F2 as (F2 & _). rewrite day_of_second in F2 by exact P. rewrite E in F2. split; [congruence|].
    replace (day_number ticks t) with (-1); [exact (calendar_inv c Hc 1969 12 31 ltac:(cbn; lia))|].
    unfold day_number. apply Z.div_unique with (r := t + 86400 * ticks); lia.
  Qed.
End Ticks.

Lemma estimator_create files country country' : date_estimator files country = Ok country' ->
  country' = country /\ exists file, date_create files country = Ok file /\
    match country with
    | None | Some [] => file = None
    | Some c => exists before f after, file = Some f /\ files = before ++ f :: after /\ written f c /\ forall g, In g before -> ~ written g c
    end.
Proof.
  unfold date_estimator, date_create. destruct country as [c|]; [|intro H; injection H as <-; split; [reflexivity|]; exists None; auto].
  destruct (is_valid_country files c) eqn:E; [|discriminate]. intro H. injection H as <-. split; [reflexivity|].
  apply valid_spec in E. destruct c as [|x c]; [exists None; split; reflexivity|]. rewrite file_spec by discriminate.
  destruct E as (f & I & W).
  assert (F : forall l, In f l -> exists before g after, find (country_match (x :: c)) l = Some g /\ l = before ++ g :: after /\ written g (x :: c) /\ forall h, In h before -> ~ written h (x :: c)).
  { induction l as [|h l IH]; [intros []|]. intro J. cbn [find]. destruct (country_match (x :: c) h) eqn:M.
    - exists [], h, l. split; [reflexivity|]. split; [reflexivity|]. split; [apply country_match_written, M|intros ? []].
    - destruct J as [->|J]; [apply country_match_written in W; congruence|]. destruct (IH J) as (b & g & a & H1 & -> & H2 & H3).
      exists (h :: b), g, a. split; [exact H1|]. split; [reflexivity|]. split; [exact H2|]. intros k [<-|K]; [|apply H3, K]. intro Wk. apply country_match_written in Wk. congruence. }
  destruct (F files I) as (b & g & a & H1 & -> & H2 & H3). rewrite H1. exists (Some g). split; [reflexivity|]. exists b, g, a. auto.
Qed.
Lemma supported_ok files : StronglySorted (fun a b => str_lt b a = false) (supported_countries files) /\
  (exists stems, Forall2 stem files stems /\ Permutation (supported_countries files) stems) /\
  forall c, In c (supported_countries files) -> is_valid_country files c = true.
Proof.
  rewrite supported_eq. split; [|split].
  - apply (s_sort_sorted str_lt); apply str_order.
  - exists (map remove_extension files). split; [|apply s_sort_perm]. induction files; constructor; [apply remove_extension_stem|assumption].
  - intros c I. apply (Permutation_in _ (s_sort_perm str_lt _)) in I. apply in_map_iff in I. destruct I as (f & <- & I). apply valid_spec. exists f. split; [exact I|].
    right. exists (remove_extension f). split; [apply remove_extension_stem|auto].
Qed.
