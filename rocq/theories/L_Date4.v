(** Holidays and countries. *)
From Coq Require Import Zquot Reals Lra.
From Flocq Require Import Core.Core IEEE754.BinarySingleNaN.
From Verif Require Import Base M_Stats M_Scale M_String M_Text M_Grain M_Docs M_Date S_Stats S_Date L_Float L_Stats L_Docs L_Date L_Date2 L_Date3.
Open Scope Z_scope.

Section Key.
Open Scope R_scope.
Lemma fmt_below q : (0 <= q < 2 ^ 36)%Z -> generic_format radix2 (SpecFloat.fexp 53 1024) (IZR (q + 1) - bpow radix2 (-17)).
Proof.
  intro H. apply (generic_format_FLT radix2 (SpecFloat.emin 53 1024) 53). exists (Float radix2 (2 ^ 17 * (q + 1) - 1) (-17)).
  - unfold F2R. cbn [Fnum Fexp]. rewrite minus_IZR, mult_IZR. replace (IZR (2 ^ 17)) with (bpow radix2 17) by reflexivity.
    replace (bpow radix2 (-17)) with (/ bpow radix2 17) by reflexivity. field. apply Rgt_not_eq, bpow_gt_0.
  - cbn [Fnum]. change (Zpower radix2 53) with (2 ^ 53)%Z. lia.
  - cbn. lia.
Qed.
Lemma key_round a : (0 <= a <= 2 ^ 50)%Z ->
  IZR (a / 86400) <= @rnd 53 1024 (IZR a / 86400) < IZR (a / 86400) + 1.
Proof.
  intro H. pose proof (Z.div_mod a 86400 ltac:(lia)) as D. pose proof (Z.mod_pos_bound a 86400 ltac:(lia)) as B.
  assert (Q : (0 <= a / 86400 < 2 ^ 36)%Z) by (Z.div_mod_to_equations; lia). set (q := (a / 86400)%Z) in *. set (r := (a mod 86400)%Z) in *.
  assert (E : IZR a / 86400 = IZR q + IZR r / 86400). { rewrite D, plus_IZR, mult_IZR. field. }
  assert (R1 : 0 <= IZR r <= 86399) by (split; apply IZR_le; lia). rewrite E. split.
  - rewrite <- (@rnd_fmt 53 1024 _ (IZR q)) at 1 by (apply int_fmt; lia). apply rnd_mono. apply Rplus_le_reg_l with (- IZR q). ring_simplify.
    apply Rmult_le_pos; lra.
  - apply Rle_lt_trans with (IZR (q + 1) - bpow radix2 (-17)).
    + rewrite <- (@rnd_fmt 53 1024 _ (IZR (q + 1) - bpow radix2 (-17))) by (apply fmt_below; exact Q). apply rnd_mono. rewrite plus_IZR.
      replace (bpow radix2 (-17)) with (/ 131072) by reflexivity. lra.
    + rewrite plus_IZR. pose proof (bpow_gt_0 radix2 (-17)). lra.
Qed.
Lemma key_small a : (0 <= a <= 2 ^ 50)%Z -> Rabs (@rnd 53 1024 (IZR a / 86400)) < bpow radix2 1024.
Proof.
  intro H. pose proof (key_round a H) as K. assert (0 <= IZR (a / 86400) <= IZR (2 ^ 50)) by (split; apply IZR_le; Z.div_mod_to_equations; lia).
  rewrite Rabs_right by lra. apply Rlt_le_trans with (IZR (2 ^ 51)).
  - assert (IZR (2 ^ 50) + 1 <= IZR (2 ^ 51)); [|lra]. rewrite <- plus_IZR. apply IZR_le. lia.
  - change (IZR (2 ^ 51)) with (bpow radix2 51). apply bpow_le. lia.
Qed.
Lemma day_quot s : (Z.abs s <= 2 ^ 50)%Z ->
  Btrunc (fdiv (of_int s : binary_float 53 1024) (of_int 86400)) = Z.quot s 86400.
Proof.
  intro H. destruct (@of_int_exact 53 1024 _ _ s ltac:(lia)) as (A1 & A2). destruct (@of_int_exact 53 1024 _ _ 86400 ltac:(lia)) as (B1 & B2).
  assert (D : B2R (fdiv (of_int s : binary_float 53 1024) (of_int 86400)) = @rnd 53 1024 (IZR s / 86400)).
  { rewrite <- A1, <- B1. apply fdiv_ok; [exact A2|rewrite B1; apply IZR_neq; lia|]. rewrite A1, B1.
    rewrite rnd_abs. unfold Rdiv. rewrite Rabs_mult, (Rabs_right (/ 86400)) by lra. rewrite <- abs_IZR.
    rewrite <- (Rabs_right (rnd _)); [apply key_small; lia|]. pose proof (key_round (Z.abs s) ltac:(lia)) as K.
    assert (0 <= IZR (Z.abs s / 86400)) by (apply IZR_le; Z.div_mod_to_equations; lia). unfold Rdiv in K. lra. }
  apply eq_IZR. rewrite (Btrunc_correct 53 1024 _), D. rewrite round_FIX_IZR. f_equal.
  destruct (Z.le_gt_cases 0 s) as [P|P].
  - pose proof (key_round s ltac:(lia)) as K. rewrite Z.quot_div_nonneg by lia. rewrite Ztrunc_floor.
    + apply Zfloor_imp. rewrite plus_IZR. exact K.
    + assert (0 <= IZR (s / 86400)) by (apply IZR_le; Z.div_mod_to_equations; lia). lra.
  - pose proof (key_round (- s) ltac:(lia)) as K. replace (IZR s / 86400) with (- (IZR (- s) / 86400)) by (rewrite opp_IZR; lra).
    rewrite rnd_opp, Ztrunc_opp. replace s with (- - s)%Z at 2 by lia. rewrite Z.quot_opp_l by lia. f_equal. rewrite Z.quot_div_nonneg by lia. rewrite Ztrunc_floor.
    + apply Zfloor_imp. rewrite plus_IZR. exact K.
    + assert (0 <= IZR (- s / 86400)) by (apply IZR_le; Z.div_mod_to_equations; lia). lra.
Qed.
End Key.

Lemma holiday_key_eq ticks t : Z.abs (Z.quot t ticks) <= 2 ^ 50 -> holiday_key ticks t = 86400 * Z.quot (Z.quot t ticks) 86400.
Proof. intro H. unfold holiday_key. cbv zeta. rewrite day_quot by exact H. lia. Qed.

(** *** The table *)
Lemma m_set_find (m : list (Z * list Z)) (p : Z * list Z) k :
  m_find Z.eqb (match m_find Z.eqb m (fst p) with Some _ => m_update Z.eqb m (fst p) (fun _ => snd p) | None => p :: m end) k
  = if fst p =? k then Some (snd p) else m_find Z.eqb m k.
Proof.
  destruct (m_find Z.eqb m (fst p)) as [v|] eqn:E.
  - rewrite (m_update_find Z.eqb Z.eqb_eq). destruct (Z.eqb_spec (fst p) k) as [<-|N].
    + rewrite E. reflexivity.
    + reflexivity.
  - destruct p as (a, b). reflexivity.
Qed.
Lemma table_find (l : list (Z * list Z)) : forall m k,
  m_find Z.eqb (fold_left (fun m p => match m_find Z.eqb m (fst p) with
                                      | Some _ => m_update Z.eqb m (fst p) (fun _ => snd p)
                                      | None => p :: m end) l m) k
  = match m_find Z.eqb (rev l) k with Some v => Some v | None => m_find Z.eqb m k end.
Proof.
  induction l as [|p l IH]; intros m k; [reflexivity|]. cbn [fold_left rev]. rewrite IH, m_set_find.
  rewrite (m_find_app Z.eqb). destruct (m_find Z.eqb (rev l) k); [reflexivity|]. destruct p as (a, b). cbn [m_find fst snd]. destruct (a =? k); reflexivity.
Qed.
Lemma combine_nth (dates : list Z) (names : list (list Z)) : forall i d v, nth_error (combine dates names) i = Some (d, v) <-> nth_error dates i = Some d /\ nth_error names i = Some v.
Proof.
  revert names. induction dates as [|x dates IH]; intros names i d v.
  - cbn. split; [destruct i; discriminate|intros [H _]; destruct i; discriminate].
  - destruct names as [|y names]; [cbn; split; [destruct i; discriminate|intros [_ H]; destruct i; discriminate]|].
    destruct i as [|i]; cbn [combine nth_error]; [|apply IH]. split; [intro H; injection H as -> ->; auto|intros [H1 H2]; congruence].
Qed.
Lemma find_rev_none (l : list (Z * list Z)) k : m_find Z.eqb (rev l) k = None -> forall i v, nth_error l i <> Some (k, v).
Proof.
  intros H i v E. apply (m_find_none Z.eqb Z.eqb_eq) in H. apply H. apply nth_error_In in E. apply in_map_iff. exists (k, v). split; [reflexivity|].
  apply -> in_rev. exact E.
Qed.
Lemma find_rev_some (l : list (Z * list Z)) k v : m_find Z.eqb (rev l) k = Some v ->
  exists i, nth_error l i = Some (k, v) /\ forall j w, (i < j)%nat -> nth_error l j <> Some (k, w).
Proof.
  induction l as [|(a, b) l IH]; [discriminate|]. cbn [rev]. rewrite (m_find_app Z.eqb). destruct (m_find Z.eqb (rev l) k) as [w|] eqn:E.
  - intro H. injection H as ->. destruct (IH eq_refl) as (i & H1 & H2). exists (S i). split; [exact H1|]. intros j w Hj. destruct j as [|j]; [lia|].
    apply H2. lia.
  - cbn [m_find]. destruct (Z.eqb_spec a k) as [->|]; [|discriminate]. intro H. injection H as ->. exists 0%nat. split; [reflexivity|].
    intros j w Hj. destruct j as [|j]; [lia|]. cbn [nth_error]. apply (find_rev_none l k E).
Qed.
Lemma holiday_map_ok dates names table n : holiday_map dates names = Ok table ->
  holiday dates names n (match m_find Z.eqb table (86400 * n) with Some v => v | None => [] end).
Proof.
  unfold holiday_map. destruct (Nat.ltb_spec (length names) (length dates)) as [|L]; [discriminate|]. intro H. injection H as <-.
  rewrite table_find. cbn [m_find].
  assert (N : forall j d, nth_error dates j = Some d -> exists v, nth_error names j = Some v).
  { intros j d Hj. destruct (nth_error names j) eqn:E; [eauto|]. apply nth_error_None in E. assert (j < length dates)%nat by (apply nth_error_Some; congruence). lia. }
  destruct (m_find Z.eqb (rev (combine dates names)) (86400 * n)) as [v|] eqn:E.
  - left. destruct (find_rev_some _ _ _ E) as (i & H1 & H2). exists i. apply combine_nth in H1. destruct H1 as (H1 & H1'). split; [exact H1|]. split; [exact H1'|].
    intros j Hj Ej. destruct (N j _ Ej) as (w & Hw). apply (H2 j w Hj). apply combine_nth. auto.
  - right. split; [|reflexivity]. intro I. apply In_nth_error in I. destruct I as (j & Ej). destruct (N j _ Ej) as (w & Hw).
    apply (find_rev_none _ _ E j w). apply combine_nth. auto.
Qed.
Lemma holiday_map_total dates names : (length dates <= length names)%nat -> exists table, holiday_map dates names = Ok table.
Proof. intro H. unfold holiday_map. destruct (Nat.ltb_spec (length names) (length dates)); [lia|eauto]. Qed.

(** The name reported, before which day it is looked up. *)
Lemma time_point_no_holiday ticks gm t f : time_point ticks gm t = Ok f -> holiday_name f = [].
Proof.
  unfold time_point. destruct (gm _) as [x|]; [|discriminate]. cbv zeta.
  destruct (idx months _) as [ml| |]; [|discriminate|discriminate]. cbn [bind]. destruct (idx week_days _) as [dl| |]; [|discriminate|discriminate]. cbn [bind].
  intro H. injection H as <-. reflexivity.
Qed.
Lemma date_execute_ok ticks gm t f dates names table : Z.abs (Z.quot t ticks) <= 2 ^ 50 -> time_point ticks gm t = Ok f -> holiday_map dates names = Ok table ->
  exists name, date_execute ticks gm table t = Ok (with_holiday f name) /\ holiday dates names (Z.quot (Z.quot t ticks) 86400) name.
Proof.
  intros Hs Hf Ht. pose proof (holiday_map_ok dates names table (Z.quot (Z.quot t ticks) 86400) Ht) as H.
  assert (W : with_holiday f [] = f). { pose proof (time_point_no_holiday _ _ _ _ Hf) as E. destruct f. cbn in E. subst. reflexivity. }
  unfold date_execute. rewrite Hf. cbn [bind]. rewrite holiday_key_eq by exact Hs.
  destruct table as [|p table]; [exists []; rewrite W; split; [reflexivity|exact H]|].
  destruct (m_find Z.eqb (p :: table) _) as [v|]; [exists v|exists []]; (split; [|exact H]); [reflexivity|rewrite W; reflexivity].
Qed.
Lemma holiday_day ticks t : 0 < ticks -> 0 <= t \/ (86400 * ticks | t) -> Z.quot (Z.quot t ticks) 86400 = day_number ticks t.
Proof.
  intros Ht H. unfold day_number. rewrite Z.quot_quot by lia. destruct H as [H|(k & ->)].
  - rewrite Z.quot_div_nonneg by lia. f_equal. lia.
  - rewrite Z.div_mul by lia. replace (ticks * 86400) with (86400 * ticks) by lia. apply Z.quot_mul. lia.
Qed.

(** *** Countries *)
Lemma before_last_dot_some s x : before_last_dot s = Some x -> exists ext, s = x ++ 46 :: ext /\ ~ In 46 ext.
Proof.
  revert x. induction s as [|c r IH]; intros x; [discriminate|]. cbn [before_last_dot].
  assert (N : before_last_dot r = None -> ~ In 46 r).
  { clear IH. induction r as [|a r IHr]; [intros _ []|]. cbn [before_last_dot]. destruct (before_last_dot r); [discriminate|]. destruct (Z.eqb_spec a 46); [discriminate|].
    intros _ [->|I]; [congruence|]. exact (IHr eq_refl I). }
  destruct (before_last_dot r) as [y|] eqn:E.
  - intro H. injection H as <-. destruct (IH y eq_refl) as (ext & -> & H). exists ext. auto.
  - destruct (Z.eqb_spec c 46) as [->|]; [|discriminate]. intro H. injection H as <-. exists r. split; [reflexivity|]. auto.
Qed.
Lemma before_last_dot_none s : before_last_dot s = None -> ~ In 46 s.
Proof.
  induction s as [|a r IHr]; [intros _ []|]. cbn [before_last_dot]. destruct (before_last_dot r); [discriminate|]. destruct (Z.eqb_spec a 46); [discriminate|].
  intros _ [->|I]; [congruence|]. exact (IHr eq_refl I).
Qed.
Lemma remove_extension_stem f : stem f (remove_extension f).
Proof.
  unfold stem, remove_extension. destruct (before_last_dot f) as [x|] eqn:E; [left; apply before_last_dot_some, E|right; split; [apply before_last_dot_none, E|reflexivity]].
Qed.
Lemma dot_split (a b c d : list Z) : a ++ 46 :: b = c ++ 46 :: d -> ~ In 46 b -> ~ In 46 d -> a = c.
Proof.
  revert c. induction a as [|x a IH]; intros c E Hb Hd.
  - destruct c as [|y c]; [reflexivity|]. cbn in E. injection E as <- E. exfalso. apply Hb. rewrite E. apply in_or_app. right. left. reflexivity.
  - destruct c as [|y c].
    + cbn in E. injection E as -> E. exfalso. apply Hd. rewrite <- E. apply in_or_app. right. left. reflexivity.
    + cbn in E. injection E as -> E. f_equal. apply (IH c E Hb Hd).
Qed.
Lemma stem_unique f s : stem f s -> s = remove_extension f.
Proof.
  intro H. pose proof (remove_extension_stem f) as H'. destruct H as [(e & E & N)|(N & ->)], H' as [(e' & E' & N')|(N' & E')].
  - rewrite E in E' at 1. symmetry. apply (dot_split _ _ _ _ (eq_sym E') N' N).
  - exfalso. apply N'. rewrite E. apply in_or_app. right. left. reflexivity.
  - exfalso. apply N. rewrite E'. apply in_or_app. right. left. reflexivity.
  - symmetry. exact E'.
Qed.
Lemma country_match_written f c : country_match c f = true <-> written f c.
Proof.
  unfold country_match, written. cbv zeta. set (s := remove_extension f).
  assert (S : forall P : list Z -> Prop, (exists x, stem f x /\ P x) <-> P s).
  { intro P. split; [intros (x & H1 & H2); rewrite (stem_unique f x H1) in H2; exact H2|intro H; exists s; split; [apply remove_extension_stem|exact H]]. }
  rewrite (S (fun s => c = s \/ c = to_lower s \/ c = filter (fun c => negb (is_space c)) (to_lower s))).
  destruct (str_eqb f c) eqn:E1; [apply str_eqb_eq in E1; subst; tauto|].
  destruct (str_eqb s c) eqn:E2; [apply str_eqb_eq in E2; subst; tauto|].
  destruct (str_eqb (to_lower s) c) eqn:E3; [apply str_eqb_eq in E3; subst; tauto|].
  rewrite str_eqb_eq. assert (A : forall x y, str_eqb x y = false -> y <> x) by (intros x y H ->; rewrite str_eqb_refl in H; discriminate).
  apply A in E1, E2, E3. split; [intros <-; auto|]. intros [H|[H|[H|H]]]; congruence.
Qed.

Lemma check_spec files c : check_country files c = (existsb (country_match c) files, existsb (country_match c) files).
Proof.
  unfold check_country. induction files as [|f files IH]; [reflexivity|]. cbn [enum_countries existsb]. destruct (country_match c f); [reflexivity|]. exact IH.
Qed.
Lemma valid_spec files c : is_valid_country files c = true <-> exists f, In f files /\ written f c.
Proof.
  unfold is_valid_country. rewrite check_spec. cbn [fst]. rewrite existsb_exists. split; intros (f & H1 & H2); exists f; (split; [exact H1|apply country_match_written; exact H2]).
Qed.
Lemma enum_all files : forall acc, enum_countries (fun results f => (results ++ [remove_extension f], true)) acc files = (acc ++ map remove_extension files, true, false).
Proof.
  induction files as [|f files IH]; intro acc; [cbn; rewrite app_nil_r; reflexivity|]. cbn [enum_countries map]. rewrite IH, <- app_assoc. reflexivity.
Qed.
Lemma supported_eq files : supported_countries files = s_sort str_lt (map remove_extension files).
Proof. unfold supported_countries. rewrite enum_all. reflexivity. Qed.
Lemma file_spec files c : c <> [] -> country_file files c = match find (country_match c) files with Some f => Ok (Some f) | None => Throw InvalidArgument end.
Proof.
  intro Hc. unfold country_file. destruct c as [|x c]; [congruence|]. generalize ([] : list Z). induction files as [|f files IH]; intro z; [reflexivity|].
  cbn [enum_countries find]. destruct (country_match (x :: c) f); [reflexivity|]. apply IH.
Qed.

(** The shipped files are told apart. *)
Definition variants (f : list Z) : list (list Z) :=
  let s := remove_extension f in [f; s; to_lower s; filter (fun c => negb (is_space c)) (to_lower s)].
Lemma written_variants f c : written f c <-> In c (variants f).
Proof.
  rewrite <- country_match_written. unfold variants, country_match. cbv zeta. cbn [In]. set (s := remove_extension f). set (l := to_lower s). set (k := filter _ l).
  split.
  - destruct (str_eqb f c) eqn:E1; [apply str_eqb_eq in E1; auto|]. destruct (str_eqb s c) eqn:E2; [apply str_eqb_eq in E2; auto|].
    destruct (str_eqb l c) eqn:E3; [apply str_eqb_eq in E3; auto|]. intro E. apply str_eqb_eq in E. auto.
  - intros [->|[->|[->|[->|[]]]]]; rewrite ?str_eqb_refl; repeat match goal with |- context [if ?b then _ else _] => destruct b end; reflexivity.
Qed.
Definition told_apart (files : list (list Z)) : bool :=
  forallb (fun f => forallb (fun g => str_eqb f g || negb (existsb (fun c => existsb (str_eqb c) (variants g)) (variants f))) files) files.
Lemma told_apart_ok files : told_apart files = true -> forall f g c, In f files -> In g files -> written f c -> written g c -> f = g.
Proof.
  intros H f g c Hf Hg Wf Wg. unfold told_apart in H. rewrite forallb_forall in H. specialize (H f Hf). rewrite forallb_forall in H. specialize (H g Hg).
  destruct (str_eqb f g) eqn:E; [apply str_eqb_eq, E|]. cbn [orb] in H. apply Bool.negb_true_iff in H. apply written_variants in Wf, Wg.
  assert (X : existsb (fun c => existsb (str_eqb c) (variants g)) (variants f) = true); [|congruence].
  apply existsb_exists. exists c. split; [exact Wf|]. apply existsb_exists. exists c. split; [exact Wg|apply str_eqb_refl].
Qed.
Lemma shipped_apart : told_apart shipped_files = true.
Proof. vm_compute. reflexivity. Qed.
Lemma shipped_nonempty f : In f shipped_files -> existsb (str_eqb []) (variants f) = false.
Proof.
  assert (H : forallb (fun f => negb (existsb (str_eqb []) (variants f))) shipped_files = true) by (vm_compute; reflexivity).
  rewrite forallb_forall in H. intro I. specialize (H f I). apply Bool.negb_true_iff in H. exact H.
Qed.
Lemma shipped_file files f c : Permutation files shipped_files -> In f shipped_files -> written f c -> country_file files c = Ok (Some f).
Proof.
  intros P I W. assert (Hc : c <> []).
  { intros ->. pose proof (shipped_nonempty f I) as N. apply written_variants in W. apply Bool.not_true_iff_false in N. apply N. apply existsb_exists.
    exists []. split; [exact W|reflexivity]. }
  rewrite file_spec by exact Hc. destruct (find (country_match c) files) as [g|] eqn:E.
  - apply find_some in E. destruct E as (E1 & E2). apply country_match_written in E2. do 2 f_equal.
    apply (told_apart_ok _ shipped_apart g f c); [apply (Permutation_in _ P), E1|exact I|exact E2|exact W].
  - exfalso. pose proof (find_none _ _ E f (Permutation_in _ (Permutation_sym P) I)) as N. apply country_match_written in W. congruence.
Qed.
