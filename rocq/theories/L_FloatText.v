(** Scanning a decimal numeral. *)
From Verif Require Import Base M_Scale M_String L_String S_TimeText L_TimeText M_FloatText S_FloatText.
Open Scope Z_scope.

Lemma digit_value_char d : 0 <= d <= 9 -> digit_value (48 + d) = Some d.
Proof.
  intros H. unfold digit_value, lower_case.
  replace ((65 <=? 48 + d) && (48 + d <=? 90)) with false by (symmetry; apply andb_false_iff; left; apply Z.leb_gt; lia).
  rewrite is_digit_plus by exact H. f_equal. lia.
Qed.
Definition no_digit (s : list Z) : Prop := match s with [] => True | c :: _ => digit_value c = None \/ exists d, digit_value c = Some d /\ 10 <= d end.
Lemma take_digits_chars (ds r : list Z) : digits_0_9 ds -> no_digit r -> take_base 10 (digit_chars ds ++ r) = (ds, r).
Proof.
  intros Hd Hr. induction Hd as [|d ds H Hd IH]; cbn [digit_chars map app].
  - destruct r as [|c r]; [reflexivity|]. cbn [take_base]. destruct Hr as [E|[d [E H]]]; rewrite E; [reflexivity|].
    replace (d <? 10) with false by (symmetry; apply Z.ltb_ge; lia). reflexivity.
  - cbn [take_base]. rewrite digit_value_char by exact H. replace (d <? 10) with true by (symmetry; apply Z.ltb_lt; lia).
    unfold digit_chars in IH. rewrite IH. reflexivity.
Qed.
Lemma base_value_number ds : base_value 10 ds = number ds.
Proof. reflexivity. Qed.
Lemma stops_no_digit s : stops s -> no_digit s.
Proof.
  destruct s as [|c s]; [exact (fun _ => I)|]. intros (H1 & H2 & H3 & _). left. unfold digit_value, lower_case, is_digit.
  replace ((65 <=? c) && (c <=? 90)) with false by (symmetry; apply andb_false_iff; rewrite !Z.leb_gt; lia). cbv iota zeta.
  replace ((48 <=? c) && (c <=? 57)) with false by (symmetry; apply andb_false_iff; rewrite !Z.leb_gt; lia). cbv iota.
  replace ((97 <=? c) && (c <=? 122)) with false by (symmetry; apply andb_false_iff; rewrite !Z.leb_gt; lia). reflexivity.
Qed.
Lemma digit_nul ds : digits_0_9 ds -> Forall (fun c => c <> 0) (digit_chars ds).
Proof. intros H. apply Forall_map. apply (Forall_impl _ (fun d (Hd : 0 <= d <= 9) => ltac:(lia) : 48 + d <> 0) H). Qed.
Lemma until_nul_app a b : Forall (fun c => c <> 0) a -> until_nul (a ++ b) = a ++ until_nul b.
Proof. intros H. induction H as [|c a Hc H IH]; [reflexivity|]. cbn. apply Z.eqb_neq in Hc. rewrite Hc, IH. reflexivity. Qed.
Lemma stops_until s : stops s -> stops (until_nul s).
Proof. destruct s as [|c s]; [exact (fun H => H)|]. cbn [until_nul]. destruct (c =? 0); [exact (fun _ => I)|exact (fun H => H)]. Qed.
Lemma skip_spaces b s : Forall (fun c => is_space c = true) b -> (match s with [] => True | c :: _ => is_space c = false end) -> skip_space (b ++ s) = s.
Proof.
  intros H Hs. induction H as [|c b Hc H IH]; [|cbn [app skip_space]; rewrite Hc; exact IH].
  destruct s as [|c s]; [reflexivity|]. cbn [app skip_space]. rewrite Hs. reflexivity.
Qed.
Lemma sign_nul s : Forall (fun c => c <> 0) (sign_text s).
Proof. destruct s as [[|]|]; repeat constructor; discriminate. Qed.
Lemma space_nul b : Forall (fun c => is_space c = true) b -> Forall (fun c => c <> 0) b.
Proof. intros H. eapply Forall_impl; [|exact H]. intros c Hc E. subst. discriminate. Qed.
(** What comes behind the sign: a digit or a point. *)
Definition starts_number (s : list Z) : Prop := match s with [] => False | c :: _ => (exists d, c = 48 + d /\ 0 <= d <= 9) \/ c = 46 end.
Lemma starts_number_sign s : starts_number s -> take_sign s = (false, s).
Proof.
  destruct s as [|c s]; [intros []|]. intros H. cbn [take_sign].
  replace (c =? 45) with false by (symmetry; apply Z.eqb_neq; destruct H as [[d [-> H]]| ->]; lia).
  replace (c =? 43) with false by (symmetry; apply Z.eqb_neq; destruct H as [[d [-> H]]| ->]; lia). reflexivity.
Qed.
Lemma take_sign_text s r : starts_number r -> take_sign (sign_text s ++ r) = (negative s, r).
Proof. intros H. destruct s as [[|]|]; [reflexivity|reflexivity|]. apply starts_number_sign, H. Qed.
Lemma starts_number_space s : starts_number s -> match s with [] => True | c :: _ => is_space c = false end.
Proof.
  destruct s as [|c s]; [exact (fun _ => I)|]. intros H. unfold is_space.
  apply orb_false_iff. split; [apply Z.eqb_neq|apply andb_false_iff; right; apply Z.leb_gt]; destruct H as [[d [-> H]]| ->]; lia.
Qed.
Lemma sign_space s r : starts_number r -> match sign_text s ++ r with [] => True | c :: _ => is_space c = false end.
Proof. intros H. destruct s as [[|]|]; [reflexivity|reflexivity|]. apply starts_number_space, H. Qed.
Lemma lower_digit d : 0 <= d <= 9 -> lower_case (48 + d) = 48 + d.
Proof. intros H. unfold lower_case. replace ((65 <=? 48 + d) && (48 + d <=? 90)) with false by (symmetry; apply andb_false_iff; left; apply Z.leb_gt; lia). reflexivity. Qed.
Lemma starts_number_word w ws s : starts_number s -> 97 <= w -> starts_with (w :: ws) s = false.
Proof.
  destruct s as [|c s]; [intros []|]. intros H Hw. cbn [starts_with]. apply andb_false_iff. left. apply Z.eqb_neq.
  destruct H as [[d [-> H]]| ->]; [rewrite lower_digit by exact H; lia|]. change (lower_case 46) with 46. lia.
Qed.
(** Behind the digits: not the letter x. *)
Definition no_x (s : list Z) : Prop := match s with [] => True | c :: _ => lower_case c <> 120 end.
Lemma digits_no_hex (ds r : list Z) : digits_0_9 ds -> no_x r -> (ds = [] -> match r with c :: _ => lower_case c <> 48 | [] => True end) ->
  starts_with [48; 120] (digit_chars ds ++ r) = false.
Proof.
  intros Hd Hr H0. destruct ds as [|d [|d2 ds]]; cbn [digit_chars map app].
  - specialize (H0 eq_refl). destruct r as [|c r]; [reflexivity|]. cbn [starts_with]. apply Z.eqb_neq in H0. rewrite H0. reflexivity.
  - inversion Hd as [|? ? H1 _]; subst. cbn [starts_with]. rewrite lower_digit by exact H1. destruct r as [|c r]; [apply andb_false_r|].
    cbn in Hr. apply Z.eqb_neq in Hr. rewrite Hr. apply andb_false_r.
  - inversion Hd as [|? ? H1 Hd2]; subst. inversion Hd2 as [|? ? H2 _]; subst. cbn [starts_with]. rewrite !lower_digit by assumption.
    replace (48 + d2 =? 120) with false by (symmetry; apply Z.eqb_neq; lia). apply andb_false_r.
Qed.
Lemma stops_no_x s : stops s -> no_x s.
Proof.
  destruct s as [|c s]; [exact (fun _ => I)|]. intros (H1 & H2 & H3 & _). cbn. unfold lower_case.
  replace ((65 <=? c) && (c <=? 90)) with false by (symmetry; apply andb_false_iff; rewrite !Z.leb_gt; lia). lia.
Qed.

Definition exponent_text (e : option (bool * option bool * list Z)) : list Z :=
  match e with None => [] | Some (capital, s, ds) => (if capital then 69 else 101) :: sign_text s ++ digit_chars ds end.
Definition exponent_of (e : option (bool * option bool * list Z)) : Z := match e with None => 0 | Some (_, s, ds) => signed s (number ds) end.
Definition exponent_ok (e : option (bool * option bool * list Z)) : Prop :=
  match e with None => True | Some (_, _, ds) => digits_0_9 ds /\ ds <> [] end.
Lemma starts_digits ds r : digits_0_9 ds -> ds <> [] -> starts_number (digit_chars ds ++ r).
Proof. intros H N. destruct H as [|d ds H Hd]; [contradiction|]. left. exists d. split; [reflexivity|exact H]. Qed.
Lemma take_exponent_text e r : exponent_ok e -> stops r -> take_exponent 101 (exponent_text e ++ r) = exponent_of e.
Proof.
  intros He Hr. destruct e as [[[capital s] ds]|].
  - destruct He as [Hd Hn]. cbn [exponent_text exponent_of]. rewrite <- app_comm_cons, <- app_assoc. unfold take_exponent.
    replace (lower_case (if capital then 69 else 101) =? 101) with true by (destruct capital; reflexivity). cbv iota.
    rewrite take_sign_text by (apply starts_digits; assumption). rewrite take_digits_chars by (try apply stops_no_digit; assumption).
    reflexivity.
  - cbn [exponent_text app exponent_of]. destruct r as [|c r]; [reflexivity|]. cbn [take_exponent].
    destruct Hr as (H1 & H2 & H3 & _). unfold lower_case.
    replace ((65 <=? c) && (c <=? 90)) with false by (symmetry; apply andb_false_iff; rewrite !Z.leb_gt; lia).
    replace (c =? 101) with false by (symmetry; apply Z.eqb_neq; lia). reflexivity.
Qed.
Lemma exponent_no_digit e r : stops r -> no_digit (exponent_text e ++ r) /\ no_x (exponent_text e ++ r) /\
  match exponent_text e ++ r with c :: _ => c <> 46 | [] => True end.
Proof.
  intros Hr. destruct e as [[[capital s] ds]|].
  - cbn [exponent_text]. rewrite <- app_comm_cons. destruct capital; cbn; (split; [right; eexists; split; [reflexivity|lia]|split; discriminate]).
  - cbn [exponent_text app]. split; [apply stops_no_digit, Hr|]. split; [apply stops_no_x, Hr|]. destruct r as [|c r]; [exact I|].
    destruct Hr as (_ & _ & _ & H). exact H.
Qed.
Lemma exponent_nul e : exponent_ok e -> Forall (fun c => c <> 0) (exponent_text e).
Proof.
  destruct e as [[[capital s] ds]|]; [|constructor]. intros [H _]. cbn [exponent_text]. constructor; [destruct capital; discriminate|].
  apply Forall_app. split; [apply sign_nul|apply digit_nul, H].
Qed.

Definition point_text (p : option (list Z)) : list Z := match p with None => [] | Some ds => 46 :: digit_chars ds end.
Definition point_digits (p : option (list Z)) : list Z := match p with None => [] | Some ds => ds end.
Lemma point_nul p : digits_0_9 (point_digits p) -> Forall (fun c => c <> 0) (point_text p).
Proof. destruct p as [ds|]; [|constructor]. intros H. constructor; [discriminate|apply digit_nul, H]. Qed.

Lemma take_mantissa_text w p e r : digits_0_9 w -> digits_0_9 (point_digits p) -> stops r ->
  take_mantissa 10 (digit_chars w ++ point_text p ++ exponent_text e ++ r) = (w, point_digits p, exponent_text e ++ r).
Proof.
  intros Hw Hp Hr. destruct (exponent_no_digit e r Hr) as (H1 & _ & H3). unfold take_mantissa. destruct p as [ds|]; cbn [point_text point_digits].
  - rewrite take_digits_chars; [|exact Hw|left; reflexivity]. rewrite <- app_comm_cons. change (46 =? 46) with true. cbv iota.
    cbn [point_digits] in Hp. rewrite take_digits_chars by assumption. reflexivity.
  - cbn [app]. rewrite take_digits_chars by assumption. destruct (exponent_text e ++ r) as [|c s]; [reflexivity|].
    apply Z.eqb_neq in H3. rewrite H3. reflexivity.
Qed.
Lemma scan_number_text w p e r : digits_0_9 w -> digits_0_9 (point_digits p) -> w ++ point_digits p <> [] -> exponent_ok e -> stops r ->
  scan_number (digit_chars w ++ point_text p ++ exponent_text e ++ r) =
  Some (ScanNumber (number (w ++ point_digits p)) 10 (exponent_of e - Z.of_nat (length (point_digits p)))).
Proof.
  intros Hw Hp Hn He Hr. unfold scan_number. rewrite take_mantissa_text by assumption.
  rewrite take_exponent_text by assumption. rewrite base_value_number.
  destruct (w ++ point_digits p) as [|d ds] eqn:E; [contradiction|]. reflexivity.
Qed.
(** The whole text. *)
Lemma scan_text n : numeral_ok n -> scan (numeral_text n) =
  Some (negative (n_sign n), ScanNumber (number (n_whole n ++ decimals n)) 10 (exponent n - Z.of_nat (length (decimals n)))).
Proof.
  destruct n as [b s w p e r]. unfold numeral_ok, numeral_text, decimals, exponent. cbn [n_blank n_sign n_whole n_point n_exponent n_rest].
  intros (Hb & Hw & Hp & Hn & He & Hr).
  change (match p with None => [] | Some ds => ds end) with (point_digits p) in *.
  change (match p with None => [] | Some ds => 46 :: digit_chars ds end) with (point_text p).
  change (match e with None => [] | Some (capital, s, ds) => (if capital then 69 else 101) :: sign_text s ++ digit_chars ds end) with (exponent_text e).
  change (match e with None => 0 | Some (_, s, ds) => signed s (number ds) end) with (exponent_of e).
  change (exponent_ok e) in He.
  unfold scan. rewrite !until_nul_app by first [apply space_nul, Hb | apply sign_nul | apply digit_nul, Hw | apply point_nul, Hp | apply exponent_nul, He].
  pose proof (stops_until r Hr) as Hr'. set (t := digit_chars w ++ point_text p ++ exponent_text e ++ until_nul r).
  assert (Hs : starts_number t).
  { unfold t. destruct Hw as [|d w' H0 Hw']; [|left; exists d; split; [reflexivity|exact H0]].
    destruct p as [ds|]; [right; reflexivity|contradiction (Hn eq_refl)]. }
  rewrite skip_spaces by (try apply sign_space; assumption). rewrite take_sign_text by exact Hs.
  unfold s_inf. rewrite (starts_number_word 105 [110; 102] t Hs) by lia. rewrite (starts_number_word 110 [97; 110] t Hs) by lia.
  assert (Hx : starts_with [48; 120] t = false).
  { unfold t. destruct (exponent_no_digit e (until_nul r) Hr') as (_ & H2 & _). apply digits_no_hex; [exact Hw| |].
    - destruct p as [ds|]; [discriminate|exact H2].
    - intros Ew. destruct p as [ds|]; [discriminate|]. subst w. contradiction (Hn eq_refl). }
  rewrite Hx. unfold t. rewrite scan_number_text by assumption. reflexivity.
Qed.
