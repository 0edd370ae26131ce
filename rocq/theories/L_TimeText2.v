From Verif Require Import Base L_List M_String M_Text M_Date S_Date L_Date L_Date2 L_Date3 M_TimeText S_TimeText L_TimeText.
Open Scope Z_scope.

(** *** Which letters are in a text *)
Lemma has_app c a b : has c (a ++ b) = has c a || has c b.
Proof. apply existsb_app. Qed.
Lemma has_two c n : 0 <= n <= 99 -> is_digit c = false -> has c (two n) = false.
Proof.
  intros Hn Hc. unfold has, two. cbn [existsb].
  destruct (Z.eqb_spec c (48 + n / 10)) as [->|]; [rewrite is_digit_plus in Hc by (Z.div_mod_to_equations; lia); discriminate|].
  destruct (Z.eqb_spec c (48 + n mod 10)) as [->|]; [rewrite is_digit_plus in Hc by (Z.div_mod_to_equations; lia); discriminate|]. reflexivity.
Qed.
Lemma has_four c n : 0 <= n <= 9999 -> is_digit c = false -> has c (four n) = false.
Proof.
  intros Hn Hc. assert (D : forall d, 0 <= d <= 9 -> (c =? 48 + d) = false).
  { intros d Hd. destruct (Z.eqb_spec c (48 + d)) as [->|]; [rewrite is_digit_plus in Hc by exact Hd; discriminate|reflexivity]. }
  unfold has, four. cbn [existsb]. rewrite !D by (Z.div_mod_to_equations; lia). reflexivity.
Qed.
Lemma has_fraction c ds : Forall (fun d => 0 <= d <= 9) ds -> is_digit c = false -> c <> 46 -> has c (fraction_text ds) = false.
Proof.
  intros Hd Hc H46. assert (H : has c (map (fun d => 48 + d) ds) = false).
  { induction Hd as [|d ds Hd _ IH]; [reflexivity|]. unfold has in *. cbn [map existsb]. rewrite IH.
    destruct (Z.eqb_spec c (48 + d)) as [->|]; [rewrite is_digit_plus in Hc by exact Hd; discriminate|reflexivity]. }
  unfold fraction_text. destruct ds as [|d ds]; [reflexivity|]. unfold has in *. cbn [existsb]. rewrite H.
  destruct (Z.eqb_spec c 46); [contradiction|reflexivity].
Qed.
Lemma has_blank c s : Forall (fun c => is_space c = true) s -> is_space c = false -> has c s = false.
Proof.
  intros Hs Hc. induction Hs as [|x s Hx _ IH]; [reflexivity|]. unfold has in *. cbn [existsb]. rewrite IH.
  destruct (Z.eqb_spec c x) as [->|]; [congruence|reflexivity].
Qed.
Lemma has_opt c (b : bool) x : has c (if b then [x] else []) = b && (c =? x).
Proof. destruct b; unfold has; cbn [existsb]; [apply orb_false_r|reflexivity]. Qed.

Definition zone_has (c : Z) (z : zone) : bool :=
  match z with
  | Zulu => c =? 90
  | Hours west _ => c =? sign west
  | HoursMinutes west colon _ _ => (c =? sign west) || (colon && (c =? 58))
  end.
Lemma has_zone c z : zone_digits z -> is_digit c = false -> has c (zone_text z) = zone_has c z.
Proof.
  intros Hz Hc. destruct z as [|west hh|west colon hh mm]; cbn [zone_text zone_has zone_digits] in *.
  - unfold has. cbn [existsb]. apply orb_false_r.
  - unfold has. cbn [existsb]. fold (has c (two hh)). rewrite has_two by assumption. apply orb_false_r.
  - unfold has. cbn [existsb]. change (existsb (Z.eqb c)) with (has c). rewrite !has_app, !has_two, has_opt by tauto.
    rewrite orb_false_l, orb_false_r. reflexivity.
Qed.
Lemma has_text c l y m d h mi s ds z : digits_ok y m d h mi s -> Forall (fun d => 0 <= d <= 9) ds -> blank_between l -> zone_digits z ->
  is_digit c = false -> is_space c = false -> c <> 46 ->
  has c (time_text l y m d h mi s ds z) =
  dashes l && (c =? 45) || colons l && (c =? 58) || match between l with None => c =? 84 | Some _ => false end || zone_has c z.
Proof.
  intros (H1 & H2 & H3 & H4 & H5 & H6) Hd Hb Hz Hc Hs H46. unfold time_text. cbv zeta.
  rewrite !has_app, has_four, !has_two, has_fraction, has_zone, !has_opt by assumption.
  assert (E : has c (match between l with None => [84] | Some ws => ws end) = match between l with None => c =? 84 | Some _ => false end).
  { unfold blank_between in Hb. destruct (between l) as [ws|]; [apply has_blank; assumption|]. unfold has. cbn [existsb]. apply orb_false_r. }
  rewrite E. clear. destruct (dashes l && (c =? 45)), (colons l && (c =? 58)), (match between l with None => c =? 84 | Some _ => false end), (zone_has c z); reflexivity.
Qed.

(** *** The last colon *)
Lemma last_colon_nth (s : list Z) : forall i, last_colon s = Some i -> nth_error s i = Some 58.
Proof.
  induction s as [|c s IH]; intros i H; [discriminate|]. cbn [last_colon] in H. destruct (last_colon s) as [j|].
  - injection H as <-. cbn [nth_error]. apply IH. reflexivity.
  - destruct (Z.eqb_spec c 58) as [->|]; [|discriminate]. injection H as <-. reflexivity.
Qed.
Lemma last_colon_none s : has 58 s = false -> last_colon s = None.
Proof.
  induction s as [|c s IH]; intro H; [reflexivity|]. unfold has in H, IH. cbn [existsb] in H. apply orb_false_iff in H.
  destruct H as (H1 & H2). cbn [last_colon]. rewrite IH by exact H2. rewrite Z.eqb_sym in H1. rewrite H1. reflexivity.
Qed.
Lemma last_colon_at a b : has 58 b = false -> last_colon (a ++ 58 :: b) = Some (length a).
Proof.
  intro H. induction a as [|c a IH].
  - cbn [app last_colon]. rewrite last_colon_none by exact H. reflexivity.
  - cbn [app last_colon length]. rewrite IH. reflexivity.
Qed.

Section Parse.
  Variable places : nat.
  Variable rounding : Z -> nat -> Z.
  Notation parse := (parse_items places rounding).
  Notation one := (parse_item places rounding).

  Lemma parse_step i r f f' s s' : one i f (mkStream s false) = Ok (Some (f', s')) -> parse (i :: r) f (mkStream s false) = parse r f' s'.
  Proof. intro E. cbn [parse_items eof]. rewrite E. reflexivity. Qed.

  Lemma parse_char c r f s : parse (IChar c :: r) f (mkStream (c :: s) false) = parse r f (mkStream s false).
  Proof. apply parse_step. cbn [parse_item left]. rewrite Z.eqb_refl. reflexivity. Qed.
  Lemma parse_opt (b : bool) c r f s : parse ((if b then [IChar c] else []) ++ r) f (mkStream ((if b then [c] else []) ++ s) false) = parse r f (mkStream s false).
  Proof. destruct b; [apply parse_char|reflexivity]. Qed.
  Lemma parse_year y r s m d h mi se o x : 0 <= y <= 9999 ->
    parse (IYear :: r) (mkParsed x m d h mi se o) (mkStream (four y ++ s) false) = parse r (mkParsed y m d h mi se o) (mkStream s false).
  Proof. intro H. apply parse_step. cbn [parse_item]. rewrite read_four by exact H. reflexivity. Qed.
  Lemma parse_month m r s y d h mi se o x : 0 <= m <= 99 ->
    parse (IMonth :: r) (mkParsed y x d h mi se o) (mkStream (two m ++ s) false) = parse r (mkParsed y m d h mi se o) (mkStream s false).
  Proof. intro H. apply parse_step. cbn [parse_item]. rewrite read_two_signed by lia. reflexivity. Qed.
  Lemma parse_day d r s y m h mi se o x : 0 <= d <= 99 ->
    parse (IDay :: r) (mkParsed y m x h mi se o) (mkStream (two d ++ s) false) = parse r (mkParsed y m d h mi se o) (mkStream s false).
  Proof. intro H. apply parse_step. cbn [parse_item]. rewrite read_two_signed by lia. reflexivity. Qed.
  Lemma parse_hour h r s y m d mi se o x : 0 <= h <= 99 ->
    parse (IHour :: r) (mkParsed y m d x mi se o) (mkStream (two h ++ s) false) = parse r (mkParsed y m d h mi se o) (mkStream s false).
  Proof. intro H. apply parse_step. cbn [parse_item]. rewrite read_two by lia. reflexivity. Qed.
  Lemma parse_minute mi r s y m d h se o x : 0 <= mi <= 99 ->
    parse (IMinute :: r) (mkParsed y m d h x se o) (mkStream (two mi ++ s) false) = parse r (mkParsed y m d h mi se o) (mkStream s false).
  Proof. intro H. apply parse_step. cbn [parse_item]. rewrite read_two by lia. reflexivity. Qed.
  Lemma skip_blank ws c r : Forall (fun c => is_space c = true) ws -> is_space c = false -> skip_space (ws ++ c :: r) = c :: r.
  Proof. intros H Hc. induction H as [|x ws Hx _ IH]; cbn [app skip_space]; [rewrite Hc; reflexivity|rewrite Hx; exact IH]. Qed.
  Lemma digit_not_space c : is_digit c = true -> is_space c = false.
  Proof.
    unfold is_digit, is_space. intro H. apply andb_true_iff in H. destruct H as (H1 & H2). apply Z.leb_le in H1, H2.
    destruct (Z.eqb_spec c 32); [lia|]. destruct (Z.leb_spec c 13); [lia|]. rewrite andb_false_r. reflexivity.
  Qed.
  Lemma parse_between l h r f s : blank_between l -> 0 <= h <= 99 ->
    parse ((if match between l with None => true | Some _ => false end then IChar 84 else ISpace) :: r) f
      (mkStream (match between l with None => [84] | Some ws => ws end ++ two h ++ s) false) = parse r f (mkStream (two h ++ s) false).
  Proof.
    intros Hb Hh. unfold blank_between in Hb. destruct (between l) as [ws|]; [|apply parse_char].
    apply parse_step. cbn [parse_item left]. destruct (two_digit h s Hh) as (c & t & E & D). rewrite E.
    rewrite skip_blank by (auto using digit_not_space). reflexivity.
  Qed.

  Hypothesis Hplaces : (places <= 16)%nat.
  Hypothesis Hround : nearest places rounding.
  Lemma seconds_bound s ds : 0 <= s <= 99 -> fraction_digits places ds ->
    0 <= s * 10 ^ Z.of_nat (length ds) + number ds < 100 * 10 ^ Z.of_nat (length ds).
  Proof. clear. intros Hs (Hd & _). pose proof (number_bound ds Hd). nia. Qed.
  Lemma seconds_ticks s ds : 0 <= s <= 99 -> fraction_digits places ds ->
    rounding (s * 10 ^ Z.of_nat (length ds) + number ds) (length ds) = s * 10 ^ Z.of_nat places + fraction_ticks places ds.
  Proof using Hround.
    clear Hplaces. intros Hs Hf. pose proof (seconds_bound s ds Hs Hf) as B. destruct Hf as (Hd & Hl).
    assert (P : 10 ^ (3 + Z.of_nat places) = 1000 * (10 ^ Z.of_nat (length ds) * 10 ^ (Z.of_nat places - Z.of_nat (length ds)))).
    { rewrite <- Z.pow_add_r by lia. change 1000 with (10 ^ 3). rewrite <- Z.pow_add_r by lia. f_equal. lia. }
    assert (Q : 0 < 10 ^ (Z.of_nat places - Z.of_nat (length ds))) by (apply Z.pow_pos_nonneg; lia).
    rewrite (nearest_exact places) by (try assumption; rewrite P; nia).
    rewrite Z.mul_add_distr_r. unfold fraction_ticks. f_equal. rewrite <- Z.mul_assoc, <- Z.pow_add_r by lia. f_equal. f_equal. lia.
  Qed.
  Lemma seconds_fit s ds : 0 <= s <= 99 -> fraction_digits places ds ->
    in_i64 ((s * 10 ^ Z.of_nat (length ds) + number ds) * clock_ticks places / 10 ^ Z.of_nat (length ds) + 1) = true.
  Proof using Hplaces rounding.
    clear Hround. intros Hs Hf. pose proof (seconds_bound s ds Hs Hf) as B. unfold clock_ticks.
    assert (T : 0 < 10 ^ Z.of_nat places <= 10 ^ 16) by (split; [apply Z.pow_pos_nonneg; lia|apply Z.pow_le_mono_r; lia]).
    assert (P : 0 < 10 ^ Z.of_nat (length ds)) by (apply Z.pow_pos_nonneg; lia).
    set (x := s * 10 ^ Z.of_nat (length ds) + number ds) in *. set (p := 10 ^ Z.of_nat (length ds)) in *. set (t := 10 ^ Z.of_nat places) in *.
    assert (U : 0 <= x * t / p) by (apply Z.div_pos; nia).
    assert (V : x * t / p < 100 * t) by (apply Z.div_lt_upper_bound; nia).
    change (10 ^ 16) with 10000000000000000 in T. clearbody x p t.
    unfold in_i64, i64_min, i64_max. apply andb_true_iff. split; apply Z.leb_le; lia.
  Qed.
  Lemma parse_second s ds r t y m d h mi o x : 0 <= s <= 99 -> fraction_digits places ds -> stops t -> t <> [] ->
    parse (ISecond :: r) (mkParsed y m d h mi x o) (mkStream (two s ++ fraction_text ds ++ t) false) =
    parse r (mkParsed y m d h mi (s * 10 ^ Z.of_nat places + fraction_ticks places ds) o) (mkStream t false).
  Proof using Hplaces Hround.
    intros Hs Hf Ht Hne. pose proof Hf as (Hd & Hl). apply parse_step. cbn [parse_item left].
    rewrite take_seconds by (auto; lia). cbv iota beta. rewrite stold_seconds by assumption.
    unfold two at 1. cbn [app]. cbn [bind fst snd]. rewrite seconds_fit by assumption. rewrite seconds_ticks by assumption. reflexivity.
  Qed.

  (** *** The zone *)
  Definition is_zulu (z : zone) : bool := match z with Zulu => true | _ => false end.
  (** Without its colon. *)
  Definition plain_zone (z : zone) : zone := match z with HoursMinutes w _ hh mm => HoursMinutes w false hh mm | _ => z end.
  Definition west_ok (z : zone) : Prop := match z with HoursMinutes true _ hh mm => hh = 0 -> mm = 0 | _ => True end.
  Lemma parse_zone z y m d h mi s : zone_digits z -> west_ok z ->
    parse [if is_zulu z then IChar 90 else IOffset] (mkParsed y m d h mi s 0) (mkStream (zone_text (plain_zone z)) false) =
    Ok (Some (mkParsed y m d h mi s (zone_minutes z))).
  Proof.
    intros Hz Hw. destruct z as [|west hh|west colon hh mm]; cbn [plain_zone zone_text zone_digits zone_minutes is_zulu west_ok] in *.
    - rewrite parse_char. reflexivity.
    - rewrite <- (app_nil_r (two hh)). erewrite parse_step; [reflexivity|]. cbn [parse_item]. rewrite read_sign by exact Hz. cbn [eof left].
      destruct west; do 4 f_equal; lia.
    - destruct Hz as (Hh & Hm).
      rewrite (parse_step _ _ _ (mkParsed y m d h mi s (if west then - (60 * hh + mm) else 60 * hh + mm)) _ (mkStream [] false)); [reflexivity|]. cbn [parse_item app]. rewrite read_sign by exact Hh. cbn [eof left].
      destruct (two_digit mm [] Hm) as (c & t & E & D). rewrite app_nil_r in E. rewrite E, D, <- E.
      rewrite <- (app_nil_r (two mm)). rewrite read_two by lia.
      destruct west; cbv iota in Hw |- *; [|destruct (Z.ltb_spec hh 0); [lia|]; reflexivity].
      destruct (Z.ltb_spec (- hh) 0); [do 4 f_equal; lia|]. assert (hh = 0) by lia. rewrite (Hw ltac:(assumption)). subst hh. reflexivity.
  Qed.
  Lemma zone_stops z : zone_text (plain_zone z) <> [] /\ stops (zone_text (plain_zone z)).
  Proof. destruct z as [|[]|[]]; cbn; (split; [discriminate|]); (split; [reflexivity|discriminate]). Qed.
End Parse.
