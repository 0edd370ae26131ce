(** Rolling windows per grain, through the pipeline (C76). *)
From Verif Require Import Base L_List M_Archive M_Codec L_Codec M_Save L_Save M_Estimator M_Stats L_Stats M_Pipeline M_Keyed S_Keyed L_Keyed M_Grain S_Grain L_Grain L_Grain2 L_Grain4.
From Verif Require Import M_Window S_Window L_Window L_Window2 M_GrainWindow S_GrainWindow L_GrainWindow.

Lemma storable_ok : forall k, storable k -> names_ok k.
Proof.
  intros k [H1 H2]. unfold names_ok. change (len32 (map VStr k) && forallb (wt TString) (map VStr k) = true).
  apply andb_true_intro. split; [unfold len32; rewrite map_length; lia|].
  apply forallb_forall. intros v Hv. apply in_map_iff in Hv. destruct Hv as [s [<- Hin]]. destruct (H2 s Hin) as [A B].
  cbn [wt]. apply andb_true_intro. split; [|unfold len32; lia].
  apply forallb_forall. intros c Hc. specialize (B c Hc). unfold byte_ok. lia.
Qed.

Section Rolling.
  Context {I O : Type}.
  Variables (calcs : Z -> list I -> res O) (null : O) (f : list I -> O) (c : Z) (h mx mn : nat).
  Hypothesis Hc : 0 <= c < 256.
  Hypothesis Hh : (1 <= h)%nat.
  Hypothesis Hmn : (1 <= mn <= mx)%nat.
  Hypothesis Hu : Z.of_nat (h + mx) < 2 ^ 32.
  Let cap := (h + mx)%nat.
  Definition rw0 : rw I := mkRw c h mx mn (mkBuf (h + mx) 0 []).
  Definition rw_rep (r : rw I) (l : list I) : Prop :=
    rw_calc r = c /\ rw_h r = h /\ rw_mx r = mx /\ rw_mn r = mn /\ binv (rw_buf r) /\ b_max (rw_buf r) = cap /\ contents (rw_buf r) = lastn cap l.
  Definition rw_good (l : list I) : Prop :=
    forall before w after, l = before ++ w ++ after -> w <> [] -> calcs c w = Ok (f w).

  Lemma rw_new_ok : rw_new (I := I) c h mx mn = Ok rw0.
  Proof using All.
    unfold rw_new. destruct (Nat.ltb_spec h 1); [lia|]. destruct (Nat.ltb_spec mx 1); [lia|]. destruct (Nat.ltb_spec mn 1); [lia|]. destruct (Nat.ltb_spec mx mn); [lia|].
    assert (E : Z.to_nat (u32 (Z.of_nat h + Z.of_nat mx)) = (h + mx)%nat). { unfold u32. rewrite Z.mod_small; lia. }
    rewrite E. unfold buf_new. destruct (Nat.eqb_spec (h + mx) 0); [lia|]. reflexivity.
  Qed.
  Lemma empty_binv : binv (T := I) (mkBuf (h + mx) 0 []).
  Proof using All. unfold binv. cbn [b_max b_start b_data length]. clear -Hh. repeat split; lia. Qed.
  Lemma rw0_rep : rw_rep rw0 [].
  Proof using All. unfold rw_rep, rw0. cbn [rw_calc rw_h rw_mx rw_mn rw_buf b_max]. split; [reflexivity|]. split; [reflexivity|]. split; [reflexivity|]. split; [reflexivity|]. split; [exact empty_binv|]. split; reflexivity. Qed.

  Lemma window_part : forall (l : list I) t o, exists before after, l = before ++ window l h mx t o ++ after.
  Proof using All.
    clear. intros l t o. unfold window, lastn, rows_up_to. set (r := firstn (t + 1 + o - h) l).
    exists (firstn (length r - mx) r), (skipn (t + 1 + o - h) l). rewrite app_assoc, firstn_skipn. unfold r. symmetry. apply firstn_skipn.
  Qed.
  Lemma rw_step_ok : forall r l x, rw_rep r l -> rw_good (l ++ [x]) ->
    exists r', rw_step calcs null r x = ([window_row f null h mx mn (l ++ [x])], Ok r') /\ rw_rep r' (l ++ [x]).
  Proof using All.
    intros r l x (R1 & R2 & R3 & R4 & R5 & R6 & R7) G. destruct (binv_push (rw_buf r) x R5) as (P1 & P2 & P3).
    unfold rw_step, rw_exec. rewrite R1, R2, R3, R4. set (b := buf_push (rw_buf r) x) in *.
    assert (Hb : contents b = lastn (h + mx) (l ++ [x])) by (rewrite P2, R6, R7; apply lastn_snoc).
    assert (Hm : b_max b = (h + mx)%nat) by (rewrite P3, R6; reflexivity).
    assert (Hrow : mapM (rw_cell (calcs c) null b h mx mn) (seq 0 h) = Ok (window_row f null h mx mn (l ++ [x]))).
    { unfold window_row. apply mapM_ok. intros o Ho. apply in_seq in Ho.
      rewrite (cell_ok (calcs c) null h mx mn Hh Hmn Hu b (l ++ [x]) (length (l ++ [x]) - 1) o P1 Hm Hb); [|rewrite app_length; cbn; lia|lia].
      unfold window_output. destruct (Nat.ltb_spec (length (rows_up_to (l ++ [x]) h (length (l ++ [x]) - 1) o)) mn) as [Q|Q]; [reflexivity|].
      destruct (window_part (l ++ [x]) (length (l ++ [x]) - 1) o) as (be & af & E). apply (G _ _ _ E).
      intros Z. apply (f_equal (@length I)) in Z. unfold window in Z. rewrite lastn_length in Z. cbn [length] in Z. lia. }
    rewrite Hrow. cbn [bind]. eexists. split; [reflexivity|]. unfold rw_rep. cbn [rw_calc rw_h rw_mx rw_mn rw_buf].
    split; [reflexivity|]. split; [reflexivity|]. split; [reflexivity|]. split; [reflexivity|]. split; [exact P1|]. split; [exact Hm|exact Hb].
  Qed.
  Lemma rw_flush_ok : forall r l, rw_rep r l -> exists r', rw_flush (O := O) r = ([], Ok r') /\ rw_rep r' [].
  Proof using All.
    intros r l (R1 & R2 & R3 & R4 & R5 & R6 & R7). eexists. split; [reflexivity|]. unfold rw_rep, buf_clear. cbn [rw_calc rw_h rw_mx rw_mn rw_buf b_max]. rewrite R6.
    split; [exact R1|]. split; [exact R2|]. split; [exact R3|]. split; [exact R4|]. split; [exact empty_binv|]. split; reflexivity.
  Qed.
  Lemma rw_load_ok : forall r l rest, rw_rep r l -> rw_load (rw_save r ++ rest) = Ok (rw0, rest).
  Proof using All.
    intros r l rest (R1 & R2 & R3 & R4 & _). unfold rw_save, rw_load. rewrite <- !app_assoc, read_version_ok. cbn [bind snd]. rewrite R1, R2, R3, R4.
    rewrite dec_roundtrip.
    - cbn [bind fst snd]. rewrite !Nat2Z.id, rw_new_ok. reflexivity.
    - change (fits_u 1 c && (fits_u 4 (Z.of_nat h) && (fits_u 4 (Z.of_nat mx) && fits_u 4 (Z.of_nat mn))) = true).
      unfold fits_u. change (two_pow8 4) with (2 ^ 32). change (two_pow8 1) with 256. lia.
  Qed.
  Lemma rw_save_ne : rw_save rw0 <> [].
  Proof using All. discriminate. Qed.
End Rolling.

Lemma decorated : forall (K B : Type) (l : list (K * B)) u, feed (t_exec (decorator (K := K) (B := B))) u l = (map snd l, Ok u).
Proof. intros K B l. induction l as [|p l IH]; intros u; [reflexivity|]. cbn [feed]. change (t_exec decorator u p) with ([snd p], Ok u : res unit). cbv iota beta. rewrite IH. reflexivity. Qed.
Lemma map_snd_pair : forall (K B : Type) (k : K) (l : list B), map snd (map (pair k) l) = l.
Proof. intros K B k l. rewrite map_map. apply map_id. Qed.

Section RollingUses.
  Context {I O : Type}.
  Variables (calcs : Z -> list I -> res O) (null : O) (f : list I -> O) (c : Z) (h mx mn : nat).
  Hypothesis Hc : 0 <= c < 256.
  Hypothesis Hh : (1 <= h)%nat.
  Hypothesis Hmn : (1 <= mn <= mx)%nat.
  Hypothesis Hu : Z.of_nat (h + mx) < 2 ^ 32.
  Variable us : list (use (names * I)).
  Hypothesis Hn : Z.of_nat (length us) < 2 ^ 64.
  Hypothesis Hs : forall k x, In (Row (k, x)) us -> storable k.
  Hypothesis Hcalc : forall w, w <> [] -> consecutive names_eqb us w -> calcs c w = Ok (f w).

  Notation inv := (fun (g : grain names (rw I)) (p : list (use (names * I))) =>
    hinv names_eqb names_lt names_ok (rw_rep c h mx mn) (rw0 c h mx mn) g (since p) (length p)).
  Definition window_answer (p : list (use (names * I))) (u : use (names * I)) : list (list O) :=
    match u with Row (k, x) => [window_row f null h mx mn (of_key names_eqb k (since p) ++ [x])] | _ => [] end.

  Lemma window_one : forall g p u q, us = p ++ u :: q -> inv g p ->
    exists o g', used (window_exec calcs null) (window_flush calcs null) (reloaded (window_save (I := I)) (window_load (I := I))) g u = (o, Ok g') /\
      inv g' (p ++ [u]) /\ o = window_answer p u.
  Proof using All.
    intros g p u q E Hi. cbv beta in Hi |- *. rewrite app_length. cbn [length]. rewrite since_snoc.
    pose proof (fun k rest => @names_roundtrip k rest) as NR.
    destruct u as [[k x]| |]; cbn [used window_answer].
    - assert (Kk : names_ok k). { apply storable_ok, (Hs k x). rewrite E. apply in_or_app. right. left. reflexivity. }
      assert (G : rw_good calcs f c (of_key names_eqb k (since p) ++ [x])).
      { intros be w af Ew Hw. apply Hcalc; [exact Hw|]. exists k, (p ++ [Row (k, x)]), q, be, af. split; [rewrite <- app_assoc; exact E|].
        rewrite since_snoc, (of_key_app names_eqb), (of_key_cons names_eqb). cbn [fst snd]. rewrite (keqb_refl names_eqb names_lt names_order). exact Ew. }
      destruct (row_step names_eqb names_lt names_order names_enc names_dec names_ok NR (rw_step calcs null) (rw_flush (O := O)) (rw_save (I := I)) (rw_load (I := I))
                  (rw_rep c h mx mn) (rw_good calcs f c) (fun l => [window_row f null h mx mn l]) (fun _ => []) (rw0 c h mx mn)
                  (rw_step_ok calcs null f c h mx mn Hc Hh Hmn Hu) (rw_flush_ok calcs null f c h mx mn Hc Hh Hmn Hu) eq_refl (rw_load_ok calcs null f c h mx mn Hc Hh Hmn Hu)
                  (rw_save_ne calcs null f c h mx mn Hc Hh Hmn Hu) (rw0_rep calcs null f c h mx mn Hc Hh Hmn Hu) g (since p) (length p) k x Hi Kk G) as (g' & E1 & I1).
      eexists _, g'. split; [|split; [exact I1|reflexivity]]. unfold window_exec, window_tr. cbn [compile t_exec grain_tr t_state fst snd].
      rewrite E1. unfold through. cbn [fst snd]. change (t_exec decorator) with (t_exec (decorator (K := names) (B := list O))). rewrite decorated. cbn [bind fst]. rewrite map_snd_pair. reflexivity.
    - destruct (flush_step names_eqb names_lt names_order names_enc names_dec names_ok NR (rw_step calcs null) (rw_flush (O := O)) (rw_save (I := I)) (rw_load (I := I))
                  (rw_rep c h mx mn) (rw_good calcs f c) (fun l => [window_row f null h mx mn l]) (fun _ => []) (rw0 c h mx mn)
                  (rw_step_ok calcs null f c h mx mn Hc Hh Hmn Hu) (rw_flush_ok calcs null f c h mx mn Hc Hh Hmn Hu) eq_refl (rw_load_ok calcs null f c h mx mn Hc Hh Hmn Hu)
                  (rw_save_ne calcs null f c h mx mn Hc Hh Hmn Hu) (rw0_rep calcs null f c h mx mn Hc Hh Hmn Hu) g (since p) (length p) Hi) as (ks & g' & E1 & I1 & _ & _).
      assert (Z : flat_map (fun k : names => map (pair k) (@nil (list O))) ks = []). { clear. induction ks as [|a l IH]; [reflexivity|exact IH]. }
      cbv beta in E1. rewrite Z in E1.
      exists [], g'. split; [|split; [apply (hinv_more _ _ _ _ _ _ _ _ _ I1); lia|reflexivity]]. unfold window_flush, window_tr. cbn [compile t_flush t_exec grain_tr t_state fst snd].
      rewrite E1. reflexivity.
    - destruct (reload_grain names_eqb names_lt names_order names_enc names_dec names_ok NR (rw_step calcs null) (rw_flush (O := O)) (rw_save (I := I)) (rw_load (I := I))
                  (rw_rep c h mx mn) (rw_good calcs f c) (fun l => [window_row f null h mx mn l]) (fun _ => []) (rw0 c h mx mn)
                  (rw_step_ok calcs null f c h mx mn Hc Hh Hmn Hu) (rw_flush_ok calcs null f c h mx mn Hc Hh Hmn Hu) eq_refl (rw_load_ok calcs null f c h mx mn Hc Hh Hmn Hu)
                  (rw_save_ne calcs null f c h mx mn Hc Hh Hmn Hu) (rw0_rep calcs null f c h mx mn Hc Hh Hmn Hu) g (since p) (length p) Hi) as (bs & E1 & g' & E2 & I1).
      { rewrite E, app_length in Hn. clear -Hn. lia. }
      exists [], g'. split; [|split; [apply (hinv_more _ _ _ _ _ _ _ _ _ I1); lia|reflexivity]].
      unfold reloaded, window_save. rewrite E1. cbn [bind]. destruct (E2 []) as [rest E3]. rewrite app_nil_r in E3.
      unfold window_load. rewrite read_version_ok. cbn [bind snd]. rewrite E3. reflexivity.
  Qed.

  Lemma window_uses :
    exists os g, row_by_row (used (window_exec calcs null) (window_flush calcs null) (reloaded (window_save (I := I)) (window_load (I := I))))
                   (mkGrain false [] (Some (rw_new c h mx mn))) us = (os, Ok g) /\ length os = length us /\
      forall p u q, us = p ++ u :: q -> nth_error os (length p) = Some (window_answer p u).
  Proof using All.
    rewrite (rw_new_ok calcs null f c h mx mn Hc Hh Hmn Hu).
    destruct (uses_ok _ inv (fun p u o => o = window_answer p u) us window_one us [] (mkGrain false [] (Some (Ok (rw0 c h mx mn)))) eq_refl) as (os & g & E & _ & L & N).
    { exact (new_hinv names_eqb names_lt names_order names_enc names_dec names_ok (fun k rest => @names_roundtrip k rest) (rw_step calcs null) (rw_flush (O := O)) (rw_save (I := I)) (rw_load (I := I))
                  (rw_rep c h mx mn) (rw_good calcs f c) (fun l => [window_row f null h mx mn l]) (fun _ => []) (rw0 c h mx mn)
                  (rw_step_ok calcs null f c h mx mn Hc Hh Hmn Hu) (rw_flush_ok calcs null f c h mx mn Hc Hh Hmn Hu) eq_refl (rw_load_ok calcs null f c h mx mn Hc Hh Hmn Hu)
                  (rw_save_ne calcs null f c h mx mn Hc Hh Hmn Hu) (rw0_rep calcs null f c h mx mn Hc Hh Hmn Hu)). }
    exists os, g. split; [exact E|]. split; [exact L|]. intros p u q Eu. destruct (N p u q Eu) as (o & No & ->). exact No.
  Qed.
End RollingUses.

(** ** Lag and lead per grain *)
Section LagUses.
  Context {T : Type}.
  Variables (null : T) (horizon : Z) (deltas : list Z).
  Hypothesis Hh : 1 <= horizon.
  Hypothesis Hd : deltas <> [].
  Let L := Z.max 0 (- zmin deltas).
  Let M := Z.max 0 (zmax deltas).
  Hypothesis Hu : horizon + L + M < 2 ^ 32.
  Hypothesis Hnd : Z.of_nat (length deltas) < 2 ^ 32.
  Let P := repeat null (Z.to_nat (horizon - 1 + L)).
  Let cap := Z.to_nat (horizon + L + M).
  Definition lag_rep (t : lag T) (l : list T) : Prop := represents horizon deltas t (P ++ l).

  Lemma reach_max : reach deltas = Z.to_nat M.
  Proof using All.
    unfold M. clear -Hd. assert (F : forall (l : list Z) x, Nat.max (Z.to_nat x) (reach l) = Z.to_nat (Z.max 0 (fold_left Z.max l x))).
    { unfold reach. induction l as [|a l IH]; intros x; cbn [fold_left fold_right]; [lia|]. rewrite <- IH. lia. }
    destruct deltas as [|d r]; [congruence|]. exact (F r d).
  Qed.
  Lemma P_length : length P = Z.to_nat (horizon - 1 + L).
  Proof using All. unfold P. apply repeat_length. Qed.
  Lemma cap_P : Z.to_nat (horizon + L + M) = (length P + 1 + reach deltas)%nat.
  Proof using All. rewrite P_length, reach_max. unfold L, M. clear -Hh. lia. Qed.

  Lemma lag_step_ok : forall t l x, lag_rep t l -> exists t', lag_step t x = (lag_due null horizon deltas (l ++ [x]), Ok t') /\ lag_rep t' (l ++ [x]).
  Proof using All.
    intros t l x R. destruct (step_ok horizon deltas Hh Hd Hu t (P ++ l) x R) as (t' & R' & E). exists t'. unfold lag_rep. rewrite app_assoc. split; [|exact R'].
    rewrite E. f_equal. unfold lag_due. fold L M. rewrite cap_P, !app_length. cbn [length].
    destruct (Nat.leb_spec (length P + 1 + reach deltas) (length P + length l + 1)) as [F|F];
      destruct (Nat.ltb_spec (reach deltas) (length l + 1)) as [G|G]; try lia; [|reflexivity].
    f_equal. replace (length P + length l + 1 - (length P + 1 + reach deltas))%nat with (length l + 1 - 1 - reach deltas)%nat by lia.
    set (m := (length l + 1 - 1 - reach deltas)%nat).
    rewrite <- (mat_spec null horizon deltas Hh Hd Hu (l ++ [x]) m) by (rewrite app_length; cbn [length]; unfold m; lia).
    fold L. fold P. rewrite (app_assoc P (l ++ [x])), (app_assoc P l [x]). symmetry. apply (mat_app horizon deltas Hh Hd Hu).
    fold L M. rewrite cap_P, !app_length. cbn [length]. unfold m. lia.
  Qed.
  Lemma lag_flush_ok : forall t l, lag_rep t l -> exists t', lag_flush null t = (lag_left null horizon deltas l, Ok t') /\ lag_rep t' [].
  Proof using All.
    intros t l R. unfold lag_flush.
    assert (Hmax : lag_max t = zmax deltas). { destruct R as (_ & R12 & R13 & _). unfold lag_max. rewrite R12, R13. apply (zmax_shift horizon deltas Hh Hd Hu). }
    rewrite Hmax. assert (HM : (if 0 <? zmax deltas then Z.to_nat (zmax deltas) else O) = reach deltas).
    { rewrite reach_max. unfold M. destruct (Z.ltb_spec 0 (zmax deltas)); lia. }
    rewrite HM, (lag_steps_feed null horizon deltas Hh Hd Hu).
    destruct (feed_ok horizon deltas Hh Hd Hu (repeat null (reach deltas)) (P ++ l) t R) as (t2 & R2 & E2). rewrite E2.
    eexists. split; [|].
    - f_equal. unfold lag_left. fold L M. rewrite cap_P, repeat_length, !app_length.
      replace (length P + length l + 1 - (length P + 1 + reach deltas))%nat with (length l - reach deltas)%nat by lia.
      replace (length P + length l + reach deltas + 1 - (length P + 1 + reach deltas) - (length l - reach deltas))%nat with (Nat.min (length l) (reach deltas)) by lia.
      apply map_ext_in. intros m Hin. apply in_seq in Hin. rewrite <- (mat_spec null horizon deltas Hh Hd Hu l m) by lia. fold L M. rewrite <- reach_max, <- app_assoc. reflexivity.
    - unfold lag_rep. rewrite app_nil_r. destruct R2 as (R21 & R22 & R23 & R24 & R25 & _). rewrite R21, R22, R23. apply (init_ok null horizon deltas Hh Hd Hu).
      + unfold buf_clear, binv. rewrite R25. cbn [b_max b_start b_data length]. fold L M. rewrite cap_P. repeat split; lia.
      + unfold buf_clear. cbn [b_max]. exact R25.
      + reflexivity.
  Qed.
  Lemma lag_load_ok : forall t l rest, lag_rep t l -> lag_load null (lag_save t ++ rest) = Ok (lag0 null horizon deltas, rest).
  Proof using All. intros t l rest R. exact (lag_reload null horizon deltas Hh Hd Hu t _ rest R Hnd). Qed.
  Lemma lag0_rep : lag_rep (lag0 null horizon deltas) [].
  Proof using All. unfold lag_rep. rewrite app_nil_r. exact (lag0_ok null horizon deltas Hh Hd Hu). Qed.
  Lemma lag_left_nil : lag_left null horizon deltas [] = [].
  Proof using All. reflexivity. Qed.
  Lemma lag_save_ne : lag_save (lag0 null horizon deltas) <> [].
  Proof using All. discriminate. Qed.

  Variable us : list (use (names * T)).
  Hypothesis Hn : Z.of_nat (length us) < 2 ^ 64.
  Hypothesis Hs : forall k x, In (Row (k, x)) us -> storable k.
  Notation inv := (fun (g : grain names (lag T)) (p : list (use (names * T))) =>
    hinv names_eqb names_lt names_ok lag_rep (lag0 null horizon deltas) g (since p) (length p)).
  Definition lag_answer (p : list (use (names * T))) (u : use (names * T)) (o : list (names * list (list T))) : Prop :=
    match u with
    | Row (k, x) => o = map (pair k) (lag_due null horizon deltas (of_key names_eqb k (since p) ++ [x]))
    | Flush => exists ks, StronglySorted (fun a b => names_lt a b = true) ks /\ (forall k, In k ks <-> of_key names_eqb k (since p) <> []) /\
                 o = flat_map (fun k => map (pair k) (lag_left null horizon deltas (of_key names_eqb k (since p)))) ks
    | Reload => o = []
    end.
  Lemma lag_one : forall g p u q, us = p ++ u :: q -> inv g p ->
    exists o g', used (lag_exec null) (lag_end null) (reloaded (lag_grain_save (T := T)) (lag_grain_load null)) g u = (o, Ok g') /\ inv g' (p ++ [u]) /\ lag_answer p u o.
  Proof using All.
    intros g p u q E Hi. cbv beta in Hi |- *. rewrite app_length. cbn [length]. rewrite since_snoc.
    pose proof (fun k rest => @names_roundtrip k rest) as NR.
    destruct u as [[k x]| |]; cbn [used lag_answer].
    - assert (Kk : names_ok k). { apply storable_ok, (Hs k x). rewrite E. apply in_or_app. right. left. reflexivity. }
      destruct (row_step names_eqb names_lt names_order names_enc names_dec names_ok NR (lag_step (T := T)) (lag_flush null) (lag_save (T := T)) (lag_load null)
                  lag_rep (fun _ => True) (lag_due null horizon deltas) (lag_left null horizon deltas) (lag0 null horizon deltas)
                  (fun s l x R _ => lag_step_ok s l x R) lag_flush_ok lag_left_nil lag_load_ok lag_save_ne lag0_rep g (since p) (length p) k x Hi Kk Logic.I) as (g' & E1 & I1).
      eexists _, g'. split; [exact E1|]. split; [exact I1|reflexivity].
    - destruct (flush_step names_eqb names_lt names_order names_enc names_dec names_ok NR (lag_step (T := T)) (lag_flush null) (lag_save (T := T)) (lag_load null)
                  lag_rep (fun _ => True) (lag_due null horizon deltas) (lag_left null horizon deltas) (lag0 null horizon deltas)
                  (fun s l x R _ => lag_step_ok s l x R) lag_flush_ok lag_left_nil lag_load_ok lag_save_ne lag0_rep g (since p) (length p) Hi) as (ks & g' & E1 & I1 & So & Ks).
      eexists _, g'. split; [exact E1|]. split; [apply (hinv_more _ _ _ _ _ _ _ _ _ I1); lia|]. exists ks. split; [exact So|]. split; [exact Ks|reflexivity].
    - destruct (reload_grain names_eqb names_lt names_order names_enc names_dec names_ok NR (lag_step (T := T)) (lag_flush null) (lag_save (T := T)) (lag_load null)
                  lag_rep (fun _ => True) (lag_due null horizon deltas) (lag_left null horizon deltas) (lag0 null horizon deltas)
                  (fun s l x R _ => lag_step_ok s l x R) lag_flush_ok lag_left_nil lag_load_ok lag_save_ne lag0_rep g (since p) (length p) Hi) as (bs & E1 & g' & E2 & I1).
      { rewrite E, app_length in Hn. clear -Hn. lia. }
      exists [], g'. split; [|split; [apply (hinv_more _ _ _ _ _ _ _ _ _ I1); lia|reflexivity]].
      unfold reloaded, lag_grain_save. rewrite E1. cbn [bind]. destruct (E2 []) as [rest E3]. rewrite app_nil_r in E3.
      unfold lag_grain_load. rewrite E3. reflexivity.
  Qed.
  Lemma lag_uses :
    exists os g, row_by_row (used (lag_exec null) (lag_end null) (reloaded (lag_grain_save (T := T)) (lag_grain_load null)))
                   (mkGrain false [] (Some (lag_new null horizon deltas))) us = (os, Ok g) /\ length os = length us /\
      forall p u q, us = p ++ u :: q -> exists o, nth_error os (length p) = Some o /\ lag_answer p u o.
  Proof using All.
    rewrite (lag_new_ok null horizon deltas Hh Hd Hu).
    destruct (uses_ok _ inv lag_answer us lag_one us [] (mkGrain false [] (Some (Ok (lag0 null horizon deltas)))) eq_refl) as (os & g & E & _ & Ln & N).
    { exact (new_hinv names_eqb names_lt names_order names_enc names_dec names_ok (fun k rest => @names_roundtrip k rest) (lag_step (T := T)) (lag_flush null) (lag_save (T := T)) (lag_load null)
                  lag_rep (fun _ => True) (lag_due null horizon deltas) (lag_left null horizon deltas) (lag0 null horizon deltas)
                  (fun s l x R _ => lag_step_ok s l x R) lag_flush_ok lag_left_nil lag_load_ok lag_save_ne lag0_rep). }
    exists os, g. split; [exact E|]. split; [exact Ln|]. exact N.
  Qed.
End LagUses.
