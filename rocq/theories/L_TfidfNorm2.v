(** The tf-idf vector divided by the exact norm. *)
From Coq Require Import Reals Lra Psatz.
From Flocq Require Import Core.Core IEEE754.BinarySingleNaN.
From Verif Require Import Base L_List M_Stats S_Stats L_Stats M_Scale S_Scale L_Float L_Scale2 M_Encoders M_Grain M_Docs S_Docs L_Docs L_Docs9 L_Docs10 S_FloatStats S_FloatScale L_FloatStats L_FloatStats2 L_FloatScale L_FloatScale6 S_TfidfNorm L_TfidfNorm.
Open Scope R_scope.
Local Notation eps := (bpow radix2 (-24)).

Lemma nodup_image {A B} (R : A -> B -> Prop) (us : list A) (ps : list B) : Forall2 R us ps -> (forall x y p, R x p -> R y p -> x = y) -> NoDup us -> NoDup ps.
Proof.
  intros H I. induction H as [|x p us ps Hx H IH]; intros N; [constructor|]. inversion N as [|? ? N1 N2]; subst. constructor; [|auto].
  intros Hp. apply N1. clear -H I Hx Hp. induction H as [|y q us ps Hy H IH]; [destruct Hp|]. destruct Hp as [->|Hp]; [left; now apply (I y x p)|right; auto].
Qed.
Lemma nodup_key {K V} (l : list (V * K)) a b k : NoDup (map snd l) -> In (a, k) l -> In (b, k) l -> a = b.
Proof.
  induction l as [|(v, j) l IH]; cbn [map snd]; intros N HA HB; [destruct HA|]. inversion N as [|? ? N1 N2]; subst.
  destruct HA as [HA|HA], HB as [HB|HB]; [congruence| | |auto].
  - injection HA as -> ->. exfalso. apply N1. apply (in_map snd) in HB. exact HB.
  - injection HB as -> ->. exfalso. apply N1. apply (in_map snd) in HA. exact HA.
Qed.
Lemma nodup_first {K V} (l : list (K * V)) a b k : NoDup (map fst l) -> In (k, a) l -> In (k, b) l -> a = b.
Proof.
  induction l as [|(j, v) l IH]; cbn [map fst]; intros N HA HB; [destruct HA|]. inversion N as [|? ? N1 N2]; subst.
  destruct HA as [HA|HA], HB as [HB|HB]; [congruence| | |auto].
  - injection HA as -> ->. exfalso. apply N1. apply (in_map fst) in HB. exact HB.
  - injection HB as -> ->. exfalso. apply N1. apply (in_map fst) in HA. exact HA.
Qed.
Lemma sorted_nodup (l : list Z) : StronglySorted Z.lt l -> NoDup l.
Proof.
  induction 1 as [|x l H IH F]; constructor; [|exact IH]. intros Hx. rewrite Forall_forall in F. specialize (F x Hx). lia.
Qed.
Lemma rsum_perm (a b : list R) : Permutation a b -> rsum a = rsum b.
Proof. induction 1; unfold rsum in *; cbn [fold_right]; lra. Qed.
Lemma norm_perm n (a b : list R) : Permutation a b -> exact_norm n a = exact_norm n b.
Proof.
  intros H. destruct n; cbn [exact_norm]; [| |reflexivity]; unfold l1, l2.
  - apply rsum_perm. now apply Permutation_map.
  - rewrite (rsum_perm _ _ (Permutation_map (fun x => x ^ 2) H)). reflexivity.
Qed.
Lemma rsum_le l B : (forall x, In x l -> x <= B) -> rsum l <= INR (length l) * B.
Proof.
  induction l as [|x l IH]; intros H; [cbn; lra|]. cbn [length rsum fold_right]. fold (rsum l). rewrite S_INR. assert (x <= B) by (apply H; now left). assert (rsum l <= INR (length l) * B) by (apply IH; intros y Hy; apply H; now right). lra.
Qed.

Section Weight.
  Variable ln : binary_float 53 1024 -> binary_float 53 1024.
  Hypothesis Hln : log_ok ln.
  Lemma log_plus x : is_finite x = true -> 1 <= B2R x -> 1 <= r64 (1 + B2R (ln x)) <= bpow radix2 11.
  Proof using Hln. intros F H. destruct (Hln x F H) as [_ L]. apply r64_between; [lia|]. change (bpow radix2 11) with 2048. lra. Qed.
  Lemma weight_bounds binary sublinear use_idf smooth n df total w : (1 <= n <= 2 ^ 24)%Z -> (1 <= df <= total)%Z -> (total < 2 ^ 32 - 1)%Z ->
    tfidf_weight ln binary sublinear use_idf smooth n df total w -> 1 <= w <= bpow radix2 35 /\ r32 w = w.
  Proof using Hln.
    intros Hn Hdf Ht (tf & idf & Htf & Hidf & ->).
    assert (B11 : bpow radix2 11 = 2048) by reflexivity. assert (B24 : bpow radix2 24 = 16777216) by reflexivity. assert (B35 : bpow radix2 35 = bpow radix2 24 * bpow radix2 11) by (rewrite <- bpow_plus; reflexivity).
    assert (N1 : 1 <= IZR n <= bpow radix2 24) by (split; [now apply (IZR_le 1)|apply pow_le; lia]).
    assert (Tb : 1 <= tf <= bpow radix2 24).
    { destruct binary; [subst tf; lra|]. destruct sublinear; [|subst tf; exact N1]. destruct Htf as (x & (F & E) & ->). destruct (log_plus x F) as [A B]; [rewrite E; lra|]. lra. }
    assert (Ib : 1 <= idf <= bpow radix2 11).
    { destruct use_idf; [|subst idf; lra]. destruct Hidf as (q & (F & E) & ->). apply log_plus; [exact F|]. rewrite E.
      set (den := if smooth then (1 + df)%Z else df). assert (D : (1 <= den <= 1 + total)%Z) by (unfold den; destruct smooth; lia). clearbody den.
      assert (D0 : 1 <= IZR den) by (apply (IZR_le 1); lia). assert (D1 : IZR den <= IZR (1 + total)) by (apply IZR_le; lia). assert (D2 : IZR (1 + total) <= bpow radix2 32) by (apply pow_le; lia).
      apply (r64_between 32); [lia|]. split.
      - apply Rmult_le_reg_r with (IZR den); [lra|]. unfold Rdiv. rewrite Rmult_assoc, Rinv_l, Rmult_1_r by lra. lra.
      - apply Rmult_le_reg_r with (IZR den); [lra|]. unfold Rdiv. rewrite Rmult_assoc, Rinv_l, Rmult_1_r by lra. nra. }
    destruct (r64_between 35 (tf * idf)) as [Rb _]; [lia|rewrite B35; split; nra|].
    split.
    - apply (@rnd_between 24 128 _); [apply (@rnd_1 24 128 _ _)|apply (@rnd_pow2 24 128 _ _); lia|exact Rb].
    - apply (@rnd_fmt 24 128 _). apply generic_format_round; [apply fexp_correct; reflexivity|apply valid_rnd_N].
  Qed.
End Weight.

Lemma norm_small n ws : (Z.of_nat (length ws) <= 2 ^ 20)%Z -> (forall w, In w ws -> 1 <= w <= bpow radix2 35) -> 1 <= exact_norm n ws -> exact_norm n ws <= bpow radix2 90.
Proof.
  intros Hl H H1. assert (L : INR (length ws) <= bpow radix2 20) by (rewrite INR_IZR_INZ; apply pow_le; lia). pose proof (pos_INR (length ws)) as L0.
  assert (B : forall k, 0 < bpow radix2 k) by (intros; apply bpow_gt_0).
  assert (Sq : INR (length ws) * bpow radix2 70 <= bpow radix2 90) by (replace (bpow radix2 90) with (bpow radix2 20 * bpow radix2 70) by (rewrite <- bpow_plus; reflexivity); apply Rmult_le_compat_r; [apply Rlt_le, B|exact L]).
  destruct n; cbn [exact_norm] in *.
  - rewrite <- rsum_l1 by (intros w Hw; apply H, Hw). eapply Rle_trans; [apply rsum_le with (B := bpow radix2 70)|exact Sq]. intros w Hw. apply H in Hw. apply Rle_trans with (bpow radix2 35); [lra|]. apply bpow_le. lia.
  - unfold l2 in *. set (q := rsum (map (fun x => x ^ 2) ws)) in *. assert (Q : q <= bpow radix2 90).
    { eapply Rle_trans; [|exact Sq]. unfold q. replace (length ws) with (length (map (fun x => x ^ 2) ws)) by apply map_length. apply rsum_le. intros x Hx. apply in_map_iff in Hx. destruct Hx as (w & <- & Hw). apply H in Hw.
      replace (bpow radix2 70) with (bpow radix2 35 * bpow radix2 35) by (rewrite <- bpow_plus; reflexivity). replace (w ^ 2) with (w * w) by ring. apply Rmult_le_compat; lra. }
    assert (Q0 : 0 <= q) by (destruct (Rle_or_lt 0 q) as [C|C]; [exact C|]; rewrite sqrt_neg_0 in H1 by lra; lra).
    apply Rle_trans with q; [|exact Q]. rewrite <- (sqrt_sqrt q) at 2 by exact Q0. set (r := sqrt q) in *. nra.
  - change 1 with (bpow radix2 0). apply bpow_le. lia.
Qed.

Section Tfidf.
  Variable re : list Z -> list Z -> nat -> option (nat * nat).
  Variable ln : binary_float 53 1024 -> binary_float 53 1024.
  Hypothesis Hln : log_ok ln.
  Variables (s : dstats) (nrm : norm) (binary use_idf smooth sublinear : bool) (c : tcfg) (t : tfidf).
  Hypothesis Ht : tfidf_make s nrm binary use_idf smooth sublinear c = Ok t.
  Hypothesis Hkeys : NoDup (map fst (ds_terms s)).
  Hypothesis Hindex : NoDup (map (fun e => snd (snd e)) (ds_terms s)).
  Hypothesis Hcount : forall u df i, In (u, (df, i)) (ds_terms s) -> (1 <= df <= ds_total s)%Z.
  Hypothesis Htotal : (ds_total s < 2 ^ 32 - 1)%Z.

  Theorem tfidf_norm doc terms : bytes_ok doc = true -> infer_terms re c doc = Ok terms -> (Z.of_nat (length terms) <= 2 ^ 20)%Z ->
    (exists u, In u terms /\ In u (map fst (ds_terms s))) ->
    exists v us ws, tf_execute re ln t doc = Ok v /\ NoDup us /\ (forall u, In u us <-> In u terms /\ In u (map fst (ds_terms s))) /\
      Forall2 (fun u w => exists df i x, In (u, (df, i)) (ds_terms s) /\
                 tfidf_weight ln binary sublinear use_idf smooth (occ str_eqb u terms) df (ds_total s) w /\
                 In (x, i) (sp_values v) /\ is_finite x = true /\ (nrm = NoNorm -> B2R x = w) /\
                 Rabs (B2R x - w / exact_norm nrm ws) <= float_error (length us) 3 * (w / exact_norm nrm ws)) us ws /\
      (nrm <> NoNorm -> Rabs (exact_norm nrm (map (fun e => B2R (fst e)) (sp_values v)) - 1) <= float_error (length us) 4).
  Proof using Hln Ht Hkeys Hindex Hcount Htotal.
    intros Hb Hi Hshort Hex.
    destruct (tfidf_vector re ln Hln s nrm binary use_idf smooth sublinear c t Ht Hkeys Hindex Hcount Htotal doc terms Hb Hi ltac:(lia)) as [Hv _].
    destruct (Hv Hex) as (v & us & ws & nv & Ev & _ & Hs & Nu & Hu & Hn & HF & Hback). clear Hv.
    assert (Lu : (Z.of_nat (length us) <= 2 ^ 20)%Z).
    { eapply Z.le_trans; [|exact Hshort]. apply inj_le. apply NoDup_incl_length; [exact Nu|]. intros x Hx. now apply Hu. }
    assert (Lw : length us = length ws) by (clear -HF; induction HF; cbn [length]; congruence).
    assert (Ho : forall u, In u us -> (1 <= occ str_eqb u terms <= 2 ^ 24)%Z).
    { intros x Hx. apply Hu in Hx. destruct Hx as [Hx _]. split.
      - unfold occ. assert (In x (filter (str_eqb x) terms)) by (apply filter_In; split; [exact Hx|apply str_eqb_refl]). destruct (filter (str_eqb x) terms); [contradiction|]. cbn [length]. lia.
      - unfold occ. pose proof (filter_length_le (str_eqb x) terms). lia. }
    assert (HF2 : Forall2 (fun u w => (1 <= w <= bpow radix2 35 /\ r32 w = w) /\ exists p : float32 * Z, (exists df, In (u, (df, snd p)) (ds_terms s) /\
        tfidf_weight ln binary sublinear use_idf smooth (occ str_eqb u terms) df (ds_total s) w) /\ In p (sp_values v) /\ is_finite (fst p) = true /\ B2R (fst p) = r32 (w / nv)) us ws).
    { clear -HF Ho Hln Hcount Htotal. induction HF as [|a w us ws Hx HF IH]; constructor; [|apply IH; intros x Hy; apply Ho; now right].
      destruct Hx as (df & i & x & A & B & C & (D & E) & _). split; [|exists (x, i); eauto 10].
      apply (weight_bounds ln Hln binary sublinear use_idf smooth (occ str_eqb a terms) df (ds_total s)); [apply Ho; now left|eauto|exact Htotal|exact B]. }
    assert (Wb : forall w, In w ws -> 1 <= w <= bpow radix2 35) by (clear -HF2; induction HF2 as [|a w us ws H HF IH]; intros x Hx; [destruct Hx|]; destruct Hx as [<-|Hx]; [apply H|auto]).
    assert (Hne : ws <> []).
    { intros ->. destruct us as [|a us]; [|discriminate]. destruct Hex as (a & Ha). now apply Hu in Ha. }
    destruct (norm_near nrm ws nv Hne (fun w Hw => proj1 (Wb w Hw)) Hn) as (Nn & N1 & NE). rewrite <- Lw in Nn.
    assert (NS : exact_norm nrm ws <= bpow radix2 90) by (apply norm_small; [rewrite <- Lw; exact Lu|exact Wb|exact NE]).
    assert (Qn : nv <= bpow radix2 91).
    { apply near_bounds in Nn as [A _]. assert (P : (1 + eps) ^ (length us + 2) <= 2).
      { assert (K : INR (length us + 2) * eps <= / 2).
        { rewrite u_value. assert (INR (length us + 2) <= 1048578) by (rewrite INR_IZR_INZ; apply IZR_le; lia). lra. }
        eapply Rle_trans; [apply pow_bound; lra|]. apply Rmult_le_reg_r with (1 - INR (length us + 2) * eps); [lra|]. rewrite Rinv_l by lra. lra. }
      replace (bpow radix2 91) with (2 * bpow radix2 90) by (change 2 with (bpow radix2 1); rewrite <- bpow_plus; reflexivity).
      assert ((1 + eps) ^ (length us + 2) * exact_norm nrm ws <= 2 * bpow radix2 90) by (apply Rmult_le_compat; [pose proof (g_pow (length us + 2)); lra|lra|exact P|exact NS]). lra. }
    set (N := exact_norm nrm ws) in *.
    assert (Q : forall w, 1 <= w -> Rabs (r32 (w / nv) - w / N) <= float_error (length us) 3 * (w / N)).
    { intros w W. apply quotient_near; auto. apply Rmult_le_reg_r with nv; [lra|]. unfold Rdiv. rewrite Rmult_assoc, Rinv_l, Rmult_1_r by lra.
      apply Rle_trans with 1; [|exact W]. apply Rle_trans with (bpow radix2 (-126) * bpow radix2 91); [apply Rmult_le_compat_l; [apply bpow_ge_0|exact Qn]|].
      rewrite <- bpow_plus. change 1 with (bpow radix2 0). apply bpow_le. lia. }
    exists v, us, ws. split; [exact Ev|]. split; [exact Nu|]. split; [exact Hu|]. split.
    - fold N. clearbody N. assert (Hnv : nrm = NoNorm -> nv = 1) by (intros ->; exact Hn). clear -HF2 Q Hnv. revert Q. generalize (float_error (length us) 3). intros E Q. induction HF2 as [|a w us ws H HF IH]; constructor; [|exact IH].
      destruct H as ((A & A2) & (x, i) & (df & B & C) & D & F & G). cbn [fst snd] in *. exists df, i, x. split; [exact B|]. split; [exact C|]. split; [exact D|]. split; [exact F|].
      split; [intros Hm; rewrite G, (Hnv Hm); replace (w / 1) with w by lra; exact A2|rewrite G; now apply Q].
    - intros Hnn.
      assert (Hps : exists ps, Forall2 (fun u p => (exists df, In (u, (df, snd p)) (ds_terms s)) /\ In p (sp_values v)) us ps /\ Forall2 (close (float_error (length us) 3) N) ws (map (fun p => B2R (fst p)) ps)).
      { clear -HF2 Q NE. clearbody N. revert Q. generalize (float_error (length us) 3). intros E Q. induction HF2 as [|a w us ws H HF IH]; [exists []; split; constructor|].
        destruct IH as (ps & I1 & I2). destruct H as ((A & A2) & p & (df & B & C) & D & F & G). exists (p :: ps). split; [constructor; [split; [now exists df|exact D]|exact I1]|].
        cbn [map]. constructor; [|exact I2]. unfold close. rewrite G. specialize (Q w ltac:(lra)). rewrite (Rabs_right (w / N)) by (apply Rle_ge, Rmult_le_pos; [lra|apply Rlt_le, Rinv_0_lt_compat; lra]).
        pose proof (bpow_ge_0 radix2 (-1073)). lra. }
      destruct Hps as (ps & P1 & P2).
      assert (Nps : NoDup ps).
      { apply (nodup_image _ us ps P1); [|exact Nu]. intros a b p ((d1 & H1) & _) ((d2 & H2) & _).
        assert (I : forall (l : list (list Z * (Z * Z))), NoDup (map (fun e => snd (snd e)) l) -> In (a, (d1, snd p)) l -> In (b, (d2, snd p)) l -> a = b).
        { clear. intros l Nl A B. set (l' := map (fun e : list Z * (Z * Z) => (fst e, snd (snd e))) l). assert (Nl' : NoDup (map snd l')) by (unfold l'; rewrite map_map; exact Nl).
          apply (nodup_key l' a b (snd p) Nl'); unfold l'; apply in_map_iff; [exists (a, (d1, snd p))|exists (b, (d2, snd p))]; auto. }
        exact (I _ Hindex H1 H2). }
      pose proof (sorted_nodup _ Hs) as Nv.
      assert (Pm : Permutation (sp_values v) ps).
      { apply NoDup_Permutation; [now apply NoDup_map_inv in Nv|exact Nps|]. intros (x, i). split.
        - intros Hx. destruct (Hback x i Hx) as (a & df & Ha & Hd).
          assert (Hp : exists p, In p ps /\ (exists df, In (a, (df, snd p)) (ds_terms s)) /\ In p (sp_values v)).
          { clear -P1 Ha. induction P1 as [|b p us ps H P1 IH]; [destruct Ha|]. destruct Ha as [->|Ha]; [exists p; split; [now left|exact H]|]. destruct (IH Ha) as (p' & A & B). exists p'. split; [now right|exact B]. }
          destruct Hp as ((x', i') & A & (df' & B) & C). cbn [snd] in B. pose proof (nodup_first _ _ _ _ Hkeys Hd B) as E. injection E as <- <-.
          rewrite (nodup_key _ _ _ _ Nv Hx C). exact A.
        - intros Hx. clear -P1 Hx. induction P1 as [|b p us ps H P1 IH]; [destruct Hx|]. destruct Hx as [->|Hx]; [apply H|auto]. }
      rewrite (norm_perm nrm _ _ (Permutation_map (fun e => B2R (fst e)) Pm)).
      assert (L : INR (length us) <= 1048576) by (rewrite INR_IZR_INZ; apply IZR_le; lia). pose proof (pos_INR (length us)) as L0.
      assert (HE : 0 <= float_error (length us) 3 <= / 4) by (unfold float_error; change (bpow radix2 (-23)) with (/ 8388608); rewrite plus_INR; cbn [INR]; lra).
      assert (Tn : 0 < bpow radix2 (-1073) <= bpow radix2 (-500)) by (split; [apply bpow_gt_0|apply bpow_le; lia]).
      assert (T2 : bpow radix2 (-500) <= bpow radix2 (-50)) by (apply bpow_le; lia). change (bpow radix2 (-50)) with (/ 1125899906842624) in T2.
      assert (Last : float_error (length us) 4 = float_error (length us) 3 + / 8388608) by (unfold float_error; change (bpow radix2 (-23)) with (/ 8388608); rewrite !plus_INR; cbn [INR]; lra).
      rewrite Last. destruct nrm eqn:En; [| |congruence].
      + pose proof (unit_l1 _ N ws _ ltac:(lra) eq_refl P2) as U. cbn [exact_norm]. eapply Rle_trans; [exact U|]. rewrite <- Lw.
        assert (INR (length us) * bpow radix2 (-1073) <= 1048576 * / 1125899906842624) by (apply Rmult_le_compat; lra). lra.
      + pose proof (unit_l2 _ N ws _ HE ltac:(lra) eq_refl ltac:(rewrite <- Lw; lia) P2) as U. cbn [exact_norm]. eapply Rle_trans; [exact U|]. lra.
  Qed.
End Tfidf.
