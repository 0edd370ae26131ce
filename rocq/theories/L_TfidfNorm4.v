(** The tf-idf vector and the formulas. *)
From Coq Require Import Reals Lra Psatz.
From Flocq Require Import Core.Core IEEE754.BinarySingleNaN.
From Verif Require Import Base L_List M_Stats S_Stats L_Stats M_Scale S_Scale L_Float L_Scale2 M_Encoders M_Grain M_Docs S_Docs L_Docs L_Docs9 L_Docs10 S_FloatStats S_FloatScale L_FloatStats L_FloatStats2 L_FloatScale L_FloatScale6 S_TfidfNorm L_TfidfNorm L_TfidfNorm2 L_TfidfNorm3.
Open Scope R_scope.

Lemma Forall2_impl {A B} (P Q : A -> B -> Prop) l m : (forall x y, P x y -> Q x y) -> Forall2 P l m -> Forall2 Q l m.
Proof. intros H. induction 1; constructor; auto. Qed.
Lemma near_lists (f : R -> R) g a ws Ws : Forall2 (fun w W => near g a (f w) (f W)) ws Ws -> near g (INR (length ws) * a) (rsum (map f ws)) (rsum (map f Ws)).
Proof.
  induction 1 as [|w W ws Ws H HF IH]; cbn [map rsum fold_right length]; [unfold near; cbn [INR]; rewrite Rminus_0_r, Rabs_R0; lra|].
  rewrite S_INR. replace ((INR (length ws) + 1) * a) with (a + INR (length ws) * a) by ring. now apply near_plus.
Qed.
Lemma norm_lists n g ws Ws : 1 <= g -> Forall2 (fun w W => 1 <= w /\ 1 <= W /\ near g 0 w W) ws Ws -> near (g * g) 0 (exact_norm n ws) (exact_norm n Ws).
Proof.
  intros G H. assert (G2 : g <= g * g) by nra. destruct n; cbn [exact_norm].
  - replace 0 with (INR (length ws) * 0) by ring. apply near_weaken with g (INR (length ws) * 0); [unfold l1; apply rsum_nonneg; intros x Hx; apply in_map_iff in Hx; destruct Hx as (y & <- & _); apply Rabs_pos|exact G2|lra|].
    apply near_lists. eapply Forall2_impl; [|exact H]. intros w W (A & B & C). rewrite !Rabs_right by lra. exact C.
  - unfold l2. assert (P : forall l, 0 <= rsum (map (fun x => x ^ 2) l)) by (intros l; apply rsum_nonneg; intros x Hx; apply in_map_iff in Hx; destruct Hx as (y & <- & _); apply pow2_ge_0).
    rewrite <- sqrt_0 at 1. apply near_sqrt; [lra|lra|apply P|apply P|]. replace 0 with (INR (length ws) * 0) by ring. apply near_lists.
    eapply Forall2_impl; [|exact H]. intros w W (A & B & C). pose proof (near_scale w g 0 w W ltac:(lra) C) as D1. pose proof (near_scale W g 0 w W ltac:(lra) C) as D2. rewrite Rmult_0_r in D1, D2.
    rewrite (Rmult_comm W w) in D2. pose proof (near_trans g 0 g 0 _ _ _ G D1 D2) as D. replace (0 + g * 0) with 0 in D by ring. replace (w ^ 2) with (w * w) by ring. replace (W ^ 2) with (W * W) by ring. exact D.
  - apply near_weaken with 1 0; [lra|lra|lra|apply near_refl].
Qed.
Lemma quotients k x w N W M : (Z.of_nat k <= 2 ^ 20)%Z -> 1 <= w -> 1 <= W -> 1 <= N -> 1 <= M -> near (1 + bpow radix2 (-23)) 0 w W ->
  near ((1 + bpow radix2 (-23)) * (1 + bpow radix2 (-23))) 0 N M -> Rabs (x - w / N) <= float_error k 3 * (w / N) -> Rabs (x - W / M) <= float_error k 7 * (W / M).
Proof.
  intros K H1 H2 H3 H4 H5 H6 H7. assert (L : INR k <= 1048576) by (rewrite INR_IZR_INZ; apply IZR_le; lia). pose proof (pos_INR k) as L0.
  assert (E : 0 <= float_error k 3 <= / 7 /\ float_error k 7 = float_error k 3 + 4 * / 8388608).
  { unfold float_error. change (bpow radix2 (-23)) with (/ 8388608). rewrite !plus_INR. cbn [INR]. lra. }
  destruct E as [E1 E2]. rewrite E2. set (E := float_error k 3) in *. clearbody E. change (bpow radix2 (-23)) with (/ 8388608) in *. set (e := / 8388608) in *.
  assert (He : 0 < e <= / 8000000) by (unfold e; lra). clearbody e. unfold near in H5, H6. apply Rabs_le_inv in H5. apply Rabs_le_inv in H6.
  set (r := 3 * e + / 10 * e).
  assert (Q0 : 0 < W / M) by (apply Rdiv_lt_0_compat; lra).
  assert (Hr : Rabs (w / N - W / M) <= r * (W / M)).
  { replace (w / N - W / M) with ((w * M - W * N) / (N * M)) by (field; lra). unfold Rdiv at 1. rewrite Rabs_mult, Rabs_inv, (Rabs_right (N * M)) by nra.
    apply Rmult_le_reg_r with (N * M); [nra|]. rewrite Rmult_assoc, Rinv_l, Rmult_1_r by nra. replace (r * (W / M) * (N * M)) with (r * N * W) by (field; lra).
    assert (A : 0 < W * M) by nra.
    assert (B1 : w * M <= W * M * (1 + e)) by nra. assert (B2 : W * M * (1 - e) <= w * M) by nra.
    assert (C1 : W * N <= W * M * (1 + 2 * e + e * e)) by nra. assert (C2 : W * M * (1 - 2 * e - e * e) <= W * N) by nra.
    apply Rabs_le. replace (r * N * W) with (r * (W * N)) by ring. set (y := W * M) in *. set (p := w * M) in *. set (q := W * N) in *. 
    assert (D1 : r * (y * (1 - 2 * e - e * e)) <= r * q) by (apply Rmult_le_compat_l; [unfold r; lra|exact C2]).
    assert (D2 : y * (3 * e + e * e) <= r * (y * (1 - 2 * e - e * e))).
    { replace (r * (y * (1 - 2 * e - e * e))) with (y * (r * (1 - 2 * e - e * e))) by ring. apply Rmult_le_compat_l; [lra|]. unfold r. nra. }
    clearbody p q y. split; lra. }
  assert (Hw : w / N <= (1 + r) * (W / M)) by (apply Rabs_le_inv in Hr; lra).
  replace (x - W / M) with ((x - w / N) + (w / N - W / M)) by ring. eapply Rle_trans; [apply Rabs_triang|].
  assert (E * (w / N) <= E * ((1 + r) * (W / M))) by (apply Rmult_le_compat_l; lra).
  assert (E * (1 + r) + r <= E + 4 * e) by (unfold r; nra). set (z := W / M) in *. clearbody z.
  apply Rle_trans with ((E * (1 + r) + r) * z); [nra|]. apply Rmult_le_compat_r; lra.
Qed.

Section Tfidf.
  Variable re : list Z -> list Z -> nat -> option (nat * nat).
  Variable ln : binary_float 53 1024 -> binary_float 53 1024.
  Hypothesis Hln : log_ok ln.
  Hypothesis Hacc : accurate_log ln.
  Variables (s : dstats) (nrm : norm) (binary use_idf smooth sublinear : bool) (c : tcfg) (t : tfidf).
  Hypothesis Ht : tfidf_make s nrm binary use_idf smooth sublinear c = Ok t.
  Hypothesis Hkeys : NoDup (map fst (ds_terms s)).
  Hypothesis Hindex : NoDup (map (fun e => snd (snd e)) (ds_terms s)).
  Hypothesis Hcount : forall u df i, In (u, (df, i)) (ds_terms s) -> (1 <= df <= ds_total s)%Z.
  Hypothesis Htotal : (ds_total s < 2 ^ 32 - 1)%Z.

  Theorem tfidf_formula doc terms : bytes_ok doc = true -> infer_terms re c doc = Ok terms -> (Z.of_nat (length terms) <= 2 ^ 20)%Z ->
    (exists u, In u terms /\ In u (map fst (ds_terms s))) ->
    exists v us ws, tf_execute re ln t doc = Ok v /\ NoDup us /\ (forall u, In u us <-> In u terms /\ In u (map fst (ds_terms s))) /\
      Forall2 (fun u w => exists df i x, In (u, (df, i)) (ds_terms s) /\
                 w = exact_weight binary sublinear use_idf smooth (occ str_eqb u terms) df (ds_total s) /\
                 In (x, i) (sp_values v) /\ is_finite x = true /\
                 Rabs (B2R x - w / exact_norm nrm ws) <= float_error (length us) 7 * (w / exact_norm nrm ws)) us ws.
  Proof using Hln Hacc Ht Hkeys Hindex Hcount Htotal.
    intros Hb Hi Hshort Hex.
    destruct (tfidf_norm re ln Hln s nrm binary use_idf smooth sublinear c t Ht Hkeys Hindex Hcount Htotal doc terms Hb Hi Hshort Hex) as (v & us & ws & Ev & Nu & Hu & HF & _).
    assert (Lu : (Z.of_nat (length us) <= 2 ^ 20)%Z).
    { eapply Z.le_trans; [|exact Hshort]. apply inj_le. apply NoDup_incl_length; [exact Nu|]. intros x Hx. now apply Hu. }
    assert (Ho : forall u, In u us -> (1 <= occ str_eqb u terms <= 2 ^ 24)%Z).
    { intros x Hx. apply Hu in Hx. destruct Hx as [Hx _]. split.
      - unfold occ. assert (In x (filter (str_eqb x) terms)) by (apply filter_In; split; [exact Hx|apply str_eqb_refl]). destruct (filter (str_eqb x) terms); [contradiction|]. cbn [length]. lia.
      - unfold occ. pose proof (filter_length_le (str_eqb x) terms). lia. }
    set (N := exact_norm nrm ws) in *. set (E := float_error (length us) 3) in *.
    assert (HW : exists Ws, Forall2 (fun w W => 1 <= w /\ 1 <= W /\ near (1 + bpow radix2 (-23)) 0 w W) ws Ws /\
      Forall2 (fun u W => exists w df i x, In (u, (df, i)) (ds_terms s) /\ W = exact_weight binary sublinear use_idf smooth (occ str_eqb u terms) df (ds_total s) /\
        In (x, i) (sp_values v) /\ is_finite x = true /\ 1 <= w /\ 1 <= W /\ near (1 + bpow radix2 (-23)) 0 w W /\ Rabs (B2R x - w / N) <= E * (w / N)) us Ws).
    { clear -HF Ho Hln Hacc Hcount Htotal. clearbody N E. induction HF as [|a w us ws H HF IH]; [exists []; split; constructor|].
      destruct IH as (Ws & I1 & I2); [intros x Hx; apply Ho; now right|]. destruct H as (df & i & x & A & B & C & D & _ & F). set (W := exact_weight binary sublinear use_idf smooth (occ str_eqb a terms) df (ds_total s)).
      pose proof (Ho a (or_introl eq_refl)) as Oa. pose proof (Hcount _ _ _ A) as Hdf. destruct (weight_bounds ln Hln _ _ _ _ _ _ _ _ Oa Hdf Htotal B) as [[W1 _] _].
      pose proof (weight_accuracy ln Hln Hacc _ _ _ _ _ _ _ _ Oa Hdf Htotal B) as WA. fold W in WA.
      assert (Nw : near (1 + bpow radix2 (-23)) 0 w W) by (unfold near; rewrite Rplus_0_r; replace (1 + bpow radix2 (-23) - 1) with (bpow radix2 (-23)) by ring; exact WA).
      assert (WW : 1 <= W).
      { unfold W, exact_weight. assert (N1 : 1 <= IZR (occ str_eqb a terms)) by (apply (IZR_le 1); lia). pose proof (ln_pos _ N1).
        set (den := if smooth then (1 + df)%Z else df). assert (Dn : (1 <= den <= 1 + ds_total s)%Z) by (unfold den; destruct smooth; lia). clearbody den.
        assert (D0 : 1 <= IZR den) by (apply (IZR_le 1); lia). assert (D1 : IZR den <= IZR (1 + ds_total s)) by (apply IZR_le; lia).
        assert (R1 : 1 <= IZR (1 + ds_total s) / IZR den) by (apply Rmult_le_reg_r with (IZR den); [lra|]; unfold Rdiv; rewrite Rmult_assoc, Rinv_l, Rmult_1_r by lra; lra).
        pose proof (ln_pos _ R1). rewrite <- (Rmult_1_l 1) at 1. apply Rmult_le_compat; try lra; [destruct binary; [lra|destruct sublinear; lra]|destruct use_idf; lra]. }
      exists (W :: Ws). split; constructor; auto. exists w, df, i, x. auto 10. }
    destruct HW as (Ws & HW1 & HW2).
    assert (Lw : ws <> []).
    { intros ->. inversion HW1; subst. inversion HW2; subst. destruct Hex as (a & Ha). now apply Hu in Ha. }
    assert (HN : near ((1 + bpow radix2 (-23)) * (1 + bpow radix2 (-23))) 0 N (exact_norm nrm Ws)).
    { apply norm_lists; [|exact HW1]. change (bpow radix2 (-23)) with (/ 8388608). lra. }
    assert (Ge : forall l, l <> [] -> (forall w, In w l -> 1 <= w) -> 1 <= exact_norm nrm l).
    { clear. intros l Hl H. destruct l as [|w l']; [congruence|]. assert (W : 1 <= w) by (apply H; now left). destruct nrm; cbn [exact_norm]; [| |lra].
      - rewrite <- rsum_l1 by exact H. apply Rle_trans with w; [exact W|]. apply rsum_ge; [intros y Hy; apply H in Hy; lra|now left].
      - unfold l2. rewrite <- sqrt_1. apply sqrt_le_1_alt. apply Rle_trans with (w ^ 2); [nra|]. apply rsum_ge; [intros y Hy; apply in_map_iff in Hy; destruct Hy as (z & <- & _); apply pow2_ge_0|now left]. }
    assert (G1 : 1 <= N).
    { apply Ge; [exact Lw|]. clear -HW1. induction HW1 as [|w W ws Ws H HF IH]; intros x Hx; [destruct Hx|]. destruct Hx as [<-|Hx]; [apply H|auto]. }
    assert (G2 : 1 <= exact_norm nrm Ws).
    { apply Ge; [intros ->; inversion HW1; subst; congruence|]. clear -HW1. induction HW1 as [|w W ws Ws H HF IH]; intros x Hx; [destruct Hx|]. destruct Hx as [<-|Hx]; [apply H|auto]. }
    exists v, us, Ws. split; [exact Ev|]. split; [exact Nu|]. split; [exact Hu|].
    eapply Forall2_impl; [|exact HW2]. cbv beta. intros a W (w & df & i & x & A & B & C & D & F1 & F2 & F3 & F4). exists df, i, x. split; [exact A|]. split; [exact B|]. split; [exact C|]. split; [exact D|].
    exact (quotients (length us) (B2R x) w N W (exact_norm nrm Ws) Lu F1 F2 G1 G2 F3 HN F4).
  Qed.
End Tfidf.
