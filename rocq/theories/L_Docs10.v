(** Tf-idf vectors. *)
From Coq Require Import Reals Lra Psatz.
From Flocq Require Import Core.Core IEEE754.BinarySingleNaN.
From Verif Require Import Base L_List M_Stats S_Stats L_Stats M_Scale S_Scale L_Float L_Scale2 M_Encoders M_Grain M_Docs S_Docs
  L_Docs L_Docs2 L_Docs3 L_Docs4 L_Docs5 L_Docs6 L_Docs9.
Open Scope R_scope.

(** *** The norm as a rounded sum *)
Lemma sum_value (b : Z) (Hb : (0 <= b /\ b + 24 < 128)%Z) (l : list float32) : forall (a : float32) (j : Z), (0 <= j)%Z ->
  (j + Z.of_nat (length l) <= 2 ^ 24)%Z -> is_finite a = true -> 0 <= B2R a <= IZR j * bpow radix2 b ->
  (forall x : float32, In x l -> is_finite x = true /\ 0 <= B2R x <= bpow radix2 b) ->
  B2R (fold_left fadd l a) = fold_left (fun a w => r32 (a + w)) (map B2R l) (B2R a).
Proof.
  induction l as [|x l IH]; intros a j Hj Hl Fa Ha Hx; cbn [fold_left map length] in *; [reflexivity|].
  destruct (Hx x (or_introl eq_refl)) as (Fx & Bx).
  destruct (sum_step b Hb a x j) as (S1 & S2 & S3 & S4); auto; [lia|].
  assert (Hx1 : forall y : float32, In y l -> is_finite y = true /\ 0 <= B2R y <= bpow radix2 b) by (intros y Hy; apply Hx; right; exact Hy).
  assert (Ha1 : 0 <= B2R (fadd a x) <= IZR (j + 1) * bpow radix2 b) by lra.
  rewrite (IH (fadd a x) (j + 1)%Z) by (auto; lia). clear IH Hx1 Ha1.
  f_equal. destruct (fadd_ok a x Fa Fx) as (E & _); [|exact E].
  assert (Hsum : 0 <= B2R a + B2R x <= IZR (j + 1) * bpow radix2 b) by (rewrite plus_IZR; lra).
  assert (Hr : 0 <= rnd (prec := 24) (emax := 128) (B2R a + B2R x) <= IZR (j + 1) * bpow radix2 b).
  { apply rnd_between; [apply rnd_0|apply multiple_fmt; [exact Hb|lia]|exact Hsum]. }
  eapply Rle_lt_trans; [|apply (multiple_big b Hb (j + 1)); lia]. rewrite !Rabs_right by lra. apply Hr.
Qed.

Section Value.
  Variable t : tfidf.
  Variable rs : list (Z * float32).
  Hypothesis Hw : forall i w, In (i, w) rs -> is_finite w = true /\ 1 <= B2R w <= bpow radix2 43.
  Hypothesis Hlen : (Z.of_nat (length rs) <= 2 ^ 24)%Z.
  Hypothesis Hne : rs <> [].

  Lemma square_ok j v : In (j, v) rs -> is_finite (fmul v v) = true /\ B2R (fmul v v) = r32 (B2R v * B2R v) /\ 1 <= B2R (fmul v v) <= bpow radix2 86.
  Proof using Hw.
    assert (B86 : bpow radix2 86 = bpow radix2 43 * bpow radix2 43) by (rewrite <- bpow_plus; reflexivity).
    intros Hv. destruct (Hw j v Hv) as (Fv & B). assert (P : 1 <= B2R v * B2R v <= bpow radix2 86) by (rewrite B86; split; nra).
    assert (R3 : 1 <= rnd (prec := 24) (emax := 128) (B2R v * B2R v) <= bpow radix2 86).
    { apply rnd_between; [apply rnd_1|apply rnd_pow2; lia|exact P]. }
    destruct (fmul_ok v v Fv Fv) as (E1 & E2).
    { rewrite Rabs_right by lra. apply Rle_lt_trans with (bpow radix2 86); [apply R3|]. apply bpow_lt. lia. }
    split; [exact E2|]. split; [exact E1|]. rewrite E1. exact R3.
  Qed.
  Lemma norm_value : is_finite (tf_norm_of t rs) = true /\ norm_is (tf_norm t) (map (fun r => B2R (snd r)) rs) (B2R (tf_norm_of t rs)) /\
    1 <= B2R (tf_norm_of t rs).
  Proof using Hw Hlen Hne.
    assert (Hex : exists i w, In (i, w) rs) by (destruct rs as [|(i, w) rs']; [congruence|]; exists i, w; left; reflexivity).
    destruct Hex as (i0 & w0 & Hin0). unfold tf_norm_of, norm_is. destruct (tf_norm t).
    - change (fun (a : binary_float 24 128) (r : Z * float32) => fadd a (snd r)) with
        (fun (a : float32) (r : Z * float32) => fadd a ((fun x => x) (snd r))). rewrite fold_map_snd.
      assert (Hx : forall x : float32, In x (map (fun r : Z * float32 => snd r) rs) -> is_finite x = true /\ 0 <= B2R x <= bpow radix2 43).
      { intros x Hx. apply in_map_iff in Hx. destruct Hx as ((j, v) & E & Hx). cbn in E. subst v. destruct (Hw j x Hx). split; [assumption|lra]. }
      destruct (sum_ok 43 ltac:(lia) (map (fun r : Z * float32 => snd r) rs) fzero 0) as (S1 & _ & S3 & _); auto;
        try lia; try (rewrite map_length; exact Hlen); try (cbn [B2R fzero]; lra).
      split; [exact S1|]. split.
      + rewrite (sum_value 43 ltac:(lia) _ _ 0); auto; try lia; try (rewrite map_length; exact Hlen); try (cbn [B2R fzero]; lra).
        rewrite map_map. reflexivity.
      + apply Rle_trans with (B2R w0); [apply (Hw i0 w0 Hin0)|]. apply S3. apply in_map_iff. exists (i0, w0). auto.
    - change (fun (a : binary_float 24 128) (r : Z * float32) => fadd a (fmul (snd r) (snd r))) with
        (fun (a : float32) (r : Z * float32) => fadd a ((fun x => fmul x x) (snd r))). rewrite fold_map_snd.
      assert (Hx : forall x : float32, In x (map (fun r : Z * float32 => fmul (snd r) (snd r)) rs) -> is_finite x = true /\ 0 <= B2R x <= bpow radix2 86).
      { intros x Hx. apply in_map_iff in Hx. destruct Hx as ((j, v) & E & Hx). cbn [snd] in E. subst x. destruct (square_ok j v Hx) as (A & _ & B).
        split; [exact A|lra]. }
      destruct (sum_ok 86 ltac:(lia) (map (fun r : Z * float32 => fmul (snd r) (snd r)) rs) fzero 0) as (S1 & _ & S3 & _); auto;
        try lia; try (rewrite map_length; exact Hlen); try (cbn [B2R fzero]; lra).
      assert (Es : B2R (fold_left fadd (map (fun r : Z * float32 => fmul (snd r) (snd r)) rs) fzero) =
        rounded_sum (map (fun w => r32 (w * w)) (map (fun r : Z * float32 => B2R (snd r)) rs))).
      { rewrite (sum_value 86 ltac:(lia) _ _ 0); auto; try lia; try (rewrite map_length; exact Hlen); try (cbn [B2R fzero]; lra).
        unfold rounded_sum. rewrite !map_map. cbn [B2R fzero]. f_equal. apply map_ext_in. intros (j, v) Hv. apply (square_ok j v Hv). }
      set (sum := fold_left fadd (map (fun r : Z * float32 => fmul (snd r) (snd r)) rs) fzero) in *.
      assert (Hs1 : 1 <= B2R sum).
      { apply Rle_trans with (B2R (fmul w0 w0)); [apply (square_ok i0 w0 Hin0)|]. apply S3. apply in_map_iff. exists (i0, w0). auto. }
      destruct (fsqrt_ok sum S1) as (T1 & T2); [lra| |].
      { right. clearbody sum. destruct sum as [b|b| |b m ex Hb]; try discriminate S1; cbn [B2R Bsign] in *; [lra|]. destruct b; [|reflexivity].
        exfalso. assert (F2R (Float radix2 (cond_Zopp true (Zpos m)) ex) < 0) by (apply F2R_lt_0; reflexivity). lra. }
      split; [exact T2|]. split; [rewrite T1, Es; reflexivity|]. rewrite T1. rewrite <- (@rnd_1 24 128 _ _) at 1. apply (@rnd_mono 24 128 _).
      rewrite <- sqrt_1. apply sqrt_le_1_alt. exact Hs1.
    - destruct fone_R as (O1 & O2). change (of_int 1 : float32) with fone in *. rewrite O1. split; [exact O2|]. split; [reflexivity|lra].
  Qed.
  (** The components. *)
  Lemma component_value i w : In (i, w) rs -> equals (fdiv w (tf_norm_of t rs)) (r32 (B2R w / B2R (tf_norm_of t rs))) /\
    (tf_norm t <> NoNorm -> within 0 1 (fdiv w (tf_norm_of t rs))).
  Proof using Hw Hlen Hne.
    intro Hin. destruct norm_value as (F & _ & N). destruct (Hw i w Hin) as (Fw & B). split.
    - set (nv := tf_norm_of t rs) in *. clearbody nv.
      assert (Hq : 0 <= B2R w / B2R nv <= bpow radix2 43).
      { split.
        - apply Rmult_le_pos; [lra|]. apply Rlt_le, Rinv_0_lt_compat. lra.
        - apply Rmult_le_reg_r with (B2R nv); [lra|]. unfold Rdiv. rewrite Rmult_assoc, Rinv_l, Rmult_1_r by lra.
          assert (0 < bpow radix2 43) by apply bpow_gt_0. nra. }
      destruct (fdiv_ok w nv Fw) as (E & G); [lra| |split; [exact G|exact E]].
      assert (R3 : 0 <= rnd (prec := 24) (emax := 128) (B2R w / B2R nv) <= bpow radix2 43).
      { apply rnd_between; [apply rnd_0|apply rnd_pow2; lia|exact Hq]. }
      rewrite Rabs_right by lra. apply Rle_lt_trans with (bpow radix2 43); [apply R3|]. apply bpow_lt. lia.
    - intro Hn. destruct (tf_norm t) eqn:En; [eapply norm_l1; eauto|eapply norm_l2; eauto|congruence].
  Qed.
End Value.

(** *** The vector *)
Section Tfidf.
  Variable re : list Z -> list Z -> nat -> option (nat * nat).
  Variable ln : binary_float 53 1024 -> binary_float 53 1024.
  Hypothesis Hln : log_ok ln.
  Variables (s : dstats) (nrm : norm) (binary use_idf smooth sublinear : bool) (c : tcfg) (t : tfidf).
  Hypothesis Ht : tfidf_make s nrm binary use_idf smooth sublinear c = Ok t.
  Hypothesis Hkeys : NoDup (map fst (ds_terms s)).
  Hypothesis Hindex : NoDup (map (fun e => snd (snd e)) (ds_terms s)).
  Hypothesis Hcount : forall u df i, In (u, (df, i)) (ds_terms s) -> (1 <= df <= ds_total s)%Z.
  Hypothesis Htotal : (ds_total s < 2 ^ 32 - 1)%Z.

  Lemma tf_fields : t = mkTfidf (map (fun e => (fst e, snd (snd e))) (ds_terms s)) (map (fun e => (fst e, fst (snd e))) (ds_terms s))
                       (ds_total s) nrm binary use_idf smooth sublinear c.
  Proof using Ht. clear -Ht. unfold tfidf_make in Ht. destruct (ds_terms s); [discriminate|]. injection Ht as <-. reflexivity. Qed.

  Theorem tfidf_vector doc terms : bytes_ok doc = true -> infer_terms re c doc = Ok terms -> (Z.of_nat (length terms) <= 2 ^ 24)%Z ->
    ((exists u, In u terms /\ In u (map fst (ds_terms s))) ->
      exists v us ws nv, tf_execute re ln t doc = Ok v /\ sp_elements v = Z.of_nat (length (ds_terms s)) /\
        StronglySorted Z.lt (map snd (sp_values v)) /\
        NoDup us /\ (forall u, In u us <-> In u terms /\ In u (map fst (ds_terms s))) /\
        norm_is nrm ws nv /\
        Forall2 (fun u w => exists df i x, In (u, (df, i)) (ds_terms s) /\
                   tfidf_weight ln binary sublinear use_idf smooth (occ str_eqb u terms) df (ds_total s) w /\
                   In (x, i) (sp_values v) /\ equals x (r32 (w / nv)) /\ (nrm <> NoNorm -> within 0 1 x)) us ws /\
        (forall x i, In (x, i) (sp_values v) -> exists u df, In u us /\ In (u, (df, i)) (ds_terms s))) /\
    ((forall u, In u terms -> ~ In u (map fst (ds_terms s))) -> tf_execute re ln t doc = Throw InvalidArgument).
  Proof using Hln Ht Hkeys Hindex Hcount Htotal.
    intros Hb Hi Hshort. pose proof tf_fields as Et.
    assert (F1 : tf_labels t = map (fun e => (fst e, snd (snd e))) (ds_terms s)) by (rewrite Et; reflexivity).
    assert (F2 : tf_freq t = map (fun e => (fst e, fst (snd e))) (ds_terms s)) by (rewrite Et; reflexivity).
    assert (F3 : tf_text t = c) by (rewrite Et; reflexivity).
    assert (F4 : tf_total t = ds_total s /\ tf_norm t = nrm /\ tf_binary t = binary /\ tf_use_idf t = use_idf /\ tf_smooth t = smooth /\ tf_sublinear t = sublinear)
      by (rewrite Et; repeat split).
    clear Et. destruct F4 as (G1 & G2 & G3 & G4 & G5 & G6).
    assert (K1 : map fst (tf_labels t) = map fst (ds_terms s)) by (rewrite F1, map_map; reflexivity).
    assert (K2 : map fst (tf_freq t) = map fst (ds_terms s)) by (rewrite F2, map_map; reflexivity).
    assert (N1 : NoDup (map fst (tf_labels t))) by (rewrite K1; exact Hkeys).
    assert (N2 : NoDup (map snd (tf_labels t))) by (rewrite F1, map_map; exact Hindex).
    assert (N3 : forall u, In u (map fst (tf_labels t)) -> In u (map fst (tf_freq t))) by (rewrite K1, K2; auto).
    assert (L1' : forall u i, In (u, i) (tf_labels t) <-> exists df, In (u, (df, i)) (ds_terms s)).
    { intros u i. rewrite F1, in_map_iff. split.
      - intros ((u', (df, i')) & E & H). cbn in E. injection E as -> ->. eauto.
      - intros (df & H). exists (u, (df, i)). auto. }
    assert (L2' : forall u df i, In (u, (df, i)) (ds_terms s) -> m_find str_eqb (tf_freq t) u = Some df).
    { intros u df i H. apply (m_find_nodup str_eqb str_eqb_eq); [rewrite K2; exact Hkeys|]. rewrite F2, in_map_iff. exists (u, (df, i)). auto. }
    rewrite <- F3 in Hi.
    destruct (tf_counts_ok terms (infer_terms_bytes _ _ _ _ Hb Hi)) as (Nc & _ & Hc).
    destruct (results_ok ln t N1 N2 N3 (tf_counts terms) Nc) as (rs & Er & Nr & Hr & Ef).
    destruct (execute_ok re ln t N1 N2 N3 doc terms Hb Hi) as (rs' & Er' & Hr' & Hyes & Hno).
    assert (rs' = rs) by congruence. subst rs'. rewrite K1 in Hyes, Hno. split; [|exact Hno].
    intro Hex. destruct (Hyes Hex) as (v & Ev & Hel & Hs & _ & Hvne & Hv).
    assert (Hocc : forall u, In u terms -> (1 <= occ str_eqb u terms <= 2 ^ 24)%Z /\ u32 (occ str_eqb u terms) = occ str_eqb u terms).
    { intros u Hu. assert (B : (1 <= occ str_eqb u terms <= Z.of_nat (length terms))%Z).
      { unfold occ. split.
        - assert (In u (filter (str_eqb u) terms)) by (apply filter_In; split; [exact Hu|apply str_eqb_refl]).
          destruct (filter (str_eqb u) terms); [contradiction|]. cbn [length]. lia.
        - apply inj_le. apply filter_length_le. }
      split; [lia|]. unfold u32. apply Z.mod_small. lia. }
    assert (Hw : forall i w, In (i, w) rs -> is_finite w = true /\ 1 <= B2R w <= bpow radix2 43).
    { intros i w H. apply Hr' in H. destruct H as (u & H1 & H2 & H3). apply L1' in H2. destruct H2 as (df & H2). destruct (Hocc u H1) as (O1 & O2).
      rewrite O2 in H3. pose proof (Hcount _ _ _ H2) as Hdf.
      destruct (weight_value ln Hln t u (occ str_eqb u terms) w df) as (W1 & W2 & W3); eauto; lia || (rewrite ?G1; lia). }
    assert (Hwit : exists u df i w, In u terms /\ In (u, (df, i)) (ds_terms s) /\ In (i, w) rs).
    { destruct Hex as (u & Hu & Hk). rewrite <- K1 in Hk. destruct (weight_ok ln t N3 u (u32 (occ str_eqb u terms)) Hk) as (w & Ew).
      apply in_map_iff in Hk. destruct Hk as ((u', i) & E & Hl). cbn in E. subst u'. pose proof Hl as Hl'. apply L1' in Hl'. destruct Hl' as (df & Hl').
      exists u, df, i, w. split; [exact Hu|]. split; [exact Hl'|]. apply Hr'. exists u. auto. }
    assert (Hne : rs <> []) by (destruct Hwit as (u & df & i & w & _ & _ & H); intros ->; destruct H).
    pose (f := fun e : list Z * Z => match m_find str_eqb (tf_labels t) (fst e), weight ln t (fst e) (snd e) with
                              | Some i, Ok w => [(i, w)] | _, _ => [] end).
    pose (known := filter (fun e : list Z * Z => match m_find str_eqb (tf_labels t) (fst e) with Some _ => true | None => false end) (tf_counts terms)).
    assert (HF : Forall2 (fun e r => In e (tf_counts terms) /\ In (fst e, fst r) (tf_labels t) /\ weight ln t (fst e) (snd e) = Ok (snd r)) known rs).
    { rewrite Ef. unfold known. clear -N1 N3. assert (H : forall e, In e (tf_counts terms) -> In e (tf_counts terms)) by auto. revert H.
      generalize (tf_counts terms) at 1 4 5. intro l. induction l as [|e l IH]; intro H; [constructor|]. cbn [filter flat_map].
      destruct (m_find str_eqb (tf_labels t) (fst e)) as [i|] eqn:Em; [|cbn [app]; apply IH; intros; apply H; right; assumption].
      apply (label_iff t N1) in Em. destruct (weight_ok ln t N3 (fst e) (snd e)) as (w & Ew); [apply (in_map fst) in Em; exact Em|]. rewrite Ew.
      cbn [app]. constructor; [|apply IH; intros; apply H; right; assumption]. cbn [fst snd]. split; [apply H; left; reflexivity|]. auto. }
    assert (Hlen : (Z.of_nat (length rs) <= 2 ^ 24)%Z).
    { assert (El : length known = length rs) by (clear -HF; induction HF; cbn [length]; congruence). rewrite <- El. apply Z.le_trans with (Z.of_nat (length terms)); [|exact Hshort]. apply inj_le.
      apply Nat.le_trans with (length (tf_counts terms)); [apply filter_length_le|]. rewrite <- (map_length fst). apply NoDup_incl_length; [exact Nc|].
      intros u Hu. apply in_map_iff in Hu. destruct Hu as ((u', n) & E & Hu). cbn in E. subst u'. apply Hc in Hu. apply Hu. }
    destruct (norm_value t rs Hw Hlen Hne) as (_ & Hnorm & _). rewrite G2 in Hnorm.
    exists v, (map fst known), (map (fun r => B2R (snd r)) rs), (B2R (tf_norm_of t rs)).
    split; [exact Ev|]. split; [rewrite Hel, F1, map_length; reflexivity|]. split; [exact Hs|].
    split; [unfold known; apply nodup_map_filter; exact Nc|].
    assert (Hkn : forall u, In u (map fst known) <-> In u terms /\ In u (map fst (ds_terms s))).
    { intro u. rewrite in_map_iff, <- K1. unfold known. split.
      - intros ((u', n) & E & H). cbn in E. subst u'. apply filter_In in H. destruct H as (H1 & H2). cbn [fst] in H2. apply Hc in H1. split; [apply H1|].
        destruct (m_find str_eqb (tf_labels t) u) as [i|] eqn:Em; [|discriminate]. apply (label_iff t N1) in Em. apply (in_map fst) in Em. exact Em.
      - intros (H1 & H2). exists (u, u32 (occ str_eqb u terms)). split; [reflexivity|]. apply filter_In. split; [apply Hc; auto|]. cbn [fst].
        destruct (m_find str_eqb (tf_labels t) u) as [i|] eqn:Em; [reflexivity|]. apply (m_find_none str_eqb str_eqb_eq) in Em. contradiction. }
    split; [exact Hkn|]. split; [exact Hnorm|]. split.
    - assert (HG : forall e r, In r rs -> (In e (tf_counts terms) /\ In (fst e, fst r) (tf_labels t) /\ weight ln t (fst e) (snd e) = Ok (snd r)) ->
        exists df i x, In (fst e, (df, i)) (ds_terms s) /\
          tfidf_weight ln binary sublinear use_idf smooth (occ str_eqb (fst e) terms) df (ds_total s) (B2R (snd r)) /\
          In (x, i) (sp_values v) /\ equals x (r32 (B2R (snd r) / B2R (tf_norm_of t rs))) /\ (nrm <> NoNorm -> within 0 1 x)).
      { intros (u, n) (i, w) Hin (H1 & H2 & H3). cbn [fst snd] in *. apply Hc in H1. destruct H1 as (H1 & ->). apply L1' in H2. destruct H2 as (df & H2).
        destruct (Hocc u H1) as (O1 & O2). rewrite O2 in H3. pose proof (Hcount _ _ _ H2) as Hdf.
        destruct (weight_value ln Hln t u (occ str_eqb u terms) w df) as (W1 & W2 & W3); eauto; try (lia || (rewrite ?G1; lia)).
        rewrite G1, G3, G4, G5, G6 in W3.
        destruct (component_value t rs Hw Hlen Hne i w Hin) as (C1 & C2). rewrite G2 in C2.
        exists df, i, (fdiv w (tf_norm_of t rs)). split; [exact H2|]. split; [exact W3|]. split; [apply Hv; exists w; auto|]. auto. }
      clear -HF HG. assert (Hgen : forall (P : list Z * Z -> Z * float32 -> Prop) (Q : list Z -> R -> Prop) kn l,
        Forall2 P kn l -> (forall e r, In r l -> P e r -> Q (fst e) (B2R (snd r))) -> Forall2 Q (map fst kn) (map (fun r => B2R (snd r)) l)).
      { clear. intros P Q kn l H. induction H as [|e r kn l He HF IH]; intro HG; cbn [map]; constructor.
        - apply HG; [left; reflexivity|exact He].
        - apply IH. intros; apply HG; [right; assumption|assumption]. }
      eapply Hgen; [exact HF|]. exact HG.
    - intros x i H. apply Hv in H. destruct H as (w & H & _). apply Hr' in H. destruct H as (u & H1 & H2 & _). pose proof H2 as H3.
      apply L1' in H2. destruct H2 as (df & H2). exists u, df. split; [|exact H2]. apply Hkn. split; [exact H1|]. rewrite <- K1. apply (in_map fst) in H3. exact H3.
  Qed.
End Tfidf.
