(** Count vectors: the value of a component. *)
From Coq Require Import Reals Lra.
From Flocq Require Import Core.Core IEEE754.BinarySingleNaN.
From Verif Require Import Base L_List M_Estimator M_Stats S_Stats L_Estimator L_Stats L_Stats2 L_Stats3 M_String M_Text S_Text L_Text L_Text2 L_Text3
  M_Grain M_Scale S_Scale L_Float L_Scale2 M_Encoders L_Encoders M_Docs S_Docs L_Docs L_Docs2 L_Docs3 L_Docs5.
Open Scope Z_scope.

(** Rounding an integer gives an integer. *)
Lemma r32_integer n : 0 <= n -> exists v, r32 (IZR n) = IZR v /\ 0 <= v.
Proof.
  intros Hn. destruct (Z_le_gt_dec n (2 ^ 24)) as [H|H].
  - exists n. split; [|exact Hn]. apply (@rnd_fmt 24 128 _). apply (@int_fmt 24 128 _ _). lia.
  - assert (H0 : (0 <= r32 (IZR n))%R).
    { rewrite <- (@rnd_0 24 128 _). apply (@rnd_mono 24 128 _). apply IZR_le. lia. }
    assert (E : exists v, r32 (IZR n) = IZR v).
    { unfold rounded, round, F2R. cbn [Fnum Fexp]. set (e := cexp radix2 (SpecFloat.fexp 24 128) (IZR n)).
      set (m := ZnearestE _). assert (He : 0 <= e).
      { unfold e, cexp, SpecFloat.fexp. assert (Hm : (24 <= mag radix2 (IZR n))%Z).
        { apply mag_ge_bpow. rewrite Rabs_right by (apply Rle_ge, IZR_le; lia). rewrite <- IZR_Zpower by lia. apply IZR_le.
          change (Zpower radix2 (24 - 1)) with (2 ^ 23). lia. }
        unfold SpecFloat.emin. lia. }
      exists (m * Zpower radix2 e). rewrite mult_IZR, IZR_Zpower by exact He. reflexivity. }
    destruct E as (v & E). exists v. split; [exact E|]. rewrite E in H0. apply le_IZR in H0. exact H0.
Qed.
Lemma r32_mono x y : (x <= y)%R -> (r32 x <= r32 y)%R.
Proof. apply (@rnd_mono 24 128 _). Qed.
Lemma r32_exact n : Z.abs n <= 2 ^ 24 -> r32 (IZR n) = IZR n.
Proof. intro H. apply (@rnd_fmt 24 128 _). apply (@int_fmt 24 128 _ _). exact H. Qed.
Lemma Btrunc_int (x : float32) v : B2R x = IZR v -> Btrunc x = v.
Proof.
  intro H. apply eq_IZR. rewrite (Btrunc_correct 24 128 _ x), H. apply round_generic; [apply valid_rnd_ZR|].
  apply generic_format_FIX. exists (Float radix2 v 0); [|reflexivity]. unfold F2R. cbn. ring.
Qed.

(** 2^32 - 256 is a float. *)
Lemma top_fmt : r32 (IZR (2 ^ 32 - 256)) = IZR (2 ^ 32 - 256).
Proof.
  apply (@rnd_fmt 24 128 _). replace (IZR (2 ^ 32 - 256)) with (F2R (Float radix2 (2 ^ 24 - 1) 8)).
  - apply (generic_format_F2R' radix2 _ _ (Float radix2 (2 ^ 24 - 1) 8)); [reflexivity|]. intros _. cbn [Fexp].
    unfold cexp. replace (mag radix2 (F2R (Float radix2 (2 ^ 24 - 1) 8)) : Z) with 32; [cbn; lia|].
    symmetry. apply mag_unique. unfold F2R. cbn [Fnum Fexp]. change (bpow radix2 8) with (IZR 256). rewrite <- mult_IZR, <- abs_IZR.
    change (bpow radix2 (32 - 1)) with (IZR (2 ^ 31)). change (bpow radix2 32) with (IZR (2 ^ 32)). split; [apply IZR_le|apply IZR_lt]; lia.
  - unfold F2R. cbn [Fnum Fexp]. change (bpow radix2 8) with (IZR 256). rewrite <- mult_IZR. f_equal.
Qed.

Lemma div_1 x : (x / 1)%R = x.
Proof. field. Qed.
Lemma count_value n : 0 <= n <= 2 ^ 32 - 256 ->
  let w : float32 := convert (fmul (f64 n) (f64 1)) in
  exists v, to_u32 (fdiv w fone) = Ok v /\ IZR v = r32 (IZR n).
Proof.
  intros Hn w. destruct (@of_int_exact 53 1024 _ _ n) as (A1 & A2); [lia|]. destruct (@of_int_exact 53 1024 _ _ 1) as (B1 & B2); [lia|].
  destruct (@of_int_exact 24 128 _ _ 1) as (C1 & C2); [lia|].
  destruct (r32_integer n) as (v & Ev & Hv); [lia|].
  assert (Hvb : v <= 2 ^ 32 - 256).
  { apply le_IZR. rewrite <- Ev, <- top_fmt. apply r32_mono. apply IZR_le. lia. }
  assert (Hbig : forall z, 0 <= z <= 2 ^ 32 -> (Rabs (IZR z) < bpow radix2 128)%R /\ (Rabs (IZR z) < bpow radix2 1024)%R).
  { intros z Hz. rewrite Rabs_right by (apply Rle_ge, IZR_le; lia). rewrite <- !IZR_Zpower by lia.
    split; apply IZR_lt; change radix2 with (Build_radix 2 eq_refl); cbn [radix_val]; apply Z.le_lt_trans with (2 ^ 32); try lia; reflexivity. }
  assert (M : B2R (fmul (f64 n) (f64 1)) = IZR n /\ is_finite (fmul (f64 n) (f64 1)) = true).
  { unfold f64. destruct (@fmul_ok 53 1024 _ _ (of_int n) (of_int 1) A2 B2) as (M1 & M2).
    - rewrite A1, B1, Rmult_1_r, (@rnd_fmt 53 1024 _) by (apply (@int_fmt 53 1024 _ _); lia). apply Hbig. lia.
    - split; [|exact M2]. rewrite M1, A1, B1, Rmult_1_r. apply (@rnd_fmt 53 1024 _). apply (@int_fmt 53 1024 _ _). lia. }
  destruct M as (M1 & M2).
  destruct (convert_round (p' := 24) (e' := 128) (fmul (f64 n) (f64 1)) M2) as (W1 & W2).
  { rewrite M1. change (Rabs (r32 (IZR n)) < bpow radix2 128)%R. rewrite Ev. apply Hbig. lia. }
  fold w in W1, W2. rewrite M1 in W1. change (rnd (IZR n)) with (r32 (IZR n)) in W1. rewrite Ev in W1.
  assert (F1 : rnd (prec := 24) (emax := 128) (IZR v) = IZR v).
  { change (r32 (IZR v) = IZR v). rewrite <- Ev. apply (@rnd_fmt 24 128 _). apply generic_format_round; [apply (fexp_correct 24 128); reflexivity|].
    apply valid_rnd_N. }
  destruct (@fdiv_ok 24 128 _ _ w fone W2) as (D1 & D2).
  { unfold fone. rewrite C1. lra. }
  { rewrite W1. unfold fone. rewrite C1, div_1. rewrite F1. apply Hbig. lia. }
  rewrite W1 in D1. unfold fone in D1 at 2. rewrite C1, div_1, F1 in D1. exists v. split; [|symmetry; exact Ev].
  unfold to_u32. rewrite D2, (Btrunc_int _ v D1). destruct (Z.leb_spec 0 v), (Z.ltb_spec v 4294967296); cbn [andb]; try reflexivity; lia.
Qed.
Lemma one_value : to_u32 (fdiv (convert (fmul (f64 1) (f64 1)) : float32) fone) = Ok 1.
Proof. vm_compute. reflexivity. Qed.

(** *** Count vectors *)
Section Counts.
  Variable re : list Z -> list Z -> nat -> option (nat * nat).
  Variable ln : binary_float 53 1024 -> binary_float 53 1024.
  Variables (s : dstats) (binary : bool) (c : tcfg) (t : tfidf).
  Hypothesis Ht : cv_make s binary c = Ok t.
  Notation labels := (map (fun e => (fst e, snd (snd e))) (ds_terms s)).
  Hypothesis Hkeys : NoDup (map fst (ds_terms s)).
  Hypothesis Hindex : NoDup (map (fun e => snd (snd e)) (ds_terms s)).

  Lemma cv_fields : tf_labels t = labels /\ tf_norm t = NoNorm /\ tf_binary t = binary /\ tf_use_idf t = false /\ tf_sublinear t = false /\ tf_text t = c /\
    tf_freq t = map (fun e => (fst e, fst (snd e))) (ds_terms s).
  Proof using Ht.
    clear -Ht. unfold cv_make, tfidf_make in Ht. destruct (ds_terms s); [discriminate|]. injection Ht as <-. cbn. repeat split.
  Qed.

  Theorem count_vector doc terms : bytes_ok doc = true -> infer_terms re c doc = Ok terms ->
    (binary = false -> forall u, In u (map fst (ds_terms s)) -> occ str_eqb u terms <= 2 ^ 32 - 256) ->
    ((exists u, In u terms /\ In u (map fst (ds_terms s))) ->
      exists v, cv_execute re ln t doc = Ok v /\ sp_elements v = Z.of_nat (length (ds_terms s)) /\
        StronglySorted Z.lt (map snd (sp_values v)) /\
        forall x i, In (x, i) (sp_values v) <->
          exists u n, In u terms /\ In (u, (n, i)) (ds_terms s) /\ IZR x = if binary then 1%R else r32 (IZR (occ str_eqb u terms))) /\
    ((forall u, In u terms -> ~ In u (map fst (ds_terms s))) -> cv_execute re ln t doc = Throw InvalidArgument).
  Proof using Ht Hkeys Hindex.
    intros Hb Hi Hocc. destruct cv_fields as (F1 & F2 & F3 & F4 & F5 & F6 & F7).
    assert (K : map fst (tf_labels t) = map fst (ds_terms s)) by (rewrite F1, map_map; reflexivity).
    destruct (execute_ok re ln t) with (doc := doc) (terms := terms) as (rs & Er & Hr & Hyes & Hno); auto.
    { rewrite K. exact Hkeys. }
    { rewrite F1, map_map. exact Hindex. }
    { intros u Hu. rewrite K in Hu. rewrite F7, map_map. exact Hu. }
    { rewrite F6. exact Hi. }
    rewrite K in Hyes, Hno. split.
    2:{ intro H. unfold cv_execute. rewrite (Hno H). reflexivity. }
    intro H. destruct (Hyes H) as (v & Ev & Hn & Hs & Hlen & Hne & Hv). unfold cv_execute. rewrite Ev. cbn [bind].
    assert (Nv : tf_norm_of t rs = fone) by (unfold tf_norm_of; rewrite F2; reflexivity). rewrite Nv in Hv.
    (* each value *)
    assert (Hval : forall x i, In (x, i) (sp_values v) -> exists u n z, In u terms /\ In (u, (n, i)) (ds_terms s) /\
      to_u32 x = Ok z /\ IZR z = if binary then 1%R else r32 (IZR (occ str_eqb u terms))).
    { intros x i Hx. apply Hv in Hx. destruct Hx as (w & Hw & ->). apply Hr in Hw. destruct Hw as (u & Hu & Hl & Hw).
      rewrite F1 in Hl. apply in_map_iff in Hl. destruct Hl as ((u', (n, i')) & E & Hl). cbn [fst snd] in E. injection E as -> ->.
      exists u, n. unfold weight in Hw. cbv zeta in Hw. rewrite F3, F4, F5 in Hw. cbn [negb bind] in Hw. injection Hw as <-.
      destruct binary.
      - exists 1. split; [exact Hu|]. split; [exact Hl|]. split; [exact one_value|reflexivity].
      - assert (Hu' : In u (map fst (ds_terms s))) by (apply (in_map fst) in Hl; exact Hl).
        specialize (Hocc eq_refl u Hu'). assert (H0 : 0 <= occ str_eqb u terms) by (unfold occ; lia).
        replace (u32 (occ str_eqb u terms)) with (occ str_eqb u terms) by (unfold u32; rewrite Z.mod_small; lia).
        destruct (count_value (occ str_eqb u terms)) as (z & Hz1 & Hz2); [lia|]. exists z. split; [exact Hu|]. split; [exact Hl|]. split; [exact Hz1|exact Hz2]. }
    assert (HM : exists vs, mapM (fun p : float32 * Z => do n <- to_u32 (fst p); Ok (n, snd p)) (sp_values v) = Ok vs /\
      map snd vs = map snd (sp_values v) /\ forall x i, In (x, i) vs <-> exists y, In (y, i) (sp_values v) /\ to_u32 y = Ok x).
    { clear -Hval. induction (sp_values v) as [|(y, i) l IH].
      - exists []. cbn. repeat split; auto; [intros []|]. intros (y & [] & _).
      - destruct IH as (vs & E & Em & Hin); [intros x j Hx; apply Hval; right; exact Hx|].
        destruct (Hval y i (or_introl eq_refl)) as (_ & _ & z & _ & _ & Hz & _). cbn [mapM fst snd]. rewrite Hz. cbn [bind]. rewrite E. cbn [bind].
        exists ((z, i) :: vs). split; [reflexivity|]. split; [cbn [map snd]; rewrite Em; reflexivity|]. intros x j. cbn [In]. rewrite Hin. split.
        + intros [Hj|(y' & H1 & H2)]; [injection Hj as <- <-; exists y; auto|exists y'; auto].
        + intros (y' & [Hj|H1] & H2); [injection Hj as <- <-; left; congruence|right; exists y'; auto]. }
    destruct HM as (vs & -> & Em & Hin). cbn [bind].
    destruct (sparse_make_spec (sp_elements v) vs) as (Sok & _); [lia|]. assert (Hl : length vs = length (sp_values v)).
    { rewrite <- (map_length snd vs), Em, map_length. reflexivity. }
    exists (mkSparse (sp_elements v) vs). split.
    { apply Sok. rewrite Em, Hl, Hn, F1 in *. rewrite map_length in *. repeat split; auto; [|lia]. intros E. apply Hne.
      rewrite E in Hl. destruct (sp_values v); [reflexivity|discriminate]. }
    cbn [sp_elements sp_values]. rewrite Hn, F1, map_length, Em. split; [reflexivity|]. split; [exact Hs|].
    intros x i. rewrite Hin. split.
    - intros (y & Hy & Hx). destruct (Hval y i Hy) as (u & n & z & H1 & H2 & H3 & H4). exists u, n. rewrite Hx in H3. injection H3 as <-. auto.
    - intros (u & n & Hu & Hd & Hx).
      assert (Hl' : In (u, i) (tf_labels t)) by (rewrite F1; apply in_map_iff; exists (u, (n, i)); auto).
      destruct (weight_ok ln t) with (u := u) (n := u32 (occ str_eqb u terms)) as (w & Hw).
      { intros u' Hu'. rewrite K in Hu'. rewrite F7, map_map. exact Hu'. }
      { apply (in_map fst) in Hl'. exact Hl'. }
      assert (Hin' : In (fdiv w fone, i) (sp_values v)) by (apply Hv; exists w; split; [apply Hr; eauto|reflexivity]).
      exists (fdiv w fone). split; [exact Hin'|]. destruct (Hval _ _ Hin') as (u' & n' & z & H1 & H2 & H3 & H4).
      assert (u' = u).
      { revert H2 Hd Hindex. clear. induction (ds_terms s) as [|e l IH]; intros H1 H2 N; [destruct H1|]. cbn [map] in N. inversion N; subst.
        destruct H1 as [->|H1], H2 as [E|H2]; [congruence| | |auto]; exfalso.
        - apply H3. cbn. apply (in_map (fun e => snd (snd e))) in H2. exact H2.
        - subst e. apply H3. cbn. apply (in_map (fun e => snd (snd e))) in H1. exact H1. }
      subst u'. rewrite H3. f_equal. apply eq_IZR. rewrite H4, Hx. reflexivity.
  Qed.
End Counts.
