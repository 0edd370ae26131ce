(** C91: the accuracy of tf-idf vectors. *)
From Coq Require Import Reals Lra.
From Flocq Require Import Core.Core IEEE754.BinarySingleNaN.
From Verif Require Import Base M_Estimator M_Stats S_Stats L_Stats M_Scale S_Scale M_Encoders M_String M_Text S_Text L_Text M_Grain M_Docs S_Docs S_FloatScale S_TfidfNorm
  L_TfidfNorm2 L_TfidfNorm3 L_TfidfNorm4.
Open Scope Z_scope.

(** C91: each component is the weight divided by the exact norm of the weights up to (k+3) 2^-23, where k is the number of
    different known terms of the document, and the norm of the vector delivered is 1 up to (k+4) 2^-23; without a norm the
    components are the weights themselves. *)
Theorem C91_norm : forall (re : list Z -> list Z -> nat -> option (nat * nat)) (ln : binary_float 53 1024 -> binary_float 53 1024),
  log_ok ln -> forall (s : dstats) (nrm : norm) (binary use_idf smooth sublinear : bool) (c : tcfg) (t : tfidf),
  tfidf_make s nrm binary use_idf smooth sublinear c = Ok t ->
  NoDup (map fst (ds_terms s)) -> NoDup (map (fun e => snd (snd e)) (ds_terms s)) ->
  (forall u df i, In (u, (df, i)) (ds_terms s) -> 1 <= df <= ds_total s) -> ds_total s < 2 ^ 32 - 1 ->
  forall doc terms, bytes_ok doc = true -> infer_terms re c doc = Ok terms -> Z.of_nat (length terms) <= 2 ^ 20 ->
  (exists u, In u terms /\ In u (map fst (ds_terms s))) ->
  exists v us ws, tf_execute re ln t doc = Ok v /\ NoDup us /\ (forall u, In u us <-> In u terms /\ In u (map fst (ds_terms s))) /\
    Forall2 (fun u w => exists df i x, In (u, (df, i)) (ds_terms s) /\
               tfidf_weight ln binary sublinear use_idf smooth (occ str_eqb u terms) df (ds_total s) w /\
               In (x, i) (sp_values v) /\ is_finite x = true /\ (nrm = NoNorm -> B2R x = w) /\
               (Rabs (B2R x - w / exact_norm nrm ws) <= float_error (length us) 3 * (w / exact_norm nrm ws))%R) us ws /\
    (nrm <> NoNorm -> (Rabs (exact_norm nrm (map (fun e => B2R (fst e)) (sp_values v)) - 1) <= float_error (length us) 4)%R).
Proof. exact tfidf_norm. Qed.
Print Assumptions C91_norm.

(** C91: with an accurate std::log the weight is that of the formulas with the real logarithm up to 2^-23. *)
Theorem C91_weights : forall (ln : binary_float 53 1024 -> binary_float 53 1024), log_ok ln -> accurate_log ln ->
  forall (binary sublinear use_idf smooth : bool) (n df total : Z) (w : R), 1 <= n <= 2 ^ 24 -> 1 <= df <= total -> total < 2 ^ 32 - 1 ->
  tfidf_weight ln binary sublinear use_idf smooth n df total w ->
  (Rabs (w - exact_weight binary sublinear use_idf smooth n df total) <= bpow radix2 (-23) * exact_weight binary sublinear use_idf smooth n df total)%R.
Proof. exact weight_accuracy. Qed.
Print Assumptions C91_weights.

(** C91: together: each component is the weight by the formulas divided by the exact norm of these weights, up to (k+7) 2^-23. *)
Theorem C91_formula : forall (re : list Z -> list Z -> nat -> option (nat * nat)) (ln : binary_float 53 1024 -> binary_float 53 1024),
  log_ok ln -> accurate_log ln -> forall (s : dstats) (nrm : norm) (binary use_idf smooth sublinear : bool) (c : tcfg) (t : tfidf),
  tfidf_make s nrm binary use_idf smooth sublinear c = Ok t ->
  NoDup (map fst (ds_terms s)) -> NoDup (map (fun e => snd (snd e)) (ds_terms s)) ->
  (forall u df i, In (u, (df, i)) (ds_terms s) -> 1 <= df <= ds_total s) -> ds_total s < 2 ^ 32 - 1 ->
  forall doc terms, bytes_ok doc = true -> infer_terms re c doc = Ok terms -> Z.of_nat (length terms) <= 2 ^ 20 ->
  (exists u, In u terms /\ In u (map fst (ds_terms s))) ->
  exists v us ws, tf_execute re ln t doc = Ok v /\ NoDup us /\ (forall u, In u us <-> In u terms /\ In u (map fst (ds_terms s))) /\
    Forall2 (fun u w => exists df i x, In (u, (df, i)) (ds_terms s) /\
               w = exact_weight binary sublinear use_idf smooth (occ str_eqb u terms) df (ds_total s) /\
               In (x, i) (sp_values v) /\ is_finite x = true /\
               (Rabs (B2R x - w / exact_norm nrm ws) <= float_error (length us) 7 * (w / exact_norm nrm ws))%R) us ws.
Proof. exact tfidf_formula. Qed.
Print Assumptions C91_formula.

(** The rounded real logarithm is as asked. *)
Theorem C91_logarithm : exists ln : binary_float 53 1024 -> binary_float 53 1024, log_ok ln /\ accurate_log ln.
Proof. exact (ex_intro _ rounded_log rounded_log_ok). Qed.
Print Assumptions C91_logarithm.

(** "b z B b c", with idf, smooth, norm L2: "b" is in 2 of 3 documents and "c" in 1, so the weights are 3 (1 + ln 4/3) and 1 + ln 2. *)
Example C91_case : let re := fun _ _ _ => None in let s := mkStats [([98], (2, 0)); ([99], (1, 1))] 3 in let c := mkTcfg true Word [] 1 1 in
  let doc := [98; 32; 122; 32; 66; 32; 98; 32; 99] in
  exists t ln v, tfidf_make s L2 false true true false c = Ok t /\ log_ok ln /\ accurate_log ln /\ tf_execute re ln t doc = Ok v /\
    forall a b, a = (3 * (1 + Rpower.ln (4 / 3)))%R -> b = (1 * (1 + Rpower.ln (4 / 2)))%R ->
    exists x, In (x, 0) (sp_values v) /\ ((Rabs (B2R x - a / l2 [a; b]) <= float_error 2 7 * (a / l2 [a; b]))%R \/ (Rabs (B2R x - a / l2 [b; a]) <= float_error 2 7 * (a / l2 [b; a]))%R).
Proof.
  cbv zeta. destruct rounded_log_ok as [L1 L2'].
  set (s := mkStats [([98], (2, 0)); ([99], (1, 1))] 3). set (c := mkTcfg true Word [] 1 1). set (re := fun (_ _ : list Z) (_ : nat) => @None (nat * nat)).
  destruct (tfidf_make s L2 false true true false c) as [t| |] eqn:Et; [|discriminate Et|discriminate Et]. exists t, rounded_log.
  destruct (tfidf_formula re rounded_log L1 L2' s L2 false true true false c t Et) with (doc := [98; 32; 122; 32; 66; 32; 98; 32; 99]) (terms := [[98]; [122]; [98]; [98]; [99]])
    as (v & us & ws & Ev & Nu & Hu & HF).
  - repeat constructor; cbn; intuition congruence.
  - repeat constructor; cbn; intuition congruence.
  - intros u df i [E|[E|[]]]; injection E as <- <- <-; cbn; lia.
  - cbn. lia.
  - vm_compute. reflexivity.
  - vm_compute. reflexivity.
  - cbn. lia.
  - exists [98]. split; cbn; auto.
  - exists v. split; [reflexivity|]. split; [exact L1|]. split; [exact L2'|]. split; [exact Ev|]. intros a b Ea Eb.
    assert (Hb : In [98] us) by (apply Hu; split; cbn; auto). assert (Hc : In [99] us) by (apply Hu; split; cbn; auto 10).
    assert (Only : forall u, In u us -> u = [98] \/ u = [99]) by (intros u H; apply Hu in H; destruct H as [_ H]; cbn in H; intuition congruence).
    clear Hu. destruct us as [|u1 us]; [destruct Hb|]. inversion Nu as [|? ? N1 N2]; subst. destruct us as [|u2 us].
    { exfalso. destruct Hb as [Hb|[]], Hc as [Hc|[]]. congruence. }
    inversion N2 as [|? ? N3 N4]; subst. destruct us as [|u3 us].
    2:{ exfalso. destruct (Only u1), (Only u2), (Only u3); subst; cbn in *; intuition congruence. }
    inversion HF as [|? w1 ? ws1 P1 HF1]; subst. inversion HF1 as [|? w2 ? ws2 P2 HF2]; subst. inversion HF2; subst. clear HF HF1 HF2.
    assert (W : forall w u, (exists df i x, In (u, (df, i)) (ds_terms s) /\ w = exact_weight false false true true (occ str_eqb u [[98]; [122]; [98]; [98]; [99]]) df (ds_total s) /\
               In (x, i) (sp_values v) /\ is_finite x = true /\ (Rabs (B2R x - w / exact_norm L2 [w1; w2]) <= float_error (length [u1; u2]) 7 * (w / exact_norm L2 [w1; w2]))%R) ->
      (u = [98] -> w = (3 * (1 + Rpower.ln (4 / 3)))%R /\ exists x, In (x, 0) (sp_values v) /\ (Rabs (B2R x - w / l2 [w1; w2]) <= float_error 2 7 * (w / l2 [w1; w2]))%R) /\
      (u = [99] -> w = (1 * (1 + Rpower.ln (4 / 2)))%R)).
    { intros w u (df & i & x & A & B & C & _ & D). split; intros ->; destruct A as [A|[A|[]]]; inversion A; subst df i; (split; [exact B|exists x; split; [exact C|exact D]]) || exact B. }
    apply W in P1. apply W in P2. destruct P1 as [P1b P1c], P2 as [P2b P2c]. clear W.
    destruct (Only u1 (or_introl eq_refl)) as [-> | ->].
    + destruct (Only u2 (or_intror (or_introl eq_refl))) as [-> | ->]; [exfalso; apply N1; now left|]. destruct (P1b eq_refl) as (E1 & (x & (Y1 & Y2))). pose proof (P2c eq_refl) as E2.
      exists x. split; [exact Y1|]. left. rewrite <- E1, <- E2. exact Y2.
    + destruct (Only u2 (or_intror (or_introl eq_refl))) as [-> | ->]; [|exfalso; apply N1; now left]. destruct (P2b eq_refl) as (E1 & (x & (Y1 & Y2))). pose proof (P1c eq_refl) as E2.
      exists x. split; [exact Y1|]. right. rewrite <- E1, <- E2. exact Y2.
Qed.
