(** Training on rows of texts (C70). *)
From Flocq Require Import IEEE754.BinarySingleNaN.
From Verif Require Import Base L_List M_Archive M_Codec M_Estimator M_Stats S_Stats L_Stats L_Stats3 M_Pipeline M_Keyed S_Keyed M_Scale M_TsImpute S_TsImpute L_TsMedian
  M_FloatText L_FloatText4 M_TsSave M_TsRows L_TsRows M_TsTrain S_TsTrain L_TsTrain.
Open Scope Z_scope.

Notation double := (binary_float 53 1024).
(** A row as the median estimator sees it. *)
Section Parse.
  Variable underflow : list Z -> bool.
  Fixpoint parse_row (ts : list Z) (row : list (option (list Z))) {struct row} : res (list (option double)) :=
    match row with
    | [] => Ok []
    | x :: xs =>
        do y <- (match x with
                 | Some c => match ts with [] => UB | t :: _ => if supports_median t then do v <- float_from_string underflow c; Ok (Some v) else Ok None end
                 | None => Ok None
                 end);
        do r <- parse_row (tl ts) xs; Ok (y :: r)
    end.
  Lemma text_row_parsed : forall row ts s ys, parse_row ts row = Ok ys -> length ts = length row -> length s = length row ->
    med_text_row underflow ts s row = med_row ts s ys.
  Proof.
    induction row as [|x row IH]; intros ts s ys E Ht Hs; cbn [parse_row] in E; [injection E as <-; reflexivity|].
    destruct ts as [|t ts]; [discriminate|]. destruct s as [|[a n] s]; [discriminate|]. cbn [length] in *. cbn [tl] in E.
    destruct x as [c|].
    - destruct (supports_median t) eqn:Hsup.
      + destruct (float_from_string underflow c) as [v|e|] eqn:Ec; cbn [bind] in E; try discriminate.
        destruct (parse_row ts row) as [zs|e|] eqn:Er; cbn [bind] in E; try discriminate. injection E as <-.
        cbn [med_text_row med_row tl]. rewrite Hsup, Ec. cbn [bind]. rewrite (IH ts s zs Er) by lia. reflexivity.
      + cbn [bind] in E. destruct (parse_row ts row) as [zs|e|] eqn:Er; cbn [bind] in E; try discriminate. injection E as <-.
        cbn [med_text_row med_row tl]. rewrite Hsup. rewrite (IH ts s zs Er) by lia. reflexivity.
    - cbn [bind] in E. destruct (parse_row ts row) as [zs|e|] eqn:Er; cbn [bind] in E; try discriminate. injection E as <-.
      cbn [med_text_row med_row tl]. rewrite (IH ts s zs Er) by lia. reflexivity.
  Qed.
  Lemma text_row_bad : forall row ts s e, parse_row ts row = Throw e -> length ts = length row -> length s = length row ->
    med_text_row underflow ts s row = Throw e.
  Proof.
    induction row as [|x row IH]; intros ts s e E Ht Hs; cbn [parse_row] in E; [discriminate|].
    destruct ts as [|t ts]; [discriminate|]. destruct s as [|[a n] s]; [discriminate|]. cbn [length] in *. cbn [tl] in E.
    destruct x as [c|].
    - cbn [med_text_row tl]. destruct (supports_median t) eqn:Hsup.
      + destruct (float_from_string underflow c) as [v|e'|] eqn:Ec; cbn [bind] in *; try discriminate; [|congruence].
        destruct (parse_row ts row) as [zs|e'|] eqn:Er; cbn [bind] in E; try discriminate. injection E as ->.
        rewrite (IH ts s e Er) by lia. reflexivity.
      + cbn [bind] in E. destruct (parse_row ts row) as [zs|e'|] eqn:Er; cbn [bind] in E; try discriminate. injection E as ->.
        rewrite (IH ts s e Er) by lia. reflexivity.
    - cbn [med_text_row tl bind] in *. destruct (parse_row ts row) as [zs|e'|] eqn:Er; cbn [bind] in E; try discriminate. injection E as ->.
      rewrite (IH ts s e Er) by lia. reflexivity.
  Qed.
  Lemma parse_length : forall row ts ys, parse_row ts row = Ok ys -> length ys = length row.
  Proof.
    induction row as [|x row IH]; intros ts ys E; cbn [parse_row] in E; [injection E as <-; reflexivity|].
    destruct (match x with Some c => _ | None => Ok None end) as [y|e|]; cbn [bind] in E; try discriminate.
    destruct (parse_row (tl ts) row) as [zs|e|] eqn:Er; cbn [bind] in E; try discriminate. injection E as <-. cbn [length]. now rewrite (IH _ _ Er).
  Qed.
  Lemma parse_nth : forall row ts ys, parse_row ts row = Ok ys -> forall i, (i < length row)%nat ->
    match nth i row None with
    | Some c => if supports_median (nth i ts 0) then exists v, float_from_string underflow c = Ok v /\ nth i ys None = Some v else nth i ys None = None
    | None => nth i ys None = None
    end.
  Proof.
    induction row as [|x row IH]; intros ts ys E i Hi; cbn [length] in Hi; [lia|]. cbn [parse_row] in E.
    destruct (match x with Some c => _ | None => Ok None end) as [y|e|] eqn:Ey; cbn [bind] in E; try discriminate.
    destruct (parse_row (tl ts) row) as [zs|e|] eqn:Er; cbn [bind] in E; try discriminate. injection E as <-. destruct i as [|i]; cbn [nth].
    - destruct x as [c|]; [|now injection Ey as <-]. destruct ts as [|t ts]; [discriminate|]. cbn [nth]. destruct (supports_median t); [|now injection Ey as <-].
      destruct (float_from_string underflow c) as [v|e|]; cbn [bind] in Ey; try discriminate. injection Ey as <-. now exists v.
    - specialize (IH (tl ts) zs Er i ltac:(lia)). replace (nth (S i) ts 0) with (nth i (tl ts) 0) by (destruct ts; [destruct i|]; reflexivity). exact IH.
  Qed.
  (** A row of the right width is read, or some cell of a floating point column cannot be. *)
  Lemma parse_defined : forall row ts, length ts = length row ->
    (exists ys, parse_row ts row = Ok ys) \/ (exists e, parse_row ts row = Throw e /\ (e = InvalidArgument \/ e = OutOfRange)).
  Proof.
    induction row as [|x row IH]; intros ts Ht; [left; now exists []|]. destruct ts as [|t ts]; [discriminate|]. cbn [length] in Ht. cbn [parse_row tl].
    destruct (IH ts ltac:(lia)) as [(ys & Ey)|(e & Ee & He)].
    - destruct x as [c|]; [|left; rewrite Ey; eexists; reflexivity]. destruct (supports_median t); [|left; rewrite Ey; eexists; reflexivity].
      pose proof (@float_any_text 53 1024 _ _ underflow c) as F. destruct (float_from_string underflow c) as [v|e|]; cbn [bind]; [left; rewrite Ey; eexists; reflexivity|right; eauto|contradiction].
    - destruct x as [c|]; [|right; rewrite Ee; cbn; eauto]. destruct (supports_median t); [|right; rewrite Ee; cbn; eauto].
      pose proof (@float_any_text 53 1024 _ _ underflow c) as F. destruct (float_from_string underflow c) as [v|e'|]; cbn [bind]; [rewrite Ee; right; cbn; eauto|right; eauto|contradiction].
  Qed.
  Lemma parse_good : forall row ts, length ts = length row ->
    (forall i c, (i < length row)%nat -> supports_median (nth i ts 0) = true -> nth i row None = Some c -> exists v : double, float_from_string underflow c = Ok v) ->
    exists ys, parse_row ts row = Ok ys.
  Proof.
    induction row as [|x row IH]; intros ts Ht H; [now exists []|]. destruct ts as [|t ts]; [discriminate|]. cbn [length] in Ht. cbn [parse_row tl].
    destruct (IH ts ltac:(lia)) as (ys & Ey).
    { intros i c Hi. specialize (H (S i) c). cbn [nth length] in H. apply H. lia. }
    rewrite Ey. destruct x as [c|]; [|eexists; reflexivity]. destruct (supports_median t) eqn:Hs; [|eexists; reflexivity].
    destruct (H O c) as (v & ->); [cbn [length]; lia|exact Hs|reflexivity|]. eexists. reflexivity.
  Qed.
  Lemma parse_fails : forall row ts i c, length ts = length row -> (i < length row)%nat -> supports_median (nth i ts 0) = true -> nth i row None = Some c ->
    (forall v : double, float_from_string underflow c <> Ok v) -> exists e, parse_row ts row = Throw e /\ (e = InvalidArgument \/ e = OutOfRange).
  Proof.
    intros row ts i c Ht Hi Hs Hc Hb. destruct (parse_defined row ts Ht) as [(ys & E)|H]; [|exact H]. exfalso.
    pose proof (parse_nth row ts ys E i Hi) as G. rewrite Hc, Hs in G. destruct G as (v & G & _). now apply (Hb v).
  Qed.
End Parse.
