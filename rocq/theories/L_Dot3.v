(** C88: examples. *)
From Coq Require Import Reals Lra SpecFloat.
From Flocq Require Import Core.Core IEEE754.BinarySingleNaN.
From Verif Require Import Base M_Scale S_FloatStats S_Accuracy S_Matrix M_Dot S_Dot L_Float L_Dot L_Dot2.
Open Scope R_scope.

Notation D := (binary_float 53 1024).
Definition cell (x : D) : fmat D := FMat 1 1 (fun _ _ => x).
Lemma cell_product (a b : fmat D) x : f_rows a = 1%nat -> f_cols b = 1%nat -> evaluates (factors a b 0 0) x -> is_product a b (cell x).
Proof.
  intros A B E. split; [now symmetry|]. split; [now symmetry|]. intros i j Hi Hj. rewrite A in Hi. rewrite B in Hj. replace i with 0%nat by lia. replace j with 0%nat by lia. exact E.
Qed.
Lemma two_orders : exists (v input c c' : fmat D),
  pca_gives v input (Ok c) /\ pca_gives v input (Ok c') /\ f_rows c = 1%nat /\ f_cols c = 1%nat /\
  B2SF (f_entry c 0%nat 0%nat) = S754_finite false 4503599627370496 1 /\ B2SF (f_entry c' 0%nat 0%nat) = S754_finite false 4503599627370497 1.
Proof.
  set (x := of_int 9007199254740992 : D). set (o := of_int 1 : D).
  exists (one_row [x; o; o]), (one_row [o; o; o]), (cell (fadd (fadd (fmul o x) (fmul o o)) (fmul o o))), (cell (fadd (fmul o x) (fadd (fmul o o) (fmul o o)))).
  assert (F : factors (one_row [o; o; o]) (f_transpose (one_row [x; o; o])) 0 0 = [(o, x); (o, o); (o, o)]) by reflexivity.
  split; [|split; [|split; [reflexivity|split; [reflexivity|split]]]].
  - unfold pca_gives. cbn [one_row f_rows f_cols length Nat.mul Nat.add Nat.eqb negb]. eexists. split; [reflexivity|]. apply cell_product; [reflexivity|reflexivity|].
    change (evaluates ([(o, x); (o, o)] ++ [(o, o)]) (fadd (fadd (fmul o x) (fmul o o)) (fmul o o))). apply ev_add; [|apply ev_product].
    change (evaluates ([(o, x)] ++ [(o, o)]) (fadd (fmul o x) (fmul o o))). apply ev_add; apply ev_product.
  - unfold pca_gives. cbn [one_row f_rows f_cols length Nat.mul Nat.add Nat.eqb negb]. eexists. split; [reflexivity|]. apply cell_product; [reflexivity|reflexivity|].
    change (evaluates ([(o, x)] ++ [(o, o); (o, o)]) (fadd (fmul o x) (fadd (fmul o o) (fmul o o)))). apply ev_add; [apply ev_product|].
    change (evaluates ([(o, o)] ++ [(o, o)]) (fadd (fmul o o) (fmul o o))). apply ev_add; apply ev_product.
  - vm_compute. reflexivity.
  - vm_compute. reflexivity.
Qed.
Lemma small_whole (z : Z) : (Z.abs z <= 2 ^ 53)%Z -> B2R (of_int z : D) = IZR z /\ is_finite (of_int z : D) = true.
Proof.
  intros H. destruct (@of_int_round 53 1024 _ _ z 53 ltac:(lia) H) as [A B]. split; [|exact B]. rewrite A. apply (rnd_fmt (prec := 53) (emax := 1024)). now apply int_fmt.
Qed.
Lemma one_row_whole (l : list Z) : (forall z, In z l -> (Z.abs z <= 2 ^ 53)%Z) -> whole_entries (one_row (doubles l) : fmat D).
Proof.
  intros H i j _ Hj. cbn [one_row f_rows f_cols f_entry] in *. unfold doubles in *. rewrite map_length in Hj.
  rewrite (nth_indep _ _ (of_int 0)) by (now rewrite map_length). rewrite map_nth. destruct (small_whole (nth j l 0%Z)) as [A B]; [apply H, nth_In, Hj|]. split; [exact B|]. now exists (nth j l 0%Z).
Qed.
Lemma small_value : B2R (of_int 1 : D) = 1 /\ B2R (of_int 2 : D) = 2 /\ B2R (of_int 3 : D) = 3 /\ B2R (of_int 4 : D) = 4.
Proof. repeat split; apply small_whole; lia. Qed.
Lemma projection_case : forall c, pca_gives (one_row (doubles [1; 2]%Z)) (one_row (doubles [3; 4]%Z)) (Ok c) ->
  is_finite (f_entry c 0%nat 0%nat) = true /\ B2R (f_entry c 0%nat 0%nat) = 11.
Proof.
  intros c H. destruct (projection_close _ _ _ H) as (c' & E & _ & _ & V); [cbn; lia|reflexivity|]. injection E as <-.
  destruct (V 0%nat 0%nat) as (_ & _ & W); [cbn; lia|cbn; lia|]. clear V.
  destruct W as [A B].
  - apply one_row_whole. cbn [In]. intros z [<-|[<-|[]]]; lia.
  - apply one_row_whole. cbn [In]. intros z [<-|[<-|[]]]; lia.
  - unfold product_magnitude, total, row_of. cbn [one_row doubles f_cols f_entry map length seq nth fold_right]. destruct small_value as (-> & -> & -> & ->).
    rewrite <- !mult_IZR, <- !abs_IZR. rewrite <- IZR_Zpower by lia. rewrite <- !plus_IZR. apply IZR_le. cbn. lia.
  - split; [exact A|]. rewrite B. unfold dot, total, row_of. cbn [one_row doubles f_cols f_entry map length seq nth fold_right]. destruct small_value as (-> & -> & -> & ->). lra.
Qed.
Lemma projection_gives : exists c, pca_gives (one_row (doubles [1; 2]%Z)) (one_row (doubles [3; 4]%Z)) (Ok c).
Proof.
  exists (cell (fadd (fmul (of_int 3) (of_int 1)) (fmul (of_int 4) (of_int 2)))). unfold pca_gives. cbn [one_row doubles map f_rows f_cols length Nat.mul Nat.add Nat.eqb negb]. eexists. split; [reflexivity|]. apply cell_product; [reflexivity|reflexivity|].
  change (evaluates ([(of_int 3, of_int 1)] ++ [(of_int 4, of_int 2)]) (fadd (fmul (of_int 3) (of_int 1)) (fmul (of_int 4) (of_int 2)) : D)). apply ev_add; apply ev_product.
Qed.
