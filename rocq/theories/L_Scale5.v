From Coq Require Import Reals Lra Psatz.
From Flocq Require Import Core.Core IEEE754.BinarySingleNaN.
From Verif Require Import Base M_Estimator M_Stats M_Pipeline M_Impute M_Scale S_Stats S_Window S_Scale L_Stats L_Stats3 L_Float L_Scale L_Scale2 L_Scale3 L_Scale4.
Open Scope R_scope.

(** ** The statements of P_Scale *)
Lemma c27_double : forall mn mx x : double, is_finite mn = true -> is_finite mx = true -> is_finite (fsub mx mn) = true ->
  is_finite x = true -> B2R mn <= B2R x <= B2R mx ->
  exists s, mm_new same_ty mn mx = Ok s /\ within 0 1 (mm_exec same_ty s x) /\
    (B2R x = B2R mn -> B2R (mm_exec same_ty s x) = 0) /\ (B2R mn < B2R mx -> B2R x = B2R mx -> B2R (mm_exec same_ty s x) = 1).
Proof. intros mn mx x H1 H2 H3 H4 H5. destruct (mm_same mn mx x H1 H2 H4 H3 H5) as [s [A [B [C [D E]]]]]. exists s. unfold within. auto. Qed.
Lemma c27_float : forall mn mx x : float32, is_finite mn = true -> is_finite mx = true -> is_finite (fsub mx mn) = true ->
  B2R (fsub mx mn) = B2R mx - B2R mn -> is_finite x = true -> B2R mn <= B2R x <= B2R mx ->
  exists s, mm_new float_to_double mn mx = Ok s /\ within 0 1 (mm_exec float_to_double s x) /\
    (B2R x = B2R mn -> B2R (mm_exec float_to_double s x) = 0) /\ (B2R mn < B2R mx -> B2R x = B2R mx -> B2R (mm_exec float_to_double s x) = 1).
Proof. intros mn mx x H1 H2 H3 H3' H4 H5. destruct (mm_float_double mn mx x H1 H2 H4 H3 H3' H5) as [s [A [B [C [D E]]]]]. exists s. unfold within. auto. Qed.
Lemma c27_int : forall (signed : bool) (w : nat) (mn mx x : Z), (1 <= w)%nat ->
  (Z.abs mn <= 2 ^ 53)%Z -> (Z.abs mx <= 2 ^ 53)%Z -> (mx - mn <= 2 ^ 53)%Z -> fits signed w (mx - mn) = true -> (mn <= x <= mx)%Z ->
  let t := int_ty signed w : numty 53 1024 Z in
  exists s, mm_new t mn mx = Ok s /\ within 0 1 (mm_exec t s x) /\ (x = mn -> B2R (mm_exec t s x) = 0) /\ ((mn < mx)%Z -> x = mx -> B2R (mm_exec t s x) = 1).
Proof.
  intros signed w mn mx x H1 H2 H3 H4 H5 H6. cbv zeta. destruct (mm_int_gen (prec := 53) (emax := 1024) signed w mn mx x H1 H2 H3 H4 H5 H6) as [s [A [B [C [D E]]]]].
  exists s. unfold within. auto.
Qed.
Lemma c27_int_trained : forall (signed : bool) (w mx : nat) (bs : list (list Z)) (lo hi : Z), (1 <= w <= 4)%nat -> proper_training mx bs ->
  (lo < hi)%Z -> (forall v, fits signed w v = true <-> (lo <= v <= hi)%Z) ->
  Forall (fun v => fits signed w v = true) (items mx bs) -> items mx bs <> [] ->
  (forall v u, In v (items mx bs) -> In u (items mx bs) -> fits signed w (v - u) = true \/ (v < u)%Z) ->
  let t := int_ty signed w : numty 53 1024 Z in
  exists mn mxv s, trained (minmax_policy Z.ltb lo hi) mx bs = Ok (Some (mn, mxv)) /\ mm_new t mn mxv = Ok s /\
    forall x, In x (items mx bs) -> within 0 1 (mm_exec t s x).
Proof.
  intros signed w mx bs lo hi H1 H2 H3 H4 H5 H6 H7. cbv zeta.
  apply (mm_int_trained (prec := 53) (emax := 1024) signed w mx bs lo hi); auto. lia.
Qed.
(** Executable checks of the cases that fail. *)
Definition check {I} (t : numty 53 1024 I) (mn mx x : I) (ok : double -> bool) : bool :=
  match mm_new t mn mx with Ok s => ok (mm_exec t s x) | _ => false end.
Lemma check_ok : forall {I} (t : numty 53 1024 I) mn mx x ok, check t mn mx x ok = true -> exists s, mm_new t mn mx = Ok s /\ ok (mm_exec t s x) = true.
Proof. intros I t mn mx x ok H. unfold check in H. destruct (mm_new t mn mx) as [s| |]; try discriminate. exists s. auto. Qed.
Definition d1 : double := of_int 1.
Definition pow2_float (e : Z) : float32 := binary_normalize 24 128 _ _ mode_NE 1 e false.
Lemma c27_bad :
  (exists s, mm_new (int_ty true 1 : numty 53 1024 Z) (-128)%Z 127%Z = Ok s /\ Beqb (mm_exec (int_ty true 1 : numty 53 1024 Z) s 127%Z) (of_int (-255)) = true) /\
  (mm_new (int_ty true 4 : numty 53 1024 Z) (- 2 ^ 31)%Z (2 ^ 31 - 1)%Z = UB) /\
  (exists s, mm_new (int_ty true 8 : numty 53 1024 Z) 2%Z (2 ^ 53 + 3)%Z = Ok s /\ Bltb d1 (mm_exec (int_ty true 8 : numty 53 1024 Z) s (2 ^ 53 + 3)%Z) = true) /\
  (exists s, mm_new float_to_double (of_int (-1)) (pow2_float (-30)) = Ok s /\ Bltb d1 (mm_exec float_to_double s (pow2_float (-30))) = true) /\
  (exists s, mm_new (same_ty : numty 53 1024 double) (Bopp Bmax_float) Bmax_float = Ok s /\ is_nan (mm_exec same_ty s Bmax_float) = true).
Proof.
  split. { apply (check_ok (int_ty true 1 : numty 53 1024 Z) (-128)%Z 127%Z 127%Z (fun r => Beqb r (of_int (-255)))). vm_compute. reflexivity. }
  split. { vm_compute. reflexivity. }
  split. { apply (check_ok (int_ty true 8 : numty 53 1024 Z) 2%Z (2 ^ 53 + 3)%Z (2 ^ 53 + 3)%Z (fun r => Bltb d1 r)). vm_compute. reflexivity. }
  split. { apply (check_ok float_to_double (of_int (-1)) (pow2_float (-30)) (pow2_float (-30)) (fun r => Bltb d1 r)). vm_compute. reflexivity. }
  apply (check_ok (same_ty : numty 53 1024 double) (Bopp Bmax_float) Bmax_float Bmax_float (fun r => is_nan r)). vm_compute. reflexivity.
Qed.

Lemma not_inf_eq : forall {p e} (x : binary_float p e), not_infinite x <-> is_inf x = false.
Proof. intros p e x. destruct x; cbn; split; intros H; auto; try discriminate; contradiction. Qed.
Lemma c27_maxabs_float : forall {prec emax : Z} {Hp : Prec_gt_0 prec} {Hm : Prec_lt_emax prec emax} mx (bs : list (list (binary_float prec emax))),
  proper_training mx bs -> Forall not_infinite (items mx bs) ->
  exists scale, trained ma_policy mx bs = Ok (Some scale) /\
  forall x, In x (items mx bs) -> is_finite x = true -> within (-1) 1 (ma_exec same_ty scale x) /\
    (B2R x <> 0 -> (forall y, In y (items mx bs) -> is_finite y = true -> Rabs (B2R y) <= Rabs (B2R x)) -> Rabs (B2R (ma_exec same_ty scale x)) = 1).
Proof.
  intros prec emax Hp Hm mx bs H N. assert (N' : Forall no_inf (items mx bs)). { eapply Forall_impl; [|exact N]. intros a. apply not_inf_eq. }
  destruct (ma_float mx bs H N') as [s [E G]]. exists s. split; [exact E|]. intros x Hx Fx. destruct (G x Hx Fx) as [A [B C]].
  split; [|exact C]. split; [exact A|]. now apply Rabs_le_inv.
Qed.
Lemma c27_maxabs_int : forall {prec emax : Z} {Hp : Prec_gt_0 prec} {Hm : Prec_lt_emax prec emax} signed w' w mx bs, (64 < emax)%Z -> (w <= 8)%nat ->
  proper_training mx bs -> Forall (fun x => fits_s w (Z.abs x) = true) (items mx bs) ->
  let t := int_ty signed w' : numty prec emax Z in
  exists scale, trained (maxabs_policy w (of_int (prec := prec) (emax := emax)) Bltb fzero) mx bs = Ok (Some scale) /\
  forall x, In x (items mx bs) -> within (-1) 1 (ma_exec t scale x) /\
    (x <> 0%Z -> (forall y, In y (items mx bs) -> (Z.abs y <= Z.abs x)%Z) -> Rabs (B2R (ma_exec t scale x)) = 1).
Proof.
  intros prec emax Hp Hm signed w' w mx bs He Hw H N. cbv zeta. destruct (ma_int (prec := prec) (emax := emax) signed w' w mx bs He Hw H N) as [s [E G]].
  exists s. split; [exact E|]. intros x Hx. destruct (G x Hx) as [A [B C]]. split; [|exact C]. split; [exact A|]. now apply Rabs_le_inv.
Qed.

(** C28 *)
Lemma c28_bad : exists s s', mm_new (same_ty : numty 53 1024 double) (of_int 1) (of_int (2 ^ 53 + 2)) = Ok s /\ mm_reload same_ty s = Ok s' /\
  Beqb (mm_exec same_ty s (of_int (2 ^ 53 + 2))) d1 = true /\ Bltb d1 (mm_exec same_ty s' (of_int (2 ^ 53 + 2))) = true.
Proof.
  assert (H : (match mm_new (same_ty : numty 53 1024 double) (of_int 1) (of_int (2 ^ 53 + 2)) with
            | Ok s => match mm_reload same_ty s with
                      | Ok s' => Beqb (mm_exec same_ty s (of_int (2 ^ 53 + 2))) d1 && Bltb d1 (mm_exec same_ty s' (of_int (2 ^ 53 + 2)))
                      | _ => false end | _ => false end) = true) by (vm_compute; reflexivity).
  destruct (mm_new same_ty (of_int 1) (of_int (2 ^ 53 + 2))) as [s| |]; try discriminate. destruct (mm_reload same_ty s) as [s'| |] eqn:E; try discriminate.
  apply andb_prop in H. exists s, s'. split; [reflexivity|]. split; [exact E|]. exact H.
Qed.

(** C29 *)
Lemma c29_standard : forall {I} (t : numty 53 1024 I) (wm ws : bool) (avg dev : double), is_finite avg = true -> is_finite dev = true -> 0 <= B2R dev ->
  exists s, standard_create wm ws avg dev = Ok s /\ B2R (snd s) <> 0 /\
  (forall x, n_null t x = true -> standard_exec t s x = B754_nan) /\
  (forall x, n_null t x = false -> is_finite (n_cv t x) = true ->
     let centre := if wm then B2R avg else 0 in
     let difference := r64 (B2R (n_cv t x) - centre) in
     Rabs difference < bpow radix2 1024 ->
     (ws = false \/ B2R dev = 0 -> equals (standard_exec t s x) difference) /\
     (ws = true -> B2R dev <> 0 -> Rabs (r64 (difference / B2R dev)) < bpow radix2 1024 -> equals (standard_exec t s x) (r64 (difference / B2R dev)))).
Proof.
  intros I t wm ws avg dev Fa Fd Hd. destruct (standard_ok t wm ws avg dev Fa Fd Hd) as [s [E [Ns [A B]]]]. exists s. split; [exact E|]. split; [exact Ns|].
  split; [exact A|]. intros x Nx Fx. cbv zeta. intros Hlt. specialize (B x Nx Fx). cbv zeta in B. split.
  - intros Hz. assert (Es : (if ws then if Req_bool (B2R dev) 0 then 1 else B2R dev else 1) = 1).
    { destruct ws; [|reflexivity]. destruct Hz as [Hz|Hz]; [discriminate|]. rewrite Req_bool_true by exact Hz. reflexivity. }
    rewrite Es, (unscaled (prec := 53) (emax := 1024)) in B. exact (B Hlt Hlt).
  - intros -> Hnz Hq. rewrite Req_bool_false in B by exact Hnz. exact (B Hlt Hq).
Qed.
