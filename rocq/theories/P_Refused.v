(** C79: errors while training.  A caller catches the exceptions of [fit] and goes on. *)
From Coq Require Import ZArith List.
From Flocq Require Import Core.Core IEEE754.BinarySingleNaN.
From Verif Require Import Base M_Estimator M_Stats M_Pipeline M_Keyed M_Scale M_FloatStats M_FloatScale M_Docs M_Grain M_Errors M_Refused.
From Verif Require Import S_Stats S_Keyed S_Refused L_Estimator L_Refused L_Refused2 L_Refused3 L_Refused4.
Import ListNotations.
Open Scope Z_scope.

(** ** Estimators a refused value leaves as they were. *)
(** Fed one value at a time, such an estimator ends with what training on the accepted values alone gives. *)
Theorem C79_no_trace : forall P In A (t : trainee P In A) (pol : policy P In A), learns_like t pol -> forgetful t ->
  forall max xs, (0 < max)%nat ->
  let (rs, a) := trained_anyway t max (singles xs) in a = trained pol max (singles (accepted xs rs)).
Proof. exact @no_trace. Qed.
(** In batches: of a batch that was refused, what came before the offending value is kept. *)
Theorem C79_batches : forall P In A (t : trainee P In A) (pol : policy P In A), learns_like t pol -> forgetful t ->
  forall max bs, (length (concat bs) < max)%nat -> Forall (fun b => b <> []) bs ->
  let (rs, a) := trained_anyway t max bs in
  (forall q, List.In q rs -> q <> UB) -> exists l, taken pol (p_init pol) bs rs l /\ a = trained pol max (singles l).
Proof. exact @batches_tries. Qed.
(** Which they are. *)
Theorem C79_forgetful : (forall P In A (pol : policy P In A), forgetful (checked_first pol)) /\ forgetful freq_t /\
  (forall K (keqb : K -> K -> bool), forgetful (tsfreq_t keqb)).
Proof. exact (conj (@checked_forgetful) (conj freq_forgetful (@tsfreq_forgetful))). Qed.
Theorem C79_same : (forall P In A (pol : policy P In A), (forall p, p_begin pol p = Ok (p, true)) -> learns_like (checked_first pol) pol) /\
  learns_like freq_t freq_policy /\ (forall K (keqb : K -> K -> bool), learns_like (tsfreq_t keqb) (tsfreq_policy keqb)).
Proof. exact (conj (@checked_like) (conj freq_like (@tsfreq_like))). Qed.
(** So the frequency of a column with time points that go back is that of the column without them. *)
Theorem C79_frequency : forall max xs, (0 < max)%nat ->
  let (rs, a) := trained_anyway freq_t max (singles xs) in a = trained freq_policy max (singles (accepted xs rs)).
Proof. exact (no_trace freq_t freq_policy freq_like freq_forgetful). Qed.
Theorem C79_series_frequency : forall K (keqb : K -> K -> bool) max xs, (0 < max)%nat ->
  let (rs, a) := trained_anyway (tsfreq_t keqb) max (singles xs) in a = trained (tsfreq_policy keqb) max (singles (accepted xs rs)).
Proof. exact (fun K keqb => no_trace (tsfreq_t keqb) (tsfreq_policy keqb) (tsfreq_like keqb) (tsfreq_forgetful keqb)). Qed.

(** ** Any estimator: what it ends with is what its policy made of the values one by one. *)
Theorem C79_estimator : forall P In A (t : trainee P In A) max xs, (0 < max)%nat -> (length xs <= max)%nat ->
  let (rs, a) := trained_anyway t max (singles xs) in
  let (p, qs) := tries t (f_init t) xs in map ending rs = qs /\ a = (do r <- f_complete t p; Ok (Some r)).
Proof. exact @estimator_tries. Qed.

(** ** Statistics of integers: a value refused because the sum would overflow is not in the sum, but counts, also as minimum or maximum. *)
Theorem C79_integer_statistics : forall max xs, (0 < max)%nat -> (length xs <= max)%nat -> Forall (fun x => in_i64 x = true) (somes xs) ->
  Z.of_nat (length xs) < 2 ^ 64 -> somes xs <> [] ->
  let (rs, a) := trained_anyway int_stats_t max (singles xs) in
  exists mn mx, a = Ok (Some (mn, mx, Z.of_nat (length (somes xs)), zsum (somes (accepted xs rs)))) /\
    is_min Z.ltb mn (somes xs) /\ is_max Z.ltb mx (somes xs) /\ Forall (fun r => r <> UB) rs.
Proof. exact int_stats_all. Qed.
Theorem C79_integer_same : learns_like int_stats_t std_stats_policy.
Proof. exact int_stats_like. Qed.

(** ** Statistics of floating point columns. *)
Theorem C79_float_same : forall {p e : Z} {Hp : Prec_gt_0 p} {Hm : Prec_lt_emax p e} {lp le : Z} {HLp : Prec_gt_0 lp} {HLm : Prec_lt_emax lp le},
  learns_like (float_stats_t (p := p) (e := e) (lp := lp) (le := le)) fstats_policy.
Proof. exact (fun p e _ _ lp le HLp HLm => @float_stats_like p e lp le HLp HLm). Qed.
(** Every value that is not NaN counts, accepted or not. *)
Theorem C79_float_count : forall {p e : Z} {Hp : Prec_gt_0 p} {Hm : Prec_lt_emax p e} {lp le : Z} {HLp : Prec_gt_0 lp} {HLm : Prec_lt_emax lp le}
  (xs : list (binary_float p e)), Z.of_nat (length xs) < 2 ^ 64 ->
  snd (fst (fst (tries (float_stats_t (lp := lp) (le := le)) (f_init float_stats_t) xs))) = Z.of_nat (length (filter (fun x => negb (is_nan x)) xs)).
Proof. intros p e Hp Hm lp le HLp HLm xs H. exact (float_stats_count xs (f_init float_stats_t) (Z.le_refl 0) H). Qed.
(** A refused infinity makes the sum infinite, and from then on every finite value is refused. *)
Theorem C79_float_infinity : forall {p e : Z} {Hp : Prec_gt_0 p} {Hm : Prec_lt_emax p e} {lp le : Z} {HLp : Prec_gt_0 lp} {HLm : Prec_lt_emax lp le}
  (s : fstats_state (lp := lp) (le := le)) (x : binary_float p e), is_inf x = true -> snd (fst s) < 18446744073709551615 ->
  snd (after s (f_fit float_stats_t s x)) <> Ok tt ->
  stuck float_stats_t (fst (after s (f_fit float_stats_t s x))) (fun y => is_finite y = true /\ is_finite (convert y : binary_float lp le) = true).
Proof. intros p e Hp Hm lp le HLp HLm s x Hx Hc Hr. exact (float_stats_stuck _ (float_stats_infinite s x Hx Hc Hr)). Qed.

(** ** Norms. *)
(** After a row that was accepted (or none), a row's norm is its own: [norm_of] is that of C30 and C77. *)
Theorem C79_norms : forall {lp le : Z} {HLp : Prec_gt_0 lp} {HLm : Prec_lt_emax lp le} (size finish : binary_float lp le -> binary_float lp le) us row,
  let (s, rs) := tries (norms_t size finish) (f_init (norms_t size finish)) us in
  last rs (Ok tt) = Ok tt ->
  match (do n <- norm_of (fun s x => add_checked s (size x)) finish row; Ok (convert n : double)) with
  | Ok n => exists u, after s (f_fit (norms_t size finish) s row) = ((u, snd s ++ [n]), Ok tt)
  | Throw y => exists u, after s (f_fit (norms_t size finish) s row) = ((u, snd s), Throw y)
  | UB => False
  end.
Proof. exact @norms_after_accepted. Qed.
(** One norm is kept for each row that was accepted. *)
Theorem C79_norms_count : forall {lp le : Z} {HLp : Prec_gt_0 lp} {HLm : Prec_lt_emax lp le} (size finish : binary_float lp le -> binary_float lp le) us,
  let (s, rs) := tries (norms_t size finish) (f_init (norms_t size finish)) us in length (snd s) = length (accepted us rs).
Proof. exact (fun lp le HLp HLm size finish us => norms_per_row size finish us (f_init (norms_t size finish))). Qed.
(** A row with an infinite value is refused, and so is every row with a value right after it, however many. *)
Theorem C79_norms_infinity : forall {lp le : Z} {HLp : Prec_gt_0 lp} {HLm : Prec_lt_emax lp le} us x,
  Forall clean us -> is_inf x = true ->
  (last (snd (tries (l1_t (lp := lp) (le := le)) (f_init l1_t) (us ++ [[Some x]]))) (Ok tt) = Throw RuntimeError /\
   stuck l1_t (fst (tries l1_t (f_init l1_t) (us ++ [[Some x]]))) (fun row => cells row <> [] /\ clean row)) /\
  (last (snd (tries (l2_t (lp := lp) (le := le)) (f_init l2_t) (us ++ [[Some x]]))) (Ok tt) = Throw RuntimeError /\
   stuck l2_t (fst (tries l2_t (f_init l2_t) (us ++ [[Some x]]))) (fun row => cells row <> [] /\ clean row)).
Proof.
  intros lp le HLp HLm us x Hus Hx.
  exact (conj (norms_infinity _ _ abs_nonneg abs_inf us x Hus Hx) (norms_infinity _ _ square_nonneg square_inf us x Hus Hx)).
Qed.

(** ** Standard deviations: refused values leave no trace, or everything after them is refused. *)
Theorem C79_deviation : forall {lp le : Z} {HLp : Prec_gt_0 lp} {HLm : Prec_lt_emax lp le} I (ty : numty 53 1024 I) avg xs, Z.of_nat (length xs) < 2 ^ 64 ->
  let (s, rs) := tries (deviation_t (lp := lp) (le := le) ty avg) (f_init (deviation_t ty avg)) xs in
  foldM (dev_fit ty avg) (f_init (deviation_t ty avg)) (accepted xs rs) = Ok s \/
  stuck (deviation_t ty avg) s (fun x => n_null ty x = false /\ is_nan (fsub (n_cv ty x) avg) = false).
Proof. exact (fun lp le HLp HLm I ty avg xs H => deviation_tries ty avg xs (f_init (deviation_t ty avg)) (dev_inv0 ty avg) H). Qed.
Theorem C79_deviation_same : forall {lp le : Z} {HLp : Prec_gt_0 lp} {HLm : Prec_lt_emax lp le} I (ty : numty 53 1024 I) avg,
  learns_like (deviation_t (lp := lp) (le := le) ty avg) (dev_policy ty avg).
Proof. exact @deviation_like. Qed.

(** ** Grains. *)
(** However the training with a row of one grain ends, the other grains' estimators stay what they were. *)
Theorem C79_grain_isolation : forall K S In Tr (keqb klt : K -> K -> bool), key_order keqb klt -> forall (I : impl S In Tr) s0 m k x k', k' <> k -> k_find keqb (fst (gl_row keqb klt I s0 m (k, x))) k' = k_find keqb m k'.
Proof. exact @grain_isolated. Qed.
(** Over any rows, some refused: each grain's estimator, and how its rows ended, are those of the grain on its own. *)
Theorem C79_grains : forall K S In Tr (keqb klt : K -> K -> bool), key_order keqb klt -> forall (I : impl S In Tr) s0,
  snd (begin_training I (est_new s0)) = Ok tt -> forall rows k,
  let (m, rs) := gl_rows keqb klt I s0 [] rows in
  k_find keqb m k = fst (on_its_own I s0 (of_grain keqb k rows)) /\
  of_grain keqb k (combine (map fst rows) rs) = snd (on_its_own I s0 (of_grain keqb k rows)).
Proof. exact @grain_on_its_own. Qed.
Theorem C79_grain_same : forall K S In Tr (keqb klt : K -> K -> bool), key_order keqb klt -> forall (I : impl S In Tr) s0 m k x,
  match snd (keyed_exec keqb klt (ge_step I s0) m (k, x)) with
  | Ok m2 => snd (gl_row keqb klt I s0 m (k, x)) = Ok tt /\ forall k', k_find keqb (fst (gl_row keqb klt I s0 m (k, x))) k' = k_find keqb m2 k'
  | Throw y => snd (gl_row keqb klt I s0 m (k, x)) = Throw y
  | UB => snd (gl_row keqb klt I s0 m (k, x)) = UB
  end.
Proof. exact @gl_row_ge. Qed.

(** ** What is not promised. *)
(** A refused integer is counted: the average is of two values over three. *)
Theorem C79_integer_refuted : let xs := [Some i64_max; Some 1; Some (-1)] in
  let (rs, a) := trained_anyway int_stats_t 9 (singles xs) in
  map accepts rs = [true; false; true] /\ a = Ok (Some (-1, i64_max, 3, i64_max - 1)) /\
  trained std_stats_policy 9 (singles (accepted xs rs)) = Ok (Some (-1, i64_max, 2, i64_max - 1)).
Proof. vm_compute. repeat split; reflexivity. Qed.

Definition num (z : Z) : double := binary_normalize 53 1024 eq_refl eq_refl mode_NE z 0 false.
Definition cell (z : Z) : option (binary_float 64 16384) := Some (binary_normalize 64 16384 eq_refl eq_refl mode_NE z 0 false).
Definition norms_shown (r : res (option (list double))) : res (option (list SpecFloat.spec_float)) := do o <- r; Ok (option_map (map B2SF) o).
(** A row refused half-way (next to 2^70 the 1 would vanish) is part of the next row's norm. *)
Theorem C79_norms_refuted : let rows := [[cell 5; cell (2 ^ 70); cell 1]; [cell (2 ^ 60); cell (2 ^ 61)]] in
  let (rs, a) := trained_anyway (l1_t (lp := 64) (le := 16384)) 9 (singles rows) in
  map accepts rs = [false; true] /\ norms_shown a = Ok (Some [B2SF (num (2 ^ 70 + 2 ^ 60 + 2 ^ 61))]) /\
  norms_shown (snd (trained_anyway (l1_t (lp := 64) (le := 16384)) 9 (singles (accepted rows rs)))) = Ok (Some [B2SF (num (2 ^ 60 + 2 ^ 61))]).
Proof. vm_compute. repeat split; reflexivity. Qed.
(** ... and a row without any value, which is otherwise refused, is accepted after a refused one and gets its leftovers. *)
Theorem C79_empty_row_refuted : let rows := [[None]; [cell 5; Some (B754_infinity false)]; [None]; [cell 3]] in
  let (rs, a) := trained_anyway (l1_t (lp := 64) (le := 16384)) 9 (singles rows) in
  map accepts rs = [false; false; true; true] /\ norms_shown a = Ok (Some [SpecFloat.S754_infinity false; B2SF (num 3)]).
Proof. vm_compute. repeat split; reflexivity. Qed.
(** After a refused infinity the opposite one is accepted, and the average is not a number. *)
Theorem C79_infinities_refuted : let xs := [num 1; B754_infinity false; B754_infinity true; num 2] : list double in
  let (rs, a) := trained_anyway (float_stats_t (p := 53) (e := 1024) (lp := 64) (le := 16384)) 9 (singles xs) in
  map accepts rs = [true; false; true; true] /\
  match a with Ok (Some r) => fr_count r = 4 /\ B2SF (fr_average r) = SpecFloat.S754_nan | _ => False end.
Proof. vm_compute. repeat split; reflexivity. Qed.
(** A corrected batch cannot be passed again: what it began with was taken the first time. *)
Theorem C79_retry_refuted : let (rs, a) := trained_anyway freq_t 9 [[10; 20; 5; 30]; [10; 20; 30]] in
  rs = [Throw RuntimeError; Throw RuntimeError] /\ a = Ok (Some 10) /\ fst (trained_anyway freq_t 9 [[10; 20; 30]]) = [Ok FitContinue].
Proof. vm_compute. repeat split; reflexivity. Qed.
(** The values taken from a refused batch are not counted: an estimator that should look at no more than 3 values takes 4. *)
Theorem C79_limit_refuted : let (rs, a) := trained_anyway freq_t 3 [[10; 20; 5]; [27; 33]; [36]] in
  rs = [Throw RuntimeError; Ok FitContinue; Ok FitComplete] /\ a = Ok (Some 3) /\ trained freq_policy 3 [[10; 20]; [27; 33]; [36]] = Ok (Some 7).
Proof. vm_compute. repeat split; reflexivity. Qed.

(** ** The hypotheses are met. *)
Example C79_example : let (rs, a) := trained_anyway freq_t 9 (singles [10; 30; 25; 42; 42; 60]) in
  map accepts rs = [true; true; false; true; false; true] /\ a = Ok (Some 12) /\
  accepted [10; 30; 25; 42; 42; 60] rs = [10; 30; 42; 60].
Proof. vm_compute. repeat split; reflexivity. Qed.
Example C79_deviation_example : let xs := [num 1; B754_nan; num 3] in
  let (s, rs) := tries (deviation_t (lp := 64) (le := 16384) double_column (num 2)) (f_init (deviation_t double_column (num 2))) xs in
  map accepts rs = [true; true; true] /\ snd s = 2.
Proof. vm_compute. repeat split; reflexivity. Qed.
Example C79_grain_example : let I := learner freq_t in let s0 := tonly_new (shell freq_t) 9 true None in
  snd (begin_training I (est_new s0)) = Ok tt /\
  let (m, rs) := gl_rows Z.eqb Z.ltb I s0 [] [(1, 10); (2, 50); (1, 5); (2, 60); (1, 13)] in
  map accepts rs = [true; true; false; true; true] /\ map (fun kv => (fst kv, t_pol (e_impl (snd kv)))) m = [(1, (3, Some 13)); (2, (10, Some 60))].
Proof. vm_compute. repeat split; reflexivity. Qed.
