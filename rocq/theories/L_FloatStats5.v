(** A column of equal numbers whose average is refused (a computation of about a minute). *)
From Coq Require Import Reals Lra.
From Coq.Floats Require Import SpecFloat.
From Flocq Require Import Core.Core IEEE754.BinarySingleNaN.
From Verif Require Import Base M_Estimator M_Stats M_Scale M_FloatStats S_Stats.
Open Scope R_scope.

Definition tenth : double := @SF2B 53 1024 (S754_finite false 7205759403792794 (-56)) eq_refl.
Lemma constant_refused : exists x : double, is_finite x = true /\ Rabs (B2R x - 1 / 10) <= bpow radix2 (-57) /\
  trained (fstats_policy (p := 53) (e := 1024) (lp := 53) (le := 1024)) 9 [[x; x; x]] = Throw InvalidArgument /\
  trained (fstats_policy (p := 53) (e := 1024) (lp := 64) (le := 16384)) 9000 [repeat x 8000] = Throw InvalidArgument.
Proof.
  exists tenth. split; [reflexivity|]. split.
  - unfold tenth. rewrite B2R_SF2B. cbn [SF2R cond_Zopp]. unfold F2R. cbn [Fnum Fexp]. change (bpow radix2 (-56)) with (/ 72057594037927936). change (bpow radix2 (-57)) with (/ 144115188075855872).
    apply Rabs_le. lra.
  - split; vm_compute; reflexivity.
Qed.
