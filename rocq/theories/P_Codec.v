(** C04-C07: properties of Traits<T>::serialize / deserialize. *)
From Flocq Require IEEE754.Bits IEEE754.Binary.
From Verif Require Import Base M_Archive M_Codec L_Codec L_Codec2 L_FloatKeys.

(** C04.  [t] ranges over all supported types, nested to any depth. *)
Theorem C04_roundtrip : forall (t : ty) (v : val) (further : list Z),
  wt t v = true -> dec t (enc t v ++ further) = Ok (v, further).
Proof. exact dec_roundtrip. Qed.
Print Assumptions C04_roundtrip.

Definition C04_ty : ty :=
  TPair (TMap TString (TVector (TOption (TSInt 2)))) (TPair (TColMaj (TUInt 1)) (TPair (TUMap (TUInt 8) (TFloat 8)) (TPair (TArray 2 TBool) TUnit))).
Definition C04_val : val :=
  VPair (VMap [(VStr [97], VList [VOpt None; VOpt (Some (VInt (-5)))]); (VStr [97; 0], VList [])])
    (VPair (VMat 2 3 (map VInt [1;2;3;4;5;6]))
       (VPair (VMap [(VInt 18446744073709551615, VFloat 9221120237041090560); (VInt 3, VFloat 1)])
          (VPair (VList [VBool true; VBool false]) VUnit))).
Example C04_case : wt C04_ty C04_val = true /\ length (enc C04_ty C04_val) = 87%nat
  /\ firstn 24 (skipn 27 (enc C04_ty C04_val)) = [2;0;0;0;0;0;0;0; 3;0;0;0;0;0;0;0; 1;4;2;5;3;6; 2;0].
Proof. repeat split; vm_compute; reflexivity. Qed.

(** The bound on container sizes is needed: a string of 2^32 characters is written with length 0. *)
Theorem C04_without_size_bound_refuted : exists s, bytes_ok s = true /\ Z.of_nat (length s) = 4294967296 /\
  dec TString (enc TString (VStr s)) <> Ok (VStr s, []).
Proof. exact string_too_long. Qed.
Print Assumptions C04_without_size_bound_refuted.

(** The order and the equality that distinguish the floating point keys of maps and sets are those of IEEE 754 (with NaN equal to
    NaN in the unordered containers), for the numbers that the saved bit patterns stand for. *)
Theorem C04_float_keys : forall x y, 0 <= x < 2 ^ 32 -> 0 <= y < 2 ^ 32 ->
  let c := Binary.Bcompare 24 128 (Bits.b32_of_bits x) (Bits.b32_of_bits y) in
  (key_lt (TFloat 4) (VFloat x) (VFloat y) = true <-> c = Some Lt) /\
  (key_eq (TFloat 4) (VFloat x) (VFloat y) = true <->
     c = Some Eq \/ (Binary.is_nan 24 128 (Bits.b32_of_bits x) = true /\ Binary.is_nan 24 128 (Bits.b32_of_bits y) = true)).
Proof. exact float_keys. Qed.
Print Assumptions C04_float_keys.
Theorem C04_double_keys : forall x y, 0 <= x < 2 ^ 64 -> 0 <= y < 2 ^ 64 ->
  let c := Binary.Bcompare 53 1024 (Bits.b64_of_bits x) (Bits.b64_of_bits y) in
  (key_lt (TFloat 8) (VFloat x) (VFloat y) = true <-> c = Some Lt) /\
  (key_eq (TFloat 8) (VFloat x) (VFloat y) = true <->
     c = Some Eq \/ (Binary.is_nan 53 1024 (Bits.b64_of_bits x) = true /\ Binary.is_nan 53 1024 (Bits.b64_of_bits y) = true)).
Proof. exact double_keys. Qed.
Print Assumptions C04_double_keys.
(** Minus zero equals zero, minus one is below one half, NaN with whatever payload is NaN. *)
Example C04_keys_case : key_eq (TFloat 4) (VFloat 0) (VFloat 2147483648) = true /\ key_lt (TFloat 4) (VFloat 3212836864) (VFloat 1056964608) = true /\
  key_eq (TFloat 8) (VFloat 9221120237041090560) (VFloat 18444492273895866369) = true /\ key_lt (TFloat 8) (VFloat 9221120237041090560) (VFloat 0) = false.
Proof. repeat split. Qed.

(** C06.  Every proper prefix [p] of a serialized value is rejected. *)
Theorem C06_truncation_rejected : forall t v p s,
  wt t v = true -> enc t v = p ++ s -> s <> [] -> throws (dec t p).
Proof. exact dec_truncated. Qed.
Print Assumptions C06_truncation_rejected.
Example C06_case : let b := enc C04_ty C04_val in b = firstn 86 b ++ skipn 86 b /\ skipn 86 b <> [].
Proof. vm_compute. split; [reflexivity|discriminate]. Qed.

(** C07. *)
Theorem C07_injective_and_prefix_free : forall t v1 v2 s,
  wt t v1 = true -> wt t v2 = true -> enc t v2 = enc t v1 ++ s -> v1 = v2 /\ s = [].
Proof. exact enc_prefix_free. Qed.
Print Assumptions C07_injective_and_prefix_free.

(** C05.  [p]: clock ticks per microsecond (1000 on libstdc++, 10 on MSVC, 1 on libc++); [ticks] any 64-bit count. *)
Theorem C05_duration_roundtrip : forall p ticks further, 0 < p -> in_i64 ticks = true ->
  exists ticks', dec_sysdur p (enc_sysdur p ticks ++ further) = Ok (ticks', further) /\
  (p | ticks') /\ Z.abs (ticks - ticks') < p /\
  (0 <= ticks -> 0 <= ticks' <= ticks) /\ (ticks <= 0 -> ticks <= ticks' <= 0) /\ ((p | ticks) -> ticks' = ticks).
Proof. exact (fun p ticks r Hp Hi => ex_intro _ _ (conj (sysdur_roundtrip p ticks r Hp Hi) (quot_mul_spec ticks p Hp))). Qed.
Print Assumptions C05_duration_roundtrip.

(** [q]: clock ticks per second. *)
Theorem C05_time_point_roundtrip : forall q ticks further, 0 < q -> in_i64 ticks = true ->
  exists ticks', dec_systp q (enc_systp q ticks ++ further) = Ok (ticks', further) /\
  (q | ticks') /\ Z.abs (ticks - ticks') < q /\
  (0 <= ticks -> 0 <= ticks' <= ticks) /\ (ticks <= 0 -> ticks <= ticks' <= 0) /\ ((q | ticks) -> ticks' = ticks).
Proof. exact (fun q ticks r Hq Hi => ex_intro _ _ (conj (systp_roundtrip q ticks r Hq Hi) (quot_mul_spec ticks q Hq))). Qed.
Print Assumptions C05_time_point_roundtrip.
Example C05_case : in_i64 (-1234567) = true /\ dec_sysdur 1000 (enc_sysdur 1000 (-1234567)) = Ok (-1234000, [])
  /\ dec_systp 1000000000 (enc_systp 1000000000 1600000000123456789) = Ok (1600000000000000000, []).
Proof. vm_compute. auto. Qed.

(** C59.  Whatever bytes are read, a value that comes out is well formed; hence it can be saved and read back. *)
Theorem C59_only_well_formed_values : forall t bs v rest,
  good_ty t = true -> bytes_ok bs = true -> dec t bs = Ok (v, rest) -> wt t v = true.
Proof. exact dec_well_formed. Qed.
Print Assumptions C59_only_well_formed_values.
Theorem C59_resave : forall t bs v rest further,
  good_ty t = true -> bytes_ok bs = true -> dec t bs = Ok (v, rest) -> dec t (enc t v ++ further) = Ok (v, further).
Proof. exact dec_enc_dec. Qed.
Print Assumptions C59_resave.
(** A map with a repeated and an out-of-order key, as no writer produces it: the first entry of a key stays, keys sorted. *)
Example C59_case : good_ty (TMap (TUInt 1) TBool) = true /\ dec (TMap (TUInt 1) TBool) [3;0;0;0; 9;1; 4;0; 9;0; 77] = Ok (VMap [(VInt 4, VBool false); (VInt 9, VBool true)], [77]).
Proof. split; reflexivity. Qed.
