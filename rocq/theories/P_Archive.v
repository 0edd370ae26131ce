(** C01-C03: properties of the Archive object. *)
From Verif Require Import Base M_Archive S_Archive L_Archive.

(** C01.  Whatever the byte orders of the writing and of the reading host. *)
Theorem C01_scalar_roundtrip : forall (le_w le_r : bool) (base : Z) (vs : list (nat * Z)),
  Forall spec_fits vs ->
  exists bytes a1 a2, ar_write_all le_w ar_new_write vs = Ok a1 /\ ar_commit a1 = Ok (bytes, a2) /\
    bytes = flat_map (fun p => spec_bytes (fst p) (snd p)) vs /\
    forall k, (k <= length vs)%nat ->
      exists a, ar_read_all le_r (ar_new_read base bytes) (map fst (firstn k vs)) = Ok (map snd (firstn k vs), a)
                /\ ar_at_end a = Ok (Nat.eqb k (length vs)).
Proof. exact scalar_roundtrip. Qed.
Print Assumptions C01_scalar_roundtrip.
Example C01_case : Forall spec_fits [(1%nat, 255); (2%nat, 513); (8%nat, 18446744073709551615); (4%nat, 0)].
Proof. repeat constructor; cbn; lia. Qed.

(** C02.  Any history of calls on a reading archive (exceptions caught) keeps the cursor inside the buffer. *)
Theorem C02_cursor_in_bounds : forall le base data ops,
  bytes_ok data = true -> Forall op_valid ops ->
  ~ In RUB (snd (ar_run le (ar_new_read base data) ops)) ->
  let a := fst (ar_run le (ar_new_read base data) ops) in
  ar_mode a = Deserializing /\ ar_buf a = data /\ (ar_pos a <= length data)%nat.
Proof. exact ar_run_cursor. Qed.
Print Assumptions C02_cursor_in_bounds.

(** ... and after any such history a read either consumes exactly its width or throws and consumes nothing. *)
Theorem C02_read_exact : forall le base data ops w,
  bytes_ok data = true -> Forall op_valid ops -> (1 <= w)%nat ->
  ~ In RUB (snd (ar_run le (ar_new_read base data) ops)) ->
  let a := fst (ar_run le (ar_new_read base data) ops) in
  let rest := skipn (ar_pos a) data in
  if Nat.ltb (length rest) w
  then ar_step le a (ORead w) = (a, RThrow RuntimeError)
  else exists v a', ar_step le a (ORead w) = (a', RVal v)
         /\ ar_pos a' = (ar_pos a + w)%nat /\ ar_buf a' = data
         /\ 0 <= v < 256 ^ Z.of_nat w /\ spec_bytes w v = firstn w rest.
Proof. exact read_exact. Qed.
Print Assumptions C02_read_exact.

(** The "no undefined behaviour" hypothesis above holds whenever pointer deltas have 32 bits (all deltas the library
    uses do) and the buffer does not sit in the last 4 GiB of the address space. *)
Theorem C02_no_undefined_behaviour : forall le base data ops,
  bytes_ok data = true -> Forall op_valid ops -> Forall op_small ops ->
  base + Z.of_nat (length data) + 4294967296 <= 18446744073709551616 ->
  ~ In RUB (snd (ar_run le (ar_new_read base data) ops)).
Proof. exact (fun le base data ops H => ar_run_noub le ops (ar_new_read base data) (rd_ok_new base data H)). Qed.
Print Assumptions C02_no_undefined_behaviour.
Example C02_case :
  let ops := [ORead 4; OUpdate 3; OAtEnd; OGetPtr; ORead 1; OUpdate 100; OWrite 1 7] in
  bytes_ok [1;2;3;4;5;6;7;8] = true /\ Forall op_valid ops /\ Forall op_small ops /\
  snd (ar_run true (ar_new_read 4096 [1;2;3;4;5;6;7;8]) ops)
  = [RVal 67305985; RUnit; RBool false; RBytes [8]; RVal 8; RThrow InvalidArgument; RThrow RuntimeError].
Proof. repeat split; repeat constructor; cbn; lia. Qed.

(** C02.  The byte-list parsers all higher layers are modelled with are exactly what the object does. *)
Theorem C02_parser_view_fixed : forall le w a, rd_ok a ->
  match get_fixed w (remaining a) with
  | Ok (v, rest) => exists a', ar_deserialize le w a = Ok (v, a') /\ rd_ok a' /\ remaining a' = rest
                               /\ ar_buf a' = ar_buf a /\ ar_base a' = ar_base a
  | Throw e => ar_deserialize le w a = Throw e
  | UB => False
  end.
Proof. exact get_fixed_refines. Qed.
Print Assumptions C02_parser_view_fixed.

Theorem C02_parser_view_block : forall n a, rd_ok a -> 0 <= n ->
  ar_base a + Z.of_nat (length (ar_buf a)) + n < 18446744073709551616 ->
  match get_block n (remaining a) with
  | Ok (v, rest) => exists a', ar_read_block n a = Ok (v, a') /\ rd_ok a' /\ remaining a' = rest
                               /\ ar_buf a' = ar_buf a /\ ar_base a' = ar_base a
  | Throw e => ar_read_block n a = Throw e
  | UB => False
  end.
Proof. exact get_block_refines. Qed.
Print Assumptions C02_parser_view_block.
Example C02_case2 : rd_ok (mkArchive Deserializing [1;2;3;4;5] 4096 2).
Proof. repeat split; cbn; lia. Qed.

(** C03.  A writing archive answers every history of calls like the specification: commit returns the concatenation of
    what was written since the previous commit, reads are refused and change nothing. *)
Theorem C03_writer : forall le ops, Forall op_valid ops ->
  snd (ar_run le ar_new_write ops) = spec_writer [] ops.
Proof. exact (fun le ops => writer_refines le ops ar_new_write eq_refl). Qed.
Print Assumptions C03_writer.

Theorem C03_reader_refuses_writes : forall le a, ar_mode a = Deserializing ->
  (forall w v, (1 <= w)%nat -> ar_step le a (OWrite w v) = (a, RThrow RuntimeError)) /\
  (forall n d, ar_step le a (OWritePtr n d) = (a, RThrow RuntimeError)) /\
  ar_step le a OCommit = (a, RThrow RuntimeError).
Proof. exact reader_refuses_writes. Qed.
Print Assumptions C03_reader_refuses_writes.

Theorem C03_pointer_constructor : forall p data,
  ar_new_read_ptr p data =
  match p, data with
  | None, [] => Ok (mkArchive Deserializing [] 0 0)
  | Some b, _ :: _ => Ok (ar_new_read b data)
  | _, _ => Throw InvalidArgument
  end.
Proof. exact ptr_ctor_spec. Qed.
Print Assumptions C03_pointer_constructor.
Example C03_case : snd (ar_run false ar_new_write [OWrite 2 258; OWritePtr false [9]; ORead 1; OCommit; OWrite 1 7; OCommit])
  = [RUnit; RUnit; RThrow RuntimeError; RBytes [2;1;9]; RUnit; RBytes [7]].
Proof. reflexivity. Qed.

(** A copy of a reading archive, made after any history: it holds exactly the bytes that were not read yet, and none is made of an archive
    at its end. *)
Theorem C03_clone : forall le base base' data ops, bytes_ok data = true -> Forall op_valid ops -> ~ In RUB (snd (ar_run le (ar_new_read base data) ops)) ->
  let a := fst (ar_run le (ar_new_read base data) ops) in
  ar_clone base' a = match skipn (ar_pos a) data with [] => Throw RuntimeError | rest => Ok (ar_new_read base' rest) end.
Proof.
  intros le base base' data ops Hok HF Hub a. unfold a.
  destruct (ar_run_rd le ops (ar_new_read base data) (rd_ok_new _ _ Hok) HF Hub) as [Ha Hb]. rewrite (clone_spec base' _ Ha). unfold remaining. rewrite Hb. reflexivity.
Qed.
Print Assumptions C03_clone.
