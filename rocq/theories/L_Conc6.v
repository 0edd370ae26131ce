(** Carrying out a given schedule (for examples). *)
From Verif Require Import Base M_PointerTable M_PtConc M_Estimator M_CApi S_CApi L_CApi M_Conc S_PtConc S_Conc L_PtConc L_Conc5.
Open Scope Z_scope.

Section Schedule.
  Context {S In Tr Arg Val : Type}.
  Variable I : impl S In Tr.
  Variable construct : res S.
  Variable value_of : Arg -> res In.
  Variable save_tr : Tr -> res (list Z).
  Variable load_tr : list Z -> res Tr.
  Variable exec_one : Tr -> In -> Tr * res Val.
  Variable exec_many : Tr -> In -> Tr * res (list (list Z)).
  Variable flush_many : Tr -> Tr * res (list (list Z)).
  Variable what : exn -> list Z.
  Notation prog := (@prog S Tr Val).
  Notation conf := (@conf S Tr Val).
  Notation event := (@event Arg Val).
  Notation PROGRAM := (@program S In Tr Arg Val I construct value_of save_tr load_tr exec_one exec_many flush_many what).
  Notation CSTEP := (@cstep S In Tr Arg Val I construct value_of save_tr load_tr exec_one exec_many flush_many what).
  Notation CRUNS := (@cruns S In Tr Arg Val I construct value_of save_tr load_tr exec_one exec_many flush_many what).

  (** A call begins, or a thread makes a step; [n] is the address or the handle if one is chosen. *)
  Inductive turn := Start (i : nat) (er : bool) (c : @call Arg) | Turn (i : nat) (n : Z).
  Definition heap_turn (hp : list (Z * @obj S Tr)) (p : prog) (n : Z) : option (list (Z * @obj S Tr) * prog) :=
    match p with
    | New o k => if n =? 0 then None else match h_find hp n with None => Some ((n, o) :: hp, k n) | Some _ => None end
    | Read a k => match h_find hp a with Some o => Some (hp, k o) | None => Some (hp, Ret CUB) end
    | Write a o k => match h_find hp a with Some _ => Some (h_store hp a o, k) | None => Some (hp, Ret CUB) end
    | Delete a k => match h_find hp a with Some _ => Some (h_free hp a, k) | None => Some (hp, Ret CUB) end
    | _ => None
    end.
  Lemma heap_turn_ok hp p n hp' p' : heap_turn hp p n = Some (hp', p') -> heap_move (hp, p) (hp', p').
  Proof using.
    destruct p as [x|o k|a k|a o k|a k|o k]; cbn [heap_turn]; try discriminate.
    - destruct (Z.eqb_spec n 0) as [E|E]; [discriminate|]. destruct (h_find hp n) eqn:F; [discriminate|]. intros [= <- <-]. constructor; assumption.
    - destruct (h_find hp a) eqn:F; intros [= <- <-]; [apply do_read|apply bad_read]; assumption.
    - destruct (h_find hp a) eqn:F; intros [= <- <-]; [eapply do_write|apply bad_write]; eassumption.
    - destruct (h_find hp a) eqn:F; intros [= <- <-]; [eapply do_delete|apply bad_delete]; eassumption.
  Qed.
  Definition table_turn (i : nat) (l : option nat) (t : ptable) (q : tpc) (n : Z) : option (option nat * ptable * tpc) :=
    match q with
    | Entered o => if bad_argument o then Some (l, t, Left (Throw InvalidArgument)) else Some (l, t, Waiting o)
    | Waiting o => match l with None => Some (Some i, t, Inside o) | Some _ => None end
    | Inside (TAdd p) => if (1 <=? n) && (n <? 18446744073709551616) then match pt_find t n with None => Some (l, t, Chosen p n) | Some _ => Some (l, t, Inside (TAdd p)) end else None
    | Inside (TGet h) => Some (l, t, Leaving (match pt_find t h with None => Throw InvalidArgument | Some p => Ok p end))
    | Inside (TRemove h) => match pt_find t h with None => Some (l, t, Leaving (Throw InvalidArgument)) | Some _ => Some (l, t, Erasing h) end
    | Chosen p d => Some (l, (d, p) :: t, Leaving (Ok d))
    | Erasing h => Some (l, pt_erase t h, Leaving (Ok 0))
    | Leaving r => Some (None, t, Left r)
    | Left _ => None
    end.
  Lemma table_turn_ok i l t q n l' t' q' : table_turn i l t q n = Some (l', t', q') -> table_move i (l, t, q) (l', t', q').
  Proof using.
    destruct q as [o|o|[p|h|h]|p d|h|r|r]; cbn [table_turn]; try discriminate.
    - destruct (bad_argument o) eqn:B; intros [= <- <- <-]; constructor; exact B.
    - destruct l; [discriminate|]. intros [= <- <- <-]. constructor.
    - destruct ((1 <=? n) && (n <? 18446744073709551616)) eqn:B; [|discriminate]. apply andb_prop in B as [B1 B2]. apply Z.leb_le in B1. apply Z.ltb_lt in B2.
      destruct (pt_find t n) eqn:F; intros [= <- <- <-]; [eapply move_redraw|apply move_draw]; eauto.
    - intros [= <- <- <-]. constructor.
    - destruct (pt_find t h) eqn:F; intros [= <- <- <-]; [eapply move_hit|apply move_miss]; eassumption.
    - intros [= <- <- <-]. constructor.
    - intros [= <- <- <-]. constructor.
    - intros [= <- <- <-]. constructor.
  Qed.
  Definition take (c : conf) (x : turn) : option (conf * list event) :=
    match x with
    | Start i er f => match c_threads c i with Idle => Some (mkConf (c_lock c) (c_table c) (c_heap c) (put (c_threads c) i (At (PROGRAM er f))), [Begins i er f]) | _ => None end
    | Turn i n =>
        match c_threads c i with
        | Idle => None
        | At (Ret x) => Some (mkConf (c_lock c) (c_table c) (c_heap c) (put (c_threads c) i Idle), [Returns i x])
        | At (Table o k) => Some (mkConf (c_lock c) (c_table c) (c_heap c) (put (c_threads c) i (In_table (Entered o) k)), [])
        | At p => match heap_turn (c_heap c) p n with Some (hp', p') => Some (mkConf (c_lock c) (c_table c) hp' (put (c_threads c) i (At p')), []) | None => None end
        | In_table (Left r) k => Some (mkConf (c_lock c) (c_table c) (c_heap c) (put (c_threads c) i (At (k r))), [])
        | In_table q k => match table_turn i (c_lock c) (c_table c) q n with Some (l', t', q') => Some (mkConf l' t' (c_heap c) (put (c_threads c) i (In_table q' k)), []) | None => None end
        end
    end.
  Lemma take_ok c x c' es : take c x = Some (c', es) -> CSTEP c es c'.
  Proof using.
    destruct x as [i er f|i n]; cbn [take].
    - destruct (c_threads c i) eqn:E; try discriminate. intros [= <- <-]. constructor. exact E.
    - destruct (c_threads c i) as [|p|q k] eqn:E; [discriminate| |].
      + destruct p as [x|o k|a k|a o k|a k|o k]; try (intros [= <- <-]; constructor; exact E);
          (destruct (heap_turn (c_heap c) _ n) as [[hp' p']|] eqn:H; [|discriminate]; intros [= <- <-]; eapply c_heap_step; [exact E|exact (heap_turn_ok _ _ _ _ _ H)]).
      + destruct q as [o|o|o|p d|h|r|r]; try (intros [= <- <-]; constructor; exact E);
          (destruct (table_turn i (c_lock c) (c_table c) _ n) as [[[l' t'] q']|] eqn:H; [|discriminate]; intros [= <- <-]; eapply c_table_step; [exact E|exact (table_turn_ok _ _ _ _ _ _ _ _ H)]).
  Qed.
  Fixpoint carry_out (c : conf) (l : list turn) {struct l} : option (conf * list event) :=
    match l with
    | [] => Some (c, [])
    | x :: r => match take c x with None => None | Some (c', es) => match carry_out c' r with None => None | Some (c2, es2) => Some (c2, es ++ es2) end end
    end.
  Lemma carry_out_ok l : forall c c' es, carry_out c l = Some (c', es) -> CRUNS c es c'.
  Proof using.
    induction l as [|x l IH]; intros c c' es; cbn [carry_out]; [intros [= <- <-]; apply cruns_none|].
    destruct (take c x) as [[c1 es1]|] eqn:E; [|discriminate]. destruct (carry_out c1 l) as [[c2 es2]|] eqn:F; [|discriminate]. intros [= <- <-].
    eapply cruns_trans; [apply cruns_one; exact (take_ok _ _ _ _ E)|exact (IH _ _ _ F)].
  Qed.
End Schedule.
