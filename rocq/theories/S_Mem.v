(** What it means that a C function hands memory over to its caller, and that the caller can give it back. *)
From Verif Require Import Base M_Date M_Mem.
Open Scope Z_scope.

(** Arrays in use have different addresses; an allocator answers with an unused address, if at all. *)
Definition well (h : heap) : Prop := NoDup (map fst h).
Definition allocator (place : nat -> list Z -> option Z) : Prop := forall t live a, place t live = Some a -> ~ In a live.
(** Memory never runs out. *)
Definition generous (place : nat -> list Z -> option Z) : Prop := forall t live, place t live <> None.

(** What is seen in memory through a pointer: exactly these cells; a zero-terminated string; cells followed by others. *)
Definition array_at (h : heap) (p : option Z) (cells : list cell) : Prop := exists a, p = Some a /\ In (a, cells) h.
Definition string_at (h : heap) (p : option Z) (s : list Z) : Prop := array_at h p (map Num s ++ [Num 0]).
Definition cells_at (h : heap) (p : option Z) (cells : list cell) : Prop := exists rest, array_at h p (cells ++ rest).
Definition text_at (h : heap) (p : option Z) (s : list Z) : Prop := ~ In 0 s /\ cells_at h p (map Num s ++ [Num 0]).
(** Results: an empty string is a null pointer. *)
Definition string_or_null (h : heap) (p : option Z) (s : list Z) : Prop :=
  match s with [] => p = None | _ => string_at h p s end.
(** [f] holds of corresponding elements. *)
Fixpoint matched {A B} (f : A -> B -> Prop) (l : list A) (m : list B) : Prop :=
  match l, m with [], [] => True | x :: r, y :: s => f x y /\ matched f r s | _, _ => False end.

Section Spec.
  Variable place : nat -> list Z -> option Z.
  Variable what : list Z.

  (** When [out] returns true with [o], some arrays are new and they are all that changed.  As long as nobody touches these arrays,
      whatever else happens to the memory, [shows] holds, and [destroy] returns true and removes exactly these arrays. *)
  Definition handed_over {O : Type} (out : act O) (destroy : O -> act unit) (shows : heap -> O -> Prop) : Prop :=
    forall w w' o, well (m_heap w) -> api place what out w = (w', Returned o) ->
    exists owned,
      m_heap w' = owned ++ m_heap w /\ well (m_heap w') /\
      forall w2, well (m_heap w2) -> incl owned (m_heap w2) ->
        shows (m_heap w2) o /\
        exists w3, api place what (destroy o) w2 = (w3, Returned tt) /\ well (m_heap w3) /\
          forall a b, In (a, b) (m_heap w3) <-> In (a, b) (m_heap w2) /\ ~ In (a, b) owned.

  (** The function ends: it returns true, or memory ran out.  Then nothing of the caller's is changed. *)
  Definition ends {O : Type} (out : act O) : Prop :=
    forall w, well (m_heap w) ->
    match api place what out w with
    | (w', Returned _) => True
    | (w', Refused e) => ~ generous place /\ well (m_heap w') /\ exists more, m_heap w' = (e, map Num what) :: more ++ m_heap w
    | (w', Escaped) => ~ generous place /\ well (m_heap w') /\ exists more, m_heap w' = more ++ m_heap w
    | (_, Crashed) => False
    end.
  (** Nothing is left behind when memory runs out, at whatever allocation that happens. *)
  Definition leaks_nothing {O : Type} (out : act O) : Prop :=
    forall w, well (m_heap w) ->
    match api place what out w with
    | (w', Refused e) => m_heap w' = (e, map Num what) :: m_heap w
    | (w', Escaped) => m_heap w' = m_heap w
    | _ => True
    end.
End Spec.

(** What the caller sees of the results. *)
Definition shows_time (t : time_fields) (h : heap) (c : c_time) : Prop :=
  c_numbers c = [year t; month t; day t; hour t; minute t; second t; am_pm t; hour12 t; day_of_week t; day_of_quarter t;
                 day_of_year t; week_of_month t; quarter_of_year t; half_of_year t; week_iso t; year_iso t; is_paid_time_off t] /\
  string_or_null h (c_month c) (month_label t) /\ string_or_null h (c_am_pm c) (am_pm_label t) /\
  string_or_null h (c_day c) (day_of_week_label t) /\ string_or_null h (c_holiday c) (holiday_name t).

Definition shows_sparse (n : Z) (vs : list (Z * Z)) (h : heap) (o : Z * nat * Z * Z) : Prop :=
  let '(elements, count, values, indexes) := o in
  elements = n /\ count = length vs /\
  array_at h (Some values) (map (fun p => Num (fst p)) vs) /\ array_at h (Some indexes) (map (fun p => Num (snd p)) vs).

Definition shows_matrix (m : matrix) (h : heap) (o : nat * nat * Z) : Prop :=
  let '(cols, rows, data) := o in
  cols = m_cols m /\ rows = m_rows m /\ array_at h (Some data) (map Num (m_data m)).

Definition shows_numbers (l : list Z) (h : heap) (o : option Z * nat) : Prop :=
  snd o = length l /\ match l with [] => fst o = None | _ => array_at h (fst o) (map Num l) end.

Definition shows_strings (l : list (list Z)) (h : heap) (o : option Z * nat) : Prop :=
  snd o = length l /\
  match l with
  | [] => fst o = None
  | _ => exists ps, array_at h (fst o) (map Ptr ps) /\ matched (string_or_null h) ps l
  end.

Definition shows_rows (l : list (list Z)) (h : heap) (o : option Z * option Z * nat) : Prop :=
  let '(arrays, sizes, count) := o in
  count = length l /\
  match l with
  | [] => arrays = None /\ sizes = None
  | _ => exists ps, array_at h arrays (map Ptr ps) /\ array_at h sizes (map (fun r => Num (Z.of_nat (length r))) l) /\
                    matched (fun p r => match r with [] => p = None | _ => array_at h p (map Num r) end) ps l
  end.

(** A matrix has rows * columns numbers, and some. *)
Definition proper_matrix (m : matrix) : Prop :=
  m_rows m <> O /\ m_cols m <> O /\ length (m_data m) = (m_rows m * m_cols m)%nat.

Definition shows_lags (l : list (list (list Z) * matrix)) (h : heap) (o : option lag_arrays * nat) : Prop :=
  snd o = length l /\
  match l with
  | [] => fst o = None
  | _ => exists g ps qs, fst o = Some g /\
      array_at h (Some (g_names g)) (map Ptr ps) /\
      array_at h (Some (g_sizes g)) (map (fun x => Num (Z.of_nat (length (fst x)))) l) /\
      array_at h (Some (g_cols g)) (map (fun x => Num (Z.of_nat (m_cols (snd x)))) l) /\
      array_at h (Some (g_rows g)) (map (fun x => Num (Z.of_nat (m_rows (snd x)))) l) /\
      array_at h (Some (g_data g)) (map Ptr qs) /\
      matched (fun p x => exists names, array_at h p (map Ptr names) /\ matched (string_at h) names (fst x)) ps l /\
      matched (fun q x => array_at h q (map Num (m_data (snd x)))) qs l
  end.

Definition shows_bytes (l : list Z) (h : heap) (o : Z * nat) : Prop :=
  snd o = length l /\ array_at h (Some (fst o)) (map Num l).

Definition shows_countries (l : list (list Z)) (h : heap) (o : option Z * nat) : Prop :=
  snd o = length l /\
  match l with
  | [] => fst o = None
  | _ => exists ps, array_at h (fst o) (map Ptr ps) /\ matched (string_at h) ps l
  end.

(* ---------------------------------------------------------------- arguments ---------------------------------------------------- *)

(** What the memory that the caller passes describes.  Arrays may be longer than is said. *)
Definition number_or_missing (h : heap) (p : option Z) (x : option Z) : Prop :=
  match x with None => p = None | Some z => cells_at h p [Num z] end.
Definition text_or_missing (h : heap) (p : option Z) (x : option (list Z)) : Prop :=
  match x with None => p = None | Some s => text_at h p s end.
Definition numbers_at (h : heap) (p : option Z) (l : list Z) : Prop := cells_at h p (map Num l).
(** An array of pointers to things that [f] describes. *)
Definition pointers_at {A} (f : heap -> option Z -> A -> Prop) (h : heap) (p : option Z) (l : list A) : Prop :=
  exists ps, cells_at h p (map Ptr ps) /\ matched (f h) ps l.
Definition grains_at (h : heap) (names sizes numbers : option Z) (l : list (list (list Z) * Z)) : Prop :=
  pointers_at (pointers_at text_at) h names (map fst l) /\
  numbers_at h sizes (map (fun x => Z.of_nat (length (fst x))) l) /\
  numbers_at h numbers (map snd l).
Definition matrices_at (h : heap) (cols rows data : option Z) (l : list matrix) : Prop :=
  numbers_at h cols (map (fun m => Z.of_nat (m_cols m)) l) /\
  numbers_at h rows (map (fun m => Z.of_nat (m_rows m)) l) /\
  pointers_at numbers_at h data (map m_data l).
Definition matrix_rows_at (h : heap) (cols rows data : option Z) (l : list (list matrix)) : Prop :=
  exists ts : list (option Z * option Z * option Z),
    cells_at h cols (map (fun t => Ptr (fst (fst t))) ts) /\ cells_at h rows (map (fun t => Ptr (snd (fst t))) ts) /\
    cells_at h data (map (fun t => Ptr (snd t)) ts) /\
    matched (fun t ms => matrices_at h (fst (fst t)) (snd (fst t)) (snd t) ms) ts l.

(** Reading: the memory stays as it is. *)
Definition reads {A} (m : act A) (w : mem) (x : A) : Prop := m w = (w, Done x).
Definition reads_only {A} (m : act A) : Prop := forall w, fst (m w) = w.
Definition refuses {A} (m : act A) : Prop := forall w, m w = (w, Failed InvalidArgument).
