(** Specification vocabulary for the training-only estimators (C18-C26). *)
From Verif Require Import Base.

(** [eqb] decides equality and [ltb] is a strict total order: bool, all integer types, strings, and floating point values
    without NaN and with -0.0 and 0.0 identified. *)
Definition total_order {T} (eqb ltb : T -> T -> bool) : Prop :=
  (forall x y, eqb x y = true <-> x = y) /\
  (forall x, ltb x x = false) /\
  (forall x y z, ltb x y = true -> ltb y z = true -> ltb x z = true) /\
  (forall x y, ltb x y = false -> ltb y x = false -> x = y).

(** Number of occurrences. *)
Definition occ {T} (eqb : T -> T -> bool) (x : T) (l : list T) : Z := Z.of_nat (length (filter (eqb x) l)).

(** [n] is the number of distinct values of [l]. *)
Definition distinct_count {T} (l : list T) (n : nat) : Prop :=
  exists d, NoDup d /\ (forall x, In x d <-> In x l) /\ length d = n.

(** [v] appears in [l] before any occurrence of [w]. *)
Definition appears_before {T} (l : list T) (v w : T) : Prop :=
  exists a b, l = a ++ v :: b /\ ~ In w (a ++ [v]).

(** The value positions of optional data. *)
Definition somes {T} (l : list (option T)) : list T := flat_map (fun o => match o with Some v => [v] | None => [] end) l.

(** What an estimator is trained on: the first [max_items] items of all batches together. *)
Definition items {T} (max_items : nat) (batches : list (list T)) : list T := firstn max_items (concat batches).
Definition proper_training {T} (max_items : nat) (batches : list (list T)) : Prop :=
  (1 <= max_items)%nat /\ Forall (fun b => b <> []) batches.

Definition is_min {T} (ltb : T -> T -> bool) (v : T) (l : list T) : Prop := In v l /\ forall x, In x l -> ltb x v = false.
Definition is_max {T} (ltb : T -> T -> bool) (v : T) (l : list T) : Prop := In v l /\ forall x, In x l -> ltb v x = false.

(** Successive time stamps of one grain. *)
Definition grain {K} (keqb : K -> K -> bool) (k : K) (rows : list (K * Z)) : list Z :=
  map snd (filter (fun r => keqb k (fst r)) rows).
Fixpoint gaps (l : list Z) : list Z :=
  match l with
  | a :: ((b :: _) as r) => (b - a) :: gaps r
  | _ => []
  end.
Definition least (f : Z) (l : list Z) : Prop := In f l /\ forall g, In g l -> f <= g.

Definition zsum (l : list Z) : Z := fold_right Z.add 0 l.
Definition prefix {A} (p l : list A) : Prop := exists r, l = p ++ r.

(** Floating point values as far as std::equal_to is concerned: [None] is NaN, which equals nothing. *)
Definition nan_eqb (a b : option Z) : bool := match a, b with Some x, Some y => x =? y | _, _ => false end.
