(** Specification for C87: when two values are the same, to a user. *)
From Coq Require Import Permutation.
From Verif Require Import Base M_Archive M_Codec M_Save.

(** No floating point number in it is a NaN. *)
Fixpoint numeric (t : ty) (v : val) {struct t} : bool :=
  match t, v with
  | TFloat w, VFloat x => negb (f_nan w x)
  | (TVector t' | TArray _ t'), VList l => forallb (numeric t') l
  | (TMap k x | TUMap k x), VMap l => forallb (fun p => numeric k (fst p) && numeric x (snd p)) l
  | TUSet k, VSet l => forallb (numeric k) l
  | TPair t1 t2, VPair a b => numeric t1 a && numeric t2 b
  | TOption t', VOpt (Some x) => numeric t' x
  | _, _ => true
  end.

(** The same value: numbers are equal (-0 is 0: [f_key] is the same), sequences element by element, unordered containers in some order. *)
Fixpoint alike (t : ty) (a b : val) {struct t} : Prop :=
  match t, a, b with
  | TBool, VBool x, VBool y => x = y
  | (TUInt _ | TSInt _), VInt x, VInt y => x = y
  | TFloat w, VFloat x, VFloat y => f_key w x = f_key w y
  | TString, VStr x, VStr y => x = y
  | (TVector t' | TArray _ t'), VList x, VList y => Forall2 (alike t') x y
  | TMap k x, VMap l, VMap l' => Forall2 (fun p q => alike k (fst p) (fst q) /\ alike x (snd p) (snd q)) l l'
  | TUMap k x, VMap l, VMap l' => exists m, Permutation l m /\ Forall2 (fun p q => alike k (fst p) (fst q) /\ alike x (snd p) (snd q)) m l'
  | TUSet k, VSet l, VSet l' => exists m, Permutation l m /\ Forall2 (alike k) m l'
  | TUnit, VUnit, VUnit => True
  | TPair t1 t2, VPair a1 a2, VPair b1 b2 => alike t1 a1 b1 /\ alike t2 a2 b2
  | TOption t', VOpt None, VOpt None => True
  | TOption t', VOpt (Some x), VOpt (Some y) => alike t' x y
  | _, _, _ => False
  end.

(** Types that may be keys of the library's unordered containers; types that can be compared: without matrices. *)
Fixpoint keyable (t : ty) : bool :=
  match t with
  | TBool | TUInt _ | TSInt _ | TFloat _ | TString | TUnit => true
  | TArray _ t' | TVector t' | TOption t' => keyable t'
  | TPair a b => keyable a && keyable b
  | _ => false
  end.
Fixpoint comparable (t : ty) : bool :=
  match t with
  | TArray _ t' | TVector t' | TOption t' => comparable t'
  | TUMap k x => keyable k && comparable x
  | TUSet k => keyable k
  | TMap a b | TPair a b => comparable a && comparable b
  | TColMaj _ | TRowMaj _ => false
  | _ => true
  end.

(** What a table gives for a key; two tables that give the same for every key. *)
Definition entry_of (k : ty) (l : list (val * val)) (x : val) : option val := option_map snd (find (fun p => key_eq k (fst p) x) l).
Definition same_table (k x : ty) (l l' : list (val * val)) : Prop :=
  forall key, match entry_of k l key, entry_of k l' key with Some a, Some b => alike x a b | None, None => True | _, _ => False end.
