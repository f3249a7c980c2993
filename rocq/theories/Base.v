(** Common definitions shared by the models: comparison functions and
    stable sorting.  *)
From Coq Require Import List Permutation Sorted Lia Arith NArith ZArith String Ascii Bool.
Import ListNotations.

(** [u64] wrap-around arithmetic: Rust release-mode [+], [-], [*] on [u64]
    and the [wrapping_*] operations. *)
Definition two64 : N := 18446744073709551616%N.
Definition wrap64 (x : N) : N := (x mod two64)%N.
Definition add64 (x y : N) : N := wrap64 (x + y).
Definition sub64 (x y : N) : N := wrap64 (x + two64 - wrap64 y).
Definition mul64 (x y : N) : N := wrap64 (x * y).
Definition u64_max : N := 18446744073709551615%N.

(** [Ordering::then_with] in Rust (std): keep the first ordering unless it is
    [Equal]. *)
Definition then_with (o : comparison) (k : comparison) : comparison :=
  match o with Eq => k | _ => o end.

(** [Ord for Option<T>] (std): [None] is less than any [Some]. *)
Definition cmp_option {A} (cmp : A -> A -> comparison) (x y : option A) : comparison :=
  match x, y with
  | None, None => Eq
  | None, Some _ => Lt
  | Some _, None => Gt
  | Some a, Some b => cmp a b
  end.

(** [Ord for str] (std): byte-wise dictionary order. *)
Fixpoint cmp_string (x y : string) : comparison :=
  match x, y with
  | EmptyString, EmptyString => Eq
  | EmptyString, String _ _ => Lt
  | String _ _, EmptyString => Gt
  | String a x', String b y' =>
      then_with (N.compare (N_of_ascii a) (N_of_ascii b)) (cmp_string x' y')
  end.

(** [slice::sort_by] (std), a stable sort.  Modelled by insertion sort; see
    [stable_sort_unique] for why any stable sort gives the same list when
    the comparison is a total preorder. *)
Section Sort.
  Context {A : Type}.
  Variable cmp : A -> A -> comparison.

  Fixpoint insert (x : A) (l : list A) : list A :=
    match l with
    | [] => [x]
    | y :: l' => match cmp x y with Gt => y :: insert x l' | _ => x :: l end
    end.

  Fixpoint stable_sort (l : list A) : list A :=
    match l with
    | [] => []
    | x :: l' => insert x (stable_sort l')
    end.
End Sort.

(** What it means for a comparison function to be a consistent total
    preorder; this is what Rust's sort requires of its argument. *)
Record total_preorder {A} (cmp : A -> A -> comparison) : Prop := {
  tp_refl : forall x, cmp x x = Eq;
  tp_sym : forall x y, cmp y x = CompOpp (cmp x y);
  tp_trans : forall x y z, cmp x y <> Gt -> cmp y z <> Gt -> cmp x z <> Gt
}.

Definition le_cmp {A} (cmp : A -> A -> comparison) (x y : A) : Prop := cmp x y <> Gt.

(** Dictionary order on lists ([Ord] for slices and iterators in Rust's std). *)
Fixpoint cmp_list {A} (cmp : A -> A -> comparison) (l m : list A) : comparison :=
  match l, m with
  | [], [] => Eq
  | [], _ :: _ => Lt
  | _ :: _, [] => Gt
  | x :: l', y :: m' => then_with (cmp x y) (cmp_list cmp l' m')
  end.
