(** What merging and diffing two lists should produce. *)
From Coq Require Import List NArith.
From Verif Require Import Base DiffModel.
Import ListNotations.
Local Open Scope N_scope.

(** The items of the left and of the right list in a merge result, in order. *)
Definition lefts {T U} (l : list (merge_result T U)) : list T :=
  flat_map (fun r => match r with MLeft x => [x] | MBoth x _ => [x] | MRight _ => [] end) l.
Definition rights {T U} (l : list (merge_result T U)) : list U :=
  flat_map (fun r => match r with MRight y => [y] | MBoth _ y => [y] | MLeft _ => [] end) l.
(** The pairs in a merge result. *)
Definition pairs {T U} (l : list (merge_result T U)) : list (T * U) :=
  flat_map (fun r => match r with MBoth x y => [(x, y)] | _ => [] end) l.

(** How many items have a given key. *)
Definition count_key {K T} (kcmp : K -> K -> comparison) (key : T -> K) (k : K) (l : list T) : nat :=
  length (filter (fun x => match kcmp (key x) k with Eq => true | _ => false end) l).

(** The key of a merge result: that of the left item if there is one. *)
Definition result_key {K T U} (kl : T -> K) (kr : U -> K) (r : merge_result T U) : K :=
  match r with MLeft x => kl x | MRight y => kr y | MBoth x _ => kl x end.

(** Edit scripts turning [l1] into [l2], with their cost: delete, add, or pair two
    items.  [allowed] restricts the pairings. *)
Section Script.
  Context {A : Type}.
  Variables c1 c2 : A -> N.
  Variable dc : A -> A -> N.
  Variable allowed : A -> A -> Prop.

  Inductive script : list A -> list A -> list direction -> N -> Prop :=
  | sc_nil : script [] [] [] 0
  | sc_delete : forall a l1 l2 p c, script l1 l2 p c ->
      script (a :: l1) l2 (DHorizontal :: p) (c1 a + c)
  | sc_add : forall b l1 l2 p c, script l1 l2 p c ->
      script l1 (b :: l2) (DVertical :: p) (c2 b + c)
  | sc_pair : forall a b l1 l2 p c, script l1 l2 p c -> allowed a b ->
      script (a :: l1) (b :: l2) (DDiagonal :: p) (dc a b + c).

  (** The total cost of deleting or adding all items. *)
  Definition total_cost (c : A -> N) (l : list A) : N := fold_right (fun a s => c a + s) 0 l.
End Script.

(** Pairing two items is worth it. *)
Definition cheaper {A} (c1 c2 : A -> N) (dc : A -> A -> N) (a b : A) : Prop :=
  dc a b < c1 a + c2 b.
