(** What ids should mean; independent of how they are assigned and looked up. *)
From Coq Require Import List Arith NArith String.
From Verif Require Import Base TypeModel FileModel DiffModel FilterSpec IdModel.
Import ListNotations.

(** The item that a position (unit, and number within the unit) stands for. *)
Inductive names (units : list unit) : item_id -> item -> Prop :=
| nm_unit : forall i u, nth_error units i = Some u -> names units (IdUnit i) (ItUnit u)
| nm_type : forall i k u t, nth_error units i = Some u -> nth_error (un_types u) k = Some t ->
    names units (IdType i k) (ItType u t)
| nm_function : forall i k u f, nth_error units i = Some u ->
    nth_error (un_functions u) k = Some f -> names units (IdFunction i k) (ItFunction u f)
| nm_variable : forall i k u v, nth_error units i = Some u ->
    nth_error (un_variables u) k = Some v -> names units (IdVariable i k) (ItVariable u v).

(** The unit that a position belongs to. *)
Inductive in_unit : item_id -> nat -> Prop :=
| iu_unit : forall i, in_unit (IdUnit i) i
| iu_type : forall i k, in_unit (IdType i k) i
| iu_function : forall i k, in_unit (IdFunction i k) i
| iu_variable : forall i k, in_unit (IdVariable i k) i.

(** Two items that may share a row of a comparison. *)
Inductive same_item (given : list (string * string)) : item -> item -> Prop :=
| si_unit : forall a b, same_unit given a b -> same_item given (ItUnit a) (ItUnit b)
| si_type : forall ua ub a b, same_unit given ua ub -> same_type a b ->
    same_item given (ItType ua a) (ItType ub b)
| si_function : forall ua ub a b, same_unit given ua ub -> same_function a b ->
    same_item given (ItFunction ua a) (ItFunction ub b)
| si_variable : forall ua ub a b, same_unit given ua ub -> same_variable a b ->
    same_item given (ItVariable ua a) (ItVariable ub b).

(** Entry [n] of the table of ids stands for the items of a row. *)
Definition row_at (fa fb : list unit) (ids : list (item_id * item_id)) (n : nat)
    (r : merge_result item item) : Prop :=
  match r with
  | MBoth i j => exists x y, nth_error ids n = Some (x, y) /\ names fa x i /\ names fb y j
  | MLeft i => exists x, nth_error ids n = Some (x, IdNone) /\ names fa x i
  | MRight j => exists y, nth_error ids n = Some (IdNone, y) /\ names fb y j
  end.
