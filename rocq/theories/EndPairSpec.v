(** Specification vocabulary for the comparison of two files, in terms of the values that the attributes of the files have. *)
From Coq Require Import List Arith NArith ZArith Bool String.
From Verif Require Import Base NamespaceModel TypeModel LocationModel FileModel FileSpec FilterModel FilterSpec OptionsModel PrintModel PrintSpec ReadModel
  ItemModel ItemSpec EntrySpec DieModel WholeModel RawModel RawSpec PairSpec EndSpec EndItemSpec.
Import ListNotations.
Local Open Scope N_scope.

(** ** Units *)

Definition unit_called (name : option string) : unit := mkUnit name [] [] [] [].
Definition unit_name (rf : raw_file) (u : raw_unit) (name : option string) : Prop := named rf u is_name (rd_attrs (ru_root u)) name.
(** No unit of [rb] that matches [u] has something. *)
Definition raw_nowhere (given : list (string * string)) (ra : raw_file) (u : raw_unit) (rb : raw_file) (without : raw_unit -> Prop) : Prop :=
  exists m, unit_name ra u m /\ ~ same_unit given (unit_called m) (unit_called (Some "<symtab>"%string)) /\
    forall v n, In v (rf_units rb) -> unit_name rb v n -> same_unit given (unit_called m) (unit_called n) -> without v.
(** [u] is the only unit of [ra] that matches the unit [v] of [rb]. *)
Definition raw_only_unit (given : list (string * string)) (ra : raw_file) (u : raw_unit) (rb : raw_file) (v : raw_unit) : Prop :=
  exists m n, unit_name ra u m /\ unit_name rb v n /\ same_unit given (unit_called m) (unit_called n) /\
    ~ same_unit given (unit_called (Some "<symtab>"%string)) (unit_called n) /\
    ~ same_unit given (unit_called (Some "<unknown>"%string)) (unit_called n) /\
    exists l1 l2, rf_units ra = (l1 ++ u :: l2)%list /\
      forall z k, In z (l1 ++ l2) -> unit_name ra z k -> ~ same_unit given (unit_called k) (unit_called n).

(** ** Items with a name *)

(** Outside of functions and types. *)
Inductive in_namespace (u : raw_unit) : raw_die -> Prop :=
| inn_top d : In d (rd_children (ru_root u)) -> in_namespace u d
| inn_inside e d : in_namespace u e -> rd_tag e = 0x39 -> In d (rd_children e) -> in_namespace u d.
(** The entries of functions, variables and types of a unit, but for the one at an offset, are called otherwise, are in something else or, for
    functions and variables, are not wanted (such as the declaration of a method that is defined elsewhere) or, for types, are of another kind. *)
Definition raw_no_function (o : options) (rf : raw_file) (u : raw_unit) (off : option N) (path : list (option string)) (name : option string) : Prop :=
  forall e, In e (raw_below u) -> rd_tag e = 0x2e -> Some (rd_offset e) <> off ->
  (exists n, named rf u is_name (rd_attrs e) (Some n) /\ Some n <> name) \/ (exists y, gives_function rf u e y /\ (rn_path y <> path \/ rn_name y <> name \/ ~ raw_function_wanted o y)).
Definition is_static_member (e : raw_die) : Prop := rd_tag e = 0x0d /\ ~ lacks 0x3c (rd_attrs e).
Definition raw_no_variable (o : options) (rf : raw_file) (u : raw_unit) (off : option N) (path : list (option string)) (name : option string) : Prop :=
  forall e, In e (raw_below u) -> (in_namespace u e /\ rd_tag e = 0x34) \/ is_static_member e -> Some (rd_offset e) <> off ->
  (exists n, named rf u is_name (rd_attrs e) (Some n) /\ Some n <> name) \/
  (no_raw_statics u /\ exists y, gives_variable rf u e y /\ (rv_path y <> path \/ rv_name y <> name \/ ~ raw_variable_wanted o y)).
(** Base types, typedefs, structures and classes, unions, enumerations. *)
Definition type_rank (code : N) : option nat :=
  match code with 0x24 => Some 1%nat | 0x16 => Some 2%nat | 0x13 => Some 3%nat | 0x02 => Some 3%nat | 0x17 => Some 4%nat | 0x04 => Some 5%nat | _ => None end.
Definition raw_no_type (rf : raw_file) (u : raw_unit) (off : option N) (rank : option nat) (path : list (option string)) (name : option string) : Prop :=
  forall e, In e (raw_below u) -> type_rank (rd_tag e) = rank -> Some (rd_offset e) <> off ->
  (exists n, named rf u is_name (rd_attrs e) n /\ n <> name) \/ (exists b p, placed rf u b p e /\ p <> path /\ rd_tag e <> 0x24).

(** ** Lists that fit in memory *)

Definition raw_small (rf : raw_file) : Prop := forall u, In u (rf_units rf) -> N.of_nat (List.length (raw_below u)) < 2 ^ 60.
(** One base class is not compared with several. *)
Definition raw_bases_alike (d e : raw_die) : Prop :=
  ~ (List.length (with_raw_tag 0x1c d) = 1 /\ 1 < List.length (with_raw_tag 0x1c e))%nat /\
  ~ (List.length (with_raw_tag 0x1c e) = 1 /\ 1 < List.length (with_raw_tag 0x1c d))%nat.
