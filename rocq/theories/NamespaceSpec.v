(** Specification vocabulary for namespaces: root-first paths and dictionary
    order.  Uses only the data type of [NamespaceModel.v]. *)
From Coq Require Import List NArith String Ascii.
From Verif Require Import NamespaceModel.
Import ListNotations.

(** The component names read from the root; [None] is an anonymous component. *)
Inductive path_of : namespace -> list (option string) -> Prop :=
| path_root : forall name kind, path_of (Ns None name kind) [name]
| path_child : forall p l name kind,
    path_of p l -> path_of (Ns (Some p) name kind) (l ++ [name]).

(** The absent namespace is the empty path. *)
Inductive path_opt : option namespace -> list (option string) -> Prop :=
| path_none : path_opt None []
| path_some : forall n l, path_of n l -> path_opt (Some n) l.

(** Dictionary order on lists. *)
Inductive dict_lt {A} (lt : A -> A -> Prop) : list A -> list A -> Prop :=
| dict_nil : forall y l, dict_lt lt [] (y :: l)
| dict_head : forall x y l m, lt x y -> dict_lt lt (x :: l) (y :: m)
| dict_tail : forall x l m, dict_lt lt l m -> dict_lt lt (x :: l) (x :: m).

Definition byte_lt (a b : ascii) : Prop := (N_of_ascii a < N_of_ascii b)%N.

(** Bytewise order of strings. *)
Definition string_lt (s t : string) : Prop :=
  dict_lt byte_lt (list_ascii_of_string s) (list_ascii_of_string t).

(** Absent names come first. *)
Inductive name_lt : option string -> option string -> Prop :=
| name_absent : forall s, name_lt None (Some s)
| name_some : forall s t, string_lt s t -> name_lt (Some s) (Some t).

(** Order on (path, name): by path, then by name. *)
Inductive item_lt : list (option string) * option string ->
                    list (option string) * option string -> Prop :=
| item_path : forall p q a b, dict_lt name_lt p q -> item_lt (p, a) (q, b)
| item_name : forall p a b, name_lt a b -> item_lt (p, a) (p, b).
