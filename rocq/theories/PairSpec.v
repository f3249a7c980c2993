(** Specification vocabulary for a whole run over two files. *)
From Coq Require Import List Arith NArith ZArith Bool String.
From Verif Require Import Base NamespaceModel NamespaceSpec TypeModel TypeSpec FileModel FileSpec OptionsModel FilterModel FilterSpec PrintModel PrintSpec
  NameModel DieModel DieSpec MemberSpec ItemModel ItemSpec EntryModel EntrySpec ReportModel ReportSpec WholeModel WholeSpec.
Import ListNotations.

(** Some lines, one after the other, in a text. *)
Definition within (ls : list (mark * line)) (t : text) : Prop :=
  exists before after, t = write_marked (before ++ ls ++ after).

(** ** Units *)

(** What a unit is matched by. *)
Definition head_of (u : unit_input) : unit := mkUnit (DieSpec.given_name (ui_attrs u)) [] [] [] [].
Definition symtab_head : unit := mkUnit (Some "<symtab>"%string) [] [] [] [].
Definition unknown_head : unit := mkUnit (Some "<unknown>"%string) [] [] [] [].
(** A unit of a file is the only one of the file that matches [w]. *)
Definition only_unit (given : list (string * string)) (ob : object_input) (u : unit_input) (w : unit_input) : Prop :=
  same_unit given (head_of u) (head_of w) /\ ~ same_unit given symtab_head (head_of w) /\ ~ same_unit given unknown_head (head_of w) /\
  exists l1 l2, ob_units ob = (l1 ++ u :: l2)%list /\ forall z, In z (l1 ++ l2) -> ~ same_unit given (head_of z) (head_of w).

(** ** Items with the same name *)

Definition same_place (m : option namespace) (s : option string) (n : option namespace) (t : option string) : Prop :=
  (exists p, path_opt m p /\ path_opt n p) /\ s = t.
Definition functions_match (g h : dw_function) : Prop := same_place (fu_namespace g) (fu_name g) (fu_namespace h) (fu_name h).
Definition variables_match (g h : dw_variable) : Prop := same_place (vr_namespace g) (vr_name g) (vr_namespace h) (vr_name h).

(** None of the items of [u] that are wanted, apart from those at the offset [off], matches. *)
Definition no_function (o : options) (u : unit_input) (off : option N) (g : dw_function) : Prop :=
  forall outer d, found (ui_children u) outer d -> die_tag d = TagSubprogram -> Some (die_offset d) <> off ->
  (exists h, describes (unit_base u) (ui_children u) d h /\ (~ functions_match g h \/ ~ function_wanted o h)) \/
  given_name (die_attrs d) <> None /\ given_name (die_attrs d) <> fu_name g.
Definition no_variable (o : options) (ob : object_input) (u : unit_input) (off : option N) (g : dw_variable) : Prop :=
  forall d, has_variable (unit_context ob u) (ui_children u) d -> Some (die_offset d) <> off ->
  (no_rust_statics (unit_context ob u) /\
   exists h, describes_variable (unit_base u) (ui_children u) d h /\ (~ variables_match g h \/ ~ variable_wanted o h)) \/
  given_name (die_attrs d) <> None /\ given_name (die_attrs d) <> vr_name g.
Definition no_type (ob : object_input) (u : unit_input) (off : option N) (t : type) : Prop :=
  forall outer d, found (ui_children u) outer d -> outer <> TagEnumeration -> is_type_tag (die_tag d) = true ->
  Some (die_offset d) <> off ->
  (exists outer' ns, outer' <> TagEnumeration /\ located (unit_base u) (ui_children u) outer' ns d /\
    forall s, t_offset s = die_offset d -> describes_type (unit_context ob u) ns d (t_kind s) -> ~ same_type t s) \/
  (forall ns s, t_offset s = die_offset d -> describes_type (unit_context ob u) ns d (t_kind s) -> ~ same_type t s).

(** Types of a unit, each that of an entry. *)
Definition types_kept (ob : object_input) (u : unit_input) (kept : list type) : Prop :=
  forall t, In t kept -> exists ns outer d,
    found (ui_children u) outer d /\ is_type_tag (die_tag d) = true /\ outer <> TagEnumeration /\
    t_offset t = die_offset d /\ describes_type (unit_context ob u) ns d (t_kind t) /\ type_at ob (t_offset t) = Some t.

(** No unit of [ob] that matches [u] has such an item, so that the item is gone, or new. *)
Definition nowhere (given : list (string * string)) (ob : object_input) (u : unit_input) (lacks : unit_input -> Prop) : Prop :=
  ~ same_unit given (head_of u) symtab_head /\
  forall v, In v (ob_units ob) -> same_unit given (head_of u) (head_of v) -> lacks v.

(** ** What is shown for an item *)

(** All that is printed for a function; see [function_shown]. *)
Definition function_text (choice : N -> nat) (ob : object_input) (o : options) (u : unit_input) (g : dw_function) (ls : list line) : Prop :=
  exists f, function_for (parse_symbols (ob_symbols ob)) g f /\
    sc_return (file_scene choice ob) f = fu_return g /\ sc_function_source (file_scene choice ob) f = fu_source g /\
    function_shown o (file_scene choice ob) (ui_dir u) (N.to_nat (o_inline_depth o)) f ls.
Definition variable_text (choice : N -> nat) (ob : object_input) (o : options) (u : unit_input) (g : dw_variable) (ls : list line) : Prop :=
  exists symbol, symbol_shown (parse_symbols (ob_symbols ob)) (vr_address g) (own_name (vr_linkage_name g) (vr_name g)) symbol /\
    ls = variable_piece o (file_view choice ob) (ui_dir u) g symbol.

(** ** The order of functions with the same name *)

(** The first difference decides, and what comes first if there is none is the shorter list. *)
Inductive by_first {A B} (R : A -> B -> comparison -> Prop) : list A -> list B -> comparison -> Prop :=
| bf_none : by_first R [] [] Eq
| bf_short : forall y m, by_first R [] (y :: m) Lt
| bf_long : forall x l, by_first R (x :: l) [] Gt
| bf_first : forall x l y m c, R x y c -> c <> Eq -> by_first R (x :: l) (y :: m) c
| bf_rest : forall x l y m c, R x y Eq -> by_first R l m c -> by_first R (x :: l) (y :: m) c.
(** The types of two parameters; a type that there is comes before one that there is not. *)
Definition parameters_in_order (x y : object_input) (p q : parameter_type) (c : comparison) : Prop :=
  match from_offset (type_at x) (pt_ty p), from_offset (type_at y) (pt_ty q) with
  | Some s, Some t => compares false (type_at x, s) (type_at y, t) c
  | Some _, None => c = Lt
  | None, Some _ => c = Gt
  | None, None => c = Eq
  end.
