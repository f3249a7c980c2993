(** The parts of the output for a file, and what selecting leaves of them. *)
From Coq Require Import List Bool String Permutation.
From Verif Require Import Base TypeModel FileModel OptionsModel PrintSpec FilterModel FilterSpec.
Import ListNotations.
Local Open Scope string_scope.

(** What is written for a unit: the lines of the unit itself, and each item with its lines. *)
Record unit_lines := mkUnitLines {
  ul_unit : unit; ul_own : list line; ul_types : list (type * list line);
  ul_functions : list (func * list line); ul_variables : list (var * list line) }.
Definition lines_of_unit (x : unit_lines) : list line :=
  (ul_own x ++ flat_map snd (ul_types x) ++ flat_map snd (ul_functions x) ++ flat_map snd (ul_variables x))%list.

(** Two command lines that differ only in what they select, the first selecting everything. *)
Record only_selects (c c' : cli) : Prop := {
  os_filter : cl_filter c = [];
  os_category : cl_category c = None;
  os_rest : c' = mkCli (cl_output c) (cl_inline_depth c) (cl_category c') (cl_print c) (cl_filter c')
              (cl_sort c) (cl_ignore c) (cl_prefix_map c) }.

(** Of what there is of a category, what is selected. *)
Definition kept {A} (c : cli) (word : string) (P : A -> Prop) (l l' : list (A * list line)) : Prop :=
  (category_wanted c word -> selects (fun x => P (fst x)) l l') /\ (~ category_wanted c word -> l' = []).
(** The lines for a unit after selecting. *)
Record narrowed (c : cli) (o : options) (h : hash) (x y : unit_lines) : Prop := {
  na_unit : ul_unit y = ul_unit x;
  na_own : (category_wanted c "unit" -> ul_own y = ul_own x) /\ (~ category_wanted c "unit" -> ul_own y = []);
  na_types : kept c "type" (type_listed o (h_env h) false (ul_unit x)) (ul_types x) (ul_types y);
  na_functions : kept c "function" (function_listed o) (ul_functions x) (ul_functions y);
  na_variables : kept c "variable" (variable_listed o) (ul_variables x) (ul_variables y) }.

(** The first list is the second with some elements left out. *)
Inductive subsequence {A} : list A -> list A -> Prop :=
| sub_nil : subsequence [] []
| sub_keep : forall x l m, subsequence l m -> subsequence (x :: l) (x :: m)
| sub_drop : forall x l m, subsequence l m -> subsequence l (x :: m).

(** Two command lines that differ only in [--sort]. *)
Definition only_sorts (c c' : cli) : Prop :=
  c' = mkCli (cl_output c) (cl_inline_depth c) (cl_category c) (cl_print c) (cl_filter c) (cl_sort c') (cl_ignore c) (cl_prefix_map c).
(** The same unit with its items in another order. *)
Record rearranged (x y : unit_lines) : Prop := {
  re_unit : ul_unit y = ul_unit x;
  re_own : ul_own y = ul_own x;
  re_types : Permutation (ul_types x) (ul_types y);
  re_functions : Permutation (ul_functions x) (ul_functions y);
  re_variables : Permutation (ul_variables x) (ul_variables y) }.

(** A command line that asks for more details of the same. *)
Definition only_details (c c' : cli) : Prop :=
  incl (cl_print c) (cl_print c') /\
  c' = mkCli (cl_output c) (cl_inline_depth c') (cl_category c) (cl_print c') (cl_filter c) (cl_sort c) (cl_ignore c) (cl_prefix_map c).
(** A command line that ignores more differences. *)
Definition only_ignores (c c' : cli) : Prop :=
  incl (cl_ignore c) (cl_ignore c') /\
  c' = mkCli (cl_output c) (cl_inline_depth c) (cl_category c) (cl_print c) (cl_filter c) (cl_sort c) (cl_ignore c') (cl_prefix_map c).
(** A command line that selects fewer categories. *)
Definition only_categories (c c' : cli) : Prop :=
  (forall w, category_wanted c' w -> category_wanted c w) /\
  c' = mkCli (cl_output c) (cl_inline_depth c) (cl_category c') (cl_print c) (cl_filter c) (cl_sort c) (cl_ignore c) (cl_prefix_map c).
(** A command line with further filters, by name or namespace only, where there were none of these. *)
Definition only_names (c c' : cli) : Prop :=
  never_given ["name"; "namespace"] (cl_filter c) /\
  (exists more, cl_filter c' = (cl_filter c ++ more)%list /\ never_given ["unit"; "inline"; "function-inline"] more) /\
  c' = mkCli (cl_output c) (cl_inline_depth c) (cl_category c) (cl_print c) (cl_filter c') (cl_sort c) (cl_ignore c) (cl_prefix_map c).
