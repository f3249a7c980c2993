(** Specification vocabulary for the options that ignore differences. *)
From Coq Require Import List Arith NArith Bool String.
From Verif Require Import Base RangeModel NamespaceModel TypeModel FileModel OptionsModel PrintModel PrintSpec NameModel ItemModel EntryModel.
Import ListNotations.
Local Open Scope string_scope.
Local Open Scope list_scope.

(** A line of the entry itself, of the form [label: ...]. *)
Definition labelled_by (label : string) (l : line) : bool :=
  match l with
  | Line 1 t => text_eqb (firstn (String.length label + 2) t) (txt label ++ txt ": ")
  | _ => false
  end.

(** The labels of the lines that the options exclude from a comparison. *)
Definition when (b : bool) (label : string) : list string := if b then [label] else [].
Definition ignored_of_variable (ig : ignore_opts) : list string :=
  when (i_variable_linkage_name ig) "linkage name" ++ when (i_variable_symbol_name ig) "symbol name" ++
  when (i_variable_address ig) "address".
Definition ignored_of_function (ig : ignore_opts) : list string :=
  when (i_function_linkage_name ig) "linkage name" ++ when (i_function_symbol_name ig) "symbol name" ++
  when (i_function_address ig) "address" ++ when (i_function_size ig) "size" ++
  when (i_function_inline ig) "inline".

(** The labels of the lines about a function itself. *)
Definition function_fields : list string :=
  ["linkage name"; "symbol name"; "source"; "address"; "size"; "inline"; "declaration"].

(** The lines that count. *)
Definition heeded (labels : list string) (ls : list line) : list line :=
  filter (fun l => negb (existsb (fun s => labelled_by s l) labels)) ls.
(** The lines with a label. *)
Definition with_label (label : string) (ls : list line) : list line := filter (labelled_by label) ls.

(** The same options otherwise. *)
Definition with_ignore (o : options) (ig : ignore_opts) : options :=
  mkOptions (o_print o) (o_inline_depth o) (o_html o) (o_http o) (o_category o) (o_filter o) (o_sort o) ig
    (o_prefix_map o).

(** The text of a name; there is none for an empty name. *)
Definition name_text (x : option string) : text := match x with Some s => txt s | None => [] end.

(** Two functions have ranges of addresses that differ: another list, if there are several. *)
Definition ranges_differ (l1 l2 : list range) : Prop :=
  if (1 <? List.length l1)%nat || (1 <? List.length l2)%nat then l1 <> l2
  else map range_text l1 <> map range_text l2.

(** Two functions differ in something that an option can exclude, and does not. *)
Definition counted_difference (ig : ignore_opts) (a b : func) : Prop :=
  (i_function_linkage_name ig = false /\ name_text (fn_linkage_name a) <> name_text (fn_linkage_name b)) \/
  (i_function_symbol_name ig = false /\ name_text (fn_symbol_name a) <> name_text (fn_symbol_name b)) \/
  (i_function_address ig = false /\ ranges_differ (fn_ranges a) (fn_ranges b)) \/
  (i_function_size ig = false /\ opt64_get (fn_size a) <> opt64_get (fn_size b)) \/
  (i_function_inline ig = false /\ fn_inline a <> fn_inline b).

(** All that can be ignored of a function itself is ignored.  The addresses of calls are printed unless the
    addresses of functions are ignored, so those are ignored only if calls are not printed. *)
Definition heads_ignored (o : options) : options :=
  let i := o_ignore o in
  with_ignore o (mkIgnoreOpts (i_added i) (i_deleted i)
                   (i_function_address i || negb (p_function_calls (o_print o))) true true true true
                   (i_variable_address i) (i_variable_linkage_name i) (i_variable_symbol_name i)).
