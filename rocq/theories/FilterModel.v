(** Model of /repo/main/src/filter.rs and of the lists that the print and diff
    commands walk through: [SortList] for units, types, functions and variables
    (/repo/main/src/print/{unit,types,function,variable}.rs), [sort_list]
    (/repo/main/src/print/mod.rs) and the [merged_*] functions
    (/repo/main/src/print/{unit,file}.rs). *)
From Coq Require Import List Arith NArith Bool String Ascii.
From Verif Require Import Base NamespaceModel TypeModel LayoutModel FileModel DiffModel OptionsModel.
Import ListNotations.

(** What is used of a [FileHash]: type lookup, the answer of
    [Type::byte_size], and the path of the file, which tells the files of a comparison apart. *)
Record hash := mkHash { h_env : type_env; h_size : type -> option N; h_path : string }.
Definition h_sizes (h : hash) : type_sizes :=
  fun off => match from_offset (h_env h) off with Some t => h_size h t | None => None end.

(** [Iterator::enumerate]. *)
Definition enumerate {A} (l : list A) : list (nat * A) := combine (seq 0 (List.length l)) l.

(** ** filter.rs *)

(** filter.rs:33-41, [filter_unit]. *)
Definition filter_unit (o : options) (u : unit) : bool :=
  match f_unit (o_filter o) with
  | Some f =>
      let '(prefix, suffix) :=
        prefix_map (o_prefix_map o) (match un_name u with Some n => n | None => EmptyString end) in
      match cmp_string (prefix ++ suffix)%string f with Eq => true | _ => false end
  | None => true
  end.

(** parser/src/types.rs:979-994, [Member::is_inline]. *)
Definition member_is_inline (h : hash) (m : member) : bool :=
  match m_name m with
  | None => true
  | Some s =>
      if negb (is_none (strip_prefix "RUST$ENCODED$ENUM$" s)) then true
      else match from_offset (h_env h) (m_ty m) with Some t => is_anon t | None => false end
  end.

(** filter.rs:44-62, [inline_types]; the set is a list. *)
Definition inline_types (u : unit) (h : hash) : list type_offset :=
  flat_map (fun t =>
    (if is_anon t && negb (N.eqb (t_offset t) type_offset_none) then [t_offset t] else []) ++
    flat_map (fun m =>
      if member_is_inline h m && negb (N.eqb (m_ty m) type_offset_none) then [m_ty m] else [])
      (type_members t)) (un_types u).

(** filter.rs:155-225, [filter_type] and the filters per kind. *)
Definition filter_type (o : options) (diff : bool) (inline : list type_offset) (t : type) : bool :=
  (match t_kind t with
   | TBase x => filter_name o (b_name x) && filter_namespace o None
   | TDef x => filter_name o (d_name x) && filter_namespace o (d_namespace x)
   | TStruct x => filter_name o (s_name x) && filter_namespace o (s_namespace x)
   | TUnion x => filter_name o (u_name x) && filter_namespace o (u_namespace x)
   | TEnum x => filter_name o (e_name x) && filter_namespace o (e_namespace x)
   | TUnspecified x => filter_name o (us_name x) && filter_namespace o (us_namespace x)
   | TVoid | TArray _ | TFunction _ | TPtrToMember _ | TModifier _ | TSubrange _ =>
       is_none (f_name (o_filter o))
   end)
  && (match t_kind t with
      | TStruct x => negb (diff && opt_string_eqb (s_name x) (Some "closure"%string))
      | TBase _ | TDef _ | TUnion _ | TEnum _ => true
      | TVoid | TArray _ | TFunction _ | TUnspecified _ | TPtrToMember _ | TModifier _
      | TSubrange _ => false
      end)
  && negb (N.eqb (t_offset t) type_offset_none)
  && negb (existsb (N.eqb (t_offset t)) inline).

(** filter.rs:135-145, [filter_function]. *)
Definition filter_function (o : options) (f : func) : bool :=
  if negb (fn_inline f)
     && (is_none (opt64_get (fn_address f)) || is_none (opt64_get (fn_size f)))
  then false
  else filter_name o (fn_name f) && filter_namespace o (fn_namespace f)
       && filter_function_inline o (fn_inline f).

(** filter.rs:147-153, [filter_variable]. *)
Definition filter_variable (o : options) (v : var) : bool :=
  if negb (va_declaration v) && is_none (opt64_get (va_address v)) then false
  else filter_name o (va_name v) && filter_namespace o (va_namespace v).

(** filter.rs:10-18, 66-76, 92-100 and 112-120. *)
Definition filter_units (o : options) (units : list unit) : list unit :=
  filter (filter_unit o) units.
Definition filter_types (o : options) (h : hash) (diff : bool) (u : unit) : list type :=
  let inline := inline_types u h in filter (filter_type o diff inline) (un_types u).
Definition filter_functions (o : options) (u : unit) : list func :=
  filter (filter_function o) (un_functions u).
Definition filter_variables (o : options) (u : unit) : list var :=
  filter (filter_variable o) (un_variables u).

(** filter.rs:20-30, 78-90, 102-110 and 124-133. *)
Definition enumerate_and_filter_units (o : options) (units : list unit) : list (nat * unit) :=
  filter (fun a => filter_unit o (snd a)) (enumerate units).
Definition enumerate_and_filter_types (o : options) (h : hash) (diff : bool) (u : unit)
  : list (nat * type) :=
  let inline := inline_types u h in
  filter (fun a => filter_type o diff inline (snd a)) (enumerate (un_types u)).
Definition enumerate_and_filter_functions (o : options) (u : unit) : list (nat * func) :=
  filter (fun a => filter_function o (snd a)) (enumerate (un_functions u)).
Definition enumerate_and_filter_variables (o : options) (u : unit) : list (nat * var) :=
  filter (fun a => filter_variable o (snd a)) (enumerate (un_variables u)).

(** ** Comparisons for sorting and merging *)

(** [suffix.split_once('@').map(|(a, _)| a).unwrap_or(suffix)]. *)
Fixpoint before_at (s : string) : string :=
  match s with
  | EmptyString => EmptyString
  | String c s' => if Ascii.eqb c "@"%char then EmptyString else String c (before_at s')
  end.

(** unit.rs:345-360, [Unit::cmp_id]. *)
Definition unit_cmp_id (o : options) (a b : unit) : comparison :=
  let path := fun u =>
    let '(prefix, suffix) :=
      prefix_map (o_prefix_map o) (match un_name u with Some n => n | None => EmptyString end) in
    (prefix ++ before_at suffix)%string in
  cmp_string (path a) (path b).

(** [Type::cmp_id] as used on listed types.  These have a kind whose comparison
    does not follow references, so a recursion depth of 1 is enough; see
    [type_cmp_id_exact] in FilterProofs.v. *)
Definition type_cmp_id (ha : hash) (a : type) (hb : hash) (b : type) : comparison :=
  match cmp_id true 1 (h_env ha) a (h_env hb) b with Ord c => c | _ => Eq end.

(** [cmp_ns_and_name] with its debug assertion, which never fails
    ([cmp_ns_and_name_spec]). *)
Definition ns_name_cmp (ns1 : option namespace) (n1 : option string) (ns2 : option namespace)
    (n2 : option string) : comparison :=
  match cmp_ns_and_name ns1 n1 ns2 n2 with Some c => c | None => Eq end.

(** parser/src/function.rs:197-204, [Function::cmp_id], and parser/src/variable.rs:166-173. *)
Definition function_cmp_id (a b : func) : comparison :=
  ns_name_cmp (fn_namespace a) (fn_name a) (fn_namespace b) (fn_name b).
Definition variable_cmp_id (a b : var) : comparison :=
  ns_name_cmp (va_namespace a) (va_name a) (va_namespace b) (va_name b).

(** The outcome of comparing parameter lists (main/src/print/function.rs:312-319; parameters are
    not part of [func]): for two functions and the hashes they belong to. *)
Definition param_cmp := hash -> func -> hash -> func -> comparison.

(** function.rs:302-322, [Function::cmp_id_for_sort]. *)
Definition function_cmp_for_sort (pc : param_cmp) (ha : hash) (a : func) (hb : hash) (b : func)
  : comparison :=
  match function_cmp_id a b with Eq => pc ha a hb b | c => c end.

(** unit.rs:362-375, types.rs:316-328, function.rs:324-337 and variable.rs:173-186:
    [cmp_by]. *)
Definition unit_cmp_by (o : options) (ha : hash) (a : unit) (hb : hash) (b : unit) : comparison :=
  match o_sort o with
  | SortNone => Eq
  | SortName => unit_cmp_id o a b
  | SortSize => N.compare (unit_size (h_sizes ha) a) (unit_size (h_sizes hb) b)
  end.
Definition type_cmp_by (o : options) (ha : hash) (a : type) (hb : hash) (b : type) : comparison :=
  match o_sort o with
  | SortNone => N.compare (t_offset a) (t_offset b)
  | SortName => type_cmp_id ha a hb b
  | SortSize => cmp_option N.compare (h_size ha a) (h_size hb b)
  end.
Definition function_cmp_by (o : options) (pc : param_cmp) (ha : hash) (a : func) (hb : hash)
    (b : func) : comparison :=
  match o_sort o with
  | SortNone => cmp_option N.compare (opt64_get (fn_address a)) (opt64_get (fn_address b))
  | SortName => function_cmp_for_sort pc ha a hb b
  | SortSize => cmp_option N.compare (opt64_get (fn_size a)) (opt64_get (fn_size b))
  end.
Definition variable_cmp_by (o : options) (ha : hash) (a : var) (hb : hash) (b : var) : comparison :=
  match o_sort o with
  | SortNone => cmp_option N.compare (opt64_get (va_address a)) (opt64_get (va_address b))
  | SortName => variable_cmp_id a b
  | SortSize =>
      cmp_option N.compare (var_byte_size (h_sizes ha) a) (var_byte_size (h_sizes hb) b)
  end.

(** ** Printing: which items, in which order *)

(** mod.rs:365-371, [PrintState::sort_list]. *)
Definition print_list {A} (cmp_by : hash -> A -> hash -> A -> comparison) (h : hash) (l : list A)
  : list A :=
  stable_sort (fun a b => cmp_by h a h b) l.

(** unit.rs:139-187, [print_body]: the types, functions and variables printed for a
    unit (text output). *)
Definition printed_units (o : options) (h : hash) (units : list unit) : list unit :=
  print_list (unit_cmp_by o) h (filter_units o units).
Definition printed_types (o : options) (h : hash) (u : unit) : list type :=
  if c_type (o_category o) then print_list (type_cmp_by o) h (filter_types o h false u) else [].
Definition printed_functions (o : options) (pc : param_cmp) (h : hash) (u : unit) : list func :=
  if c_function (o_category o)
  then print_list (function_cmp_by o pc) h (filter_functions o u) else [].
Definition printed_variables (o : options) (h : hash) (u : unit) : list var :=
  if c_variable (o_category o) then print_list (variable_cmp_by o) h (filter_variables o u) else [].

(** ** Diffing: which rows, in which order *)

(** [MergeIterator::new(..).collect()]; the number of rounds is bounded by the
    lengths ([merge_all_total] in FilterProofs.v). *)
Definition merge_all {T U} (cmp : T -> U -> comparison) (l : list T) (r : list U)
  : list (merge_result T U) :=
  match merge_collect cmp (S (List.length l + List.length r)) (merge_new l r) with
  | Some x => x
  | None => []
  end.

(** main/src/print/file.rs:305-320, [merged_units]. *)
Definition merged_units (o : options) (a b : list unit) : list (merge_result unit unit) :=
  merge_all (unit_cmp_id o) (stable_sort (unit_cmp_id o) (filter_units o a))
    (stable_sort (unit_cmp_id o) (filter_units o b)).

(** unit.rs:11-26, [merged_types]. *)
Definition merged_types (o : options) (ha : hash) (a : unit) (hb : hash) (b : unit)
  : list (merge_result type type) :=
  merge_all (fun x y => type_cmp_id ha x hb y)
    (stable_sort (fun x y => type_cmp_id ha x ha y) (filter_types o ha true a))
    (stable_sort (fun x y => type_cmp_id hb x hb y) (filter_types o hb true b)).

(** unit.rs:45-53: [inline]. *)
Definition row_inlined (r : merge_result func func) : bool :=
  match r with
  | MBoth a b => is_none (opt64_get (fn_size a)) || is_none (opt64_get (fn_size b))
  | MLeft a => is_none (opt64_get (fn_size a))
  | MRight b => is_none (opt64_get (fn_size b))
  end.

(** unit.rs:28-57, [merged_functions]. *)
Definition merged_functions (o : options) (pc : param_cmp) (ha : hash) (a : unit) (hb : hash)
    (b : unit) : list (merge_result func func) * list (merge_result func func) :=
  let rows :=
    merge_all function_cmp_id
      (stable_sort (fun x y => function_cmp_for_sort pc ha x ha y) (filter_functions o a))
      (stable_sort (fun x y => function_cmp_for_sort pc hb x hb y) (filter_functions o b)) in
  (filter (fun r => negb (row_inlined r)) rows, filter row_inlined rows).

(** unit.rs:59-74, [merged_variables]. *)
Definition merged_variables (o : options) (a b : unit) : list (merge_result var var) :=
  merge_all variable_cmp_id (stable_sort variable_cmp_id (filter_variables o a))
    (stable_sort variable_cmp_id (filter_variables o b)).

(** mod.rs:953-977, [MergeResult::cmp]. *)
Definition merge_result_cmp {A} (f : hash -> A -> hash -> A -> comparison) (ha hb : hash)
    (x y : merge_result A A) : comparison :=
  match x with
  | MBoth _ x_right =>
      match y with
      | MBoth _ y_right => f hb x_right hb y_right
      | MLeft y_left => f hb x_right ha y_left
      | MRight y_right => f hb x_right hb y_right
      end
  | MLeft x_left =>
      match y with
      | MBoth _ y_right => f ha x_left hb y_right
      | MLeft y_left => f ha x_left ha y_left
      | MRight y_right => f ha x_left hb y_right
      end
  | MRight x_right =>
      match y with
      | MBoth _ y_right => f hb x_right hb y_right
      | MLeft y_left => f hb x_right ha y_left
      | MRight y_right => f hb x_right hb y_right
      end
  end.

(** mod.rs:818-851, [DiffState::sort_list]: the rows it visits, in order, without
    those suppressed by the options.  Rows [MBoth] are printed if they contain a
    difference. *)
Definition diff_rows {A} (f : hash -> A -> hash -> A -> comparison) (o : options) (ha hb : hash)
    (l : list (merge_result A A)) : list (merge_result A A) :=
  filter (fun r => match r with
                   | MBoth _ _ => true
                   | MLeft _ => negb (i_deleted (o_ignore o))
                   | MRight _ => negb (i_added (o_ignore o))
                   end)
    (stable_sort (merge_result_cmp f ha hb) l).
