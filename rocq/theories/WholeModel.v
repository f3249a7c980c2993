(** Model of a whole run over one file: from what gimli and the object reader deliver to the text
    that is printed.  /repo/parser/src/file/dwarf.rs:405-468 and 345-369, file/mod.rs:187-448 and
    622-692, types.rs:115-136, /repo/main/src/main.rs:521-565.

    Everything is put together from the models of the parts: [parse_items] (DieModel), [normalize]
    (FileModel), [byte_size] and [cmp_id] (TypeModel), [type_ref] (RefModel), [enumerators]
    (ReadModel), [get_function_details] (DetailModel) and [print_file] (ReportModel).

    Simplified: the code has no bound on the depth of a type, and would not return for one that
    contains itself; here a size that is deeper than [depth_limit] is unknown, a reference is
    empty, and a comparison is equal.  Only types that contain themselves are that deep (C83).  The entries that gimli
    reads and the maps that a disassembler uses are given.  The root entry of a unit is not found
    by offset. *)
From Coq Require Import List Arith NArith Bool String.
From Verif Require Import Base RangeModel NamespaceModel TypeModel LayoutModel FileModel OptionsModel FilterModel
  DiffModel IdModel PrintModel LocationModel DieModel RefModel ReadModel CodeModel ItemModel EntryModel DetailModel
  ReportModel.
Import ListNotations.
Local Open Scope N_scope.

(** ** What is read *)

(** A unit of [.debug_info]: the attributes and the children of its root entry, the rows of its line
    number program, [DW_AT_comp_dir], whether [DW_AT_language] is Rust, and the header; and
    what gimli resolves an index into [.debug_addr] to. *)
Record unit_input := mkUnitInput {
  ui_attrs : list attr; ui_children : list die; ui_lines : option line_rows;
  ui_dir : option string; ui_rust : bool; ui_version : N; ui_address_size : N;
  ui_address : N -> option N }.

(** A section of the object file: its name, the name of its segment, its address and size. *)
Record object_section := mkObjectSection {
  ob_section_name : option string; ob_segment_name : option string;
  ob_section_address : N; ob_section_size : N }.

(** The object file.  [ob_encoding] and [ob_endianity] are those of the base type at an offset, and
    [ob_enumerators] are the children of the enumeration at an offset. *)
Record object_input := mkObjectInput {
  ob_path : string; ob_big_endian : bool; ob_segments : list segment;
  ob_sections : list object_section; ob_symbols : list object_symbol;
  ob_units : list unit_input;
  ob_encoding : N -> encoding; ob_endianity : N -> endianity;
  ob_enumerators : N -> list (option (list enumerator_attr));
  ob_register : N -> option string; ob_program : option program }.

(** ** Units *)

(** [entries_tree] in one unit. *)
Fixpoint find_dies (off : N) (l : list die) : option die :=
  match l with
  | [] => None
  | d :: l' => match find_die off d with Some x => Some x | None => find_dies off l' end
  end.
(** dwarf.rs:341-343 and 355-359: the unit that an offset is in, and the entry there. *)
Fixpoint entry_in (us : list unit_input) (off : N) : option (unit_input * die) :=
  match us with
  | [] => None
  | u :: us' => match find_dies off (ui_children u) with Some d => Some (u, d) | None => entry_in us' off end
  end.

(** The fields of [Function] and [Variable] that FileModel.v has. *)
Definition func_of (f : dw_function) : func :=
  mkFunc (fu_offset f) (fu_namespace f) (fu_name f) (fu_linkage_name f) None (fu_address f) (fu_size f)
    (fu_ranges f) (fu_inline f) (fu_declaration f).
Definition var_of (v : dw_variable) : var :=
  mkVar (vr_offset v) (vr_namespace v) (vr_name v) (vr_linkage_name v) None (vr_ty v) (vr_address v)
    (vr_size v) (vr_declaration v).

Section Load.
  Variable choice : N -> nat.
  Variable ob : object_input.

  Definition unit_context (u : unit_input) : context :=
    mkContext (DieModel.unit_low_pc (ui_lines u) (ui_attrs u)) (ui_rust u) (ob_big_endian ob) (ui_version u)
      (ui_address_size u) (fun off => find_dies off (ui_children u)).
  (** dwarf.rs:588-607; it is always [Some] (C35). *)
  Definition unit_items (u : unit_input) : walk_state :=
    match parse_items (unit_context u) (ui_children u) with Some s => s | None => no_items end.
  (** dwarf.rs:470-614, [parse_unit]. *)
  Definition unit_of (u : unit_input) : unit :=
    let s := unit_items u in
    mkUnit (attr_name (ui_attrs u)) (DieModel.unit_ranges (ui_lines u) (ui_attrs u)) (ws_types s)
      (map func_of (ws_functions s)) (map var_of (ws_variables s)).
  (** dwarf.rs:458-466. *)
  Definition parsed_units : list unit := map unit_of (ob_units ob).
  Definition all_items : list walk_state := map unit_items (ob_units ob).

  (** ** Types *)

  (** More than any chain of references that does not repeat an entry has. *)
  Definition depth_limit : nat :=
    (2 * list_sum (map (fun u => dies_count (ui_children u)) (ob_units ob)) + 8)%nat.

  (** dwarf.rs:345-349, [get_type]. *)
  Definition unnamed_type (off : N) : option type :=
    match entry_in (ob_units ob) off with
    | Some (u, d) => parse_unnamed_type (unit_context u) d
    | None => None
    end.
  (** types.rs:125-136, [from_offset]: the types that were kept, then [get_type]. *)
  Definition type_at : type_env :=
    fun off =>
      match types_by_offset parsed_units off with Some t => Some t | None => unnamed_type off end.
  Definition type_size (t : type) : option N :=
    match byte_size depth_limit type_at t with TypeModel.Done x => x | TypeModel.NoFuel => None end.
  Definition file_hash : hash := mkHash type_at type_size (ob_path ob).

  (** ** The file *)

  (** file/mod.rs:263-282. *)
  Definition kept_sections : list named_section :=
    map (fun s => mkNamed (ob_section_name s) (ob_segment_name s)
                    (mkSection (if ob_section_address s =? 0 then None else Some (ob_section_address s))
                       (ob_section_size s)))
      (filter (fun s => negb (ob_section_size s =? 0)) (ob_sections ob)).
  (** file/mod.rs:242-354, [parse_object]. *)
  Definition file_read : file :=
    mkFile (ob_segments ob) (map ns_section kept_sections) (parse_symbols (ob_symbols ob)) parsed_units.
  Definition loaded : file := normalize choice (h_sizes file_hash) file_read.
  Definition loaded_units : list unit := fl_units loaded.

  (** ** Ids *)

  (** The id of the first item that is like the one that is given. *)
  Definition id_where (like : item -> bool) : nat :=
    let '(ids, log) := assign_ids loaded_units in
    match find (fun x => match item_at loaded_units x with Some it => like it | None => false end) ids with
    | Some x => id_of log x
    | None => 0%nat
    end.
  Definition type_number (t : type) : nat :=
    id_where (fun x => match x with ItType _ s => t_offset s =? t_offset t | _ => false end).
  Definition function_number (f : func) : nat :=
    id_where (fun x => match x with
                       | ItFunction _ g => (fn_offset g =? fn_offset f) && (fn_address g =? fn_address f) &&
                                           (fn_size g =? fn_size f) && opt_string_eqb (fn_name g) (fn_name f)
                       | _ => false end).
  Definition variable_number (v : var) : nat :=
    id_where (fun x => match x with
                       | ItVariable _ w => (va_offset w =? va_offset v) && (va_address w =? va_address v) &&
                                           (va_size w =? va_size v) && opt_string_eqb (va_name w) (va_name v)
                       | _ => false end).

  (** ** What items and units leave out *)

  Definition read_function (off : N) : option dw_function :=
    find (fun f => fu_offset f =? off) (flat_map ws_functions all_items).
  Definition read_variable (off : N) : option dw_variable :=
    find (fun v => vr_offset v =? off) (flat_map ws_variables all_items).

  Definition parameter_names (t : type) : list (option string) :=
    match entry_in (ob_units ob) (t_offset t) with
    | Some (_, d) => map pt_name (parse_parameter_types (die_children d) [])
    | None => []
    end.
  Definition ref_of (t : option type) : value :=
    match type_ref type_at type_number parameter_names depth_limit t with Some v => v | None => VNil end.
  Definition type_source (t : type) : source :=
    match entry_in (ob_units ob) (t_offset t) with Some (_, d) => attr_source (die_attrs d) | None => no_source end.
  Definition type_enumerators (t : type) : list enumerator :=
    match t_kind t with
    | TEnum x => enumerators type_at (ob_encoding ob) x (ob_enumerators ob (t_offset t))
    | _ => []
    end.
  Definition file_view : view :=
    mkView file_hash ref_of type_number type_source (fun t => ob_encoding ob (t_offset t))
      (fun t => ob_endianity ob (t_offset t)) type_enumerators.

  (** dwarf.rs:361-369. *)
  Definition entry_space : space :=
    fun off =>
      match entry_in (ob_units ob) off with
      | Some (u, d) => Some (mkReading (ui_address_size u) (ui_address u), d)
      | None => None
      end.
  Definition function_details_of (f : func) : details :=
    details_of (get_function_details entry_space (file_offsets loaded) (fn_offset f)).

  Definition file_scene : scene :=
    mkScene file_view (ob_register ob) (functions_by_address loaded_units)
      (variables_by_address loaded_units) (function_from_offset loaded_units)
      function_number variable_number
      (fun f => match read_function (fn_offset f) with Some g => fu_return g | None => type_offset_none end)
      (fun f => match read_function (fn_offset f) with Some g => fu_source g | None => no_source end)
      (fun v => match read_variable (va_offset v) with Some w => vr_source w | None => no_source end)
      function_details_of (ob_program ob).

  (** Units are told apart by their names, ranges and the offsets of their items. *)
  Fixpoint list_eqb {A} (eqb : A -> A -> bool) (a b : list A) : bool :=
    match a, b with
    | [], [] => true
    | x :: a', y :: b' => eqb x y && list_eqb eqb a' b'
    | _, _ => false
    end.
  Definition range_eqb (r s : range) : bool := (rbegin r =? rbegin s) && (rend r =? rend s).
  Definition like_unit (u v : unit) : bool :=
    opt_string_eqb (un_name u) (un_name v) && list_eqb range_eqb (un_ranges u) (un_ranges v) &&
    list_eqb N.eqb (map t_offset (un_types u)) (map t_offset (un_types v)) &&
    list_eqb N.eqb (map fn_offset (un_functions u)) (map fn_offset (un_functions v)) &&
    list_eqb N.eqb (map va_offset (un_variables u)) (map va_offset (un_variables v)).
  (** The input that a unit was read from; the last two units were not read. *)
  Definition unit_origin (u : unit) : option unit_input :=
    option_map snd (find (fun p => like_unit (fst p) u) (combine loaded_units (ob_units ob))).
  Definition unit_dir (u : unit) : option string :=
    match unit_origin u with Some x => ui_dir x | None => None end.
  Definition unit_first_pc (u : unit) : option N :=
    match unit_origin u with Some x => DieModel.unit_low_pc (ui_lines x) (ui_attrs x) | None => None end.
  Definition unit_number (u : unit) : nat :=
    id_where (fun x => match x with ItUnit v => like_unit v u | _ => false end).

  Definition load : image :=
    mkImage file_scene (ob_path ob) loaded_units kept_sections unit_dir unit_first_pc unit_number.

  (** ** Comparisons within the file *)

  (** [Type::cmp_id] within one file. *)
  Definition type_compare (a b : type) : comparison :=
    match cmp_id false depth_limit type_at a type_at b with Ord c => c | _ => Eq end.
  (** types.rs:1493-1507, [ParameterType::cmp_id]. *)
  Definition parameter_compare (a b : parameter_type) : comparison :=
    match from_offset type_at (pt_ty a), from_offset type_at (pt_ty b) with
    | Some x, Some y => type_compare x y
    | Some _, None => Lt
    | None, Some _ => Gt
    | None, None => Eq
    end.
  (** main/src/print/function.rs:312-321. *)
  Fixpoint parameters_compare (a b : list parameter_type) : comparison :=
    match a, b with
    | x :: a', y :: b' => match parameter_compare x y with Eq => parameters_compare a' b' | c => c end
    | [], [] => Eq
    | [], _ :: _ => Lt
    | _ :: _, [] => Gt
    end.
  Definition parameters_of (f : func) : list parameter_type :=
    match read_function (fn_offset f) with Some g => fu_parameters g | None => [] end.
  Definition compare_parameters : param_cmp :=
    fun _ a _ b => parameters_compare (parameters_of a) (parameters_of b).
End Load.

(** ** Output *)

(** text.rs:19-28, [TextPrinter::new], and main.rs:548-565, [format], for text. *)
Definition text_output (o : options) (d : pdoc) : text :=
  fst (print_doc text_printer false d (text_start (N.to_nat (o_inline_depth o)))).
Definition diff_output (o : options) (d : ddoc) : text :=
  fst (fst (diff_doc text_printer false false d (text_start (N.to_nat (o_inline_depth o))) false)).

(** main.rs:544-546, [print_file]: what is written to standard output; [None] if an error is reported. *)
Definition print_output (fuel : nat) (choice : N -> nat) (o : options) (ob : object_input) : option text :=
  option_map (text_output o) (print_file o (compare_parameters ob) fuel (load choice ob)).
(** main.rs:521-532, [diff_file], for a file and itself. *)
Definition self_diff_output (choose : list N -> list N -> list (list N) -> nat -> nat) (fuel : nat)
    (choice : N -> nat) (o : options) (ob : object_input) : option text :=
  option_map (diff_output o)
    (diff_file choose o (compare_parameters ob) fuel
       (mkImages (load choice ob) (load choice ob) (type_compare ob))).
