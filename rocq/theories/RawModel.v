(** Model of what /repo/parser/src/file/dwarf.rs makes of the values that gimli delivers for attributes: strings
    (269-278), offsets (280-343 and 4124-4190), addresses, source files (4247-4316), encodings (1107-1140), enumerators
    (1842-1911), and of the start of [parse_unit] (470-519).

    A file is given here as gimli delivers it: units with their headers, and entries with numbers for tags and
    attributes and gimli's [AttributeValue]s.  [read_file] makes of it what WholeModel.v starts from.

    Simplified: strings are the bytes that the file has, also if they are no UTF-8, which the code replaces
    (parser/src/file/mod.rs, [add_string]).  Of the errors that end the reading of a file, only the
    one for a unit that is no compilation unit is there: an index that is not in its table is like an attribute with an unknown
    value.  Range lists, location lists and expressions are given as gimli's iterators and its evaluator
    deliver them. *)
From Coq Require Import List Arith NArith ZArith Bool String Ascii.
From Verif Require Import Base RangeModel NamespaceModel TypeModel FileModel LocationModel DieModel ReadModel CodeModel ItemModel EntryModel
  WholeModel.
Import ListNotations.
Local Open Scope N_scope.

(** ** What gimli delivers *)

(** [AttributeValue].  [RwConst] is [Udata], [Sdata] and [Data1] to [Data8].  [RwExpression] has the pieces that an evaluation
    with and without the address of an object gives, and the operations. *)
Inductive raw_value :=
| RwAddress (a : N)
| RwAddressIndex (i : N)
| RwConst (c : const_form)
| RwFlag (b : bool)
| RwUnitRef (o : N)
| RwInfoRef (o : N)
| RwString (bytes : list N)
| RwStrRef (o : N)
| RwLineStrRef (o : N)
| RwStrIndex (i : N)
| RwFileIndex (n : N)
| RwEncoding (code : N)
| RwEndianity (code : N)
| RwInline (code : N)
| RwLanguage (code : N)
| RwRanges (o : N)
| RwRangesIndex (i : N)
| RwExpression (member pieces : list gimli_piece) (ops : list op)
| RwLocations (o : N)
| RwLocationsIndex (i : N)
| RwOther.

(** [DebuggingInformationEntry]: tag, offset within the unit, attributes, children. *)
Inductive raw_die := RawDie (t offset : N) (attrs : list (N * raw_value)) (children : list raw_die).
Definition rd_tag (d : raw_die) : N := let '(RawDie t _ _ _) := d in t.
Definition rd_offset (d : raw_die) : N := let '(RawDie _ o _ _) := d in o.
Definition rd_attrs (d : raw_die) : list (N * raw_value) := let '(RawDie _ _ a _) := d in a.
Definition rd_children (d : raw_die) : list raw_die := let '(RawDie _ _ _ c) := d in c.

(** [LineProgramHeader] and the rows of the program. *)
Record raw_lines := mkRawLines {
  rl_version : N; rl_comp_dir : option raw_value; rl_directories : list raw_value;
  rl_files : list (raw_value * N); rl_rows : line_rows }.

(** [Unit]: where it is in [.debug_info], its root entry, the parts of the header, and the tables for
    indices, which start at the bases that the unit has. *)
Record raw_unit := mkRawUnit {
  ru_place : unit_place; ru_root : raw_die; ru_lines : option raw_lines; ru_version : N; ru_address_size : N;
  ru_addresses : list N; ru_string_offsets : list N;
  ru_range_offsets : list N; ru_ranges : N -> option (list (N * N));
  ru_location_offsets : list N; ru_locations : N -> option (list (range * list op)) }.

(** The file; [rf_strings] and [rf_line_strings] are [.debug_str] and [.debug_line_str]. *)
Record raw_file := mkRawFile {
  rf_path : string; rf_big_endian : bool; rf_segments : list segment; rf_sections : list object_section;
  rf_symbols : list object_symbol; rf_units : list raw_unit; rf_strings : list N; rf_line_strings : list N;
  rf_register : N -> option string; rf_program : option program }.

(** ** Values *)

Definition entry_of {A} (table : list A) (i : N) : option A := nth_error table (N.to_nat i).

Definition bytes_string (bytes : list N) : string :=
  fold_right (fun b s => String (ascii_of_N b) s) EmptyString bytes.
(** gimli's [get_str]: up to the first byte that is 0. *)
Fixpoint c_string (bytes : list N) : option string :=
  match bytes with
  | [] => None
  | b :: l => if b =? 0 then Some EmptyString else option_map (String (ascii_of_N b)) (c_string l)
  end.
Definition string_at (section : list N) (o : N) : option string := c_string (skipn (N.to_nat o) section).

Section Unit.
  Variable rf : raw_file.
  Variable u : raw_unit.

  (** dwarf.rs:269-278, [string], with gimli's [attr_string]. *)
  Definition attr_string (v : raw_value) : option string :=
    match v with
    | RwString bytes => Some (bytes_string bytes)
    | RwStrRef o => string_at (rf_strings rf) o
    | RwLineStrRef o => string_at (rf_line_strings rf) o
    | RwStrIndex i => match entry_of (ru_string_offsets u) i with Some o => string_at (rf_strings rf) o | None => None end
    | _ => None
    end.
  (** gimli's [attr_address]. *)
  Definition attr_address (v : raw_value) : option N :=
    match v with
    | RwAddress a => Some a
    | RwAddressIndex i => entry_of (ru_addresses u) i
    | _ => None
    end.
  (** dwarf.rs:4124-4139, [parse_debug_info_offset]. *)
  Definition info_offset (v : raw_value) : option N :=
    match v with
    | RwUnitRef o => Some (ud_begin (ru_place u) + o)
    | RwInfoRef o => Some o
    | _ => None
    end.
  (** gimli's [attr_ranges_offset] and [ranges]; [attr_locations_offset] and [locations]. *)
  Definition attr_ranges (v : raw_value) : option (list (N * N)) :=
    match v with
    | RwRanges o => ru_ranges u o
    | RwRangesIndex i => match entry_of (ru_range_offsets u) i with Some o => ru_ranges u o | None => None end
    | _ => None
    end.
  Definition attr_locations (v : raw_value) : option (list (range * list op)) :=
    match v with
    | RwLocations o => ru_locations u o
    | RwLocationsIndex i => match entry_of (ru_location_offsets u) i with Some o => ru_locations u o | None => None end
    | _ => None
    end.

  (** gimli's [LineProgramHeader::file] and [directory]: up to version 4, tables start with number 1, and directory 0 is
      that of the unit. *)
  Definition line_file (l : raw_lines) (n : N) : option (raw_value * N) :=
    if rl_version l <=? 4 then (if n =? 0 then None else entry_of (rl_files l) (n - 1)) else entry_of (rl_files l) n.
  Definition line_directory (l : raw_lines) (n : N) : option raw_value :=
    if rl_version l <=? 4 then (if n =? 0 then rl_comp_dir l else entry_of (rl_directories l) (n - 1))
    else entry_of (rl_directories l) n.
  (** dwarf.rs:4247-4273, [parse_source_file]: what it sets the file to, and the directory, if it does. *)
  Definition source_file (v : raw_value) : option (option string * option (option string)) :=
    match v with
    | RwFileIndex n =>
        if n =? 0 then None
        else
          match ru_lines u with
          | Some l =>
              match line_file l n with
              | Some (path, d) => Some (attr_string path, option_map attr_string (line_directory l d))
              | None => None
              end
          | None => None
          end
    | _ => None
    end.
  (** dwarf.rs:4276-4316: only [Udata] counts. *)
  Definition udata_only (v : raw_value) : option N := match v with RwConst (UnsignedData n) => Some n | _ => None end.

  (** [udata_value] takes all of these; see [udata]. *)
  Definition raw_constant (v : raw_value) : constant :=
    match v with
    | RwConst (FixedData _ n) => Some (Z.of_N n)
    | RwConst (SignedData z) => Some z
    | RwConst (UnsignedData n) => Some (Z.of_N n)
    | _ => None
    end.
  Definition raw_flag (v : raw_value) : option bool := match v with RwFlag b => Some b | _ => None end.
  (** dwarf.rs:2246-2255: [DW_INL_inlined] and [DW_INL_declared_inlined]. *)
  Definition raw_inline (v : raw_value) : option bool :=
    match v with RwInline c => Some ((c =? 1) || (c =? 3)) | _ => None end.
  (** dwarf.rs:2266-2275. *)
  Definition raw_high_pc (v : raw_value) : attr :=
    match v with RwConst (UnsignedData n) => AHighPcSize n | _ => AHighPcAddress (attr_address v) end.
  (** dwarf.rs:1731-1757. *)
  Definition raw_member_place (v : raw_value) : member_place :=
    match v with
    | RwConst (UnsignedData n) => MUdata n
    | RwConst (SignedData z) => MSdata z
    | RwExpression member _ _ => MExpression member
    | RwLocations o => MLocationList o
    | _ => MUnknown
    end.
  (** dwarf.rs:2603-2624, 3202-3217 and 3283-3309. *)
  Definition raw_place (v : raw_value) : place_value :=
    match v with
    | RwExpression _ pieces ops => PExpression pieces ops
    | _ => match attr_locations v with Some l => PList l | None => PUnknown end
    end.
  (** dwarf.rs:3403-3411 and 3489-3532. *)
  Definition raw_ops (v : raw_value) : option (list op) := match v with RwExpression _ _ ops => Some ops | _ => None end.

  (** ** Attributes *)

  (** The numbers of [DW_AT_...] that the code looks for, and what it takes from their values. *)
  Definition attribute_table : list (N * (raw_value -> attr)) := [
    (0x02, fun v => ALocation (raw_place v));
    (0x03, fun v => AName (attr_string v));
    (0x0b, fun v => AByteSize (raw_constant v));
    (0x0c, fun v => ABitOffset (raw_constant v));
    (0x0d, fun v => ABitSize (raw_constant v));
    (0x11, fun v => ALowPc (attr_address v));
    (0x12, raw_high_pc);
    (0x15, fun v => ADiscr (info_offset v));
    (0x16, fun v => ADiscrValue (raw_constant v));
    (0x1d, fun v => AContainingType (info_offset v));
    (0x20, fun v => AInline (raw_inline v));
    (0x22, fun v => ALowerBound (raw_constant v));
    (0x2f, fun v => AUpperBound (raw_constant v));
    (0x31, fun v => AAbstractOrigin (info_offset v));
    (0x37, fun v => ACount (raw_constant v));
    (0x38, fun v => ADataMemberLocation (raw_member_place v));
    (0x39, fun v => ADeclColumn (udata_only v));
    (0x3a, fun v => ADeclFile (source_file v));
    (0x3b, fun v => ADeclLine (udata_only v));
    (0x3c, fun v => ADeclaration (raw_flag v));
    (0x47, fun v => ASpecification (info_offset v));
    (0x49, fun v => AType (info_offset v));
    (0x55, fun v => ARanges (attr_ranges v));
    (0x57, fun v => ACallColumn (udata_only v));
    (0x58, fun v => ACallFile (source_file v));
    (0x59, fun v => ACallLine (udata_only v));
    (0x6b, fun v => ADataBitOffset (raw_constant v));
    (0x6e, fun v => ALinkageName (attr_string v));
    (0x2007, fun v => ALinkageName (attr_string v));
    (0x7d, fun v => ACallReturnPc (attr_address v));
    (0x7e, fun v => ACallValue (raw_ops v));
    (0x7f, fun v => ACallOrigin (info_offset v));
    (0x80, fun v => ACallParameter (info_offset v));
    (0x81, fun v => ACallPc (attr_address v));
    (0x82, fun _ => ACallTail);
    (0x83, fun v => ACallTarget false (raw_ops v));
    (0x84, fun v => ACallTarget true (raw_ops v));
    (0x85, fun v => ACallDataLocation (raw_ops v));
    (0x86, fun v => ACallDataValue (raw_ops v));
    (0x2111, fun v => ACallValue (raw_ops v));
    (0x2113, fun v => ACallTarget false (raw_ops v));
    (0x2114, fun v => ACallTarget true (raw_ops v));
    (0x2115, fun _ => ACallTail) ].
  Definition read_attr (a : N * raw_value) : attr :=
    match find (fun p => fst p =? fst a) attribute_table with
    | Some (_, f) => f (snd a)
    | None => AOther (fst a)
    end.
End Unit.

(** The numbers of [DW_TAG_...] that the code looks for. *)
Definition tag_table : list (N * tag) := [
  (0x01, TagArray); (0x02, TagClass); (0x04, TagEnumeration); (0x05, TagParameter); (0x0b, TagLexicalBlock);
  (0x0d, TagMember); (0x0f, TagModifier MPointer); (0x10, TagModifier MReference); (0x13, TagStructure);
  (0x15, TagSubroutine); (0x16, TagTypedef); (0x17, TagUnion); (0x19, TagVariant); (0x1c, TagInheritance);
  (0x1d, TagInlined); (0x1f, TagPtrToMember); (0x21, TagSubrange); (0x24, TagBase); (0x26, TagModifier MConst);
  (0x2d, TagModifier MPacked); (0x2e, TagSubprogram); (0x33, TagVariantPart); (0x34, TagVariable);
  (0x35, TagModifier MVolatile); (0x37, TagModifier MRestrict); (0x39, TagNamespace); (0x3b, TagUnspecified);
  (0x40, TagModifier MShared); (0x42, TagModifier MRvalueReference); (0x47, TagModifier MAtomic);
  (0x48, TagCallSite false); (0x49, TagCallParameter); (0x4109, TagCallSite true); (0x410a, TagCallParameter) ].
Definition read_tag (n : N) : tag :=
  match find (fun p => fst p =? n) tag_table with Some (_, t) => t | None => TagOther n end.

Section File.
  Variable rf : raw_file.

  (** An entry; offsets are within the section. *)
  Fixpoint read_die (u : raw_unit) (d : raw_die) : die :=
    let '(RawDie t o attrs children) := d in
    Die (read_tag t) (ud_begin (ru_place u) + o) (map (read_attr rf u) attrs) (map (read_die u) children).

  (** ** Units *)

  (** dwarf.rs:495-497 and 499-503; [DW_LANG_Rust] is 0x1c. *)
  Definition unit_comp_dir (u : raw_unit) : option string :=
    fold_left (fun x a => if fst a =? 0x1b then attr_string rf u (snd a) else x) (rd_attrs (ru_root u)) None.
  Definition unit_language (u : raw_unit) : option N :=
    fold_left (fun x a => if fst a =? 0x13 then match snd a with RwLanguage c => Some c | _ => x end else x)
      (rd_attrs (ru_root u)) None.
  Definition read_unit (u : raw_unit) : unit_input :=
    mkUnitInput (map (read_attr rf u) (rd_attrs (ru_root u))) (map (read_die u) (rd_children (ru_root u)))
      (option_map rl_rows (ru_lines u)) (unit_comp_dir u)
      match unit_language u with Some c => c =? 0x1c | None => false end
      (ru_version u) (ru_address_size u) (entry_of (ru_addresses u)).

  (** ** Entries by offset *)

  (** gimli's [entries_tree], by an offset within the unit. *)
  Fixpoint raw_find (o : N) (d : raw_die) : option raw_die :=
    let '(RawDie t o' attrs children) := d in
    if o' =? o then Some d
    else
      (fix first (l : list raw_die) : option raw_die :=
         match l with
         | [] => None
         | c :: l' => match raw_find o c with Some x => Some x | None => first l' end
         end) children.
  (** dwarf.rs:280-314, [unit] and [tree]. *)
  Fixpoint tree_in (us : list raw_unit) (off : N) : option (raw_unit * raw_die) :=
    match us with
    | [] => None
    | u :: us' =>
        match to_unit_offset off (ru_place u) with
        | Some o => match raw_find o (ru_root u) with Some d => Some (u, d) | None => None end
        | None => tree_in us' off
        end
    end.
  Definition raw_tree (off : N) : option (raw_unit * raw_die) := tree_in (rf_units rf) off.

  (** ** Base types and enumerations *)

  (** dwarf.rs:1107-1124. *)
  Definition raw_encoding (attrs : list (N * raw_value)) : encoding :=
    fold_left (fun x a => if fst a =? 0x3e then match snd a with RwEncoding c => encoding_of_code c | _ => x end else x)
      attrs EncOther.
  (** dwarf.rs:1125-1137. *)
  Definition endianity_of_code (code : N) : endianity :=
    if code =? 1 then EndBig else if code =? 2 then EndLittle else EndDefault.
  Definition raw_endianity (attrs : list (N * raw_value)) : endianity :=
    fold_left (fun x a => if fst a =? 0x65 then match snd a with RwEndianity c => endianity_of_code c | _ => x end else x)
      attrs EndDefault.
  (** dwarf.rs:1862-1911, [parse_enumerator]. *)
  Definition read_enumerator_attr (u : raw_unit) (a : N * raw_value) : enumerator_attr :=
    if fst a =? 0x03 then EnName (attr_string rf u (snd a))
    else if fst a =? 0x1c then EnConst match snd a with RwConst c => c | _ => NoConst end
    else EnOther.
  (** dwarf.rs:1842-1860, [parse_enumerators]; [DW_TAG_enumerator] is 0x28. *)
  Definition read_enumerators (u : raw_unit) (d : raw_die) : list (option (list enumerator_attr)) :=
    map (fun c => if rd_tag c =? 0x28 then Some (map (read_enumerator_attr u) (rd_attrs c)) else None) (rd_children d).

  Definition at_entry {A} (default : A) (f : raw_unit -> raw_die -> A) (off : N) : A :=
    match raw_tree off with Some (u, d) => f u d | None => default end.

  (** dwarf.rs:458-467: [None] is the error at 486-488; [DW_TAG_compile_unit] is 0x11. *)
  Definition read_file : option object_input :=
    if forallb (fun u => rd_tag (ru_root u) =? 0x11) (rf_units rf) then
      Some (mkObjectInput (rf_path rf) (rf_big_endian rf) (rf_segments rf) (rf_sections rf) (rf_symbols rf)
              (map read_unit (rf_units rf))
              (at_entry EncOther (fun _ d => raw_encoding (rd_attrs d)))
              (at_entry EndDefault (fun _ d => raw_endianity (rd_attrs d)))
              (at_entry [] read_enumerators)
              (rf_register rf) (rf_program rf))
    else None.
End File.
