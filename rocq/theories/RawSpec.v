(** Specification vocabulary for what is read from the values of attributes. *)
From Coq Require Import List Arith NArith ZArith Bool String Ascii.
From Verif Require Import Base RangeModel TypeModel LocationModel DieModel ReadModel ReadSpec ItemModel WholeModel RawModel.
Import ListNotations.
Local Open Scope N_scope.

(** ** Entries *)

Fixpoint raw_entries (d : raw_die) : list raw_die :=
  let '(RawDie _ _ _ children) := d in d :: flat_map raw_entries children.
(** The entries of a unit below its root. *)
Definition raw_below (u : raw_unit) : list raw_die := flat_map raw_entries (rd_children (ru_root u)).

(** Units do not overlap, and each has its root after the header and its entries at different places within it; all
    places are 64-bit numbers, without the one that stands for no offset. *)
Definition raw_well_formed (rf : raw_file) : Prop :=
  units_apart (map ru_place (rf_units rf)) /\
  forall u, In u (rf_units rf) ->
    ud_end (ru_place u) <= u64_max /\
    NoDup (map rd_offset (raw_entries (ru_root u))) /\
    forall d, In d (raw_entries (ru_root u)) -> inside_unit (ud_begin (ru_place u) + rd_offset d) (ru_place u).

(** ** Values *)

(** The entry that a reference in unit [u] is to: by a place in the unit itself, or in the section. *)
Inductive refers (rf : raw_file) (u : raw_unit) : raw_value -> raw_unit -> raw_die -> Prop :=
| rfs_unit d : In d (raw_entries (ru_root u)) -> refers rf u (RwUnitRef (rd_offset d)) u d
| rfs_info o x d : In x (rf_units rf) -> In d (raw_entries (ru_root x)) -> o = ud_begin (ru_place x) + rd_offset d ->
    refers rf u (RwInfoRef o) x d.

(** The string that starts at a place in a section. *)
Definition starts_at (section : list N) (o : N) (bytes : list N) : Prop :=
  exists before after, section = before ++ bytes ++ 0 :: after /\ N.of_nat (List.length before) = o /\ ~ In 0 bytes.
Definition text_of (bytes : list N) : string := string_of_list_ascii (map ascii_of_N bytes).
(** The string that a value stands for. *)
Inductive says (rf : raw_file) (u : raw_unit) : raw_value -> string -> Prop :=
| sys_inline bytes : says rf u (RwString bytes) (text_of bytes)
| sys_section o bytes : starts_at (rf_strings rf) o bytes -> says rf u (RwStrRef o) (text_of bytes)
| sys_lines o bytes : starts_at (rf_line_strings rf) o bytes -> says rf u (RwLineStrRef o) (text_of bytes)
| sys_index before o after bytes :
    ru_string_offsets u = before ++ o :: after -> starts_at (rf_strings rf) o bytes ->
    says rf u (RwStrIndex (N.of_nat (List.length before))) (text_of bytes).

(** The address that a value stands for. *)
Inductive addresses (u : raw_unit) : raw_value -> N -> Prop :=
| ads_given a : addresses u (RwAddress a) a
| ads_index before a after : ru_addresses u = before ++ a :: after ->
    addresses u (RwAddressIndex (N.of_nat (List.length before))) a.

(** Number [n] of a table whose first number is [first]. *)
Definition numbered {A} (first n : N) (table : list A) (x : A) : Prop :=
  exists before after, table = before ++ x :: after /\ n = first + N.of_nat (List.length before).
(** File [n] of a line table, and directory [n].  The numbers start with 1 before version 5, and then number 0 is the
    directory of the compilation; later they start with 0. *)
Definition file_numbered (l : raw_lines) (n : N) (path : raw_value) (d : N) : Prop :=
  numbered (if rl_version l <? 5 then 1 else 0) n (rl_files l) (path, d).
Definition directory_numbered (l : raw_lines) (n : N) (dir : raw_value) : Prop :=
  numbered (if rl_version l <? 5 then 1 else 0) n (rl_directories l) dir \/
  rl_version l < 5 /\ n = 0 /\ rl_comp_dir l = Some dir.

(** ** Attributes *)

(** The last attribute that is one of these. *)
Definition last_such (P : N * raw_value -> Prop) (attrs : list (N * raw_value)) (a : N * raw_value) : Prop :=
  exists before after, attrs = before ++ a :: after /\ P a /\ forall b, In b after -> ~ P b.
Definition no_such (P : N * raw_value -> Prop) (attrs : list (N * raw_value)) : Prop :=
  forall a, In a attrs -> ~ P a.
(** Attributes by their numbers in the DWARF standard (section 7.5.4), whatever their values. *)
Definition is_name (a : N * raw_value) : Prop := fst a = 0x03.
Definition is_linkage_name (a : N * raw_value) : Prop := fst a = 0x6e \/ fst a = 0x2007.
Definition is_comp_dir (a : N * raw_value) : Prop := fst a = 0x1b.
(** Attributes with values of a kind. *)
Definition reference_in (codes : list N) (a : N * raw_value) : Prop :=
  In (fst a) codes /\ exists o, snd a = RwUnitRef o \/ snd a = RwInfoRef o.
Definition is_type_reference := reference_in [0x49].
Definition is_end_address (a : N * raw_value) : Prop := fst a = 0x12 /\ forall n, snd a <> RwConst (UnsignedData n).
Definition is_length (a : N * raw_value) : Prop := fst a = 0x12 /\ exists n, n <> 0 /\ snd a = RwConst (UnsignedData n).
(** A start address; 0 is one only in a unit that starts there. *)
Definition is_start_address (u : raw_unit) (base : option N) (a : N * raw_value) : Prop :=
  fst a = 0x11 /\ exists n, addresses u (snd a) n /\ (n = 0 -> base = Some 0).
(** A line or column (number [code]) of a declaration. *)
Definition is_position (code : N) (a : N * raw_value) : Prop :=
  fst a = code /\ exists n, 0 < n < 2 ^ 32 /\ snd a = RwConst (UnsignedData n).
(** A source file that the line table has; also one whose directory it has.  File 0 stands for none. *)
Definition is_file (u : raw_unit) (a : N * raw_value) (path : raw_value) : Prop :=
  fst a = 0x3a /\ exists n l d, snd a = RwFileIndex n /\ n <> 0 /\ ru_lines u = Some l /\ file_numbered l n path d.
Definition is_file_in (u : raw_unit) (a : N * raw_value) (dir : raw_value) : Prop :=
  fst a = 0x3a /\ exists n l path d, snd a = RwFileIndex n /\ n <> 0 /\ ru_lines u = Some l /\
    file_numbered l n path d /\ directory_numbered l d dir.
(** The number that a constant stands for where no sign is given otherwise. *)
Inductive counts : raw_value -> Z -> Prop :=
| cts_fixed k n : counts (RwConst (FixedData k n)) (Z.of_N n)
| cts_signed z : counts (RwConst (SignedData z)) z
| cts_unsigned n : counts (RwConst (UnsignedData n)) (Z.of_N n).
Definition is_language (a : N * raw_value) : Prop := fst a = 0x13 /\ exists c, snd a = RwLanguage c.
Definition is_encoding (a : N * raw_value) : Prop := fst a = 0x3e /\ exists c, snd a = RwEncoding c.
Definition is_endianity (a : N * raw_value) : Prop := fst a = 0x65 /\ exists c, snd a = RwEndianity c.

(** The string of a value, if it is one. *)
Inductive says_maybe (rf : raw_file) (u : raw_unit) (v : raw_value) : option string -> Prop :=
| sym_string s : says rf u v s -> says_maybe rf u v (Some s)
| sym_other : (forall s, ~ says rf u v s) -> says_maybe rf u v None.
(** A name of an entry, given by attributes of a kind; if the last of them is no string, there is none. *)
Inductive named (rf : raw_file) (u : raw_unit) (P : N * raw_value -> Prop) (attrs : list (N * raw_value)) : option string -> Prop :=
| nmd_none : no_such P attrs -> named rf u P attrs None
| nmd_string a s : last_such P attrs a -> says rf u (snd a) s -> named rf u P attrs (Some s)
| nmd_other a : last_such P attrs a -> (forall s, ~ says rf u (snd a) s) -> named rf u P attrs None.

(** The numbers of the attributes and tags, as in the standard (and those of GNU). *)
Definition attr_codes (a : attr) : list N :=
  match a with
  | AName _ => [0x03] | ALinkageName _ => [0x6e; 0x2007] | AType _ => [0x49] | ASpecification _ => [0x47]
  | AAbstractOrigin _ => [0x31] | AContainingType _ => [0x1d] | ADiscr _ => [0x15] | ADiscrValue _ => [0x16]
  | ADeclaration _ => [0x3c] | AInline _ => [0x20] | ALowPc _ => [0x11] | AHighPcSize _ => [0x12]
  | AHighPcAddress _ => [0x12] | ARanges _ => [0x55] | ADeclFile _ => [0x3a] | ADeclLine _ => [0x3b]
  | ADeclColumn _ => [0x39] | AByteSize _ => [0x0b] | ABitSize _ => [0x0d] | ABitOffset _ => [0x0c]
  | ADataBitOffset _ => [0x6b] | ADataMemberLocation _ => [0x38] | ACount _ => [0x37] | ALowerBound _ => [0x22]
  | AUpperBound _ => [0x2f] | ALocation _ => [0x02] | ACallFile _ => [0x58] | ACallLine _ => [0x59]
  | ACallColumn _ => [0x57] | ACallOrigin _ => [0x7f] | ACallTail => [0x82; 0x2115]
  | ACallTarget false _ => [0x83; 0x2113] | ACallTarget true _ => [0x84; 0x2114] | ACallReturnPc _ => [0x7d]
  | ACallPc _ => [0x81] | ACallParameter _ => [0x80] | ACallValue _ => [0x7e; 0x2111]
  | ACallDataLocation _ => [0x85] | ACallDataValue _ => [0x86] | AOther n => [n]
  end.
Definition tag_codes (t : tag) : list N :=
  match t with
  | TagNamespace => [0x39] | TagSubprogram => [0x2e] | TagVariable => [0x34] | TagParameter => [0x05]
  | TagLexicalBlock => [0x0b] | TagInlined => [0x1d] | TagBase => [0x24] | TagTypedef => [0x16]
  | TagStructure => [0x13] | TagClass => [0x02] | TagUnion => [0x17] | TagEnumeration => [0x04]
  | TagUnspecified => [0x3b] | TagArray => [0x01] | TagSubrange => [0x21] | TagSubroutine => [0x15]
  | TagPtrToMember => [0x1f]
  | TagModifier MPointer => [0x0f] | TagModifier MReference => [0x10] | TagModifier MRvalueReference => [0x42]
  | TagModifier MConst => [0x26] | TagModifier MPacked => [0x2d] | TagModifier MRestrict => [0x37]
  | TagModifier MShared => [0x40] | TagModifier MVolatile => [0x35] | TagModifier MAtomic => [0x47]
  | TagModifier _ => []
  | TagMember => [0x0d] | TagInheritance => [0x1c] | TagVariantPart => [0x33] | TagVariant => [0x19]
  | TagCallSite false => [0x48] | TagCallSite true => [0x4109] | TagCallParameter => [0x49; 0x410a]
  | TagOther n => [n]
  end.

(** Range lists and location lists: by offset, or by an index into the offsets that the unit has. *)
Inductive lists {A} (by_offset : N -> raw_value) (by_index : N -> raw_value) (offsets : list N) (at_offset : N -> option A) :
    raw_value -> A -> Prop :=
| lst_offset o l : at_offset o = Some l -> lists by_offset by_index offsets at_offset (by_offset o) l
| lst_index i o l : numbered 0 i offsets o -> at_offset o = Some l -> lists by_offset by_index offsets at_offset (by_index i) l.
(** What becomes of attributes with values of the proper kinds. *)
Inductive reads (rf : raw_file) (u : raw_unit) : N * raw_value -> attr -> Prop :=
| rds_declaration b : reads rf u (0x3c, RwFlag b) (ADeclaration (Some b))
| rds_not_inlined c : c = 0 \/ c = 2 -> reads rf u (0x20, RwInline c) (AInline (Some false))
| rds_inlined c : c = 1 \/ c = 3 -> reads rf u (0x20, RwInline c) (AInline (Some true))
| rds_ranges v l : lists RwRanges RwRangesIndex (ru_range_offsets u) (ru_ranges u) v l ->
    reads rf u (0x55, v) (ARanges (Some l))
| rds_locations v l : lists RwLocations RwLocationsIndex (ru_location_offsets u) (ru_locations u) v l ->
    reads rf u (0x02, v) (ALocation (PList l))
| rds_expression m ps ops : reads rf u (0x02, RwExpression m ps ops) (ALocation (PExpression ps ops))
| rds_member_unsigned n : reads rf u (0x38, RwConst (UnsignedData n)) (ADataMemberLocation (MUdata n))
| rds_member_signed z : reads rf u (0x38, RwConst (SignedData z)) (ADataMemberLocation (MSdata z))
| rds_member_expression m ps ops : reads rf u (0x38, RwExpression m ps ops) (ADataMemberLocation (MExpression m))
| rds_specification v x d : refers rf u v x d ->
    reads rf u (0x47, v) (ASpecification (Some (ud_begin (ru_place x) + rd_offset d)))
| rds_origin v x d : refers rf u v x d ->
    reads rf u (0x31, v) (AAbstractOrigin (Some (ud_begin (ru_place x) + rd_offset d)))
| rds_containing v x d : refers rf u v x d ->
    reads rf u (0x1d, v) (AContainingType (Some (ud_begin (ru_place x) + rd_offset d)))
| rds_discr v x d : refers rf u v x d -> reads rf u (0x15, v) (ADiscr (Some (ud_begin (ru_place x) + rd_offset d)))
| rds_call_origin v x d : refers rf u v x d ->
    reads rf u (0x7f, v) (ACallOrigin (Some (ud_begin (ru_place x) + rd_offset d)))
| rds_call_parameter v x d : refers rf u v x d ->
    reads rf u (0x80, v) (ACallParameter (Some (ud_begin (ru_place x) + rd_offset d)))
| rds_call_file v path dir p s : is_file u (0x3a, v) path -> is_file_in u (0x3a, v) dir ->
    says_maybe rf u path p -> says_maybe rf u dir s -> reads rf u (0x58, v) (ACallFile (Some (p, Some s)))
| rds_call_line n : reads rf u (0x59, RwConst (UnsignedData n)) (ACallLine (Some n))
| rds_call_column n : reads rf u (0x57, RwConst (UnsignedData n)) (ACallColumn (Some n))
| rds_return_pc v a : addresses u v a -> reads rf u (0x7d, v) (ACallReturnPc (Some a))
| rds_call_pc v a : addresses u v a -> reads rf u (0x81, v) (ACallPc (Some a))
| rds_call_value c m ps ops : c = 0x7e \/ c = 0x2111 -> reads rf u (c, RwExpression m ps ops) (ACallValue (Some ops))
| rds_call_target c m ps ops : c = 0x83 \/ c = 0x2113 ->
    reads rf u (c, RwExpression m ps ops) (ACallTarget false (Some ops))
| rds_call_clobbered c m ps ops : c = 0x84 \/ c = 0x2114 ->
    reads rf u (c, RwExpression m ps ops) (ACallTarget true (Some ops))
| rds_data_location m ps ops : reads rf u (0x85, RwExpression m ps ops) (ACallDataLocation (Some ops))
| rds_data_value m ps ops : reads rf u (0x86, RwExpression m ps ops) (ACallDataValue (Some ops)).

(** The entries of enumerators ([DW_TAG_enumerator]), their names and constants. *)
Definition enumerator_entries (d : raw_die) : list raw_die := filter (fun c => rd_tag c =? 0x28) (rd_children d).
Inductive enumerator_reads (rf : raw_file) (u : raw_unit) (unsigned : bool) (d : raw_die) (e : enumerator) : Prop :=
| enr_intro :
    named rf u is_name (rd_attrs d) (en_name e) ->
    (forall a c v, last_such (fun a => fst a = 0x1c /\ exists c v, snd a = RwConst c /\ const_means unsigned c v) (rd_attrs d) a ->
       snd a = RwConst c -> const_means unsigned c v -> en_value e = v) ->
    (no_such (fun a => fst a = 0x1c /\ exists c v, snd a = RwConst c /\ const_means unsigned c v) (rd_attrs d) -> en_value e = EvOther) ->
    enumerator_reads rf u unsigned d e.
