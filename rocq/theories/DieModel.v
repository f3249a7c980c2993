(** Model of the walk over the debugging information entries of a unit in
    /repo/parser/src/file/dwarf.rs:468-2412 and 3156-3245: which functions, types and variables
    a unit has, and what is in them.

    Decoding is done by gimli: the model starts from the tree of entries.  An attribute is
    given by what the accessor that the code uses for it returns; errors of gimli, which
    end the parsing of the file, are not modelled.  Only the attributes and tags that the code acts
    on have constructors of their own.  Arithmetic wraps as in release mode, and [Size::new] and
    [Address::new] do not check that their argument is not [!0].

    The loop over the attributes of an entry is written as one loop for each field that it
    sets.  The loop over the children of an entry is likewise written as one loop for what it
    adds to the unit and one for what it adds to the entry's own item.  Fields left out of
    the types in TypeModel.v are left out here, too. *)
From Coq Require Import List Arith NArith ZArith Bool String.
From Verif Require Import Base RangeModel NamespaceModel TypeModel LocationModel.
Import ListNotations.
Local Open Scope N_scope.

(** ** Entries *)

(** A constant attribute value; [None] for a value that is no constant. *)
Definition constant := option Z.

(** gimli's [Attribute::udata_value]. *)
Definition udata (v : constant) : option N :=
  match v with
  | Some z => if (z <? 0)%Z then None else Some (Z.to_N z)
  | None => None
  end.

(** dwarf.rs:1731-1757: the forms of [DW_AT_data_member_location].  [MExpression] carries the
    result of [evaluate]. *)
Inductive member_place :=
| MUdata (v : N)
| MSdata (v : Z)
| MExpression (pieces : list gimli_piece)
| MLocationList (offset : N)
| MUnknown.

(** The forms of [DW_AT_location].  [PExpression] carries the result of gimli's evaluator and
    the operations. *)
Inductive place_value :=
| PExpression (pieces : list gimli_piece) (ops : list op)
| PList (l : list (range * list op))
| PUnknown.

(** [DW_AT_...]: references to other entries are section offsets.  For the attributes of call sites,
    the GNU variants are the same constructors, and the operations are [None] for a value that is no
    expression. *)
Inductive attr :=
| AName (v : option string)
| ALinkageName (v : option string)
| AType (v : option N)
| ASpecification (v : option N)
| AAbstractOrigin (v : option N)
| AContainingType (v : option N)
| ADiscr (v : option N)
| ADiscrValue (v : constant)
| ADeclaration (v : option bool)
| AInline (v : option bool)
| ALowPc (v : option N)
| AHighPcSize (v : N)
| AHighPcAddress (v : option N)
| ARanges (v : option (list (N * N)))
| ADeclFile (v : option (option string * option (option string)))
| ADeclLine (v : option N)
| ADeclColumn (v : option N)
| AByteSize (v : constant)
| ABitSize (v : constant)
| ABitOffset (v : constant)
| ADataBitOffset (v : constant)
| ADataMemberLocation (v : member_place)
| ACount (v : constant)
| ALowerBound (v : constant)
| AUpperBound (v : constant)
| ALocation (v : place_value)
| ACallFile (v : option (option string * option (option string)))
| ACallLine (v : option N)
| ACallColumn (v : option N)
| ACallOrigin (v : option N)
| ACallTail
| ACallTarget (clobbered : bool) (v : option (list op))
| ACallReturnPc (v : option N)
| ACallPc (v : option N)
| ACallParameter (v : option N)
| ACallValue (v : option (list op))
| ACallDataLocation (v : option (list op))
| ACallDataValue (v : option (list op))
| AOther (n : N).

(** [DW_TAG_...]. *)
Inductive tag :=
| TagNamespace | TagSubprogram | TagVariable | TagParameter | TagLexicalBlock | TagInlined
| TagBase | TagTypedef | TagStructure | TagClass | TagUnion | TagEnumeration
| TagUnspecified | TagArray | TagSubrange | TagSubroutine | TagPtrToMember
| TagModifier (k : modifier_kind)
| TagMember | TagInheritance | TagVariantPart | TagVariant
| TagCallSite (gnu : bool) | TagCallParameter
| TagOther (n : N).

Inductive die := Die (t : tag) (offset : N) (attrs : list attr) (children : list die).
Definition die_tag (d : die) := let '(Die t _ _ _) := d in t.
Definition die_offset (d : die) := let '(Die _ o _ _) := d in o.
Definition die_attrs (d : die) := let '(Die _ _ a _) := d in a.
Definition die_children (d : die) := let '(Die _ _ _ c) := d in c.

(** What the code asks of the unit while walking: [unit.low_pc] and [unit.language] as
    set at dwarf.rs:586 and 500, the byte order, the header's version and address size, and
    the tree at an offset ([entries_tree]). *)
Record context := mkContext {
  cx_low_pc : option N; cx_rust : bool; cx_big_endian : bool; cx_version : N;
  cx_address_size : N; cx_tree : N -> option die }.

(** ** Attributes *)

(** [for attr in entry.attrs()], for one field. *)
Definition scan {A} (f : attr -> A -> A) (l : list attr) (x : A) : A :=
  fold_left (fun x a => f a x) l x.

(** [gimli::DW_AT_name => x.name = dwarf.string(..)]. *)
Definition attr_name (l : list attr) : option string :=
  scan (fun a x => match a with AName v => v | _ => x end) l None.
Definition attr_linkage_name (l : list attr) : option string :=
  scan (fun a x => match a with ALinkageName v => v | _ => x end) l None.
(** [gimli::DW_AT_type => if let Some(offset) = parse_type_offset(..) { x.ty = offset; }]. *)
Definition attr_type (l : list attr) : type_offset :=
  scan (fun a x => match a with AType (Some o) => o | _ => x end) l type_offset_none.
Definition attr_containing_type (l : list attr) : type_offset :=
  scan (fun a x => match a with AContainingType (Some o) => o | _ => x end) l type_offset_none.
(** [gimli::DW_AT_byte_size => if let Some(byte_size) = attr.udata_value() { .. }]. *)
Definition attr_byte_size (l : list attr) : opt64 :=
  scan (fun a x => match a with AByteSize v => match udata v with Some n => n | None => x end | _ => x end)
    l opt64_none.
Definition attr_declaration (l : list attr) : bool :=
  scan (fun a x => match a with ADeclaration (Some b) => b | _ => x end) l false.

(** parser/src/source.rs:4-10, [Source]. *)
Record source := mkSource {
  so_directory : option string; so_file : option string; so_line : N; so_column : N }.
Definition no_source : source := mkSource None None 0 0.
(** source.rs:28-31. *)
Definition source_is_none (s : source) : bool := is_none (so_file s).

(** dwarf.rs:4289-4290: line 0 and lines over [u32::MAX] are not stored. *)
Definition position (v : option N) (x : N) : N :=
  match v with Some n => if (negb (n =? 0)) && (n <=? 4294967295) then n else x | None => x end.

(** dwarf.rs:4247-4316, [parse_source_file], [parse_source_line], [parse_source_column]. *)
Definition attr_source (l : list attr) : source :=
  scan (fun a s =>
    match a with
    | ADeclFile (Some (file, Some dir)) => mkSource dir file (so_line s) (so_column s)
    | ADeclFile (Some (file, None)) => mkSource (so_directory s) file (so_line s) (so_column s)
    | ADeclLine v => mkSource (so_directory s) (so_file s) (position v (so_line s)) (so_column s)
    | ADeclColumn v => mkSource (so_directory s) (so_file s) (so_line s) (position v (so_column s))
    | _ => s
    end) l no_source.

(** ** Functions *)

(** types.rs:1471-1475, [ParameterType]. *)
Record parameter_type := mkParameterType {
  pt_offset : N; pt_name : option string; pt_ty : type_offset }.

(** parser/src/function.rs:57-73, [Function]; [id] and [symbol_name] are set later. *)
Record dw_function := mkFunction {
  fu_offset : N; fu_namespace : option namespace; fu_name : option string;
  fu_linkage_name : option string; fu_source : source;
  fu_address : opt64; fu_size : opt64; fu_ranges : list range;
  fu_inline : bool; fu_declaration : bool;
  fu_parameters : list parameter_type; fu_return : type_offset }.

Definition with_parameters (f : dw_function) (ps : list parameter_type) : dw_function :=
  mkFunction (fu_offset f) (fu_namespace f) (fu_name f) (fu_linkage_name f) (fu_source f)
    (fu_address f) (fu_size f) (fu_ranges f) (fu_inline f) (fu_declaration f) ps (fu_return f).

(** dwarf.rs:2238-2247: [val] tells whether the value is one of the two inlined ones. *)
Definition attr_inline (l : list attr) : bool :=
  scan (fun a x => match a with AInline (Some b) => b | _ => x end) l false.
(** dwarf.rs:2256-2265: address 0 is not one, unless the unit starts there. *)
Definition attr_low_pc (unit_low_pc : option N) (l : list attr) : opt64 :=
  scan (fun a x =>
    match a with
    | ALowPc (Some n) =>
        if negb (n =? 0) || match unit_low_pc with Some 0 => true | _ => false end then n else x
    | _ => x
    end) l opt64_none.
(** dwarf.rs:2266-2275. *)
Definition attr_size (l : list attr) : option N :=
  scan (fun a x => match a with AHighPcSize n => if n =? 0 then x else Some n | _ => x end) l None.
Definition attr_high_pc (l : list attr) : option N :=
  scan (fun a x => match a with AHighPcAddress v => v | _ => x end) l None.
(** dwarf.rs:2276-2278. *)
Definition attr_ranges (l : list attr) : option (list (N * N)) :=
  scan (fun a x => match a with ARanges v => v | _ => x end) l None.
(** dwarf.rs:2284-2289: the reference, and whether it is an abstract origin. *)
Definition attr_specification (l : list attr) : option (N * bool) :=
  scan (fun a x =>
    match a with
    | ASpecification (Some o) => Some (o, false)
    | AAbstractOrigin (Some o) => Some (o, true)
    | _ => x
    end) l None.

(** dwarf.rs:2331-2339: the ranges that are not empty, and their total size. *)
Definition nonempty_ranges (l : list (N * N)) : list range :=
  flat_map (fun p => if fst p <? snd p then [mkRange (fst p) (snd p)] else []) l.
Definition total_size (l : list (N * N)) : N :=
  fold_left (fun size p => if fst p <? snd p then add64 size (sub64 (snd p) (fst p)) else size) l 0.

(** dwarf.rs:2328-2360: address, size and ranges. *)
Definition subprogram_extent (unit_low_pc : option N) (l : list attr) : opt64 * opt64 * list range :=
  match attr_ranges l with
  | Some rs =>
      let ranges := nonempty_ranges rs in
      (match ranges with r :: _ => rbegin r | [] => 0 end, total_size rs, ranges)
  | None =>
      let low := attr_low_pc unit_low_pc l in
      match opt64_get low with
      | None => (low, opt64_none, [])
      | Some address =>
          match attr_high_pc l with
          | Some high_pc =>
              if address <? high_pc
              then (low, sub64 high_pc address, [mkRange address high_pc])
              else (low, opt64_none, [])
          | None =>
              match attr_size l with
              | Some size => (low, size, [mkRange address (add64 address size)])
              | None => (low, opt64_none, [])
              end
          end
      end
  end.

(** dwarf.rs:2208-2360: the function an entry describes, without its children. *)
Definition own_function (unit_low_pc : option N) (ns : option namespace) (off : N) (l : list attr)
  : dw_function :=
  let '(address, size, ranges) := subprogram_extent unit_low_pc l in
  mkFunction off ns (attr_name l) (attr_linkage_name l) (attr_source l) address size ranges
    (attr_inline l) (attr_declaration l) [] (attr_type l).

(** dwarf.rs:2380-2412, [inherit_subprogram], given the function that is referred to. *)
Definition inherit_function (origin f : dw_function) (abstract_origin : bool) : dw_function :=
  mkFunction (fu_offset f) (fu_namespace origin)
    (if is_none (fu_name f) then fu_name origin else fu_name f)
    (if is_none (fu_linkage_name f) then fu_linkage_name origin else fu_linkage_name f)
    (if source_is_none (fu_source f) then fu_source origin else fu_source f)
    (fu_address f) (fu_size f) (fu_ranges f) (fu_inline f) (fu_declaration f)
    (if abstract_origin then fu_parameters origin else fu_parameters f)
    (if fu_return f =? type_offset_none then fu_return origin else fu_return f).

(** dwarf.rs:2500-2504. *)
Definition attr_abstract_origin (l : list attr) : option N :=
  scan (fun a x => match a with AAbstractOrigin (Some o) => Some o | _ => x end) l None.

(** dwarf.rs:2545-2556: the first parameter at the offset gets the name and type given. *)
Fixpoint update_parameter (origin : N) (p : parameter_type) (l : list parameter_type)
  : option (list parameter_type) :=
  match l with
  | [] => None
  | q :: l' =>
      if pt_offset q =? origin then
        Some (mkParameterType (pt_offset q)
                (if is_none (pt_name p) then pt_name q else pt_name p)
                (if pt_ty p =? type_offset_none then pt_ty q else pt_ty p) :: l')
      else option_map (cons q) (update_parameter origin p l')
  end.

(** dwarf.rs:2487-2572, [parse_parameter_type]. *)
Definition parse_parameter_type (l : list parameter_type) (off : N) (attrs : list attr)
  : list parameter_type :=
  let p := mkParameterType off (attr_name attrs) (attr_type attrs) in
  match attr_abstract_origin attrs with
  | Some origin => match update_parameter origin p l with Some l' => l' | None => l ++ [p] end
  | None => l ++ [p]
  end.

(** dwarf.rs:2430-2434 and 2085-2088: the loop over the children, for parameters. *)
Definition parse_parameter_types (children : list die) (l : list parameter_type)
  : list parameter_type :=
  fold_left (fun l d =>
    match d with
    | Die TagParameter off attrs _ => parse_parameter_type l off attrs
    | _ => l
    end) children l.

(** ** Variables *)

(** parser/src/variable.rs:45-58, [Variable]. *)
Record dw_variable := mkVariable {
  vr_offset : N; vr_namespace : option namespace; vr_name : option string;
  vr_linkage_name : option string; vr_ty : type_offset; vr_source : source;
  vr_address : opt64; vr_size : opt64; vr_declaration : bool }.

(** dwarf.rs:3201-3216. *)
Definition attr_variable_location (l : list attr) : opt64 * opt64 :=
  scan (fun a x =>
    match a with
    | ALocation (PExpression pieces _) =>
        match variable_location pieces with
        | Some (address, size) => (address, if opt64_is_some size then size else snd x)
        | None => x
        end
    | _ => x
    end) l (opt64_none, opt64_none).

(** dwarf.rs:3187-3191. *)
Definition attr_variable_specification (l : list attr) : option N :=
  scan (fun a x => match a with ASpecification (Some o) => Some o | _ => x end) l None.

(** dwarf.rs:3156-3245, [parse_variable]. *)
Definition parse_variable (ns : option namespace) (off : N) (l : list attr) : dw_variable :=
  mkVariable off ns (attr_name l) (attr_linkage_name l) (attr_type l) (attr_source l)
    (fst (attr_variable_location l)) (snd (attr_variable_location l)) (attr_declaration l).

(** dwarf.rs:719-731: the fields taken from the variable that is referred to. *)
Definition inherit_variable (origin v : dw_variable) : dw_variable :=
  mkVariable (vr_offset v) (vr_namespace origin)
    (if is_none (vr_name v) then vr_name origin else vr_name v)
    (if is_none (vr_linkage_name v) then vr_linkage_name origin else vr_linkage_name v)
    (if vr_ty v =? type_offset_none then vr_ty origin else vr_ty v)
    (vr_source v) (vr_address v) (vr_size v) (vr_declaration v).

(** ** Members *)

(** dwarf.rs:1723-1760, [parse_data_member_location]. *)
Definition parse_data_member_location (cx : context) (v : member_place) : option N :=
  match v with
  | MUdata n => Some (mul64 n 8)
  | MSdata z => if (0 <=? z)%Z then Some (mul64 (Z.to_N z) 8) else None
  | MExpression pieces => member_location pieces
  | MLocationList o => if cx_version cx =? 3 then Some (mul64 o 8) else None
  | MUnknown => None
  end.

(** dwarf.rs:1569-1578: two attributes set [member.bit_offset]. *)
Definition attr_bit_offset (cx : context) (l : list attr) : N :=
  scan (fun a x =>
    match a with
    | ADataMemberLocation v =>
        match parse_data_member_location cx v with Some n => n | None => x end
    | ADataBitOffset v => match udata v with Some n => n | None => x end
    | _ => x
    end) l 0.
(** dwarf.rs:1579-1589. *)
Definition attr_field_offset (l : list attr) : option N :=
  scan (fun a x => match a with ABitOffset v => udata v | _ => x end) l None.
Definition attr_storage_size (l : list attr) : option N :=
  scan (fun a x => match a with AByteSize v => udata v | _ => x end) l None.
Definition attr_bit_size (l : list attr) : opt64 :=
  scan (fun a x => match a with ABitSize v => match udata v with Some n => n | None => x end | _ => x end)
    l opt64_none.
(** dwarf.rs:1590-1592: the presence of the attribute. *)
Definition is_static (l : list attr) : bool :=
  scan (fun a x => match a with ADeclaration _ => true | _ => x end) l false.

(** dwarf.rs:1632-1660: the position of the member, once the attributes are known. *)
Definition field_position (big_endian : bool) (place : N) (field : option N) (bit_size : opt64)
    (byte_size : option N) : N :=
  match field, opt64_get bit_size with
  | Some bit_offset, Some bits =>
      if big_endian then add64 place bit_offset
      else match byte_size with
           | Some bytes => sub64 (add64 place (mul64 bytes 8)) (add64 bit_offset bits)
           | None => place
           end
  | _, _ => place
  end.

(** dwarf.rs:1540-1675, [parse_member], for a member that is not static. *)
Definition parse_member (cx : context) (off : N) (l : list attr) : member :=
  mkMember off (attr_name l) (attr_type l)
    (field_position (cx_big_endian cx) (attr_bit_offset cx l) (attr_field_offset l)
       (attr_bit_size l) (attr_storage_size l))
    (attr_bit_size l).

(** The members among some children. *)
Definition members_of (cx : context) (children : list die) : list member :=
  flat_map (fun d =>
    match d with
    | Die TagMember off attrs _ => if is_static attrs then [] else [parse_member cx off attrs]
    | _ => []
    end) children.

(** dwarf.rs:1616-1629: the static members among some children. *)
Definition statics_of (ns : option namespace) (children : list die) : list dw_variable :=
  flat_map (fun d =>
    match d with
    | Die TagMember off attrs _ => if is_static attrs then [parse_variable ns off attrs] else []
    | _ => []
    end) children.

(** dwarf.rs:1677-1721, [parse_inheritance]. *)
Definition parse_inheritance (cx : context) (l : list attr) : inherit :=
  mkInherit (attr_type l)
    (scan (fun a x =>
       match a with
       | ADataMemberLocation v =>
           match parse_data_member_location cx v with Some n => n | None => x end
       | _ => x
       end) l 0).
Definition inherits_of (cx : context) (children : list die) : list inherit :=
  flat_map (fun d =>
    match d with Die TagInheritance _ attrs _ => [parse_inheritance cx attrs] | _ => [] end) children.

(** dwarf.rs:1500-1509: the structure that is the only member of a Rust variant. *)
Definition variant_structure (cx : context) (members : list member) : option die :=
  if cx_rust cx then
    match members with
    | [m] =>
        if m_ty m =? type_offset_none then None
        else match cx_tree cx (m_ty m) with
             | Some (Die TagStructure o a c) => Some (Die TagStructure o a c)
             | _ => None
             end
    | _ => None
    end
  else None.

(** dwarf.rs:1511-1513: an absent name leaves the variant without one. *)
Definition variant_name (s : option die) : option string :=
  match s with Some d => attr_name (die_attrs d) | None => None end.

(** dwarf.rs:1440-1538, [parse_variant]. *)
Definition parse_variant (cx : context) (attrs : list attr) (children : list die) : variant :=
  let members := members_of cx children in
  let s := variant_structure cx members in
  mkVariant
    (scan (fun a x =>
       match a with
       | ADiscrValue v => match udata v with Some n => Some n | None => x end
       | _ => x
       end) attrs None)
    (variant_name s)
    match s with Some d => members_of cx (die_children d) | None => members end.
Definition variants_of (cx : context) (children : list die) : list variant :=
  flat_map (fun d =>
    match d with Die TagVariant _ attrs c => [parse_variant cx attrs c] | _ => [] end) children.

(** dwarf.rs:1387-1438, [parse_variant_part]. *)
Definition parse_variant_part (cx : context) (attrs : list attr) (children : list die) : variant_part :=
  mkVariantPart
    (scan (fun a x => match a with ADiscr (Some o) => o | _ => x end) attrs u64_max)
    (variants_of cx children).
Definition variant_parts_of (cx : context) (children : list die) : list variant_part :=
  flat_map (fun d =>
    match d with Die TagVariantPart _ attrs c => [parse_variant_part cx attrs c] | _ => [] end) children.

(** dwarf.rs:1418-1422: the members in the variant parts among some children count as
    members, in the order of the entries. *)
Definition structure_members (cx : context) (children : list die) : list member :=
  flat_map (fun d =>
    match d with
    | Die TagVariantPart _ _ c => members_of cx c
    | Die TagMember _ _ _ => members_of cx [d]
    | _ => []
    end) children.

(** dwarf.rs:1470-1479 and 1519-1530: the static members of a variant, including those of the
    structure it stands for, which are parsed again. *)
Definition variant_statics (cx : context) (ns : option namespace) (children : list die)
  : list dw_variable :=
  statics_of ns children
  ++ match variant_structure cx (members_of cx children) with
     | Some d => statics_of ns (die_children d)
     | None => []
     end.
Definition variant_part_statics (cx : context) (ns : option namespace) (children : list die)
  : list dw_variable :=
  flat_map (fun d =>
    match d with
    | Die TagVariant _ _ c => variant_statics cx ns c
    | _ => statics_of ns [d]
    end) children.

(** ** Types that are not kept with the unit *)

(** dwarf.rs:1942-1959: the bounds of one dimension. *)
Definition attr_count (l : list attr) : option N :=
  scan (fun a x => match a with ACount v => udata v | _ => x end) l None.
Definition attr_lower (l : list attr) : option N :=
  scan (fun a x => match a with ALowerBound v => udata v | _ => x end) l None.
Definition attr_upper (l : list attr) : option N :=
  scan (fun a x => match a with AUpperBound v => udata v | _ => x end) l None.

(** dwarf.rs:1965-1981: the number of elements of one dimension. *)
Definition dimension (count lower upper : option N) : opt64 :=
  match count, upper with
  | Some n, _ => n
  | None, Some u =>
      let lo := match lower with Some n => n | None => 0 end in
      if u <? lo then opt64_none
      else if u - lo =? u64_max then opt64_none else u - lo + 1
  | None, None => opt64_none
  end.

(** dwarf.rs:1909-1996, [parse_array_type]. *)
Definition parse_array_type (attrs : list attr) (children : list die) : array_type :=
  let counts :=
    flat_map (fun d =>
      match d with
      | Die TagSubrange _ a _ => [dimension (attr_count a) (attr_lower a) (attr_upper a)]
      | _ => []
      end) children in
  let '(count, many) :=
    match counts with [c] => (c, []) | _ => (opt64_none, counts) end in
  mkArray (attr_type attrs) count many (attr_byte_size attrs).

(** dwarf.rs:1998-2062, [parse_subrange_type]. *)
Definition keep_udata (v : constant) (x : option N) : option N :=
  match udata v with Some n => Some n | None => x end.
Definition parse_subrange_type (l : list attr) : subrange :=
  let lower := scan (fun a x => match a with ALowerBound v => keep_udata v x | _ => x end) l None in
  let upper := scan (fun a x => match a with AUpperBound v => keep_udata v x | _ => x end) l None in
  let count := scan (fun a x => match a with ACount v => keep_udata v x | _ => x end) l None in
  mkSubrange (attr_name l) (attr_type l) lower
    match lower, count with Some n, Some c => Some (add64 n c) | _, _ => upper end
    (attr_byte_size l).

(** dwarf.rs:2064-2101, [parse_subroutine_type]. *)
Definition parse_subroutine_type (cx : context) (attrs : list attr) (children : list die)
  : function_type :=
  mkFunctionType (map pt_ty (parse_parameter_types children [])) (attr_type attrs)
    (cx_address_size cx).

(** dwarf.rs:2138-2195, [parse_pointer_to_member_type], and 1036-1088, [parse_type_modifier]. *)
Definition parse_pointer_to_member_type (cx : context) (l : list attr) : ptr_to_member :=
  mkPtrToMember (attr_type l) (attr_containing_type l) (attr_byte_size l) (Some (cx_address_size cx)).
Definition parse_type_modifier (cx : context) (k : modifier_kind) (l : list attr) : modifier :=
  mkModifier k (attr_type l) (attr_name l) (attr_byte_size l) (Some (cx_address_size cx)).

(** dwarf.rs:954-1034, [parse_unnamed_type]. *)
Definition parse_unnamed_type (cx : context) (d : die) : option type :=
  match d with
  | Die t off attrs children =>
      match t with
      | TagArray => Some (mkType off (TArray (parse_array_type attrs children)))
      | TagSubrange => Some (mkType off (TSubrange (parse_subrange_type attrs)))
      | TagSubroutine => Some (mkType off (TFunction (parse_subroutine_type cx attrs children)))
      | TagPtrToMember => Some (mkType off (TPtrToMember (parse_pointer_to_member_type cx attrs)))
      | TagModifier k => Some (mkType off (TModifier (parse_type_modifier cx k attrs)))
      | _ => None
      end
  end.

(** ** The walk *)

(** dwarf.rs:391-396, [DwarfSubprogram].  The entry's children are kept instead of its offset,
    from which the code finds them again (dwarf.rs:643, 674). *)
Record pending := mkPending {
  pe_children : list die; pe_specification : N; pe_abstract_origin : bool;
  pe_function : dw_function }.

(** What the walk adds to: [unit.types], [unit.functions], [unit.variables], [subprograms]
    and [variables]; of [DwarfVariable] (dwarf.rs:398-402) the specification and the variable. *)
Record walk_state := mkWalk {
  ws_types : list type; ws_functions : list dw_function; ws_variables : list dw_variable;
  ws_subprograms : list pending; ws_deferred : list (N * dw_variable) }.

Definition push_type (t : type) (s : walk_state) : walk_state :=
  mkWalk (ws_types s ++ [t]) (ws_functions s) (ws_variables s) (ws_subprograms s) (ws_deferred s).
Definition push_function (f : dw_function) (s : walk_state) : walk_state :=
  mkWalk (ws_types s) (ws_functions s ++ [f]) (ws_variables s) (ws_subprograms s) (ws_deferred s).
Definition push_variables (l : list dw_variable) (s : walk_state) : walk_state :=
  mkWalk (ws_types s) (ws_functions s) (ws_variables s ++ l) (ws_subprograms s) (ws_deferred s).
Definition push_subprogram (p : pending) (s : walk_state) : walk_state :=
  mkWalk (ws_types s) (ws_functions s) (ws_variables s) (ws_subprograms s ++ [p]) (ws_deferred s).
Definition push_deferred (v : N * dw_variable) (s : walk_state) : walk_state :=
  mkWalk (ws_types s) (ws_functions s) (ws_variables s) (ws_subprograms s) (ws_deferred s ++ [v]).
Definition set_functions (l : list dw_function) (s : walk_state) : walk_state :=
  mkWalk (ws_types s) l (ws_variables s) (ws_subprograms s) (ws_deferred s).
Definition set_subprograms (l : list pending) (s : walk_state) : walk_state :=
  mkWalk (ws_types s) (ws_functions s) (ws_variables s) l (ws_deferred s).

(** The function whose loop over children is running: [parse_namespace_children],
    [parse_subprogram_children], [parse_lexical_block], [parse_structure_type],
    [parse_union_type] or [parse_enumeration_type]. *)
Inductive parent := InNamespace | InSubprogram | InBlock | InStructure | InUnion | InEnumeration.

Definition function_namespace (f : dw_function) : option namespace :=
  Some (Ns (fu_namespace f) (fu_name f) KFunction).

Section Walk.
  Variable cx : context.

  (** The bodies of the loops over children: dwarf.rs:770-814 (with 818-857,
      [parse_namespace]), 2431-2483, 2705-2757, 1261-1313, 1361-1383 and 1812-1831; with
      [parse_subprogram] (2196-2378) and [parse_type] (891-952), whose structures, unions and
      enumerations are at 1210-1314, 1316-1385 and 1762-1834. *)
  Fixpoint parse_child (p : parent) (ns : option namespace) (d : die) (s : walk_state) {struct d}
    : walk_state :=
    match d with
    | Die t off attrs children =>
        let inside := fun p' ns' s' => fold_left (fun s c => parse_child p' ns' c s) children s' in
        let type_ns := Some (Ns ns (attr_name attrs) KType) in
        match t, p with
        | TagSubprogram, _ =>
            let f := own_function (cx_low_pc cx) ns off attrs in
            match attr_specification attrs with
            | Some (o, abstract_origin) =>
                push_subprogram (mkPending children o abstract_origin f) s
            | None =>
                push_function (with_parameters f (parse_parameter_types children []))
                  (inside InSubprogram (function_namespace f) s)
            end
        | _, InEnumeration => s
        | TagNamespace, InNamespace =>
            inside InNamespace (Some (Ns ns (attr_name attrs) KNamespace)) s
        | TagVariable, InNamespace =>
            let v := parse_variable ns off attrs in
            match attr_variable_specification attrs with
            | Some o => push_deferred (o, v) s
            | None => push_variables [v] s
            end
        | TagLexicalBlock, (InSubprogram | InBlock) => inside InBlock ns s
        | TagMember, (InStructure | InUnion) => push_variables (statics_of ns [d]) s
        | TagVariantPart, InStructure => push_variables (variant_part_statics cx ns children) s
        | TagBase, _ => push_type (mkType off (TBase (mkBase (attr_name attrs) (attr_byte_size attrs)))) s
        | TagTypedef, _ =>
            push_type (mkType off (TDef (mkDef ns (attr_name attrs) (attr_type attrs)))) s
        | (TagStructure | TagClass), _ =>
            push_type
              (mkType off (TStruct (mkStruct ns (attr_name attrs) (attr_byte_size attrs)
                 (attr_declaration attrs) (structure_members cx children)
                 (variant_parts_of cx children) (inherits_of cx children))))
              (inside InStructure type_ns s)
        | TagUnion, _ =>
            push_type
              (mkType off (TUnion (mkUnion ns (attr_name attrs) (attr_byte_size attrs)
                 (attr_declaration attrs) (members_of cx children))))
              (inside InUnion type_ns s)
        | TagEnumeration, _ =>
            push_type
              (mkType off (TEnum (mkEnum ns (attr_name attrs) (attr_declaration attrs)
                 (attr_type attrs) (attr_byte_size attrs))))
              (inside InEnumeration type_ns s)
        | TagUnspecified, _ =>
            push_type (mkType off (TUnspecified (mkUnspecified ns (attr_name attrs)))) s
        | _, _ => s
        end
    end.

  (** A whole loop over children. *)
  Definition parse_children (p : parent) (ns : option namespace) (children : list die)
      (s : walk_state) : walk_state :=
    fold_left (fun s c => parse_child p ns c s) children s.

  (** ** Specifications *)

  (** [BTreeMap::insert] for items with their offset as the key: a list ordered by key. *)
  Section Map.
    Context {A : Type}.
    Variable key : A -> N.
    Fixpoint map_insert (x : A) (m : list A) : list A :=
      match m with
      | [] => [x]
      | y :: m' =>
          match N.compare (key x) (key y) with
          | Lt => x :: m
          | Eq => x :: m'
          | Gt => y :: map_insert x m'
          end
      end.
    Definition map_get (k : N) (m : list A) : option A := find (fun x => key x =? k) m.
    Definition map_insert_all (l m : list A) : list A := fold_left (fun m x => map_insert x m) l m.
  End Map.

  (** dwarf.rs:643-657 and 674-688: the children of a function are parsed, and it and the
      functions found among them are put in the map. *)
  Definition add_subprogram (f : dw_function) (children : list die)
      (st : list dw_function * walk_state) : list dw_function * walk_state :=
    let '(m, s) := st in
    let s' := parse_children InSubprogram (function_namespace f) children s in
    let f' := with_parameters f (parse_parameter_types children (fu_parameters f)) in
    (map_insert_all fu_offset (ws_functions s') (map_insert fu_offset f' m), set_functions [] s').

  (** dwarf.rs:636-662: one pass over the waiting functions.  The last component is
      [progress]. *)
  Definition resolve_one (st : list dw_function * walk_state * bool) (p : pending)
    : list dw_function * walk_state * bool :=
    let '(m, s, progress) := st in
    match map_get fu_offset (pe_specification p) m with
    | Some origin =>
        (add_subprogram (inherit_function origin (pe_function p) (pe_abstract_origin p))
           (pe_children p) (m, s), true)
    | None => (m, push_subprogram p s, progress)
    end.

  (** dwarf.rs:632-690: the loop.  [None] is a loop that has not ended within [fuel] passes. *)
  Fixpoint resolve (fuel : nat) (st : list dw_function * walk_state)
    : option (list dw_function * walk_state) :=
    match ws_subprograms (snd st) with
    | [] => Some st
    | waiting =>
        match fuel with
        | O => None
        | S fuel' =>
            let '(m, s, progress) :=
              fold_left resolve_one waiting (fst st, set_subprograms [] (snd st), false) in
            if progress then resolve fuel' (m, s)
            else
              resolve fuel'
                (fold_left (fun st p => add_subprogram (pe_function p) (pe_children p) st)
                   (ws_subprograms s) (m, set_subprograms [] s))
        end
    end.

  (** dwarf.rs:611-693, [fixup_subprogram_specifications]. *)
  Definition fixup_subprograms (fuel : nat) (s : walk_state) : option walk_state :=
    match
      resolve fuel (map_insert_all fu_offset (ws_functions s) [], set_functions [] s)
    with
    | Some (m, s') => Some (set_functions m s')
    | None => None
    end.

  (** dwarf.rs:715-738: one pass over the waiting variables. *)
  Definition resolve_variable (st : list dw_variable * list (N * dw_variable) * bool)
      (p : N * dw_variable) : list dw_variable * list (N * dw_variable) * bool :=
    let '(m, defer, progress) := st in
    match map_get vr_offset (fst p) m with
    | Some origin => (map_insert vr_offset (inherit_variable origin (snd p)) m, defer, true)
    | None => (m, defer ++ [p], progress)
    end.

  (** dwarf.rs:711-751: the loop.  When a pass makes no progress, what is drained into the
      map is [variables], which is empty by then. *)
  Fixpoint resolve_variables (fuel : nat) (m : list dw_variable) (variables : list (N * dw_variable))
    : option (list dw_variable) :=
    match fuel with
    | O => None
    | S fuel' =>
        let '(m', defer, progress) := fold_left resolve_variable variables (m, [], false) in
        match defer with
        | [] => Some m'
        | _ => if progress then resolve_variables fuel' m' defer else Some m'
        end
    end.

  (** dwarf.rs:695-756, [fixup_variable_specifications]. *)
  Definition fixup_variables (fuel : nat) (s : walk_state) : option walk_state :=
    match resolve_variables fuel (map_insert_all vr_offset (ws_variables s) []) (ws_deferred s) with
    | Some m => Some (mkWalk (ws_types s) (ws_functions s) m (ws_subprograms s) (ws_deferred s))
    | None => None
    end.

  (** ** Units *)

  Definition no_items : walk_state := mkWalk [] [] [] [] [].

  (** The number of entries: no loop below needs more passes. *)
  Fixpoint die_count (d : die) : nat :=
    match d with Die _ _ _ children => S (list_sum (map die_count children)) end.
  Definition dies_count (l : list die) : nat := list_sum (map die_count l).

  (** dwarf.rs:588-607: the end of [parse_unit], given the entries of the unit. *)
  Definition parse_items (children : list die) : option walk_state :=
    match
      fixup_subprograms (S (dies_count children)) (parse_children InNamespace None children no_items)
    with
    | Some s => fixup_variables (S (List.length (ws_deferred s))) s
    | None => None
    end.
End Walk.

(** The tree at an offset, searched for among some entries. *)
Fixpoint find_die (off : N) (d : die) : option die :=
  match d with
  | Die t o a children =>
      if o =? off then Some d
      else
        (fix go (l : list die) : option die :=
           match l with
           | [] => None
           | c :: l' => match find_die off c with Some x => Some x | None => go l' end
           end) children
  end.

(** ** The unit's own attributes *)

(** What the line-number program delivers: each row's address and whether it ends a sequence. *)
Definition line_rows := list (N * bool).

(** dwarf.rs:540-557: the sequences that do not start at 0. *)
Definition line_ranges (rows : line_rows) : list range :=
  fst
    (fold_left
       (fun st row =>
          let '(ranges, seq) := st in
          match row, seq with
          | (addr, true), Some a => (if a =? 0 then ranges else push ranges (mkRange a addr), None)
          | (_, true), None => (ranges, None)
          | (addr, false), None => (ranges, Some addr)
          | (_, false), Some _ => (ranges, seq)
          end) rows ([], None)).

(** dwarf.rs:504-505 and 507-516. *)
Definition attr_unit_low_pc (l : list attr) : option N :=
  scan (fun a x => match a with ALowPc v => v | _ => x end) l None.
Definition attr_unit_size (l : list attr) : option N :=
  scan (fun a x => match a with AHighPcSize n => Some n | _ => x end) l None.
Definition attr_unit_high_pc (l : list attr) : option N :=
  scan (fun a x => match a with AHighPcAddress (Some n) => Some n | _ => x end) l None.

(** [u64::checked_add]. *)
Definition checked_add (a b : N) : option N := if a + b <? two64 then Some (a + b) else None.

(** dwarf.rs:535-584: the ranges of the unit, before they are sorted.  [RangeList::push] is
    used for all of them. *)
Definition unit_ranges_pushed (program : option line_rows) (l : list attr) : range_list :=
  match program, attr_ranges l, attr_unit_low_pc l with
  | Some rows, _, _ => line_ranges rows
  | None, Some rs, _ => push_all [] (nonempty_ranges rs)
  | None, None, Some low =>
      match
        match attr_unit_high_pc l, attr_unit_size l with
        | Some h, _ => Some h
        | None, Some size => checked_add low size
        | None, None => None
        end
      with
      | Some high => push [] (mkRange low high)
      | None => []
      end
  | None, None, None => []
  end.

(** dwarf.rs:535-586: [unit.ranges] and [unit.low_pc]. *)
Definition unit_ranges (program : option line_rows) (l : list attr) : range_list :=
  rl_sort (unit_ranges_pushed program l).
Definition unit_low_pc (program : option line_rows) (l : list attr) : option N :=
  match unit_ranges program l with r :: _ => Some (rbegin r) | [] => None end.
