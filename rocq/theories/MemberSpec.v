(** What members, arrays and the types of a unit should be: a specification that refers to the
    entries and to memory, and to nothing of the parser. *)
From Coq Require Import List NArith ZArith Bool String Permutation.
From Verif Require Import Base NamespaceModel TypeModel LocationModel DieModel DieSpec.
Import ListNotations.
Local Open Scope N_scope.

(** ** Bit-fields *)

(** The bytes of a structure, by their offset. *)
Definition bytes := N -> N.

(** The bit at a position in a structure: positions count from the least significant bit of each
    byte if the byte order is little endian, and from the most significant bit if it is
    big endian. *)
Definition bit_at (big_endian : bool) (mem : bytes) (p : N) : bool :=
  N.testbit (mem (p / 8)) (if big_endian then 7 - p mod 8 else p mod 8).

(** Bit [i], counting from the least significant one, of the value of a field with [size] bits
    at a position. *)
Definition field_bit (big_endian : bool) (mem : bytes) (position size i : N) : bool :=
  bit_at big_endian mem (if big_endian then position + (size - 1 - i) else position + i).

(** The value of an object of some bytes. *)
Fixpoint value_of (l : list N) : N :=
  match l with [] => 0 | b :: l' => b + 256 * value_of l' end.
Definition object_value (big_endian : bool) (mem : bytes) (offset : N) (size : nat) : N :=
  let l := map (fun k => mem (offset + N.of_nat k)) (seq 0 size) in
  value_of (if big_endian then rev l else l).

(** A field that starts [skip] bits below the most significant bit of an object: the way that
    DWARF 2 and 3 describe bit-fields. *)
Definition field_value (object : N) (object_size : nat) (skip size : N) : N :=
  N.shiftr object (8 * N.of_nat object_size - skip - size) mod 2 ^ size.

(** What the attributes say. *)
Definition nonnegative (v : constant) : option N :=
  match v with Some z => if (z <? 0)%Z then None else Some (Z.to_N z) | None => None end.
Definition given_byte_size :=
  fun l => given (fun a => match a with AByteSize v => nonnegative v | _ => None end) l opt64_none.
Definition given_bit_size :=
  fun l => given (fun a => match a with ABitSize v => nonnegative v | _ => None end) l opt64_none.

(** No attribute is given twice. *)
Definition attr_kind (a : attr) : N :=
  match a with
  | AName _ => 0 | ALinkageName _ => 1 | AType _ => 2 | ASpecification _ => 3 | AAbstractOrigin _ => 4
  | AContainingType _ => 5 | ADiscr _ => 6 | ADiscrValue _ => 7 | ADeclaration _ => 8 | AInline _ => 9
  | ALowPc _ => 10 | AHighPcSize _ => 11 | AHighPcAddress _ => 11 | ARanges _ => 12 | ADeclFile _ => 13
  | ADeclLine _ => 14 | ADeclColumn _ => 15 | AByteSize _ => 16 | ABitSize _ => 17 | ABitOffset _ => 18
  | ADataBitOffset _ => 19 | ADataMemberLocation _ => 20 | ACount _ => 21 | ALowerBound _ => 22
  | AUpperBound _ => 23 | ALocation _ => 24 | ACallFile _ => 25 | ACallLine _ => 26 | ACallColumn _ => 27
  | ACallOrigin _ => 28 | ACallTail => 29 | ACallTarget false _ => 30 | ACallTarget true _ => 31
  | ACallReturnPc _ => 32 | ACallPc _ => 33 | ACallParameter _ => 34 | ACallValue _ => 35
  | ACallDataLocation _ => 36 | ACallDataValue _ => 37 | AOther n => 38 + n
  end.
Definition distinct_attrs (l : list attr) : Prop := NoDup (map attr_kind l).
Definition one_position (l : list attr) : Prop :=
  ~ (In 19 (map attr_kind l) /\ In 20 (map attr_kind l)).

(** Where a member or a base class starts, in bits: at an offset in bytes, given as a number (before DWARF 4, one of a
    fixed size counts as an offset of a location list) or as the only address that an expression gives. *)
Inductive offset_is (cx : context) (l : list attr) : N -> Prop :=
| off_none : ~ In 20 (map attr_kind l) -> offset_is cx l 0
| off_number n : In (ADataMemberLocation (MUdata n)) l -> 8 * n < two64 -> offset_is cx l (8 * n)
| off_signed n : In (ADataMemberLocation (MSdata (Z.of_N n))) l -> 8 * n < two64 -> offset_is cx l (8 * n)
| off_fixed n : In (ADataMemberLocation (MLocationList n)) l -> cx_version cx = 3 -> 8 * n < two64 ->
    offset_is cx l (8 * n)
| off_expression n bits : In (ADataMemberLocation (MExpression [(GAddress n, bits)])) l -> 8 * n < two64 ->
    offset_is cx l (8 * n).
(** For members also an offset in bits, and the form of bit-fields in DWARF 2 and 3 (see [C37]). *)
Inductive position_is (cx : context) (l : list attr) : N -> Prop :=
| pos_offset p : ~ In 18 (map attr_kind l) -> ~ In 19 (map attr_kind l) -> offset_is cx l p -> position_is cx l p
| pos_bits n : ~ In 18 (map attr_kind l) -> ~ In 20 (map attr_kind l) ->
    In (ADataBitOffset (Some (Z.of_N n))) l -> position_is cx l n
| pos_field place skip bits size :
    In (ADataMemberLocation (MUdata place)) l -> In (ABitOffset (Some (Z.of_N skip))) l ->
    In (ABitSize (Some (Z.of_N bits))) l -> In (AByteSize (Some (Z.of_N size))) l -> ~ In 19 (map attr_kind l) ->
    skip + bits <= 8 * size -> 8 * (place + size) < two64 ->
    position_is cx l (8 * place + (if cx_big_endian cx then skip else 8 * size - (skip + bits))).

(** ** Arrays *)

(** The number of integers from [lower] to [upper]. *)
Definition elements (lower upper : Z) : Z := Z.max 0 (upper - lower + 1).

Definition bound (pick : attr -> option constant) (l : list attr) : constant := given pick l None.
Definition given_count := bound (fun a => match a with ACount v => Some v | _ => None end).
Definition given_lower := bound (fun a => match a with ALowerBound v => Some v | _ => None end).
Definition given_upper := bound (fun a => match a with AUpperBound v => Some v | _ => None end).

(** The number of elements of a dimension as its entry describes it, where the lower bound is 0
    unless it is given. *)
Definition dimension_is (l : list attr) (n : Z) : Prop :=
  given_count l = Some n
  \/ given_count l = None /\ exists lower upper,
       given_upper l = Some upper
       /\ match given_lower l with Some z => z | None => 0%Z end = lower
       /\ n = elements lower upper.

(** The entries of the dimensions. *)
Definition dimensions (children : list die) : list die :=
  filter (fun d => match die_tag d with TagSubrange => true | _ => false end) children.

(** ** The types of a unit *)

Definition instance_member (d : die) : bool :=
  match die_tag d with TagMember => negb (declared_only (die_attrs d)) | _ => false end.

(** The members of a structure: its own and those beside the variants, in order. *)
Definition member_entries (children : list die) : list die :=
  flat_map (fun d =>
    if instance_member d then [d]
    else match die_tag d with
         | TagVariantPart => filter instance_member (die_children d)
         | _ => []
         end) children.

Definition member_like (cx : context) (d : die) (m : member) : Prop :=
  m_offset m = die_offset d /\ m_name m = given_name (die_attrs d) /\ m_ty m = given_type (die_attrs d)
  /\ m_bit_size m = given_bit_size (die_attrs d)
  /\ (forall p, distinct_attrs (die_attrs d) -> position_is cx (die_attrs d) p -> m_bit_offset m = p).

Definition base_like (cx : context) (d : die) (i : inherit) : Prop :=
  i_ty i = given_type (die_attrs d)
  /\ (forall p, distinct_attrs (die_attrs d) -> offset_is cx (die_attrs d) p -> i_bit_offset i = p).

(** The structure that stands for a variant. *)
Definition stands_for (cx : context) (v s : die) : Prop :=
  cx_rust cx = true /\ die_tag s = TagStructure
  /\ exists m, only_member v m /\ given_type (die_attrs m) <> type_offset_none
     /\ cx_tree cx (given_type (die_attrs m)) = Some s.

Definition given_discr_value :=
  fun l => given (fun a => match a with
                           | ADiscrValue v => option_map Some (nonnegative v)
                           | _ => None
                           end) l None.
Definition given_discr :=
  fun l => given (fun a => match a with ADiscr v => v | _ => None end) l u64_max.

Inductive variant_like (cx : context) (d : die) (v : variant) : Prop :=
| var_itself :
    (forall s, ~ stands_for cx d s) ->
    v_discr_value v = given_discr_value (die_attrs d) -> v_name v = None ->
    Forall2 (member_like cx) (filter instance_member (die_children d)) (v_members v) -> variant_like cx d v
| var_stands s :
    stands_for cx d s ->
    v_discr_value v = given_discr_value (die_attrs d) -> v_name v = given_name (die_attrs s) ->
    Forall2 (member_like cx) (filter instance_member (die_children s)) (v_members v) -> variant_like cx d v.

Definition with_tag (t : tag -> bool) (l : list die) : list die := filter (fun d => t (die_tag d)) l.

Definition part_like (cx : context) (d : die) (p : variant_part) : Prop :=
  vp_discr p = given_discr (die_attrs d)
  /\ Forall2 (variant_like cx)
       (with_tag (fun t => match t with TagVariant => true | _ => false end) (die_children d)) (vp_variants p).

(** The type that an entry in a namespace describes. *)
Inductive describes_type (cx : context) (ns : option namespace) (d : die) : type_kind -> Prop :=
| dt_base : die_tag d = TagBase ->
    describes_type cx ns d
      (TBase (mkBase (given_name (die_attrs d)) (given_byte_size (die_attrs d))))
| dt_typedef : die_tag d = TagTypedef ->
    describes_type cx ns d
      (TDef (mkDef ns (given_name (die_attrs d)) (given_type (die_attrs d))))
| dt_struct members parts bases : die_tag d = TagStructure \/ die_tag d = TagClass ->
    Forall2 (member_like cx) (member_entries (die_children d)) members ->
    Forall2 (part_like cx)
      (with_tag (fun t => match t with TagVariantPart => true | _ => false end) (die_children d)) parts ->
    Forall2 (base_like cx)
      (with_tag (fun t => match t with TagInheritance => true | _ => false end) (die_children d)) bases ->
    describes_type cx ns d
      (TStruct (mkStruct ns (given_name (die_attrs d)) (given_byte_size (die_attrs d))
         (given_declaration (die_attrs d)) members parts bases))
| dt_union members : die_tag d = TagUnion ->
    Forall2 (member_like cx) (filter instance_member (die_children d)) members ->
    describes_type cx ns d
      (TUnion (mkUnion ns (given_name (die_attrs d)) (given_byte_size (die_attrs d))
         (given_declaration (die_attrs d)) members))
| dt_enum : die_tag d = TagEnumeration ->
    describes_type cx ns d
      (TEnum (mkEnum ns (given_name (die_attrs d)) (given_declaration (die_attrs d))
         (given_type (die_attrs d)) (given_byte_size (die_attrs d))))
| dt_unspecified : die_tag d = TagUnspecified ->
    describes_type cx ns d (TUnspecified (mkUnspecified ns (given_name (die_attrs d)))).
