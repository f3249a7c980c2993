(** Model of /repo/parser/src/types.rs: the type representation, [cmp_id] and
    [byte_size], and of [Address]/[Size] in /repo/parser/src/lib.rs.

    Fields that none of the modelled functions read ([source], [id],
    [encoding], [endianity], parameter offsets) are left out. *)
From Coq Require Import List Arith NArith Bool String.
From Verif Require Import Base NamespaceModel.
Import ListNotations.
Local Open Scope N_scope.

(** ** parser/src/lib.rs:117-217: [Address] and [Size] *)

(** [struct Address(u64)] and [struct Size(u64)] have the same implementation
    (lib.rs:117-158 and 164-217); [opt64] models both.  [None] from
    [opt64_new] is a violated [debug_assert!]. *)
Definition opt64 := N.
Definition opt64_none : opt64 := u64_max.
Definition opt64_is_none (x : opt64) : bool := x =? opt64_none.
Definition opt64_is_some (x : opt64) : bool := negb (x =? opt64_none).
Definition opt64_get (x : opt64) : option N := if opt64_is_none x then None else Some x.
Definition opt64_new (x : N) : option opt64 := if x =? opt64_none then None else Some x.
(** lib.rs:209-216, [From<Option<u64>> for Size], without the assertion. *)
Definition opt64_from (x : option N) : opt64 := match x with Some s => s | None => opt64_none end.
(** The derived [Ord]. *)
Definition opt64_cmp (x y : opt64) : comparison := N.compare x y.

(** types.rs:63-101, [TypeOffset]; [usize] is taken to be 64 bits wide. *)
Definition type_offset := N.
Definition type_offset_none : type_offset := u64_max.

(** ** The data types *)

(** types.rs:304-330, [TypeModifierKind]. *)
Inductive modifier_kind :=
  MPointer | MReference | MConst | MPacked | MVolatile | MRestrict | MShared
| MRvalueReference | MAtomic | MOther.

(** types.rs:333-346. *)
Definition modifier_discriminant (k : modifier_kind) : N :=
  match k with
  | MPointer => 1 | MReference => 2 | MConst => 3 | MPacked => 4 | MVolatile => 5
  | MRestrict => 6 | MShared => 7 | MRvalueReference => 8 | MAtomic => 9 | MOther => 10
  end.

(** types.rs:370-383, [TypeModifier::is_pointer_like]. *)
Definition is_pointer_like (k : modifier_kind) : bool :=
  match k with
  | MConst | MPacked | MVolatile | MRestrict | MShared | MAtomic | MOther => false
  | MPointer | MReference | MRvalueReference => true
  end.

(** types.rs:919-927, [Member]. *)
Record member := mkMember {
  m_offset : N; m_name : option string; m_ty : type_offset;
  m_bit_offset : N; m_bit_size : opt64 }.

(** types.rs:1000-1004, [Inherit]. *)
Record inherit := mkInherit { i_ty : type_offset; i_bit_offset : N }.

(** types.rs:795-800, [Variant]. *)
Record variant := mkVariant {
  v_discr_value : option N; v_name : option string; v_members : list member }.

(** types.rs:739-742, [VariantPart]. *)
Record variant_part := mkVariantPart { vp_discr : N; vp_variants : list variant }.

(** types.rs:294-301, 483-488, 528-533, 578-587, 672-680, 1121-1129, 1237-1243,
    1327-1333, 1402-1406 (parameters by their type only), 1514-1517, 1544-1550. *)
Record modifier := mkModifier {
  mo_kind : modifier_kind; mo_ty : type_offset; mo_name : option string;
  mo_byte_size : opt64; mo_address_size : option N }.
Record base_type := mkBase { b_name : option string; b_byte_size : opt64 }.
Record type_def := mkDef {
  d_namespace : option namespace; d_name : option string; d_ty : type_offset }.
Record struct_type := mkStruct {
  s_namespace : option namespace; s_name : option string; s_byte_size : opt64;
  s_declaration : bool; s_members : list member; s_variant_parts : list variant_part;
  s_inherits : list inherit }.
Record union_type := mkUnion {
  u_namespace : option namespace; u_name : option string; u_byte_size : opt64;
  u_declaration : bool; u_members : list member }.
Record enumeration := mkEnum {
  e_namespace : option namespace; e_name : option string; e_declaration : bool;
  e_ty : type_offset; e_byte_size : opt64 }.
Record array_type := mkArray {
  a_ty : type_offset; a_count : opt64; a_counts : list opt64; a_byte_size : opt64 }.
Record subrange := mkSubrange {
  sr_name : option string; sr_ty : type_offset; sr_lower : option N; sr_upper : option N;
  sr_byte_size : opt64 }.
Record function_type := mkFunctionType {
  f_parameters : list type_offset; f_return : type_offset; f_byte_size : opt64 }.
Record unspecified := mkUnspecified { us_namespace : option namespace; us_name : option string }.
Record ptr_to_member := mkPtrToMember {
  pm_ty : type_offset; pm_containing : type_offset; pm_byte_size : opt64;
  pm_address_size : option N }.

(** types.rs:14-39, [TypeKind]. *)
Inductive type_kind :=
| TVoid
| TBase (x : base_type)
| TDef (x : type_def)
| TStruct (x : struct_type)
| TUnion (x : union_type)
| TEnum (x : enumeration)
| TArray (x : array_type)
| TFunction (x : function_type)
| TUnspecified (x : unspecified)
| TPtrToMember (x : ptr_to_member)
| TModifier (x : modifier)
| TSubrange (x : subrange).

(** types.rs:42-57, [TypeKind::discriminant_value]. *)
Definition kind_discriminant (k : type_kind) : N :=
  match k with
  | TVoid => 1 | TBase _ => 2 | TDef _ => 3 | TStruct _ => 4 | TUnion _ => 5 | TEnum _ => 6
  | TArray _ => 7 | TFunction _ => 8 | TUnspecified _ => 9 | TPtrToMember _ => 10
  | TModifier _ => 11 | TSubrange _ => 12
  end.

(** types.rs:105-109, [Type]. *)
Record type := mkType { t_offset : type_offset; t_kind : type_kind }.

(** types.rs:138-144, [Type::void]. *)
Definition void_type : type := mkType type_offset_none TVoid.

(** What [hash.types.get(&offset).or_else(|| hash.file.get_type(offset))] returns
    (types.rs:132-135). *)
Definition type_env := type_offset -> option type.

(** types.rs:125-136, [Type::from_offset]. *)
Definition from_offset (h : type_env) (offset : type_offset) : option type :=
  if offset =? type_offset_none then Some void_type else h offset.

(** types.rs:195-210, [Type::is_anon]; 626-628 and 713-715. *)
Definition is_none {A} (x : option A) : bool := match x with None => true | Some _ => false end.
Definition is_anon (t : type) : bool :=
  match t_kind t with
  | TStruct s => is_none (s_name s) || ns_is_anon_type (s_namespace s)
  | TUnion u => is_none (u_name u) || ns_is_anon_type (u_namespace u)
  | _ => false
  end.

(** types.rs:237-252, [Type::members]. *)
Definition type_members (t : type) : list member :=
  match t_kind t with
  | TStruct s => s_members s
  | TUnion u => u_members u
  | _ => []
  end.

(** ** Comparison *)

(** The outcome of a comparison: an ordering, a violated debug assertion, or
    no answer within the given recursion depth. *)
Inductive cres := Ord (o : comparison) | AssertFail | OutOfFuel.

(** [let ord = ...; if ord != Equal { return ord; }] *)
Definition cthen (r k : cres) : cres := match r with Ord Eq => k | _ => r end.

Definition cres_of (o : option comparison) : cres :=
  match o with Some c => Ord c | None => AssertFail end.

(** The recurring match on two looked-up types (types.rs:410-424, 1306-1320,
    1381-1395, 1452-1466, 1503-1508, 1599-1613, 1614-1628): unresolved types
    sort last. *)
Definition cmp_found (rec : type -> type -> cres) (x y : option type) : cres :=
  match x, y with
  | Some a, Some b => rec a b
  | Some _, None => Ord Lt
  | None, Some _ => Ord Gt
  | None, None => Ord Eq
  end.

(** types.rs:1440-1445: the loop over the zipped parameters. *)
Fixpoint cmp_params (rec : type -> type -> cres) (ha hb : type_env)
    (ps qs : list type_offset) : cres :=
  match ps, qs with
  | p :: ps', q :: qs' =>
      cthen (cmp_found rec (from_offset ha p) (from_offset hb q)) (cmp_params rec ha hb ps' qs')
  | _, _ => Ord Eq
  end.

(** types.rs:261-289, [Type::cmp_id], with the per-kind comparisons inlined:
    modifiers 404-428, base 521-523, typedef 571-573, struct 666-668, union
    729-731, enumeration 1193-1195, array 1300-1322, subrange 1375-1397, function
    1434-1469, unspecified 1537-1539, pointer to member 1593-1630.
    [debug] selects whether [debug_assert_ne!] (types.rs:285) is compiled in.
    [fuel] bounds the recursion depth. *)
Fixpoint cmp_id (debug : bool) (fuel : nat) (ha : type_env) (a : type) (hb : type_env) (b : type)
  : cres :=
  match fuel with
  | O => OutOfFuel
  | S fuel' =>
      let rec := fun x y => cmp_id debug fuel' ha x hb y in
      let found := fun x y => cmp_found rec (from_offset ha x) (from_offset hb y) in
      match t_kind a, t_kind b with
      | TBase x, TBase y => Ord (cmp_name (b_name x) (b_name y))
      | TDef x, TDef y =>
          cres_of (cmp_ns_and_name (d_namespace x) (d_name x) (d_namespace y) (d_name y))
      | TStruct x, TStruct y =>
          cres_of (cmp_ns_and_name (s_namespace x) (s_name x) (s_namespace y) (s_name y))
      | TUnion x, TUnion y =>
          cres_of (cmp_ns_and_name (u_namespace x) (u_name x) (u_namespace y) (u_name y))
      | TEnum x, TEnum y =>
          cres_of (cmp_ns_and_name (e_namespace x) (e_name x) (e_namespace y) (e_name y))
      | TArray x, TArray y =>
          cthen (found (a_ty x) (a_ty y)) (Ord (opt64_cmp (a_count x) (a_count y)))
      | TFunction x, TFunction y =>
          cthen (cmp_params rec ha hb (f_parameters x) (f_parameters y))
            (cthen (Ord (Nat.compare (List.length (f_parameters x)) (List.length (f_parameters y))))
               (found (f_return x) (f_return y)))
      | TUnspecified x, TUnspecified y =>
          cres_of (cmp_ns_and_name (us_namespace x) (us_name x) (us_namespace y) (us_name y))
      | TPtrToMember x, TPtrToMember y =>
          cthen (found (pm_containing x) (pm_containing y)) (found (pm_ty x) (pm_ty y))
      | TModifier x, TModifier y =>
          cthen (found (mo_ty x) (mo_ty y))
            (Ord (N.compare (modifier_discriminant (mo_kind x)) (modifier_discriminant (mo_kind y))))
      | TSubrange x, TSubrange y =>
          cthen (found (sr_ty x) (sr_ty y))
            (Ord (then_with (cmp_option N.compare (sr_lower x) (sr_lower y))
                    (cmp_option N.compare (sr_upper x) (sr_upper y))))
      | ka, kb =>
          let da := kind_discriminant ka in
          let db := kind_discriminant kb in
          if debug && (da =? db) then AssertFail else Ord (N.compare da db)
      end
  end.

(** ** Sizes *)

(** The outcome of a size computation: an answer, or recursion too deep. *)
Inductive fres (A : Type) := Done (x : A) | NoFuel.
Arguments Done {A}.
Arguments NoFuel {A}.

(** types.rs:213-234, [Type::is_function]. *)
Fixpoint is_function (fuel : nat) (h : type_env) (t : type) : fres bool :=
  match fuel with
  | O => NoFuel
  | S fuel' =>
      match t_kind t with
      | TFunction _ => Done true
      | TDef x =>
          match from_offset h (d_ty x) with Some u => is_function fuel' h u | None => Done false end
      | TModifier x =>
          match from_offset h (mo_ty x) with Some u => is_function fuel' h u | None => Done false end
      | _ => Done false
      end
  end.

(** types.rs:1279-1285, [ArrayType::counts_as_slice]. *)
Definition counts_as_slice (x : array_type) : list opt64 :=
  match a_counts x with [] => [a_count x] | _ :: _ => a_counts x end.

(** types.rs:1266-1272: the product loop of [ArrayType::byte_size]. *)
Fixpoint mul_counts (size : N) (counts : list opt64) : option N :=
  match counts with
  | [] => Some size
  | c :: cs => match opt64_get c with Some n => mul_counts (mul64 size n) cs | None => None end
  end.

(** types.rs:177-192, [Type::byte_size], with the per-kind sizes inlined:
    modifier 386-395, typedef 560-562, enumeration 1162-1168, array 1258-1277,
    subrange 1361-1367, pointer to member 1572-1584. *)
Fixpoint byte_size (fuel : nat) (h : type_env) (t : type) : fres (option N) :=
  match fuel with
  | O => NoFuel
  | S fuel' =>
      let of := fun off =>
        match from_offset h off with Some u => byte_size fuel' h u | None => Done None end in
      match t_kind t with
      | TVoid => Done (Some 0)
      | TBase x => Done (opt64_get (b_byte_size x))
      | TDef x => of (d_ty x)
      | TStruct x => Done (opt64_get (s_byte_size x))
      | TUnion x => Done (opt64_get (u_byte_size x))
      | TEnum x =>
          if opt64_is_some (e_byte_size x) then Done (opt64_get (e_byte_size x)) else of (e_ty x)
      | TArray x =>
          if opt64_is_some (a_byte_size x) then Done (opt64_get (a_byte_size x))
          else match of (a_ty x) with
               | NoFuel => NoFuel
               | Done None => Done None
               | Done (Some size) =>
                   match counts_as_slice x with
                   | [] => Done None
                   | cs => Done (mul_counts size cs)
                   end
               end
      | TFunction x => Done (opt64_get (f_byte_size x))
      | TUnspecified _ => Done None
      | TPtrToMember x =>
          if opt64_is_some (pm_byte_size x) then Done (opt64_get (pm_byte_size x))
          else match from_offset h (pm_ty x) with
               | None => Done None
               | Some u =>
                   match is_function fuel' h u with
                   | NoFuel => NoFuel
                   | Done true => Done (option_map (fun v => mul64 v 2) (pm_address_size x))
                   | Done false => Done (pm_address_size x)
                   end
               end
      | TModifier x =>
          if opt64_is_some (mo_byte_size x) then Done (opt64_get (mo_byte_size x))
          else if is_pointer_like (mo_kind x) then Done (mo_address_size x)
          else of (mo_ty x)
      | TSubrange x =>
          if opt64_is_some (sr_byte_size x) then Done (opt64_get (sr_byte_size x)) else of (sr_ty x)
      end
  end.
