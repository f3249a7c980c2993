(** Model of what is printed for a type, and for a comparison of two types:
    /repo/main/src/print/types.rs, struct_type.rs, union_type.rs, enumeration.rs, type_def.rs,
    base_type.rs, member.rs and inherit.rs, and the lists of /repo/main/src/print/mod.rs.

    The result is a document (see [PrintModel]), or [None] if there is none: an error, a
    panic, or a recursion deeper than [fuel] (a stack overflow). *)
From Coq Require Import List Arith NArith ZArith Bool String.
From Verif Require Import Base NamespaceModel TypeModel LayoutModel FileModel DieModel OptionsModel
  FilterModel DiffModel PrintModel NameModel RefModel.
Import ListNotations.
Local Open Scope N_scope.

(** ** Lists *)

(** mod.rs:358-363, [PrintState::list]. *)
Fixpoint all_printed {A} (pr : A -> option pdoc) (l : list A) : option pdoc :=
  match l with
  | [] => Some PNil
  | x :: l' => bind (pr x) (fun d => bind (all_printed pr l') (fun rest => Some (PSeq d rest)))
  end.

Section Rows.
  Context {A : Type}.
  Variables (pa pb : A -> option pdoc) (df : A -> A -> option ddoc).

  (** mod.rs:762-779 and 796-806: what is done for each step of a script. *)
  Definition row_doc (r : merge_result A A) : option ddoc :=
    match r with
    | MBoth a b => df a b
    | MLeft a => bind (pa a) (fun d => Some (DDelete d))
    | MRight b => bind (pb b) (fun d => Some (DAdd d))
    end.
  Fixpoint all_rows (rows : list (merge_result A A)) : option ddoc :=
    match rows with
    | [] => Some DNil
    | r :: rows' =>
        bind (row_doc r) (fun d => bind (all_rows rows') (fun rest => Some (DSeq d rest)))
    end.
End Rows.

Section Lists.
  (** Which one of the cheapest entries the heap of [shortest_path] returns: a function of
      the costs of the items and of their pairs, since the heap depends on nothing else. *)
  Variable choose : list N -> list N -> list (list N) -> nat -> nat.

  (** mod.rs:752-758: the script of [DiffState::list], with as many rounds as it needs at
      most ([C12_list_consumed]). *)
  Definition edit_script {A} (step : A -> N) (dc : A -> A -> N) (l1 l2 : list A)
    : option (list (merge_result A A)) :=
    diff_list l1 l2 step step dc (3 * (S (List.length l1) * S (List.length l2)) + 2)
      (choose (map step l1) (map step l2) (map (fun a => map (dc a) l2) l1)).

  (** mod.rs:745-782, [DiffState::list]. *)
  Definition compared_list {A} (step : A -> N) (dc : A -> A -> N) (pa pb : A -> option pdoc)
      (df : A -> A -> option ddoc) (l1 l2 : list A) : option ddoc :=
    bind (edit_script step dc l1 l2) (all_rows pa pb df).
End Lists.

(** mod.rs:788-809, [DiffState::ord_list]. *)
Definition compared_ord_list {A} (cmp : A -> A -> comparison) (pa pb : A -> option pdoc)
    (df : A -> A -> option ddoc) (l1 l2 : list A) : option ddoc :=
  all_rows pa pb df (merge_all cmp l1 l2).

(** ** Files *)

(** parser/src/types.rs:445-463, 433-441, 1221-1233 and 1200-1203:
    [BaseTypeEncoding], [Endianity], [EnumeratorValue] and [Enumerator]. *)
Inductive encoding :=
  EncOther | EncBoolean | EncAddress | EncSigned | EncSignedChar | EncUnsigned | EncUnsignedChar
| EncFloat.
Inductive endianity := EndDefault | EndBig | EndLittle.
Inductive enumerator_value := EvOther | EvSigned (z : Z) | EvUnsigned (n : N).
Record enumerator := mkEnumerator { en_name : option string; en_value : enumerator_value }.

(** What is used of a file to print types: the lookups of [hash]; what [print_ref] writes
    ([type_ref] in [RefModel]); and the fields of types that [TypeModel] leaves out.
    [vw_enumerators] stands for [EnumerationType::enumerators]. *)
Record view := mkView {
  vw_hash : hash;
  vw_ref : option type -> value;
  vw_id : type -> nat;
  vw_source : type -> source;
  vw_encoding : type -> encoding;
  vw_endianity : type -> endianity;
  vw_enumerators : type -> list enumerator }.

Definition vw_find (vw : view) (off : type_offset) : option type := from_offset (h_env (vw_hash vw)) off.
Definition vw_ref_at (vw : view) (off : type_offset) : value := vw_ref vw (vw_find vw off).
Definition vw_sizes (vw : view) : type_sizes := h_sizes (vw_hash vw).

(** The two files of a comparison, and what [Type::cmp_id(hash_a, a, hash_b, b)] answers. *)
Record sides := mkSides { sd_a : view; sd_b : view; sd_cmp : type -> type -> comparison }.

Definition swap_cost (c : comparison) (w : N) : N := match c with Eq => 0 | _ => w end.

(** The match on two types shared by the costs of members, base classes, parameters and
    variables (member.rs:126-137, inherit.rs:62-73). *)
Definition type_cost (sd : sides) (w : N) (a b : type_offset) : N :=
  match vw_find (sd_a sd) a, vw_find (sd_b sd) b with
  | Some ta, Some tb => swap_cost (sd_cmp sd ta tb) w
  | None, None => 0
  | _, _ => w
  end.

(** ** Lines *)

Definition field (label : string) (t : text) : pdoc := PLine (txt label) (VText t).
Definition field2 (label : string) (a b : text) : ddoc := DLine (txt label) (VText a) (VText b).
Definition opt_text {A} (f : A -> text) (x : option A) : text :=
  match x with Some y => f y | None => [] end.
Definition yes (b : bool) : text := if b then txt "yes" else [].

(** member.rs:289-297, [format_bit]. *)
Definition format_bit (v : N) : text :=
  if v mod 8 =? 0 then dec (v / 8) else dec (v / 8) ++ txt "." ++ dec (v mod 8).

(** member.rs:34-35: an unknown size counts as 0. *)
Definition lay_text (l : lay) : text :=
  format_bit (l_offset l) ++ txt "[" ++
  format_bit (match opt64_get (l_size l) with Some n => n | None => 0 end) ++ txt "]" ++ [9].

(** member.rs:8-23, [print_member]. *)
Definition member_value (vw : view) (m : member) : value :=
  vcat [VText (format_bit (m_bit_offset m) ++ txt "[" ++
               match member_bit_size (vw_sizes vw) m with
               | Some n => format_bit n
               | None => txt "??"
               end ++ txt "]" ++ [9] ++ txt (or_else "<anon>" (m_name m)) ++ txt ": ");
        vw_ref_at vw (m_ty m)].
(** member.rs:25-38, [print_variant_part]; 40-51, [print_variant]; 53-67,
    [print_inherit]; 69-77, [print_padding]. *)
Definition variant_part_value (l : lay) : value := VText (lay_text l ++ txt "<variant part>").
Definition variant_value (v : variant) : value :=
  VText (opt_text (fun n => txt n ++ txt ": ") (v_name v) ++
         match v_discr_value v with
         | Some n => txt "<" ++ dec n ++ txt ">"
         | None => txt "<default>"
         end).
Definition inherit_value (vw : view) (l : lay) (i : inherit) : value :=
  vcat [VText (lay_text l ++ txt "<inherit>: "); vw_ref_at vw (i_ty i)].
Definition padding_value (l : lay) : value := VText (lay_text l ++ txt "<padding>").

(** [{}] for a signed number. *)
Definition sdec (z : Z) : text :=
  if (z <? 0)%Z then txt "-" ++ dec (Z.to_N (- z)) else dec (Z.to_N z).
(** enumeration.rs:84-92, [print_enumerator]. *)
Definition enumerator_text (e : enumerator) : text :=
  txt (or_else "<anon>" (en_name e)) ++
  match en_value e with
  | EvOther => []
  | EvSigned z => txt "(" ++ sdec z ++ txt ")"
  | EvUnsigned n => txt "(" ++ dec n ++ txt ")"
  end.

(** ** Costs *)

(** enumeration.rs:113-128. *)
Definition enumerator_value_eqb (a b : enumerator_value) : bool :=
  match a, b with
  | EvOther, EvOther => true
  | EvSigned x, EvSigned y => (x =? y)%Z
  | EvUnsigned x, EvUnsigned y => x =? y
  | _, _ => false
  end.
Definition enumerator_step (_ : enumerator) : N := 3.
Definition enumerator_cost (a b : enumerator) : N :=
  (if opt_string_eqb (en_name a) (en_name b) then 0 else 4) +
  (if enumerator_value_eqb (en_value a) (en_value b) then 0 else 2).
(** member.rs:116-140. *)
Definition member_step (_ : member) : N := 1.
Definition member_cost (sd : sides) (a b : member) : N :=
  swap_cost (cmp_name (m_name a) (m_name b)) 1 + type_cost sd 1 (m_ty a) (m_ty b).
(** member.rs:177-198. *)
Definition opt_N_eqb (a b : option N) : bool :=
  match a, b with Some x, Some y => x =? y | None, None => true | _, _ => false end.
Definition variant_step (_ : variant) : N := 1.
Definition variant_cost (a b : variant) : N :=
  swap_cost (cmp_name (v_name a) (v_name b)) 1 +
  (if opt_N_eqb (v_discr_value a) (v_discr_value b) then 0 else 1).
(** inherit.rs:55-76. *)
Definition inherit_step (_ : inherit) : N := 1.
Definition inherit_cost (sd : sides) (a b : inherit) : N := type_cost sd 2 (i_ty a) (i_ty b).
(** member.rs:264-287. *)
Definition lay_step (_ : lay) : N := 1.
Definition lay_cost (sd : sides) (a b : lay) : N :=
  match l_item a, l_item b with
  | LPadding, LPadding => 0
  | LMember a, LMember b => member_cost sd a b
  | LVariantPart _, LVariantPart _ => 0
  | LInherit a, LInherit b => inherit_cost sd a b
  | _, _ => 2
  end.

(** ** Members *)

(** member.rs:84-89: the type whose members are shown below the member. *)
Definition inline_type (vw : view) (m : member) : option type :=
  if member_is_inline (vw_hash vw) m then vw_find vw (m_ty m) else None.

(** member.rs:82-94 and 145-157, where [rec] prints the members of a type, or a part of
    a layout. *)
Definition print_member (rec : option type -> option pdoc) (vw : view) (m : member) : option pdoc :=
  bind (rec (inline_type vw m)) (fun body =>
  Some (PTree false (PLine [] (member_value vw m)) body)).
Definition print_variant (rec : lay -> option pdoc) (vw : view) (off : N) (size : option N)
    (v : variant) : option pdoc :=
  bind (all_printed rec (variant_layout (vw_sizes vw) v off size)) (fun body =>
  Some (PTree false (PLine [] (variant_value v)) body)).

(** member.rs:203-220, and types.rs:250-259 with struct_type.rs:82-85 and
    union_type.rs:80-82, [print_members]. *)
Fixpoint print_layout (fuel : nat) (vw : view) (l : lay) : option pdoc :=
  match fuel with
  | O => None
  | S fuel' =>
      match l_item l with
      | LPadding => Some (PLine [] (padding_value l))
      | LMember m => print_member (print_members fuel' vw) vw m
      | LVariantPart p =>
          bind (all_printed (print_variant (print_layout fuel' vw) vw (l_offset l)
                  (opt64_get (l_size l))) (vp_variants p)) (fun body =>
          Some (PTree false (PLine [] (variant_part_value l)) body))
      | LInherit i => Some (PLine [] (inherit_value vw l i))
      end
  end
with print_members (fuel : nat) (vw : view) (t : option type) : option pdoc :=
  match fuel with
  | O => None
  | S fuel' =>
      match t with
      | Some t =>
          match t_kind t with
          | TStruct s => all_printed (print_layout fuel' vw) (struct_layout (vw_sizes vw) s)
          | TUnion u => all_printed (print_member (print_members fuel' vw) vw) (u_members u)
          | _ => Some PNil
          end
      | None => Some PNil
      end
  end.

Section Compare.
  Variable choose : list N -> list N -> list (list N) -> nat -> nat.
  Variable sd : sides.
  Local Notation A := (sd_a sd).
  Local Notation B := (sd_b sd).

  (** mod.rs:642-668, [block]. *)
  Definition block (a b : option pdoc) : option ddoc :=
    bind a (fun a => bind b (fun b => Some (DBlock a b))).

  (** member.rs:96-113 and 159-174. *)
  Definition diff_member (rec : option type -> option type -> option ddoc) (a b : member)
    : option ddoc :=
    bind (rec (inline_type A a) (inline_type B b)) (fun body =>
    Some (DTree false (DLine [] (member_value A a) (member_value B b)) body)).
  Definition diff_variant (pa pb : lay -> option pdoc) (rec : lay -> lay -> option ddoc)
      (off_a : N) (size_a : option N) (off_b : N) (size_b : option N) (a b : variant)
    : option ddoc :=
    bind (compared_list choose lay_step (lay_cost sd) pa pb rec
            (variant_layout (vw_sizes A) a off_a size_a)
            (variant_layout (vw_sizes B) b off_b size_b)) (fun body =>
    Some (DTree false (DLine [] (variant_value a) (variant_value b)) body)).

  (** member.rs:222-261, and types.rs:261-284 with struct_type.rs:87-97 and
      union_type.rs:84-93, [diff_members]. *)
  Fixpoint diff_layout (fuel : nat) (a b : lay) : option ddoc :=
    match fuel with
    | O => None
    | S fuel' =>
        match l_item a, l_item b with
        | LPadding, LPadding => Some (DLine [] (padding_value a) (padding_value b))
        | LMember ma, LMember mb => diff_member (diff_members fuel') ma mb
        | LVariantPart p, LVariantPart q =>
            let off_a := l_offset a in
            let size_a := opt64_get (l_size a) in
            let off_b := l_offset b in
            let size_b := opt64_get (l_size b) in
            bind (compared_list choose variant_step variant_cost
                    (print_variant (print_layout fuel' A) A off_a size_a)
                    (print_variant (print_layout fuel' B) B off_b size_b)
                    (diff_variant (print_layout fuel' A) (print_layout fuel' B)
                       (diff_layout fuel') off_a size_a off_b size_b)
                    (vp_variants p) (vp_variants q)) (fun body =>
            Some (DTree false (DLine [] (variant_part_value a) (variant_part_value b)) body))
        | LInherit i, LInherit j => Some (DLine [] (inherit_value A a i) (inherit_value B b j))
        | _, _ => block (print_layout fuel A a) (print_layout fuel B b)
        end
    end
  with diff_members (fuel : nat) (ta tb : option type) : option ddoc :=
    match fuel with
    | O => None
    | S fuel' =>
        match option_map t_kind ta, option_map t_kind tb with
        | Some (TStruct a), Some (TStruct b) =>
            compared_list choose lay_step (lay_cost sd) (print_layout fuel' A) (print_layout fuel' B)
              (diff_layout fuel') (struct_layout (vw_sizes A) a) (struct_layout (vw_sizes B) b)
        | Some (TUnion a), Some (TUnion b) =>
            compared_list choose member_step (member_cost sd)
              (print_member (print_members fuel' A) A) (print_member (print_members fuel' B) B)
              (diff_member (diff_members fuel')) (u_members a) (u_members b)
        | _, _ => block (print_members fuel A ta) (print_members fuel B tb)
        end
    end.
End Compare.

(** ** Types *)

(** inherit.rs:8-15, [print_list], and 17-37, [diff_list]. *)
Definition base_class (vw : view) (i : inherit) : value := vw_ref_at vw (i_ty i).
Definition print_inherits (vw : view) (l : list inherit) : option pdoc :=
  match l with
  | [] => Some PNil
  | [i] => Some (PLine (txt "inherits") (base_class vw i))
  | _ =>
      bind (all_printed (fun i => Some (PLine [] (base_class vw i))) l) (fun body =>
      Some (PSection false (txt "inherits") body))
  end.
Definition first_base (vw : view) (l : list inherit) : value :=
  match l with [] => VNil | i :: _ => base_class vw i end.
Definition diff_inherits (choose : list N -> list N -> list (list N) -> nat -> nat) (sd : sides)
    (l1 l2 : list inherit) : option ddoc :=
  if (1 <? List.length l1)%nat || (1 <? List.length l2)%nat then
    bind (compared_list choose inherit_step (inherit_cost sd)
            (fun i => Some (PLine [] (base_class (sd_a sd) i)))
            (fun i => Some (PLine [] (base_class (sd_b sd) i)))
            (fun i j => Some (DLine [] (base_class (sd_a sd) i) (base_class (sd_b sd) j))) l1 l2)
      (fun body => Some (DSection false (txt "inherits") body))
  else Some (DLine (txt "inherits") (first_base (sd_a sd) l1) (first_base (sd_b sd) l2)).

(** base_type.rs:57-80. *)
Definition encoding_text (e : encoding) : text :=
  txt (match e with
       | EncOther => "" | EncBoolean => "boolean" | EncAddress => "address"
       | EncSigned => "signed" | EncSignedChar => "signed char" | EncUnsigned => "unsigned"
       | EncUnsignedChar => "unsigned char" | EncFloat => "floating-point"
       end).
Definition endianity_text (e : endianity) : text :=
  txt (match e with EndDefault => "" | EndBig => "big" | EndLittle => "little" end).

(** The headers: base_type.rs:6-9, type_def.rs:18-24 and [kind_name]; [None] for the kinds
    that cannot be printed (types.rs:12-27). *)
Definition header_value (vw : view) (t : type) : option value :=
  match t_kind t with
  | TBase x => Some (VText (txt "base " ++ txt (or_else "<anon>" (b_name x))))
  | TDef x => Some (vcat [vtxt "type "; def_name x; vtxt " = "; vw_ref_at vw (d_ty x)])
  | TStruct x => Some (kind_name "struct " (s_namespace x) (s_name x))
  | TUnion x => Some (kind_name "union " (u_namespace x) (u_name x))
  | TEnum x => Some (kind_name "enum " (e_namespace x) (e_name x))
  | TVoid | TArray _ | TFunction _ | TUnspecified _ | TPtrToMember _ | TModifier _
  | TSubrange _ => None
  end.

(** [if state.options().print_source { state.field("source", ..) }]. *)
Definition type_source (vw : view) (dir : option string) (t : type) : text :=
  source_text dir (vw_source vw t).
Definition source_field (o : options) (vw : view) (dir : option string) (t : type) : pdoc :=
  if p_source (o_print o) then field "source" (type_source vw dir t) else PNil.
Definition source_field2 (o : options) (sd : sides) (da db : option string) (a b : type) : ddoc :=
  if p_source (o_print o)
  then field2 "source" (type_source (sd_a sd) da a) (type_source (sd_b sd) db b) else DNil.

(** [print_byte_size] of each kind; [Type::byte_size] (parser/src/types.rs:177-192) gives
    the size of the kind. *)
Definition size_text (vw : view) (t : type) : text := opt_text dec (h_size (vw_hash vw) t).

(** type_def.rs:43-54 and 78-81: the type whose members are shown with the typedef. *)
Definition defined_type (vw : view) (d : type_def) : option type :=
  match vw_find vw (d_ty d) with
  | Some t => if is_anon t then Some t else None
  | None => None
  end.

Definition pseq (l : list pdoc) : pdoc := fold_right PSeq PNil l.
Definition dseq (l : list ddoc) : ddoc := fold_right DSeq DNil l.

(** [print_body] of each kind: struct_type.rs:24-32, union_type.rs:24-31,
    enumeration.rs:24-32, type_def.rs:42-56, base_type.rs:23-27. *)
Definition print_type_body (o : options) (fuel : nat) (vw : view) (dir : option string) (t : type)
  : option pdoc :=
  let source := source_field o vw dir t in
  let size := field "size" (size_text vw t) in
  let members := fun t =>
    bind (print_members fuel vw t) (fun d => Some (PSection false (txt "members") d)) in
  match t_kind t with
  | TStruct s =>
      bind (print_inherits vw (s_inherits s)) (fun i =>
      bind (members (Some t)) (fun m =>
      Some (pseq [source; field "declaration" (yes (s_declaration s)); size; i; m])))
  | TUnion u =>
      bind (members (Some t)) (fun m =>
      Some (pseq [source; field "declaration" (yes (u_declaration u)); size; m]))
  | TEnum e =>
      bind (all_printed (fun x => Some (PLine [] (VText (enumerator_text x))))
              (vw_enumerators vw t)) (fun m =>
      Some (pseq [source; field "declaration" (yes (e_declaration e)); size;
                  PSection false (txt "enumerators") m]))
  | TDef d =>
      bind (match defined_type vw d with Some u => members (Some u) | None => Some PNil end) (fun m =>
      Some (pseq [source; size; m]))
  | TBase b =>
      Some (pseq [size; field "encoding" (encoding_text (vw_encoding vw t));
                  field "endianity" (endianity_text (vw_endianity vw t))])
  | _ => None
  end.

(** types.rs:29-38, [print]. *)
Definition print_type (o : options) (fuel : nat) (vw : view) (dir : option string) (t : type)
  : option pdoc :=
  bind (header_value vw t) (fun h =>
  bind (print_type_body o fuel vw dir t) (fun body =>
  Some (PSeq (PId (vw_id vw t) (PLine [] h) body) PBreak))).

(** types.rs:204-214, [diff_header]. *)
Definition diff_type_header (sd : sides) (a b : type) : option ddoc :=
  if kind_discriminant (t_kind a) =? kind_discriminant (t_kind b) then
    bind (header_value (sd_a sd) a) (fun x =>
    bind (header_value (sd_b sd) b) (fun y => Some (DLine [] x y)))
  else None.

(** types.rs:216-232, [diff_body], with [diff_body] of each kind: struct_type.rs:38-59,
    union_type.rs:37-57, enumeration.rs:38-61, type_def.rs:62-85, base_type.rs:33-45. *)
Definition diff_type_body (choose : list N -> list N -> list (list N) -> nat -> nat) (o : options)
    (fuel : nat) (sd : sides) (da db : option string) (a b : type) : option ddoc :=
  let source := source_field2 o sd da db a b in
  let size := field2 "size" (size_text (sd_a sd) a) (size_text (sd_b sd) b) in
  let members := fun a b =>
    bind (diff_members choose sd fuel a b) (fun d => Some (DSection false (txt "members") d)) in
  match t_kind a, t_kind b with
  | TStruct x, TStruct y =>
      bind (diff_inherits choose sd (s_inherits x) (s_inherits y)) (fun i =>
      bind (members (Some a) (Some b)) (fun m =>
      Some (dseq [source; field2 "declaration" (yes (s_declaration x)) (yes (s_declaration y));
                  size; i; m])))
  | TUnion x, TUnion y =>
      bind (members (Some a) (Some b)) (fun m =>
      Some (dseq [source; field2 "declaration" (yes (u_declaration x)) (yes (u_declaration y));
                  size; m]))
  | TEnum x, TEnum y =>
      bind (compared_list choose enumerator_step enumerator_cost
              (fun e => Some (PLine [] (VText (enumerator_text e))))
              (fun e => Some (PLine [] (VText (enumerator_text e))))
              (fun e f => Some (DLine [] (VText (enumerator_text e)) (VText (enumerator_text f))))
              (vw_enumerators (sd_a sd) a) (vw_enumerators (sd_b sd) b)) (fun m =>
      Some (dseq [source; field2 "declaration" (yes (e_declaration x)) (yes (e_declaration y));
                  size; DSection false (txt "enumerators") m]))
  | TDef x, TDef y =>
      bind (members (defined_type (sd_a sd) x) (defined_type (sd_b sd) y)) (fun m =>
      Some (dseq [source; size; m]))
  | TBase x, TBase y =>
      Some (dseq [size;
                  field2 "encoding" (encoding_text (vw_encoding (sd_a sd) a))
                    (encoding_text (vw_encoding (sd_b sd) b));
                  field2 "endianity" (endianity_text (vw_endianity (sd_a sd) a))
                    (endianity_text (vw_endianity (sd_b sd) b))])
  | _, _ => None
  end.

(** types.rs:234-248, [diff]. *)
Definition diff_type (choose : list N -> list N -> list (list N) -> nat -> nat) (o : options)
    (fuel : nat) (sd : sides) (da db : option string) (a b : type) : option ddoc :=
  bind (diff_type_header sd a b) (fun h =>
  bind (diff_type_body choose o fuel sd da db a b) (fun body =>
  Some (DSeq (DId (vw_id (sd_a sd) a) h body) DBreak))).
