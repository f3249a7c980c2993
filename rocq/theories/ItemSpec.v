(** Specification vocabulary for printed and compared items. *)
From Coq Require Import List Arith NArith ZArith Bool String.
From Verif Require Import Base NamespaceModel TypeModel TypeSpec LayoutModel FileModel
  DieModel OptionsModel FilterModel FilterSpec PrintModel PrintSpec NameModel ItemModel.
Import ListNotations.
Local Open Scope N_scope.

(** ** Conditions on the input *)

(** A list that fits in memory: entries take at least 16 bytes. *)
Definition short {A} (l : list A) : Prop := N.of_nat (List.length l) < 2 ^ 60.
Definition short_variant (v : variant) : Prop := short (v_members v).
Definition short_part (p : variant_part) : Prop :=
  short (vp_variants p) /\ Forall short_variant (vp_variants p).
Definition short_type (t : type) : Prop :=
  match t_kind t with
  | TStruct s =>
      short (s_members s) /\ short (s_inherits s) /\ short (s_variant_parts s) /\
      Forall short_part (s_variant_parts s)
  | TUnion u => short (u_members u)
  | _ => True
  end.
Definition short_view (vw : view) : Prop :=
  (forall off t, vw_find vw off = Some t -> short_type t) /\
  (forall t, short (vw_enumerators vw t)).

(** The comparison of types answers what [Type::cmp_id] answers. *)
Definition compares_types (sd : sides) : Prop :=
  forall a b c, compares false (h_env (vw_hash (sd_a sd)), a) (h_env (vw_hash (sd_b sd)), b) c ->
    sd_cmp sd a b = c.
(** No type that is referred to has an identity that is built from itself. *)
Definition acyclic_view (vw : view) : Prop :=
  forall off t, vw_find vw off = Some t -> acyclic (h_env (vw_hash vw)) t.

(** ** Documents *)

(** Two documents with the same text output. *)
Definition same_lines (p q : pdoc) : Prop :=
  forall depth indent, lines depth indent p = lines depth indent q.

(** A comparison in which everything that is printed for each of the two sides can be
    read. *)
Definition reads (e : ddoc) (pa pb : pdoc) : Prop :=
  same_lines (old_side e) pa /\ same_lines (new_side e) pb /\ unhidden e.

(** The lines [b] are the lines [a], with headings added that have nothing to head. *)
Inductive plus_headings : list line -> list line -> Prop :=
| ph_nil : plus_headings [] []
| ph_heading : forall i label a b, plus_headings a b ->
    plus_headings a (Line i (labelled label []) :: b)
| ph_line : forall x a b, plus_headings a b -> plus_headings (x :: a) (x :: b).

(** The base classes of two types are shown in the same form: as a list, or on one line. *)
Definition bases_alike (a b : type) : Prop :=
  match t_kind a, t_kind b with
  | TStruct x, TStruct y =>
      ~ (List.length (s_inherits x) = 1 /\ 1 < List.length (s_inherits y))%nat /\
      ~ (List.length (s_inherits y) = 1 /\ 1 < List.length (s_inherits x))%nat
  | _, _ => True
  end.

(** ** What is printed for a type *)

(** A position or a size in bits, in bytes and remaining bits. *)
Definition bits (n : N) (t : text) : Prop :=
  exists bytes rest, n = 8 * bytes + rest /\ rest < 8 /\
    t = match rest with 0 => dec bytes | _ => dec bytes ++ txt "." ++ dec rest end.
(** The place of an entry that is not a member; an unknown size is shown as 0. *)
Definition place (l : lay) (t : text) : Prop :=
  exists off size, bits (l_offset l) off /\
    bits (if l_size l =? u64_max then 0 else l_size l) size /\
    t = off ++ txt "[" ++ size ++ txt "]" ++ [9].

Definition name_or (default : string) (name : option string) : text :=
  txt (match name with Some n => n | None => default end).
Definition written_type (vw : view) (off : type_offset) : text :=
  text_value (vw_ref vw (vw_find vw off)).

(** The lines for the members of a type, at an indentation. *)
Inductive members_shown (vw : view) : nat -> option type -> list line -> Prop :=
| ms_unknown : forall i, members_shown vw i None []
| ms_struct : forall i t s ls, t_kind t = TStruct s ->
    items_shown vw i (struct_layout (vw_sizes vw) s) ls -> members_shown vw i (Some t) ls
| ms_union : forall i t u ls, t_kind t = TUnion u ->
    union_shown vw i (u_members u) ls -> members_shown vw i (Some t) ls
| ms_other : forall i t, (forall s, t_kind t <> TStruct s) -> (forall u, t_kind t <> TUnion u) ->
    members_shown vw i (Some t) []
with union_shown (vw : view) : nat -> list member -> list line -> Prop :=
| us_nil : forall i, union_shown vw i [] []
| us_cons : forall i m ms ls ls', member_shown vw i m ls -> union_shown vw i ms ls' ->
    union_shown vw i (m :: ms) (ls ++ ls')
with member_shown (vw : view) : nat -> member -> list line -> Prop :=
| mb_shown : forall i m off size ls,
    bits (m_bit_offset m) off ->
    (forall n, member_bit_size (vw_sizes vw) m = Some n -> bits n size) ->
    (member_bit_size (vw_sizes vw) m = None -> size = txt "??") ->
    (inline_member (h_env (vw_hash vw)) m -> members_shown vw (S i) (vw_find vw (m_ty m)) ls) ->
    (~ inline_member (h_env (vw_hash vw)) m -> ls = []) ->
    member_shown vw i m
      (Line i (off ++ txt "[" ++ size ++ txt "]" ++ [9] ++ name_or "<anon>" (m_name m) ++ txt ": " ++
               written_type vw (m_ty m)) :: ls)
with items_shown (vw : view) : nat -> list lay -> list line -> Prop :=
| is_nil : forall i, items_shown vw i [] []
| is_cons : forall i l rest ls ls', item_shown vw i l ls -> items_shown vw i rest ls' ->
    items_shown vw i (l :: rest) (ls ++ ls')
with item_shown (vw : view) : nat -> lay -> list line -> Prop :=
| it_padding : forall i l t, l_item l = LPadding -> place l t ->
    item_shown vw i l [Line i (t ++ txt "<padding>")]
| it_member : forall i l m ls, l_item l = LMember m -> member_shown vw i m ls -> item_shown vw i l ls
| it_inherit : forall i l x t, l_item l = LInherit x -> place l t ->
    item_shown vw i l [Line i (t ++ txt "<inherit>: " ++ written_type vw (i_ty x))]
| it_part : forall i l p t ls, l_item l = LVariantPart p -> place l t ->
    variants_shown vw (S i) l (vp_variants p) ls ->
    item_shown vw i l (Line i (t ++ txt "<variant part>") :: ls)
with variants_shown (vw : view) : nat -> lay -> list variant -> list line -> Prop :=
| vs_nil : forall i l, variants_shown vw i l [] []
| vs_cons : forall i l v vs ls ls',
    items_shown vw (S i)
      (variant_layout (vw_sizes vw) v (l_offset l) (if l_size l =? u64_max then None else Some (l_size l))) ls ->
    variants_shown vw i l vs ls' ->
    variants_shown vw i l (v :: vs)
      (Line i (match v_name v with Some n => txt n ++ txt ": " | None => [] end ++
               match v_discr_value v with Some n => txt "<" ++ dec n ++ txt ">" | None => txt "<default>" end)
       :: ls ++ ls').

(** A line with a label, if there is something to show. *)
Definition labelled_line (i : nat) (label : string) (t : text) : list line :=
  match t with [] => [] | _ => [Line i (txt label ++ txt ": " ++ t)] end.
(** Lines under a label, if there are any. *)
Definition under (i : nat) (label : string) (ls : list line) : list line :=
  match ls with [] => [] | _ => Line i (txt label ++ txt ":") :: ls end.

Definition path_and_name (ns : option namespace) (name : option string) : text :=
  match ns with Some n => text_value (namespace_value n) | None => [] end ++ name_or "<anon>" name.
Definition size_known (vw : view) (t : type) : text :=
  match h_size (vw_hash vw) t with Some n => dec n | None => [] end.
Definition source_shown (o : options) (vw : view) (dir : option string) (t : type) : list line :=
  if p_source (o_print o) then labelled_line 1 "source" (source_text dir (vw_source vw t)) else [].
Definition enumerator_shown (e : enumerator) : text :=
  name_or "<anon>" (en_name e) ++
  match en_value e with
  | EvOther => []
  | EvSigned z => txt "(" ++ (if (z <? 0)%Z then txt "-" else []) ++ dec (Z.abs_N z) ++ txt ")"
  | EvUnsigned n => txt "(" ++ dec n ++ txt ")"
  end.
(** The base classes: one on the line with the label, several below it. *)
Definition bases_shown (vw : view) (l : list inherit) : list line :=
  match l with
  | [] => []
  | [b] => labelled_line 1 "inherits" (written_type vw (i_ty b))
  | _ =>
      under 1 "inherits"
        (flat_map (fun b => match written_type vw (i_ty b) with [] => [] | t => [Line 2 t] end) l)
  end.

(** The lines for a type. *)
Inductive type_shown (o : options) (vw : view) (dir : option string) (t : type) : list line -> Prop :=
| ts_struct : forall x ls, t_kind t = TStruct x -> members_shown vw 2 (Some t) ls ->
    type_shown o vw dir t
      (Line 0 (txt "struct " ++ path_and_name (s_namespace x) (s_name x)) ::
       source_shown o vw dir t ++
       labelled_line 1 "declaration" (if s_declaration x then txt "yes" else []) ++
       labelled_line 1 "size" (size_known vw t) ++ bases_shown vw (s_inherits x) ++
       under 1 "members" ls ++ [Blank])
| ts_union : forall x ls, t_kind t = TUnion x -> members_shown vw 2 (Some t) ls ->
    type_shown o vw dir t
      (Line 0 (txt "union " ++ path_and_name (u_namespace x) (u_name x)) ::
       source_shown o vw dir t ++
       labelled_line 1 "declaration" (if u_declaration x then txt "yes" else []) ++
       labelled_line 1 "size" (size_known vw t) ++ under 1 "members" ls ++ [Blank])
| ts_enum : forall x, t_kind t = TEnum x ->
    type_shown o vw dir t
      (Line 0 (txt "enum " ++ path_and_name (e_namespace x) (e_name x)) ::
       source_shown o vw dir t ++
       labelled_line 1 "declaration" (if e_declaration x then txt "yes" else []) ++
       labelled_line 1 "size" (size_known vw t) ++
       under 1 "enumerators"
         (flat_map (fun e => match enumerator_shown e with [] => [] | s => [Line 2 s] end)
            (vw_enumerators vw t)) ++ [Blank])
| ts_def : forall x ls, t_kind t = TDef x ->
    (forall u, vw_find vw (d_ty x) = Some u -> anonymous u -> members_shown vw 2 (Some u) ls) ->
    (~ (exists u, vw_find vw (d_ty x) = Some u /\ anonymous u) -> ls = []) ->
    type_shown o vw dir t
      (Line 0 (txt "type " ++ match d_namespace x with Some n => text_value (namespace_value n) | None => [] end ++
               name_or "<anon-typedef>" (d_name x) ++ txt " = " ++ written_type vw (d_ty x)) ::
       source_shown o vw dir t ++ labelled_line 1 "size" (size_known vw t) ++
       under 1 "members" ls ++ [Blank])
| ts_base : forall x, t_kind t = TBase x ->
    type_shown o vw dir t
      (Line 0 (txt "base " ++ name_or "<anon>" (b_name x)) ::
       labelled_line 1 "size" (size_known vw t) ++
       labelled_line 1 "encoding"
         (match vw_encoding vw t with
          | EncOther => [] | EncBoolean => txt "boolean" | EncAddress => txt "address"
          | EncSigned => txt "signed" | EncSignedChar => txt "signed char"
          | EncUnsigned => txt "unsigned" | EncUnsignedChar => txt "unsigned char"
          | EncFloat => txt "floating-point" end) ++
       labelled_line 1 "endianity"
         (match vw_endianity vw t with EndDefault => [] | EndBig => txt "big" | EndLittle => txt "little" end)
       ++ [Blank]).

(** ** Nesting *)

(** [m] is shown in the list of members of [t]. *)
Inductive listed_member (t : type) : member -> Prop :=
| lm_struct : forall s m, t_kind t = TStruct s -> In m (s_members s) -> listed_member t m
| lm_variant : forall s p v m, t_kind t = TStruct s -> In p (s_variant_parts s) ->
    In v (vp_variants p) -> In m (v_members v) -> listed_member t m
| lm_union : forall u m, t_kind t = TUnion u -> In m (u_members u) -> listed_member t m.

(** No infinite chain of types whose members are shown inside each other starts at [t]. *)
Inductive nests (vw : view) (t : type) : Prop :=
| nests_intro :
    (forall m u, listed_member t m -> inline_member (h_env (vw_hash vw)) m ->
       vw_find vw (m_ty m) = Some u -> nests vw u) ->
    nests vw t.

(** [u] is a type whose members are shown with [t]. *)
Inductive shows_members (vw : view) (t : type) : type -> Prop :=
| sm_struct : forall s, t_kind t = TStruct s -> shows_members vw t t
| sm_union : forall u, t_kind t = TUnion u -> shows_members vw t t
| sm_def : forall d u, t_kind t = TDef d -> vw_find vw (d_ty d) = Some u -> anonymous u ->
    shows_members vw t u.
(** The kinds of types that have an entry of their own. *)
Definition printable (t : type) : Prop :=
  match t_kind t with
  | TBase _ | TDef _ | TStruct _ | TUnion _ | TEnum _ => True
  | _ => False
  end.
