(** Model of the layout computation in /repo/parser/src/types.rs: bit offsets and
    sizes of members, base classes, variants and variant parts, and [layout].

    [bs] stands for [hash]: [bs off] is what
    [Type::from_offset(hash, off).and_then(|t| t.byte_size(hash))] answers (see
    [byte_size] in [TypeModel]).  Arithmetic wraps around at 64 bits, as in a
    release build; a debug build panics where an operation wraps. *)
From Coq Require Import List NArith Bool String.
From Verif Require Import Base TypeModel.
Import ListNotations.
Local Open Scope N_scope.

Definition type_sizes := type_offset -> option N.

(** types.rs:972-978, [Member::bit_size]. *)
Definition member_bit_size (bs : type_sizes) (m : member) : option N :=
  if opt64_is_some (m_bit_size m) then opt64_get (m_bit_size m)
  else option_map (fun v => mul64 v 8) (bs (m_ty m)).

(** types.rs:1025-1027, [Inherit::bit_size]. *)
Definition inherit_bit_size (bs : type_sizes) (i : inherit) : option N :=
  option_map (fun v => mul64 v 8) (bs (i_ty i)).

(** The loop shared by types.rs:760-769 and 834-843: the smallest offset. *)
Definition min_offset (offs : list N) : N :=
  let m := fold_left (fun acc o => if o <? acc then o else acc) offs u64_max in
  if m <? u64_max then m else 0.

(** The loop shared by types.rs:773-787 and 846-860: the largest end, unless a
    size is unknown. *)
Fixpoint max_end (l : list (N * option N)) (e : N) : option N :=
  match l with
  | [] => Some e
  | (o, Some size) :: l' => max_end l' (if e <? add64 o size then add64 o size else e)
  | (_, None) :: _ => None
  end.
Definition span_size (l : list (N * option N)) (start : N) : option N :=
  match max_end l start with Some e => Some (sub64 e start) | None => None end.

(** types.rs:834-843, [Variant::bit_offset]. *)
Definition variant_bit_offset (v : variant) : N := min_offset (map m_bit_offset (v_members v)).
(** types.rs:846-860, [Variant::bit_size]. *)
Definition variant_bit_size (bs : type_sizes) (v : variant) : option N :=
  span_size (map (fun m => (m_bit_offset m, member_bit_size bs m)) (v_members v))
    (variant_bit_offset v).

(** types.rs:760-769, [VariantPart::bit_offset]. *)
Definition vpart_bit_offset (p : variant_part) : N :=
  min_offset (map variant_bit_offset (vp_variants p)).
(** types.rs:773-787, [VariantPart::bit_size]. *)
Definition vpart_bit_size (bs : type_sizes) (p : variant_part) : option N :=
  span_size (map (fun v => (variant_bit_offset v, variant_bit_size bs v)) (vp_variants p))
    (vpart_bit_offset p).

(** types.rs:1043-1055, [LayoutItem]. *)
Inductive layout_item :=
| LPadding
| LMember (m : member)
| LVariantPart (p : variant_part)
| LInherit (i : inherit).

(** types.rs:1031-1041, [Layout]. *)
Record lay := mkLay { l_offset : N; l_size : opt64; l_item : layout_item }.

(** types.rs:1083-1087. *)
Definition lay_cmp (a b : lay) : comparison :=
  then_with (N.compare (l_offset a) (l_offset b)) (opt64_cmp (l_size a) (l_size b)).

(** types.rs:1091-1105: the loop over the sorted items, last one first, with
    [next_bit_offset]; the result is in the order of the [push] calls. *)
Fixpoint layout_walk (ms : list lay) (next : option N) : list lay :=
  match ms with
  | [] => []
  | m :: ms' =>
      (match opt64_get (l_size m), next with
       | Some size, Some nx =>
           let e := add64 (l_offset m) size in
           if e <? nx then [mkLay e (sub64 nx e) LPadding] else []
       | _, _ => []
       end) ++ m :: layout_walk ms' (Some (l_offset m))
  end.

(** types.rs:1106-1114: padding before the first item. *)
Definition layout_lead (l : list lay) : list lay :=
  match rev l with
  | x :: _ => if 0 <? l_offset x then l ++ [mkLay 0 (l_offset x) LPadding] else l
  | [] => l
  end.

(** types.rs:1057-1117, [layout]. *)
Definition layout (bs : type_sizes) (members : list member) (inherits : list inherit)
    (parts : list variant_part) (base : N) (bit_size : option N) : list lay :=
  let items :=
    map (fun m => mkLay (sub64 (m_bit_offset m) base) (opt64_from (member_bit_size bs m))
                    (LMember m)) members ++
    map (fun i => mkLay (sub64 (i_bit_offset i) base) (opt64_from (inherit_bit_size bs i))
                    (LInherit i)) inherits ++
    map (fun p => mkLay (sub64 (vpart_bit_offset p) base) (opt64_from (vpart_bit_size bs p))
                    (LVariantPart p)) parts in
  let sorted := stable_sort lay_cmp items in
  rev (layout_lead (layout_walk (rev sorted) bit_size)).

(** types.rs:609-611 and 649-658, [StructType::bit_size], [StructType::layout]. *)
Definition struct_layout (bs : type_sizes) (s : struct_type) : list lay :=
  layout bs (s_members s) (s_inherits s) (s_variant_parts s) 0
    (option_map (fun v => mul64 v 8) (opt64_get (s_byte_size s))).

(** types.rs:865-872, [Variant::layout]. *)
Definition variant_layout (bs : type_sizes) (v : variant) (bit_offset : N)
    (bit_size : option N) : list lay :=
  layout bs (v_members v) [] [] bit_offset bit_size.
