(** What the layout of a structure should be, stated without the layout algorithm. *)
From Coq Require Import List NArith.
From Verif Require Import Base TypeModel TypeSpec LayoutModel.
Import ListNotations.
Local Open Scope N_scope.

(** [lo, hi) is the smallest interval containing the given (offset, size) pairs. *)
Definition hull (l : list (N * N)) (lo hi : N) : Prop :=
  (forall o s, In (o, s) l -> lo <= o /\ o + s <= hi) /\
  (exists o s, In (o, s) l /\ o = lo) /\
  (exists o s, In (o, s) l /\ o + s = hi).

(** The bits a member occupies: an explicit bit size wins over the type's size. *)
Inductive member_extent (bs : type_sizes) : member -> N * N -> Prop :=
| me_bits : forall m, explicit (m_bit_size m) ->
    member_extent bs m (m_bit_offset m, m_bit_size m)
| me_type : forall m b, ~ explicit (m_bit_size m) -> bs (m_ty m) = Some b ->
    member_extent bs m (m_bit_offset m, 8 * b).

Definition member_unsized (bs : type_sizes) (m : member) : Prop :=
  ~ explicit (m_bit_size m) /\ bs (m_ty m) = None.

(** The bits a laid out item occupies.  A variant part occupies the hull of the
    members of all its variants. *)
Inductive item_extent (bs : type_sizes) : layout_item -> N * N -> Prop :=
| ie_member : forall m e, member_extent bs m e -> item_extent bs (LMember m) e
| ie_inherit : forall i b, bs (i_ty i) = Some b ->
    item_extent bs (LInherit i) (i_bit_offset i, 8 * b)
| ie_part : forall p es lo hi, (forall v, In v (vp_variants p) -> v_members v <> []) ->
    Forall2 (member_extent bs) (flat_map v_members (vp_variants p)) es ->
    hull es lo hi -> item_extent bs (LVariantPart p) (lo, hi - lo).

(** The things a structure consists of. *)
Definition contents (members : list member) (inherits : list inherit)
    (parts : list variant_part) : list layout_item :=
  map LMember members ++ map LInherit inherits ++ map LVariantPart parts.

(** Two bit intervals do not overlap. *)
Definition apart (x y : N * N) : Prop := fst x + snd x <= fst y \/ fst y + snd y <= fst x.

(** The items of a layout follow each other without gap or overlap from [lo] to [hi]. *)
Fixpoint tiles (lo hi : N) (l : list lay) : Prop :=
  match l with
  | [] => lo = hi
  | x :: l' => l_offset x = lo /\ explicit (l_size x) /\ tiles (lo + l_size x) hi l'
  end.

Definition is_padding (x : lay) : bool := match l_item x with LPadding => true | _ => false end.

(** The layout without padding. *)
Definition real_items (l : list lay) : list lay := filter (fun x => negb (is_padding x)) l.

(** No two padding items in a row. *)
Fixpoint padding_isolated (l : list lay) : Prop :=
  match l with
  | [] => True
  | x :: l' =>
      match l' with y :: _ => ~ (is_padding x = true /\ is_padding y = true) | [] => True end /\
      padding_isolated l'
  end.

(** A layout entry describes an item at its position relative to [base]. *)
Definition describes (base : N) (x : lay) (ie : layout_item * (N * N)) : Prop :=
  l_item x = fst ie /\ l_offset x = fst (snd ie) - base /\ l_size x = snd (snd ie).
