(** Specification vocabulary for the lines about a file as a whole. *)
From Coq Require Import List Arith NArith Bool String.
From Verif Require Import Base RangeModel RangeSpec NamespaceModel TypeModel FileModel FileSpec OptionsModel FilterModel
  DieModel DieSpec ReportModel WholeModel WholeSpec.
Import ListNotations.
Local Open Scope N_scope.

(** A section that is kept, as it is shown. *)
Definition section_for (s : object_section) (x : named_section) : Prop :=
  ns_name x = ob_section_name s /\ ns_segment x = ob_segment_name s /\
  se_size (ns_section x) = ob_section_size s /\
  (ob_section_address s = 0 -> se_address (ns_section x) = None) /\
  (ob_section_address s <> 0 -> se_address (ns_section x) = Some (ob_section_address s)).

(** No range of the file reaches the end of the address space. *)
Definition addresses_fit (ob : object_input) : Prop :=
  file_in_bounds (h_sizes (file_hash ob)) (file_read ob).

(** The size of a variable: its own, or else that of its type. *)
Definition variable_extent (ob : object_input) (g : dw_variable) : option N :=
  match opt64_get (vr_size g) with
  | Some n => Some n
  | None => match from_offset (type_at ob) (vr_ty g) with Some t => type_size ob t | None => None end
  end.

(** An address that something in the file is said to be at. *)
Inductive address_of (ob : object_input) (a : N) : Prop :=
| ao_section s : In s (ob_sections ob) -> ob_section_address s <> 0 -> ob_section_size s <> 0 ->
    ob_section_address s <= a < ob_section_address s + ob_section_size s -> address_of ob a
| ao_unit u r : In u (ob_units ob) -> In r (DieModel.unit_ranges (ui_lines u) (ui_attrs u)) ->
    rbegin r <= a < rend r -> address_of ob a
| ao_function u d g r : In u (ob_units ob) -> describes (unit_base u) (ui_children u) d g -> In r (fu_ranges g) ->
    rbegin r <= a < rend r -> address_of ob a
| ao_variable u d g b n : In u (ob_units ob) -> no_rust_statics (unit_context ob u) ->
    describes_variable (unit_base u) (ui_children u) d g ->
    opt64_get (vr_address g) = Some b -> variable_extent ob g = Some n -> b <= a < b + n -> address_of ob a
| ao_symbol s : In s (parse_symbols (ob_symbols ob)) -> ~ debug_address (parsed_units ob) (sy_address s) ->
    sy_address s <= a < sy_address s + sy_size s -> address_of ob a.

(** An address that a function of the unit is at. *)
Definition function_at (u : unit) (a : N) : Prop :=
  exists f r, In f (un_functions u) /\ In r (fn_ranges f) /\ rbegin r <= a < rend r.
(** An address that a variable of the unit is at; its end is a number of 64 bits. *)
Definition variable_at (sizes : type_offset -> option N) (u : unit) (a : N) : Prop :=
  exists v b n, In v (un_variables u) /\ opt64_get (va_address v) = Some b /\
    match opt64_get (va_size v) with Some n => Some n | None => sizes (va_ty v) end = Some n /\ n <> 0 /\ b <= a < (b + n) mod 2 ^ 64.
(** Between an address of [P] and the next multiple of 16, which is again one of [P]. *)
Definition aligns (P : N -> Prop) (a : N) : Prop := exists p q, P p /\ P q /\ p < a < q /\ q <= p + 16 /\ q mod 16 = 0.
(** [n] is the number of addresses of [P], each counted once, and of addresses between them that serve alignment. *)
Definition measures (P : N -> Prop) (n : N) : Prop :=
  exists l, NoDup l /\ n = N.of_nat (List.length l) /\ (forall a, P a -> In a l) /\ (forall a, In a l -> P a \/ aligns P a).
