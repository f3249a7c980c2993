(** Specification vocabulary for files: independent of the algorithms in
    [FileModel.v]. *)
From Coq Require Import List NArith Bool String.
From Verif Require Import RangeModel RangeSpec TypeModel FileModel.
Import ListNotations.
Local Open Scope N_scope.

(** All items of a file, in file order. *)
Definition all_functions (units : list unit) : list func := flat_map un_functions units.
Definition all_variables (units : list unit) : list var := flat_map un_variables units.
Definition all_types (units : list unit) : list type := flat_map un_types units.

(** [x] is the last element of [l] with the key [k]. *)
Definition last_with {A} (key : A -> option N) (k : N) (l : list A) (x : A) : Prop :=
  exists before after, l = before ++ x :: after /\ key x = Some k /\
    forall y, In y after -> key y <> Some k.

(** [addr] is where debug info places a function, a further range of a function,
    or a variable. *)
Definition debug_address (units : list unit) (addr : N) : Prop :=
  (exists f, In f (all_functions units) /\ opt64_get (fn_address f) <> None /\
     (opt64_get (fn_address f) = Some addr \/
      exists r, In r (tl (fn_ranges f)) /\ rbegin r = addr)) \/
  (exists v, In v (all_variables units) /\ opt64_get (va_address v) = Some addr).

(** The name by which an item would appear in the symbol table. *)
Definition own_name (linkage name : option string) : option string :=
  match linkage with Some n => Some n | None => name end.

(** The symbol name an item at [addr] with name [own] should be given, from the
    symbols in their original order: none if no symbol is at [addr] or one of
    those carries the item's own name, else the name of the first symbol there. *)
Definition given_name (symbols : list symbol) (addr : N) (own got : option string) : Prop :=
  exists before s after,
    symbols = before ++ s :: after /\ sy_address s = addr /\ sy_name s = got /\
    (forall t, In t before -> sy_address t <> addr) /\
    (forall t, In t symbols -> sy_address t = addr -> sy_name t <> own).
Definition keeps_name (symbols : list symbol) (addr : N) (own : option string) : Prop :=
  (forall s, In s symbols -> sy_address s <> addr) \/
  (exists s, In s symbols /\ sy_address s = addr /\ sy_name s = own).

(** Everything about a function or variable but the symbol name. *)
Definition same_function (f g : func) : Prop :=
  fn_offset f = fn_offset g /\ fn_namespace f = fn_namespace g /\ fn_name f = fn_name g /\
  fn_linkage_name f = fn_linkage_name g /\ fn_address f = fn_address g /\
  fn_size f = fn_size g /\ fn_ranges f = fn_ranges g /\ fn_inline f = fn_inline g /\
  fn_declaration f = fn_declaration g.
Definition same_variable (v w : var) : Prop :=
  va_offset v = va_offset w /\ va_namespace v = va_namespace w /\ va_name v = va_name w /\
  va_linkage_name v = va_linkage_name w /\ va_ty v = va_ty w /\ va_address v = va_address w /\
  va_size v = va_size w /\ va_declaration v = va_declaration w.

(** A function or variable after loading: unchanged but for the symbol name. *)
Definition loaded_function (symbols : list symbol) (f g : func) : Prop :=
  same_function f g /\
  match opt64_get (fn_address f) with
  | None => fn_symbol_name g = fn_symbol_name f
  | Some addr =>
      let own := own_name (fn_linkage_name f) (fn_name f) in
      (keeps_name symbols addr own /\ fn_symbol_name g = fn_symbol_name f) \/
      given_name symbols addr own (fn_symbol_name g)
  end.
Definition loaded_variable (symbols : list symbol) (v w : var) : Prop :=
  same_variable v w /\
  match opt64_get (va_address v) with
  | None => va_symbol_name w = va_symbol_name v
  | Some addr =>
      let own := own_name (va_linkage_name v) (va_name v) in
      (keeps_name symbols addr own /\ va_symbol_name w = va_symbol_name v) \/
      given_name symbols addr own (va_symbol_name w)
  end.
Definition loaded_unit (symbols : list symbol) (u w : unit) : Prop :=
  un_name w = un_name u /\ un_ranges w = un_ranges u /\ un_types w = un_types u /\
  Forall2 (loaded_function symbols) (un_functions u) (un_functions w) /\
  Forall2 (loaded_variable symbols) (un_variables u) (un_variables w).

(** The segment [s] holds the whole range [r]. *)
Definition segment_holds (s : segment) (r : range) : Prop :=
  sg_address s <= rbegin r /\ rend r <= sg_address s + N.of_nat (List.length (sg_bytes s)).
(** [l] lists the bytes that [s] loads at the addresses of [r], in order. *)
Definition bytes_of (s : segment) (r : range) (l : list N) : Prop :=
  N.of_nat (List.length l) = rend r - rbegin r /\
  forall i, (i < List.length l)%nat ->
    nth_error l i = nth_error (sg_bytes s) (N.to_nat (rbegin r - sg_address s) + i).

(** No 64-bit overflow in the segment's end. *)
Definition segment_fits (s : segment) : Prop :=
  sg_address s + N.of_nat (List.length (sg_bytes s)) < 2 ^ 64.

(** A symbol that stays clear of the end of the address space. *)
Definition symbol_in_bounds (s : symbol) : Prop := (sy_address s + sy_size s + 15 < 2 ^ 64).

(** The entry that stands for symbol [s] in the [<symtab>] unit. *)
Definition symtab_function (s : symbol) (f : func) : Prop :=
  fn_name f = sy_name s /\ fn_linkage_name f = sy_name s /\ fn_symbol_name f = None /\
  opt64_get (fn_address f) = Some (sy_address s) /\ opt64_get (fn_size f) = Some (sy_size s) /\
  fn_ranges f = [mkRange (sy_address s) (sy_address s + sy_size s)] /\
  fn_inline f = false /\ fn_declaration f = false.
Definition symtab_variable (s : symbol) (v : var) : Prop :=
  va_name v = sy_name s /\ va_linkage_name v = sy_name s /\ va_symbol_name v = None /\
  opt64_get (va_address v) = Some (sy_address s) /\ opt64_get (va_size v) = Some (sy_size s) /\
  va_declaration v = false.

Definition is_function_symbol (s : symbol) : bool :=
  match sy_kind s with SymFunction => true | SymVariable => false end.

(** The [<symtab>] unit for the symbols [l]. *)
Definition symtab_for (l : list symbol) (u : unit) : Prop :=
  un_name u = Some "<symtab>"%string /\ un_types u = [] /\
  Forall2 symtab_function (filter is_function_symbol l) (un_functions u) /\
  Forall2 symtab_variable (filter (fun s => negb (is_function_symbol s)) l) (un_variables u).

(** The addresses that a list of sections or variables takes up. *)
Definition section_spans (l : list section) : list range :=
  flat_map (fun s => match se_address s with
                     | Some b => [mkRange b (b + se_size s)]
                     | None => []
                     end) l.
Definition var_spans (bs : type_offset -> option N) (l : list var) : list range :=
  flat_map (fun v =>
    match opt64_get (va_address v),
          match opt64_get (va_size v) with Some n => Some n | None => bs (va_ty v) end with
    | Some b, Some n => if n =? 0 then [] else [mkRange b (b + n)]
    | _, _ => []
    end) l.

(** All ranges of a file stay clear of the end of the address space. *)
Definition file_in_bounds (bs : type_offset -> option N) (f : file) : Prop :=
  Forall in_bounds (section_spans (fl_sections f)) /\
  Forall symbol_in_bounds (fl_symbols f) /\
  forall u, In u (fl_units f) ->
    Forall in_bounds (un_ranges u) /\
    Forall in_bounds (flat_map fn_ranges (un_functions u)) /\
    Forall in_bounds (var_spans bs (un_variables u)).

(** Some unit accounts for address [a], through its items or through its unknown
    ranges. *)
Definition attributed (bs : type_offset -> option N) (units : list unit) (a : N) : Prop :=
  exists u, In u units /\
    (covers (unit_ranges bs u) a \/ covers (unit_unknown_ranges bs u) a).

(** All ranges that the units report. *)
Definition reported (bs : type_offset -> option N) (units : list unit) : list range :=
  flat_map (fun u => unit_ranges bs u ++ unit_unknown_ranges bs u) units.
