(** Specification vocabulary for a whole run over one file. *)
From Coq Require Import List Arith NArith ZArith Bool String.
From Verif Require Import Base RangeModel NamespaceModel TypeModel TypeSpec FileModel FileSpec OptionsModel FilterModel
  FilterSpec PrintModel PrintSpec NameModel DieModel DieSpec MemberSpec ItemModel ItemSpec EntryModel EntrySpec
  ReportModel ReportSpec WholeModel.
Import ListNotations.
Local Open Scope N_scope.

(** ** The input *)

Definition unit_entries (u : unit_input) : list die := flat_map entries (ui_children u).
Definition all_entries (ob : object_input) : list die := flat_map unit_entries (ob_units ob).
(** Entries are at different places, none of which is the value reserved for a missing offset. *)
Definition well_formed (ob : object_input) : Prop :=
  NoDup (map die_offset (all_entries ob)) /\
  Forall (fun d => die_offset d <> u64_max) (all_entries ob).
(** No type that is referred to has an identity that is built from itself. *)
Definition acyclic_types (ob : object_input) : Prop :=
  forall off t, from_offset (type_at ob) off = Some t -> acyclic (type_at ob) t.
(** The sizes of types that are referred to do not depend on themselves. *)
Definition sized_types (ob : object_input) : Prop :=
  forall off t, from_offset (type_at ob) off = Some t -> size_well_founded (type_at ob) t.

(** The lowest address of a unit, which decides what an address of 0 means in it. *)
Definition unit_base (u : unit_input) : option N := DieModel.unit_low_pc (ui_lines u) (ui_attrs u).

(** ** Entries and items *)

(** The symbol name of an item: see [loaded_function]. *)
Definition symbol_shown (symbols : list symbol) (address : opt64) (own got : option string) : Prop :=
  match opt64_get address with
  | None => got = None
  | Some a => keeps_name symbols a own /\ got = None \/ FileSpec.given_name symbols a own got
  end.
(** The function that is printed for a description, and the variable. *)
Definition function_for (symbols : list symbol) (g : dw_function) (f : func) : Prop :=
  fn_offset f = fu_offset g /\ fn_namespace f = fu_namespace g /\ fn_name f = fu_name g /\
  fn_linkage_name f = fu_linkage_name g /\ fn_address f = fu_address g /\ fn_size f = fu_size g /\
  fn_ranges f = fu_ranges g /\ fn_inline f = fu_inline g /\ fn_declaration f = fu_declaration g /\
  symbol_shown symbols (fu_address g) (own_name (fu_linkage_name g) (fu_name g)) (fn_symbol_name f).
Definition variable_for (symbols : list symbol) (g : dw_variable) (v : var) : Prop :=
  va_offset v = vr_offset g /\ va_namespace v = vr_namespace g /\ va_name v = vr_name g /\
  va_linkage_name v = vr_linkage_name g /\ va_ty v = vr_ty g /\ va_address v = vr_address g /\
  va_size v = vr_size g /\ va_declaration v = vr_declaration g /\
  symbol_shown symbols (vr_address g) (own_name (vr_linkage_name g) (vr_name g)) (va_symbol_name v).

(** Which of them are wanted; see [function_listed] and [variable_listed]. *)
Definition function_wanted (o : options) (g : dw_function) : Prop :=
  (fu_inline g = true \/ (opt64_get (fu_address g) <> None /\ opt64_get (fu_size g) <> None)) /\
  name_matches (f_name (o_filter o)) (fu_name g) /\
  namespace_matches (f_namespace (o_filter o)) (fu_namespace g) /\
  inline_matches (f_function_inline (o_filter o)) (fu_inline g).
Definition variable_wanted (o : options) (g : dw_variable) : Prop :=
  (vr_declaration g = true \/ opt64_get (vr_address g) <> None) /\
  name_matches (f_name (o_filter o)) (vr_name g) /\
  namespace_matches (f_namespace (o_filter o)) (vr_namespace g).
(** The unit that a unit of the input is. *)
Definition unit_wanted (given : list (string * string)) (o : options) (u : unit_input) : Prop :=
  unit_listed given o (mkUnit (DieSpec.given_name (ui_attrs u)) [] [] [] []).

(** ** What is printed for a unit *)

(** A piece of the output for each of some descriptions, and none twice. *)
Definition functions_printed (choice : N -> nat) (ob : object_input) (o : options) (depth : nat) (u : unit_input)
    (ls : list line) : Prop :=
  exists gs,
    NoDup (map fu_offset gs) /\
    (forall d g, describes (unit_base u) (ui_children u) d g -> (In g gs <-> function_wanted o g)) /\
    (forall g, In g gs -> exists t d,
       found (ui_children u) t d /\ die_tag d = TagSubprogram /\ fu_offset g = die_offset d) /\
    each (fun g xs => exists f, function_for (parse_symbols (ob_symbols ob)) g f /\
            sc_return (file_scene choice ob) f = fu_return g /\
            sc_function_source (file_scene choice ob) f = fu_source g /\
            function_shown o (file_scene choice ob) (ui_dir u) depth f xs) gs ls.
Definition variables_printed (choice : N -> nat) (ob : object_input) (o : options) (u : unit_input)
    (ls : list line) : Prop :=
  exists gs,
    NoDup (map vr_offset gs) /\
    (no_rust_statics (unit_context ob u) ->
     forall d g, describes_variable (unit_base u) (ui_children u) d g -> (In g gs <-> variable_wanted o g)) /\
    (forall g, In g gs -> exists d,
       has_variable (unit_context ob u) (ui_children u) d /\ vr_offset g = die_offset d) /\
    each (fun g xs => exists v, variable_for (parse_symbols (ob_symbols ob)) g v /\
            sc_variable_source (file_scene choice ob) v = vr_source g /\
            xs = variable_shown o (file_scene choice ob) (ui_dir u) v) gs ls.
Definition types_printed (choice : N -> nat) (ob : object_input) (o : options) (u : unit_input)
    (ls : list line) : Prop :=
  exists kept ts,
    NoDup (map t_offset kept) /\ NoDup (map t_offset ts) /\
    (forall t, In t kept -> exists ns outer d,
       found (ui_children u) outer d /\ is_type_tag (die_tag d) = true /\ outer <> TagEnumeration /\
       t_offset t = die_offset d /\ describes_type (unit_context ob u) ns d (t_kind t)) /\
    (forall outer ns d, located (unit_base u) (ui_children u) outer ns d -> outer <> TagEnumeration ->
       is_type_tag (die_tag d) = true ->
       exists t, In t kept /\ t_offset t = die_offset d /\ describes_type (unit_context ob u) ns d (t_kind t)) /\
    (forall t, In t kept -> type_at ob (t_offset t) = Some t) /\
    (forall t, In t ts <-> In t kept /\ type_listed o (type_at ob) false (mkUnit None [] kept [] []) t) /\
    each (type_shown o (file_view choice ob) (ui_dir u)) ts ls.

(** ** Types that have no place of their own in the output *)

Definition is_unnamed_tag (t : tag) : bool :=
  match t with TagArray | TagSubrange | TagSubroutine | TagPtrToMember | TagModifier _ => true | _ => false end.
Definition given_containing :=
  fun l => given (fun a => match a with AContainingType v => v | _ => None end) l type_offset_none.
(** The dimensions of an array as C38 has them; the bounds of a subrange if they are what it gives. *)
Definition dimensions_given (children : list die) (ns : list Z) : Prop :=
  Forall2 (fun d n => dimension_is (die_attrs d) n) (dimensions children) ns /\ ns <> [] /\
  Forall (fun n => (0 <= n < Z.of_N u64_max)%Z) ns /\
  Forall (fun d => given_count (die_attrs d) <> None
            \/ (exists n, dimension_is (die_attrs d) n /\ (0 < n)%Z)
               /\ forall z, given_lower (die_attrs d) = Some z -> (0 <= z)%Z) (dimensions children).
Definition bounds_given (l : list attr) (lower upper : N) : Prop :=
  distinct_attrs l /\ In (ALowerBound (Some (Z.of_N lower))) l /\ In (AUpperBound (Some (Z.of_N upper))) l /\
  ~ In 21 (map attr_kind l).
Inductive describes_unnamed (address_size : N) (d : die) : type_kind -> Prop :=
| du_array x : die_tag d = TagArray ->
    a_ty x = given_type (die_attrs d) -> a_byte_size x = given_byte_size (die_attrs d) ->
    (forall ns, dimensions_given (die_children d) ns -> counts_as_slice x = map Z.to_N ns) ->
    describes_unnamed address_size d (TArray x)
| du_subrange x : die_tag d = TagSubrange ->
    sr_name x = DieSpec.given_name (die_attrs d) -> sr_ty x = given_type (die_attrs d) ->
    sr_byte_size x = given_byte_size (die_attrs d) ->
    (forall lower upper, bounds_given (die_attrs d) lower upper ->
       sr_lower x = Some lower /\ sr_upper x = Some upper) ->
    describes_unnamed address_size d (TSubrange x)
| du_function ps : die_tag d = TagSubroutine -> extends [] (die_children d) ps ->
    describes_unnamed address_size d
      (TFunction (mkFunctionType (map pt_ty ps) (given_type (die_attrs d)) address_size))
| du_member : die_tag d = TagPtrToMember ->
    describes_unnamed address_size d
      (TPtrToMember (mkPtrToMember (given_type (die_attrs d)) (given_containing (die_attrs d))
         (given_byte_size (die_attrs d)) (Some address_size)))
| du_modifier k : die_tag d = TagModifier k ->
    describes_unnamed address_size d
      (TModifier (mkModifier k (given_type (die_attrs d)) (DieSpec.given_name (die_attrs d))
         (given_byte_size (die_attrs d)) (Some address_size))).

(** ** Pieces of the output *)

Definition yes (b : bool) : text := if b then txt "yes" else [].
Definition optional_name (n : option string) : text := match n with Some s => txt s | None => [] end.
(** The type that a function returns: nothing is shown for no type. *)
Definition return_shown (vw : view) (off : type_offset) : text :=
  match vw_find vw off with
  | Some t =>
      match t_kind t with
      | TVoid => []
      | _ => size_shown (h_size (vw_hash vw) t) ++ text_value (vw_ref vw (Some t))
      end
  | None => size_shown None ++ text_value (vw_ref vw None)
  end.
(** The start of the piece for a function, and all of that for a variable, as described; [symbol] is the
    symbol name. *)
Definition function_head (o : options) (vw : view) (dir : option string) (g : dw_function)
    (symbol : option string) (parameters : list line) : list line :=
  Line 0 (txt "fn " ++ path_and_name (fu_namespace g) (fu_name g)) ::
  labelled_line 1 "linkage name" (optional_name (fu_linkage_name g)) ++
  labelled_line 1 "symbol name" (optional_name symbol) ++
  (if p_source (o_print o) then labelled_line 1 "source" (source_text dir (fu_source g)) else []) ++
  ranges_shown 1 (fu_ranges g) ++
  labelled_line 1 "size" (match known (fu_size g) with Some n => dec n | None => [] end) ++
  labelled_line 1 "inline" (yes (fu_inline g)) ++ labelled_line 1 "declaration" (yes (fu_declaration g)) ++
  under 1 "return type" (text_line 2 (return_shown vw (fu_return g))) ++ under 1 "parameters" parameters.
Definition variable_piece (o : options) (vw : view) (dir : option string) (g : dw_variable)
    (symbol : option string) : list line :=
  Line 0 (txt "var " ++ path_and_name (vr_namespace g) (vr_name g) ++ txt ": " ++ written_type vw (vr_ty g)) ::
  labelled_line 1 "linkage name" (optional_name (vr_linkage_name g)) ++
  labelled_line 1 "symbol name" (optional_name symbol) ++
  (if p_source (o_print o) then labelled_line 1 "source" (source_text dir (vr_source g)) else []) ++
  labelled_line 1 "address" (match known (vr_address g) with Some a => hex0x a | None => [] end) ++
  labelled_line 1 "size"
    (match (if vr_size g =? u64_max then vw_sizes vw (vr_ty g) else Some (vr_size g)) with
     | Some n => dec n | None => [] end) ++
  labelled_line 1 "declaration" (yes (vr_declaration g)) ++ [Blank].

(** ** Symbols that the debug info does not account for *)

Definition symbol_wanted (o : options) (s : symbol) : Prop :=
  name_matches (f_name (o_filter o)) (sy_name s) /\ namespace_matches (f_namespace (o_filter o)) None.
(** The piece for a function; what it calls and its code are listed as for others. *)
Inductive symbol_printed (choice : N -> nat) (ob : object_input) (o : options) (depth : nat) (s : symbol)
  : list line -> Prop :=
| sp_intro : forall cs code,
    optional (p_function_calls (o_print o))
      (fun ls => exists l, calls (file_scene choice ob) (symbol_function s) = Some l /\
         ls = flat_map (fun c => text_line 2 (call_shown o (file_scene choice ob) c)) l) cs ->
    optional (p_function_instructions (o_print o))
      (fun ls => exists p, print_instructions (file_scene choice ob) (symbol_function s) = Some p /\
         ls = lines depth 2 p) code ->
    symbol_printed choice ob o depth s
      (Line 0 (txt "fn " ++ name_or "<anon>" (sy_name s)) ::
       labelled_line 1 "linkage name" (optional_name (sy_name s)) ++
       ranges_shown 1 [mkRange (sy_address s) (sy_address s + sy_size s)] ++
       labelled_line 1 "size" (dec (sy_size s)) ++
       under 1 "calls" cs ++ under 1 "instructions" code ++ [Blank]).
Definition symbol_variable_piece (s : symbol) : list line :=
  Line 0 (txt "var " ++ name_or "<anon>" (sy_name s) ++ txt ": void") ::
  labelled_line 1 "linkage name" (optional_name (sy_name s)) ++
  labelled_line 1 "address" (hex0x (sy_address s)) ++ labelled_line 1 "size" (dec (sy_size s)) ++ [Blank].
