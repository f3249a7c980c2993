(** Model of the details of a function: its parameters and local variables with their locations,
    the functions inlined into it, and the calls it makes: /repo/parser/src/file/dwarf.rs:2573-2678,
    2831-3154, 3248-3575 and 4191-4245, and the index in parser/src/function.rs:580-660.

    As in [DieModel], decoding is done by gimli, and its errors are not modelled.  The details of a function
    are read from the tree at its offset, and those trees may be in different units: [space] gives
    the tree at an offset together with what the expressions in it are evaluated with.

    The loops over children (2871-2906, 2925-2955, 3054-3091; 3110-3125, 3140-3152) are one function for
    the function and the lexical blocks inside it. *)
From Coq Require Import List Arith NArith ZArith Bool String.
From Verif Require Import Base RangeModel NamespaceModel TypeModel LocationModel DieModel FileModel EntryModel.
Import ListNotations.
Local Open Scope N_scope.

(** What an expression is evaluated with: the unit's address size and address table. *)
Record reading := mkReading { rd_address_size : N; rd_address : N -> option N }.

(** dwarf.rs:305-315, [tree]; [entry] (293-303) is the root of the same tree. *)
Definition space := N -> option (reading * die).

(** dwarf.rs:331-342, [function_tree]. *)
Definition function_tree (sp : space) (off : N) : option (reading * die) :=
  if off =? type_offset_none then None else sp off.

(** ** What is read *)

(** function.rs:261-267, [Parameter]. *)
Record parameter := mkParameter {
  pa_offset : N; pa_name : option string; pa_ty : type_offset; pa_locations : list (range * piece) }.

(** variable.rs:177-185, [LocalVariable]. *)
Record variable := mkVariableAt {
  lc_offset : N; lc_name : option string; lc_ty : type_offset; lc_source : source;
  lc_address : opt64; lc_size : opt64; lc_locations : list (range * piece) }.

(** function.rs:417-427, [FunctionCall]. *)
Record call_site := mkCallSite {
  cs_kind : site_kind; cs_return_address : option N; cs_call_address : option N;
  cs_origin : option site_origin; cs_target : list piece; cs_clobbered : bool;
  cs_ty : option type_offset; cs_source : source; cs_parameters : list argument }.

(** function.rs:354-363, [InlinedFunction]. *)
Inductive inlined_function := mkInlinedFunction {
  if_origin : N; if_size : opt64; if_ranges : list range; if_source : source;
  if_parameters : list parameter; if_variables : list variable;
  if_inlined : list inlined_function; if_calls : list call_site }.

(** function.rs:80-85, [FunctionDetails]. *)
Record function_details := mkFunctionDetails {
  fd_parameters : list parameter; fd_variables : list variable;
  fd_inlined : list inlined_function; fd_calls : list call_site }.
Definition no_details : function_details := mkFunctionDetails [] [] [] [].

Definition with_formals (d : function_details) (l : list parameter) : function_details :=
  mkFunctionDetails l (fd_variables d) (fd_inlined d) (fd_calls d).
Definition with_variables (d : function_details) (l : list variable) : function_details :=
  mkFunctionDetails (fd_parameters d) l (fd_inlined d) (fd_calls d).
Definition with_inlined (d : function_details) (l : list inlined_function) : function_details :=
  mkFunctionDetails (fd_parameters d) (fd_variables d) l (fd_calls d).
Definition with_calls (d : function_details) (l : list call_site) : function_details :=
  mkFunctionDetails (fd_parameters d) (fd_variables d) (fd_inlined d) l.

(** ** Parameters *)

(** dwarf.rs:2603-2625 and 3283-3310: an expression holds everywhere. *)
Definition place_list (v : place_value) : list (range * list op) :=
  match v with
  | PExpression _ ops => [(range_all, ops)]
  | PList l => l
  | PUnknown => []
  end.
Definition attr_parameter_locations (rd : reading) (l : list attr) : list (range * piece) :=
  scan (fun a x =>
    match a with
    | ALocation v => evaluate_parameters (rd_address_size rd) (rd_address rd) (place_list v) x
    | _ => x
    end) l [].

(** dwarf.rs:2652-2663: the first parameter at the offset is amended. *)
Fixpoint amend_parameter (origin : N) (p : parameter) (l : list parameter) : option (list parameter) :=
  match l with
  | [] => None
  | q :: l' =>
      if pa_offset q =? origin then
        Some (mkParameter (pa_offset q)
                (if is_none (pa_name p) then pa_name q else pa_name p)
                (if pa_ty p =? type_offset_none then pa_ty q else pa_ty p)
                (pa_locations q ++ pa_locations p) :: l')
      else option_map (cons q) (amend_parameter origin p l')
  end.

(** dwarf.rs:2573-2678, [parse_parameter]. *)
Definition parse_parameter (rd : reading) (off : N) (attrs : list attr) (l : list parameter)
  : list parameter :=
  let p := mkParameter off (attr_name attrs) (attr_type attrs) (attr_parameter_locations rd attrs) in
  match attr_abstract_origin attrs with
  | Some origin => match amend_parameter origin p l with Some l' => l' | None => l ++ [p] end
  | None => l ++ [p]
  end.

(** ** Local variables *)

(** dwarf.rs:3283-3310. *)
Definition attr_local (rd : reading) (l : list attr) : local_variable :=
  scan (fun a x =>
    match a with
    | ALocation v => evaluate_locals (rd_address_size rd) (rd_address rd) (place_list v) x
    | _ => x
    end) l (mkLocal opt64_none opt64_none []).

(** dwarf.rs:3335-3355. *)
Fixpoint amend_variable (origin : N) (v : variable) (l : list variable) : option (list variable) :=
  match l with
  | [] => None
  | q :: l' =>
      if lc_offset q =? origin then
        Some (mkVariableAt (lc_offset q)
                (if is_none (lc_name v) then lc_name q else lc_name v)
                (if lc_ty v =? type_offset_none then lc_ty q else lc_ty v)
                (if source_is_none (lc_source v) then lc_source q else lc_source v)
                (if opt64_is_none (lc_address v) then lc_address q else lc_address v)
                (if opt64_is_none (lc_size v) then lc_size q else lc_size v)
                (lc_locations q ++ lc_locations v) :: l')
      else option_map (cons q) (amend_variable origin v l')
  end.

(** dwarf.rs:3248-3370, [parse_local_variable]. *)
Definition parse_local_variable (rd : reading) (off : N) (attrs : list attr) (l : list variable)
  : list variable :=
  let place := attr_local rd attrs in
  let v := mkVariableAt off (attr_name attrs) (attr_type attrs) (attr_source attrs)
             (lv_address place) (lv_size place) (lv_locations place) in
  match attr_abstract_origin attrs with
  | Some origin => match amend_variable origin v l with Some l' => l' | None => l ++ [v] end
  | None => l ++ [v]
  end.

(** ** Calls *)

(** The field of an expression that can be evaluated. *)
Definition attr_pieces (rd : reading) (pick : attr -> option (list op)) (l : list attr) : list piece :=
  scan (fun a x =>
    match pick a with
    | Some ops =>
        match evaluate (rd_address_size rd) (rd_address rd) ops with Some ps => ps | None => x end
    | None => x
    end) l [].

(** [DW_AT_call_file], [DW_AT_call_line] and [DW_AT_call_column], as [attr_source]. *)
Definition attr_call_source (l : list attr) : source :=
  scan (fun a s =>
    match a with
    | ACallFile (Some (file, Some dir)) => mkSource dir file (so_line s) (so_column s)
    | ACallFile (Some (file, None)) => mkSource (so_directory s) file (so_line s) (so_column s)
    | ACallLine v => mkSource (so_directory s) (so_file s) (position v (so_line s)) (so_column s)
    | ACallColumn v => mkSource (so_directory s) (so_file s) (so_line s) (position v (so_column s))
    | _ => s
    end) l no_source.

(** [DW_AT_type] where the field is optional. *)
Definition attr_optional_type (l : list attr) (x : option type_offset) : option type_offset :=
  scan (fun a x => match a with AType (Some o) => Some o | _ => x end) l x.

(** dwarf.rs:3475-3575, [parse_call_site_parameter]: what the parameter called gives for its
    name and type counts (3555-3571). *)
Definition attr_call_parameter (l : list attr) : option N :=
  scan (fun a x =>
    match a with ACallParameter (Some o) | AAbstractOrigin (Some o) => Some o | _ => x end) l None.
Definition parse_call_site_parameter (sp : space) (rd : reading) (attrs : list attr) : argument :=
  let origin :=
    match attr_call_parameter attrs with
    | Some off => match sp off with Some (_, d) => die_attrs d | None => [] end
    | None => []
    end in
  mkArgument
    (scan (fun a x => match a with AName v => v | _ => x end) origin (attr_name attrs))
    (attr_optional_type origin (attr_optional_type attrs None))
    (attr_pieces rd (fun a => match a with ALocation (PExpression _ ops) => Some ops | _ => None end) attrs)
    (attr_pieces rd (fun a => match a with ACallValue v => v | _ => None end) attrs)
    (attr_pieces rd (fun a => match a with ACallDataLocation v => v | _ => None end) attrs)
    (attr_pieces rd (fun a => match a with ACallDataValue v => v | _ => None end) attrs).

(** What the file's index tells about offsets: [functions_by_offset] and [variables_by_offset]
    (file/mod.rs:643-682). *)
Record offsets := mkOffsets { of_function : N -> option func; of_variable : N -> option var }.

(** dwarf.rs:4191-4245, [parse_function_call_origin_offset]; [from_offset] finds nothing at
    [type_offset_none]. *)
Definition call_origin (sp : space) (h : offsets) (off : N) : option site_origin :=
  match sp off with
  | None => None
  | Some (_, d) =>
      match die_tag d with
      | TagSubprogram =>
          if off =? type_offset_none then None else option_map Direct (of_function h off)
      | TagVariable =>
          match (if off =? type_offset_none then None else of_variable h off) with
          | Some v => Some (ByVariable v)
          | None => Some (ByLocal off)
          end
      | TagParameter => Some (ByParameter off)
      | TagMember => Some (ByMember off)
      | _ => None
      end
  end.

(** dwarf.rs:3372-3473, [parse_call_site]. *)
Definition attr_call_origin (sp : space) (h : offsets) (l : list attr) : option site_origin :=
  scan (fun a x =>
    match a with
    | ACallOrigin (Some o) | AAbstractOrigin (Some o) =>
        match call_origin sp h o with Some r => Some r | None => x end
    | _ => x
    end) l None.
Definition attr_call_kind (l : list attr) : site_kind :=
  scan (fun a x => match a with ACallTail => TailCall | _ => x end) l NormalCall.
Definition attr_clobbered (l : list attr) : bool :=
  scan (fun a x => match a with ACallTarget true _ => true | _ => x end) l false.
Definition attr_return_address (gnu : bool) (l : list attr) : option N :=
  scan (fun a x =>
    match a with
    | ALowPc (Some n) => if gnu then Some n else x
    | ACallReturnPc v => v
    | _ => x
    end) l None.
Definition attr_call_address (l : list attr) : option N :=
  scan (fun a x => match a with ACallPc v => v | _ => x end) l None.
Definition call_parameters (sp : space) (rd : reading) (children : list die) : list argument :=
  flat_map (fun d =>
    match d with
    | Die TagCallParameter _ attrs _ => [parse_call_site_parameter sp rd attrs]
    | _ => []
    end) children.
Definition parse_call_site (sp : space) (h : offsets) (rd : reading) (gnu : bool) (attrs : list attr)
    (children : list die) : call_site :=
  mkCallSite (attr_call_kind attrs) (attr_return_address gnu attrs) (attr_call_address attrs)
    (attr_call_origin sp h attrs)
    (attr_pieces rd (fun a => match a with ACallTarget _ v => v | _ => None end) attrs)
    (attr_clobbered attrs) (attr_optional_type attrs None) (attr_call_source attrs)
    (call_parameters sp rd children).

(** ** The abstract instance of a function *)

(** dwarf.rs:3096-3127 and 3129-3154, [parse_abstract_subprogram] and
    [parse_abstract_lexical_block]: the loops over the children. *)
Fixpoint visit_abstract (rd : reading) (in_block : bool) (d : die)
    (st : list parameter * list variable) : list parameter * list variable :=
  match d with
  | Die TagParameter off attrs _ =>
      if in_block then st else (parse_parameter rd off attrs (fst st), snd st)
  | Die TagVariable off attrs _ => (fst st, parse_local_variable rd off attrs (snd st))
  | Die TagLexicalBlock _ _ children =>
      fold_left (fun st c => visit_abstract rd true c st) children st
  | _ => st
  end.
Definition parse_abstract_subprogram (sp : space) (off : N) : list parameter * list variable :=
  match function_tree sp off with
  | Some (rd, d) => fold_left (fun st c => visit_abstract rd false c st) (die_children d) ([], [])
  | None => ([], [])
  end.

(** ** Inlined functions *)

(** dwarf.rs:2845-2849 and 2976-2980. *)
Definition attr_function_origin (l : list attr) : N :=
  scan (fun a x => match a with AAbstractOrigin (Some o) => o | _ => x end) l type_offset_none.
(** dwarf.rs:3021-3052: size and ranges.  ([attr_unit_low_pc] and [attr_unit_size] do what is done
    here, too.) *)
Definition inlined_extent (l : list attr) : opt64 * list range :=
  match attr_ranges l with
  | Some rs => (total_size rs, nonempty_ranges rs)
  | None =>
      match attr_unit_size l, attr_unit_low_pc l, attr_high_pc l with
      | Some size, Some low, _ => (size, [mkRange low (add64 low size)])
      | Some size, None, _ => (size, [])
      | None, Some low, Some high =>
          (sub64 high low, if low <? high then [mkRange low high] else [])
      | None, _, _ => (opt64_none, [])
      end
  end.

(** What a function starts with: what its abstract instance has (2860-2869, 3006-3019). *)
Definition abstract_details (sp : space) (off : N) : function_details :=
  let '(ps, vs) := parse_abstract_subprogram sp off in mkFunctionDetails ps vs [] [].

Section Details.
  Variable sp : space.
  Variable h : offsets.

  (** dwarf.rs:2831-2909, 2911-2958 and 2960-3094: [parse_subprogram_details], [parse_lexical_block_details] and
      [parse_inlined_subroutine_details], for one child. *)
  Fixpoint visit_details (rd : reading) (in_block : bool) (d : die) (st : function_details)
    : function_details :=
    match d with
    | Die TagParameter off attrs _ =>
        if in_block then st else with_formals st (parse_parameter rd off attrs (fd_parameters st))
    | Die TagVariable off attrs _ =>
        with_variables st (parse_local_variable rd off attrs (fd_variables st))
    | Die TagInlined _ attrs children =>
        let inner :=
          fold_left (fun st c => visit_details rd false c st) children
            (abstract_details sp (attr_function_origin attrs)) in
        let '(size, ranges) := inlined_extent attrs in
        with_inlined st
          (fd_inlined st ++
           [mkInlinedFunction (attr_function_origin attrs) size ranges (attr_call_source attrs)
              (fd_parameters inner) (fd_variables inner) (fd_inlined inner) (fd_calls inner)])
    | Die TagLexicalBlock _ _ children =>
        fold_left (fun st c => visit_details rd true c st) children st
    | Die (TagCallSite gnu) _ attrs children =>
        with_calls st (fd_calls st ++ [parse_call_site sp h rd gnu attrs children])
    | _ => st
    end.

  (** dwarf.rs:2831-2909, [parse_subprogram_details]. *)
  Definition parse_subprogram_details (rd : reading) (attrs : list attr) (children : list die)
    : function_details :=
    fold_left (fun st c => visit_details rd false c st) children
      (abstract_details sp (attr_function_origin attrs)).

  (** dwarf.rs:361-369 and file/mod.rs:197-205, [get_function_details]. *)
  Definition get_function_details (off : N) : function_details :=
    match function_tree sp off with
    | Some (rd, d) => parse_subprogram_details rd (die_attrs d) (die_children d)
    | None => no_details
    end.
End Details.

(** ** The index of a function *)

(** A map with the offsets of the entries as keys: [insert] replaces (function.rs:637-656). *)
Definition index_by {A} (key : A -> N) (l : list A) (off : N) : option A :=
  fold_left (fun x a => if key a =? off then Some a else x) l None.
Definition parameters_by_offset (l : list parameter) : N -> option parameter := index_by pa_offset l.
Definition local_variables_by_offset (l : list variable) : N -> option variable := index_by lc_offset l.
(** file/mod.rs:643-655 and 670-682: the same for the functions and variables of all units. *)
Definition file_offsets (f : FileModel.file) : offsets :=
  mkOffsets (index_by fn_offset (flat_map un_functions (fl_units f)))
    (index_by va_offset (flat_map un_variables (fl_units f))).

(** ** What is printed of it *)

Definition formal_of (p : parameter) : formal := mkFormal (pa_name p) (pa_ty p) (pa_locations p).
Definition slot_of (v : variable) : slot :=
  mkSlot (lc_name v) (lc_ty v) (lc_address v) (lc_size v) (lc_locations v).
Definition site_of (c : call_site) : site :=
  mkSite (cs_kind c) (cs_return_address c) (cs_call_address c) (cs_origin c) (cs_target c)
    (cs_source c) (cs_parameters c).
Fixpoint inlined_of (x : inlined_function) : inlined :=
  mkInlined (if_origin x) (if_size x) (if_source x) (map formal_of (if_parameters x))
    (map slot_of (if_variables x)) (map inlined_of (if_inlined x)) (map site_of (if_calls x)).
Definition details_of (d : function_details) : details :=
  mkDetails (map formal_of (fd_parameters d)) (map slot_of (fd_variables d))
    (map inlined_of (fd_inlined d)) (map site_of (fd_calls d)).
