(** Model of what is printed for a function and a variable, and for comparisons of
    two of them: /repo/main/src/print/function.rs, inlined_function.rs, function_call.rs,
    parameter.rs, local_variable.rs, location.rs, frame_location.rs, register.rs and variable.rs.

    As in [ItemModel], the result is a document or [None]: a panic, or a recursion deeper than
    [fuel].  Arithmetic wraps as in release mode. *)
From Coq Require Import List Arith NArith ZArith Bool String.
From Verif Require Import Base RangeModel NamespaceModel TypeModel LayoutModel CfiModel FileModel DieModel
  OptionsModel FilterModel DiffModel PrintModel NameModel RefModel LocationModel CodeModel ItemModel.
Import ListNotations.
Local Open Scope N_scope.

(** ** What is read of a function *)

(** parser/src/function.rs:261-267, [Parameter], and variable.rs:177-185, [LocalVariable]; offsets, and
    the source of the latter, are left out. *)
Record formal := mkFormal { fo_name : option string; fo_ty : type_offset; fo_locations : list (range * piece) }.
Record slot := mkSlot {
  sl_name : option string; sl_ty : type_offset; sl_address : opt64; sl_size : opt64;
  sl_locations : list (range * piece) }.

(** function.rs:539-546, [FunctionCallParameter]. *)
Record argument := mkArgument {
  ar_name : option string; ar_ty : option type_offset; ar_location : list piece;
  ar_value : list piece; ar_data_location : list piece; ar_data_value : list piece }.
(** function.rs:504-536, [FunctionCallKind], [FunctionCallOrigin] and
    [FunctionCallIndirectOrigin]. *)
Inductive site_kind := NormalCall | TailCall.
Inductive site_origin :=
| Direct (f : func) | ByVariable (v : var) | ByLocal (off : N) | ByParameter (off : N) | ByMember (off : N).
(** function.rs:417-427, [FunctionCall]; [target_is_clobbered] and [ty] are not read. *)
Record site := mkSite {
  si_kind : site_kind; si_return_address : option N; si_call_address : option N;
  si_origin : option site_origin; si_target : list piece; si_source : source;
  si_arguments : list argument }.

(** function.rs:354-363, [InlinedFunction]; [ranges] is not read. *)
Inductive inlined := mkInlined {
  il_origin : N; il_size : opt64; il_source : source; il_parameters : list formal;
  il_variables : list slot; il_inlined : list inlined; il_calls : list site }.
(** function.rs:80-85, [FunctionDetails]. *)
Record details := mkDetails {
  de_parameters : list formal; de_variables : list slot; de_inlined : list inlined; de_calls : list site }.

(** What the instructions of a file are read with: a disassembler, the maps of [Code], and
    [File::cfi]; see [CodeModel].  Without a disassembler there is nothing to show: no [program]. *)
Record program := mkProgram {
  pg_disasm : list N -> N -> option (list insn); pg_regions : list segment;
  pg_relocation : N -> option string; pg_plt : N -> option string; pg_cfis : range -> list cfi }.

(** What is used of a file: see [view]; lookups of functions and variables; the fields of
    functions and variables that [func] and [var] leave out. *)
Record scene := mkScene {
  sc_view : view;
  sc_register : N -> option string;
  sc_function_at : N -> option func;      (* hash.functions_by_address *)
  sc_variable_at : N -> option var;       (* hash.variables_by_address *)
  sc_function : N -> option func;         (* Function::from_offset *)
  sc_function_id : func -> nat;
  sc_variable_id : var -> nat;
  sc_return : func -> type_offset;
  sc_function_source : func -> source;
  sc_variable_source : var -> source;
  sc_details : func -> details;
  sc_program : option program }.

Definition sc_ref (sc : scene) (off : type_offset) : value := vw_ref_at (sc_view sc) off.
Definition sc_size (sc : scene) (off : type_offset) : option N := vw_sizes (sc_view sc) off.

(** The two files of a comparison. *)
Record scenes := mkScenes { ss_a : scene; ss_b : scene; ss_cmp : type -> type -> comparison }.
Definition ss_sides (ss : scenes) : sides := mkSides (sc_view (ss_a ss)) (sc_view (ss_b ss)) (ss_cmp ss).

(** ** Locations *)

(** location.rs:45-49, 53-57 and 61-65: an offset after what it is relative to. *)
Definition plus_offset (z : Z) : text :=
  if (z <? 0)%Z then txt "-0x" ++ hex_i64 (- z)
  else if (0 <? z)%Z then txt "+0x" ++ hex_i64 z else [].
(** location.rs:36-78, [print]. *)
Definition location_text (sc : scene) (l : location) : text :=
  match l with
  | LEmpty => []
  | LLiteral v => txt "0x" ++ hex v
  | LRegister r => register_text (sc_register sc) r
  | LRegisterOffset r o => register_text (sc_register sc) r ++ plus_offset o
  | LFrameOffset o => txt "frame" ++ plus_offset o
  | LCfaOffset o => txt "cfa" ++ plus_offset o
  | LAddress a => txt "0x" ++ hex (unwrap_or_0 (opt64_get a))
  | LTlsOffset o => txt "tls+0x" ++ hex o
  | LOther => txt "<other>"
  end.
(** location.rs:92-104; the comparison is equality. *)
Definition location_eqb (a b : location) : bool :=
  match a, b with
  | LEmpty, LEmpty | LOther, LOther => true
  | LLiteral x, LLiteral y | LRegister x, LRegister y | LAddress x, LAddress y
  | LTlsOffset x, LTlsOffset y => x =? y
  | LRegisterOffset r x, LRegisterOffset s y => (r =? s) && (x =? y)%Z
  | LFrameOffset x, LFrameOffset y | LCfaOffset x, LCfaOffset y => (x =? y)%Z
  | _, _ => false
  end.
Definition location_step (_ : location) : N := 1.
Definition location_cost (a b : location) : N := if location_eqb a b then 0 else 1.

(** A list of items with one line each. *)
Definition print_lines {A} (f : A -> text) (l : list A) : option pdoc :=
  all_printed (fun x => Some (PLine [] (VText (f x)))) l.

(** [Vec::dedup]. *)
Fixpoint dedup {A} (eqb : A -> A -> bool) (l : list A) : list A :=
  match l with
  | x :: ((y :: _) as l') => if eqb x y then dedup eqb l' else x :: dedup eqb l'
  | _ => l
  end.

(** register.rs:8-13, [print_list]. *)
Definition sorted_registers (l : list N) : list N := dedup N.eqb (stable_sort N.compare l).
Definition print_registers (sc : scene) (l : list N) : option pdoc :=
  bind (print_lines (register_text (sc_register sc)) (sorted_registers l)) (fun d =>
  Some (PSection false (txt "registers") d)).
Definition register_step (_ : N) : N := 1.
Definition register_cost (a b : N) : N := if a =? b then 0 else 1.

(** parser/src/location.rs:16-22: the order of [FrameLocation]. *)
Definition frame_cmp (a b : frame_location) : comparison :=
  then_with (Z.compare (fl_offset a) (fl_offset b)) (N.compare (fl_bit_size a) (fl_bit_size b)).
Definition frame_eqb (a b : frame_location) : bool :=
  match frame_cmp a b with Eq => true | _ => false end.
(** frame_location.rs:55-61, [print] (the size is rounded up to bytes). *)
Definition frame_text (l : frame_location) : text :=
  sdec (fl_offset l) ++
  opt_text (fun n => txt "[" ++ dec (div_ceil n 8) ++ txt "]") (opt64_get (fl_bit_size l)).
(** frame_location.rs:8-22, [print_list], and 24-53, [diff_list]: the condition of the latter names the
    first list twice (33). *)
Definition sorted_frames (l : list frame_location) : list frame_location :=
  dedup frame_eqb (stable_sort frame_cmp l).
Definition print_frames (l : list frame_location) : option pdoc :=
  match sorted_frames l with
  | [] => Some PNil
  | [x] => Some (field "stack frame" (frame_text x))
  | s => bind (print_lines frame_text s) (fun d => Some (PSection false (txt "stack frame") d))
  end.
Definition first_frame (l : list frame_location) : text :=
  match l with [] => [] | x :: _ => frame_text x end.
Definition diff_frames (l1 l2 : list frame_location) : option ddoc :=
  let s1 := sorted_frames l1 in
  let s2 := sorted_frames l2 in
  if (1 <? List.length s1)%nat || (1 <? List.length s1)%nat then
    bind (compared_ord_list frame_cmp (fun x => Some (PLine [] (VText (frame_text x))))
            (fun x => Some (PLine [] (VText (frame_text x))))
            (fun x y => Some (DLine [] (VText (frame_text x)) (VText (frame_text y)))) s1 s2)
      (fun d => Some (DSection false (txt "stack frame") d))
  else Some (field2 "stack frame" (first_frame s1) (first_frame s2)).

(** ** Parameters and local variables *)

(** parser/src/variable.rs:232-238, [LocalVariable::byte_size]. *)
Definition slot_size (sc : scene) (v : slot) : option N :=
  if opt64_is_some (sl_size v) then opt64_get (sl_size v) else sc_size sc (sl_ty v).
Definition size_or_unknown (s : option N) : text :=
  txt "[" ++ match s with Some n => dec n | None => txt "??" end ++ txt "]" ++ [9].

(** parameter.rs:8-14 and local_variable.rs:8-16, [print_decl]. *)
Definition formal_decl (sc : scene) (p : formal) : value :=
  vcat [VText (opt_text (fun n => txt n ++ txt ": ") (fo_name p)); sc_ref sc (fo_ty p)].
Definition slot_decl (sc : scene) (v : slot) : value :=
  vcat [VText (txt (or_else "<anon>" (sl_name v)) ++ txt ": "); sc_ref sc (sl_ty v)].
(** parameter.rs:16-23 and local_variable.rs:18-26, [print_size_and_decl]. *)
Definition formal_value (sc : scene) (p : formal) : value :=
  VSeq (VText (size_or_unknown (sc_size sc (fo_ty p)))) (formal_decl sc p).
Definition slot_value (sc : scene) (v : slot) : value :=
  VSeq (VText (size_or_unknown (slot_size sc v))) (slot_decl sc v).
(** local_variable.rs:28-33, [print_address]. *)
Definition slot_address (v : slot) : text := opt_text (fun a => txt "0x" ++ hex a) (opt64_get (sl_address v)).

Definition frames_of (l : list (range * piece)) : list frame_location := map snd (frame_locations l).
Definition registers_of (l : list (range * piece)) : list N := map snd (registers l).

(** parser/src/function.rs:307-320 and variable.rs:246-277 read [locations] the same way.
    parameter.rs:28-42. *)
Definition print_formal (o : options) (sc : scene) (p : formal) : option pdoc :=
  bind (if p_variable_locations (o_print o) then
          bind (print_registers sc (registers_of (fo_locations p))) (fun r =>
          bind (print_frames (frames_of (fo_locations p))) (fun f => Some (pseq [r; f])))
        else Some PNil) (fun body =>
  Some (PTree false (PLine [] (formal_value sc p)) body)).
(** local_variable.rs:38-50. *)
Definition print_slot (o : options) (sc : scene) (v : slot) : option pdoc :=
  bind (if p_variable_locations (o_print o) then
          bind (print_registers sc (registers_of (sl_locations v))) (fun r =>
          bind (print_frames (frames_of (sl_locations v))) (fun f =>
          Some (pseq [field "address" (slot_address v); r; f])))
        else Some PNil) (fun body =>
  Some (PTree false (PLine [] (slot_value sc v)) body)).

(** parameter.rs:72-96 and local_variable.rs:86-110. *)
Definition formal_step (_ : formal) : N := 1.
Definition formal_cost (ss : scenes) (a b : formal) : N :=
  swap_cost (cmp_name (fo_name a) (fo_name b)) 1 + type_cost (ss_sides ss) 1 (fo_ty a) (fo_ty b).
Definition slot_step (_ : slot) : N := 1.
Definition slot_cost (ss : scenes) (a b : slot) : N :=
  swap_cost (cmp_name (sl_name a) (sl_name b)) 1 + type_cost (ss_sides ss) 1 (sl_ty a) (sl_ty b).

(** parser/src/variable.rs:280-282, [LocalVariable::cmp_id], and function.rs:211-214: the order
    in which local variables are compared. *)
Definition slots_by_name (l : list slot) : list slot :=
  stable_sort (fun a b => cmp_name (sl_name a) (sl_name b)) l.

(** ** Call sites *)

(** parser/src/function.rs:559-565, [FunctionCallParameter::ty]. *)
Definition argument_type (sc : scene) (x : argument) : option type :=
  bind (ar_ty x) (vw_find (sc_view sc)).
(** function_call.rs:219-235, [print_parameter_header]. *)
Definition argument_value (sc : scene) (x : argument) : value :=
  vcat [vtxt (or_else "<unnamed>" (ar_name x));
        match argument_type sc x with
        | Some t => VSeq (vtxt ": ") (vw_ref (sc_view sc) (Some t))
        | None => VNil
        end].
(** location.rs:8-10 and 20-22, [print_pieces]. *)
Definition print_pieces (sc : scene) (l : list piece) : option pdoc :=
  print_lines (location_text sc) (map pc_location l).
Definition section_of (label : string) (d : option pdoc) : option pdoc :=
  bind d (fun d => Some (PSection false (txt label) d)).
(** function_call.rs:240-265. *)
Definition print_argument (o : options) (sc : scene) (x : argument) : option pdoc :=
  bind (if p_variable_locations (o_print o) then
          bind (section_of "location" (print_pieces sc (ar_location x))) (fun a =>
          bind (section_of "value" (print_pieces sc (ar_value x))) (fun b =>
          bind (section_of "data_location" (print_pieces sc (ar_data_location x))) (fun c =>
          bind (section_of "data_value_location" (print_pieces sc (ar_data_value x))) (fun d =>
          Some (pseq [a; b; c; d])))))
        else Some PNil) (fun body =>
  Some (PTree false (PLine [] (argument_value sc x)) body)).

(** function_call.rs:9-15, 24-36 and 38-64: [print_kind], [print_header] and [print_origin]. *)
Definition kind_text (k : site_kind) : text :=
  match k with NormalCall => txt "call" | TailCall => txt "tail call" end.
Definition origin_value (sc : scene) (x : option site_origin) : value :=
  match x with
  | None => VNil
  | Some x =>
      VSeq (vtxt " -> ")
        match x with
        | Direct f => ref_value (sc_function_id sc f) (fn_namespace f) (fn_name f)
        | ByVariable v => VText (txt "indirect(global:" ++ txt (or_else "<unknown>" (va_name v)) ++ txt ")")
        | ByLocal _ => vtxt "indirect(local variable)"
        | ByParameter _ => vtxt "indirect(parameter)"
        | ByMember _ => vtxt "indirect(member)"
        end
  end.
Definition site_value (sc : scene) (x : site) : value :=
  vcat [VText (kind_text (si_kind x) ++ txt " at ");
        match si_call_address x, si_return_address x with
        | Some a, _ => VText (txt "0x" ++ hex a)
        | None, Some _ => vtxt "<before return>"
        | None, None => vtxt "<unknown>"
        end;
        origin_value sc (si_origin x)].
(** function_call.rs:17-22, [print_address]. *)
Definition return_address_text (x : site) : text := opt_text (fun a => txt "0x" ++ hex a) (si_return_address x).

(** function_call.rs:69-98. *)
Definition print_site (o : options) (sc : scene) (dir : option string) (x : site) : option pdoc :=
  bind (if p_variable_locations (o_print o)
        then section_of "target" (print_pieces sc (si_target x)) else Some PNil) (fun target =>
  bind (section_of "parameters" (all_printed (print_argument o sc) (si_arguments x))) (fun params =>
  Some (PTree false (PLine [] (site_value sc x))
          (pseq [field "return address" (return_address_text x); target;
                 (if p_source (o_print o) then field "source" (source_text dir (si_source x)) else PNil);
                 params])))).

(** function_call.rs:158-217. *)
Definition kind_eqb (a b : site_kind) : bool :=
  match a, b with NormalCall, NormalCall | TailCall, TailCall => true | _, _ => false end.
Definition origin_cost (a b : option site_origin) : N :=
  match a, b with
  | Some (Direct f), Some (Direct g) => swap_cost (function_cmp_id f g) 1
  | Some (Direct _), Some _ | Some _, Some (Direct _) => 2
  | Some (ByVariable _), Some (ByVariable _) | Some (ByLocal _), Some (ByLocal _)
  | Some (ByParameter _), Some (ByParameter _) | Some (ByMember _), Some (ByMember _) => 0
  | Some _, Some _ => 1
  | None, None => 0
  | _, _ => 1
  end.
Definition site_step (_ : site) : N := 1.
Definition site_cost (a b : site) : N :=
  (if kind_eqb (si_kind a) (si_kind b) then 0 else 1) +
  (if opt_N_eqb (si_call_address a) (si_call_address b) then 0 else 1) +
  (if opt_N_eqb (si_return_address a) (si_return_address b) then 0 else 1) +
  origin_cost (si_origin a) (si_origin b).

(** function_call.rs:126-148: the parameters by position. *)
Fixpoint by_position {A} (l1 l2 : list A) : list (merge_result A A) :=
  match l1, l2 with
  | a :: l1', b :: l2' => MBoth a b :: by_position l1' l2'
  | [], _ => map MRight l2
  | _, [] => map MLeft l1
  end.

(** ** Inlined functions *)

Definition size_or_0 (s : opt64) : N := unwrap_or_0 (opt64_get s).

(** inlined_function.rs:8-23, [print_size_and_decl]. *)
Definition inlined_value (sc : scene) (x : inlined) : value :=
  VSeq (VText (size_or_unknown (opt64_get (il_size x))))
    match sc_function sc (il_origin x) with
    | Some f => ref_value (sc_function_id sc f) (fn_namespace f) (fn_name f)
    | None => vtxt "<anon>"
    end.

(** [field_collapsed("variables", ..)] and the like. *)
Definition collapsed_of (label : string) (d : option pdoc) : option pdoc :=
  bind d (fun d => Some (PSection true (txt label) d)).

(** inlined_function.rs:32-58. *)
Fixpoint print_inlined (o : options) (fuel : nat) (sc : scene)
    (dir : option string) (x : inlined) : option pdoc :=
  match fuel with
  | O => None
  | S fuel' =>
      bind (if p_inlined_function_parameters (o_print o)
            then section_of "parameters" (all_printed (print_formal o sc) (il_parameters x))
            else Some PNil) (fun params =>
      bind (if p_function_variables (o_print o)
            then collapsed_of "variables" (all_printed (print_slot o sc) (il_variables x))
            else Some PNil) (fun vars =>
      bind (if p_function_calls (o_print o)
            then collapsed_of "call sites" (all_printed (print_site o sc dir) (il_calls x))
            else Some PNil) (fun calls =>
      bind (all_printed (print_inlined o fuel' sc dir) (il_inlined x)) (fun inner =>
      Some (PTree true (PLine [] (inlined_value sc x))
              (pseq [(if p_source (o_print o) then field "call source" (source_text dir (il_source x)) else PNil);
                     params; vars; calls; PInline inner]))))))
  end.

(** inlined_function.rs:109-112 and 116-152. *)
Definition inlined_step (x : inlined) : N := add64 2 (mul64 4 (size_or_0 (il_size x))).
Definition opt_string_cost (a b : option string) : bool :=
  match cmp_option cmp_string a b with Eq => true | _ => false end.
Definition inlined_cost (ss : scenes) (da db : option string) (a b : inlined) : N :=
  let origin :=
    match sc_function (ss_a ss) (il_origin a), sc_function (ss_b ss) (il_origin b) with
    | Some f, Some g => swap_cost (function_cmp_id f g) 3
    | None, None => 0
    | _, _ => 3
    end in
  let source :=
    if opt_string_cost (source_path da (il_source a)) (source_path db (il_source b))
       && (so_line (il_source a) =? so_line (il_source b))
       && (so_column (il_source a) =? so_column (il_source b)) then 0 else 1 in
  mul64 (origin + source) (add64 1 (add64 (size_or_0 (il_size a)) (size_or_0 (il_size b)))).

(** ** The stack frame *)

(** function.rs:567-574, [FrameVariable], and 576-585: its order. *)
Record frame_variable := mkFrameVariable {
  fv_prev : option Z; fv_offset : Z; fv_size : option N; fv_name : option string; fv_ty : type_offset }.
Definition fv_cmp (a b : frame_variable) : comparison :=
  then_with (Z.compare (fv_offset a) (fv_offset b))
    (then_with (cmp_option N.compare (fv_size a) (fv_size b))
       (then_with (cmp_name (fv_name a) (fv_name b)) (N.compare (fv_ty a) (fv_ty b)))).
Definition fv_eqb (a b : frame_variable) : bool := match fv_cmp a b with Eq => true | _ => false end.

(** function.rs:665-688 and 690-713: [add_parameter_frame_locations] and
    [add_variable_frame_locations]. *)
Definition frame_entries (size : option N) (name : option string) (ty : type_offset)
    (l : list frame_location) : list frame_variable :=
  map (fun x =>
    mkFrameVariable None (fl_offset x)
      (match opt64_get (fl_bit_size x) with Some n => Some (div_ceil n 8) | None => size end) name ty) l.
Definition formal_entries (sc : scene) (p : formal) : list frame_variable :=
  frame_entries (sc_size sc (fo_ty p)) (fo_name p) (fo_ty p) (frames_of (fo_locations p)).
Definition slot_entries (sc : scene) (v : slot) : list frame_variable :=
  frame_entries (slot_size sc v) (sl_name v) (sl_ty v) (frames_of (sl_locations v)).
(** function.rs:649-663, [add_inlined_function_frame_locations]. *)
Fixpoint inlined_entries (sc : scene) (x : inlined) : list frame_variable :=
  flat_map (formal_entries sc) (il_parameters x) ++ flat_map (slot_entries sc) (il_variables x) ++
  flat_map (inlined_entries sc) (il_inlined x).

(** function.rs:640-644: [prev_offset] is where the variable before it ends. *)
Fixpoint set_prev (prev : option Z) (l : list frame_variable) : list frame_variable :=
  match l with
  | [] => []
  | v :: l' =>
      mkFrameVariable prev (fv_offset v) (fv_size v) (fv_name v) (fv_ty v) ::
      set_prev (option_map (fun s => as_i64 (fv_offset v + as_i64 (Z.of_N s))) (fv_size v)) l'
  end.
(** function.rs:622-647, [frame_variables].  Before [prev_offset] is set, equality is that of the
    order. *)
Definition frame_variables (sc : scene) (d : details) : list frame_variable :=
  set_prev None
    (dedup fv_eqb (stable_sort fv_cmp
       (flat_map (formal_entries sc) (de_parameters d) ++ flat_map (slot_entries sc) (de_variables d) ++
        flat_map (inlined_entries sc) (de_inlined d)))).

(** function.rs:593-600 and 602-620: [print_frame_unknown] and [print_frame_variable]. *)
Definition unknown_text (v : frame_variable) : text :=
  match fv_prev v with
  | Some prev =>
      if (prev <? fv_offset v)%Z
      then sdec prev ++ txt "[" ++ sdec (as_i64 (fv_offset v - prev)) ++ txt "]" ++ [9] ++ txt "<unknown>"
      else []
  | None => []
  end.
Definition frame_variable_value (sc : scene) (v : frame_variable) : value :=
  vcat [VText (sdec (fv_offset v) ++ size_or_unknown (fv_size v) ++ txt (or_else "<anon>" (fv_name v)) ++
               txt ": ");
        sc_ref sc (fv_ty v)].
(** function.rs:715-727. *)
Definition print_frame_variable (sc : scene) (v : frame_variable) : option pdoc :=
  Some (PSeq (PLine [] (VText (unknown_text v))) (PLine [] (frame_variable_value sc v))).
Definition diff_frame_variable (ss : scenes) (a b : frame_variable) : option ddoc :=
  Some (DSeq (DLine [] (VText (unknown_text a)) (VText (unknown_text b)))
          (DLine [] (frame_variable_value (ss_a ss) a) (frame_variable_value (ss_b ss) b))).

(** ** Calls and instructions *)

(** function.rs:341-362, [print_call]. *)
Definition call_value (o : options) (sc : scene) (c : call) : value :=
  VSeq (if i_function_address (o_ignore o) then VNil
        else VText (txt "0x" ++ hex (ca_from c) ++ txt " -> 0x" ++ hex (ca_to c) ++ txt " "))
    match sc_function_at sc (ca_to c) with
    | Some f => ref_value (sc_function_id sc f) (fn_namespace f) (fn_name f)
    | None =>
        match bind (sc_program sc) (fun p => pg_plt p (ca_to c)) with
        | Some s => VText (txt s)
        | None => if i_function_address (o_ignore o) then VText (txt "0x" ++ hex (ca_to c)) else VNil
        end
    end.
(** function.rs:383-413. *)
Definition call_step (_ : call) : N := 1.
Definition call_cost (ss : scenes) (a b : call) : N :=
  match sc_function_at (ss_a ss) (ca_to a), sc_function_at (ss_b ss) (ca_to b) with
  | Some f, Some g => swap_cost (function_cmp_id f g) 1
  | None, None => 0
  | _, _ => 1
  end.

Definition ok {A} (x : CodeModel.outcome A) : option A :=
  match x with CodeModel.Done y => Some y | CodeModel.Panic => None end.
(** function.rs:415-423, [calls]. *)
Definition calls (sc : scene) (f : func) : option (list call) :=
  match sc_program sc with
  | Some p => ok (function_calls (pg_disasm p) (pg_regions p) (fn_ranges f))
  | None => Some []
  end.
(** function.rs:425-483, [print_instructions]. *)
Definition formal_local (sc : scene) (p : formal) : CodeModel.local :=
  CodeModel.mkLocal (sc_size sc (fo_ty p)) (fo_locations p) (formal_decl sc p).
Definition slot_local (sc : scene) (v : slot) : CodeModel.local :=
  CodeModel.mkLocal (slot_size sc v) (sl_locations v) (slot_decl sc v).
Definition print_instructions (sc : scene) (f : func) : option pdoc :=
  match sc_program sc with
  | Some p =>
      let d := sc_details sc f in
      ok (instructions_doc (sc_function_id sc) (sc_variable_id sc) (sc_register sc) (pg_disasm p) (pg_cfis p)
            (mkNames (sc_function_at sc) (sc_variable_at sc) (pg_relocation p) (pg_plt p) (pg_regions p)
               (map (formal_local sc) (de_parameters d)) (map (slot_local sc) (de_variables d)))
            (fn_ranges f))
  | None => Some PNil
  end.

(** ** Functions *)

(** function.rs:24-31, [print_name]. *)
Definition function_value (f : func) : value := VSeq (vtxt "fn ") (qualified (fn_namespace f) (fn_name f)).
(** function.rs:79-90, [print_return_type]. *)
Definition return_value (sc : scene) (f : func) : value :=
  let t := vw_find (sc_view sc) (sc_return sc f) in
  if match t with Some t => match t_kind t with TVoid => true | _ => false end | None => false end then VNil
  else VSeq (VText (size_or_unknown (bind t (h_size (vw_hash (sc_view sc)))))) (vw_ref (sc_view sc) t).
(** function.rs:51-56 and 103-109: the addresses. *)
Definition first_range (l : list range) : text := match l with [] => [] | r :: _ => range_text r end.
Definition print_addresses (l : list range) : option pdoc :=
  if (1 <? List.length l)%nat
  then collapsed_of "addresses" (print_lines range_size_text l)
  else Some (field "address" (first_range l)).

(** function.rs:93-141, [print_header] and [print_body], and 261-269, [print].  [vars] and [inner] are what
    is listed as local variables and as inlined functions: those of [details]. *)
Definition print_function_body (o : options) (fuel : nat) (sc : scene) (dir : option string) (f : func)
    (vars : list slot) (inner : list inlined) : option pdoc :=
  let d := sc_details sc f in
  bind (print_addresses (fn_ranges f)) (fun addresses =>
  bind (section_of "parameters" (all_printed (print_formal o sc) (de_parameters d))) (fun params =>
  bind (if p_function_variables (o_print o)
        then collapsed_of "variables" (all_printed (print_slot o sc) vars)
        else Some PNil) (fun vars =>
  bind (if p_function_stack_frame (o_print o)
        then collapsed_of "stack frame" (all_printed (print_frame_variable sc) (frame_variables sc d))
        else Some PNil) (fun frame =>
  bind (collapsed_of "inlined functions"
          (all_printed (print_inlined o fuel sc dir) inner)) (fun inner =>
  bind (if p_function_calls (o_print o) then
          bind (collapsed_of "call sites" (all_printed (print_site o sc dir) (de_calls d))) (fun sites =>
          bind (bind (calls sc f) (fun l =>
                collapsed_of "calls" (all_printed (fun c => Some (PLine [] (call_value o sc c))) l))) (fun cs =>
          Some (PSeq sites cs)))
        else Some PNil) (fun cs =>
  bind (if p_function_instructions (o_print o) && negb (is_empty (fn_ranges f)) then
          bind (print_instructions sc f) (fun d => Some (PDetail (txt "code") (txt "instructions") d))
        else Some PNil) (fun code =>
  Some (pseq [field "linkage name" (opt_text txt (fn_linkage_name f));
              field "symbol name" (opt_text txt (fn_symbol_name f));
              (if p_source (o_print o)
               then field "source" (source_text dir (sc_function_source sc f)) else PNil);
              addresses;
              field "size" (opt_text dec (opt64_get (fn_size f)));
              field "inline" (yes (fn_inline f));
              field "declaration" (yes (fn_declaration f));
              PSection false (txt "return type") (PLine [] (return_value sc f));
              params; vars; frame; PInline inner; cs; code])))))))).
Definition print_function_listed (o : options) (fuel : nat) (sc : scene) (dir : option string) (f : func)
    (vars : list slot) (inner : list inlined) : option pdoc :=
  bind (print_function_body o fuel sc dir f vars inner) (fun body =>
  Some (PSeq (PId (sc_function_id sc f) (PLine [] (function_value f)) body) PBreak)).
Definition print_function (o : options) (fuel : nat) (sc : scene) (dir : option string) (f : func)
  : option pdoc :=
  print_function_listed o fuel sc dir f (de_variables (sc_details sc f)) (de_inlined (sc_details sc f)).

Section Compare.
  Variable choose : list N -> list N -> list (list N) -> nat -> nat.
  Variable o : options.
  Variable ss : scenes.
  Local Notation A := (ss_a ss).
  Local Notation B := (ss_b ss).

  Definition dsection_of (label : string) (d : option ddoc) : option ddoc :=
    bind d (fun d => Some (DSection false (txt label) d)).
  Definition dcollapsed_of (label : string) (d : option ddoc) : option ddoc :=
    bind d (fun d => Some (DSection true (txt label) d)).
  (** [state.ignore_diff(flag, ..)]. *)
  Definition ignored (flag : bool) (d : ddoc) : ddoc := DIgnore flag d.

  (** location.rs:12-18, 24-34 and 92-104, [diff_pieces]. *)
  Definition diff_pieces (l1 l2 : list piece) : option ddoc :=
    compared_list choose location_step location_cost
      (fun x => Some (PLine [] (VText (location_text A x)))) (fun x => Some (PLine [] (VText (location_text B x))))
      (fun x y => Some (DLine [] (VText (location_text A x)) (VText (location_text B y))))
      (map pc_location l1) (map pc_location l2).
  (** register.rs:15-28, [diff_list]. *)
  Definition diff_registers (l1 l2 : list N) : option ddoc :=
    dsection_of "registers"
      (compared_list choose register_step register_cost
         (fun x => Some (PLine [] (VText (register_text (sc_register A) x))))
         (fun x => Some (PLine [] (VText (register_text (sc_register B) x))))
         (fun x y => Some (DLine [] (VText (register_text (sc_register A) x))
                             (VText (register_text (sc_register B) y))))
         (sorted_registers l1) (sorted_registers l2)).

  (** parameter.rs:44-69 and local_variable.rs:52-83. *)
  Definition diff_formal (a b : formal) : option ddoc :=
    bind (if p_variable_locations (o_print o) then
            bind (diff_registers (registers_of (fo_locations a)) (registers_of (fo_locations b))) (fun r =>
            bind (diff_frames (frames_of (fo_locations a)) (frames_of (fo_locations b))) (fun f =>
            Some (dseq [r; f])))
          else Some DNil) (fun body =>
    Some (DTree false (DLine [] (formal_value A a) (formal_value B b)) body)).
  Definition diff_slot (a b : slot) : option ddoc :=
    bind (if p_variable_locations (o_print o) then
            bind (diff_registers (registers_of (sl_locations a)) (registers_of (sl_locations b))) (fun r =>
            bind (diff_frames (frames_of (sl_locations a)) (frames_of (sl_locations b))) (fun f =>
            Some (dseq [ignored (i_variable_address (o_ignore o))
                          (field2 "address" (slot_address a) (slot_address b)); r; f])))
          else Some DNil) (fun body =>
    Some (DTree false (DLine [] (slot_value A a) (slot_value B b)) body)).
  Definition diff_formals (l1 l2 : list formal) : option ddoc :=
    compared_list choose formal_step (formal_cost ss) (print_formal o A) (print_formal o B) diff_formal l1 l2.
  (** function.rs:211-217 and inlined_function.rs:78-88. *)
  Definition diff_slots (l1 l2 : list slot) : option ddoc :=
    compared_list choose slot_step (slot_cost ss) (print_slot o A) (print_slot o B) diff_slot
      (slots_by_name l1) (slots_by_name l2).

  (** function_call.rs:267-302. *)
  Definition diff_argument (a b : argument) : option ddoc :=
    bind (if p_variable_locations (o_print o) then
            bind (dsection_of "location" (diff_pieces (ar_location a) (ar_location b))) (fun x =>
            bind (dsection_of "value" (diff_pieces (ar_value a) (ar_value b))) (fun y =>
            bind (dsection_of "data_location"
                    (diff_pieces (ar_data_location a) (ar_data_location b))) (fun z =>
            bind (dsection_of "data_value_location" (diff_pieces (ar_data_value a) (ar_data_value b))) (fun w =>
            Some (dseq [x; y; z; w])))))
          else Some DNil) (fun body =>
    Some (DTree false (DLine [] (argument_value A a) (argument_value B b)) body)).
  (** function_call.rs:100-155. *)
  Definition diff_site (da db : option string) (a b : site) : option ddoc :=
    bind (if p_variable_locations (o_print o)
          then dsection_of "target" (diff_pieces (si_target a) (si_target b)) else Some DNil) (fun target =>
    bind (if negb (is_empty (si_arguments a)) || negb (is_empty (si_arguments b)) then
            dsection_of "parameters"
              (all_rows (print_argument o A) (print_argument o B) diff_argument
                 (by_position (si_arguments a) (si_arguments b)))
          else Some DNil) (fun params =>
    Some (DTree false (DLine [] (site_value A a) (site_value B b))
            (dseq [field2 "return address" (return_address_text a) (return_address_text b); target;
                   (if p_source (o_print o)
                    then field2 "source" (source_text da (si_source a)) (source_text db (si_source b))
                    else DNil);
                   params])))).
  Definition diff_sites (da db : option string) (l1 l2 : list site) : option ddoc :=
    compared_list choose site_step site_cost (print_site o A da) (print_site o B db) (diff_site da db) l1 l2.

  (** inlined_function.rs:60-103.  What is deleted or added is printed with [print_inlined]. *)
  Fixpoint diff_inlined (fuel : nat) (da db : option string) (a b : inlined) : option ddoc :=
    match fuel with
    | O => None
    | S fuel' =>
        bind (if p_inlined_function_parameters (o_print o)
              then dsection_of "parameters" (diff_formals (il_parameters a) (il_parameters b))
              else Some DNil) (fun params =>
        bind (if p_function_variables (o_print o)
              then dcollapsed_of "variables" (diff_slots (il_variables a) (il_variables b))
              else Some DNil) (fun vars =>
        bind (if p_function_calls (o_print o)
              then dcollapsed_of "call sites" (diff_sites da db (il_calls a) (il_calls b))
              else Some DNil) (fun calls =>
        bind (compared_list choose inlined_step (inlined_cost ss da db)
                (print_inlined o fuel' A da) (print_inlined o fuel' B db)
                (diff_inlined fuel' da db) (il_inlined a) (il_inlined b)) (fun inner =>
        Some (DTree true (DLine [] (inlined_value A a) (inlined_value B b))
                (dseq [(if p_source (o_print o)
                        then field2 "call source" (source_text da (il_source a)) (source_text db (il_source b))
                        else DNil);
                       params; vars; calls; DInline inner]))))))
    end.

  (** function.rs:172-187. *)
  Definition range_cmp (a b : range) : comparison :=
    then_with (N.compare (rbegin a) (rbegin b)) (N.compare (rend a) (rend b)).
  Definition diff_ranges (l1 l2 : list range) : option ddoc :=
    dcollapsed_of "addresses"
      (compared_ord_list range_cmp (fun x => Some (PLine [] (VText (range_size_text x))))
         (fun x => Some (PLine [] (VText (range_size_text x))))
         (fun x y => Some (DLine [] (VText (range_size_text x)) (VText (range_size_text y)))) l1 l2).
  Definition diff_addresses (l1 l2 : list range) : option ddoc :=
    if (1 <? List.length l1)%nat || (1 <? List.length l2)%nat then diff_ranges l1 l2
    else Some (field2 "address" (first_range l1) (first_range l2)).

  (** function.rs:147-255, [diff_body]. *)
  Definition diff_function_body (fuel : nat) (da db : option string) (a b : func) : option ddoc :=
    let d := sc_details A a in
    let e := sc_details B b in
    bind (diff_addresses (fn_ranges a) (fn_ranges b)) (fun addresses =>
    bind (dsection_of "parameters" (diff_formals (de_parameters d) (de_parameters e))) (fun params =>
    bind (if p_function_variables (o_print o)
          then dcollapsed_of "variables" (diff_slots (de_variables d) (de_variables e)) else Some DNil) (fun vars =>
    bind (if p_function_stack_frame (o_print o) then
            dcollapsed_of "stack frame"
              (compared_ord_list fv_cmp (print_frame_variable A) (print_frame_variable B)
                 (diff_frame_variable ss) (frame_variables A d) (frame_variables B e))
          else Some DNil) (fun frame =>
    bind (dcollapsed_of "inlined functions"
            (compared_list choose inlined_step (inlined_cost ss da db)
               (print_inlined o fuel A da) (print_inlined o fuel B db)
               (diff_inlined fuel da db) (de_inlined d) (de_inlined e))) (fun inner =>
    bind (if p_function_calls (o_print o) then
            bind (dcollapsed_of "call sites" (diff_sites da db (de_calls d) (de_calls e))) (fun sites =>
            bind (bind (calls A a) (fun l1 => bind (calls B b) (fun l2 =>
                  dcollapsed_of "calls"
                    (compared_list choose call_step (call_cost ss)
                       (fun c => Some (PLine [] (call_value o A c))) (fun c => Some (PLine [] (call_value o B c)))
                       (fun c c' => Some (DLine [] (call_value o A c) (call_value o B c'))) l1 l2)))) (fun cs =>
            Some (DSeq sites cs)))
          else Some DNil) (fun cs =>
    bind (if p_function_instructions (o_print o) then
            bind (print_instructions A a) (fun x => bind (print_instructions B b) (fun y =>
            Some (DSection true (txt "instructions") (ignored true (DBlock x y)))))
          else Some DNil) (fun code =>
    let ig := o_ignore o in
    Some (dseq [ignored (i_function_linkage_name ig)
                  (field2 "linkage name" (opt_text txt (fn_linkage_name a)) (opt_text txt (fn_linkage_name b)));
                ignored (i_function_symbol_name ig)
                  (field2 "symbol name" (opt_text txt (fn_symbol_name a)) (opt_text txt (fn_symbol_name b)));
                (if p_source (o_print o)
                 then field2 "source" (source_text da (sc_function_source A a))
                        (source_text db (sc_function_source B b)) else DNil);
                ignored (i_function_address ig) addresses;
                ignored (i_function_size ig)
                  (field2 "size" (opt_text dec (opt64_get (fn_size a))) (opt_text dec (opt64_get (fn_size b))));
                ignored (i_function_inline ig) (field2 "inline" (yes (fn_inline a)) (yes (fn_inline b)));
                field2 "declaration" (yes (fn_declaration a)) (yes (fn_declaration b));
                DSection false (txt "return type") (DLine [] (return_value A a) (return_value B b));
                params; vars; frame; DInline inner; cs; code])))))))).
  (** function.rs:143-145, [diff_header], and 271-285, [diff]; [id] is [unit_a.id()]. *)
  Definition diff_function (id fuel : nat) (da db : option string) (a b : func) : option ddoc :=
    bind (diff_function_body fuel da db a b) (fun body =>
    Some (DSeq (DId id (DLine [] (function_value a) (function_value b)) body) DBreak)).

  (** ** Variables *)

  (** variable.rs:98-107, [print_name], and 127-148. *)
  Definition variable_value (sc : scene) (v : var) : value :=
    vcat [vtxt "var "; qualified (va_namespace v) (va_name v); vtxt ": "; sc_ref sc (va_ty v)].
  Definition variable_address (v : var) : text := opt_text (fun a => txt "0x" ++ hex a) (opt64_get (va_address v)).
  Definition variable_size (sc : scene) (v : var) : text :=
    opt_text dec (var_byte_size (vw_sizes (sc_view sc)) v).
  (** variable.rs:19-33, [print_header] and [print_body], and 73-81, [print]. *)
  Definition print_variable_body (sc : scene) (dir : option string) (v : var) : pdoc :=
    pseq [field "linkage name" (opt_text txt (va_linkage_name v));
          field "symbol name" (opt_text txt (va_symbol_name v));
          (if p_source (o_print o)
           then field "source" (source_text dir (sc_variable_source sc v)) else PNil);
          field "address" (variable_address v);
          field "size" (variable_size sc v);
          field "declaration" (yes (va_declaration v))].
  Definition print_variable (sc : scene) (dir : option string) (v : var) : pdoc :=
    PSeq (PId (sc_variable_id sc v) (PLine [] (variable_value sc v)) (print_variable_body sc dir v)) PBreak.
  (** variable.rs:35-70, [diff_header] and [diff_body], and 83-96, [diff]. *)
  Definition diff_variable_body (da db : option string) (a b : var) : ddoc :=
    let ig := o_ignore o in
    dseq [ignored (i_variable_linkage_name ig)
            (field2 "linkage name" (opt_text txt (va_linkage_name a)) (opt_text txt (va_linkage_name b)));
          ignored (i_variable_symbol_name ig)
            (field2 "symbol name" (opt_text txt (va_symbol_name a)) (opt_text txt (va_symbol_name b)));
          (if p_source (o_print o)
           then field2 "source" (source_text da (sc_variable_source A a))
                  (source_text db (sc_variable_source B b)) else DNil);
          ignored (i_variable_address ig) (field2 "address" (variable_address a) (variable_address b));
          field2 "size" (variable_size A a) (variable_size B b);
          field2 "declaration" (yes (va_declaration a)) (yes (va_declaration b))].
  Definition diff_variable (da db : option string) (a b : var) : ddoc :=
    DSeq (DTree true (DLine [] (variable_value A a) (variable_value B b)) (diff_variable_body da db a b)) DBreak.
End Compare.
