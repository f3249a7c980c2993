(** Specification vocabulary for printed and compared functions and variables. *)
From Coq Require Import List Arith NArith ZArith Bool String Permutation Sorting.Sorted.
From Verif Require Import Base RangeModel NamespaceModel TypeModel LayoutModel CfiModel FileModel DieModel
  OptionsModel FilterModel PrintModel PrintSpec NameModel LocationModel CodeModel ItemModel ItemSpec EntryModel.
Import ListNotations.
Local Open Scope N_scope.

(** ** Conditions on the input *)

Definition short_formal (p : formal) : Prop := short (fo_locations p).
Definition short_slot (v : slot) : Prop := short (sl_locations v).
Definition short_argument (x : argument) : Prop :=
  short (ar_location x) /\ short (ar_value x) /\ short (ar_data_location x) /\ short (ar_data_value x).
Definition short_site (x : site) : Prop := short (si_target x) /\ Forall short_argument (si_arguments x).
(** The sizes of a list of inlined functions, as bytes of code: there is room for them many times. *)
Definition modest (l : list inlined) : Prop :=
  short l /\
  fold_right N.add 0 (map (fun x => if il_size x =? u64_max then 0 else il_size x) l) < 2 ^ 60.

(** A property of an inlined function and of those inlined into it. *)
Inductive throughout (P : inlined -> Prop) (x : inlined) : Prop :=
| throughout_intro : P x -> (forall y, In y (il_inlined x) -> throughout P y) -> throughout P x.

Definition short_inlined : inlined -> Prop :=
  throughout (fun x =>
    short (il_parameters x) /\ Forall short_formal (il_parameters x) /\
    short (il_variables x) /\ Forall short_slot (il_variables x) /\
    short (il_calls x) /\ Forall short_site (il_calls x) /\ modest (il_inlined x)).
Definition short_details (d : details) : Prop :=
  short (de_parameters d) /\ Forall short_formal (de_parameters d) /\
  short (de_variables d) /\ Forall short_slot (de_variables d) /\
  short (de_calls d) /\ Forall short_site (de_calls d) /\
  modest (de_inlined d) /\ Forall short_inlined (de_inlined d).
Definition short_function (sc : scene) (f : func) : Prop :=
  short_details (sc_details sc f) /\ forall l, calls sc f = Some l -> short l.

(** Several different places in the stack frame. *)
Definition several {A} (l : list A) : Prop := exists x y, In x l /\ In y l /\ x <> y.
(** The places of a variable are shown in the same form on both sides: as a list, or on one line. *)
Definition frames_alike (l1 l2 : list frame_location) : Prop :=
  (several l2 -> several l1) /\ (several l1 -> several l2 \/ l2 = []).
(** No variable has several, if they are shown. *)
Definition settled (o : options) (l : list (range * piece)) : Prop :=
  p_variable_locations (o_print o) = true -> ~ several (frames_of l).
Definition settled_inlined (o : options) : inlined -> Prop :=
  throughout (fun x =>
    Forall (fun p => settled o (fo_locations p)) (il_parameters x) /\
    Forall (fun v => settled o (sl_locations v)) (il_variables x)).
Definition settled_details (o : options) (d : details) : Prop :=
  Forall (fun p => settled o (fo_locations p)) (de_parameters d) /\
  Forall (fun v => settled o (sl_locations v)) (de_variables d) /\
  Forall (settled_inlined o) (de_inlined d).
(** The address ranges of two functions are shown in the same form. *)
Definition ranges_alike (l1 l2 : list range) : Prop :=
  ~ (List.length l1 = 1 /\ 1 < List.length l2)%nat /\ ~ (List.length l2 = 1 /\ 1 < List.length l1)%nat.

(** The same inlined function, with the local variables in another order. *)
Inductive rearranged : inlined -> inlined -> Prop :=
| rearranged_intro : forall origin size src ps vs vs' inner inner' cs,
    Permutation vs vs' -> Forall2 rearranged inner inner' ->
    rearranged (mkInlined origin size src ps vs inner cs) (mkInlined origin size src ps vs' inner' cs).

(** What is printed for a function, with local variables listed in some order. *)
Definition printed_up_to_order (o : options) (fuel : nat) (sc : scene) (dir : option string) (f : func)
    (p : pdoc) : Prop :=
  exists vars inner,
    Permutation (de_variables (sc_details sc f)) vars /\
    Forall2 rearranged (de_inlined (sc_details sc f)) inner /\
    print_function_listed o fuel sc dir f vars inner = Some p.

(** No option that ignores differences applies to functions. *)
Definition heeds_functions (o : options) : Prop :=
  let i := o_ignore o in
  i_function_linkage_name i = false /\ i_function_symbol_name i = false /\ i_function_address i = false /\
  i_function_size i = false /\ i_function_inline i = false /\ i_variable_address i = false /\
  p_function_instructions (o_print o) = false.
Definition heeds_variables (o : options) : Prop :=
  let i := o_ignore o in
  i_variable_linkage_name i = false /\ i_variable_symbol_name i = false /\ i_variable_address i = false.

(** ** What is printed *)

(** The distinct items of a list, in order. *)
Definition distinct_in_order {A} (before : A -> A -> Prop) (l l' : list A) : Prop :=
  StronglySorted before l' /\ forall x, In x l <-> In x l'.

Definition text_line (i : nat) (t : text) : list line := match t with [] => [] | _ => [Line i t] end.
Definition hex0x (n : N) : text := txt "0x" ++ hex n.
Definition signed (z : Z) : text := (if (z <? 0)%Z then txt "-" else []) ++ dec (Z.abs_N z).
Definition size_shown (s : option N) : text :=
  txt "[" ++ match s with Some n => dec n | None => txt "??" end ++ txt "]" ++ [9].
Definition known (n : N) : option N := if n =? u64_max then None else Some n.
Definition bytes_of (bits : N) : N := bits / 8 + (if bits mod 8 =? 0 then 0 else 1).

(** A register by name or by number; an offset with a sign, unless it is zero. *)
Definition register_shown (sc : scene) (r : N) : text :=
  match sc_register sc r with Some n => txt n | None => txt "r" ++ dec r end.
Definition offset_shown (z : Z) : text :=
  if (z =? 0)%Z then [] else (if (z <? 0)%Z then txt "-" else txt "+") ++ hex0x (Z.abs_N z mod 2 ^ 64).
Definition location_shown (sc : scene) (l : location) : text :=
  match l with
  | LEmpty => []
  | LLiteral v => hex0x v
  | LRegister r => register_shown sc r
  | LRegisterOffset r z => register_shown sc r ++ offset_shown z
  | LFrameOffset z => txt "frame" ++ offset_shown z
  | LCfaOffset z => txt "cfa" ++ offset_shown z
  | LAddress a => hex0x (if a =? u64_max then 0 else a)
  | LTlsOffset z => txt "tls+" ++ hex0x z
  | LOther => txt "<other>"
  end.
Definition pieces_shown (sc : scene) (i : nat) (label : string) (l : list piece) : list line :=
  under i label (flat_map (fun p => text_line (S i) (location_shown sc (pc_location p))) l).

Definition frame_before (a b : frame_location) : Prop :=
  (fl_offset a < fl_offset b)%Z \/ fl_offset a = fl_offset b /\ fl_bit_size a < fl_bit_size b.
Definition frame_shown (x : frame_location) : text :=
  signed (fl_offset x) ++
  match known (fl_bit_size x) with Some n => txt "[" ++ dec (bytes_of n) ++ txt "]" | None => [] end.

(** Where a variable or a parameter is. *)
Inductive places_shown (o : options) (sc : scene) (i : nat) (l : list (range * piece)) : list line -> Prop :=
| places_hidden : p_variable_locations (o_print o) = false -> places_shown o sc i l []
| places_listed : forall rs fs,
    p_variable_locations (o_print o) = true ->
    distinct_in_order N.lt (registers_of l) rs ->
    distinct_in_order frame_before (frames_of l) fs ->
    places_shown o sc i l
      (under i "registers" (flat_map (fun r => text_line (S i) (register_shown sc r)) rs) ++
       match fs with
       | [] => []
       | [x] => labelled_line i "stack frame" (frame_shown x)
       | _ => under i "stack frame" (map (fun x => Line (S i) (frame_shown x)) fs)
       end).

Definition name_and_type (sc : scene) (name : text) (ty : type_offset) : text :=
  name ++ written_type (sc_view sc) ty.
Definition slot_bytes (sc : scene) (v : slot) : option N :=
  if sl_size v =? u64_max then vw_sizes (sc_view sc) (sl_ty v) else Some (sl_size v).
Inductive formal_shown (o : options) (sc : scene) (i : nat) (p : formal) : list line -> Prop :=
| formal_lines : forall ls, places_shown o sc (S i) (fo_locations p) ls ->
    formal_shown o sc i p
      (Line i (size_shown (vw_sizes (sc_view sc) (fo_ty p)) ++
               name_and_type sc (match fo_name p with Some n => txt n ++ txt ": " | None => [] end) (fo_ty p))
       :: ls).
Inductive slot_shown (o : options) (sc : scene) (i : nat) (v : slot) : list line -> Prop :=
| slot_lines : forall ls, places_shown o sc (S i) (sl_locations v) ls ->
    slot_shown o sc i v
      (Line i (size_shown (slot_bytes sc v) ++
               name_and_type sc (name_or "<anon>" (sl_name v) ++ txt ": ") (sl_ty v)) ::
       (if p_variable_locations (o_print o)
        then labelled_line (S i) "address" (match known (sl_address v) with Some a => hex0x a | None => [] end)
        else []) ++ ls).

(** The lines of the items of a list, one after the other. *)
Inductive each {A} (shown : A -> list line -> Prop) : list A -> list line -> Prop :=
| each_nil : each shown [] []
| each_cons : forall x l ls ls', shown x ls -> each shown l ls' -> each shown (x :: l) (ls ++ ls').

Definition function_name (f : func) : text := path_and_name (fn_namespace f) (fn_name f).

(** A call site. *)
Definition argument_shown (o : options) (sc : scene) (i : nat) (x : argument) : list line :=
  text_line i (name_or "<unnamed>" (ar_name x) ++
    match ar_ty x with
    | Some off =>
        match vw_find (sc_view sc) off with
        | Some t => txt ": " ++ text_value (vw_ref (sc_view sc) (Some t))
        | None => []
        end
    | None => []
    end) ++
  (if p_variable_locations (o_print o)
   then pieces_shown sc (S i) "location" (ar_location x) ++ pieces_shown sc (S i) "value" (ar_value x) ++
        pieces_shown sc (S i) "data_location" (ar_data_location x) ++
        pieces_shown sc (S i) "data_value_location" (ar_data_value x)
   else []).
Definition site_shown (o : options) (sc : scene) (dir : option string) (i : nat) (x : site) : list line :=
  Line i (match si_kind x with NormalCall => txt "call at " | TailCall => txt "tail call at " end ++
          match si_call_address x, si_return_address x with
          | Some a, _ => hex0x a
          | None, Some _ => txt "<before return>"
          | None, None => txt "<unknown>"
          end ++
          match si_origin x with
          | None => []
          | Some (Direct f) => txt " -> " ++ function_name f
          | Some (ByVariable v) => txt " -> indirect(global:" ++ name_or "<unknown>" (va_name v) ++ txt ")"
          | Some (ByLocal _) => txt " -> indirect(local variable)"
          | Some (ByParameter _) => txt " -> indirect(parameter)"
          | Some (ByMember _) => txt " -> indirect(member)"
          end) ::
  labelled_line (S i) "return address" (match si_return_address x with Some a => hex0x a | None => [] end) ++
  (if p_variable_locations (o_print o) then pieces_shown sc (S i) "target" (si_target x) else []) ++
  (if p_source (o_print o) then labelled_line (S i) "source" (source_text dir (si_source x)) else []) ++
  under (S i) "parameters" (flat_map (argument_shown o sc (S (S i))) (si_arguments x)).

(** A part that is shown only with an option. *)
Inductive optional (b : bool) (shown : list line -> Prop) : list line -> Prop :=
| optional_off : b = false -> optional b shown []
| optional_on : forall ls, b = true -> shown ls -> optional b shown ls.

(** An inlined function; those inlined into it are shown down to [depth]. *)
Inductive inlined_shown (o : options) (sc : scene) (dir : option string)
  : nat -> nat -> inlined -> list line -> Prop :=
| inlined_lines : forall depth i x ps vs inner,
    optional (p_inlined_function_parameters (o_print o))
      (each (formal_shown o sc (S (S i))) (il_parameters x)) ps ->
    optional (p_function_variables (o_print o)) (each (slot_shown o sc (S (S i))) (il_variables x)) vs ->
    inner_shown o sc dir depth (S i) (il_inlined x) inner ->
    inlined_shown o sc dir depth i x
      (Line i (size_shown (known (il_size x)) ++
               match sc_function sc (il_origin x) with Some f => function_name f | None => txt "<anon>" end) ::
       (if p_source (o_print o) then labelled_line (S i) "call source" (source_text dir (il_source x)) else []) ++
       under (S i) "parameters" ps ++ under (S i) "variables" vs ++
       (if p_function_calls (o_print o)
        then under (S i) "call sites" (flat_map (site_shown o sc dir (S (S i))) (il_calls x)) else []) ++
       inner)
with inner_shown (o : options) (sc : scene) (dir : option string)
  : nat -> nat -> list inlined -> list line -> Prop :=
| inner_deep : forall i l, inner_shown o sc dir 0 i l []
| inner_nil : forall depth i, inner_shown o sc dir (S depth) i [] []
| inner_cons : forall depth i x l ls ls',
    inlined_shown o sc dir depth i x ls -> inner_shown o sc dir (S depth) i l ls' ->
    inner_shown o sc dir (S depth) i (x :: l) (ls ++ ls').

(** The stack frame: every place of every parameter and local variable, also of inlined functions. *)
Definition place_of (size : option N) (name : option string) (ty : type_offset) (l : list (range * piece))
    (x : frame_variable) : Prop :=
  exists fl, In fl (frames_of l) /\
    x = mkFrameVariable None (fl_offset fl)
          (match known (fl_bit_size fl) with Some n => Some (bytes_of n) | None => size end) name ty.
Definition place_of_formal (sc : scene) (p : formal) : frame_variable -> Prop :=
  place_of (vw_sizes (sc_view sc) (fo_ty p)) (fo_name p) (fo_ty p) (fo_locations p).
Definition place_of_slot (sc : scene) (v : slot) : frame_variable -> Prop :=
  place_of (slot_bytes sc v) (sl_name v) (sl_ty v) (sl_locations v).
Inductive in_inlined (sc : scene) (x : inlined) (e : frame_variable) : Prop :=
| in_inlined_formal : forall p, In p (il_parameters x) -> place_of_formal sc p e -> in_inlined sc x e
| in_inlined_slot : forall v, In v (il_variables x) -> place_of_slot sc v e -> in_inlined sc x e
| in_inlined_inner : forall y, In y (il_inlined x) -> in_inlined sc y e -> in_inlined sc x e.
Inductive in_frame (sc : scene) (d : details) (e : frame_variable) : Prop :=
| in_frame_formal : forall p, In p (de_parameters d) -> place_of_formal sc p e -> in_frame sc d e
| in_frame_slot : forall v, In v (de_variables d) -> place_of_slot sc v e -> in_frame sc d e
| in_frame_inlined : forall y, In y (de_inlined d) -> in_inlined sc y e -> in_frame sc d e.

Definition option_before {A} (before : A -> A -> Prop) (a b : option A) : Prop :=
  match a, b with None, Some _ => True | Some x, Some y => before x y | _, _ => False end.
Definition entry_before (a b : frame_variable) : Prop :=
  (fv_offset a < fv_offset b)%Z \/ fv_offset a = fv_offset b /\
  (option_before N.lt (fv_size a) (fv_size b) \/ fv_size a = fv_size b /\
   (option_before (fun x y => cmp_string x y = Lt) (fv_name a) (fv_name b) \/ fv_name a = fv_name b /\
    fv_ty a < fv_ty b)).
(** Between two entries that do not touch there is a line for what is in between. *)
Definition gap_shown (i : nat) (last : option Z) (offset : Z) : list line :=
  match last with
  | Some z =>
      if (z <? offset)%Z
      then [Line i (signed z ++ txt "[" ++ signed (as_i64 (offset - z)) ++ txt "]" ++ [9] ++ txt "<unknown>")]
      else []
  | None => []
  end.
Fixpoint entries_shown (sc : scene) (i : nat) (last : option Z) (l : list frame_variable) : list line :=
  match l with
  | [] => []
  | x :: l' =>
      gap_shown i last (fv_offset x) ++
      Line i (signed (fv_offset x) ++ size_shown (fv_size x) ++
              name_and_type sc (name_or "<anon>" (fv_name x) ++ txt ": ") (fv_ty x)) ::
      entries_shown sc i (match fv_size x with Some n => Some (as_i64 (fv_offset x + Z.of_N n)) | None => None end) l'
  end.

(** A call found in the code. *)
Definition call_shown (o : options) (sc : scene) (c : call) : text :=
  (if i_function_address (o_ignore o) then [] else hex0x (ca_from c) ++ txt " -> " ++ hex0x (ca_to c) ++ txt " ") ++
  match sc_function_at sc (ca_to c) with
  | Some f => function_name f
  | None =>
      match sc_program sc with
      | Some p =>
          match pg_plt p (ca_to c) with
          | Some s => txt s
          | None => if i_function_address (o_ignore o) then hex0x (ca_to c) else []
          end
      | None => if i_function_address (o_ignore o) then hex0x (ca_to c) else []
      end
  end.

Definition range_shown (r : range) : text :=
  hex0x (rbegin r) ++ (if rbegin r <? rend r then txt "-" ++ hex0x (rend r - 1) else []).
Definition ranges_shown (i : nat) (l : list range) : list line :=
  match l with
  | [] => []
  | [r] => labelled_line i "address" (range_shown r)
  | _ =>
      under i "addresses"
        (map (fun r => Line (S i) (range_shown r ++
           (if rbegin r <? rend r then txt " (" ++ dec (rend r - rbegin r) ++ txt ")" else []))) l)
  end.
(** The return type is left out if the function returns nothing. *)
Definition returns_shown (sc : scene) (f : func) : text :=
  match vw_find (sc_view sc) (sc_return sc f) with
  | Some t =>
      match t_kind t with
      | TVoid => []
      | _ => size_shown (h_size (vw_hash (sc_view sc)) t) ++ text_value (vw_ref (sc_view sc) (Some t))
      end
  | None => size_shown None ++ text_value (vw_ref (sc_view sc) None)
  end.

Inductive function_shown (o : options) (sc : scene) (dir : option string) (depth : nat) (f : func)
  : list line -> Prop :=
| function_lines : forall ps vs fs inner cs code,
    let d := sc_details sc f in
    each (formal_shown o sc 2) (de_parameters d) ps ->
    optional (p_function_variables (o_print o)) (each (slot_shown o sc 2) (de_variables d)) vs ->
    optional (p_function_stack_frame (o_print o))
      (fun ls => exists es, StronglySorted entry_before es /\ (forall e, In e es <-> in_frame sc d e) /\
         ls = entries_shown sc 2 None es) fs ->
    inner_shown o sc dir depth 2 (de_inlined d) inner ->
    optional (p_function_calls (o_print o))
      (fun ls => exists l, calls sc f = Some l /\ ls = flat_map (fun c => text_line 2 (call_shown o sc c)) l) cs ->
    optional (p_function_instructions (o_print o))
      (fun ls => exists p, print_instructions sc f = Some p /\ ls = lines depth 2 p) code ->
    function_shown o sc dir depth f
      (Line 0 (txt "fn " ++ function_name f) ::
       labelled_line 1 "linkage name" (match fn_linkage_name f with Some n => txt n | None => [] end) ++
       labelled_line 1 "symbol name" (match fn_symbol_name f with Some n => txt n | None => [] end) ++
       (if p_source (o_print o) then labelled_line 1 "source" (source_text dir (sc_function_source sc f)) else []) ++
       ranges_shown 1 (fn_ranges f) ++
       labelled_line 1 "size" (match known (fn_size f) with Some n => dec n | None => [] end) ++
       labelled_line 1 "inline" (if fn_inline f then txt "yes" else []) ++
       labelled_line 1 "declaration" (if fn_declaration f then txt "yes" else []) ++
       under 1 "return type" (text_line 2 (returns_shown sc f)) ++
       under 1 "parameters" ps ++ under 1 "variables" vs ++ under 1 "stack frame" fs ++
       under 1 "inlined functions" inner ++
       (if p_function_calls (o_print o)
        then under 1 "call sites" (flat_map (site_shown o sc dir 2) (de_calls d)) else []) ++
       under 1 "calls" cs ++ under 1 "instructions" code ++ [Blank]).

Definition variable_shown (o : options) (sc : scene) (dir : option string) (v : var) : list line :=
  Line 0 (txt "var " ++ path_and_name (va_namespace v) (va_name v) ++ txt ": " ++
          written_type (sc_view sc) (va_ty v)) ::
  labelled_line 1 "linkage name" (match va_linkage_name v with Some n => txt n | None => [] end) ++
  labelled_line 1 "symbol name" (match va_symbol_name v with Some n => txt n | None => [] end) ++
  (if p_source (o_print o) then labelled_line 1 "source" (source_text dir (sc_variable_source sc v)) else []) ++
  labelled_line 1 "address" (match known (va_address v) with Some a => hex0x a | None => [] end) ++
  labelled_line 1 "size"
    (match (if va_size v =? u64_max then vw_sizes (sc_view sc) (va_ty v) else Some (va_size v)) with
     | Some n => dec n | None => [] end) ++
  labelled_line 1 "declaration" (if va_declaration v then txt "yes" else []) ++ [Blank].
