(** Model of what is printed for a file and its units, and for a comparison of two files:
    /repo/main/src/print/file.rs 305-518, unit.rs and section.rs, the lists and counts of mod.rs,
    and the parts that are loaded on demand (file.rs 371-453).

    As in [EntryModel], the result is a document or [None], and arithmetic wraps as in release
    mode. *)
From Coq Require Import List Arith NArith ZArith Bool String.
From Verif Require Import CfiModel DieModel Base RangeModel NamespaceModel TypeModel LayoutModel FileModel
  OptionsModel FilterModel DiffModel IdModel PrintModel NameModel RefModel LocationModel CodeModel ItemModel
  EntryModel.
Import ListNotations.
Local Open Scope N_scope.

(** ** What is read of a file *)

(** parser/src/file/mod.rs:704-710, [Section]. *)
Record named_section := mkNamed {
  ns_name : option string; ns_segment : option string; ns_section : section }.

(** A file: see [scene]; its path, units and sections; and the fields of units that [unit] leaves
    out. *)
Record image := mkImage {
  im_scene : scene; im_path : string; im_units : list unit; im_sections : list named_section;
  im_dir : unit -> option string; im_low_pc : unit -> option N; im_unit_id : unit -> nat }.
Definition im_view (im : image) : view := sc_view (im_scene im).
Definition im_hash (im : image) : hash := vw_hash (im_view im).
Definition im_sizes (im : image) : type_sizes := vw_sizes (im_view im).
(** The sizes of a file do not read its segments, sections and symbols. *)
Definition im_file (im : image) : file := mkFile [] (map ns_section (im_sections im)) [] (im_units im).

(** The two files of a comparison; see [scenes]. *)
Record images := mkImages { is_a : image; is_b : image; is_cmp : type -> type -> comparison }.
Definition is_scenes (ii : images) : scenes := mkScenes (im_scene (is_a ii)) (im_scene (is_b ii)) (is_cmp ii).

(** ** Counts *)

(** mod.rs:340-345, [PrintState::field_u64]. *)
Definition count_field (label : string) (n : N) : pdoc := field label (dec n).
(** [{:+}]. *)
Definition plus_sdec (z : Z) : text := if (z <? 0)%Z then sdec z else txt "+" ++ sdec z.
(** mod.rs:734-743, [DiffState::field_u64]. *)
Definition count_with_change (base n : N) : text :=
  dec n ++ (if n =? base then []
            else txt " (" ++ plus_sdec (as_i64 (as_i64 (Z.of_N n) - as_i64 (Z.of_N base))) ++ txt ")").
Definition count_field2 (label : string) (a b : N) : ddoc :=
  field2 label (count_with_change a a) (count_with_change a b).
(** unit.rs:121-134 and 239-255: counts that are left out if they are 0. *)
Definition nonzero_field (label : string) (n : N) : pdoc := if n =? 0 then PNil else count_field label n.
Definition nonzero_field2 (label : string) (a b : N) : ddoc :=
  if negb (a =? 0) || negb (b =? 0) then count_field2 label a b else DNil.

(** ** Sections *)

(** section.rs:8-17, [print_name], and 19-24, [print_address]. *)
Definition section_text (s : named_section) : text :=
  opt_text (fun n => txt n ++ txt ",") (ns_segment s) ++
  match ns_name s with Some n => txt n | None => txt "<anon-section>" end.
Definition section_address_text (s : named_section) : text :=
  opt_text range_text (section_address (ns_section s)).
(** section.rs:29-47. *)
Definition print_section (s : named_section) : pdoc :=
  PTree true (PLine [] (VText (section_text s)))
    (pseq [field "address" (section_address_text s); count_field "size" (se_size (ns_section s))]).
Definition diff_section (a b : named_section) : ddoc :=
  DTree true (DLine [] (VText (section_text a)) (VText (section_text b)))
    (dseq [field2 "address" (section_address_text a) (section_address_text b);
           count_field2 "size" (se_size (ns_section a)) (se_size (ns_section b))]).
(** section.rs:51-63. *)
Definition section_step (_ : named_section) : N := 1.
Definition section_cost (a b : named_section) : N :=
  if opt_string_eqb (ns_name a) (ns_name b) && opt_string_eqb (ns_segment a) (ns_segment b) then 0 else 2.

(** ** Units *)

(** unit.rs:94-99, [print_header]. *)
Definition unit_value (im : image) (u : unit) : value :=
  VText (txt "unit " ++ txt (unit_ref (un_name u) (im_dir im u))).
(** unit.rs:323-330, [print_address]. *)
Definition unit_address_text (im : image) (u : unit) (l : list range) : text :=
  match l with
  | r :: _ => range_text r
  | [] => opt_text (fun a => txt "0x" ++ hex a) (im_low_pc im u)
  end.
Definition print_range (r : range) : option pdoc := Some (PLine [] (VText (range_size_text r))).
Definition diff_range (r s : range) : option ddoc :=
  Some (DLine [] (VText (range_size_text r)) (VText (range_size_text s))).

(** unit.rs:104-138: [print_unit]. *)
Definition print_unit_fields (o : options) (im : image) (u : unit) : option pdoc :=
  let ranges := unit_ranges (im_sizes im) u in
  let unknown := unit_unknown_ranges (im_sizes im) u in
  bind (if p_unit_address (o_print o) then
          bind (if (1 <? List.length ranges)%nat
                then collapsed_of "addresses" (all_printed print_range ranges)
                else Some (field "address" (unit_address_text im u ranges))) (fun x =>
          bind (collapsed_of "unknown addresses" (all_printed print_range unknown)) (fun y =>
          Some (PSeq x y)))
        else Some PNil) (fun addresses =>
  Some (pseq [addresses;
              nonzero_field "fn size" (unit_function_size u);
              nonzero_field "var size" (unit_variable_size (im_sizes im) u);
              nonzero_field "unknown size" (rl_size unknown);
              PBreak])).

Section Print.
  Variable o : options.
  Variable pc : param_cmp.
  Variable fuel : nat.
  Variable im : image.

  (** [Print] for the items of a unit. *)
  Definition print_type_in (u : unit) (t : type) : option pdoc :=
    print_type o fuel (im_view im) (im_dir im u) t.
  Definition print_function_in (u : unit) (f : func) : option pdoc :=
    print_function o fuel (im_scene im) (im_dir im u) f.
  Definition print_variable_in (u : unit) (v : var) : option pdoc :=
    Some (print_variable o (im_scene im) (im_dir im u) v).

  (** mod.rs:365-371, [PrintState::sort_list]; see [print_list]. *)
  Definition print_types (u : unit) : option pdoc :=
    all_printed (print_type_in u) (printed_types o (im_hash im) u).
  Definition print_functions (u : unit) : option pdoc :=
    all_printed (print_function_in u) (printed_functions o pc (im_hash im) u).
  Definition print_variables (u : unit) : option pdoc :=
    all_printed (print_variable_in u) (printed_variables o (im_hash im) u).
  (** unit.rs:167-175: functions with and without a size. *)
  Definition sized (f : func) : bool := negb (is_none (opt64_get (fn_size f))).
  Definition print_some_functions (keep : func -> bool) (u : unit) : option pdoc :=
    all_printed (print_function_in u)
      (print_list (function_cmp_by o pc) (im_hash im) (filter keep (filter_functions o u))).

  (** unit.rs:101-187, [print_body]. *)
  Definition print_unit_body (u : unit) : option pdoc :=
    bind (print_unit_fields o im u) (fun fields =>
    bind (print_types u) (fun types =>
    bind (print_variables u) (fun vars =>
    if o_html o then
      bind (if c_function (o_category o) then
              bind (collapsed_of "functions" (print_some_functions sized u)) (fun x =>
              bind (collapsed_of "inlined functions"
                      (print_some_functions (fun f => negb (sized f)) u)) (fun y =>
              Some (PSeq x y)))
            else Some PNil) (fun functions =>
      Some (pseq [(if c_unit (o_category o) then fields else PNil);
                  PSection true (txt "types") types; functions; PSection true (txt "variables") vars]))
    else
      bind (print_functions u) (fun functions =>
      Some (pseq [(if c_unit (o_category o) then PTree false (PLine [] (unit_value im u)) fields else PNil);
                  types; functions; vars]))))).
  (** unit.rs:189-200, [print]. *)
  Definition print_unit (u : unit) : option pdoc :=
    bind (print_unit_body u) (fun body =>
    Some (if o_html o then PId (im_unit_id im u) (PLine [] (unit_value im u)) body else body)).

  (** ** Files *)

  (** file.rs:346-354: [checked_sub]. *)
  Definition other_size (size fns vars : N) : N :=
    if add64 fns vars <=? size then size - add64 fns vars else 0.
  (** file.rs:336-367. *)
  Definition print_file_header : option pdoc :=
    let ranges := file_ranges (im_sizes im) (im_units im) in
    let fns := file_function_size (im_file im) in
    let vars := file_variable_size (im_sizes im) (im_file im) in
    bind (if p_file_address (o_print o)
          then collapsed_of "addresses" (all_printed print_range ranges) else Some PNil) (fun addresses =>
    bind (collapsed_of "sections" (all_printed (fun s => Some (print_section s)) (im_sections im))) (fun sections =>
    Some (PSeq (PTree true (PLine [] (VText (txt "file " ++ txt (im_path im))))
                  (pseq [addresses; count_field "size" (rl_size ranges); count_field "fn size" fns;
                         count_field "var size" vars;
                         count_field "other size" (other_size (rl_size ranges) fns vars); sections]))
            PBreak))).
  (** file.rs:331-369, [print]. *)
  Definition print_file : option pdoc :=
    bind (if c_file (o_category o) then print_file_header else Some PNil) (fun header =>
    bind (all_printed print_unit (printed_units o (im_hash im) (im_units im))) (fun units =>
    Some (PSeq header units))).

  (** ** Parts that are loaded on demand *)

  (** file.rs:384-444, [print_id], without its first line (see [print_id_item]). *)
  Definition print_part (detail : option string) (x : item) : option pdoc :=
    match x with
    | ItUnit u => print_unit_body u
    | ItType u t => print_type_body o fuel (im_view im) (im_dir im u) t
    | ItFunction u f =>
        match detail with
        | None =>
            print_function_body o fuel (im_scene im) (im_dir im u) f
              (de_variables (sc_details (im_scene im) f)) (de_inlined (sc_details (im_scene im) f))
        | Some d => if String.eqb d "code" then print_instructions (im_scene im) f else None
        end
    | ItVariable u v => Some (print_variable_body o (im_scene im) (im_dir im u) v)
    end.
  Definition print_on_demand (ids : list item_id) (id : nat) (detail : option string) : option pdoc :=
    bind (print_id_item (im_units im) ids id) (print_part detail).
End Print.

(** ** Comparisons *)

(** A part of a report: printed for an item of one file, or compared. *)
Inductive part := Printed (p : pdoc) | Compared (d : ddoc).

Section Compare.
  Variable choose : list N -> list N -> list (list N) -> nat -> nat.
  Variable o : options.
  Variable pc : param_cmp.
  Variable fuel : nat.
  Variable ii : images.
  Local Notation A := (is_a ii).
  Local Notation B := (is_b ii).
  Local Notation ss := (is_scenes ii).

  (** unit.rs:212-259: [diff_unit]. *)
  Definition diff_unit_fields (u v : unit) : option ddoc :=
    let ranges_a := unit_ranges (im_sizes A) u in
    let ranges_b := unit_ranges (im_sizes B) v in
    let unknown_a := unit_unknown_ranges (im_sizes A) u in
    let unknown_b := unit_unknown_ranges (im_sizes B) v in
    bind (if p_unit_address (o_print o) then
            bind (if (1 <? List.length ranges_a)%nat || (1 <? List.length ranges_b)%nat
                  then diff_ranges ranges_a ranges_b
                  else Some (field2 "address" (unit_address_text A u ranges_a) (unit_address_text B v ranges_b))) (fun x =>
            bind (dcollapsed_of "unknown addresses"
                    (compared_ord_list range_cmp print_range print_range diff_range unknown_a unknown_b)) (fun y =>
            Some (DSeq x y)))
          else Some DNil) (fun addresses =>
    Some (dseq [addresses;
                nonzero_field2 "fn size" (unit_function_size u) (unit_function_size v);
                nonzero_field2 "var size" (unit_variable_size (im_sizes A) u) (unit_variable_size (im_sizes B) v);
                nonzero_field2 "unknown size" (rl_size unknown_a) (rl_size unknown_b);
                DBreak])).

  (** mod.rs:811-851, [DiffState::sort_list]; see [diff_rows]. *)
  Definition listed_rows {T} (cmp_by : hash -> T -> hash -> T -> comparison) (pa pb : T -> option pdoc)
      (df : T -> T -> option ddoc) (rows : list (merge_result T T)) : option ddoc :=
    all_rows pa pb (fun a b => bind (df a b) (fun d => Some (DIfDiff d)))
      (diff_rows cmp_by o (im_hash A) (im_hash B) rows).

  Definition diff_types (u v : unit) : option ddoc :=
    if c_type (o_category o) then
      listed_rows (type_cmp_by o) (print_type_in o fuel A u) (print_type_in o fuel B v)
        (diff_type choose o fuel (ss_sides ss) (im_dir A u) (im_dir B v))
        (merged_types o (im_hash A) u (im_hash B) v)
    else Some DNil.
  Definition diff_functions (rows : list (merge_result func func)) (u v : unit) : option ddoc :=
    listed_rows (function_cmp_by o pc) (print_function_in o fuel A u) (print_function_in o fuel B v)
      (diff_function choose o ss (im_unit_id A u) fuel (im_dir A u) (im_dir B v)) rows.
  Definition diff_variables (u v : unit) : option ddoc :=
    if c_variable (o_category o) then
      listed_rows (variable_cmp_by o) (print_variable_in o A u) (print_variable_in o B v)
        (fun a b => Some (diff_variable o ss (im_dir A u) (im_dir B v) a b)) (merged_variables o u v)
    else Some DNil.

  (** unit.rs:209-308, [diff_body]. *)
  Definition diff_unit_body (u v : unit) : option ddoc :=
    let rows := merged_functions o pc (im_hash A) u (im_hash B) v in
    bind (diff_unit_fields u v) (fun fields =>
    bind (diff_types u v) (fun types =>
    bind (if c_function (o_category o) then
            bind (diff_functions (fst rows) u v) (fun x =>
            bind (diff_functions (snd rows) u v) (fun y =>
            Some (if o_html o
                  then DSeq (DSection true (txt "functions") x) (DSection true (txt "inlined functions") y)
                  else DSeq x y)))
          else Some DNil) (fun functions =>
    bind (diff_variables u v) (fun vars =>
    Some (if o_html o
          then dseq [(if c_unit (o_category o) then fields else DNil);
                     DSection true (txt "types") types; functions; DSection true (txt "variables") vars]
          else dseq [(if c_unit (o_category o)
                      then DTree true (DLine [] (unit_value A u) (unit_value B v)) fields else DNil);
                     types; functions; vars]))))).
  (** unit.rs:202-207, [diff_header], and 310-321, [diff]. *)
  Definition diff_unit (u v : unit) : option ddoc :=
    bind (diff_unit_body u v) (fun body =>
    Some (if o_html o then DId (im_unit_id A u) (DLine [] (unit_value A u) (unit_value B v)) body else body)).

  (** file.rs:475-511. *)
  Definition diff_file_header : option ddoc :=
    let ranges_a := file_ranges (im_sizes A) (im_units A) in
    let ranges_b := file_ranges (im_sizes B) (im_units B) in
    let fns_a := file_function_size (im_file A) in
    let fns_b := file_function_size (im_file B) in
    let vars_a := file_variable_size (im_sizes A) (im_file A) in
    let vars_b := file_variable_size (im_sizes B) (im_file B) in
    let other_a := sub64 (sub64 (rl_size ranges_a) fns_a) vars_a in
    let other_b := sub64 (sub64 (rl_size ranges_b) fns_b) vars_b in
    bind (if p_file_address (o_print o) then diff_ranges ranges_a ranges_b else Some DNil) (fun addresses =>
    bind (dcollapsed_of "sections"
            (compared_list choose section_step section_cost (fun s => Some (print_section s))
               (fun s => Some (print_section s)) (fun a b => Some (diff_section a b))
               (im_sections A) (im_sections B))) (fun sections =>
    Some (DSeq (DTree true (DLine [] (VText (txt "file " ++ txt (im_path A))) (VText (txt "file " ++ txt (im_path B))))
                  (dseq [addresses; count_field2 "size" (rl_size ranges_a) (rl_size ranges_b);
                         count_field2 "fn size" fns_a fns_b; count_field2 "var size" vars_a vars_b;
                         count_field2 "other size" other_a other_b; sections]))
            DBreak))).
  (** file.rs:455-518, [diff]. *)
  Definition diff_file : option ddoc :=
    bind (if c_file (o_category o) then diff_file_header else Some DNil) (fun header =>
    bind (listed_rows (unit_cmp_by o) (print_unit o pc fuel A) (print_unit o pc fuel B) diff_unit
            (merged_units o (im_units A) (im_units B))) (fun units =>
    Some (DSeq header units))).

  (** file.rs:520-738, [diff_id]: what is printed or compared for a target (see
      [diff_id_target]).  Two items of different kinds do not occur as a target. *)
  Definition diff_part (x : diff_target) : option part :=
    match x with
    | DOld i => bind (print_part o pc fuel A None i) (fun p => Some (Printed p))
    | DNew j => bind (print_part o pc fuel B None j) (fun p => Some (Printed p))
    | DTwo (ItUnit u) (ItUnit v) => bind (diff_unit_body u v) (fun d => Some (Compared d))
    | DTwo (ItType u a) (ItType v b) =>
        bind (diff_type_body choose o fuel (ss_sides ss) (im_dir A u) (im_dir B v) a b) (fun d => Some (Compared d))
    | DTwo (ItFunction u a) (ItFunction v b) =>
        bind (diff_function_body choose o ss fuel (im_dir A u) (im_dir B v) a b) (fun d => Some (Compared d))
    | DTwo (ItVariable u a) (ItVariable v b) =>
        Some (Compared (diff_variable_body o ss (im_dir A u) (im_dir B v) a b))
    | _ => None
    end.
  Definition diff_on_demand (ids : list (item_id * item_id)) (id : nat) : option part :=
    diff_part (diff_id_target (im_units A) (im_units B) ids id).
End Compare.
