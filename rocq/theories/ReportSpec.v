(** Specification vocabulary for printed files and for reports on two files. *)
From Coq Require Import List Arith NArith ZArith Bool String Permutation.
From Verif Require Import CfiModel DieModel Base RangeModel RangeSpec NamespaceModel TypeModel LayoutModel FileModel
  DiffModel DiffSpec OptionsModel FilterModel FilterSpec IdModel PrintModel PrintSpec NameModel ItemModel
  ItemSpec EntryModel EntrySpec ReportModel.
Import ListNotations.
Local Open Scope N_scope.

(** ** Any document *)

(** The lines that are shown of a comparison, and whether a difference is reported, for documents
    in which deleted and added parts may be without output.  A part that is deleted or added counts as a
    difference even then; but a difference in a body without output is not noticed, and a
    document that is shown only if there is a difference in it has no output otherwise. *)
Fixpoint report (depth indent : nat) (d : ddoc) : list (mark * line) * bool :=
  match d with
  | DNil => ([], false)
  | DSeq a b =>
      (fst (report depth indent a) ++ fst (report depth indent b),
       snd (report depth indent a) || snd (report depth indent b))%list
  | DLine label a b =>
      (diff_lines depth indent (DLine label a b), negb (text_eqb (text_value a) (text_value b)))
  | DLabel label => ([(Same, Line indent (labelled label []))], false)
  | DBreak => ([(Same, Blank)], false)
  | DTree _ header body =>
      (fst (report depth indent header) ++ fst (report depth (S indent) body),
       snd (report depth indent header) ||
       nonempty (fst (report depth (S indent) body)) && snd (report depth (S indent) body))%list
  | DId _ header body =>
      (fst (report depth indent header) ++ fst (report depth (S indent) body),
       snd (report depth indent header) || snd (report depth (S indent) body))%list
  | DSection _ label body =>
      match report depth (S indent) body with
      | ([], _) => ([], false)
      | (ls, flag) => ((Same, Line indent (labelled label [])) :: ls, flag)
      end
  | DInline d => match depth with O => ([], false) | S n => report n indent d end
  | DDelete d => (with_mark Old (lines depth indent d), true)
  | DAdd d => (with_mark New (lines depth indent d), true)
  | DBlock a b =>
      (with_mark Old (lines depth indent a) ++ with_mark New (lines depth indent b),
       nonempty (lines depth indent a) || nonempty (lines depth indent b))%list
  | DIfDiff d => if snd (report depth indent d) then (fst (report depth indent d), true) else ([], false)
  | DIgnore flag d => (fst (report depth indent d), negb flag && snd (report depth indent d))
  end.

(** ** Conditions on the input *)

Definition short_unit (im : image) (u : unit) : Prop :=
  Forall short_type (un_types u) /\ Forall (short_function (im_scene im)) (un_functions u).
Definition short_image (im : image) : Prop :=
  short_view (im_view im) /\ short (im_sections im) /\ Forall (short_unit im) (im_units im).

(** Types and functions of two units that are paired are shown in the same form. *)
Definition units_alike (o : options) (ii : images) (u v : unit) : Prop :=
  (forall x y, In x (un_types u) -> In y (un_types v) -> same_type x y -> bases_alike x y) /\
  (forall x y, In x (un_functions u) -> In y (un_functions v) -> same_function x y ->
     ranges_alike (fn_ranges x) (fn_ranges y)) /\
  (forall x, In x (un_functions u) -> settled_details o (sc_details (im_scene (is_a ii)) x)) /\
  (forall y, In y (un_functions v) -> settled_details o (sc_details (im_scene (is_b ii)) y)).

(** Nothing is left out or ignored. *)
Definition heeds_all (o : options) : Prop :=
  i_added (o_ignore o) = false /\ i_deleted (o_ignore o) = false /\ heeds_functions o /\ heeds_variables o.

(** ** Agreement of two files *)

Definition paired {A B} (R : A -> B -> Prop) (la : list A) (lb : list B) : Prop :=
  exists l, Permutation (map fst l) la /\ Permutation (map snd l) lb /\
    forall a b, In (a, b) l -> R a b.
Definition same_text (depth : nat) (P Q : pdoc -> Prop) : Prop :=
  exists p q, P p /\ Q q /\ lines depth 0 p = lines depth 0 q.

(** What is shown for two units is the same: their names and sizes if they are shown, and their
    types, functions and variables pair up, so that each is printed the same on both sides. *)
Definition units_agree (o : options) (fuel : nat) (ii : images) (depth : nat) (u v : unit) : Prop :=
  (c_unit (o_category o) = true ->
     text_value (unit_value (is_a ii) u) = text_value (unit_value (is_b ii) v) /\
     same_text depth (fun p => print_unit_fields o (is_a ii) u = Some p)
       (fun q => print_unit_fields o (is_b ii) v = Some q)) /\
  (c_type (o_category o) = true -> exists la lb,
     selects (type_listed o (h_env (im_hash (is_a ii))) true u) (un_types u) la /\
     selects (type_listed o (h_env (im_hash (is_b ii))) true v) (un_types v) lb /\
     paired (fun x y => same_type x y /\
       same_text depth (fun p => print_type_in o fuel (is_a ii) u x = Some p)
         (fun q => print_type_in o fuel (is_b ii) v y = Some q)) la lb) /\
  (c_function (o_category o) = true -> exists la lb,
     selects (function_listed o) (un_functions u) la /\ selects (function_listed o) (un_functions v) lb /\
     paired (fun x y => same_function x y /\
       same_text depth (printed_up_to_order o fuel (im_scene (is_a ii)) (im_dir (is_a ii) u) x)
         (printed_up_to_order o fuel (im_scene (is_b ii)) (im_dir (is_b ii) v) y)) la lb) /\
  (c_variable (o_category o) = true -> exists la lb,
     selects (variable_listed o) (un_variables u) la /\ selects (variable_listed o) (un_variables v) lb /\
     paired (fun x y => same_variable x y /\
       same_text depth (fun p => print_variable_in o (is_a ii) u x = Some p)
         (fun q => print_variable_in o (is_b ii) v y = Some q)) la lb).

(** The same for two files: their sizes and sections if they are shown, and their units pair up. *)
Definition files_agree (o : options) (given : list (string * string)) (fuel : nat) (ii : images) (depth : nat) : Prop :=
  (c_file (o_category o) = true ->
     same_text depth (fun p => print_file_header o (is_a ii) = Some p)
       (fun q => print_file_header o (is_b ii) = Some q)) /\
  exists la lb,
    selects (unit_listed given o) (im_units (is_a ii)) la /\
    selects (unit_listed given o) (im_units (is_b ii)) lb /\
    paired (fun u v => same_unit given u v /\ units_agree o fuel ii depth u v) la lb.

(** ** Entries of a report *)

Local Notation compare_docs := (diff_doc text_printer false false).

(** The lines for a row, and whether it counts as a difference: an entry of one side only is shown
    as it is printed, marked; entries of both sides are compared, and the comparison is shown
    if there is a difference in it. *)
Inductive block {A} (depth : nat) (pa pb : A -> option pdoc) (df : A -> A -> option ddoc)
  : merge_result A A -> list (mark * line) -> bool -> Prop :=
| bl_old : forall a p, pa a = Some p ->
    block depth pa pb df (MLeft a) (with_mark Old (lines depth 0 p)) true
| bl_new : forall b p, pb b = Some p ->
    block depth pa pb df (MRight b) (with_mark New (lines depth 0 p)) true
| bl_changed : forall a b d ls s, df a b = Some d ->
    compare_docs d (text_start depth) false = (write_marked ls, s, true) ->
    block depth pa pb df (MBoth a b) ls true
| bl_unchanged : forall a b d ls s, df a b = Some d ->
    compare_docs d (text_start depth) false = (ls, s, false) ->
    block depth pa pb df (MBoth a b) [] false.
Inductive blocks {A} (depth : nat) (pa pb : A -> option pdoc) (df : A -> A -> option ddoc)
  : list (merge_result A A) -> list (mark * line) -> bool -> Prop :=
| bs_nil : blocks depth pa pb df [] [] false
| bs_cons : forall r rows ls f rest g, block depth pa pb df r ls f -> blocks depth pa pb df rows rest g ->
    blocks depth pa pb df (r :: rows) (ls ++ rest)%list (f || g).

(** ** Lines *)

(** A line of both sides, or two lines if the texts differ; empty texts are not shown. *)
Definition line2 (i : nat) (label : string) (a b : text) : list (mark * line) :=
  if list_eq_dec N.eq_dec a b then with_mark Same (labelled_line i label a)
  else with_mark Old (labelled_line i label a) ++ with_mark New (labelled_line i label b).
Definition title2 (i : nat) (a b : text) : list (mark * line) :=
  if list_eq_dec N.eq_dec a b then with_mark Same (text_line i a)
  else with_mark Old (text_line i a) ++ with_mark New (text_line i b).
Definition under2 (i : nat) (label : string) (ls : list (mark * line)) : list (mark * line) :=
  match ls with [] => [] | _ => (Same, Line i (txt label ++ txt ":")) :: ls end.

(** A number, and by how much it has changed. *)
Definition difference (a b : N) : Z := Z.of_N b - Z.of_N a.
Definition with_sign (z : Z) : text := (if (z <? 0)%Z then txt "-" else txt "+") ++ dec (Z.abs_N z).
Definition count_line (i : nat) (label : string) (n : N) : list line := labelled_line i label (dec n).
Definition count2 (i : nat) (label : string) (a b : N) : list (mark * line) :=
  line2 i label (dec a) (if a =? b then dec b else dec b ++ txt " (" ++ with_sign (difference a b) ++ txt ")").
(** Such numbers are compared as they are. *)
Definition countable (n : N) : Prop := n < 2 ^ 63.

(** ** What is printed for a file and for a unit *)

Definition range_with_size (r : range) : text :=
  range_shown r ++ (if rbegin r <? rend r then txt " (" ++ dec (rend r - rbegin r) ++ txt ")" else []).
Definition section_title (s : named_section) : text :=
  match ns_segment s with Some n => txt n ++ txt "," | None => [] end ++ name_or "<anon-section>" (ns_name s).
Definition section_place (s : named_section) : text :=
  match section_address (ns_section s) with Some r => range_shown r | None => [] end.
Definition nonzero_line (i : nat) (label : string) (n : N) : list line :=
  if n =? 0 then [] else count_line i label n.
Definition nonzero2 (i : nat) (label : string) (a b : N) : list (mark * line) :=
  if (a =? 0) && (b =? 0) then [] else count2 i label a b.
Definition ranges_lines (i : nat) (label : string) (l : list range) : list line :=
  under i label (map (fun r => Line (S i) (range_with_size r)) l).
Definition section_lines (i : nat) (s : named_section) : list line :=
  text_line i (section_title s) ++
  labelled_line (S i) "address" (section_place s) ++ count_line (S i) "size" (se_size (ns_section s)).
Definition file_lines (o : options) (im : image) : list line :=
  let ranges := file_ranges (im_sizes im) (im_units im) in
  let fns := file_function_size (im_file im) in
  let vars := file_variable_size (im_sizes im) (im_file im) in
  Line 0 (txt "file " ++ txt (im_path im)) ::
  (if p_file_address (o_print o) then ranges_lines 1 "addresses" ranges else []) ++
  count_line 1 "size" (rl_size ranges) ++ count_line 1 "fn size" fns ++ count_line 1 "var size" vars ++
  count_line 1 "other size" (rl_size ranges - (fns + vars)) ++
  under 1 "sections" (flat_map (section_lines 2) (im_sections im)) ++ [Blank].
Definition unit_lines (o : options) (im : image) (u : unit) : list line :=
  let ranges := unit_ranges (im_sizes im) u in
  let unknown := unit_unknown_ranges (im_sizes im) u in
  Line 0 (txt "unit " ++ txt (unit_ref (un_name u) (im_dir im u))) ::
  (if p_unit_address (o_print o) then
     match ranges with
     | [] => labelled_line 1 "address" (match im_low_pc im u with Some a => hex0x a | None => [] end)
     | [r] => labelled_line 1 "address" (range_shown r)
     | _ => ranges_lines 1 "addresses" ranges
     end ++ ranges_lines 1 "unknown addresses" unknown
   else []) ++
  nonzero_line 1 "fn size" (unit_function_size u) ++ nonzero_line 1 "var size" (unit_variable_size (im_sizes im) u) ++
  nonzero_line 1 "unknown size" (rl_size unknown) ++ [Blank].

(** ** What is shown for two files *)

(** Address ranges, and sections, next to each other. *)
Definition range_row (i : nat) (r : merge_result range range) : list (mark * line) :=
  match r with
  | MLeft a => [(Old, Line i (range_with_size a))]
  | MRight b => [(New, Line i (range_with_size b))]
  | MBoth a _ => [(Same, Line i (range_with_size a))]
  end.
Definition section_row (i : nat) (r : merge_result named_section named_section) : list (mark * line) :=
  match r with
  | MLeft a => with_mark Old (section_lines i a)
  | MRight b => with_mark New (section_lines i b)
  | MBoth a b =>
      title2 i (section_title a) (section_title b) ++
      line2 (S i) "address" (section_place a) (section_place b) ++
      count2 (S i) "size" (se_size (ns_section a)) (se_size (ns_section b))
  end.
Inductive sections_aligned (i : nat) (la lb : list named_section) : list (mark * line) -> Prop :=
| sections_next : forall rows, lefts rows = la -> rights rows = lb ->
    sections_aligned i la lb (flat_map (section_row i) rows).
(** Ranges are put next to equal ones; and none that occurs on both sides is missed if they are in order. *)
Inductive ranges_aligned (i : nat) (la lb : list range) : list (mark * line) -> Prop :=
| ranges_next : forall rows, lefts rows = la -> rights rows = lb ->
    (forall a b, In (MBoth a b) rows -> a = b) ->
    (ascending la -> ascending lb -> forall a, In (MLeft a) rows -> In (MRight a) rows -> False) ->
    ranges_aligned i la lb (flat_map (range_row i) rows).

Inductive files_shown (o : options) (ii : images) : list (mark * line) -> Prop :=
| files_lines : forall rs ss,
    ranges_aligned 2 (file_ranges (im_sizes (is_a ii)) (im_units (is_a ii)))
      (file_ranges (im_sizes (is_b ii)) (im_units (is_b ii))) rs ->
    sections_aligned 2 (im_sections (is_a ii)) (im_sections (is_b ii)) ss ->
    files_shown o ii
      (let size im := rl_size (file_ranges (im_sizes im) (im_units im)) in
       let fns im := file_function_size (im_file im) in
       let vars im := file_variable_size (im_sizes im) (im_file im) in
       let other im := size im - (fns im + vars im) in
       title2 0 (txt "file " ++ txt (im_path (is_a ii))) (txt "file " ++ txt (im_path (is_b ii))) ++
       (if p_file_address (o_print o) then under2 1 "addresses" rs else []) ++
       count2 1 "size" (size (is_a ii)) (size (is_b ii)) ++ count2 1 "fn size" (fns (is_a ii)) (fns (is_b ii)) ++ count2 1 "var size" (vars (is_a ii)) (vars (is_b ii)) ++ count2 1 "other size" (other (is_a ii)) (other (is_b ii)) ++
       under2 1 "sections" ss ++ [(Same, Blank)]).
(** For this, the sizes have to be numbers that can be subtracted. *)
Definition sizes_fit (im : image) : Prop :=
  let size := rl_size (file_ranges (im_sizes im) (im_units im)) in
  countable size /\ file_function_size (im_file im) + file_variable_size (im_sizes im) (im_file im) <= size /\
  Forall (fun s => countable (se_size (ns_section s))) (im_sections im).

Inductive units_shown (o : options) (ii : images) (u v : unit) : list (mark * line) -> Prop :=
| units_lines : forall rs us,
    ranges_aligned 2 (unit_ranges (im_sizes (is_a ii)) u) (unit_ranges (im_sizes (is_b ii)) v) rs ->
    ranges_aligned 2 (unit_unknown_ranges (im_sizes (is_a ii)) u) (unit_unknown_ranges (im_sizes (is_b ii)) v) us ->
    units_shown o ii u v
      (let name im u := txt "unit " ++ txt (unit_ref (un_name u) (im_dir im u)) in
       let address im u :=
         match unit_ranges (im_sizes im) u with
         | [] => match im_low_pc im u with Some a => hex0x a | None => [] end
         | r :: _ => range_shown r
         end in
       let several im u := (1 <? List.length (unit_ranges (im_sizes im) u))%nat in
       title2 0 (name (is_a ii) u) (name (is_b ii) v) ++
       (if p_unit_address (o_print o) then
          (if several (is_a ii) u || several (is_b ii) v then under2 1 "addresses" rs
           else line2 1 "address" (address (is_a ii) u) (address (is_b ii) v)) ++
          under2 1 "unknown addresses" us
        else []) ++
       nonzero2 1 "fn size" (unit_function_size u) (unit_function_size v) ++
       nonzero2 1 "var size" (unit_variable_size (im_sizes (is_a ii)) u) (unit_variable_size (im_sizes (is_b ii)) v) ++
       nonzero2 1 "unknown size" (rl_size (unit_unknown_ranges (im_sizes (is_a ii)) u))
         (rl_size (unit_unknown_ranges (im_sizes (is_b ii)) v)) ++ [(Same, Blank)]).

(** Whether a line is not common to both sides. *)
Definition differs (x : mark * line) : bool := match fst x with Same => false | _ => true end.
