(** What is printed for a file and its units, what is reported for two files, and the parts that are
    loaded on demand (properties C65 to C69). *)
From Coq Require Import List Arith NArith ZArith Bool String Lia Permutation Sorting.Sorted.
From Verif Require Import CfiModel DieModel Base BaseProofs RangeModel RangeSpec NamespaceModel TypeModel TypeSpec TypeProofs
  LayoutModel FileModel DiffModel DiffSpec MergeProofs OptionsModel OptionsProofs FilterModel FilterSpec FilterProofs
  PropertiesFilter PropertiesListing IdModel IdSpec IdProofs PropertiesIds PrintModel PrintSpec RefModel PrintProofs PropertiesPrint
  NameModel LocationModel CodeModel ItemModel ItemSpec ItemProofs ItemShown EntryModel EntrySpec EntryProofs
  EntryShown ReportModel ReportSpec ReportProofs ReportShown ReportLines.
Import ListNotations.
Local Open Scope string_scope.
Local Open Scope N_scope.

Local Notation compare_docs := (diff_doc text_printer false false).
Local Notation show := (print_doc text_printer false).

(** ** C65: a file compared with itself *)

(** If a file can be printed, then the comparison of it with itself reports no difference and shows
    nothing but the lines that are printed for the file before its units. *)
Theorem C65_silent : forall choose im cmp o pc fuel p depth,
  short_image im -> acyclic_view (im_view im) -> compares_types (mkSides (im_view im) (im_view im) cmp) ->
  o_html o = false -> (0 < fuel)%nat -> print_file o pc fuel im = Some p ->
  exists e ls s,
    diff_file choose o pc fuel (mkImages im im cmp) = Some e /\
    compare_docs e (text_start depth) false = (write_marked (with_mark Same ls), s, false) /\
    (c_file (o_category o) = false -> ls = []) /\
    (c_file (o_category o) = true ->
     file_function_size (im_file im) + file_variable_size (im_sizes im) (im_file im)
       <= rl_size (file_ranges (im_sizes im) (im_units im)) ->
     exists h, print_file_header o im = Some h /\ ls = lines depth 0 h).
Proof.
  intros choose im cmp o pc fuel p n SI AC CT HT PF E.
  destruct (file_self choose im cmp o pc fuel SI AC CT HT PF p E) as (e & EE & R).
  destruct (R n) as (ls & EL & X & Y). destruct (report_compare e n) as (s & EC). rewrite EL in EC. cbn [fst snd] in EC.
  exists e, ls, s. auto.
Qed.
Print Assumptions C65_silent.

(** ** C66: what is not reported is the same *)

(** If nothing is to be ignored and no difference is reported, then both files look the same: their
    sizes and sections, and one by one their units with their types, functions and variables. *)
Theorem C66_complete : forall choose o pc fuel ii c given pa pb depth,
  short_image (is_a ii) -> short_image (is_b ii) -> o_html o = false -> (0 < fuel)%nat -> heeds_all o ->
  configured c o given ->
  (forall u v, In u (im_units (is_a ii)) -> In v (im_units (is_b ii)) -> same_unit given u v ->
     units_alike o ii u v) ->
  print_file o pc fuel (is_a ii) = Some pa -> print_file o pc fuel (is_b ii) = Some pb ->
  exists e, diff_file choose o pc fuel ii = Some e /\
    (snd (compare_docs e (text_start depth) false) = false -> files_agree o given fuel ii depth).
Proof.
  intros choose o pc fuel ii c given pa pb n SA SB HT PF HE CO AL EA EB.
  destruct (files_agreed choose o pc fuel ii c given pa pb SA SB HT PF HE CO AL EA EB) as (e & EE & R).
  exists e. split; [exact EE|]. intros F. apply R. destruct (report_compare e n) as (s & EC). rewrite EC in F. exact F.
Qed.
Print Assumptions C66_complete.

(** ** C67: the order and the entries of the output *)

(** What is printed for the selected items of a list, in the requested order. *)
Definition listing {A} (keep : A -> Prop) (before : A -> A -> Prop) (depth : nat) (pr : A -> option pdoc) (l : list A)
    (ls : list line) : Prop :=
  exists sel out, selects keep l sel /\ ordered before sel out /\
    each (fun x xs => exists p, pr x = Some p /\ xs = lines depth 0 p) out ls.
(** What is reported for the selected items of two lists: rows of items that match, in the requested
    order. *)
Definition reporting {A} (same : A -> A -> Prop) (before : hash -> A -> hash -> A -> Prop) (o : options) (ii : images)
    (depth : nat) (pa pb : A -> option pdoc) (df : A -> A -> option ddoc) (ka kb : A -> Prop) (la lb : list A)
    (ls : list (mark * line)) (flag : bool) : Prop :=
  exists sa sb rows out, selects ka la sa /\ selects kb lb sb /\ matched same sa sb rows /\
    visited before o (im_hash (is_a ii)) (im_hash (is_b ii)) rows out /\ blocks depth pa pb df out ls flag.
Definition reporting_if {A} (b : bool) (same : A -> A -> Prop) (before : hash -> A -> hash -> A -> Prop) (o : options)
    (ii : images) (depth : nat) (pa pb : A -> option pdoc) (df : A -> A -> option ddoc) (ka kb : A -> Prop)
    (la lb : list A) (ls : list (mark * line)) (flag : bool) : Prop :=
  (b = false -> ls = [] /\ flag = false) /\
  (b = true -> reporting same before o ii depth pa pb df ka kb la lb ls flag).

Lemma each_printed {A} (pr : A -> option pdoc) n l p : all_printed pr l = Some p ->
  each (fun x xs => exists p, pr x = Some p /\ xs = lines n 0 p) l (lines n 0 p).
Proof. apply each_lines. intros x q _ E. eauto. Qed.

(** A printed file consists of the lines for the file, if they are requested, and the selected
    units. *)
Theorem C67_file_printed : forall c o given pc fuel im p depth, configured c o given ->
  print_file o pc fuel im = Some p ->
  exists hs us,
    (if c_file (o_category o) then exists h, print_file_header o im = Some h /\ hs = lines depth 0 h else hs = []) /\
    listing (unit_listed given o) (fun a b => unit_before given (o_sort o) (im_hash im) a (im_hash im) b) depth
      (print_unit o pc fuel im) (im_units im) us /\
    fst (show p (text_start depth)) = write_lines (hs ++ us).
Proof.
  intros c o given pc fuel im p n CO E. unfold print_file in E. apply bind_some in E. destruct E as (h & EH & E).
  apply bind_some in E. destruct E as (us & EU & E). apply some_eq in E. rewrite <- E.
  exists (lines n 0 h), (lines n 0 us). split; [|split].
  - destruct (c_file _); [eauto|]. apply some_eq in EH. now rewrite <- EH.
  - exists (filter_units o (im_units im)), (printed_units o (im_hash im) (im_units im)).
    split; [exact (C31_units c o given _ CO)|]. split; [exact (C44_units_order c o given _ _ CO)|]. now apply each_printed.
  - rewrite C46_printed. reflexivity.
Qed.
Print Assumptions C67_file_printed.

(** A printed unit: its own lines, its types, functions and variables. *)
Theorem C67_unit_printed : forall o pc fuel im u p depth, consistent pc -> o_html o = false ->
  print_unit o pc fuel im u = Some p ->
  exists ts fs vs,
    optional (c_type (o_category o))
      (listing (type_listed o (h_env (im_hash im)) false u)
         (fun a b => type_before (o_sort o) (im_hash im) a (im_hash im) b) depth (print_type_in o fuel im u) (un_types u)) ts /\
    optional (c_function (o_category o))
      (listing (function_listed o) (fun a b => function_before pc (o_sort o) (im_hash im) a (im_hash im) b) depth
         (print_function_in o fuel im u) (un_functions u)) fs /\
    optional (c_variable (o_category o))
      (listing (variable_listed o) (fun a b => variable_before (o_sort o) (im_hash im) a (im_hash im) b) depth
         (print_variable_in o im u) (un_variables u)) vs /\
    lines depth 0 p = ((if c_unit (o_category o) then unit_lines o im u else []) ++ ts ++ fs ++ vs)%list.
Proof.
  intros o pc fuel im u p n PC HT E. unfold print_unit, print_unit_body in E. rewrite HT in E.
  apply bind_some in E. destruct E as (body & E & EP). apply some_eq in EP. rewrite <- EP.
  apply bind_some in E. destruct E as (fields & EF & E). apply bind_some in E. destruct E as (types & ET & E).
  apply bind_some in E. destruct E as (vars & EV & E). apply bind_some in E. destruct E as (fns & EN & E).
  apply some_eq in E. rewrite <- E.
  exists (lines n 0 types), (lines n 0 fns), (lines n 0 vars). split; [|split; [|split]].
  - unfold print_types in ET. destruct (c_type (o_category o)) eqn:C.
    + apply optional_on; [reflexivity|]. do 2 eexists. split; [apply C31_types|].
      split; [now apply C44_types_order|]. now apply each_printed.
    + unfold printed_types in ET. rewrite C in ET. apply some_eq in ET. rewrite <- ET. now apply optional_off.
  - unfold print_functions in EN. destruct (c_function (o_category o)) eqn:C.
    + apply optional_on; [reflexivity|]. do 2 eexists. split; [apply C31_functions|].
      split; [now apply (C44_functions_order o pc)|]. now apply each_printed.
    + unfold printed_functions in EN. rewrite C in EN. apply some_eq in EN. rewrite <- EN. now apply optional_off.
  - unfold print_variables in EV. destruct (c_variable (o_category o)) eqn:C.
    + apply optional_on; [reflexivity|]. do 2 eexists. split; [apply C31_variables|].
      split; [now apply C44_variables_order|]. now apply each_printed.
    + unfold printed_variables in EV. rewrite C in EV. apply some_eq in EV. rewrite <- EV. now apply optional_off.
  - destruct (unit_fields_printed o im u n) as (q & EQ & LQ). rewrite EF in EQ. injection EQ as <-.
    destruct (c_unit _); [|unfold pseq; cbn [fold_right lines app]; now rewrite app_nil_r].
    rewrite <- LQ. unfold pseq. cbn [fold_right]. 
    change (lines n 0 (PSeq ?a ?b)) with (lines n 0 a ++ lines n 0 b)%list.
    change (lines n 0 (PTree ?c ?a ?b)) with (lines n 0 a ++ lines n 1 b)%list.
    rewrite <- !app_assoc. cbn [lines unit_value labelled text_value]. cbn [app]. now rewrite app_nil_r.
Qed.
Print Assumptions C67_unit_printed.

(** The report on two files: the lines for the files, if they are requested, and their units; it
    reports a difference iff the lines or the units do. *)
Theorem C67_files_compared : forall c o given choose pc fuel ii e depth, configured c o given ->
  diff_file choose o pc fuel ii = Some e ->
  exists hs us s f flag,
    compare_docs e (text_start depth) false = (write_marked (hs ++ us), s, f || flag) /\
    (if c_file (o_category o) then
       exists d s', diff_file_header choose o ii = Some d /\
         compare_docs d (text_start depth) false = (write_marked hs, s', f)
     else hs = [] /\ f = false) /\
    reporting (same_unit given) (unit_before given (o_sort o)) o ii depth
      (print_unit o pc fuel (is_a ii)) (print_unit o pc fuel (is_b ii)) (diff_unit choose o pc fuel ii)
      (unit_listed given o) (unit_listed given o) (im_units (is_a ii)) (im_units (is_b ii)) us flag.
Proof.
  intros c o given choose pc fuel ii e n CO E. unfold diff_file in E. apply bind_some in E. destruct E as (h & EH & E).
  apply bind_some in E. destruct E as (us & EU & E). apply some_eq in E. rewrite <- E.
  destruct (report_compare (DSeq h us) n) as (s & EC).
  exists (fst (report n 0 h)), (fst (report n 0 us)), s, (snd (report n 0 h)), (snd (report n 0 us)).
  split; [exact EC|]. split.
  - destruct (c_file _).
    + destruct (report_compare h n) as (s' & EC'). exists h, s'. split; [exact EH|exact EC'].
    + apply some_eq in EH. rewrite <- EH. split; reflexivity.
  - exists (filter_units o (im_units (is_a ii))), (filter_units o (im_units (is_b ii))),
      (merged_units o (im_units (is_a ii)) (im_units (is_b ii))). eexists.
    split; [exact (C31_units c o given _ CO)|]. split; [exact (C31_units c o given _ CO)|].
    split; [exact (C45_units_matched c o given _ _ CO)|]. split; [|exact (listed_blocks _ _ _ _ _ _ _ _ _ EU)].
    apply (diff_rows_visited _ (unit_cmp_by o) _ (fun _ => True)); auto.
    + apply unit_by_tp.
    + intros. apply configured_maps in CO. now apply unit_before_iff.
Qed.
Print Assumptions C67_files_compared.

(** The report on two units: the lines for the units, types, functions with code, functions without, and
    variables. *)
Theorem C67_units_compared : forall c o given choose pc fuel ii u v e depth, configured c o given -> consistent pc ->
  o_html o = false -> diff_unit choose o pc fuel ii u v = Some e ->
  exists us ts fs ns vs s uf tf ff nf vf rows,
    compare_docs e (text_start depth) false =
      (write_marked (us ++ ts ++ fs ++ ns ++ vs), s, uf || (tf || (ff || nf || vf))) /\
    (if c_unit (o_category o) then
       exists d s', diff_unit_fields o ii u v = Some d /\
         compare_docs (DTree true (DLine [] (unit_value (is_a ii) u) (unit_value (is_b ii) v)) d) (text_start depth) false =
           (write_marked us, s', uf)
     else us = [] /\ uf = false) /\
    reporting_if (c_type (o_category o)) same_type (type_before (o_sort o)) o ii depth
      (print_type_in o fuel (is_a ii) u) (print_type_in o fuel (is_b ii) v)
      (diff_type choose o fuel (ss_sides (is_scenes ii)) (im_dir (is_a ii) u) (im_dir (is_b ii) v))
      (type_listed o (h_env (im_hash (is_a ii))) true u) (type_listed o (h_env (im_hash (is_b ii))) true v)
      (un_types u) (un_types v) ts tf /\
    (c_function (o_category o) = false -> fs = [] /\ ns = [] /\ ff = false /\ nf = false) /\
    (c_function (o_category o) = true ->
       let shown := blocks depth (print_function_in o fuel (is_a ii) u) (print_function_in o fuel (is_b ii) v)
         (diff_function choose o (is_scenes ii) (im_unit_id (is_a ii) u) fuel (im_dir (is_a ii) u) (im_dir (is_b ii) v)) in
       let visits := visited (function_before pc (o_sort o)) o (im_hash (is_a ii)) (im_hash (is_b ii)) in
       (exists sa sb, selects (function_listed o) (un_functions u) sa /\ selects (function_listed o) (un_functions v) sb /\
          matched same_function sa sb rows) /\
       (exists some out, selects (fun r => ~ row_without_code r) rows some /\ visits some out /\ shown out fs ff) /\
       (exists some out, selects row_without_code rows some /\ visits some out /\ shown out ns nf)) /\
    reporting_if (c_variable (o_category o)) same_variable (variable_before (o_sort o)) o ii depth
      (print_variable_in o (is_a ii) u) (print_variable_in o (is_b ii) v)
      (fun a b => Some (diff_variable o (is_scenes ii) (im_dir (is_a ii) u) (im_dir (is_b ii) v) a b))
      (variable_listed o) (variable_listed o) (un_variables u) (un_variables v) vs vf.
Proof.
  intros c o given choose pc fuel ii u v e n CO PC HT E. unfold diff_unit, diff_unit_body in E. rewrite HT in E.
  apply bind_some in E. destruct E as (body & E & EP). apply some_eq in EP. rewrite <- EP.
  apply bind_some in E. destruct E as (fields & EF & E). apply bind_some in E. destruct E as (types & ET & E).
  apply bind_some in E. destruct E as (fns & EN & E). apply bind_some in E. destruct E as (vars & EV & E).
  apply some_eq in E. rewrite <- E.
  destruct (C45_rows_visited c o given pc (im_hash (is_a ii)) (im_hash (is_b ii)) CO PC) as (_ & VT & VF & VV).
  set (title := if c_unit (o_category o) then _ else _).
  set (rows := merged_functions o pc (im_hash (is_a ii)) u (im_hash (is_b ii)) v) in *.
  destruct (C45_functions_matched o pc (im_hash (is_a ii)) u (im_hash (is_b ii)) v (fst rows) (snd rows) PC
              (surjective_pairing _)) as (all & MA & SW & SO).
  assert (FN : exists x y, fst (report n 0 fns) = (fst (report n 0 x) ++ fst (report n 0 y))%list /\
     snd (report n 0 fns) = snd (report n 0 x) || snd (report n 0 y) /\
     (c_function (o_category o) = false -> x = DNil /\ y = DNil) /\
     (c_function (o_category o) = true -> diff_functions choose o pc fuel ii (fst rows) u v = Some x /\
        diff_functions choose o pc fuel ii (snd rows) u v = Some y)).
  { destruct (c_function (o_category o)).
    - apply bind_some in EN. destruct EN as (x & EX & EN). apply bind_some in EN. destruct EN as (y & EY & EN).
      apply some_eq in EN. rewrite <- EN. exists x, y. cbn [report fst snd]. repeat split; auto; discriminate.
    - apply some_eq in EN. rewrite <- EN. exists DNil, DNil. repeat split; auto; discriminate. }
  destruct FN as (x & y & LF & FF & FO & FI).
  destruct (report_compare (dseq [title; types; fns; vars]) n) as (s & EC).
  exists (fst (report n 0 title)), (fst (report n 0 types)), (fst (report n 0 x)), (fst (report n 0 y)),
    (fst (report n 0 vars)), s, (snd (report n 0 title)), (snd (report n 0 types)), (snd (report n 0 x)),
    (snd (report n 0 y)), (snd (report n 0 vars)), all.
  repeat match goal with |- _ /\ _ => split end.
  - rewrite EC. unfold dseq. cbn [fold_right report fst snd]. rewrite LF, FF. now rewrite app_nil_r, orb_false_r, <- app_assoc.
  - unfold title. destruct (c_unit _); [|split; reflexivity].
    destruct (report_compare (DTree true (DLine [] (unit_value (is_a ii) u) (unit_value (is_b ii) v)) fields) n) as (s' & EC').
    eauto.
  - unfold diff_types in ET. split; intros C; rewrite C in ET.
    + apply some_eq in ET. rewrite <- ET. split; reflexivity.
    + do 4 eexists. split; [apply C31_types|]. split; [apply C31_types|]. split; [apply C45_types_matched|].
      split; [apply VT|exact (listed_blocks _ _ _ _ _ _ _ _ _ ET)].
  - intros C. destruct (FO C) as [-> ->]. repeat split.
  - intros C. destruct (FI C) as [EX EY]. cbv zeta. split; [|split].
    + do 2 eexists. split; [apply C31_functions|]. split; [apply C31_functions|exact MA].
    + do 2 eexists. split; [exact SW|]. split; [apply VF|exact (listed_blocks _ _ _ _ _ _ _ _ _ EX)].
    + do 2 eexists. split; [exact SO|]. split; [apply VF|exact (listed_blocks _ _ _ _ _ _ _ _ _ EY)].
  - unfold diff_variables in EV. split; intros C; rewrite C in EV.
    + apply some_eq in EV. rewrite <- EV. split; reflexivity.
    + do 4 eexists. split; [apply C31_variables|]. split; [apply C31_variables|]. split; [apply C45_variables_matched|].
      split; [apply VV|exact (listed_blocks _ _ _ _ _ _ _ _ _ EV)].
Qed.
Print Assumptions C67_units_compared.

(** ** C68: the lines for files and units *)

(** The path, addresses, sizes and sections of a file; the size of what is neither function nor
    variable is 0 if they overlap. *)
Theorem C68_file_lines : forall o im depth,
  file_function_size (im_file im) + file_variable_size (im_sizes im) (im_file im) < 2 ^ 64 ->
  exists p, print_file_header o im = Some p /\
    fst (show p (text_start depth)) = write_lines (file_lines o im).
Proof.
  intros o im n F. destruct (file_header_printed o im F n) as (p & E & L). exists p. split; [exact E|].
  now rewrite C46_printed, L.
Qed.
Print Assumptions C68_file_lines.

(** The same for two files next to each other, with the change of every number; a difference is
    reported iff a line is not common to both. *)
Theorem C68_files_lines : forall choose o ii depth,
  short_image (is_a ii) -> short_image (is_b ii) -> sizes_fit (is_a ii) -> sizes_fit (is_b ii) ->
  exists e ls s, diff_file_header choose o ii = Some e /\ files_shown o ii ls /\
    compare_docs e (text_start depth) false = (write_marked ls, s, existsb differs ls).
Proof.
  intros choose o ii n SA SB FA FB. destruct (file_headers_shown choose o ii SA SB FA FB n) as (e & E & S).
  destruct (report_compare e n) as (s & EC). exists e, (fst (report n 0 e)), s. split; [exact E|]. split; [exact S|].
  now rewrite EC, (report_marks e (file_header_visible _ _ _ _ E)).
Qed.
Print Assumptions C68_files_lines.

Theorem C68_units_lines : forall o ii u v depth,
  Forall countable [unit_function_size u; unit_function_size v;
    unit_variable_size (im_sizes (is_a ii)) u; unit_variable_size (im_sizes (is_b ii)) v;
    rl_size (unit_unknown_ranges (im_sizes (is_a ii)) u); rl_size (unit_unknown_ranges (im_sizes (is_b ii)) v)] ->
  exists d ls s, diff_unit_fields o ii u v = Some d /\ units_shown o ii u v ls /\
    compare_docs (DTree true (DLine [] (unit_value (is_a ii) u) (unit_value (is_b ii) v)) d) (text_start depth) false =
      (write_marked ls, s, existsb differs ls).
Proof.
  intros o ii u v n C. destruct (unit_fields_shown o ii u v C n) as (d & E & S).
  set (e := DTree true _ d) in *. destruct (report_compare e n) as (s & EC).
  exists d, (fst (report n 0 e)), s. split; [exact E|]. split; [exact S|].
  unfold e in *. rewrite EC, report_marks; [reflexivity|]. split; [exact I|exact (unit_fields_visible _ _ _ _ _ E)].
Qed.
Print Assumptions C68_units_lines.

(** ** C69: parts that are loaded on demand *)

(** The entry of an item, and the id that the item carries. *)
Definition entry_of (o : options) (pc : param_cmp) (fuel : nat) (im : image) (i : item) : option pdoc :=
  match i with
  | ItUnit u => print_unit o pc fuel im u
  | ItType u t => print_type_in o fuel im u t
  | ItFunction u f => print_function_in o fuel im u f
  | ItVariable u v => print_variable_in o im u v
  end.
Definition carried_id (im : image) (i : item) : nat :=
  match i with
  | ItUnit u => im_unit_id im u
  | ItType u t => vw_id (im_view im) t
  | ItFunction u f => sc_function_id (im_scene im) f
  | ItVariable u v => sc_variable_id (im_scene im) v
  end.
(** An entry: a title with an id, and a body. *)
Inductive entry (n : nat) (body : pdoc) : pdoc -> Prop :=
| entry_plain : forall h, entry n body (PId n h body)
| entry_spaced : forall h, entry n body (PSeq (PId n h body) PBreak).
Inductive entry2 (n : nat) (body : ddoc) : ddoc -> Prop :=
| entry2_plain : forall h, entry2 n body (DId n h body)
| entry2_spaced : forall h, entry2 n body (DSeq (DId n h body) DBreak).

Lemma entry_part o pc fuel im i p : o_html o = true -> entry_of o pc fuel im i = Some p ->
  exists b, entry (carried_id im i) b p /\ print_part o pc fuel im None i = Some b.
Proof.
  intros HT E. destruct i as [u|u t|u f|u v]; cbn [entry_of carried_id print_part] in *.
  - unfold print_unit in E. rewrite HT in E. apply bind_some in E. destruct E as (b & EB & E). apply some_eq in E.
    rewrite <- E. exists b. split; [constructor|exact EB].
  - unfold print_type_in, print_type in E. apply bind_some in E. destruct E as (h & _ & E).
    apply bind_some in E. destruct E as (b & EB & E). apply some_eq in E. rewrite <- E. exists b. split; [constructor|exact EB].
  - unfold print_function_in, print_function, print_function_listed in E.
    apply bind_some in E. destruct E as (b & EB & E). apply some_eq in E. rewrite <- E. exists b. split; [constructor|exact EB].
  - unfold print_variable_in, print_variable in E. apply some_eq in E. rewrite <- E. eexists. split; [constructor|reflexivity].
Qed.

(** Every entry of a page carries the id of its item, and what is loaded for that id is the body of
    the entry. *)
Theorem C69_loaded : forall o pc fuel im ids log x i p,
  assign_ids (im_units im) = (ids, log) -> IdSpec.names (im_units im) x i -> carried_id im i = id_of log x ->
  o_html o = true -> entry_of o pc fuel im i = Some p ->
  exists b, entry (id_of log x) b p /\ print_on_demand o pc fuel im ids (id_of log x) None = Some b.
Proof.
  intros o pc fuel im ids log x i p A N C HT E. destruct (entry_part o pc fuel im i p HT E) as (b & EB & PB).
  rewrite C in EB. exists b. split; [exact EB|]. unfold print_on_demand.
  destruct (C23_bijection _ _ _ A) as (X & _). destruct (X x i N) as [_ ->]. exact PB.
Qed.
Print Assumptions C69_loaded.

(** [q] is part of [p]. *)
Inductive within (q : pdoc) : pdoc -> Prop :=
| within_here : within q q
| within_left : forall a b, within q a -> within q (PSeq a b)
| within_right : forall a b, within q b -> within q (PSeq a b).

(** If instructions are requested, the body of a function with addresses has an entry for them, and what is
    loaded for it are the instructions. *)
Theorem C69_code : forall o pc fuel im ids log x u f b,
  assign_ids (im_units im) = (ids, log) -> IdSpec.names (im_units im) x (ItFunction u f) ->
  p_function_instructions (o_print o) = true -> fn_ranges f <> [] ->
  print_on_demand o pc fuel im ids (id_of log x) None = Some b ->
  exists d, within (PDetail (txt "code") (txt "instructions") d) b /\
    print_on_demand o pc fuel im ids (id_of log x) (Some "code") = Some d /\
    print_instructions (im_scene im) f = Some d.
Proof.
  intros o pc fuel im ids log x u f b A N PI R E. unfold print_on_demand in *.
  destruct (C23_bijection _ _ _ A) as (X & _). destruct (X x _ N) as [_ Y]. rewrite Y in *. cbn [bind print_part String.eqb] in *.
  unfold print_function_body in E. rewrite PI in E. destruct (fn_ranges f) as [|r rs] eqn:ER; [contradiction|].
  cbn [is_empty negb andb] in E.
  repeat (apply bind_some in E; destruct E as (? & ? & E)). apply some_eq in E. rewrite <- E.
  match goal with H : bind (print_instructions _ _) _ = Some _ |- _ =>
    apply bind_some in H; destruct H as (d & ED & H); apply some_eq in H; rewrite <- H end.
  exists d. cbn. split; [|now rewrite ED]. unfold pseq. cbn [fold_right].
  repeat (first [apply within_left; now apply within_here | apply within_right]).
Qed.
Print Assumptions C69_code.

(** Nothing is loaded for other ids, nor for other details of a function. *)
Theorem C69_unknown : forall o pc fuel im ids log,
  assign_ids (im_units im) = (ids, log) ->
  (forall n detail, (List.length ids <= n)%nat -> print_on_demand o pc fuel im ids n detail = None) /\
  (forall x u f detail, IdSpec.names (im_units im) x (ItFunction u f) -> detail <> "code" ->
     print_on_demand o pc fuel im ids (id_of log x) (Some detail) = None).
Proof.
  intros o pc fuel im ids log A. destruct (C23_bijection _ _ _ A) as (X & _ & Y & _). split.
  - intros n detail L. unfold print_on_demand. now rewrite (Y n L).
  - intros x u f detail N D. unfold print_on_demand. destruct (X x _ N) as [_ ->]. cbn [bind print_part].
    now rewrite (proj2 (String.eqb_neq detail "code") D).
Qed.
Print Assumptions C69_unknown.

(** The entry of a row of a comparison. *)
Definition entry_of_two (choose : list N -> list N -> list (list N) -> nat -> nat) (o : options) (pc : param_cmp)
    (fuel : nat) (ii : images) (i j : item) : option ddoc :=
  match i, j with
  | ItUnit u, ItUnit v => diff_unit choose o pc fuel ii u v
  | ItType u a, ItType v b =>
      diff_type choose o fuel (ss_sides (is_scenes ii)) (im_dir (is_a ii) u) (im_dir (is_b ii) v) a b
  | ItFunction u a, ItFunction v b =>
      diff_function choose o (is_scenes ii) (im_unit_id (is_a ii) u) fuel (im_dir (is_a ii) u) (im_dir (is_b ii) v) a b
  | ItVariable u a, ItVariable v b =>
      Some (diff_variable o (is_scenes ii) (im_dir (is_a ii) u) (im_dir (is_b ii) v) a b)
  | _, _ => None
  end.
Definition unit_or_type (i : item) : Prop := match i with ItUnit _ | ItType _ _ => True | _ => False end.

(** The same for the rows of a comparison: an entry of one file is loaded from that file, and
    compared units and types are compared again.  (Compared variables are not loaded on
    demand; for functions see below.) *)
Theorem C69_compared : forall c o given choose pc fuel ii ha hb n x y, configured c o given ->
  let fa := im_units (is_a ii) in
  let fb := im_units (is_b ii) in
  let s := assign_merged_ids o pc ha fa hb fb in
  o_html o = true -> nth_error (ms_ids s) n = Some (x, y) ->
  (forall i, IdSpec.names fa x i -> y = IdNone -> carried_id (is_a ii) i = id_of (ms_a s) x ->
     forall p, entry_of o pc fuel (is_a ii) i = Some p ->
     exists b, entry n b p /\ diff_on_demand choose o pc fuel ii (ms_ids s) n = Some (Printed b)) /\
  (forall j, x = IdNone -> IdSpec.names fb y j -> carried_id (is_b ii) j = id_of (ms_b s) y ->
     forall p, entry_of o pc fuel (is_b ii) j = Some p ->
     exists b, entry n b p /\ diff_on_demand choose o pc fuel ii (ms_ids s) n = Some (Printed b)) /\
  (forall i j, IdSpec.names fa x i -> IdSpec.names fb y j -> unit_or_type i -> carried_id (is_a ii) i = id_of (ms_a s) x ->
     forall d, entry_of_two choose o pc fuel ii i j = Some d ->
     exists b, entry2 n b d /\ diff_on_demand choose o pc fuel ii (ms_ids s) n = Some (Compared b)).
Proof.
  intros c o given choose pc fuel ii ha hb n x y CO fa fb s HT N.
  pose proof (C24_rows c o given pc ha fa hb fb n x y CO) as R. cbv zeta in R. fold s in R. specialize (R N).
  assert (NN : forall us i, ~ IdSpec.names us IdNone i) by (intros us i H; inversion H).
  assert (FUN : forall us z i j, IdSpec.names us z i -> IdSpec.names us z j -> i = j).
  { intros us z i j H1 H2. apply names_iff in H1, H2. congruence. }
  unfold diff_on_demand. fold fa fb. repeat match goal with |- _ /\ _ => split end.
  - intros i NI -> CI p E. destruct R as [(i' & j' & _ & NJ & _)|[(i' & NI' & _ & ID & T)|(j' & _ & NJ & _)]];
      [now apply NN in NJ| |now apply NN in NJ].
    rewrite (FUN _ _ _ _ NI NI') in *. destruct (entry_part o pc fuel (is_a ii) i' p HT E) as (b & EB & PB).
    rewrite CI, ID in EB. exists b. split; [exact EB|]. rewrite T. cbn [diff_part]. now rewrite PB.
  - intros j -> NJ CJ p E. destruct R as [(i' & j' & NI & _)|[(i' & NI & _)|(j' & _ & NJ' & ID & T)]];
      [now apply NN in NI|now apply NN in NI|].
    rewrite (FUN _ _ _ _ NJ NJ') in *. destruct (entry_part o pc fuel (is_b ii) j' p HT E) as (b & EB & PB).
    rewrite CJ, ID in EB. exists b. split; [exact EB|]. rewrite T. cbn [diff_part]. now rewrite PB.
  - intros i j NI NJ UT CI d E. destruct R as [(i' & j' & NI' & NJ' & SI & ID & _ & T)|[(i' & _ & -> & _)|(j' & -> & _)]];
      [|now apply NN in NJ|now apply NN in NI].
    rewrite <- (FUN _ _ _ _ NI NI'), <- (FUN _ _ _ _ NJ NJ') in *. rewrite T. rewrite ID in CI.
    destruct SI; cbn [unit_or_type] in UT; try contradiction; cbn [entry_of_two carried_id diff_part] in *.
    + unfold diff_unit in E. rewrite HT in E. apply bind_some in E. destruct E as (body & EB & E). apply some_eq in E.
      rewrite <- E, CI, EB. exists body. split; [constructor|reflexivity].
    + unfold diff_type in E. apply bind_some in E. destruct E as (h & _ & E). apply bind_some in E. destruct E as (body & EB & E).
      apply some_eq in E. rewrite <- E, EB. exists body. unfold im_view in CI. cbn [ss_sides is_scenes sd_a ss_a] in *. rewrite CI.
      split; [constructor|reflexivity].
Qed.
Print Assumptions C69_compared.

(** ** Examples *)

(** A file: a unit with a type, a function with code and one without, and a variable; [size] and [place] are
    the size of the function and the address of the variable. *)
Local Definition sample_types : list type := [mkType 1 (TBase (mkBase (Some "int") 4))].
Local Definition sample_env : type_env := fun off => find (fun t => t_offset t =? off) sample_types.
Local Definition sample_size (t : type) : option N :=
  match byte_size 9 sample_env t with TypeModel.Done s => s | NoFuel => None end.
Local Definition sample_view : view :=
  mkView (mkHash sample_env sample_size "a.out")
    (fun t => match type_ref sample_env (fun _ => O) (fun _ => []) 9 t with Some v => v | None => VNil end)
    (fun _ => 1%nat) (fun _ => no_source) (fun _ => EncSigned) (fun _ => EndDefault) (fun _ => []).
Local Definition sample_cmp (a b : type) : comparison :=
  match cmp_id false 2 sample_env a sample_env b with Ord c => c | _ => Eq end.
Local Definition lowest (l1 l2 : list N) (m : list (list N)) (n : nat) : nat := O.

Local Definition sized_function (size : N) : func :=
  mkFunc 20 None (Some "f") None None 4096 size [mkRange 4096 (4096 + size)] false false.
Local Definition inline_function : func := mkFunc 30 None (Some "g") None None u64_max u64_max [] true false.
Local Definition placed_variable (place : N) : var := mkVar 40 None (Some "v") None None 1 place u64_max false.
Local Definition sample_scene : scene :=
  mkScene sample_view (fun _ => None) (fun _ => None) (fun _ => None) (fun _ => None)
    (fun f => if fn_offset f =? 20 then 2%nat else 3%nat) (fun v => 4%nat) (fun f => if fn_offset f =? 20 then u64_max else 1)
    (fun _ => mkSource None (Some "a.c") 1 2) (fun _ => no_source)
    (fun f => mkDetails [] [] [] []) None.
Local Definition sample_unit (size place : N) : unit :=
  mkUnit (Some "a.c") [mkRange 4096 (4112 + size)] sample_types [sized_function size; inline_function]
    [placed_variable place].
Local Definition sample_image (size place : N) : image :=
  mkImage sample_scene "prog" [sample_unit size place]
    [mkNamed (Some ".text") None (mkSection (Some 4096) 64 )] (fun _ => Some "/src") (fun _ => Some 4096) (fun _ => O).
Local Definition sample_cli : cli := ex_cli None None ["source"; "file-address"; "unit-address"] [] None [] [].
Local Definition sample_options : options :=
  match parse_options sample_cli with Some o => o | None => mkOptions (mkPrintOpts false false false false false false false false false) 0 false false
    (mkCategoryOpts false false false false false) (mkFilterOpts None None [] None) SortNone
    (mkIgnoreOpts false false false false false false false false false false) [] end.

Local Lemma sample_configured : configured sample_cli sample_options [].
Proof. split; [reflexivity|constructor]. Qed.
Local Lemma ex_pc_consistent : consistent ex_pc.
Proof. exact (cmp_on_tp (fun x : hash * func => List.length (fn_ranges (snd x))) Nat.compare Nat_compare_tp). Qed.
Local Lemma short_small {A} (l : list A) : (List.length l <=? 9)%nat = true -> short l.
Proof. intros E. apply Nat.leb_le in E. unfold short. lia. Qed.
Local Lemma sample_found off t : from_offset sample_env off = Some t -> In t (void_type :: sample_types).
Proof.
  intros F. unfold from_offset in F. destruct (_ =? _) in F; [left; congruence|]. right.
  unfold sample_env in F. apply List.find_some in F. tauto.
Qed.
Local Lemma sample_bounded t : bounded 2 sample_env t.
Proof.
  intros off u _ F. apply sample_found in F. destruct F as [<-|[<-|[]]]; intros off' u' R; inversion R.
Qed.
Local Lemma sample_acyclic : acyclic_view sample_view.
Proof. intros off t _. exact (bounded_acyclic 2 _ _ (sample_bounded t)). Qed.
Local Lemma sample_compares : compares_types (mkSides sample_view sample_view sample_cmp).
Proof.
  intros a b c H. cbn [sd_cmp]. unfold sample_cmp.
  assert (B : bounded 2 sample_env a \/ bounded 2 sample_env b) by (left; apply sample_bounded).
  rewrite (cmp_id_spec 2 _ _ _ _ B). symmetry. exact (proj1 (compares_iff (sample_env, a) (sample_env, b) c 2 B) H).
Qed.
Local Lemma sample_short size place : short_image (sample_image size place).
Proof.
  assert (F : forall f, short_function sample_scene f).
  { intros f. split.
    - unfold short_details. cbn. repeat split; try constructor; try (now apply short_small).
    - intros l E. vm_compute in E. injection E as <-. now apply short_small. }
  split; [|split].
  - split; [|intros t; now apply short_small]. intros off t H. apply sample_found in H. destruct H as [<-|[<-|[]]]; exact I.
  - now apply short_small.
  - constructor; [|constructor]. split.
    + constructor; [exact I|constructor].
    + repeat constructor; apply F.
Qed.

Local Definition two_files : images := mkImages (sample_image 8 12288) (sample_image 12 12288) sample_cmp.
Local Definition one_file_twice : images := mkImages (sample_image 8 12288) (sample_image 8 12288) sample_cmp.
Local Definition printed_sample : pdoc := Eval vm_compute in
  match print_file sample_options ex_pc 3 (sample_image 8 12288) with Some p => p | None => PNil end.
Local Definition printed_other : pdoc := Eval vm_compute in
  match print_file sample_options ex_pc 3 (sample_image 12 12288) with Some p => p | None => PNil end.
Local Definition compared_self : ddoc := Eval vm_compute in
  match diff_file lowest sample_options ex_pc 3 one_file_twice with Some e => e | None => DNil end.
Local Definition compared_two : ddoc := Eval vm_compute in
  match diff_file lowest sample_options ex_pc 3 two_files with Some e => e | None => DNil end.
Local Definition header_lines : list line :=
  [Line 0 (txt "file prog"); Line 1 (txt "addresses:"); Line 2 (txt "0x1000-0x1017 (24)");
   Line 2 (txt "0x3000-0x3003 (4)"); Line 1 (txt "size: 28"); Line 1 (txt "fn size: 8"); Line 1 (txt "var size: 4");
   Line 1 (txt "other size: 16"); Line 1 (txt "sections:"); Line 2 (txt ".text");
   Line 3 (txt "address: 0x1000-0x103f"); Line 3 (txt "size: 64"); Blank].

Example C65_example :
  short_image (sample_image 8 12288) /\ acyclic_view (im_view (sample_image 8 12288)) /\
  compares_types (mkSides (im_view (sample_image 8 12288)) (im_view (sample_image 8 12288)) sample_cmp) /\
  o_html sample_options = false /\
  print_file sample_options ex_pc 3 (sample_image 8 12288) = Some printed_sample /\
  diff_file lowest sample_options ex_pc 3 one_file_twice = Some compared_self /\
  report 1 0 compared_self = (with_mark Same header_lines, false).
Proof.
  split; [apply sample_short|]. split; [exact sample_acyclic|]. split; [exact sample_compares|].
  split; [reflexivity|]. split; [vm_compute; reflexivity|]. split; vm_compute; reflexivity.
Qed.

Example C66_example :
  heeds_all sample_options /\ configured sample_cli sample_options [] /\
  (forall u v, In u (im_units (is_a two_files)) -> In v (im_units (is_b two_files)) -> same_unit [] u v ->
     units_alike sample_options two_files u v) /\
  short_image (is_a two_files) /\ short_image (is_b two_files) /\
  print_file sample_options ex_pc 3 (is_a two_files) = Some printed_sample /\
  print_file sample_options ex_pc 3 (is_b two_files) = Some printed_other /\
  diff_file lowest sample_options ex_pc 3 two_files = Some compared_two /\
  snd (compare_docs compared_two (text_start 1) false) = true.
Proof.
  split; [repeat split|]. split; [exact sample_configured|]. split.
  { intros u v [<-|[]] [<-|[]] _. repeat split.
    - intros x y [<-|[]] [<-|[]] _. cbn. auto.
    - intros (L1 & L2). cbn in *. destruct H as [<-|[<-|[]]], H0 as [<-|[<-|[]]]; cbn in *; lia.
    - intros (L1 & L2). cbn in *. destruct H as [<-|[<-|[]]], H0 as [<-|[<-|[]]]; cbn in *; lia.
    - constructor.
    - constructor.
    - constructor.
    - constructor.
    - constructor.
    - constructor. }
  split; [apply sample_short|]. split; [apply sample_short|].
  split; [vm_compute; reflexivity|]. split; [vm_compute; reflexivity|]. split; vm_compute; reflexivity.
Qed.

Example C67_example :
  configured sample_cli sample_options [] /\ consistent ex_pc /\
  lines 1 0 printed_sample = (header_lines ++
    [Line 0 (txt "unit /src/a.c"); Line 1 (txt "addresses:"); Line 2 (txt "0x1000-0x1007 (8)");
     Line 2 (txt "0x3000-0x3003 (4)"); Line 1 (txt "unknown addresses:"); Line 2 (txt "0x1008-0x1017 (16)");
     Line 1 (txt "fn size: 8"); Line 1 (txt "var size: 4"); Line 1 (txt "unknown size: 16"); Blank] ++
    [Line 0 (txt "base int"); Line 1 (txt "size: 4"); Line 1 (txt "encoding: signed"); Blank] ++
    [Line 0 (txt "fn g"); Line 1 (txt "source: a.c:1:2"); Line 1 (txt "inline: yes"); Line 1 (txt "return type:");
     Line 2 (txt "[4]" ++ [9] ++ txt "int"); Blank;
     Line 0 (txt "fn f"); Line 1 (txt "source: a.c:1:2"); Line 1 (txt "address: 0x1000-0x1007"); Line 1 (txt "size: 8");
     Blank] ++
    [Line 0 (txt "var v: int"); Line 1 (txt "address: 0x3000"); Line 1 (txt "size: 4"); Blank])%list /\
  report 1 0 compared_two = (
    [(Same, Line 0 (txt "file prog")); (Same, Line 1 (txt "addresses:")); (Old, Line 2 (txt "0x1000-0x1017 (24)"));
     (New, Line 2 (txt "0x1000-0x101b (28)")); (Same, Line 2 (txt "0x3000-0x3003 (4)"));
     (Old, Line 1 (txt "size: 28")); (New, Line 1 (txt "size: 32 (+4)"));
     (Old, Line 1 (txt "fn size: 8")); (New, Line 1 (txt "fn size: 12 (+4)"));
     (Same, Line 1 (txt "var size: 4")); (Same, Line 1 (txt "other size: 16"));
     (Same, Line 1 (txt "sections:")); (Same, Line 2 (txt ".text"));
     (Same, Line 3 (txt "address: 0x1000-0x103f")); (Same, Line 3 (txt "size: 64")); (Same, Blank)] ++
    [(Same, Line 0 (txt "unit /src/a.c")); (Same, Line 1 (txt "addresses:")); (Old, Line 2 (txt "0x1000-0x1007 (8)"));
     (New, Line 2 (txt "0x1000-0x100b (12)")); (Same, Line 2 (txt "0x3000-0x3003 (4)"));
     (Same, Line 1 (txt "unknown addresses:")); (Old, Line 2 (txt "0x1008-0x1017 (16)"));
     (New, Line 2 (txt "0x100c-0x101b (16)"));
     (Old, Line 1 (txt "fn size: 8")); (New, Line 1 (txt "fn size: 12 (+4)"));
     (Same, Line 1 (txt "var size: 4")); (Same, Line 1 (txt "unknown size: 16")); (Same, Blank)] ++
    [(Same, Line 0 (txt "fn f")); (Same, Line 1 (txt "source: a.c:1:2"));
     (Old, Line 1 (txt "address: 0x1000-0x1007")); (New, Line 1 (txt "address: 0x1000-0x100b"));
     (Old, Line 1 (txt "size: 8")); (New, Line 1 (txt "size: 12")); (Same, Blank)], true)%list.
Proof.
  split; [exact sample_configured|]. split; [exact ex_pc_consistent|]. split; vm_compute; reflexivity.
Qed.

Local Definition variable_options : options :=
  match parse_options (ex_cli None (Some ["variable"]) [] [] None [] []) with Some o => o | None => sample_options end.
Local Definition bare_image (units : list unit) : image :=
  mkImage sample_scene "prog" units [] (fun _ => None) (fun _ => None) (fun _ => O).
(** A difference can be reported without any output: for a unit in one of the files, if neither
    units nor anything in it is shown. *)
Theorem C67_invisible_refuted : exists c o choose pc fuel ii e s,
  configured c o [] /\ diff_file choose o pc fuel ii = Some e /\
  compare_docs e (text_start 0) false = ([], s, true).
Proof.
  exists (ex_cli None (Some ["variable"]) [] [] None [] []), variable_options, lowest, ex_pc, 3%nat,
    (mkImages (bare_image [mkUnit None [] [] [] []]) (bare_image []) sample_cmp),
    (DSeq DNil (DSeq (DDelete (PSeq PNil (PSeq PNil (PSeq PNil (PSeq PNil PNil))))) DNil)). eexists.
  split; [split; [reflexivity|constructor]|]. split; vm_compute; reflexivity.
Qed.
Print Assumptions C67_invisible_refuted.

Example C68_example :
  sizes_fit (is_a two_files) /\ sizes_fit (is_b two_files) /\
  file_lines sample_options (sample_image 8 12288) = header_lines /\
  Forall countable [unit_function_size (sample_unit 8 12288); unit_function_size (sample_unit 12 12288);
    unit_variable_size (im_sizes (is_a two_files)) (sample_unit 8 12288);
    unit_variable_size (im_sizes (is_b two_files)) (sample_unit 12 12288);
    rl_size (unit_unknown_ranges (im_sizes (is_a two_files)) (sample_unit 8 12288));
    rl_size (unit_unknown_ranges (im_sizes (is_b two_files)) (sample_unit 12 12288))].
Proof.
  assert (X : forall n, (n <? 2 ^ 63) = true -> countable n) by (intros n; apply N.ltb_lt).
  repeat match goal with
  | |- _ /\ _ => split
  | |- Forall _ _ => constructor
  | |- countable _ => apply X; vm_compute; reflexivity
  | |- sizes_fit _ => unfold sizes_fit; cbv zeta
  end; try (vm_compute; reflexivity). all: vm_compute; discriminate.
Qed.

(** If functions and variables overlap, the size of the rest is a huge number in a comparison, where it is 0 for
    one file. *)
Theorem C68_other_size_refuted : exists choose o im cmp p e,
  print_file_header o im = Some p /\ In (Line 1 (txt "other size: 0")) (lines 0 0 p) /\
  diff_file_header choose o (mkImages im im cmp) = Some e /\
  In (Same, Line 1 (txt "other size: 18446744073709551612")) (diff_lines 0 0 e).
Proof.
  exists lowest, sample_options,
    (bare_image [mkUnit None [] [] [sized_function 4] [placed_variable 4096]]),
    sample_cmp. do 2 eexists.
  split; [vm_compute; reflexivity|]. split; [vm_compute; tauto|]. split; [vm_compute; reflexivity|]. vm_compute; tauto.
Qed.
Print Assumptions C68_other_size_refuted.

(** A number that is larger by 2^63 or more is said to be smaller. *)
Theorem C68_change_refuted : exists a b,
  se_size (ns_section a) < se_size (ns_section b) < 2 ^ 64 /\
  In (New, Line 1 (txt "size: 9223372036854775808 (-9223372036854775808)")) (diff_lines 0 0 (diff_section a b)).
Proof.
  exists (mkNamed None None (mkSection None 0)), (mkNamed None None (mkSection None (2 ^ 63))).
  split; [split; reflexivity|]. vm_compute. tauto.
Qed.
Print Assumptions C68_change_refuted.

Local Definition page_options : options :=
  match parse_options (ex_cli (Some "html") None ["all"] [] None [] []) with Some o => o | None => sample_options end.
Example C69_example :
  let im := sample_image 8 12288 in
  let ids := fst (assign_ids (im_units im)) in
  let log := snd (assign_ids (im_units im)) in
  o_html page_options = true /\
  Forall (fun x => exists i, IdSpec.names (im_units im) x i /\ carried_id im i = id_of log x)
    [IdUnit 0; IdType 0 0; IdFunction 0 0; IdFunction 0 1; IdVariable 0 0] /\
  map (fun n => option_map (fun p => List.length (lines 1 0 p)) (print_on_demand page_options ex_pc 3 im ids n None))
    [0; 1; 2; 3; 4; 5]%nat = [Some 32; Some 2; Some 3; Some 4; Some 2; None]%nat /\
  p_function_instructions (o_print page_options) = true /\
  print_on_demand page_options ex_pc 3 im ids 2 (Some "code") = Some PNil /\
  print_on_demand page_options ex_pc 3 im ids 2 (Some "data") = None.
Proof.
  cbv zeta. split; [vm_compute; reflexivity|]. split.
  { repeat constructor; (eexists; split; [econstructor; reflexivity|vm_compute; reflexivity]). }
  repeat split; vm_compute; reflexivity.
Qed.

(** The entry of a compared function carries the id of its unit, so that what is loaded is the unit. *)
Theorem C69_function_refuted : exists c o given choose pc fuel ii ha hb n x y i j d m b,
  let s := assign_merged_ids o pc ha (im_units (is_a ii)) hb (im_units (is_b ii)) in
  configured c o given /\ o_html o = true /\ nth_error (ms_ids s) n = Some (x, y) /\
  IdSpec.names (im_units (is_a ii)) x i /\ IdSpec.names (im_units (is_b ii)) y j /\ carried_id (is_a ii) i = id_of (ms_a s) x /\
  entry_of_two choose o pc fuel ii i j = Some d /\ entry2 m b d /\ m <> n /\
  diff_on_demand choose o pc fuel ii (ms_ids s) m <> Some (Compared b).
Proof.
  exists (ex_cli (Some "html") None ["all"] [] None [] []), page_options, [], lowest, ex_pc, 3%nat, two_files,
    (im_hash (is_a two_files)), (im_hash (is_b two_files)).
  set (u := sample_unit 8 12288). set (v := sample_unit 12 12288).
  exists 2%nat, (IdFunction 0 0), (IdFunction 0 0), (ItFunction u (sized_function 8)), (ItFunction v (sized_function 12)).
  do 3 eexists. cbv zeta.
  split; [split; [reflexivity|constructor]|]. split; [reflexivity|]. split; [vm_compute; reflexivity|].
  split; [econstructor; reflexivity|]. split; [econstructor; reflexivity|]. split; [vm_compute; reflexivity|].
  split; [vm_compute; reflexivity|]. split; [apply entry2_spaced|]. split; [discriminate|].
  vm_compute. discriminate.
Qed.
Print Assumptions C69_function_refuted.
