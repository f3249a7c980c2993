(** C06, C20, C21, C22: what a loaded file says about addresses, symbols, items and
    segment data. *)
From Coq Require Import List Arith NArith Lia Bool String Sorted Permutation.
From Verif Require Import Base RangeModel RangeSpec TypeModel LayoutModel
  FileModel FileSpec SymbolProofs FileProofs.
Import ListNotations.
Local Open Scope N_scope.

(** A file with two functions in one unit, one without debug info, a variable and
    a data symbol nobody claims. *)
Definition demo_fn name addr size ranges :=
  mkFunc 7 None (Some name) None None addr size ranges false false.
Definition demo_var name addr size :=
  mkVar 9 None (Some name) None None type_offset_none addr size false.
Definition demo_unit : unit :=
  mkUnit (Some "a.c"%string) [mkRange 4096 4160] []
    [demo_fn "f"%string 4096 3 [mkRange 4096 4099; mkRange 4300 4310];
     demo_fn "g"%string 4112 16 [mkRange 4112 4128]]
    [demo_var "v"%string 8192 8].
Definition demo_symbols : list symbol :=
  [mkSymbol (Some "hidden"%string) SymFunction 4400 32;
   mkSymbol (Some "g_alias"%string) SymFunction 4112 16;
   mkSymbol (Some "f"%string) SymFunction 4096 3;
   mkSymbol (Some "g_alias2"%string) SymFunction 4112 16;
   mkSymbol (Some "f.cold"%string) SymFunction 4300 10;
   mkSymbol (Some "table"%string) SymVariable 8200 16].
Definition demo_file : file :=
  mkFile [mkSegment 4096 [1; 2; 3; 4; 5; 6]]
    [mkSection (Some 4096) 512; mkSection None 100; mkSection (Some 8192) 64]
    demo_symbols [demo_unit].
Definition demo_sizes : type_sizes := fun _ => Some 0.

Lemma demo_in_bounds : file_in_bounds demo_sizes demo_file.
Proof.
  split; [repeat constructor|]. split; [repeat constructor|].
  intros u [<-|[]]. repeat split; repeat constructor.
Qed.

(** ** C06 *)

(** Every address in a loadable section is covered by the ranges of the loaded
    file. *)
Theorem C06_sections_covered : forall choice bs f a,
  file_in_bounds bs f ->
  covers (section_spans (fl_sections f)) a ->
  covers (file_ranges bs (fl_units (normalize choice bs f))) a.
Proof.
  intros choice bs f a B C. apply sections_covered; [now apply file_in_bounds_ok|].
  rewrite section_ranges_eq; [exact C|apply B].
Qed.
Print Assumptions C06_sections_covered.

(** Asking again for unattributed ranges yields none. *)
Theorem C06_unknown_empty : forall choice bs f,
  file_in_bounds bs f -> file_unknown_ranges bs (normalize choice bs f) = [].
Proof. intros. now apply unknown_again, file_in_bounds_ok. Qed.
Print Assumptions C06_unknown_empty.

(** Each such address belongs to some unit, or is alignment padding between ranges
    of units. *)
Theorem C06_attribution : forall choice bs f a,
  file_in_bounds bs f ->
  covers (section_spans (fl_sections f)) a ->
  attributed bs (fl_units (normalize choice bs f)) a \/
  alignment_padding (reported bs (fl_units (normalize choice bs f))) a.
Proof.
  intros choice bs f a B C. apply attribution; [now apply file_in_bounds_ok|].
  rewrite section_ranges_eq; [exact C|apply B].
Qed.
Print Assumptions C06_attribution.

(** Nothing a unit claims, itself or through its items, is lost from what it
    reports. *)
Theorem C06_unit_reports_its_ranges : forall bs u a,
  Forall in_bounds (un_ranges u) ->
  Forall in_bounds (flat_map fn_ranges (un_functions u)) ->
  Forall in_bounds (var_spans bs (un_variables u)) ->
  covers (un_ranges u) a \/ covers (flat_map fn_ranges (un_functions u)) a \/
  covers (var_spans bs (un_variables u)) a ->
  covers (unit_ranges bs u) a \/ covers (unit_unknown_ranges bs u) a.
Proof.
  intros bs u a A B C H. pose proof (var_ranges_eq _ _ C) as E. rewrite <- E in C, H.
  destruct H as [H|H]; [now apply unit_covers_own; repeat split|].
  apply unit_covers_items; [repeat split; auto|]. apply RangeProofs.covers_app. exact H.
Qed.
Print Assumptions C06_unit_reports_its_ranges.

(** What a unit reports for its items is in a function or variable, or padding
    between them. *)
Theorem C06_unit_ranges_only_items : forall bs u a,
  Forall in_bounds (flat_map fn_ranges (un_functions u)) ->
  Forall in_bounds (var_spans bs (un_variables u)) ->
  covers (unit_ranges bs u) a ->
  let items := flat_map fn_ranges (un_functions u) ++ var_spans bs (un_variables u) in
  covers items a \/ alignment_padding items a.
Proof.
  intros bs u a B C H. cbv zeta. pose proof (var_ranges_eq _ _ C) as E. rewrite <- E in C |- *.
  rewrite unit_ranges_eq in H.
  apply (RangeProofs.ci_upper _ _ (RangeProofs.push_sort_inv _ (proj2 (Forall_app _ _ _) (conj B C)))) in H. exact H.
Qed.
Print Assumptions C06_unit_ranges_only_items.

(** The last unit of a loaded file is the synthetic one, and an address it holds is
    in a section, up to padding, and was not covered by the units before it, up to
    padding between its own ranges. *)
Theorem C06_unknown_unit_sound : forall choice bs f,
  file_in_bounds bs f ->
  exists units unk,
    fl_units (normalize choice bs f) = units ++ [unk] /\
    un_name unk = Some "<unknown>"%string /\
    un_functions unk = [] /\ un_variables unk = [] /\ un_types unk = [] /\
    forall a, covers (un_ranges unk) a ->
      let secs := rl_sort (push_all [] (section_spans (fl_sections f))) in
      kept secs (file_ranges bs units) a \/ kept_padding secs (file_ranges bs units) a.
Proof.
  intros choice bs f B. rewrite normalize_eq. cbn [fl_units]. do 2 eexists.
  split; [reflexivity|]. do 4 (split; [reflexivity|]).
  intros a H. rewrite <- section_ranges_eq by apply B.
  now apply (unknown_only bs f (file_in_bounds_ok _ _ B)).
Qed.
Print Assumptions C06_unknown_unit_sound.

(** Loading does not change the types, so sizes found through them stay the same:
    one [bs] serves before and after. *)
Theorem C06_types_kept : forall choice bs f,
  all_types (fl_units (normalize choice bs f)) = all_types (fl_units f).
Proof. exact types_kept. Qed.
Print Assumptions C06_types_kept.

(** Not every address of a section belongs to a unit: padding between two units'
    ranges belongs to none. *)
Definition padded_file : file :=
  mkFile [] [mkSection (Some 4096) 32] []
    [mkUnit (Some "a.c"%string) [] [] [demo_fn "f"%string 4096 3 [mkRange 4096 4099]] [];
     mkUnit (Some "b.c"%string) [] [] [demo_fn "g"%string 4112 16 [mkRange 4112 4128]] []].
Theorem C06_each_address_in_a_unit_refuted :
  exists choice bs f a,
    file_in_bounds bs f /\ covers (section_spans (fl_sections f)) a /\
    ~ attributed bs (fl_units (normalize choice bs f)) a.
Proof.
  exists (fun _ => O), demo_sizes, padded_file, 4100. split; [|split].
  - split; [repeat constructor|]. split; [repeat constructor|].
    intros u [<-|[<-|[]]]; repeat split; repeat constructor.
  - exists (mkRange 4096 4128). split; [now left|cbn; lia].
  - intros (u & Hu & H).
    assert (E : forallb (fun u => forallb (fun r => negb (range_contains r 4100))
                (unit_ranges demo_sizes u ++ unit_unknown_ranges demo_sizes u))
                (fl_units (normalize (fun _ => O) demo_sizes padded_file)) = true)
      by (vm_compute; reflexivity).
    rewrite forallb_forall in E. specialize (E u Hu). rewrite forallb_forall in E.
    destruct H as [(r & Hr & H)|(r & Hr & H)];
      (assert (I : In r (unit_ranges demo_sizes u ++ unit_unknown_ranges demo_sizes u))
         by (apply in_app_iff; auto));
      specialize (E r I); unfold range_contains in E;
      apply negb_true_iff, andb_false_iff in E as [E|E];
      [apply N.leb_gt in E|apply N.ltb_ge in E|apply N.leb_gt in E|apply N.ltb_ge in E]; lia.
Qed.
Print Assumptions C06_each_address_in_a_unit_refuted.

Example C06_case :
  map un_ranges (fl_units (normalize (fun _ => O) demo_sizes demo_file)) =
  [[mkRange 4096 4160]; [mkRange 4400 4432; mkRange 8200 8216];
   [mkRange 4160 4300; mkRange 4310 4400; mkRange 4432 4608; mkRange 8216 8256]] /\
  file_ranges demo_sizes (fl_units (normalize (fun _ => O) demo_sizes demo_file)) =
  [mkRange 4096 4608; mkRange 8192 8256].
Proof. vm_compute. split; reflexivity. Qed.

(** ** C20 *)

(** Each symbol is at an address known from debug info, or has exactly one entry in
    the [<symtab>] unit, in address order; and that unit has no other entries. *)
Theorem C20_symbols_attributed_once : forall choice bs f,
  Forall symbol_in_bounds (fl_symbols f) -> Forall (fun s => 0 < sy_size s) (fl_symbols f) ->
  exists units claimed unclaimed st unk,
    fl_units (normalize choice bs f) = units ++ [st; unk] /\
    List.length units = List.length (fl_units f) /\
    Permutation (fl_symbols f) (claimed ++ unclaimed) /\
    (forall s, In s claimed -> debug_address (fl_units f) (sy_address s)) /\
    (forall s, In s unclaimed -> ~ debug_address (fl_units f) (sy_address s)) /\
    StronglySorted (fun a b => sy_address a <= sy_address b) unclaimed /\
    symtab_for unclaimed st.
Proof. exact symtab_correct. Qed.
Print Assumptions C20_symbols_attributed_once.

(** Loading changes nothing in the units from debug info but the symbol names, and a
    symbol name is given exactly when symbols exist at the item's address and none
    carries its own name; it is then the first of them in symbol table order. *)
Theorem C20_symbol_names : forall choice bs f,
  exists units st unk,
    fl_units (normalize choice bs f) = units ++ [st; unk] /\
    Forall2 (loaded_unit (fl_symbols f)) (fl_units f) units.
Proof. exact names_correct. Qed.
Print Assumptions C20_symbol_names.

(** The two cases exclude each other, so the name is determined. *)
Theorem C20_given_or_kept_exclusive : forall symbols addr own got,
  given_name symbols addr own got -> ~ keeps_name symbols addr own.
Proof.
  intros symbols addr own got (b & s & a & E & Ha & _ & _ & H) [K|(t & Ht & Hta & Hn)].
  - apply (K s); auto. rewrite E. apply in_app_iff. right. now left.
  - exact (H t Ht Hta Hn).
Qed.
Print Assumptions C20_given_or_kept_exclusive.

(** Of the object file's symbols, exactly those with an address, a size and a code,
    data or unknown kind are considered, in order. *)
Theorem C20_symbols_considered : forall l,
  map (fun s => (sy_name s, sy_address s, sy_size s)) (parse_symbols l) =
  map (fun o => (Some (os_name o), os_address o, os_size o))
    (filter (fun o => negb (os_address o =? 0) && negb (os_size o =? 0) &&
                      match os_kind o with OOther => false | _ => true end) l) /\
  map is_function_symbol (parse_symbols l) =
  map (fun o => match os_kind o with OText => true | _ => false end)
    (filter (fun o => negb (os_address o =? 0) && negb (os_size o =? 0) &&
                      match os_kind o with OOther => false | _ => true end) l) /\
  Forall (fun s => 0 < sy_size s) (parse_symbols l).
Proof.
  induction l as [|o l (IH1 & IH2 & IH3)]; [repeat split; constructor|].
  cbn [parse_symbols filter]. unfold parse_symbol.
  destruct (N.eqb_spec (os_address o) 0); [cbn; auto|].
  destruct (N.eqb_spec (os_size o) 0); [cbn; auto|].
  destruct (os_kind o) eqn:K; cbn [negb andb map]; unfold is_function_symbol at 1;
    rewrite ?K; cbn [sy_name sy_address sy_size sy_kind]; auto;
    (split; [now f_equal|split; [now f_equal|constructor; cbn; auto; lia]]).
Qed.
Print Assumptions C20_symbols_considered.

(** Which of several equal addresses the binary search hits makes no difference. *)
Theorem C20_search_freedom_harmless : forall c1 c2 bs f,
  normalize c1 bs f = normalize c2 bs f.
Proof. exact normalize_choice. Qed.
Print Assumptions C20_search_freedom_harmless.

Example C20_case :
  map (fun u => (un_name u, map (fun f => (fn_name f, fn_symbol_name f)) (un_functions u),
                 map (fun v => (va_name v, va_symbol_name v)) (un_variables u)))
    (fl_units (normalize (fun _ => O) demo_sizes demo_file)) =
  [(Some "a.c", [(Some "f", None); (Some "g", Some "g_alias")], [(Some "v", None)]);
   (Some "<symtab>", [(Some "hidden", None)], [(Some "table", None)]);
   (Some "<unknown>", [], [])]%string.
Proof. vm_compute. reflexivity. Qed.

(** ** C21 *)

(** A lookup by address or offset answers with the last item in file order that has
    the key, and answers nothing only if no item has it. *)
Theorem C21_functions_by_address : forall units k f,
  functions_by_address units k = Some f <->
  last_with (fun f => opt64_get (fn_address f)) k (all_functions units) f.
Proof. intros. rewrite functions_by_address_eq. apply lookup_spec. Qed.
Print Assumptions C21_functions_by_address.

Theorem C21_functions_by_offset : forall units k f,
  functions_by_offset units k = Some f <->
  last_with (fun f => Some (fn_offset f)) k (all_functions units) f.
Proof. intros. rewrite functions_by_offset_eq. apply lookup_spec. Qed.
Print Assumptions C21_functions_by_offset.

Theorem C21_variables_by_address : forall units k v,
  variables_by_address units k = Some v <->
  last_with (fun v => opt64_get (va_address v)) k (all_variables units) v.
Proof. intros. rewrite variables_by_address_eq. apply lookup_spec. Qed.
Print Assumptions C21_variables_by_address.

Theorem C21_variables_by_offset : forall units k v,
  variables_by_offset units k = Some v <->
  last_with (fun v => Some (va_offset v)) k (all_variables units) v.
Proof. intros. rewrite variables_by_offset_eq. apply lookup_spec. Qed.
Print Assumptions C21_variables_by_offset.

Theorem C21_types_by_offset : forall units k t,
  types_by_offset units k = Some t <->
  last_with (fun t => Some (t_offset t)) k (all_types units) t.
Proof. intros. rewrite types_by_offset_eq. apply lookup_spec. Qed.
Print Assumptions C21_types_by_offset.

Theorem C21_absent : forall units k,
  (functions_by_address units k = None <->
     forall f, In f (all_functions units) -> opt64_get (fn_address f) <> Some k) /\
  (functions_by_offset units k = None <->
     forall f, In f (all_functions units) -> fn_offset f <> k) /\
  (variables_by_address units k = None <->
     forall v, In v (all_variables units) -> opt64_get (va_address v) <> Some k) /\
  (variables_by_offset units k = None <->
     forall v, In v (all_variables units) -> va_offset v <> k) /\
  (types_by_offset units k = None <->
     forall t, In t (all_types units) -> t_offset t <> k).
Proof.
  intros units k.
  rewrite functions_by_address_eq, functions_by_offset_eq, variables_by_address_eq,
    variables_by_offset_eq, types_by_offset_eq, !lookup_none.
  repeat split; try tauto; intros H x Hx E; apply (H x Hx);
    cbv beta in *; first [now f_equal | now injection E].
Qed.
Print Assumptions C21_absent.

(** The reserved offset of items without debug info is never found. *)
Theorem C21_no_offset_not_found : forall units,
  function_from_offset units u64_max = None /\ variable_from_offset units u64_max = None.
Proof. split; reflexivity. Qed.
Print Assumptions C21_no_offset_not_found.

Example C21_case :
  let units := fl_units (normalize (fun _ => O) demo_sizes demo_file) in
  option_map fn_name (functions_by_address units 4112) = Some (Some "g"%string) /\
  option_map fn_name (functions_by_offset units 7) = Some (Some "g"%string) /\
  option_map va_name (variables_by_address units 8200) = Some (Some "table"%string) /\
  functions_by_address units 4113 = None.
Proof. vm_compute. auto. Qed.

(** ** C22 *)

(** For a range that is not inverted the answer is: nothing, if no segment holds the
    whole range; else the bytes the first such segment loads there, in order. *)
Theorem C22_segment_bytes : forall segments r,
  Forall segment_fits segments -> rbegin r <= rend r ->
  (segment_bytes segments r = BNone /\ forall s, In s segments -> ~ segment_holds s r) \/
  (exists before s after l, segments = before ++ s :: after /\
     (forall t, In t before -> ~ segment_holds t r) /\ segment_holds s r /\
     segment_bytes segments r = BBytes l /\ bytes_of s r l).
Proof. exact segment_bytes_spec. Qed.
Print Assumptions C22_segment_bytes.

Theorem C22_never_out_of_bounds : forall segments r,
  Forall segment_fits segments -> rbegin r <= rend r -> segment_bytes segments r <> BPanic.
Proof.
  intros segments r F H.
  destruct (segment_bytes_spec segments r F H) as [[E _]|(b & s & a & l & _ & _ & _ & E & _)];
    rewrite E; discriminate.
Qed.
Print Assumptions C22_never_out_of_bounds.

(** An inverted range inside a segment indexes out of bounds. *)
Theorem C22_inverted_range_refuted :
  exists segments r, Forall segment_fits segments /\ segment_bytes segments r = BPanic.
Proof.
  exists [mkSegment 4096 [1; 2; 3]], (mkRange 4098 4097). split; [repeat constructor|].
  vm_compute. reflexivity.
Qed.
Print Assumptions C22_inverted_range_refuted.

Example C22_case :
  segment_bytes (fl_segments demo_file) (mkRange 4098 4101) = BBytes [3; 4; 5] /\
  segment_bytes (fl_segments demo_file) (mkRange 4098 4103) = BNone /\
  segment_bytes (fl_segments demo_file) (mkRange 4102 4102) = BBytes [].
Proof. vm_compute. auto. Qed.
