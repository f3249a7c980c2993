(** Specification vocabulary for what is printed, in terms of the values that the attributes of a file have. *)
From Coq Require Import List Arith NArith ZArith Bool String.
From Verif Require Import Base RangeModel NamespaceModel TypeModel LocationModel FileModel FileSpec FilterSpec OptionsModel PrintModel PrintSpec NameModel ReadModel
  RefSpec ItemModel ItemSpec EntrySpec DieModel WholeModel WholeSpec RawModel RawSpec.
Import ListNotations.
Local Open Scope N_scope.

(** ** Attributes *)

(** The only attribute with a number has a value; there is none. *)
Definition gives (code : N) (attrs : list (N * raw_value)) (v : raw_value) : Prop :=
  exists before after, attrs = before ++ (code, v) :: after /\ ~ In code (map fst (before ++ after)).
Definition lacks (code : N) (attrs : list (N * raw_value)) : Prop := ~ In code (map fst attrs).
(** A number that is not negative and not the one reserved for no number. *)
Definition gives_number (code : N) (attrs : list (N * raw_value)) (n : N) : Prop :=
  exists v, gives code attrs v /\ counts v (Z.of_N n) /\ n < u64_max.

(** ** Entries *)

(** Entries outside of functions, with the names of what they are in from the outside in, and whether they are in a type:
    namespaces are 0x39; structures, classes and unions 0x13, 0x02 and 0x17. *)
Inductive placed (rf : raw_file) (u : raw_unit) : bool -> list (option string) -> raw_die -> Prop :=
| pl_top d : In d (rd_children (ru_root u)) -> placed rf u false [] d
| pl_namespace path e n d : placed rf u false path e -> rd_tag e = 0x39 -> named rf u is_name (rd_attrs e) n ->
    In d (rd_children e) -> placed rf u false (path ++ [n]) d
| pl_type b path e n d : placed rf u b path e -> In (rd_tag e) [0x13; 0x02; 0x17] -> named rf u is_name (rd_attrs e) n ->
    In d (rd_children e) -> placed rf u true (path ++ [n]) d.
Definition path_text (path : list (option string)) : text :=
  flat_map (fun n => name_or "<anon>" n ++ txt "::") path.

(** ** How types are written, and their sizes *)

(** Typedefs, structures, classes, unions, enumerations and unspecified types: what is before the name, and what
    instead of it. *)
Definition type_words : list (N * (string * string)) :=
  [(0x16, ("", "<anon-typedef>")); (0x13, ("struct ", "<anon>")); (0x02, ("struct ", "<anon>"));
   (0x17, ("union ", "<anon>")); (0x04, ("enum ", "<anon>")); (0x3b, ("", "<void>"))]%string.
(** Pointers, references, and the other types that modify one. *)
Definition modifier_words : list (N * string) :=
  [(0x0f, "* "); (0x10, "& "); (0x42, "& "); (0x26, "const "); (0x35, "volatile "); (0x37, "restrict ");
   (0x2d, ""); (0x40, ""); (0x47, "")]%string.
Definition with_raw_tag (code : N) (d : raw_die) : list raw_die := filter (fun c => rd_tag c =? code) (rd_children d).
(** The number of elements of a dimension: a count (0x37), or from a lower bound (0x22) to an upper bound (0x2f). *)
Inductive extent (attrs : list (N * raw_value)) : N -> Prop :=
| ex_count n : gives_number 0x37 attrs n -> extent attrs n
| ex_upper n : lacks 0x37 attrs -> lacks 0x22 attrs -> gives_number 0x2f attrs n -> n + 1 < u64_max -> extent attrs (n + 1)
| ex_bounds low high : lacks 0x37 attrs -> gives_number 0x22 attrs low -> gives_number 0x2f attrs high -> low <= high ->
    high - low + 1 < u64_max -> extent attrs (high - low + 1).
Definition extents (d : raw_die) (ns : list N) : Prop :=
  ns <> [] /\ Forall2 (fun c n => extent (rd_attrs c) n) (with_raw_tag 0x21 d) ns.

Section Types.
  Variable rf : raw_file.

  (** The text for the type that an attribute refers to, and for the type that an entry is.  (Subranges are left out.) *)
  Inductive type_text : raw_unit -> N -> list (N * raw_value) -> text -> Prop :=
  | tt_void u code attrs : lacks code attrs -> type_text u code attrs (txt "void")
  | tt_entry u code attrs v x e t : gives code attrs v -> refers rf u v x e -> In e (raw_below x) -> entry_text x e t ->
      type_text u code attrs t
  with entry_text : raw_unit -> raw_die -> text -> Prop :=
  | et_base u d b path n : rd_tag d = 0x24 -> placed rf u b path d -> named rf u is_name (rd_attrs d) n ->
      entry_text u d (name_or "<anon-base-type>" n)
  | et_named u d b path n word default : In (rd_tag d, (word, default)) type_words -> placed rf u b path d ->
      named rf u is_name (rd_attrs d) n -> entry_text u d (txt word ++ path_text path ++ name_or default n)
  | et_modifier u d word t : In (rd_tag d, word) modifier_words -> named rf u is_name (rd_attrs d) None ->
      type_text u 0x49 (rd_attrs d) t -> entry_text u d (txt word ++ t)
  | et_named_modifier u d word n : In (rd_tag d, word) modifier_words -> named rf u is_name (rd_attrs d) (Some n) ->
      entry_text u d (txt n)
  | et_array u d t ns : rd_tag d = 0x01 -> type_text u 0x49 (rd_attrs d) t -> extents d ns ->
      entry_text u d (txt "[" ++ t ++ txt "; " ++ join (txt ", ") (map dec ns) ++ txt "]")
  | et_function u d ps r : rd_tag d = 0x15 -> parameters_text u (with_raw_tag 0x05 d) ps -> result_text u (rd_attrs d) r ->
      entry_text u d (txt "(" ++ join (txt ", ") ps ++ txt ")" ++ r)
  | et_member u d c m : rd_tag d = 0x1f -> type_text u 0x1d (rd_attrs d) c -> type_text u 0x49 (rd_attrs d) m ->
      entry_text u d (c ++ txt "::* " ++ m)
  with parameters_text : raw_unit -> list raw_die -> list text -> Prop :=
  | px_nil u : parameters_text u [] []
  | px_cons u d n t ds ts : named rf u is_name (rd_attrs d) n -> lacks 0x31 (rd_attrs d) -> type_text u 0x49 (rd_attrs d) t ->
      parameters_text u ds ts ->
      parameters_text u (d :: ds) ((match n with Some s => txt s ++ txt ": " | None => [] end ++ t) :: ts)
  with result_text : raw_unit -> list (N * raw_value) -> text -> Prop :=
  | rx_none u attrs : lacks 0x49 attrs -> result_text u attrs []
  | rx_type u attrs v t : gives 0x49 attrs v -> type_text u 0x49 attrs t -> result_text u attrs (txt " -> " ++ t).

  (** Sizes in bytes: as given (0x0b); of pointers and functions that of an address; else from the type that the entry
      refers to. *)
  Inductive type_bytes : raw_unit -> list (N * raw_value) -> N -> Prop :=
  | tb_void u attrs : lacks 0x49 attrs -> type_bytes u attrs 0
  | tb_entry u attrs v x e s : gives 0x49 attrs v -> refers rf u v x e -> In e (raw_below x) -> entry_bytes x e s ->
      type_bytes u attrs s
  with entry_bytes : raw_unit -> raw_die -> N -> Prop :=
  | eb_given u d b path s : In (rd_tag d) [0x24; 0x13; 0x02; 0x17; 0x04] -> placed rf u b path d ->
      gives_number 0x0b (rd_attrs d) s -> entry_bytes u d s
  | eb_typedef u d b path s : rd_tag d = 0x16 -> placed rf u b path d -> type_bytes u (rd_attrs d) s -> entry_bytes u d s
  | eb_enumeration u d b path s : rd_tag d = 0x04 -> placed rf u b path d -> lacks 0x0b (rd_attrs d) ->
      type_bytes u (rd_attrs d) s -> entry_bytes u d s
  | eb_unnamed u d s : In (rd_tag d) [0x01; 0x1f; 0x0f; 0x10; 0x42; 0x26; 0x35; 0x37; 0x2d; 0x40; 0x47] ->
      gives_number 0x0b (rd_attrs d) s -> entry_bytes u d s
  | eb_pointer u d : In (rd_tag d) [0x0f; 0x10; 0x42] -> lacks 0x0b (rd_attrs d) -> ru_address_size u < u64_max -> entry_bytes u d (ru_address_size u)
  | eb_function u d : rd_tag d = 0x15 -> ru_address_size u < u64_max -> entry_bytes u d (ru_address_size u)
  | eb_modified u d s : In (rd_tag d) [0x26; 0x35; 0x37; 0x2d; 0x40; 0x47] -> lacks 0x0b (rd_attrs d) ->
      type_bytes u (rd_attrs d) s -> entry_bytes u d s
  | eb_array u d s ns : rd_tag d = 0x01 -> lacks 0x0b (rd_attrs d) -> type_bytes u (rd_attrs d) s -> extents d ns ->
      s * fold_right N.mul 1 ns < two64 -> entry_bytes u d (s * fold_right N.mul 1 ns).

  (** ** No type is written with itself *)

  (** The entry at the place that a value gives, even if that is given from the start of one unit and lies in another. *)
  Inductive points (u : raw_unit) : raw_value -> raw_unit -> raw_die -> Prop :=
  | pts_unit o x e : In x (rf_units rf) -> In e (raw_below x) -> ud_begin (ru_place u) + o = ud_begin (ru_place x) + rd_offset e ->
      points u (RwUnitRef o) x e
  | pts_info x e : In x (rf_units rf) -> In e (raw_below x) -> points u (RwInfoRef (ud_begin (ru_place x) + rd_offset e)) x e.
  (** An entry of an array, a subrange, a function type, a pointer to a member or a modifier, and an entry that it refers to:
      as its type, as the type that contains the member, or as the type of a parameter. *)
  Inductive leads (u : raw_unit) (d : raw_die) (x : raw_unit) (e : raw_die) : Prop :=
  | lds_own c v : In (rd_tag d) ([0x01; 0x21; 0x15; 0x1f] ++ map fst modifier_words) -> In (c, v) (rd_attrs d) -> In c [0x49; 0x1d] ->
      points u v x e -> leads u d x e
  | lds_parameter p v : rd_tag d = 0x15 -> In p (rd_children d) -> rd_tag p = 0x05 -> In (0x49, v) (rd_attrs p) ->
      points u v x e -> leads u d x e.
  Inductive ends (u : raw_unit) (d : raw_die) : Prop :=
  | ends_intro : (forall x e, leads u d x e -> ends x e) -> ends u d.
  Definition raw_acyclic : Prop := forall u d, In u (rf_units rf) -> In d (raw_below u) -> ends u d.
End Types.

(** ** Functions and variables *)

(** Whether a unit, by the name of its entry, is wanted; and something with a name in a path. *)
Definition raw_unit_wanted (rf : raw_file) (given : list (string * string)) (o : options) (u : raw_unit) : Prop :=
  exists name, named rf u is_name (rd_attrs (ru_root u)) name /\
    unit_listed given o (FileModel.mkUnit name [] [] [] []).
Definition path_matches (filter : list string) (path : list (option string)) : Prop :=
  exists rest, path = map Some filter ++ rest.
Definition raw_wanted (o : options) (path : list (option string)) (name : option string) : Prop :=
  name_matches (f_name (o_filter o)) name /\ path_matches (f_namespace (o_filter o)) path.

(** Where the code of a function starts (0x11) and its size, given as such or by the end (0x12). *)
Inductive code_at (u : raw_unit) (attrs : list (N * raw_value)) : N -> N -> Prop :=
| ca_length v low n : gives 0x11 attrs v -> addresses u v low -> low <> 0 -> gives 0x12 attrs (RwConst (UnsignedData n)) ->
    n <> 0 -> low + n < two64 -> code_at u attrs low n
| ca_end v low w high : gives 0x11 attrs v -> addresses u v low -> low <> 0 -> gives 0x12 attrs w -> addresses u w high ->
    low < high -> high < two64 -> code_at u attrs low (high - low).
Inductive is_declared (attrs : list (N * raw_value)) : bool -> Prop :=
| isd_none : lacks 0x3c attrs -> is_declared attrs false
| isd_flag b : gives 0x3c attrs (RwFlag b) -> is_declared attrs b.
(** Values 1 and 3 are for functions that were inlined. *)
Inductive is_inlined (attrs : list (N * raw_value)) : bool -> Prop :=
| isi_none : lacks 0x20 attrs -> is_inlined attrs false
| isi_no c : gives 0x20 attrs (RwInline c) -> c = 0 \/ c = 2 -> is_inlined attrs false
| isi_yes c : gives 0x20 attrs (RwInline c) -> c = 1 \/ c = 3 -> is_inlined attrs true.
(** Where something is declared. *)
Inductive file_at (rf : raw_file) (u : raw_unit) (attrs : list (N * raw_value)) : option string -> option string -> Prop :=
| fa_none : lacks 0x3a attrs -> file_at rf u attrs None None
| fa_file v path dir p s : gives 0x3a attrs v -> is_file u (0x3a, v) path -> is_file_in u (0x3a, v) dir ->
    says_maybe rf u path p -> says_maybe rf u dir s -> file_at rf u attrs p s.
Inductive number_at (code : N) (attrs : list (N * raw_value)) : N -> Prop :=
| na_none : lacks code attrs -> number_at code attrs 0
| na_number n : gives code attrs (RwConst (UnsignedData n)) -> 0 < n < 2 ^ 32 -> number_at code attrs n.
Inductive source_at (rf : raw_file) (u : raw_unit) (attrs : list (N * raw_value)) : source -> Prop :=
| sa_intro file dir line column : file_at rf u attrs file dir -> number_at 0x3b attrs line -> number_at 0x39 attrs column ->
    source_at rf u attrs (mkSource dir file line column).
(** The type that a function returns, and its parameters, as they are shown. *)
Inductive result_shown (rf : raw_file) (u : raw_unit) (attrs : list (N * raw_value)) : list line -> Prop :=
| rsh_none : lacks 0x49 attrs -> result_shown rf u attrs []
| rsh_type v t s : gives 0x49 attrs v -> type_text rf u 0x49 attrs t -> type_bytes rf u attrs s ->
    result_shown rf u attrs [Line 2 (size_shown (Some s) ++ t)].
Inductive parameter_text (rf : raw_file) (u : raw_unit) (d : raw_die) : text -> Prop :=
| pmt_intro n t s : named rf u is_name (rd_attrs d) n -> lacks 0x31 (rd_attrs d) -> type_text rf u 0x49 (rd_attrs d) t ->
    type_bytes rf u (rd_attrs d) s ->
    parameter_text rf u d (size_shown (Some s) ++ match n with Some x => txt x ++ txt ": " | None => [] end ++ t).
(** Where a variable is: an expression (0x02) that is an address. *)
Inductive address_at (attrs : list (N * raw_value)) : option N -> Prop :=
| aa_none : lacks 0x02 attrs -> address_at attrs None
| aa_address m a ops : gives 0x02 attrs (RwExpression m [(GAddress a, None)] ops) -> a < u64_max -> address_at attrs (Some a).
(** No entry of a structure in a Rust unit is that of a static member. *)
Definition no_raw_statics (u : raw_unit) : Prop :=
  (exists a, last_such is_language (rd_attrs (ru_root u)) a /\ snd a = RwLanguage 0x1c) ->
  forall d, In d (raw_below u) -> rd_tag d = 0x0d -> lacks 0x3c (rd_attrs d).

(** Where the code of a function is: nowhere, at one place or, by a list (0x55), at several. *)
Inductive code_given (u : raw_unit) (attrs : list (N * raw_value)) : option N -> option N -> list range -> Prop :=
| cg_none : lacks 0x55 attrs -> lacks 0x11 attrs -> code_given u attrs None None []
| cg_one low n : lacks 0x55 attrs -> code_at u attrs low n -> code_given u attrs (Some low) (Some n) [mkRange low (low + n)]
| cg_list v l rs size : gives 0x55 attrs v -> lists RwRanges RwRangesIndex (ru_range_offsets u) (ru_ranges u) v l ->
    Forall (fun p => snd p < two64) l -> rs = map (fun p => mkRange (fst p) (snd p)) (filter (fun p => fst p <? snd p) l) ->
    size = fold_right N.add 0 (map (fun r => rend r - rbegin r) rs) -> size < u64_max ->
    code_given u attrs (Some (hd 0 (map rbegin rs))) (Some size) rs.
(** What an entry says itself, else what the one that it refers to says: a name; the text and the size of a type; where it is declared. *)
Definition name_or_else (rf : raw_file) (u : raw_unit) (is : N * raw_value -> Prop) (attrs : list (N * raw_value)) (base n : option string) : Prop :=
  exists own, named rf u is attrs own /\ n = match own with Some _ => own | None => base end.
Inductive type_or_else (rf : raw_file) (u : raw_unit) (attrs : list (N * raw_value)) (t0 : text) (s0 : N) : text -> N -> Prop :=
| toe_base : lacks 0x49 attrs -> type_or_else rf u attrs t0 s0 t0 s0
| toe_own v t s : gives 0x49 attrs v -> type_text rf u 0x49 attrs t -> type_bytes rf u attrs s -> type_or_else rf u attrs t0 s0 t s.
Inductive result_or_else (rf : raw_file) (u : raw_unit) (attrs : list (N * raw_value)) (base : list line) : list line -> Prop :=
| roe_base : lacks 0x49 attrs -> result_or_else rf u attrs base base
| roe_own v ls : gives 0x49 attrs v -> result_shown rf u attrs ls -> result_or_else rf u attrs base ls.
Definition source_or_else (rf : raw_file) (u : raw_unit) (attrs : list (N * raw_value)) (base s : source) : Prop :=
  exists own, source_at rf u attrs own /\ s = match so_file own with Some _ => own | None => base end.

(** Parameters: with the place of the entry that they are from first. *)
Record raw_parameter := mkRawParameter { rp_offset : N; rp_name : option string; rp_type : text; rp_size : N }.
Definition shown_parameter (p : raw_parameter) : text :=
  size_shown (Some (rp_size p)) ++ match rp_name p with Some x => txt x ++ txt ": " | None => [] end ++ rp_type p.
(** Entries of parameters that come after those known: new ones, and ones that refer (0x31) to a known one and may say more of it. *)
Inductive parameters_of (rf : raw_file) (u : raw_unit) : list raw_parameter -> list raw_die -> list raw_parameter -> Prop :=
| po_none ps : parameters_of rf u ps [] ps
| po_new ps d n t s ds qs : lacks 0x31 (rd_attrs d) -> named rf u is_name (rd_attrs d) n -> type_text rf u 0x49 (rd_attrs d) t ->
    type_bytes rf u (rd_attrs d) s -> parameters_of rf u (ps ++ [mkRawParameter (rd_offset d) n t s]) ds qs ->
    parameters_of rf u ps (d :: ds) qs
| po_known ps1 p ps2 d v e n t s ds qs : gives 0x31 (rd_attrs d) v -> refers rf u v u e -> rd_offset e = rp_offset p ->
    Forall (fun q => rp_offset q <> rp_offset p) ps1 ->
    name_or_else rf u is_name (rd_attrs d) (rp_name p) n -> type_or_else rf u (rd_attrs d) (rp_type p) (rp_size p) t s ->
    parameters_of rf u (ps1 ++ mkRawParameter (rp_offset p) n t s :: ps2) ds qs ->
    parameters_of rf u (ps1 ++ p :: ps2) (d :: ds) qs.

(** What the values of the attributes of a function say. *)
Record raw_function := mkRawFunction {
  rn_path : list (option string); rn_name : option string; rn_linkage : option string; rn_dir : option string; rn_source : source;
  rn_address : option N; rn_size : option N; rn_ranges : list range; rn_inline : bool; rn_declared : bool; rn_result : list line;
  rn_parameters : list raw_parameter }.
(** An entry without reference to another, and one that refers to another of the unit: to the one that declares it (0x47), perhaps in a type, or to
    what it is a copy of (0x31).  A copy has the parameters of what it is a copy of; that one is not in turn a copy. *)
Inductive gives_function (rf : raw_file) (u : raw_unit) : raw_die -> raw_function -> Prop :=
| gf_own d b path name linkage dir source address size ranges inline declared result parameters :
    rd_tag d = 0x2e -> placed rf u b path d -> lacks 0x47 (rd_attrs d) -> lacks 0x31 (rd_attrs d) ->
    code_given u (rd_attrs d) address size ranges -> named rf u is_comp_dir (rd_attrs (ru_root u)) dir ->
    named rf u is_name (rd_attrs d) name -> named rf u is_linkage_name (rd_attrs d) linkage ->
    source_at rf u (rd_attrs d) source -> is_inlined (rd_attrs d) inline -> is_declared (rd_attrs d) declared ->
    result_shown rf u (rd_attrs d) result -> parameters_of rf u [] (with_raw_tag 0x05 d) parameters ->
    gives_function rf u d (mkRawFunction path name linkage dir source address size ranges inline declared result parameters)
| gf_refer d b path code v e y name linkage source address size ranges inline declared result parameters :
    rd_tag d = 0x2e -> placed rf u b path d ->
    code = 0x47 /\ lacks 0x31 (rd_attrs d) \/ code = 0x31 /\ lacks 0x47 (rd_attrs d) /\ lacks 0x31 (rd_attrs e) ->
    gives code (rd_attrs d) v -> refers rf u v u e -> gives_function rf u e y ->
    code_given u (rd_attrs d) address size ranges ->
    name_or_else rf u is_name (rd_attrs d) (rn_name y) name -> name_or_else rf u is_linkage_name (rd_attrs d) (rn_linkage y) linkage ->
    source_or_else rf u (rd_attrs d) (rn_source y) source -> is_inlined (rd_attrs d) inline -> is_declared (rd_attrs d) declared ->
    result_or_else rf u (rd_attrs d) (rn_result y) result ->
    parameters_of rf u (if code =? 0x31 then rn_parameters y else []) (with_raw_tag 0x05 d) parameters ->
    gives_function rf u d (mkRawFunction (rn_path y) name linkage (rn_dir y) source address size ranges inline declared result parameters).
Definition raw_function_wanted (o : options) (x : raw_function) : Prop :=
  (rn_inline x = true \/ rn_address x <> None) /\ raw_wanted o (rn_path x) (rn_name x) /\ inline_matches (f_function_inline (o_filter o)) (rn_inline x).
(** The lines for it, up to the parameters; what follows depends on the code. *)
Definition function_lines (rf : raw_file) (o : options) (x : raw_function) (ls : list line) : Prop :=
  exists symbol lines more,
    symbol_shown (parse_symbols (rf_symbols rf)) (opt64_from (rn_address x)) (own_name (rn_linkage x) (rn_name x)) symbol /\
    each (fun p ls => exists places, ls = Line 2 (shown_parameter p) :: places /\ (p_variable_locations (o_print o) = false -> places = []))
      (rn_parameters x) lines /\
    ls = Line 0 (txt "fn " ++ path_text (rn_path x) ++ name_or "<anon>" (rn_name x)) ::
      labelled_line 1 "linkage name" (optional_name (rn_linkage x)) ++ labelled_line 1 "symbol name" (optional_name symbol) ++
      (if p_source (o_print o) then labelled_line 1 "source" (source_text (rn_dir x) (rn_source x)) else []) ++
      ranges_shown 1 (rn_ranges x) ++ match rn_size x with Some n => [Line 1 (txt "size: " ++ dec n)] | None => [] end ++
      labelled_line 1 "inline" (yes (rn_inline x)) ++ labelled_line 1 "declaration" (yes (rn_declared x)) ++
      under 1 "return type" (rn_result x) ++ under 1 "parameters" lines ++ more ++ [Blank].

(** What they say of a variable, and all lines for it. *)
Record raw_variable := mkRawVariable {
  rv_path : list (option string); rv_name : option string; rv_linkage : option string; rv_dir : option string; rv_source : source;
  rv_address : option N; rv_type : text; rv_size : N; rv_declared : bool }.
(** Of a variable outside of types, of one that a type declares (a static member), and of one that refers (0x47) to another of the unit. *)
Inductive gives_variable (rf : raw_file) (u : raw_unit) : raw_die -> raw_variable -> Prop :=
| gv_own d b path name linkage dir source address t s declared :
    rd_tag d = 0x34 /\ b = false /\ lacks 0x47 (rd_attrs d) \/ rd_tag d = 0x0d /\ b = true /\ ~ lacks 0x3c (rd_attrs d) ->
    placed rf u b path d -> named rf u is_comp_dir (rd_attrs (ru_root u)) dir ->
    named rf u is_name (rd_attrs d) name -> named rf u is_linkage_name (rd_attrs d) linkage ->
    source_at rf u (rd_attrs d) source -> address_at (rd_attrs d) address -> is_declared (rd_attrs d) declared ->
    type_text rf u 0x49 (rd_attrs d) t -> type_bytes rf u (rd_attrs d) s ->
    gives_variable rf u d (mkRawVariable path name linkage dir source address t s declared)
| gv_refer d path v e y name linkage source address t s declared :
    rd_tag d = 0x34 -> placed rf u false path d -> gives 0x47 (rd_attrs d) v -> refers rf u v u e -> gives_variable rf u e y ->
    name_or_else rf u is_name (rd_attrs d) (rv_name y) name -> name_or_else rf u is_linkage_name (rd_attrs d) (rv_linkage y) linkage ->
    source_at rf u (rd_attrs d) source -> address_at (rd_attrs d) address -> is_declared (rd_attrs d) declared ->
    type_or_else rf u (rd_attrs d) (rv_type y) (rv_size y) t s ->
    gives_variable rf u d (mkRawVariable (rv_path y) name linkage (rv_dir y) source address t s declared).
Definition raw_variable_wanted (o : options) (x : raw_variable) : Prop :=
  raw_wanted o (rv_path x) (rv_name x) /\ (rv_declared x = true \/ rv_address x <> None).
Definition variable_lines (rf : raw_file) (o : options) (x : raw_variable) (ls : list line) : Prop :=
  exists symbol,
    symbol_shown (parse_symbols (rf_symbols rf)) (opt64_from (rv_address x)) (own_name (rv_linkage x) (rv_name x)) symbol /\
    ls = Line 0 (txt "var " ++ path_text (rv_path x) ++ name_or "<anon>" (rv_name x) ++ txt ": " ++ rv_type x) ::
      labelled_line 1 "linkage name" (optional_name (rv_linkage x)) ++ labelled_line 1 "symbol name" (optional_name symbol) ++
      (if p_source (o_print o) then labelled_line 1 "source" (source_text (rv_dir x) (rv_source x)) else []) ++
      match rv_address x with Some a => [Line 1 (txt "address: 0x" ++ hex a)] | None => [] end ++
      [Line 1 (txt "size: " ++ dec (rv_size x))] ++ labelled_line 1 "declaration" (yes (rv_declared x)) ++ [Blank].
