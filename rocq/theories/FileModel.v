(** Model of /repo/parser/src/file/mod.rs: loading a file ([parse_object] from the
    point where the object reader has delivered its lists), [normalize], address
    attribution, [segment_bytes] and [FileHash]; and of /repo/parser/src/unit.rs.

    Left out of the records: ids, source positions, parameter and return types,
    [dir], [language], [low_pc]; none of the functions below reads them.
    [bs] stands for [hash]: [bs off] is what
    [Type::from_offset(hash, off).and_then(|t| t.byte_size(hash))] answers. *)
From Coq Require Import List Arith NArith Bool String.
From Verif Require Import Base RangeModel NamespaceModel TypeModel LayoutModel.
Import ListNotations.
Local Open Scope N_scope.

(** parser/src/function.rs:57-73, [Function]. *)
Record func := mkFunc {
  fn_offset : N; fn_namespace : option namespace; fn_name : option string;
  fn_linkage_name : option string; fn_symbol_name : option string;
  fn_address : opt64; fn_size : opt64; fn_ranges : list range;
  fn_inline : bool; fn_declaration : bool }.

(** parser/src/variable.rs:45-58, [Variable]. *)
Record var := mkVar {
  va_offset : N; va_namespace : option namespace; va_name : option string;
  va_linkage_name : option string; va_symbol_name : option string;
  va_ty : type_offset; va_address : opt64; va_size : opt64; va_declaration : bool }.

(** parser/src/unit.rs:12-22, [Unit]. *)
Record unit := mkUnit {
  un_name : option string; un_ranges : range_list; un_types : list type;
  un_functions : list func; un_variables : list var }.

(** file/mod.rs:739-745, [SymbolKind], and 748-754, [Symbol]. *)
Inductive symbol_kind := SymVariable | SymFunction.
Record symbol := mkSymbol {
  sy_name : option string; sy_kind : symbol_kind; sy_address : N; sy_size : N }.

(** file/mod.rs:695-701, [Segment], and 704-710, [Section] (names left out). *)
Record segment := mkSegment { sg_address : N; sg_bytes : list N }.
Record section := mkSection { se_address : option N; se_size : N }.

(** file/mod.rs:173-182, [File]: the parts used here. *)
Record file := mkFile {
  fl_segments : list segment; fl_sections : list section;
  fl_symbols : list symbol; fl_units : list unit }.

(** ** What [parse_object] keeps of the object reader's lists *)

(** file/mod.rs:263-282: a section is kept unless its size is 0, and has no address
    if that is 0.  The pair is ([section.address()], [section.size()]). *)
Definition parse_sections (l : list (N * N)) : list section :=
  map (fun p => mkSection (if fst p =? 0 then None else Some (fst p)) (snd p))
    (filter (fun p => negb (snd p =? 0)) l).

(** [object::SymbolKind], as far as file/mod.rs:300-304 distinguishes it. *)
Inductive object_symbol_kind := OText | OData | OUnknown | OOther.
Record object_symbol := mkObjectSymbol {
  os_name : string; os_kind : object_symbol_kind; os_address : N; os_size : N }.

(** file/mod.rs:285-315: the loop over [object.symbols()]. *)
Definition parse_symbol (o : object_symbol) : option symbol :=
  if os_address o =? 0 then None
  else if os_size o =? 0 then None
  else match os_kind o with
       | OText => Some (mkSymbol (Some (os_name o)) SymFunction (os_address o) (os_size o))
       | OData | OUnknown =>
           Some (mkSymbol (Some (os_name o)) SymVariable (os_address o) (os_size o))
       | OOther => None
       end.
Fixpoint parse_symbols (l : list object_symbol) : list symbol :=
  match l with
  | [] => []
  | o :: l' => match parse_symbol o with
               | Some s => s :: parse_symbols l'
               | None => parse_symbols l'
               end
  end.

(** ** Sizes and ranges *)

(** variable.rs:129-135, [Variable::byte_size]. *)
Definition var_byte_size (bs : type_sizes) (v : var) : option N :=
  if opt64_is_some (va_size v) then opt64_get (va_size v) else bs (va_ty v).

(** variable.rs:138-152, [Variable::range]. *)
Definition var_range (bs : type_sizes) (v : var) : option range :=
  match opt64_get (va_address v), var_byte_size bs v with
  | Some b, Some size => if size =? 0 then None else Some (mkRange b (add64 b size))
  | _, _ => None
  end.

(** The ranges that [Unit::ranges] pushes for variables (unit.rs:70-74). *)
Definition opt_list {A} (o : option A) : list A := match o with Some x => [x] | None => [] end.
Definition var_ranges (bs : type_sizes) (vs : list var) : list range :=
  flat_map (fun v => opt_list (var_range bs v)) vs.

(** unit.rs:63-77, [Unit::ranges]. *)
Definition unit_ranges (bs : type_sizes) (u : unit) : range_list :=
  rl_sort (push_all (push_all [] (flat_map fn_ranges (un_functions u)))
             (var_ranges bs (un_variables u))).

(** unit.rs:81-88, [Unit::unknown_ranges]. *)
Definition unit_unknown_ranges (bs : type_sizes) (u : unit) : range_list :=
  subtract (rl_sort (push_all [] (un_ranges u))) (unit_ranges bs u).

(** unit.rs:97-106 and 109-118 and 91-94, [Unit::function_size], [variable_size]
    and [size]. *)
Definition unit_function_size (u : unit) : N :=
  rl_size (rl_sort (push_all [] (flat_map fn_ranges (un_functions u)))).
Definition unit_variable_size (bs : type_sizes) (u : unit) : N :=
  rl_size (rl_sort (push_all [] (var_ranges bs (un_variables u)))).
Definition unit_size (bs : type_sizes) (u : unit) : N :=
  add64 (unit_function_size u) (unit_variable_size bs u).

(** file/mod.rs:541-553, [File::ranges]. *)
Definition file_ranges (bs : type_sizes) (units : list unit) : range_list :=
  rl_sort (fold_left (fun rs u => push_all (push_all rs (unit_ranges bs u))
                                    (unit_unknown_ranges bs u)) units []).

(** file/mod.rs:724-729, [Section::address]. *)
Definition section_address (s : section) : option range :=
  option_map (fun a => mkRange a (add64 a (se_size s))) (se_address s).
Definition section_ranges (l : list section) : list range :=
  flat_map (fun s => opt_list (section_address s)) l.

(** file/mod.rs:557-570, [File::unknown_ranges]. *)
Definition file_unknown_ranges (bs : type_sizes) (f : file) : range_list :=
  subtract (rl_sort (push_all [] (section_ranges (fl_sections f)))) (file_ranges bs (fl_units f)).

(** file/mod.rs:573-588, [File::function_size] and [File::variable_size]. *)
Definition file_function_size (f : file) : N :=
  fold_left (fun size u => add64 size (unit_function_size u)) (fl_units f) 0.
Definition file_variable_size (bs : type_sizes) (f : file) : N :=
  fold_left (fun size u => add64 size (unit_variable_size bs u)) (fl_units f) 0.

(** ** Symbols *)

(** [slice::binary_search_by] (std): on a sorted slice with several matches "any
    one of the matches could be returned".  [choice] stands for that freedom. *)
Definition matching_indices (symbols : list symbol) (address : N) : list nat :=
  filter (fun i => match nth_error symbols i with
                   | Some s => sy_address s =? address
                   | None => false
                   end) (seq 0 (List.length symbols)).
Definition binary_search (choice : N -> nat) (symbols : list symbol) (address : N) : option nat :=
  match matching_indices symbols address with
  | [] => None
  | i :: l => nth_error (i :: l) (choice address mod List.length (i :: l))
  end.

(** file/mod.rs:460-462: the [while] loop. *)
Fixpoint walk_back (symbols : list symbol) (address : N) (index : nat) : nat :=
  match index with
  | O => O
  | S i => match nth_error symbols i with
           | Some s => if sy_address s =? address then walk_back symbols address i else index
           | None => index
           end
  end.

Definition opt_string_eqb (x y : option string) : bool :=
  match x, y with
  | Some a, Some b => String.eqb a b
  | None, None => true
  | _, _ => false
  end.

(** file/mod.rs:464-475: the [for] loop; returns the updated slice of used flags
    and [found]. *)
Fixpoint mark_symbols (symbols : list symbol) (used : list bool) (address : N)
    (name : option string) (found : bool) : list bool * bool :=
  match symbols, used with
  | s :: symbols', u :: used' =>
      if negb (sy_address s =? address) then (used, found)
      else
        let found' := if opt_string_eqb (sy_name s) name then true else found in
        let '(used'', f) := mark_symbols symbols' used' address name found' in
        (true :: used'', f)
  | _, _ => (used, found)
  end.

(** file/mod.rs:453-480, [File::get_symbol]. *)
Definition get_symbol (choice : N -> nat) (symbols : list symbol) (used : list bool)
    (address : N) (name : option string) : option symbol * list bool :=
  match binary_search choice symbols address with
  | Some i =>
      let index := walk_back symbols address i in
      let '(tail, found) :=
        mark_symbols (skipn index symbols) (skipn index used) address name false in
      (if found then None else nth_error symbols index, firstn index used ++ tail)
  | None => (None, used)
  end.

Definition or_else {A} (x y : option A) : option A := match x with Some _ => x | None => y end.

Definition set_fn_symbol (f : func) (s : option string) : func :=
  mkFunc (fn_offset f) (fn_namespace f) (fn_name f) (fn_linkage_name f) s (fn_address f)
    (fn_size f) (fn_ranges f) (fn_inline f) (fn_declaration f).
Definition set_va_symbol (v : var) (s : option string) : var :=
  mkVar (va_offset v) (va_namespace v) (va_name v) (va_linkage_name v) s (va_ty v)
    (va_address v) (va_size v) (va_declaration v).

(** file/mod.rs:363-380: one round of the loop over [unit.functions]. *)
Definition symbolize_function (choice : N -> nat) (symbols : list symbol)
    (used : list bool) (f : func) : func * list bool :=
  match opt64_get (fn_address f) with
  | None => (f, used)
  | Some address =>
      let '(s, used1) :=
        get_symbol choice symbols used address (or_else (fn_linkage_name f) (fn_name f)) in
      let f' := match s with Some sym => set_fn_symbol f (sy_name sym) | None => f end in
      let used2 :=
        fold_left (fun us r => snd (get_symbol choice symbols us (rbegin r) None))
          (tl (fn_ranges f)) used1 in
      (f', used2)
  end.

(** file/mod.rs:383-394: one round of the loop over [unit.variables]. *)
Definition symbolize_variable (choice : N -> nat) (symbols : list symbol)
    (used : list bool) (v : var) : var * list bool :=
  match opt64_get (va_address v) with
  | None => (v, used)
  | Some address =>
      let '(s, used1) :=
        get_symbol choice symbols used address (or_else (va_linkage_name v) (va_name v)) in
      (match s with Some sym => set_va_symbol v (sy_name sym) | None => v end, used1)
  end.

(** A [for] loop that updates the elements of a list in place while threading the
    used flags. *)
Fixpoint map_used {A} (step : list bool -> A -> A * list bool) (used : list bool) (l : list A)
  : list A * list bool :=
  match l with
  | [] => ([], used)
  | x :: l' =>
      let '(x', used1) := step used x in
      let '(l'', used2) := map_used step used1 l' in
      (x' :: l'', used2)
  end.

(** file/mod.rs:362-395: one round of the loop over [self.units]. *)
Definition symbolize_unit (choice : N -> nat) (symbols : list symbol)
    (used : list bool) (u : unit) : unit * list bool :=
  let '(fs, used1) := map_used (symbolize_function choice symbols) used (un_functions u) in
  let '(vs, used2) := map_used (symbolize_variable choice symbols) used1 (un_variables u) in
  (mkUnit (un_name u) (un_ranges u) (un_types u) fs vs, used2).

(** The range of a symbol (file/mod.rs:406-409, 423-426). *)
Definition symbol_range (s : symbol) : range :=
  mkRange (sy_address s) (add64 (sy_address s) (sy_size s)).

(** file/mod.rs:412-418 and 420-436: the variable or function made from a symbol;
    [..Default::default()] gives the absent offsets and types. *)
Definition symbol_variable (s : symbol) : var :=
  mkVar u64_max None (sy_name s) (sy_name s) None type_offset_none
    (sy_address s) (sy_size s) false.
Definition symbol_function (s : symbol) : func :=
  mkFunc u64_max None (sy_name s) (sy_name s) None (sy_address s) (sy_size s)
    (if 0 <? sy_size s then [symbol_range s] else []) false false.

(** file/mod.rs:398-441: the [<symtab>] unit. *)
Fixpoint symtab_loop (symbols : list symbol) (used : list bool) (u : unit) : unit :=
  match symbols, used with
  | s :: symbols', b :: used' =>
      if b then symtab_loop symbols' used' u
      else
        let rs := push (un_ranges u) (symbol_range s) in
        symtab_loop symbols' used'
          (match sy_kind s with
           | SymVariable =>
               mkUnit (un_name u) rs (un_types u) (un_functions u)
                 (un_variables u ++ [symbol_variable s])
           | SymFunction =>
               mkUnit (un_name u) rs (un_types u) (un_functions u ++ [symbol_function s])
                 (un_variables u)
           end)
  | _, _ => u
  end.
Definition symtab_unit (symbols : list symbol) (used : list bool) : unit :=
  let u := symtab_loop symbols used (mkUnit (Some "<symtab>"%string) [] [] [] []) in
  mkUnit (un_name u) (rl_sort (un_ranges u)) (un_types u) (un_functions u) (un_variables u).

(** file/mod.rs:444-447: the [<unknown>] unit. *)
Definition unknown_unit (ranges : range_list) : unit :=
  mkUnit (Some "<unknown>"%string) ranges [] [] [].

(** file/mod.rs:357-448, [File::normalize]. *)
Definition sort_symbols (l : list symbol) : list symbol :=
  stable_sort (fun a b => N.compare (sy_address a) (sy_address b)) l.
Definition normalize (choice : N -> nat) (bs : type_sizes) (f : file) : file :=
  let symbols := sort_symbols (fl_symbols f) in
  let '(units, used) :=
    map_used (symbolize_unit choice symbols) (repeat false (List.length symbols)) (fl_units f) in
  let units1 := units ++ [symtab_unit symbols used] in
  let f1 := mkFile (fl_segments f) (fl_sections f) symbols units1 in
  mkFile (fl_segments f) (fl_sections f) symbols
    (units1 ++ [unknown_unit (file_unknown_ranges bs f1)]).

(** ** Segment data *)

(** The result of [segment_bytes]: [None], some bytes, or an out-of-range slice. *)
Inductive bytes_result := BNone | BBytes (l : list N) | BPanic.

(** [bytes[begin..][..len]]. *)
Definition slice_bytes (bytes : list N) (b len : N) : bytes_result :=
  if N.of_nat (List.length bytes) <? b then BPanic
  else
    let rest := skipn (N.to_nat b) bytes in
    if N.of_nat (List.length rest) <? len then BPanic else BBytes (firstn (N.to_nat len) rest).

(** file/mod.rs:495-506, [File::segment_bytes]. *)
Fixpoint segment_bytes (segments : list segment) (r : range) : bytes_result :=
  match segments with
  | [] => BNone
  | s :: l =>
      if (sg_address s <=? rbegin r)
         && (rend r <=? add64 (sg_address s) (N.of_nat (List.length (sg_bytes s))))
      then slice_bytes (sg_bytes s) (sub64 (rbegin r) (sg_address s)) (sub64 (rend r) (rbegin r))
      else segment_bytes l r
  end.

(** ** FileHash *)

(** [HashMap::insert]: the new value replaces an old one with the same key. *)
Definition map_insert {A} (m : N -> option A) (k : N) (x : A) : N -> option A :=
  fun k' => if k' =? k then Some x else m k'.
Definition empty_map {A} : N -> option A := fun _ => None.

(** file/mod.rs:629-641, 643-653, 656-668, 670-680 and 683-691. *)
Definition functions_by_address (units : list unit) : N -> option func :=
  fold_left (fun m u =>
    fold_left (fun m f => match opt64_get (fn_address f) with
                          | Some a => map_insert m a f
                          | None => m
                          end) (un_functions u) m) units empty_map.
Definition functions_by_offset (units : list unit) : N -> option func :=
  fold_left (fun m u =>
    fold_left (fun m f => map_insert m (fn_offset f) f) (un_functions u) m) units empty_map.
Definition variables_by_address (units : list unit) : N -> option var :=
  fold_left (fun m u =>
    fold_left (fun m v => match opt64_get (va_address v) with
                          | Some a => map_insert m a v
                          | None => m
                          end) (un_variables u) m) units empty_map.
Definition variables_by_offset (units : list unit) : N -> option var :=
  fold_left (fun m u =>
    fold_left (fun m v => map_insert m (va_offset v) v) (un_variables u) m) units empty_map.
Definition types_by_offset (units : list unit) : N -> option type :=
  fold_left (fun m u =>
    fold_left (fun m t => map_insert m (t_offset t) t) (un_types u) m) units empty_map.

(** function.rs:89-97, [Function::from_offset]; variable.rs:61-69,
    [Variable::from_offset]. *)
Definition function_from_offset (units : list unit) (off : N) : option func :=
  if off =? u64_max then None else functions_by_offset units off.
Definition variable_from_offset (units : list unit) (off : N) : option var :=
  if off =? u64_max then None else variables_by_offset units off.
