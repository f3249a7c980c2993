(** What the command line, the filters and the listings should mean; independent of
    the algorithms in OptionsModel.v and FilterModel.v. *)
From Coq Require Import List Arith NArith Bool String Ascii Permutation Sorted.
From Verif Require Import Base NamespaceModel NamespaceSpec TypeModel FileModel DiffModel DiffSpec
  OptionsModel FilterModel.
Import ListNotations.
Local Open Scope string_scope.

(** ** Strings *)

Definition has_prefix (p s : string) : Prop := exists r, s = p ++ r.
Definition has_char (c : ascii) (s : string) : Prop := exists a b, s = a ++ String c b.

(** [v] is [key], an equals sign, and [value]; the key has no equals sign. *)
Definition key_value (v key value : string) : Prop :=
  v = key ++ String "=" value /\ ~ has_char "=" key.

(** ** Path prefixes *)

(** [name] reads as [prefix] (the replacement) followed by [rest] (what is kept):
    the longest old prefix counts, and of equal ones the one given first. *)
Inductive rewrites (given : list (string * string)) (name : string) : string -> string -> Prop :=
| rw_none : (forall p, In p given -> ~ has_prefix (fst p) name) -> rewrites given name "" name
| rw_some : forall before old new after rest,
    given = (before ++ (old, new) :: after)%list -> name = old ++ rest ->
    (forall p, In p given -> has_prefix (fst p) name -> String.length (fst p) <= String.length old) ->
    (forall p, In p before -> fst p <> old) ->
    rewrites given name new rest.

(** The part before the first [@], or all. *)
Inductive cut_at : string -> string -> Prop :=
| cut_none : forall s, ~ has_char "@" s -> cut_at s s
| cut_some : forall s r, ~ has_char "@" s -> cut_at (s ++ String "@" r) s.

Definition name_or_empty (n : option string) : string := match n with Some s => s | None => "" end.

(** The path under which a unit is filtered, and the one under which it is sorted and
    matched with units of another file. *)
Definition filter_path (given : list (string * string)) (u : unit) (path : string) : Prop :=
  exists new rest, rewrites given (name_or_empty (un_name u)) new rest /\ path = new ++ rest.
Definition match_path (given : list (string * string)) (u : unit) (path : string) : Prop :=
  exists new rest kept, rewrites given (name_or_empty (un_name u)) new rest /\
    cut_at rest kept /\ path = new ++ kept.

(** ** Filters *)

Definition name_matches (filter name : option string) : Prop :=
  forall s, filter = Some s -> name = Some s.
Definition namespace_matches (filter : list string) (ns : option namespace) : Prop :=
  filter = [] \/
  exists n l r, ns = Some n /\ path_of n l /\ l = (map Some filter ++ r)%list.
Definition inline_matches (filter : option bool) (inline : bool) : Prop :=
  forall b, filter = Some b -> inline = b.

Definition unit_listed (given : list (string * string)) (o : options) (u : unit) : Prop :=
  forall f, f_unit (o_filter o) = Some f -> filter_path given u f.

(** A function that is in the code or was inlined. *)
Definition function_listed (o : options) (f : func) : Prop :=
  (fn_inline f = true \/ (opt64_get (fn_address f) <> None /\ opt64_get (fn_size f) <> None)) /\
  name_matches (f_name (o_filter o)) (fn_name f) /\
  namespace_matches (f_namespace (o_filter o)) (fn_namespace f) /\
  inline_matches (f_function_inline (o_filter o)) (fn_inline f).

Definition variable_listed (o : options) (v : var) : Prop :=
  (va_declaration v = true \/ opt64_get (va_address v) <> None) /\
  name_matches (f_name (o_filter o)) (va_name v) /\
  namespace_matches (f_namespace (o_filter o)) (va_namespace v).

(** The kinds of types that are listed, in order, with their namespace and name. *)
Inductive listable : type -> nat -> option namespace -> option string -> Prop :=
| ls_base : forall o x, listable (mkType o (TBase x)) 1 None (b_name x)
| ls_def : forall o x, listable (mkType o (TDef x)) 2 (d_namespace x) (d_name x)
| ls_struct : forall o x, listable (mkType o (TStruct x)) 3 (s_namespace x) (s_name x)
| ls_union : forall o x, listable (mkType o (TUnion x)) 4 (u_namespace x) (u_name x)
| ls_enum : forall o x, listable (mkType o (TEnum x)) 5 (e_namespace x) (e_name x).

(** Inside an unnamed type, through types only. *)
Inductive in_unnamed_type : namespace -> Prop :=
| iut_here : forall p, in_unnamed_type (Ns p None KType)
| iut_up : forall p n, in_unnamed_type p -> in_unnamed_type (Ns (Some p) n KType).
Inductive anonymous : type -> Prop :=
| an_struct : forall o x,
    s_name x = None \/ (exists n, s_namespace x = Some n /\ in_unnamed_type n) ->
    anonymous (mkType o (TStruct x))
| an_union : forall o x,
    u_name x = None \/ (exists n, u_namespace x = Some n /\ in_unnamed_type n) ->
    anonymous (mkType o (TUnion x)).

(** A member that is shown together with the definition of its type. *)
Definition inline_member (h : type_env) (m : member) : Prop :=
  m_name m = None \/
  (exists r, m_name m = Some ("RUST$ENCODED$ENUM$" ++ r)) \/
  (exists t, m_ty m <> u64_max /\ h (m_ty m) = Some t /\ anonymous t).

Inductive member_of : type -> member -> Prop :=
| mo_struct : forall o x m, In m (s_members x) -> member_of (mkType o (TStruct x)) m
| mo_union : forall o x m, In m (u_members x) -> member_of (mkType o (TUnion x)) m.

(** Types of the unit shown inside another type, by offset. *)
Definition shown_inside (h : type_env) (u : unit) (off : type_offset) : Prop :=
  exists t, In t (un_types u) /\
    ((anonymous t /\ off = t_offset t) \/
     (exists m, member_of t m /\ inline_member h m /\ off = m_ty m)).

(** A type of [u] that is listed; a comparison ([diff]) leaves out closures. *)
Definition type_listed (o : options) (h : type_env) (diff : bool) (u : unit) (t : type) : Prop :=
  t_offset t <> u64_max /\ ~ shown_inside h u (t_offset t) /\
  exists rank ns name, listable t rank ns name /\
    name_matches (f_name (o_filter o)) name /\
    namespace_matches (f_namespace (o_filter o)) ns /\
    (diff = true -> rank = 3 -> name <> Some "closure").

(** [l'] is [l] without the elements that do not satisfy [P]. *)
Inductive selects {A} (P : A -> Prop) : list A -> list A -> Prop :=
| sel_nil : selects P [] []
| sel_keep : forall x l l', P x -> selects P l l' -> selects P (x :: l) (x :: l')
| sel_drop : forall x l l', ~ P x -> selects P l l' -> selects P (x :: l) l'.

(** ** Orders *)

Definition opt_lt (x y : option N) : Prop :=
  match x, y with
  | None, Some _ => True
  | Some a, Some b => (a < b)%N
  | _, None => False
  end.

(** The identity of items: namespace path and name, after the kind for types. *)
Definition function_identity (f : func) (i : list (option string) * option string) : Prop :=
  path_opt (fn_namespace f) (fst i) /\ snd i = fn_name f.
Definition variable_identity (v : var) (i : list (option string) * option string) : Prop :=
  path_opt (va_namespace v) (fst i) /\ snd i = va_name v.
Definition type_identity (t : type) (k : nat) (i : list (option string) * option string) : Prop :=
  exists ns, listable t k ns (snd i) /\ path_opt ns (fst i).

Definition same_unit (given : list (string * string)) (a b : unit) : Prop :=
  exists p, match_path given a p /\ match_path given b p.
Definition same_type (a b : type) : Prop :=
  exists k i, type_identity a k i /\ type_identity b k i.
Definition same_function (a b : func) : Prop :=
  exists i, function_identity a i /\ function_identity b i.
Definition same_variable (a b : var) : Prop :=
  exists i, variable_identity a i /\ variable_identity b i.

Definition unit_before (given : list (string * string)) (key : sort_key) (ha : hash) (a : unit)
    (hb : hash) (b : unit) : Prop :=
  match key with
  | SortNone => False
  | SortName => exists p q, match_path given a p /\ match_path given b q /\ string_lt p q
  | SortSize => (unit_size (h_sizes ha) a < unit_size (h_sizes hb) b)%N
  end.
Definition type_before (key : sort_key) (ha : hash) (a : type) (hb : hash) (b : type) : Prop :=
  match key with
  | SortNone => (t_offset a < t_offset b)%N
  | SortName => exists k i l j, type_identity a k i /\ type_identity b l j /\
                  (k < l \/ (k = l /\ item_lt i j))
  | SortSize => opt_lt (h_size ha a) (h_size hb b)
  end.
(** Functions with the same name come in the order [pc] of their parameters. *)
Definition function_before (pc : param_cmp) (key : sort_key) (ha : hash) (a : func) (hb : hash)
    (b : func) : Prop :=
  match key with
  | SortNone => opt_lt (opt64_get (fn_address a)) (opt64_get (fn_address b))
  | SortName =>
      (exists i j, function_identity a i /\ function_identity b j /\ item_lt i j) \/
      (same_function a b /\ pc ha a hb b = Lt)
  | SortSize => opt_lt (opt64_get (fn_size a)) (opt64_get (fn_size b))
  end.
Definition variable_before (key : sort_key) (ha : hash) (a : var) (hb : hash) (b : var) : Prop :=
  match key with
  | SortNone => opt_lt (opt64_get (va_address a)) (opt64_get (va_address b))
  | SortName => exists i j, variable_identity a i /\ variable_identity b j /\ item_lt i j
  | SortSize => opt_lt (var_byte_size (h_sizes ha) a) (var_byte_size (h_sizes hb) b)
  end.

(** [p] is [l] in the order [lt]; ties keep the order they have in [l]. *)
Definition ordered {A} (lt : A -> A -> Prop) (l p : list A) : Prop :=
  Permutation p l /\ StronglySorted (fun x y => ~ lt y x) p /\
  forall f : A -> bool,
    (forall x y, In x l -> In y l -> f x = true -> f y = true -> ~ lt x y) ->
    filter f p = filter f l.

(** ** Comparing two files *)

(** Every item of both sides is in one row; rows with two items pair the same
    thing; and nothing is reported as both removed and added. *)
Definition matched {A B} (same : A -> B -> Prop) (la : list A) (lb : list B)
    (rows : list (merge_result A B)) : Prop :=
  Permutation (lefts rows) la /\ Permutation (rights rows) lb /\
  (forall x y, In (MBoth x y) rows -> same x y) /\
  (forall x y, In (MLeft x) rows -> In (MRight y) rows -> ~ same x y).

(** The item that decides the place of a row: the new one if there is one. *)
Inductive row_item {A} (ha hb : hash) : merge_result A A -> hash -> A -> Prop :=
| ri_both : forall x y, row_item ha hb (MBoth x y) hb y
| ri_right : forall y, row_item ha hb (MRight y) hb y
| ri_left : forall x, row_item ha hb (MLeft x) ha x.
Definition row_before {A} (before : hash -> A -> hash -> A -> Prop) (ha hb : hash)
    (r s : merge_result A A) : Prop :=
  exists h x k y, row_item ha hb r h x /\ row_item ha hb s k y /\ before h x k y.

(** Rows that the options do not suppress. *)
Definition row_wanted {A} (o : options) (r : merge_result A A) : Prop :=
  match r with
  | MBoth _ _ => True
  | MLeft _ => i_deleted (o_ignore o) = false
  | MRight _ => i_added (o_ignore o) = false
  end.

(** A row about a function with no code of its own on some side. *)
Definition row_without_code (r : merge_result func func) : Prop :=
  exists f, opt64_get (fn_size f) = None /\
    (r = MLeft f \/ r = MRight f \/ (exists g, r = MBoth f g) \/ (exists g, r = MBoth g f)).

(** ** The command line *)

(** The value given last for one of the keys. *)
Definition last_given (keys values : list string) (x : string) : Prop :=
  exists before v after k, values = (before ++ v :: after)%list /\ key_value v k x /\ In k keys /\
    forall w k' y, In w after -> key_value w k' y -> ~ In k' keys.
Definition never_given (keys values : list string) : Prop :=
  forall w k y, In w values -> key_value w k y -> ~ In k keys.

(** [l] are the components of [s] between double colons, read from the left. *)
Definition has_colons (s : string) : Prop := exists a b, s = a ++ "::" ++ b.
Definition ends_with_colon (s : string) : Prop := exists a, s = a ++ ":".
Inductive components : list string -> string -> Prop :=
| cp_one : forall s, ~ has_colons s -> components [s] s
| cp_more : forall s l r, ~ has_colons s -> ~ ends_with_colon s -> components l r ->
    components (s :: l) (s ++ "::" ++ r).

(** Decimal numbers. *)
Definition digit (c : ascii) : Prop := (48 <= N_of_ascii c <= 57)%N.
Fixpoint decimal (l : list ascii) : N :=
  match l with
  | [] => 0
  | c :: l' => (N_of_ascii c - 48) * 10 ^ N.of_nat (List.length l') + decimal l'
  end%N.
Definition numeral (s : string) (n : N) : Prop :=
  exists sign l, s = sign ++ string_of_list_ascii l /\ (sign = "" \/ sign = "+") /\ l <> [] /\
    Forall digit l /\ n = decimal l.

(** The words that each option accepts. *)
Definition category_words := ["file"; "unit"; "type"; "function"; "variable"].
Definition print_words :=
  ["all"; "address"; "source"; "file-address"; "unit-address"; "function-calls";
   "function-instructions"; "function-variables"; "function-stack-frame";
   "inlined-function-parameters"; "variable-locations"].
Definition ignore_words :=
  ["added"; "deleted"; "address"; "linkage-name"; "symbol-name"; "function-address";
   "function-size"; "function-inline"; "function-symbol-name"; "variable-address";
   "variable-symbol-name"].
Definition filter_accepted (v : string) : Prop :=
  exists k x, key_value v k x /\
    ((In k ["inline"; "function-inline"] /\ In x ["y"; "yes"; "n"; "no"]) \/
     In k ["name"; "namespace"; "unit"]).
Definition prefix_accepted (v : string) : Prop := exists old new, key_value v old new.
Definition cli_accepted (c : cli) : Prop :=
  (forall v, cl_output c = Some v -> In v ["text"; "html"; "http"]) /\
  (forall v, cl_inline_depth c = Some v -> exists n, numeral v n /\ (n <= u64_max)%N) /\
  (forall vs v, cl_category c = Some vs -> In v vs -> In v category_words) /\
  (forall v, In v (cl_print c) -> In v print_words) /\
  (forall v, In v (cl_filter c) -> filter_accepted v) /\
  (forall v, cl_sort c = Some v -> In v ["name"; "size"]) /\
  (forall v, In v (cl_ignore c) -> In v ignore_words) /\
  (forall v, In v (cl_prefix_map c) -> prefix_accepted v).

(** [o] are the options for the command line [c], whose path mappings are [given]. *)
Definition configured (c : cli) (o : options) (given : list (string * string)) : Prop :=
  parse_options c = Some o /\
  Forall2 (fun v p => key_value v (fst p) (snd p)) (cl_prefix_map c) given.

(** A category is wanted if named, or if none is named. *)
Definition category_wanted (c : cli) (word : string) : Prop :=
  cl_category c = None \/ exists vs, cl_category c = Some vs /\ In word vs.
