(** Model of the options: /repo/main/src/lib.rs ([Options] and its methods) and the
    interpretation of the command line in /repo/main/src/main.rs:243-454.

    The argument parser (clap) delivers, for every option, the values given for it,
    already split at commas; [cli] is that.  Ending the process with an error is
    [None]. *)
From Coq Require Import List Arith NArith Bool String Ascii.
From Verif Require Import Base NamespaceModel.
Import ListNotations.

(** main/src/lib.rs:33-38, [Sort]. *)
Inductive sort_key := SortNone | SortName | SortSize.

(** main/src/lib.rs:41-79, [Options], with the flags grouped. *)
Record print_opts := mkPrintOpts {
  p_source : bool; p_file_address : bool; p_unit_address : bool; p_function_calls : bool;
  p_function_instructions : bool; p_function_variables : bool; p_function_stack_frame : bool;
  p_inlined_function_parameters : bool; p_variable_locations : bool }.
Record category_opts := mkCategoryOpts {
  c_file : bool; c_unit : bool; c_type : bool; c_function : bool; c_variable : bool }.
Record filter_opts := mkFilterOpts {
  f_function_inline : option bool; f_name : option string; f_namespace : list string;
  f_unit : option string }.
Record ignore_opts := mkIgnoreOpts {
  i_added : bool; i_deleted : bool; i_function_address : bool; i_function_size : bool;
  i_function_inline : bool; i_function_linkage_name : bool; i_function_symbol_name : bool;
  i_variable_address : bool; i_variable_linkage_name : bool; i_variable_symbol_name : bool }.
Record options := mkOptions {
  o_print : print_opts; o_inline_depth : N; o_html : bool; o_http : bool;
  o_category : category_opts; o_filter : filter_opts; o_sort : sort_key;
  o_ignore : ignore_opts; o_prefix_map : list (string * string) }.

(** main/src/lib.rs:92-94, [Options::filter_function_inline]. *)
Definition filter_function_inline (o : options) (inline : bool) : bool :=
  match f_function_inline (o_filter o) with
  | None => true
  | Some b => Bool.eqb b inline
  end.

(** main/src/lib.rs:96-98, [Options::filter_name]. *)
Definition filter_name (o : options) (name : option string) : bool :=
  match f_name (o_filter o) with
  | None => true
  | Some f => match name with Some n => String.eqb f n | None => false end
  end.

(** main/src/lib.rs:100-107, [Options::filter_namespace]. *)
Definition filter_namespace (o : options) (ns : option namespace) : bool :=
  match f_namespace (o_filter o) with
  | [] => true
  | _ :: _ => match ns with
              | Some n => ns_is_within n (f_namespace (o_filter o))
              | None => false
              end
  end.

(** [str::starts_with] together with the remainder [&name[old.len()..]]. *)
Fixpoint strip_prefix (old name : string) : option string :=
  match old, name with
  | EmptyString, _ => Some name
  | String a old', String b name' => if Ascii.eqb a b then strip_prefix old' name' else None
  | String _ _, EmptyString => None
  end.

(** main/src/lib.rs:109-116, [Options::prefix_map]. *)
Fixpoint prefix_map (pm : list (string * string)) (name : string) : string * string :=
  match pm with
  | [] => (EmptyString, name)
  | (old, new) :: pm' =>
      match strip_prefix old name with
      | Some rest => (new, rest)
      | None => prefix_map pm' name
      end
  end.

(** ** The command line *)

Record cli := mkCli {
  cl_output : option string; cl_inline_depth : option string;
  cl_category : option (list string); cl_print : list string; cl_filter : list string;
  cl_sort : option string; cl_ignore : list string; cl_prefix_map : list string }.

(** [value.bytes().position(|c| c == b'=')] and the two slices around it. *)
Fixpoint split_at_eq (s : string) : option (string * string) :=
  match s with
  | EmptyString => None
  | String c s' =>
      if Ascii.eqb c "="%char then Some (EmptyString, s')
      else match split_at_eq s' with
           | Some (key, value) => Some (String c key, value)
           | None => None
           end
  end.

(** [value.split("::")]: non-overlapping matches, left to right.  [cur] is the
    component read so far. *)
Fixpoint split_colons (cur : string) (s : string) : list string :=
  match s with
  | EmptyString => [cur]
  | String c s' =>
      match s' with
      | String d s'' =>
          if Ascii.eqb c ":"%char && Ascii.eqb d ":"%char
          then cur :: split_colons EmptyString s''
          else split_colons (cur ++ String c EmptyString)%string s'
      | EmptyString => [(cur ++ String c EmptyString)%string]
      end
  end.

(** A loop over values that may end the process. *)
Fixpoint for_values {A} (step : A -> string -> option A) (values : list string) (a : A) : option A :=
  match values with
  | [] => Some a
  | v :: vs => match step a v with Some a' => for_values step vs a' | None => None end
  end.

(** [str::parse::<usize>]: an optional sign [+] and at least one digit, at most
    [usize::MAX]. *)
Fixpoint parse_digits (s : string) (acc : N) : option N :=
  match s with
  | EmptyString => Some acc
  | String c s' =>
      let d := N_of_ascii c in
      if ((48 <=? d) && (d <=? 57))%N then
        let acc' := (acc * 10 + (d - 48))%N in
        if (acc' <=? u64_max)%N then parse_digits s' acc' else None
      else None
  end.
Definition parse_usize (s : string) : option N :=
  let digits := match s with
                | String "+" s' => s'
                | _ => s
                end in
  match digits with EmptyString => None | _ => parse_digits digits 0 end.

(** main.rs:284-309. *)
Definition parse_category (c : category_opts) (value : string) : option category_opts :=
  if String.eqb value "file" then
    Some (mkCategoryOpts true (c_unit c) (c_type c) (c_function c) (c_variable c))
  else if String.eqb value "unit" then
    Some (mkCategoryOpts (c_file c) true (c_type c) (c_function c) (c_variable c))
  else if String.eqb value "type" then
    Some (mkCategoryOpts (c_file c) (c_unit c) true (c_function c) (c_variable c))
  else if String.eqb value "function" then
    Some (mkCategoryOpts (c_file c) (c_unit c) (c_type c) true (c_variable c))
  else if String.eqb value "variable" then
    Some (mkCategoryOpts (c_file c) (c_unit c) (c_type c) (c_function c) true)
  else None.
Definition parse_categories (values : option (list string)) : option category_opts :=
  match values with
  | Some vs => for_values parse_category vs (mkCategoryOpts false false false false false)
  | None => Some (mkCategoryOpts true true true true true)
  end.

(** main.rs:311-349. *)
Definition parse_print (p : print_opts) (value : string) : option print_opts :=
  let 'mkPrintOpts so fa ua fc fi fv fs ip vl := p in
  if String.eqb value "all" then
    Some (mkPrintOpts true true true true true true true true true)
  else if String.eqb value "address" then Some (mkPrintOpts so true true fc fi fv fs ip vl)
  else if String.eqb value "source" then Some (mkPrintOpts true fa ua fc fi fv fs ip vl)
  else if String.eqb value "file-address" then Some (mkPrintOpts so true ua fc fi fv fs ip vl)
  else if String.eqb value "unit-address" then Some (mkPrintOpts so fa true fc fi fv fs ip vl)
  else if String.eqb value "function-calls" then Some (mkPrintOpts so fa ua true fi fv fs ip vl)
  else if String.eqb value "function-instructions" then
    Some (mkPrintOpts so fa ua fc true fv fs ip vl)
  else if String.eqb value "function-variables" then Some (mkPrintOpts so fa ua fc fi true fs ip vl)
  else if String.eqb value "function-stack-frame" then
    Some (mkPrintOpts so fa ua fc fi fv true ip vl)
  else if String.eqb value "inlined-function-parameters" then
    Some (mkPrintOpts so fa ua fc fi fv fs true vl)
  else if String.eqb value "variable-locations" then Some (mkPrintOpts so fa ua fc fi fv fs ip true)
  else None.

(** main.rs:351-391. *)
Definition parse_filter (f : filter_opts) (arg : string) : option filter_opts :=
  match split_at_eq arg with
  | None => None
  | Some (key, value) =>
      if String.eqb key "inline" || String.eqb key "function-inline" then
        if String.eqb value "y" || String.eqb value "yes" then
          Some (mkFilterOpts (Some true) (f_name f) (f_namespace f) (f_unit f))
        else if String.eqb value "n" || String.eqb value "no" then
          Some (mkFilterOpts (Some false) (f_name f) (f_namespace f) (f_unit f))
        else None
      else if String.eqb key "name" then
        Some (mkFilterOpts (f_function_inline f) (Some value) (f_namespace f) (f_unit f))
      else if String.eqb key "namespace" then
        Some (mkFilterOpts (f_function_inline f) (f_name f) (split_colons EmptyString value)
                (f_unit f))
      else if String.eqb key "unit" then
        Some (mkFilterOpts (f_function_inline f) (f_name f) (f_namespace f) (Some value))
      else None
  end.

(** main.rs:393-404. *)
Definition parse_sort (value : option string) : option sort_key :=
  match value with
  | None => Some SortNone
  | Some v =>
      if String.eqb v "name" then Some SortName
      else if String.eqb v "size" then Some SortSize else None
  end.

(** main.rs:406-437. *)
Definition parse_ignore (i : ignore_opts) (value : string) : option ignore_opts :=
  let 'mkIgnoreOpts ad de fa fs fi fl fy va vl vy := i in
  if String.eqb value "added" then Some (mkIgnoreOpts true de fa fs fi fl fy va vl vy)
  else if String.eqb value "deleted" then Some (mkIgnoreOpts ad true fa fs fi fl fy va vl vy)
  else if String.eqb value "address" then Some (mkIgnoreOpts ad de true fs fi fl fy true vl vy)
  else if String.eqb value "linkage-name" then Some (mkIgnoreOpts ad de fa fs fi true fy va true vy)
  else if String.eqb value "symbol-name" then Some (mkIgnoreOpts ad de fa fs fi fl true va vl true)
  else if String.eqb value "function-address" then
    Some (mkIgnoreOpts ad de true fs fi fl fy va vl vy)
  else if String.eqb value "function-size" then Some (mkIgnoreOpts ad de fa true fi fl fy va vl vy)
  else if String.eqb value "function-inline" then
    Some (mkIgnoreOpts ad de fa fs true fl fy va vl vy)
  else if String.eqb value "function-symbol-name" then
    Some (mkIgnoreOpts ad de fa fs fi fl true va vl vy)
  else if String.eqb value "variable-address" then
    Some (mkIgnoreOpts ad de fa fs fi fl fy true vl vy)
  else if String.eqb value "variable-symbol-name" then
    Some (mkIgnoreOpts ad de fa fs fi fl fy va vl true)
  else None.

(** main.rs:439-454: the pairs in order, then a stable sort by decreasing length of
    the old prefix. *)
Definition parse_prefix (pm : list (string * string)) (value : string)
  : option (list (string * string)) :=
  match split_at_eq value with
  | Some (old, new) => Some (pm ++ [(old, new)])
  | None => None
  end.
Definition parse_prefix_map (values : list string) : option (list (string * string)) :=
  match for_values parse_prefix values [] with
  | Some pm =>
      Some (stable_sort (fun p q => Nat.compare (String.length (fst q)) (String.length (fst p))) pm)
  | None => None
  end.

(** main.rs:248-270: the output format; [http] turns on a few other options. *)
Definition default_print := mkPrintOpts false false false false false false false false false.
Definition parse_output (value : option string) : option (bool * bool * N * print_opts) :=
  match value with
  | None => Some (false, false, 1%N, default_print)
  | Some v =>
      if String.eqb v "text" then Some (false, false, 1%N, default_print)
      else if String.eqb v "html" then Some (true, false, 1%N, default_print)
      else if String.eqb v "http" then
        Some (true, true, 100%N, mkPrintOpts true false false true true false false false false)
      else None
  end.

(** main.rs:243-454. *)
Definition parse_options (c : cli) : option options :=
  match parse_output (cl_output c) with
  | None => None
  | Some (html, http, depth0, print0) =>
      match (match cl_inline_depth c with Some s => parse_usize s | None => Some depth0 end),
            parse_categories (cl_category c),
            for_values parse_print (cl_print c) print0,
            for_values parse_filter (cl_filter c) (mkFilterOpts None None [] None) with
      | Some depth, Some cat, Some print, Some filter =>
          match parse_sort (cl_sort c),
                for_values parse_ignore (cl_ignore c)
                  (mkIgnoreOpts false false false false false false false false false false),
                parse_prefix_map (cl_prefix_map c) with
          | Some sort, Some ignore, Some pm =>
              Some (mkOptions print depth html http cat filter sort ignore pm)
          | _, _, _ => None
          end
      | _, _, _, _ => None
      end
  end.
