(** Specification vocabulary for what is printed inside a function, in terms of the values that the attributes of a file have. *)
From Coq Require Import List Arith NArith ZArith Bool String Sorting.Sorted.
From Verif Require Import Base RangeModel NamespaceModel TypeModel LocationModel FileModel FileSpec OptionsModel PrintModel PrintSpec NameModel ReadModel
  ItemModel ItemSpec EntryModel EntrySpec DieModel WholeModel WholeSpec RawModel RawSpec EndSpec.
Import ListNotations.
Local Open Scope N_scope.

(** The entries with a number in an entry: those right in it, and those in its lexical blocks (0x0b). *)
Fixpoint inside_block (wanted : N -> bool) (d : raw_die) : list raw_die :=
  match d with
  | RawDie t _ _ children => if wanted t then [d] else if t =? 0x0b then flat_map (inside_block wanted) children else []
  end.
Definition inside (code : N) (d : raw_die) : list raw_die := flat_map (inside_block (fun n => n =? code)) (rd_children d).
(** Calls: by the standard (0x48), and as GNU wrote them before (0x4109). *)
Definition calls_inside (d : raw_die) : list raw_die := flat_map (inside_block (fun n => (n =? 0x48) || (n =? 0x4109))) (rd_children d).
Definition spot_in (u : raw_unit) (d : raw_die) : N := ud_begin (ru_place u) + rd_offset d.

(** ** Where something is *)

Inductive held := InRegister (r : N) | OnStack (z : Z) | AtAddress (a : N) | Elsewhere.
(** An expression: a register; the base of the frame, or the frame address, and an offset; an address; what a register and an offset say;
    a value that is nowhere in memory. *)
Inductive held_by (u : raw_unit) : list op -> held -> Prop :=
| hb_register r : held_by u [ORegister r] (InRegister r)
| hb_frame z : held_by u [OFrameOffset z] (OnStack z)
| hb_cfa : held_by u [OCallFrameCfa] (OnStack 0)
| hb_address a : a < u64_max -> held_by u [OAddress a] (AtAddress a)
| hb_index i a : addresses u (RwAddressIndex i) a -> a < u64_max -> held_by u [OAddressIndex i] (AtAddress a)
| hb_based r z : held_by u [ORegisterOffset r z] Elsewhere
| hb_constant n : held_by u [OUnsigned n; OStackValue] Elsewhere
| hb_signed z : held_by u [OSigned z; OStackValue] Elsewhere
| hb_implicit : held_by u [OImplicitValue] Elsewhere
| hb_computed r z : held_by u [ORegisterOffset r z; OStackValue] Elsewhere.
(** By an attribute (0x02): an expression, or a list of them, each for some addresses. *)
Inductive held_at (u : raw_unit) (attrs : list (N * raw_value)) : list held -> Prop :=
| ha_none : lacks 0x02 attrs -> held_at u attrs []
| ha_expression m ps ops h : gives 0x02 attrs (RwExpression m ps ops) -> held_by u ops h -> held_at u attrs [h]
| ha_list v l hs : gives 0x02 attrs v -> lists RwLocations RwLocationsIndex (ru_location_offsets u) (ru_locations u) v l ->
    Forall2 (fun x h => held_by u (snd x) h) l hs -> held_at u attrs hs.
Definition in_registers (l : list held) : list N := flat_map (fun h => match h with InRegister r => [r] | _ => [] end) l.
Definition on_stack (l : list held) : list Z := flat_map (fun h => match h with OnStack z => [z] | _ => [] end) l.
Definition first_address (l : list held) : option N := hd_error (flat_map (fun h => match h with AtAddress a => [a] | _ => [] end) l).
(** The lines for it: each register and each offset once, in order. *)
Definition register_word (rf : raw_file) (r : N) : text := match rf_register rf r with Some n => txt n | None => txt "r" ++ dec r end.
Inductive held_lines (rf : raw_file) (o : options) (i : nat) (l : list held) : list line -> Prop :=
| hl_hidden : p_variable_locations (o_print o) = false -> held_lines rf o i l []
| hl_listed rs zs : p_variable_locations (o_print o) = true -> distinct_in_order N.lt (in_registers l) rs -> distinct_in_order Z.lt (on_stack l) zs ->
    held_lines rf o i l
      (under i "registers" (flat_map (fun r => text_line (S i) (register_word rf r)) rs) ++
       match zs with
       | [] => []
       | [z] => labelled_line i "stack frame" (signed z)
       | _ => under i "stack frame" (map (fun z => Line (S i) (signed z)) zs)
       end).

(** ** Parameters and local variables *)

(** Where the entry of a type is, if there is one. *)
Inductive type_spot (rf : raw_file) (u : raw_unit) (attrs : list (N * raw_value)) : option N -> Prop :=
| tsp_none : lacks 0x49 attrs -> type_spot rf u attrs None
| tsp_entry v x e : gives 0x49 attrs v -> refers rf u v x e -> In e (raw_below x) -> type_spot rf u attrs (Some (spot_in x e)).
(** The place of the entry that it is from; name; type: text, size and place; where it is. *)
Record raw_local := mkRawLocal {
  rl_spot : N; rl_name : option string; rl_type : text; rl_size : N; rl_type_spot : option N; rl_address : option N; rl_held : list held }.
(** Entries that come after those known: new ones, and ones that refer (0x31) to a known one and may say more of it. *)
Inductive locals_of (rf : raw_file) (u : raw_unit) : list raw_local -> list raw_die -> list raw_local -> Prop :=
| lo_none ps : locals_of rf u ps [] ps
| lo_new ps d n t s p hs ds qs : lacks 0x31 (rd_attrs d) -> named rf u is_name (rd_attrs d) n -> type_text rf u 0x49 (rd_attrs d) t ->
    type_bytes rf u (rd_attrs d) s -> type_spot rf u (rd_attrs d) p -> held_at u (rd_attrs d) hs ->
    locals_of rf u (ps ++ [mkRawLocal (spot_in u d) n t s p (first_address hs) hs]) ds qs -> locals_of rf u ps (d :: ds) qs
| lo_known ps1 q ps2 d v x e n t s p hs ds qs : gives 0x31 (rd_attrs d) v -> refers rf u v x e -> spot_in x e = rl_spot q ->
    Forall (fun q' => rl_spot q' <> rl_spot q) ps1 ->
    name_or_else rf u is_name (rd_attrs d) (rl_name q) n ->
    lacks 0x49 (rd_attrs d) /\ t = rl_type q /\ s = rl_size q /\ p = rl_type_spot q \/
    ~ lacks 0x49 (rd_attrs d) /\ type_text rf u 0x49 (rd_attrs d) t /\ type_bytes rf u (rd_attrs d) s /\ type_spot rf u (rd_attrs d) p ->
    held_at u (rd_attrs d) hs ->
    locals_of rf u (ps1 ++ mkRawLocal (rl_spot q) n t s p (match first_address hs with Some a => Some a | None => rl_address q end) (rl_held q ++ hs) :: ps2)
      ds qs ->
    locals_of rf u (ps1 ++ q :: ps2) (d :: ds) qs.
(** What is copied from the entry that another refers to (0x31): its parameters (0x05) and the variables (0x34) in it. *)
Inductive copied (rf : raw_file) (u : raw_unit) (attrs : list (N * raw_value)) : list raw_local -> list raw_local -> Prop :=
| cp_none : lacks 0x31 attrs -> copied rf u attrs [] []
| cp_copy v x e ps vs : gives 0x31 attrs v -> refers rf u v x e -> In e (raw_below x) ->
    locals_of rf x [] (with_raw_tag 0x05 e) ps -> locals_of rf x [] (inside 0x34 e) vs -> copied rf u attrs ps vs.
Inductive locals_in (rf : raw_file) (u : raw_unit) (d : raw_die) (ps vs : list raw_local) : Prop :=
| li_intro ps0 vs0 : copied rf u (rd_attrs d) ps0 vs0 -> locals_of rf u ps0 (with_raw_tag 0x05 d) ps -> locals_of rf u vs0 (inside 0x34 d) vs ->
    locals_in rf u d ps vs.
Inductive parameter_lines (rf : raw_file) (o : options) (i : nat) (p : raw_local) : list line -> Prop :=
| pml_intro ls : held_lines rf o (S i) (rl_held p) ls -> parameter_lines rf o i p
    (Line i (size_shown (Some (rl_size p)) ++ match rl_name p with Some x => txt x ++ txt ": " | None => [] end ++ rl_type p) :: ls).
Inductive local_lines (rf : raw_file) (o : options) (i : nat) (p : raw_local) : list line -> Prop :=
| lcl_intro ls : held_lines rf o (S i) (rl_held p) ls -> local_lines rf o i p
    (Line i (size_shown (Some (rl_size p)) ++ name_or "<anon>" (rl_name p) ++ txt ": " ++ rl_type p) ::
     (if p_variable_locations (o_print o) then labelled_line (S i) "address" (match rl_address p with Some a => txt "0x" ++ hex a | None => [] end) else []) ++ ls).

(** ** Calls *)

(** Where a call is in the source. *)
Inductive call_file_at (rf : raw_file) (u : raw_unit) (attrs : list (N * raw_value)) : option string -> option string -> Prop :=
| cfa_none : lacks 0x58 attrs -> call_file_at rf u attrs None None
| cfa_file v path dir p s : gives 0x58 attrs v -> is_file u (0x3a, v) path -> is_file_in u (0x3a, v) dir ->
    says_maybe rf u path p -> says_maybe rf u dir s -> call_file_at rf u attrs p s.
Inductive call_source_at (rf : raw_file) (u : raw_unit) (attrs : list (N * raw_value)) : source -> Prop :=
| csa_intro file dir line column : call_file_at rf u attrs file dir -> number_at 0x59 attrs line -> number_at 0x57 attrs column ->
    call_source_at rf u attrs (mkSource dir file line column).
(** The name of a function, with the names of what it is in. *)
Definition function_words (x : raw_function) : text := path_text (rn_path x) ++ name_or "<anon>" (rn_name x).

(** The value of one of some attributes. *)
Inductive one_of (codes : list N) (attrs : list (N * raw_value)) : option raw_value -> Prop :=
| oo_none : (forall c, In c codes -> lacks c attrs) -> one_of codes attrs None
| oo_one c v : In c codes -> gives c attrs v -> (forall c', In c' codes -> c' <> c -> lacks c' attrs) -> one_of codes attrs (Some v).
Inductive address_by (u : raw_unit) (codes : list N) (attrs : list (N * raw_value)) : option N -> Prop :=
| adb_none : one_of codes attrs None -> address_by u codes attrs None
| adb_address v a : one_of codes attrs (Some v) -> addresses u v a -> address_by u codes attrs (Some a).
(** What an expression is written as, for the simple ones. *)
Inductive operation_words (rf : raw_file) (u : raw_unit) : op -> text -> Prop :=
| ow_based r z : operation_words rf u (ORegisterOffset r z) (register_word rf r ++ offset_shown z)
| ow_frame z : operation_words rf u (OFrameOffset z) (txt "frame" ++ offset_shown z)
| ow_cfa : operation_words rf u OCallFrameCfa (txt "cfa")
| ow_address a : a < u64_max -> operation_words rf u (OAddress a) (txt "0x" ++ hex a)
| ow_index i a : addresses u (RwAddressIndex i) a -> a < u64_max -> operation_words rf u (OAddressIndex i) (txt "0x" ++ hex a)
| ow_unsigned n : operation_words rf u (OUnsigned n) (txt "0x" ++ hex n)
| ow_signed z : (- 2 ^ 63 <= z < 2 ^ 63)%Z -> operation_words rf u (OSigned z) (txt "0x" ++ hex (Z.to_N (if (z <? 0)%Z then 2 ^ 64 + z else z)))
| ow_other k : operation_words rf u (OPushUnknown k) (txt "<other>").
Inductive expression_words (rf : raw_file) (u : raw_unit) : list op -> text -> Prop :=
| ew_register r : expression_words rf u [ORegister r] (register_word rf r)
| ew_place p t : operation_words rf u p t -> expression_words rf u [p] t
| ew_value p t : operation_words rf u p t -> expression_words rf u [p; OStackValue] t
| ew_implicit : expression_words rf u [OImplicitValue] (txt "<other>").
Inductive expression_by (rf : raw_file) (u : raw_unit) (codes : list N) (attrs : list (N * raw_value)) : list text -> Prop :=
| eb_none : one_of codes attrs None -> expression_by rf u codes attrs []
| eb_words m ps ops t : one_of codes attrs (Some (RwExpression m ps ops)) -> expression_words rf u ops t -> expression_by rf u codes attrs [t].

(** What is called, by the entry referred to (0x7f, 0x31): a function, a variable outside of functions, or a variable, parameter or member
    that holds the function. *)
Inductive called_by (rf : raw_file) (u : raw_unit) (attrs : list (N * raw_value)) : text -> Prop :=
| cb_none : one_of [0x7f; 0x31] attrs None -> called_by rf u attrs []
| cb_function v x e y : one_of [0x7f; 0x31] attrs (Some v) -> refers rf u v x e -> gives_function rf x e y ->
    called_by rf u attrs (txt " -> " ++ function_words y)
| cb_global v x e y : one_of [0x7f; 0x31] attrs (Some v) -> refers rf u v x e -> rd_tag e = 0x34 -> gives_variable rf x e y -> no_raw_statics x ->
    called_by rf u attrs (txt " -> indirect(global:" ++ name_or "<unknown>" (rv_name y) ++ txt ")")
| cb_local v x e : one_of [0x7f; 0x31] attrs (Some v) -> refers rf u v x e -> In e (raw_below x) -> rd_tag e = 0x34 ->
    (forall path, ~ placed rf x false path e) -> called_by rf u attrs (txt " -> indirect(local variable)")
| cb_parameter v x e : one_of [0x7f; 0x31] attrs (Some v) -> refers rf u v x e -> In e (raw_below x) -> rd_tag e = 0x05 ->
    called_by rf u attrs (txt " -> indirect(parameter)")
| cb_member v x e : one_of [0x7f; 0x31] attrs (Some v) -> refers rf u v x e -> In e (raw_below x) -> rd_tag e = 0x0d ->
    called_by rf u attrs (txt " -> indirect(member)")
| cb_other v x e : one_of [0x7f; 0x31] attrs (Some v) -> refers rf u v x e -> In e (raw_below x) -> ~ In (rd_tag e) [0x2e; 0x34; 0x05; 0x0d] ->
    called_by rf u attrs [].

(** An argument of a call.  The parameter that it is for (0x80, 0x31) says its name and type, if it does. *)
Record raw_argument := mkRawArgument {
  ra_name : option string; ra_type : option text; ra_location : list text; ra_value : list text; ra_data_location : list text; ra_data_value : list text }.
Inductive type_said (rf : raw_file) (u : raw_unit) (attrs : list (N * raw_value)) : option text -> Prop :=
| tsd_none : lacks 0x49 attrs -> type_said rf u attrs None
| tsd_type v t : gives 0x49 attrs v -> type_text rf u 0x49 attrs t -> type_said rf u attrs (Some t).
Inductive argument_words (rf : raw_file) (u : raw_unit) (attrs : list (N * raw_value)) : option string -> option text -> Prop :=
| aw_own n t : one_of [0x80; 0x31] attrs None -> named rf u is_name attrs n -> type_said rf u attrs t -> argument_words rf u attrs n t
| aw_for v x e n t : one_of [0x80; 0x31] attrs (Some v) -> refers rf u v x e -> In e (raw_below x) ->
    lacks 0x03 (rd_attrs e) /\ named rf u is_name attrs n \/ ~ lacks 0x03 (rd_attrs e) /\ named rf x is_name (rd_attrs e) n ->
    lacks 0x49 (rd_attrs e) /\ type_said rf u attrs t \/ ~ lacks 0x49 (rd_attrs e) /\ type_said rf x (rd_attrs e) t ->
    argument_words rf u attrs n t.
Inductive gives_argument (rf : raw_file) (u : raw_unit) (d : raw_die) : raw_argument -> Prop :=
| ga_intro name t location value data_location data_value :
    argument_words rf u (rd_attrs d) name t -> expression_by rf u [0x02] (rd_attrs d) location -> expression_by rf u [0x7e; 0x2111] (rd_attrs d) value ->
    expression_by rf u [0x85] (rd_attrs d) data_location -> expression_by rf u [0x86] (rd_attrs d) data_value ->
    gives_argument rf u d (mkRawArgument name t location value data_location data_value).
Definition argument_entries (d : raw_die) : list raw_die := filter (fun c => (rd_tag c =? 0x49) || (rd_tag c =? 0x410a)) (rd_children d).

(** A call. *)
Record raw_site := mkRawSite {
  ct_tail : bool; ct_call : option N; ct_return : option N; ct_called : text; ct_target : list text; ct_source : source; ct_arguments : list raw_argument }.
Inductive gives_site (rf : raw_file) (u : raw_unit) (d : raw_die) : raw_site -> Prop :=
| gs_intro tail call return_ words target s arguments :
    In (rd_tag d) [0x48; 0x4109] -> (tail = false <-> lacks 0x82 (rd_attrs d) /\ lacks 0x2115 (rd_attrs d)) ->
    address_by u [0x81] (rd_attrs d) call -> address_by u (if rd_tag d =? 0x4109 then [0x7d; 0x11] else [0x7d]) (rd_attrs d) return_ ->
    called_by rf u (rd_attrs d) words -> expression_by rf u [0x83; 0x84; 0x2113; 0x2114] (rd_attrs d) target ->
    call_source_at rf u (rd_attrs d) s -> Forall2 (gives_argument rf u) (argument_entries d) arguments ->
    gives_site rf u d (mkRawSite tail call return_ words target s arguments).
Definition words_lines (i : nat) (label : string) (l : list text) : list line := under i label (flat_map (text_line (S i)) l).
Definition argument_lines (o : options) (i : nat) (a : raw_argument) : list line :=
  text_line i (name_or "<unnamed>" (ra_name a) ++ match ra_type a with Some t => txt ": " ++ t | None => [] end) ++
  (if p_variable_locations (o_print o)
   then words_lines (S i) "location" (ra_location a) ++ words_lines (S i) "value" (ra_value a) ++
        words_lines (S i) "data_location" (ra_data_location a) ++ words_lines (S i) "data_value_location" (ra_data_value a)
   else []).
Definition site_lines (o : options) (dir : option string) (i : nat) (s : raw_site) : list line :=
  Line i ((if ct_tail s then txt "tail call at " else txt "call at ") ++
          match ct_call s, ct_return s with
          | Some a, _ => txt "0x" ++ hex a
          | None, Some _ => txt "<before return>"
          | None, None => txt "<unknown>"
          end ++ ct_called s) ::
  labelled_line (S i) "return address" (match ct_return s with Some a => txt "0x" ++ hex a | None => [] end) ++
  (if p_variable_locations (o_print o) then words_lines (S i) "target" (ct_target s) else []) ++
  (if p_source (o_print o) then labelled_line (S i) "source" (source_text dir (ct_source s)) else []) ++
  under (S i) "parameters" (flat_map (argument_lines o (S (S i))) (ct_arguments s)).
(** The calls in an entry, and their lines; [None] stands for ones that are not described. *)
Definition gives_sites (rf : raw_file) (u : raw_unit) (d : raw_die) (sites : option (list raw_site)) : Prop :=
  match sites with Some l => Forall2 (gives_site rf u) (calls_inside d) l | None => True end.
Definition sites_lines (o : options) (dir : option string) (i : nat) (sites : option (list raw_site)) (ls : list line) : Prop :=
  (p_function_calls (o_print o) = false -> ls = []) /\
  (p_function_calls (o_print o) = true -> forall l, sites = Some l -> ls = under i "call sites" (flat_map (site_lines o dir (S i)) l)).

(** ** Inlined functions *)

(** The size of the code: none; by its start and end; by a list. *)
Inductive inlined_bytes (u : raw_unit) (attrs : list (N * raw_value)) : option N -> Prop :=
| ib_none : lacks 0x55 attrs -> lacks 0x12 attrs -> inlined_bytes u attrs None
| ib_code address size ranges : code_given u attrs (Some address) (Some size) ranges -> inlined_bytes u attrs (Some size).
(** The name of the function that an entry refers to (0x31). *)
Inductive inlined_words (rf : raw_file) (u : raw_unit) (attrs : list (N * raw_value)) : text -> Prop :=
| iw_none : lacks 0x31 attrs -> inlined_words rf u attrs (txt "<anon>")
| iw_function v x e y : gives 0x31 attrs v -> refers rf u v x e -> gives_function rf x e y -> inlined_words rf u attrs (function_words y).
Inductive raw_inlined := mkRawInlined (size : option N) (words : text) (call : source) (parameters variables : list raw_local)
  (sites : option (list raw_site)) (inner : list raw_inlined).
(** An inlined function (0x1d) and those inlined into it. *)
Inductive gives_inlined (rf : raw_file) (u : raw_unit) : raw_die -> raw_inlined -> Prop :=
| gi_intro d size words call ps vs sites inner :
    rd_tag d = 0x1d -> inlined_bytes u (rd_attrs d) size -> inlined_words rf u (rd_attrs d) words -> call_source_at rf u (rd_attrs d) call ->
    locals_in rf u d ps vs -> gives_sites rf u d sites -> Forall2 (gives_inlined rf u) (inside 0x1d d) inner ->
    gives_inlined rf u d (mkRawInlined size words call ps vs sites inner).
(** The lines for it; [depth] is how many more are shown inside each other. *)
Inductive inlined_lines (rf : raw_file) (o : options) (dir : option string) : nat -> nat -> raw_inlined -> list line -> Prop :=
| ill_intro depth i size words call ps vs sites inner lp lv lc li :
    optional (p_inlined_function_parameters (o_print o)) (each (parameter_lines rf o (S (S i))) ps) lp ->
    optional (p_function_variables (o_print o)) (each (local_lines rf o (S (S i))) vs) lv ->
    sites_lines o dir (S i) sites lc ->
    inlined_all_lines rf o dir depth (S i) inner li ->
    inlined_lines rf o dir depth i (mkRawInlined size words call ps vs sites inner)
      (Line i (size_shown size ++ words) ::
       (if p_source (o_print o) then labelled_line (S i) "call source" (source_text dir call) else []) ++
       under (S i) "parameters" lp ++ under (S i) "variables" lv ++ lc ++ li)
with inlined_all_lines (rf : raw_file) (o : options) (dir : option string) : nat -> nat -> list raw_inlined -> list line -> Prop :=
| ial_deep i l : inlined_all_lines rf o dir 0 i l []
| ial_none depth i : inlined_all_lines rf o dir (S depth) i [] []
| ial_one depth i x l ls ls' : inlined_lines rf o dir depth i x ls -> inlined_all_lines rf o dir (S depth) i l ls' ->
    inlined_all_lines rf o dir (S depth) i (x :: l) (ls ++ ls').

(** ** The stack frame *)

(** The parameters and variables of inlined functions, at any depth. *)
Inductive local_of (x : raw_inlined) (p : raw_local) : Prop :=
| lf_own size words call ps vs sites inner : x = mkRawInlined size words call ps vs sites inner -> In p (ps ++ vs) -> local_of x p
| lf_inner size words call ps vs sites inner y : x = mkRawInlined size words call ps vs sites inner -> In y inner -> local_of y p -> local_of x p.
Record raw_spot := mkRawSpot { rs_offset : Z; rs_size : N; rs_name : option string; rs_type : text; rs_type_spot : option N }.
Definition spot_before (a b : raw_spot) : Prop :=
  (rs_offset a < rs_offset b)%Z \/ rs_offset a = rs_offset b /\
  (rs_size a < rs_size b \/ rs_size a = rs_size b /\
   (option_before (fun x y => cmp_string x y = Lt) (rs_name a) (rs_name b) \/ rs_name a = rs_name b /\
    match rs_type_spot a, rs_type_spot b with Some m, Some n => m < n | Some _, None => True | None, _ => False end)).
(** A line for each, and for what is between those that do not touch; [last] is where the one before ends. *)
Fixpoint frame_lines (i : nat) (last : option Z) (l : list raw_spot) : list line :=
  match l with
  | [] => []
  | x :: l' =>
      match last with
      | Some z => if (z <? rs_offset x)%Z then [Line i (signed z ++ txt "[" ++ signed (rs_offset x - z) ++ txt "]" ++ [9] ++ txt "<unknown>")] else []
      | None => []
      end ++
      Line i (signed (rs_offset x) ++ size_shown (Some (rs_size x)) ++ name_or "<anon>" (rs_name x) ++ txt ": " ++ rs_type x) ::
      frame_lines i (Some (rs_offset x + Z.of_N (rs_size x))%Z) l'
  end.
Inductive frame_given (ps vs : list raw_local) (inner : list raw_inlined) : list line -> Prop :=
| fg_intro es : StronglySorted spot_before es ->
    (forall e, In e es <-> exists p, (In p (ps ++ vs) \/ exists y, In y inner /\ local_of y p) /\ In (rs_offset e) (on_stack (rl_held p)) /\
       e = mkRawSpot (rs_offset e) (rl_size p) (rl_name p) (rl_type p) (rl_type_spot p)) ->
    frame_given ps vs inner (frame_lines 2 None es).
(** The numbers are small enough for differences of offsets. *)
Definition moderate_frame (ps vs : list raw_local) (inner : list raw_inlined) : Prop :=
  forall p z, In p (ps ++ vs) \/ (exists y, In y inner /\ local_of y p) -> In z (on_stack (rl_held p)) ->
    (- 2 ^ 61 < z < 2 ^ 61)%Z /\ rl_size p < 2 ^ 61.

(** ** The whole function *)

(** All lines for a function, up to the code. *)
Definition whole_function_lines (rf : raw_file) (o : options) (x : raw_function) (ps vs : list raw_local) (sites : option (list raw_site))
    (inner : list raw_inlined) (ls : list line) : Prop :=
  exists symbol lp lv lf li lc more,
    symbol_shown (parse_symbols (rf_symbols rf)) (opt64_from (rn_address x)) (own_name (rn_linkage x) (rn_name x)) symbol /\
    each (parameter_lines rf o 2) ps lp /\
    optional (p_function_variables (o_print o)) (each (local_lines rf o 2) vs) lv /\
    optional (p_function_stack_frame (o_print o)) (frame_given ps vs inner) lf /\
    inlined_all_lines rf o (rn_dir x) (N.to_nat (o_inline_depth o)) 2 inner li /\
    sites_lines o (rn_dir x) 1 sites lc /\
    (p_function_calls (o_print o) = false -> p_function_instructions (o_print o) = false -> more = []) /\
    ls = Line 0 (txt "fn " ++ function_words x) ::
      labelled_line 1 "linkage name" (optional_name (rn_linkage x)) ++ labelled_line 1 "symbol name" (optional_name symbol) ++
      (if p_source (o_print o) then labelled_line 1 "source" (source_text (rn_dir x) (rn_source x)) else []) ++
      ranges_shown 1 (rn_ranges x) ++ match rn_size x with Some n => [Line 1 (txt "size: " ++ dec n)] | None => [] end ++
      labelled_line 1 "inline" (yes (rn_inline x)) ++ labelled_line 1 "declaration" (yes (rn_declared x)) ++
      under 1 "return type" (rn_result x) ++ under 1 "parameters" lp ++ under 1 "variables" lv ++ under 1 "stack frame" lf ++
      under 1 "inlined functions" li ++ lc ++ more ++ [Blank].
