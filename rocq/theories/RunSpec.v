(** Specification vocabulary for whole runs. *)
From Coq Require Import List Arith NArith Bool String.
From Coq Require Import Permutation.
From Verif Require Import Base RangeModel TypeModel FileModel FileSpec PrintModel PrintSpec HtmlSpec NameModel CodeModel BloatModel BloatSpec
  ItemSpec EntryModel EntrySpec WholeModel WholeSpec DieModel DieSpec.
Import ListNotations.

(** ** Pages *)

(** The characters of the labels of the program. *)
Definition label_letters : text := txt "abcdefghijklmnopqrstuvwxyz ._".
(** They are left alone by the library for escaping. *)
Definition plain_letters (esc : N -> text) : Prop := forall c, In c label_letters -> esc c = [c].
(** So are the mnemonics that the disassembler gives. *)
Definition plain_mnemonics (esc : N -> text) (p : option program) : Prop :=
  forall q bytes a insns i m, p = Some q -> pg_disasm q bytes a = Some insns -> In i insns -> in_mnemonic i = Some m ->
    plain esc m.

(** HTML that a browser can read: elements nest, are closed, and are all of those that the program writes. *)
Definition reads_well (unescape : text -> text) (t : text) : Prop :=
  exists es, read_html unescape t = Some es /\ nest es [] = Some [] /\ Forall HtmlSpec.known es.
(** So that its text is [ws], and the full names of shortened ones are [names]. *)
Definition reads_as (unescape : text -> text) (t ws : text) (names : list text) : Prop :=
  exists es, read_html unescape t = Some es /\ nest es [] = Some [] /\ Forall HtmlSpec.known es /\
    content es [] = ws /\ titles unescape es = names.
(** What the server may send: a page, a part of one, or the number of an id. *)
Inductive response (unescape : text -> text) (header footer : text) : text -> Prop :=
| rp_page body : reads_well unescape body -> response unescape header footer (header ++ body ++ footer)
| rp_part body : reads_well unescape body -> response unescape header footer body
| rp_number n : response unescape header footer (dec n).

(** ** Items that can be told apart *)

(** There is a type, a function or a variable in the unit. *)
Definition has_items (ob : object_input) (u : unit_input) : Prop :=
  ws_types (unit_items ob u) <> [] \/ ws_functions (unit_items ob u) <> [] \/ ws_variables (unit_items ob u) <> [].
Record told_apart (ob : object_input) : Prop := {
  (** No symbol is listed twice. *)
  ta_symbols : NoDup (parse_symbols (ob_symbols ob));
  (** Units have different names or something in them; those without are not named like the two that are added. *)
  ta_units : forall i j u v, nth_error (ob_units ob) i = Some u -> nth_error (ob_units ob) j = Some v -> i <> j ->
    has_items ob u \/ has_items ob v \/ given_name (ui_attrs u) <> given_name (ui_attrs v);
  ta_added : forall u, In u (ob_units ob) ->
    has_items ob u \/ (given_name (ui_attrs u) <> Some "<symtab>"%string /\ given_name (ui_attrs u) <> Some "<unknown>"%string) }.

(** ** The report of sizes *)

(** A function that the report accounts for: one that an entry describes, or a symbol. *)
Inductive sized_item := Described (u : unit_input) (g : dw_function) | Unclaimed (s : symbol).
Definition si_name (x : sized_item) : text :=
  match x with
  | Described _ g => path_and_name (fu_namespace g) (fu_name g)
  | Unclaimed s => name_or "<anon>" (sy_name s)
  end.
Definition si_source (x : sized_item) : text :=
  match x with Described u g => source_text (ui_dir u) (fu_source g) | Unclaimed _ => [] end.
Definition si_unit (x : sized_item) : text :=
  txt (match x with Described u g => unit_ref (given_name (ui_attrs u)) (ui_dir u) | Unclaimed _ => "<symtab>" end).
Definition si_size (x : sized_item) : option N :=
  match x with Described _ g => opt64_get (fu_size g) | Unclaimed s => Some (sy_size s) end.
Definition si_address (x : sized_item) : option N :=
  match x with Described _ g => opt64_get (fu_address g) | Unclaimed s => Some (sy_address s) end.
Definition si_ranges (x : sized_item) : list range :=
  match x with
  | Described _ g => fu_ranges g
  | Unclaimed s => [mkRange (sy_address s) (sy_address s + sy_size s)]
  end.

(** [all] lists the functions with a size: those of entries, and the symbols at addresses that no entry gives. *)
Definition sized_functions (ob : object_input) (all : list sized_item) : Prop :=
  exists gs claimed unclaimed,
    all = map (fun p => Described (fst p) (snd p)) gs ++ map Unclaimed (filter is_function_symbol unclaimed) /\
    NoDup (map (fun p => fu_offset (snd p)) gs) /\
    (forall u g, In (u, g) gs -> In u (ob_units ob) /\ opt64_get (fu_size g) <> None /\
       exists t d, found (ui_children u) t d /\ die_tag d = TagSubprogram /\ fu_offset g = die_offset d) /\
    (forall u d g, In u (ob_units ob) -> describes (unit_base u) (ui_children u) d g -> opt64_get (fu_size g) <> None ->
       In (u, g) gs) /\
    Permutation (parse_symbols (ob_symbols ob)) (claimed ++ unclaimed) /\
    (forall s, In s claimed -> debug_address (parsed_units ob) (sy_address s)) /\
    (forall s, In s unclaimed -> ~ debug_address (parsed_units ob) (sy_address s)).

(** Who calls an address: each function of [all], in order, once for each of its calls. *)
Inductive called_by (calls : range -> list call -> Prop) (a : N) : list sized_item -> list sized_item -> Prop :=
| cb_none : called_by calls a [] []
| cb_next x cs all l : calls_by calls (si_ranges x) cs -> called_by calls a all l ->
    called_by calls a (x :: all) (map (fun _ => x) (filter (fun c => N.eqb (ca_to c) a) cs) ++ l).
Definition calling (ob : object_input) (all : list sized_item) (who : N -> list sized_item) : Prop :=
  forall a, match ob_program ob with
            | None => who a = []
            | Some p => called_by (fun r cs => code_calls (pg_disasm p) (pg_regions p) r = CodeModel.Done cs) a all (who a)
            end.

(** The lines: one for functions of the same name and source, under it one for each of them, and under that one for each
    call. *)
Definition si_title (x : sized_item) : text :=
  si_name x ++ match si_source x with [] => [] | s => txt " " ++ s end.
Definition alike (x y : sized_item) : Prop := si_name x = si_name y /\ si_source x = si_source y.
Inductive copy_shown (who : N -> list sized_item) (x : sized_item) : list line -> Prop :=
| cs_intro n a : si_size x = Some n -> si_address x = Some a ->
    copy_shown who x (Line 1 (dec n ++ txt " " ++ si_unit x) :: flat_map (fun y => text_line 2 (si_title y)) (who a)).
Definition sizes_of (row : list sized_item) (ns : list N) : Prop := Forall2 (fun x n => si_size x = Some n) row ns.
Definition row_total (row : list sized_item) (n : N) : Prop := exists ns, sizes_of row ns /\ n = N.modulo (sum ns) (2 ^ 64).
Inductive row_shown (who : N -> list sized_item) (row : list sized_item) : list line -> Prop :=
| rs_intro x n ls : In x row -> row_total row n -> each (copy_shown who) row ls ->
    row_shown who row (Line 0 (dec n ++ txt " " ++ si_title x) :: ls).
