(** Model of a whole run, for every way to run the program: /repo/main/src/main.rs:456-565 with the server of
    ServeModel.v, and what the report of sizes reads of a file (main/src/print/file.rs:770-821).

    A result is [None] if an error is reported or the program panics.  What [header] and [footer] (html.rs:8-228) are does not
    matter, and [HashMap::into_iter] gives the totals in any order: [order] is given the totals and says which.  Simplified as
    WholeModel.v and PairModel.v are. *)
From Coq Require Import List Arith NArith Bool String.
From Verif Require Import Base RangeModel TypeModel FileModel OptionsModel FilterModel DiffModel IdModel PrintModel CodeModel BloatModel
  EntryModel ReportModel DieModel WholeModel PairModel ServeModel.
Import ListNotations.
Local Open Scope list_scope.

(** ** What is read for the report of sizes *)
Section Sizes.
  Variable choice : N -> nat.
  Variable ob : object_input.

  (** The fields of a function and of a unit that file.rs:780-910 reads. *)
  Definition sized_function_of (f : func) : sized_function :=
    mkSized (function_number choice ob f) (fn_namespace f) (fn_name f) (sc_function_source (file_scene choice ob) f)
      (fn_address f) (fn_size f) (fn_ranges f).
  Definition sized_unit_of (u : unit) : sized_unit :=
    mkSizedUnit (un_name u) (unit_dir choice ob u) (map sized_function_of (un_functions u)).
  Definition sized_units : list sized_unit := map sized_unit_of (loaded_units choice ob).
  (** file.rs:772 and 796-806: [Code::new] is [None] for a machine that the disassembler does not know. *)
  Definition size_callers : outcome (N -> list caller) :=
    callers (option_map (fun p => code_calls (pg_disasm p) (pg_regions p)) (ob_program ob)) sized_units.
  (** file.rs:770-821, [bloat_index]. *)
  Definition size_totals (order : list (function_key * total) -> list (function_key * total)) : list (function_key * total) :=
    bloat_totals (order (groups sized_units)).
  Definition size_report (order : list (function_key * total) -> list (function_key * total)) : outcome pdoc :=
    match size_callers with
    | Panic => Panic
    | CodeModel.Done m => bloat_doc sized_units (size_totals order) m
    end.
End Sizes.

(** ** The program *)

(** main.rs:456, 484 and 500: [--diff], [--bloat], and a file. *)
Inductive task := ToPrint (ob : object_input) | ToSize (ob : object_input) | ToCompare (a b : object_input).

Section Run.
  Variable esc : N -> text.
  Variable alphanumeric : N -> bool.
  Variables header footer : text.
  Variable choose : list N -> list N -> list (list N) -> nat -> nat.
  Variable order : list (function_key * total) -> list (function_key * total).
  Variables ca cb : N -> nat.
  Variable fuel : nat.
  Variable o : options.

  (** main.rs:548-565, [format], for what is printed, and for a comparison. *)
  Definition formatted (d : pdoc) : text :=
    if o_html o then header ++ print_web esc alphanumeric o d ++ footer else text_output o d.
  Definition formatted_diff (d : ddoc) : text :=
    if o_html o then header ++ diff_web esc alphanumeric o d ++ footer else diff_output o d.
  (** main.rs:521-546, [diff_file], [bloat_file] and [print_file]: what is written to standard output. *)
  Definition run (t : task) : option text :=
    match t with
    | ToPrint ob => option_map formatted (print_file o (compare_parameters ob) fuel (load ca ob))
    | ToSize ob => option_map formatted (ok (size_report ca ob order))
    | ToCompare a b => option_map formatted_diff (diff_file choose o (compare_parameters_in a b) fuel (load_two a b ca cb))
    end.
  (** main.rs:471-477, 487-493 and 505-511: what the server sends for a path, if [bloat_index] returns. *)
  Definition run_server (t : task) (path : string) : option text :=
    match t with
    | ToPrint ob => serve (serve_print_file esc alphanumeric header footer o (compare_parameters ob) fuel (load ca ob)) path
    | ToSize ob =>
        match size_callers ca ob with
        | Panic => None
        | CodeModel.Done m =>
            serve (serve_bloat_file esc alphanumeric header footer o (sized_units ca ob) (size_totals ca ob order) m
                     (fst (assign_ids (loaded_units ca ob)))) path
        end
    | ToCompare a b =>
        serve (serve_diff_file esc alphanumeric header footer o choose (compare_parameters_in a b) fuel (load_two a b ca cb)) path
    end.
End Run.
