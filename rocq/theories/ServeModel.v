(** Model of the web server in /repo/main/src/main.rs:560-738 and of what it sends:
    [serve], [serve_print_file], [serve_diff_file] and [serve_bloat_file].

    A response is [None] if the code fails while it is written: [unwrap] panics, or what was
    written before the failure is sent.  Everything else about HTTP (the listener, the headers of
    a response, and queries, which are not part of [path]) is not modelled.  [HEADER] and [FOOTER]
    (html.rs:8-228) are parameters. *)
From Coq Require Import List NArith Bool String Ascii.
From Verif Require Import Base TypeModel FileModel OptionsModel IdModel PrintModel RefModel CodeModel BloatModel
  FilterModel EntryModel ReportModel.
Import ListNotations.
Local Open Scope string_scope.

(** [str::split('/')]. *)
Fixpoint split_path (s : string) : list string :=
  match s with
  | EmptyString => [""]
  | String c s' =>
      if Ascii.eqb c "/" then "" :: split_path s'
      else match split_path s' with h :: t => String c h :: t | [] => [String c ""] end
  end.

(** main.rs:700-722, [serve]; [f] is given the rest of the parts after the first. *)
Definition serve (f : list string -> option text) (path : string) : option text :=
  let path := match path with EmptyString => "/" | _ => path end in
  match path with
  | String "/" _ => f (tl (split_path path))
  | _ => Some []
  end.

Section Serve.
  Variable esc : N -> text.
  Variable alphanumeric : N -> bool.
  (** html.rs:8-219 and 221-228. *)
  Variables header footer : text.
  Variable o : options.

  Definition web_printer : printer := html_printer esc alphanumeric (o_http o).
  (** html.rs:241-250, [HtmlPrinter::new]. *)
  Definition web_start : html_state := html_start (N.to_nat (o_inline_depth o)).
  Definition print_web (d : pdoc) : text := fst (print_doc web_printer (o_http o) d web_start).
  Definition diff_web (d : ddoc) : text :=
    fst (fst (diff_doc web_printer (o_html o) (o_http o) d web_start false)).
  (** html.rs:252-260, [begin] and [end]; main.rs:551-557 for [-o html]. *)
  Definition whole_page (body : option text) : option text :=
    option_map (fun t => header ++ t ++ footer)%list body.

  Section Print.
    Variable pc : param_cmp.
    Variable fuel : nat.
    Variable im : image.
    (** [PrintIndex], and the ids that the items were given (file.rs:13-22). *)
    Definition print_index : list item_id * id_log := assign_ids (im_units im).

    (** file.rs:384-444, [print_id]: what is written. *)
    Definition print_id_response (id : nat) (detail : option string) : option text :=
      match print_id_item (im_units im) (fst print_index) id, detail with
      | None, _ => Some []
      | Some (ItFunction u f), Some d =>
          if String.eqb d "code"
          then option_map print_web (print_part o pc fuel im detail (ItFunction u f))
          else Some []
      | Some x, _ => option_map print_web (print_part o pc fuel im detail x)
      end.
    (** file.rs:371-382, [print_parent], and main.rs:640-646. *)
    Definition print_parent_response (id : nat) : option text :=
      Some match print_parent (im_units im) (fst print_index) (snd print_index) id with
           | Some p => dec (N.of_nat p)
           | None => []
           end.
    Definition print_page : option text := whole_page (option_map print_web (print_file o pc fuel im)).

    (** main.rs:615-661, [serve_print_file]. *)
    Definition serve_print_file (path : list string) : option text :=
      match path with
      | [] => Some []
      | part :: path' =>
          if String.eqb part "" then print_page
          else if String.eqb part "id" then
            match path' with
            | [] => Some []
            | id :: path'' =>
                match parse_usize id with
                | None => Some []
                | Some id =>
                    match path'' with
                    | [] => print_id_response (N.to_nat id) None
                    | detail :: _ =>
                        if String.eqb detail "parent" then print_parent_response (N.to_nat id)
                        else print_id_response (N.to_nat id) (Some detail)
                    end
                end
            end
          else Some []
      end.
  End Print.

  Section Compare.
    Variable choose : list N -> list N -> list (list N) -> nat -> nat.
    Variable pc : param_cmp.
    Variable fuel : nat.
    Variable ii : images.
    (** [DiffIndex] (file.rs:446-453). *)
    Definition diff_index : merged_state :=
      assign_merged_ids o pc (im_hash (is_a ii)) (im_units (is_a ii)) (im_hash (is_b ii)) (im_units (is_b ii)).

    (** file.rs:520-738, [diff_id]: what is written.  Items of one file are written by a new
        [PrintState] (for example 560-569). *)
    Definition part_web (p : part) : text :=
      match p with Printed d => print_web d | Compared d => diff_web d end.
    Definition diff_id_response (id : nat) : option text :=
      match diff_id_target (im_units (is_a ii)) (im_units (is_b ii)) (ms_ids diff_index) id with
      | DPanic => None
      | DNothing => Some []
      | x => option_map part_web (diff_part choose o pc fuel ii x)
      end.
    Definition diff_page : option text := whole_page (option_map diff_web (diff_file choose o pc fuel ii)).

    (** main.rs:572-607, [serve_diff_file]. *)
    Definition serve_diff_file (path : list string) : option text :=
      match path with
      | [] => Some []
      | part :: path' =>
          if String.eqb part "" then diff_page
          else if String.eqb part "id" then
            match path' with
            | [] => Some []
            | id :: path'' =>
                match parse_usize id with
                | None => Some []
                | Some id =>
                    match path'' with
                    | [] => diff_id_response (N.to_nat id)
                    | _ => Some []
                    end
                end
            end
          else Some []
      end.
  End Compare.

  Section Bloat.
    Variable units : list sized_unit.
    Variable totals : list (function_key * total).
    Variable m : N -> list caller.
    Variable ids : list item_id.

    Definition ok_web (d : outcome pdoc) : option text :=
      match d with Done d => Some (print_web d) | Panic => None end.
    (** file.rs:895-915, [bloat_id]: what is written. *)
    Definition bloat_id_response (id : nat) : option text :=
      match nth_error ids id with
      | Some (IdFunction ui fi) =>
          match bloat_id units m (ui, fi) with
          | None => Some []
          | Some d => ok_web d
          end
      | _ => Some []
      end.
    Definition bloat_page : option text := whole_page (ok_web (bloat_doc units totals m)).

    (** main.rs:669-698, [serve_bloat_file]. *)
    Definition serve_bloat_file (path : list string) : option text :=
      match path with
      | [] => Some []
      | part :: path' =>
          if String.eqb part "" then bloat_page
          else if String.eqb part "id" then
            match path' with
            | [] => Some []
            | id :: _ =>
                match parse_usize id with
                | None => Some []
                | Some id => bloat_id_response (N.to_nat id)
                end
            end
          else Some []
      end.
  End Bloat.
End Serve.
