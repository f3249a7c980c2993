(** The outline of a page: its entries, with the names in full, and how deep they are nested.
    Independent of the printer. *)
From Coq Require Import List Arith NArith Bool String.
From Verif Require Import OptionsModel PrintModel PrintSpec HtmlSpec MarkSpec.
Import ListNotations.

(** While a page is read: the number of lists around, the text of the current entry or cell, whether
    that is now in a name that is not shown in full, and the cells of the current row. *)
Record spot := mkSpot { sp_indent : nat; sp_entry : option text; sp_short : bool; sp_cells : list text }.

(** An entry without text is not a line. *)
Definition entry_line (s : spot) : list line :=
  match sp_entry s with Some (c :: t) => [Line (sp_indent s) (c :: t)] | _ => [] end.
Definition with_entry (e : option text) (s : spot) : spot := mkSpot (sp_indent s) e (sp_short s) (sp_cells s).

(** The cells of an instruction as they are aligned in the text output. *)
Definition row_text (cells : list text) : text :=
  match cells with
  | [address; mnemonic; rest] =>
      match address with [] => spaces 6 | _ => spaces (3 - List.length address) ++ address ++ txt ":  " end ++
      match mnemonic with [] => spaces 7 | _ => mnemonic ++ spaces (6 - List.length mnemonic) end ++
      match rest with [] => [] | _ => txt " " ++ rest end
  | _ => []
  end.

Section Outline.
  Variable unescape : text -> text.

  (** An entry ends where it is closed or where the list in it starts. *)
  Definition read_event (e : event) (s : spot) : list line * spot :=
    match e with
    | Chars t =>
        ([], match sp_entry s with Some b => if sp_short s then s else with_entry (Some (b ++ t)) s | None => s end)
    | Open n l =>
        if text_eqb n (txt "li") || text_eqb n (txt "td") then ([], with_entry (Some []) s)
        else if text_eqb n (txt "tr") then ([], mkSpot (sp_indent s) (sp_entry s) (sp_short s) [])
        else if text_eqb n (txt "ul") then (entry_line s, mkSpot (S (sp_indent s)) None (sp_short s) (sp_cells s))
        else match title_of l, sp_entry s with
             | Some v, Some b => ([], mkSpot (sp_indent s) (Some (b ++ unescape v)) true (sp_cells s))
             | _, _ => ([], s)
             end
    | Close n =>
        if text_eqb n (txt "li") then (entry_line s, with_entry None s)
        else if text_eqb n (txt "td") then
          ([], mkSpot (sp_indent s) None (sp_short s) (sp_cells s ++ match sp_entry s with Some b => [b] | None => [] end))
        else if text_eqb n (txt "tr") then ([Line (sp_indent s) (row_text (sp_cells s))], mkSpot (sp_indent s) (sp_entry s) (sp_short s) [])
        else if text_eqb n (txt "ul") then ([], mkSpot (pred (sp_indent s)) None (sp_short s) (sp_cells s))
        else if text_eqb n (txt "span") then ([], mkSpot (sp_indent s) (sp_entry s) false (sp_cells s))
        else ([], s)
    end.
  Fixpoint read_events (es : list event) (s : spot) : list line * spot :=
    match es with
    | [] => ([], s)
    | e :: es =>
        let '(a, s1) := read_event e s in
        let '(b, s2) := read_events es s1 in (a ++ b, s2)
    end.
  Definition outline (es : list event) : list line := fst (read_events es (mkSpot 0 None false [])).
End Outline.

(** Lines without the blank ones, and lines that stand deeper. *)
Definition is_filled (l : line) : bool := match l with Blank => false | Line _ _ => true end.
Definition filled (ls : list line) : list line := filter is_filled ls.
Definition deeper (n : nat) (ls : list line) : list line :=
  map (fun l => match l with Blank => Blank | Line i t => Line (n + i) t end) ls.

(** One unit of the output: its name, and the lines of its own fields, of its types, of each of its
    functions, with whether it has a size, and of its variables, as in the text output. *)
Record unit_part := mkPart {
  up_name : text; up_fields : list line; up_types : list line; up_functions : list (bool * list line); up_variables : list line }.
(** The text output lists them one after the other; the name and the fields only if they are requested. *)
Definition as_text (named : bool) (u : unit_part) : list line :=
  (if named then Line 0 (up_name u) :: deeper 1 (up_fields u) else []) ++
  up_types u ++ flat_map snd (up_functions u) ++ up_variables u.
(** The page has one entry for the unit, and lists in it with titles. *)
Definition titled (title : string) (ls : list line) : list line :=
  match filled ls with [] => [] | _ => Line 1 (txt title ++ txt ":") :: deeper 2 (filled ls) end.
Definition on_page (named : bool) (u : unit_part) : list line :=
  Line 0 (up_name u) :: (if named then deeper 1 (filled (up_fields u)) else []) ++
  titled "types" (up_types u) ++
  titled "functions" (flat_map snd (filter fst (up_functions u))) ++
  titled "inlined functions" (flat_map snd (filter (fun f => negb (fst f)) (up_functions u))) ++
  titled "variables" (up_variables u).

(** The same options but for the output. *)
Definition with_html (html : bool) (o : options) : options :=
  mkOptions (o_print o) (o_inline_depth o) html (o_http o) (o_category o) (o_filter o) (o_sort o) (o_ignore o) (o_prefix_map o).
