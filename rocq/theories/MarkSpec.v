(** What a page of a comparison marks as deleted and added, read from the page, and what it
    should mark.  Independent of the printer. *)
From Coq Require Import List Arith NArith Bool String.
From Verif Require Import PrintModel HtmlSpec.
Import ListNotations.

Inductive mark := Kept | Deleted | Added.

(** How an element with these attributes marks what is in it, if it does. *)
Definition mark_of (l : list (text * text)) : option mark :=
  let has c := existsb (fun p => text_eqb (fst p) (txt "class") && text_eqb (snd p) (txt c)) l in
  if has "del"%string || has "field del"%string then Some Deleted
  else if has "add"%string || has "field add"%string then Some Added
  else None.

(** The open elements, each with what applies in it. *)
Definition inside (st : list (text * mark)) : mark := match st with (_, m) :: _ => m | [] => Kept end.
Definition enter (n : text) (l : list (text * text)) (st : list (text * mark)) : list (text * mark) :=
  (n, match mark_of l with Some m => m | None => inside st end) :: st.

(** The text of a page as [content], each character with how it is marked. *)
Definition tagged (m : mark) (t : text) : list (mark * N) := map (pair m) t.
Fixpoint marked (es : list event) (st : list (text * mark)) : list (mark * N) :=
  match es with
  | [] => []
  | Chars t :: es => (if existsb for_text (map fst st) then tagged (inside st) t else []) ++ marked es st
  | Open n l :: es => if text_eqb n (txt "br") then marked es st else marked es (enter n l st)
  | Close _ :: es => marked es (tl st)
  end.

Section Page.
  (** How names are shown, and whether two values are displayed in the same way. *)
  Variable short : text -> text.
  Variable http : bool.
  Variable same : value -> value -> bool.

  (** Of a part of one file, values are marked; labels and instructions are not. *)
  Fixpoint side_marks (m : mark) (depth : nat) (d : pdoc) : list (mark * N) :=
    match d with
    | PNil | PBreak => []
    | PSeq a b => side_marks m depth a ++ side_marks m depth b
    | PLine l v => if nothing short v then [] else tagged Kept (label_text l) ++ tagged m (shown short v)
    | PLabel l => tagged Kept (l ++ txt ":")
    | PTree _ h b => side_marks m depth h ++ side_marks m depth b
    | PSection _ l b => if silent short http depth b then [] else tagged Kept (l ++ txt ":") ++ side_marks m depth b
    | PDetail _ l b =>
        if http then tagged Kept (l ++ txt ":")
        else if silent short http depth b then [] else tagged Kept (l ++ txt ":") ++ side_marks m depth b
    | PId _ h b => side_marks m depth h ++ (if http then [] else side_marks m depth b)
    | PInline d => match depth with O => [] | S n => side_marks m n d end
    | PInstruction _ _ _ => tagged Kept (words short http depth d)
    end.

  (** Of a comparison: what is in the first file only is marked as deleted, what is in the
      second only as added, and what is displayed in the same way as neither. *)
  Fixpoint diff_marks (depth : nat) (d : ddoc) : list (mark * N) :=
    match d with
    | DNil | DBreak => []
    | DSeq a b => diff_marks depth a ++ diff_marks depth b
    | DLine l a b =>
        if same a b then if nothing short a then [] else tagged Kept (label_text l ++ shown short a)
        else tagged Kept (label_text l) ++ tagged Deleted (shown short a) ++
          (if nothing short a || nothing short b then [] else tagged Kept newline) ++ tagged Added (shown short b)
    | DLabel l => tagged Kept (l ++ txt ":")
    | DTree _ h b => diff_marks depth h ++ diff_marks depth b
    | DSection _ l b => if silent_diff short http depth b then [] else tagged Kept (l ++ txt ":") ++ diff_marks depth b
    | DId _ h b => diff_marks depth h ++ (if http then [] else diff_marks depth b)
    | DInline d => match depth with O => [] | S n => diff_marks n d end
    | DDelete d => side_marks Deleted depth d
    | DAdd d => side_marks Added depth d
    | DBlock a b => side_marks Deleted depth a ++ side_marks Added depth b
    | DIfDiff d | DIgnore _ d => diff_marks depth d
    end.
End Page.

(** What a reader sees who leaves out one kind of text. *)
Definition without (m : mark) (l : list (mark * N)) : text :=
  map snd (filter (fun p => match fst p, m with Deleted, Deleted | Added, Added => false | _, _ => true end) l).

(** The text of a value, read from its HTML: of what is shortened, the full name. *)
Definition title_of (l : list (text * text)) : option text :=
  option_map snd (find (fun p => text_eqb (fst p) (txt "title")) l).
Fixpoint in_full (unescape : text -> text) (es : list event) (shortened : bool) : text :=
  match es with
  | [] => []
  | Chars t :: es => (if shortened then [] else t) ++ in_full unescape es shortened
  | Open _ l :: es =>
      match title_of l with
      | Some v => unescape v ++ in_full unescape es true
      | None => in_full unescape es shortened
      end
  | Close n :: es => in_full unescape es (shortened && negb (text_eqb n (txt "span")))
  end.
