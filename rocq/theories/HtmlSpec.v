(** Reading HTML: a tokeniser for the markup of the pages, the nesting of elements, and
    what a page shows.  Independent of the printer. *)
From Coq Require Import List Arith NArith Bool String.
From Verif Require Import PrintModel PrintSpec.
Import ListNotations.

Inductive event :=
| Chars (t : text)
| Open (name : text) (attributes : list (text * text))
| Close (name : text).

Inductive mode :=
| InText (run : text)
| InName (name : text)
| InAttribute (name : text) (attributes : list (text * text)) (a : text)
| BeforeValue (name : text) (attributes : list (text * text)) (a : text)
| InValue (name : text) (attributes : list (text * text)) (a v : text)
| AfterValue (name : text) (attributes : list (text * text)).

Section Read.
  (** Replaces character references by characters. *)
  Variable unescape : text -> text.

  Definition chars (run : text) : list event :=
    match run with [] => [] | _ => [Chars (unescape run)] end.
  Definition tag (name : text) (attributes : list (text * text)) : event :=
    match name with
    | 47%N :: n => Close n
    | _ => Open name attributes
    end.

  (** Text may not contain a less-than or greater-than sign, attribute values are quoted
      and may not contain these or a quote. *)
  Fixpoint scan (t : text) (m : mode) : option (list event) :=
    match t with
    | [] => match m with InText run => Some (chars run) | _ => None end
    | c :: t' =>
        match m with
        | InText run =>
            if N.eqb c 60 then option_map (app (chars run)) (scan t' (InName []))
            else if N.eqb c 62 then None
            else scan t' (InText (run ++ [c]))
        | InName n =>
            if N.eqb c 62 then option_map (cons (tag n [])) (scan t' (InText []))
            else if N.eqb c 32 then scan t' (InAttribute n [] [])
            else scan t' (InName (n ++ [c]))
        | InAttribute n l a =>
            if N.eqb c 61 then scan t' (BeforeValue n l a)
            else scan t' (InAttribute n l (a ++ [c]))
        | BeforeValue n l a => if N.eqb c 34 then scan t' (InValue n l a []) else None
        | InValue n l a v =>
            if N.eqb c 34 then scan t' (AfterValue n (l ++ [(a, v)]))
            else if N.eqb c 60 || N.eqb c 62 then None
            else scan t' (InValue n l a (v ++ [c]))
        | AfterValue n l =>
            if N.eqb c 62 then option_map (cons (tag n l)) (scan t' (InText []))
            else if N.eqb c 32 then scan t' (InAttribute n l [])
            else None
        end
    end.
  Definition read_html (t : text) : option (list event) := scan t (InText []).

  (** The full names given with names that are not shown in full. *)
  Definition event_titles (e : event) : list text :=
    match e with
    | Open _ l => map (fun p => unescape (snd p)) (filter (fun p => text_eqb (fst p) (txt "title")) l)
    | _ => []
    end.
  Definition titles (es : list event) : list text := flat_map event_titles es.
End Read.

(** The open elements after some events, if these are properly nested. *)
Fixpoint nest (es : list event) (stack : list text) : option (list text) :=
  match es with
  | [] => Some stack
  | Chars _ :: es => nest es stack
  | Open n _ :: es => if text_eqb n (txt "br") then nest es stack else nest es (n :: stack)
  | Close n :: es =>
      match stack with
      | n' :: stack' => if text_eqb n n' then nest es stack' else None
      | [] => None
      end
  end.

(** The text in elements for text, in the order of the page. *)
Definition for_text (n : text) : bool := text_eqb n (txt "span") || text_eqb n (txt "td").
Fixpoint content (es : list event) (stack : list text) : text :=
  match es with
  | [] => []
  | Chars t :: es => (if existsb for_text stack then t else []) ++ content es stack
  | Open n _ :: es => if text_eqb n (txt "br") then content es stack else content es (n :: stack)
  | Close n :: es => content es (tl stack)
  end.

Definition tags : list text :=
  map txt ["li"; "ul"; "span"; "a"; "br"; "tr"; "td"]%string.
Definition known (e : event) : Prop :=
  match e with Chars _ => True | Open n _ => In n tags | Close n => In n tags end.

(** Attributes that mark something as changed. *)
Definition marks : list text :=
  map txt ["field mod"; "field del"; "field add"; "mod"; "del"; "add"]%string.
Definition unmarked (e : event) : Prop :=
  match e with
  | Open _ l => forall v, In (txt "class", v) l -> ~ In v marks
  | _ => True
  end.

(** What the library for escaping has to do. *)
Record escape_ok (esc : N -> text) (unescape : text -> text) : Prop := {
  esc_safe : forall c x, In x (esc c) -> x <> 60%N /\ x <> 62%N /\ x <> 34%N;
  esc_inverse : forall s, unescape (flat_map esc s) = s;
  esc_plain : forall c, In c (txt "0123456789abcdef: " ++ newline) -> esc c = [c] }.

Section Page.
  Variable esc : N -> text.
  (** How names are shown. *)
  Variable short : text -> text.
  Variable http : bool.

  (** What is shown of a value, and the names that are not shown in full. *)
  Fixpoint shown (v : value) : text :=
    match v with
    | VNil => []
    | VSeq a b => shown a ++ shown b
    | VText s => s
    | VName s => short s
    | VLink _ v => shown v
    end.
  Fixpoint hover (v : value) : list text :=
    match v with
    | VNil | VText _ => []
    | VSeq a b => hover a ++ hover b
    | VName s => if text_eqb s (short s) then [] else [s]
    | VLink _ v => hover v
    end.
  (** There is no output for a value; an empty link counts as output. *)
  Fixpoint nothing (v : value) : bool :=
    match v with
    | VNil => true
    | VSeq a b => nothing a && nothing b
    | VText s => is_empty s
    | VName s => text_eqb s (short s) && is_empty s
    | VLink id v => (id =? 0) && nothing v
    end.

  Definition label_text (l : text) : text := match l with [] => [] | _ => l ++ txt ":" end.

  Fixpoint silent (depth : nat) (d : pdoc) : bool :=
    match d with
    | PNil | PBreak => true
    | PSeq a b => silent depth a && silent depth b
    | PLine _ v => nothing v
    | PLabel _ | PId _ _ _ | PInstruction _ _ _ => false
    | PTree _ h b => silent depth b && silent depth h
    | PSection _ _ b => silent depth b
    | PDetail _ _ b => negb http && silent depth b
    | PInline d => match depth with O => true | S n => silent n d end
    end.

  (** Text and full names of a document. *)
  Fixpoint words (depth : nat) (d : pdoc) : text :=
    match d with
    | PNil | PBreak => []
    | PSeq a b => words depth a ++ words depth b
    | PLine l v => if nothing v then [] else label_text l ++ shown v
    | PLabel l => l ++ txt ":"
    | PTree _ h b => words depth h ++ words depth b
    | PSection _ l b => if silent depth b then [] else l ++ txt ":" ++ words depth b
    | PDetail _ l b =>
        if http then l ++ txt ":"
        else if silent depth b then [] else l ++ txt ":" ++ words depth b
    | PId _ h b => words depth h ++ (if http then [] else words depth b)
    | PInline d => match depth with O => [] | S n => words n d end
    | PInstruction a m v => match a with Some a => hex a | None => [] end ++ m ++ shown v
    end.
  Fixpoint full_names (depth : nat) (d : pdoc) : list text :=
    match d with
    | PNil | PBreak | PLabel _ => []
    | PSeq a b => full_names depth a ++ full_names depth b
    | PLine _ v | PInstruction _ _ v => hover v
    | PTree _ h b => full_names depth h ++ full_names depth b
    | PSection _ _ b => full_names depth b
    | PDetail _ _ b => if http then [] else full_names depth b
    | PId _ h b => full_names depth h ++ (if http then [] else full_names depth b)
    | PInline d => match depth with O => [] | S n => full_names n d end
    end.

  (** The same for a comparison, given which pairs of values are displayed in the same
      way.  Everything is shown. *)
  Variable same : value -> value -> bool.

  Fixpoint silent_diff (depth : nat) (d : ddoc) : bool :=
    match d with
    | DNil | DBreak => true
    | DSeq a b => silent_diff depth a && silent_diff depth b
    | DLine _ a b => nothing a && nothing b
    | DLabel _ | DId _ _ _ => false
    | DTree _ h b => silent_diff depth b && silent_diff depth h
    | DSection _ _ b => silent_diff depth b
    | DInline d => match depth with O => true | S n => silent_diff n d end
    | DDelete d | DAdd d => silent depth d
    | DBlock a b => silent depth a && silent depth b
    | DIfDiff d | DIgnore _ d => silent_diff depth d
    end.
  Fixpoint words_diff (depth : nat) (d : ddoc) : text :=
    match d with
    | DNil | DBreak => []
    | DSeq a b => words_diff depth a ++ words_diff depth b
    | DLine l a b =>
        if same a b then words depth (PLine l a)
        else if nothing a then words depth (PLine l b)
        else if nothing b then words depth (PLine l a)
        else label_text l ++ shown a ++ newline ++ shown b
    | DLabel l => l ++ txt ":"
    | DTree _ h b => words_diff depth h ++ words_diff depth b
    | DSection _ l b => if silent_diff depth b then [] else l ++ txt ":" ++ words_diff depth b
    | DId _ h b => words_diff depth h ++ (if http then [] else words_diff depth b)
    | DInline d => match depth with O => [] | S n => words_diff n d end
    | DDelete d | DAdd d => words depth d
    | DBlock a b => words depth a ++ words depth b
    | DIfDiff d | DIgnore _ d => words_diff depth d
    end.
  Fixpoint full_names_diff (depth : nat) (d : ddoc) : list text :=
    match d with
    | DNil | DBreak | DLabel _ => []
    | DSeq a b => full_names_diff depth a ++ full_names_diff depth b
    | DLine _ a b => if same a b then hover a else hover a ++ hover b
    | DTree _ h b => full_names_diff depth h ++ full_names_diff depth b
    | DSection _ _ b => full_names_diff depth b
    | DId _ h b => full_names_diff depth h ++ (if http then [] else full_names_diff depth b)
    | DInline d => match depth with O => [] | S n => full_names_diff n d end
    | DDelete d | DAdd d => full_names depth d
    | DBlock a b => full_names depth a ++ full_names depth b
    | DIfDiff d | DIgnore _ d => full_names_diff depth d
    end.

  (** Labels, mnemonics and the names of details are parts of the program, not data; they
      have no characters that need escaping. *)
  Definition plain (t : text) : Prop := flat_map esc t = t.
  Fixpoint plain_doc (d : pdoc) : Prop :=
    match d with
    | PNil | PBreak => True
    | PSeq a b | PTree _ a b | PId _ a b => plain_doc a /\ plain_doc b
    | PLine l _ | PLabel l => plain l
    | PSection _ l b => plain l /\ plain_doc b
    | PDetail i l b => plain i /\ plain l /\ plain_doc b
    | PInline d => plain_doc d
    | PInstruction _ m _ => plain m
    end.
  Fixpoint plain_diff (d : ddoc) : Prop :=
    match d with
    | DNil | DBreak => True
    | DSeq a b | DTree _ a b | DId _ a b => plain_diff a /\ plain_diff b
    | DLine l _ _ | DLabel l => plain l
    | DSection _ l b => plain l /\ plain_diff b
    | DInline d | DIfDiff d | DIgnore _ d => plain_diff d
    | DDelete d | DAdd d => plain_doc d
    | DBlock a b => plain_doc a /\ plain_doc b
    end.

  (** All values are displayed in the same way on both sides, and nothing is deleted or
      added. *)
  Fixpoint identical_html (depth : nat) (d : ddoc) : Prop :=
    match d with
    | DNil | DLabel _ | DBreak => True
    | DSeq a b | DTree _ a b | DId _ a b => identical_html depth a /\ identical_html depth b
    | DLine _ a b => same a b = true
    | DSection _ _ d | DIfDiff d | DIgnore _ d => identical_html depth d
    | DInline d => match depth with O => True | S n => identical_html n d end
    | DDelete _ | DAdd _ => False
    | DBlock a b => silent depth a = true /\ silent depth b = true
    end.
End Page.
