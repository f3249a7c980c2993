(** Model of the output layer of /repo/main/src/print/mod.rs ([PrintState], [DiffState]),
    text.rs ([TextPrinter]) and html.rs ([HtmlPrinter], [HtmlValuePrinter]).

    The code writes output by calling methods of a state with closures for headers,
    bodies and values.  Here the calls made are a document ([pdoc] for [PrintState],
    [ddoc] for [DiffState]), and the states are interpreters of documents over a record
    of printer operations ([printer], for the trait [Printer]).  A closure reads neither
    the printer nor the flag [diff], so which calls it makes does not depend on them.
    Only finite documents are modelled.  Failing writes are not modelled, and neither are
    the debug assertions on [line_started] in html.rs.

    Text is a list of characters (code points).  Rust compares and tests buffers of
    UTF-8 bytes; the encoding is injective, and empty exactly for the empty list. *)
From Coq Require Import List Arith NArith Bool String Ascii DecimalString HexadecimalString.
Import ListNotations.

Definition text := list N.
Definition txt (s : string) : text := map N_of_ascii (list_ascii_of_string s).
Definition newline : text := [10%N].
Definition is_empty {A} (l : list A) : bool := match l with [] => true | _ => false end.
Fixpoint text_eqb (a b : text) : bool :=
  match a, b with
  | [], [] => true
  | x :: a', y :: b' => N.eqb x y && text_eqb a' b'
  | _, _ => false
  end.
(** [{}] and [{:x}] for an unsigned number. *)
Definition dec (n : N) : text := txt (DecimalString.NilZero.string_of_uint (N.to_uint n)).
Definition hex (n : N) : text := txt (HexadecimalString.NilZero.string_of_uint (N.to_hex_uint n)).
Definition spaces (n : nat) : text := repeat 32%N n.

(** What is written to a [ValuePrinter] (mod.rs:118-126): text, a name, or a link
    around other output. *)
Inductive value :=
| VNil
| VSeq (a b : value)
| VText (s : text)
| VName (s : text)
| VLink (id : nat) (v : value).

(** mod.rs:41-48, [DiffPrefix]. *)
Inductive prefix := XNone | XEqual | XDelete | XAdd | XModify.
Definition prefix_is_modify (p : prefix) : bool := match p with XModify => true | _ => false end.

(** mod.rs:70-116, the trait [Printer], for a printer with state [p_st].  The part of
    the state that is the output written so far is returned separately.  Callbacks also
    return a flag, which is passed through. *)
Record printer := mkPrinter {
  p_st : Type;
  p_value : value -> text;
  p_sub : p_st -> p_st;
  p_break : text;
  p_line : p_st -> text -> text -> text;
  p_line_diff : p_st -> text -> text -> text -> text * p_st;
  p_body : p_st -> p_st;
  p_header : bool -> text -> (p_st -> text * p_st * bool) -> p_st -> text * p_st * bool;
  p_id : nat -> (p_st -> text * p_st * bool) -> (p_st -> text * p_st * bool) -> p_st ->
    text * p_st * bool;
  p_detail : text -> text -> p_st -> text * p_st;
  p_prefix : prefix -> p_st -> p_st;
  p_get_prefix : p_st -> prefix;
  p_inline_begin : p_st -> option p_st;
  p_inline_end : p_st -> p_st;
  p_instruction : p_st -> option N -> text -> text -> text }.

(** ** PrintState *)

(** Calls made on a [PrintState] (mod.rs:143-372).  [collapsed] and [expanded] are
    [PTree], [field_collapsed] and [field_expanded] are [PSection]; [list] and
    [sort_list] are sequences of the documents of the items. *)
Inductive pdoc :=
| PNil
| PSeq (a b : pdoc)
| PLine (label : text) (v : value)
| PLabel (label : text)
| PBreak
| PTree (collapsed : bool) (header body : pdoc)
| PSection (collapsed : bool) (label : text) (body : pdoc)
| PDetail (id label : text) (body : pdoc)
| PId (id : nat) (header body : pdoc)
| PInline (d : pdoc)
| PInstruction (address : option N) (mnemonic : text) (v : value).

Section Interpreter.
  Variable P : printer.
  Local Notation S := (p_st P).

  Definition no_flag (f : S -> text * S) (s : S) : text * S * bool :=
    let '(t, s') := f s in (t, s', false).

  (** mod.rs:217-250, [PrintState::indent_impl]. *)
  Definition print_indent (optional collapsed : bool) (header body : S -> text * S) (s : S)
    : text * S :=
    let '(body_buf, _) := body (p_body P s) in
    if negb (is_empty body_buf) then
      let '(t, s', _) := p_header P collapsed body_buf (no_flag header) s in (t, s')
    else if negb optional then header s
    else ([], s).

  (** mod.rs:308-310, [label]. *)
  Definition print_label (label : text) (s : S) : text * S := (p_line P s label [], s).

  Section Print.
    (** [options.http]. *)
    Variable http : bool.

    Fixpoint print_doc (d : pdoc) (s : S) : text * S :=
      match d with
      | PNil => ([], s)
      | PSeq a b =>
          let '(ta, s1) := print_doc a s in
          let '(tb, s2) := print_doc b s1 in
          (ta ++ tb, s2)
      | PLine label v =>
          (* mod.rs:312-324 *)
          let buf := p_value P v in
          if is_empty buf then ([], s) else (p_line P s label buf, s)
      | PLabel label => print_label label s
      | PBreak => (p_break P, s)
      | PTree collapsed header body =>
          (* mod.rs:252-266 *)
          print_indent false collapsed (print_doc header) (print_doc body) s
      | PSection collapsed label body =>
          (* mod.rs:268-280 *)
          print_indent true collapsed (print_label label) (print_doc body) s
      | PDetail id label body =>
          (* mod.rs:206-215 *)
          if http then p_detail P id label s
          else print_indent true true (print_label label) (print_doc body) s
      | PId id header body =>
          (* mod.rs:178-204 *)
          let '(t, s', _) := p_id P id (no_flag (print_doc header)) (no_flag (print_doc body)) s in
          (t, s')
      | PInline d =>
          (* mod.rs:282-293 *)
          match p_inline_begin P s with
          | Some s1 => let '(t, s2) := print_doc d s1 in (t, p_inline_end P s2)
          | None => ([], s)
          end
      | PInstruction address mnemonic v =>
          (* mod.rs:347-356 *)
          (p_instruction P s address mnemonic (p_value P v), s)
      end.
  End Print.
End Interpreter.

(** ** DiffState *)

(** Calls made on a [DiffState] (mod.rs:374-852).  [prefix_delete] and [prefix_add] are
    [DDelete] and [DAdd], [print_if_diff] is [DIfDiff], [ignore_diff] is [DIgnore]. *)
Inductive ddoc :=
| DNil
| DSeq (a b : ddoc)
| DLine (label : text) (a b : value)
| DLabel (label : text)
| DBreak
| DTree (collapsed : bool) (header body : ddoc)
| DSection (collapsed : bool) (label : text) (body : ddoc)
| DId (id : nat) (header body : ddoc)
| DInline (d : ddoc)
| DDelete (d : pdoc)
| DAdd (d : pdoc)
| DBlock (a b : pdoc)
| DIfDiff (d : ddoc)
| DIgnore (flag : bool) (d : ddoc).

Section DiffInterpreter.
  Variable P : printer.
  Local Notation S := (p_st P).

  (** [header] and [body] run with a new [DiffState], whose flag they return. *)
  Definition diff_header (header : S -> bool -> text * S * bool) (diff : bool) (s : S)
    : text * S * bool :=
    header (p_prefix P (if diff then XModify else XEqual) s) false.
  Definition diff_body (body : S -> bool -> text * S * bool) (s : S) : text * bool :=
    let '(body_buf, _, diff) := body (p_prefix P XEqual (p_body P s)) false in (body_buf, diff).

  (** mod.rs:522-576, [DiffState::indent_impl]. *)
  Definition diff_indent (optional collapsed : bool) (header body : S -> bool -> text * S * bool)
      (s : S) (diff0 : bool) : text * S * bool :=
    let '(body_buf, diff) := diff_body body s in
    if negb (is_empty body_buf) then
      let '(t, s', diff') := p_header P collapsed body_buf (diff_header header diff) s in
      (t, s', diff0 || (diff || diff'))
    else if negb optional then header s diff0
    else ([], s, diff0).

  (** mod.rs:674-679, [label]. *)
  Definition keep_modify (s : S) : S :=
    if prefix_is_modify (p_get_prefix P s) then s else p_prefix P XEqual s.
  Definition diff_label (label : text) (s : S) (diff : bool) : text * S * bool :=
    let s' := keep_modify s in (p_line P s' label [], s', diff).

  (** mod.rs:681-716, [line_impl]. *)
  Definition diff_line (label : text) (va vb : value) (s : S) (diff : bool) : text * S * bool :=
    let a := p_value P va in
    let b := p_value P vb in
    if text_eqb a b then
      if is_empty a then ([], s, diff)
      else let s' := keep_modify s in (p_line P s' label a, s', diff)
    else if is_empty a then let s' := p_prefix P XAdd s in (p_line P s' label b, s', true)
    else if is_empty b then let s' := p_prefix P XDelete s in (p_line P s' label a, s', true)
    else let '(t, s') := p_line_diff P s label a b in (t, s', true).

  Section Diff.
    (** [options.html] and [options.http]. *)
    Variables html http : bool.

    Fixpoint diff_doc (d : ddoc) (s : S) (diff : bool) : text * S * bool :=
      match d with
      | DNil => ([], s, diff)
      | DSeq a b =>
          let '(ta, s1, f1) := diff_doc a s diff in
          let '(tb, s2, f2) := diff_doc b s1 f1 in
          (ta ++ tb, s2, f2)
      | DLine label a b => diff_line label a b s diff
      | DLabel label => diff_label label s diff
      | DBreak => (p_break P, s, diff)
      | DTree collapsed header body =>
          (* mod.rs:578-592 *)
          diff_indent false collapsed (diff_doc header) (diff_doc body) s diff
      | DSection collapsed label body =>
          (* mod.rs:594-606 *)
          diff_indent true collapsed (diff_label label) (diff_doc body) s diff
      | DId id header body =>
          (* mod.rs:472-520 *)
          let '(body_buf, f) := diff_body (diff_doc body) s in
          let '(t, s', f') := p_id P id (diff_header (diff_doc header) f)
                                (fun s => (body_buf, s, false)) s in
          (t, s', diff || (f || f'))
      | DInline d =>
          (* mod.rs:608-619 *)
          match p_inline_begin P s with
          | Some s1 => let '(t, s2, f) := diff_doc d s1 diff in (t, p_inline_end P s2, f)
          | None => ([], s, diff)
          end
      | DDelete d =>
          (* mod.rs:621-629 *)
          let '(t, s') := print_doc P http d (p_prefix P XDelete s) in (t, s', true)
      | DAdd d =>
          (* mod.rs:631-639 *)
          let '(t, s') := print_doc P http d (p_prefix P XAdd s) in (t, s', true)
      | DBlock a b =>
          (* mod.rs:642-668 *)
          let '(ta, s1) := print_doc P http a (p_prefix P XDelete (p_sub P s)) in
          let '(tb, _) := print_doc P http b (p_prefix P XAdd s1) in
          let buf := ta ++ tb in
          if negb (is_empty buf) then (buf, s, true) else ([], s, diff)
      | DIfDiff d =>
          (* mod.rs:435-457 *)
          let '(buf, _, f) := diff_doc d (p_sub P s) false in
          (if f || html then buf else [], s, diff || f)
      | DIgnore flag d =>
          (* mod.rs:460-470 *)
          let '(t, s', f) := diff_doc d s diff in (t, s', if flag then diff else f)
      end.
  End Diff.
End DiffInterpreter.

(** ** TextPrinter *)

(** text.rs:6-11. *)
Record text_state := mkText { ts_indent : nat; ts_prefix : prefix; ts_depth : nat }.

(** text.rs:23-38, [write_indent]. *)
Definition text_indent (s : text_state) : text :=
  match ts_prefix s with
  | XNone => []
  | XEqual | XModify => txt "  "
  | XDelete => txt "- "
  | XAdd => txt "+ "
  end ++ repeat 9%N (ts_indent s).

(** text.rs:185-212, [TextValuePrinter]. *)
Fixpoint text_value (v : value) : text :=
  match v with
  | VNil => []
  | VSeq a b => text_value a ++ text_value b
  | VText s => s
  | VName s => s
  | VLink _ v => text_value v
  end.

(** text.rs:75-86, [line]. *)
Definition text_line (s : text_state) (label buf : text) : text :=
  text_indent s ++
  (if is_empty label then [] else label ++ txt ":" ++ (if is_empty buf then [] else txt " ")) ++
  buf ++ newline.

Definition text_set_prefix (p : prefix) (s : text_state) : text_state :=
  mkText (ts_indent s) p (ts_depth s).
Definition text_indented (s : text_state) : text_state :=
  mkText (S (ts_indent s)) (ts_prefix s) (ts_depth s).

(** [write!(w, "{:w$}", x)] for a number (aligned to the right) or a string (to the
    left). *)
Definition pad_left (w : nat) (t : text) : text := spaces (w - List.length t) ++ t.
Definition pad_right (w : nat) (t : text) : text := t ++ spaces (w - List.length t).

(** text.rs:161-182, [instruction]. *)
Definition text_instruction (s : text_state) (address : option N) (mnemonic buf : text) : text :=
  text_indent s ++
  match address with
  | Some a => pad_left 3 (hex a) ++ txt ":  "
  | None => pad_right 3 [] ++ txt "   "
  end ++
  (if is_empty mnemonic then pad_right 6 [] ++ txt " " else pad_right 6 mnemonic) ++
  (if is_empty buf then [] else txt " " ++ buf) ++ newline.

(** text.rs:41-183.  [indent_detail] is unreachable: it is called only with
    [options.http], which comes with the HTML printer. *)
Definition text_printer : printer := {|
  p_st := text_state;
  p_value := text_value;
  p_sub := fun s => s;
  p_break := newline;
  p_line := text_line;
  p_line_diff := fun s label a b =>
    let s1 := text_set_prefix XDelete s in
    let t1 := text_line s1 label a in
    let s2 := text_set_prefix XAdd s1 in
    (t1 ++ text_line s2 label b, s2);
  p_body := text_indented;
  p_header := fun _ body header s => let '(t, s', f) := header s in (t ++ body, s', f);
  p_id := fun _ header body s =>
    let '(t, s', f) := header s in
    let '(t2, _, f2) := body (text_indented s') in
    (t ++ t2, s', f || f2);
  p_detail := fun _ _ s => ([], s);
  p_prefix := text_set_prefix;
  p_get_prefix := ts_prefix;
  p_inline_begin := fun s =>
    match ts_depth s with O => None | S n => Some (mkText (ts_indent s) (ts_prefix s) n) end;
  p_inline_end := fun s => mkText (ts_indent s) (ts_prefix s) (S (ts_depth s));
  p_instruction := text_instruction |}.

(** text.rs:13-21, [TextPrinter::new]. *)
Definition text_start (inline_depth : nat) : text_state := mkText 0 XNone inline_depth.

(** ** HtmlPrinter *)

(** html.rs:230-238; [indent] is not used for output. *)
Record html_state := mkHtml { hs_prefix : prefix; hs_depth : nat; hs_line_started : bool }.

Section Html.
  (** The crate marksman_escape: what a character is replaced by. *)
  Variable esc : N -> text.
  (** [char::is_alphanumeric]. *)
  Variable alphanumeric : N -> bool.
  (** [options.http]. *)
  Variable http : bool.

  (** html.rs:463-469, [escaped] and [escaped_str]. *)
  Definition escaped (s : text) : text := flat_map esc s.

  (** html.rs:506-575: the loop of [name]. *)
  Record short_state := mkShort {
    sh_generic : nat; sh_colon : bool; sh_brace : nat; sh_result : text; sh_s : text }.
  Definition short_step (st : short_state) (c : N) : short_state :=
    let 'mkShort generic colon brace result s := st in
    if N.eqb c 123 then mkShort generic colon (S brace) result (s ++ [c])
    else if N.eqb c 125 then mkShort generic colon (pred brace) result (s ++ [c])
    else if 0 <? brace then mkShort generic colon brace result (s ++ [c])
    else if N.eqb c 60 then
      let result1 := result ++ s in
      let generic1 := S generic in
      let result2 := if generic1 <=? 2 then result1 ++ [c] else result1 in
      let result3 := if generic1 =? 2 then result2 ++ txt "..." else result2 in
      mkShort generic1 colon brace result3 []
    else if N.eqb c 62 then
      let '(result1, s1) := if generic <=? 2 then (result ++ s ++ [c], []) else (result, s) in
      mkShort (pred generic) colon brace result1 s1
    else if generic =? 0 then mkShort generic colon brace (result ++ [c]) s
    else if 2 <=? generic then st
    else if N.eqb c 58 then
      if negb colon then mkShort generic true brace result (s ++ [c])
      else mkShort generic false brace result []
    else if N.eqb c 95 || alphanumeric c then mkShort generic colon brace result (s ++ [c])
    else mkShort generic colon brace (result ++ s ++ [c]) [].
  Definition short_name (name : text) : text :=
    let st := fold_left short_step name (mkShort 0 false 0 [] []) in sh_result st ++ sh_s st.

  (** html.rs:471-590, [HtmlValuePrinter]. *)
  Fixpoint html_value (v : value) : text :=
    match v with
    | VNil => []
    | VSeq a b => html_value a ++ html_value b
    | VText s => escaped s
    | VName name =>
        let result := short_name name in
        if negb (text_eqb name result) then
          txt "<span title=""" ++ escaped name ++ txt """>" ++ escaped result ++ txt "</span>"
        else escaped name
    | VLink id v =>
        if id =? 0 then html_value v
        else txt "<a class=""link"" data-link=""" ++ dec (N.of_nat id) ++ txt """ href=""#" ++
             dec (N.of_nat id) ++ txt """>" ++ html_value v ++ txt "</a>"
    end.

  Definition html_li (s : html_state) : text := if hs_line_started s then [] else txt "<li>".
  Definition html_li_end (s : html_state) : text :=
    if hs_line_started s then [] else txt "</li>" ++ newline.

  (** html.rs:301-336, [line]. *)
  Definition html_line (s : html_state) (label buf : text) : text :=
    html_li s ++
    (if is_empty buf then
       txt "<span" ++ (if prefix_is_modify (hs_prefix s) then txt " class=""field mod""" else []) ++
       txt ">" ++ label ++ txt ":</span>"
     else
       (if is_empty label then [] else txt "<span class=""field"">" ++ label ++ txt ":</span> ") ++
       txt "<span" ++
       match hs_prefix s with
       | XNone | XEqual => txt " class=""field"""
       | XModify => txt " class=""field mod"""
       | XDelete => txt " class=""field del"""
       | XAdd => txt " class=""field add"""
       end ++ txt ">" ++ buf ++ txt "</span>") ++
    html_li_end s.

  (** html.rs:338-354, [line_diff]. *)
  Definition html_line_diff (s : html_state) (label a b : text) : text :=
    html_li s ++
    (if is_empty label then [] else txt "<span class=""field"">" ++ label ++ txt ":</span> ") ++
    txt "<span class=""field""><span class=""del"">" ++ a ++ txt "</span><br>" ++ newline ++
    txt "<span class=""add"">" ++ b ++ txt "</span></span>" ++
    html_li_end s.

  Definition html_started (b : bool) (s : html_state) : html_state :=
    mkHtml (hs_prefix s) (hs_depth s) b.

  (** html.rs:451-460, [instruction]. *)
  Definition html_instruction (s : html_state) (address : option N) (mnemonic buf : text) : text :=
    txt "<tr><td>" ++ match address with Some a => hex a | None => [] end ++
    txt "</td><td>" ++ mnemonic ++ txt "</td><td>" ++ buf ++ txt "</td></tr>".

  (** html.rs:263-461. *)
  Definition html_printer : printer := {|
    p_st := html_state;
    p_value := html_value;
    p_sub := fun s => s;
    p_break := [];
    p_line := html_line;
    p_line_diff := fun s label a b => (html_line_diff s label a b, s);
    p_body := html_started false;
    p_header := fun collapsed body header s =>
      let '(t, s', f) := header (html_started true s) in
      (txt "<li class=""treebranch"">" ++ t ++
       (if collapsed then txt "<ul style=""display:none"">" else txt "<ul>") ++ newline ++
       body ++ txt "</ul></li>" ++ newline, html_started false s', f);
    p_id := fun id header body s =>
      let '(t, s1, f) := header (html_started true s) in
      let '(t2, s2, f2) := if http then ([], html_started false s1, false)
                           else body (html_started false s1) in
      (txt "<li class=""treebranch" ++ (if http then txt " lazy" else []) ++ txt """ id=""" ++
       dec (N.of_nat id) ++ txt """>" ++ t ++ txt "<ul style=""display:none"">" ++ newline ++
       t2 ++ txt "</ul></li>" ++ newline, s2, f || f2);
    p_detail := fun id label s =>
      (txt "<li class=""detail"" data-detail=""" ++ id ++ txt """>" ++
       html_line (html_started true s) label [] ++ txt "</li>" ++ newline, html_started false s);
    p_prefix := fun p s => mkHtml p (hs_depth s) (hs_line_started s);
    p_get_prefix := hs_prefix;
    p_inline_begin := fun s =>
      match hs_depth s with
      | O => None
      | S n => Some (mkHtml (hs_prefix s) n (hs_line_started s))
      end;
    p_inline_end := fun s => mkHtml (hs_prefix s) (S (hs_depth s)) (hs_line_started s);
    p_instruction := html_instruction |}.

  (** html.rs:241-250, [HtmlPrinter::new]. *)
  Definition html_start (inline_depth : nat) : html_state := mkHtml XNone inline_depth false.
End Html.
