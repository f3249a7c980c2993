(** What is marked on a page of a comparison. *)
From Coq Require Import List Arith NArith Bool String Ascii Lia.
From Verif Require Import PrintModel PrintSpec PrintProofs HtmlSpec HtmlProofs MarkSpec.
Import ListNotations.

Lemma tagged_app m a b : tagged m (a ++ b) = tagged m a ++ tagged m b.
Proof. apply map_app. Qed.

(** The open elements after some events. *)
Fixpoint after (es : list event) (st : list (text * mark)) : list (text * mark) :=
  match es with
  | [] => st
  | Chars _ :: es => after es st
  | Open n l :: es => if text_eqb n (txt "br") then after es st else after es (enter n l st)
  | Close _ :: es => after es (tl st)
  end.
Lemma after_app a b : forall st, after (a ++ b) st = after b (after a st).
Proof.
  induction a as [|[t|n l|n] a IH]; intros st; cbn [after app]; [reflexivity|apply IH| |apply IH].
  destruct (text_eqb n (txt "br")); apply IH.
Qed.
Lemma marked_app a b : forall st, marked (a ++ b) st = marked a st ++ marked b (after a st).
Proof.
  induction a as [|[t|n l|n] a IH]; intros st; cbn [after marked app]; [reflexivity| | |apply IH].
  - rewrite IH. apply app_assoc.
  - destruct (text_eqb n (txt "br")); apply IH.
Qed.

Section Marks.
  Variables (esc : N -> text) (unescape : text -> text) (alphanumeric : N -> bool) (http : bool).
  Hypothesis OK : escape_ok esc unescape.

  Local Notation esct := (escaped esc).
  Local Notation HP := (html_printer esc alphanumeric http).
  Local Notation short := (short_name alphanumeric).
  Local Notation html_value := (html_value esc alphanumeric).
  Local Notation reads := (reads esc unescape).

  (** A piece [t] of a page, in an element for text or not, where [m] applies. *)
  Definition place (i : bool) (m : mark) (st : list (text * mark)) : Prop :=
    existsb for_text (map fst st) = i /\ inside st = m.
  Definition part (i : bool) (m : mark) (t : text) (w : list (mark * N)) : Prop := exists es,
    reads t es /\ (forall st, after es st = st) /\ (forall st, place i m st -> marked es st = w).

  Lemma part_nil i m : part i m [] [].
  Proof. exists []. split; [apply (reads_nil esc)|]. split; reflexivity. Qed.
  Lemma part_app i m t1 t2 w1 w2 : part i m t1 w1 -> part i m t2 w2 -> part i m (t1 ++ t2) (w1 ++ w2).
  Proof.
    intros (e1 & R1 & A1 & M1) (e2 & R2 & A2 & M2). exists (e1 ++ e2).
    split; [now apply reads_app|]. split; [intros st; now rewrite after_app, A1|].
    intros st P. rewrite marked_app, A1, (M1 st P), (M2 st P). reflexivity.
  Qed.
  Lemma part_text m t : part true m (esct t) (tagged m t).
  Proof.
    exists [Chars t]. split; [now apply reads_text|]. split; [reflexivity|]. intros st [P I]. cbn [marked].
    rewrite P, I. apply app_nil_r.
  Qed.
  Lemma part_inside m t : plain esc t -> part true m t (tagged m t).
  Proof. intros P. pose proof (part_text m t) as Q. unfold escaped in Q. now rewrite P in Q. Qed.
  Lemma part_outside m t : plain esc t -> part false m t [].
  Proof.
    intros P. exists [Chars t]. split; [now apply reads_plain|]. split; [reflexivity|]. intros st [Q _]. cbn [marked].
    now rewrite Q.
  Qed.
  Lemma part_same i m t t' w w' : t = t' -> w = w' -> part i m t w -> part i m t' w'.
  Proof. now intros -> ->. Qed.

  Lemma part_elem i j m k n l t w :
    tag_ok n -> Forall attr_ok l -> k = match mark_of l with Some x => x | None => m end ->
    (forall st, place i m st -> existsb for_text (n :: map fst st) = j) ->
    part j k t w -> part i m (tag_text n l ++ t ++ tag_text (47%N :: n) []) w.
  Proof.
    intros [IN NB] AO K ST (es & R & A & M). exists (Open n l :: es ++ [Close n]). split; [|split].
    - change (Open n l :: es ++ [Close n]) with ([Open n l] ++ es ++ [Close n]).
      apply reads_app; [|apply reads_app; [exact R|]].
      + rewrite <- (tag_open n l IN). apply reads_tag; [exact OK|now apply tag_ok_name|exact AO].
      + change (Close n) with (tag (47%N :: n) []). apply reads_tag; [exact OK| |constructor].
        intros x [<-|X]; [split; discriminate|]. now apply (tag_ok_name n IN).
    - intros st. cbn [after]. rewrite (text_eqb_neq n (txt "br") NB), after_app, A. reflexivity.
    - intros st P. cbn [marked]. rewrite (text_eqb_neq n (txt "br") NB), marked_app. cbn [marked]. rewrite app_nil_r.
      apply M. split; [exact (ST st P)|]. destruct P as [_ <-]. symmetry. exact K.
  Qed.
  Lemma part_span i m l t w : Forall attr_ok l ->
    part true (match mark_of l with Some x => x | None => m end) t w ->
    part i m (tag_text (txt "span") l ++ t ++ txt "</span>") w.
  Proof.
    intros AO H. exact (part_elem i true m _ (txt "span") l t w tag_ok_span AO eq_refl (fun _ _ => eq_refl) H).
  Qed.
  Lemma part_block m n l t w : n = txt "li" \/ n = txt "ul" \/ n = txt "tr" ->
    Forall attr_ok l -> mark_of l = None -> part false m t w ->
    part false m (tag_text n l ++ t ++ tag_text (47%N :: n) []) w.
  Proof.
    intros NN AO NM H. apply (part_elem false false m m); [|exact AO|now rewrite NM| |exact H].
    - destruct NN as [->|[->| ->]]; [apply tag_ok_li|apply tag_ok_ul|apply tag_ok_tr].
    - intros st [P _]. cbn [existsb]. rewrite P. destruct NN as [->|[->| ->]]; reflexivity.
  Qed.
  Ltac no_chars := let x := fresh in let X := fresh in intros x X; cbn in X;
    repeat (destruct X as [<-|X]; [repeat split; discriminate|]); contradiction.

  Lemma part_value v m : part true m (html_value v) (tagged m (shown short v)).
  Proof.
    induction v as [|v1 IH1 v2 IH2|s|s|id v IH]; cbn [PrintModel.html_value shown].
    - apply part_nil.
    - rewrite tagged_app. now apply part_app.
    - apply part_text.
    - destruct (text_eqb s (short s)) eqn:E; cbn [negb].
      + apply text_eqb_iff in E. rewrite <- E. apply part_text.
      + eapply part_same; [|reflexivity|apply (part_span true m [(txt "title", esct s)] (esct (short s)))].
        * unfold tag_text. cbn [flat_map fst snd txt list_ascii_of_string map app]. rewrite <- !app_assoc. reflexivity.
        * constructor; [|constructor]. split; [no_chars|]. intros x X. now apply (esct_safe esc unescape OK) in X.
        * apply part_text.
    - destruct (id =? 0) eqn:E; [exact IH|].
      eapply part_same; [|reflexivity|apply (part_elem true true m m (txt "a")
        [(txt "class", txt "link"); (txt "data-link", dec (N.of_nat id)); (txt "href", txt "#" ++ dec (N.of_nat id))]
        (html_value v) (tagged m (shown short v)) tag_ok_a)].
      + unfold tag_text. cbn [flat_map fst snd txt list_ascii_of_string map app]. rewrite <- !app_assoc.
        cbn [app]. rewrite <- !app_assoc. reflexivity.
      + assert (D : forall x, In x (dec (N.of_nat id)) -> x <> 60%N /\ x <> 62%N /\ x <> 34%N).
        { exact (id_text_safe alphanumeric id). }
        constructor; [|constructor; [|constructor; [|constructor]]]; (split; cbn [fst snd]).
        * no_chars.
        * no_chars.
        * no_chars.
        * exact D.
        * no_chars.
        * intros x [<-|X]; [repeat split; discriminate|]. now apply D.
      + reflexivity.
      + intros st [P _]. cbn [existsb]. now rewrite P.
      + exact IH.
  Qed.

  Lemma part_li s X w : part false Kept X w -> part false Kept (html_li s ++ X ++ html_li_end s) w.
  Proof.
    intros H. unfold html_li, html_li_end. destruct (hs_line_started s); [now rewrite app_nil_r|].
    replace (txt "<li>" ++ X ++ txt "</li>" ++ newline) with
      ((tag_text (txt "li") [] ++ X ++ tag_text (47%N :: txt "li") []) ++ newline)
      by (unfold tag_text; cbn [flat_map app]; rewrite <- !app_assoc; reflexivity).
    rewrite <- (app_nil_r w). apply part_app.
    - apply part_block; [now left|constructor|reflexivity|exact H].
    - apply part_outside, (plain_newline esc unescape OK).
  Qed.
  Lemma part_label s label : plain esc label -> part false Kept (html_line s label []) (tagged Kept (label ++ txt ":")).
  Proof.
    intros PL. unfold html_line. cbn [is_empty]. apply part_li.
    assert (I : part true Kept (label ++ txt ":") (tagged Kept (label ++ txt ":"))).
    { apply part_inside, plain_app; [exact PL|apply (plain_colon esc unescape OK)]. }
    destruct (prefix_is_modify (hs_prefix s)).
    - eapply part_same; [|reflexivity|apply (part_span false Kept [(txt "class", txt "field mod")] (label ++ txt ":"))].
      + unfold tag_text. cbn [flat_map fst snd txt list_ascii_of_string map app]. rewrite <- !app_assoc. reflexivity.
      + constructor; [apply attr_class; no_chars|constructor].
      + exact I.
    - eapply part_same; [|reflexivity|apply (part_span false Kept [] (label ++ txt ":"))].
      + unfold tag_text. cbn [flat_map fst snd txt list_ascii_of_string map app]. rewrite <- !app_assoc. reflexivity.
      + constructor.
      + exact I.
  Qed.
  Lemma part_label_span label : plain esc label ->
    part false Kept (if is_empty label then [] else txt "<span class=""field"">" ++ label ++ txt ":</span> ")
      (tagged Kept (label_text label)).
  Proof.
    intros PL. destruct label as [|c l]; [apply part_nil|]. cbn [is_empty label_text].
    eapply part_same; [| |apply (part_app false Kept
      (tag_text (txt "span") [(txt "class", txt "field")] ++ ((c :: l) ++ txt ":") ++ txt "</span>") (txt " ")
      (tagged Kept ((c :: l) ++ txt ":")) [])].
    - unfold tag_text. cbn [flat_map fst snd txt list_ascii_of_string map app]. rewrite <- !app_assoc. reflexivity.
    - apply app_nil_r.
    - apply part_span.
      + constructor; [apply attr_class; no_chars|constructor].
      + apply part_inside, plain_app; [exact PL|apply (plain_colon esc unescape OK)].
    - apply part_outside, (plain_space esc unescape OK).
  Qed.
  (** How a line with a prefix is marked. *)
  Definition prefix_mark (p : prefix) : mark := match p with XDelete => Deleted | XAdd => Added | _ => Kept end.
  Lemma part_line s label v : plain esc label -> is_empty (html_value v) = false ->
    part false Kept (html_line s label (html_value v))
      (tagged Kept (label_text label) ++ tagged (prefix_mark (hs_prefix s)) (shown short v)).
  Proof.
    intros PL NE. unfold html_line. rewrite NE. apply part_li. apply part_app; [now apply part_label_span|].
    eapply part_same; [|reflexivity|apply (part_span false Kept [(txt "class", line_class (hs_prefix s))] (html_value v))].
    - unfold tag_text. destruct (hs_prefix s); cbn [flat_map fst snd txt list_ascii_of_string map app line_class]; reflexivity.
    - constructor; [|constructor]. apply attr_class. destruct (hs_prefix s); no_chars.
    - replace (match mark_of [(txt "class", line_class (hs_prefix s))] with Some x => x | None => Kept end)
        with (prefix_mark (hs_prefix s)) by (destruct (hs_prefix s); reflexivity).
      apply part_value.
  Qed.
  Lemma part_br m : part true m (txt "<br>") [].
  Proof.
    exists [Open (txt "br") []]. split; [|split; reflexivity].
    apply (reads_tag esc unescape OK (txt "br") []); [|constructor]. intros x [<-|[<-|[]]]; split; discriminate.
  Qed.
  Lemma part_line_diff s label a b : plain esc label ->
    part false Kept (html_line_diff s label (html_value a) (html_value b))
      (tagged Kept (label_text label) ++ tagged Deleted (shown short a) ++ tagged Kept newline ++ tagged Added (shown short b)).
  Proof.
    intros PL. unfold html_line_diff.
    match goal with |- part false Kept (_ ++ ?l ++ ?x1 ++ ?x2 ++ ?x3 ++ ?x4 ++ ?x5 ++ ?x6 ++ ?x7 ++ ?e) _ =>
      replace (l ++ x1 ++ x2 ++ x3 ++ x4 ++ x5 ++ x6 ++ x7 ++ e) with
        ((l ++ x1 ++ x2 ++ x3 ++ x4 ++ x5 ++ x6 ++ x7) ++ e) by (rewrite <- !app_assoc; reflexivity) end.
    apply part_li. apply part_app; [now apply part_label_span|].
    eapply part_same; [| |apply (part_span false Kept [(txt "class", txt "field")]
      ((tag_text (txt "span") [(txt "class", txt "del")] ++ html_value a ++ txt "</span>") ++ txt "<br>" ++ newline ++
       (tag_text (txt "span") [(txt "class", txt "add")] ++ html_value b ++ txt "</span>"))
      (tagged Deleted (shown short a) ++ [] ++ tagged Kept newline ++ tagged Added (shown short b)))].
    - unfold tag_text. cbn [flat_map fst snd txt list_ascii_of_string map app].
      repeat (rewrite <- ?app_assoc; cbn [app]). reflexivity.
    - reflexivity.
    - constructor; [apply attr_class; no_chars|constructor].
    - apply part_app; [|apply part_app; [apply part_br|apply part_app; [apply part_inside, (plain_newline esc unescape OK)|]]].
      + apply part_span; [constructor; [apply attr_class; no_chars|constructor]|]. apply part_value.
      + apply part_span; [constructor; [apply attr_class; no_chars|constructor]|]. apply part_value.
  Qed.
  Lemma part_instruction s address mnemonic v : plain esc mnemonic ->
    part false Kept (html_instruction s address mnemonic (html_value v))
      (tagged Kept (match address with Some a => hex a | None => [] end ++ mnemonic ++ shown short v)).
  Proof.
    intros PM. unfold html_instruction.
    assert (TD : forall t w, part true Kept t w ->
      part false Kept (tag_text (txt "td") [] ++ t ++ tag_text (47%N :: txt "td") []) w).
    { intros t0 w0 H0. exact (part_elem false true Kept Kept (txt "td") [] t0 w0 tag_ok_td (Forall_nil _) eq_refl (fun _ _ => eq_refl) H0). }
    rewrite !tagged_app.
    eapply part_same; [|reflexivity|apply (part_block Kept (txt "tr") []
      ((tag_text (txt "td") [] ++ match address with Some a => hex a | None => [] end ++ tag_text (47%N :: txt "td") []) ++
       (tag_text (txt "td") [] ++ mnemonic ++ tag_text (47%N :: txt "td") []) ++
       (tag_text (txt "td") [] ++ html_value v ++ tag_text (47%N :: txt "td") [])))].
    - unfold tag_text. cbn [flat_map fst snd txt list_ascii_of_string map app].
      repeat (rewrite <- ?app_assoc; cbn [app]). reflexivity.
    - right. now right.
    - constructor.
    - reflexivity.
    - apply part_app; [|apply part_app]; apply TD; [|now apply part_inside|apply part_value].
      destruct address as [a|]; [|apply part_nil]. apply part_inside. apply (plain_chars esc unescape OK). apply (hex_chars alphanumeric).
  Qed.

  Lemma part_branch collapsed id th tb wh wb cls :
    (forall x, In x id -> x <> 60%N /\ x <> 62%N /\ x <> 34%N) ->
    cls = txt "treebranch" \/ cls = txt "treebranch lazy" ->
    part false Kept th wh -> part false Kept tb wb ->
    part false Kept
      (tag_text (txt "li") ((txt "class", cls) :: match id with [] => [] | _ => [(txt "id", id)] end) ++
       (th ++ (tag_text (txt "ul") (if collapsed : bool then [(txt "style", txt "display:none")] else []) ++
               (newline ++ tb) ++ txt "</ul>")) ++ txt "</li>" ++ newline) (wh ++ wb).
  Proof.
    intros ID CLS H B.
    eapply part_same; [| |apply (part_app false Kept
      (tag_text (txt "li") ((txt "class", cls) :: match id with [] => [] | _ => [(txt "id", id)] end) ++
       (th ++ (tag_text (txt "ul") (if collapsed then [(txt "style", txt "display:none")] else []) ++
               (newline ++ tb) ++ txt "</ul>")) ++ txt "</li>") newline (wh ++ [] ++ wb) [])].
    - rewrite <- !app_assoc. reflexivity.
    - now rewrite app_nil_r.
    - apply (part_block Kept (txt "li")); [now left| | |].
      + constructor.
        * apply attr_class. destruct CLS as [->| ->]; no_chars.
        * destruct id as [|c id]; [constructor|]. constructor; [|constructor]. split; [no_chars|exact ID].
      + destruct CLS as [->| ->], id; reflexivity.
      + apply part_app; [exact H|]. apply (part_block Kept (txt "ul")).
        * right. now left.
        * destruct collapsed; constructor; [|constructor]. split; no_chars.
        * destruct collapsed; reflexivity.
        * apply part_app; [apply part_outside, (plain_newline esc unescape OK)|exact B].
    - apply part_outside, (plain_newline esc unescape OK).
  Qed.
  Lemma part_header (collapsed : bool) th tb wh wb :
    part false Kept th wh -> part false Kept tb wb ->
    part false Kept (txt "<li class=""treebranch"">" ++ th ++
      (if collapsed then txt "<ul style=""display:none"">" else txt "<ul>") ++ newline ++
      tb ++ txt "</ul></li>" ++ newline) (wh ++ wb).
  Proof. intros H B. rewrite header_text. apply (part_branch collapsed [] th tb wh wb); auto. Qed.
  Lemma part_id id th tb wh wb :
    part false Kept th wh -> part false Kept tb wb ->
    part false Kept (txt "<li class=""treebranch" ++ (if http then txt " lazy" else []) ++ txt """ id=""" ++
       dec (N.of_nat id) ++ txt """>" ++ th ++ txt "<ul style=""display:none"">" ++ newline ++
       tb ++ txt "</ul></li>" ++ newline) (wh ++ wb).
  Proof.
    intros H B. destruct (id_text_nonempty id) as (c & r & E).
    eapply part_same; [|reflexivity|apply (part_branch true (id_text id) th tb wh wb (if http then txt "treebranch lazy" else txt "treebranch"))];
      [|exact (id_text_safe alphanumeric id)| |exact H|exact B].
    2: { destruct http; [now right|now left]. }
    fold (id_text id). rewrite E. unfold tag_text.
    destruct http; cbn [flat_map fst snd txt list_ascii_of_string map app];
      repeat (rewrite <- ?app_assoc; cbn [app]); reflexivity.
  Qed.
  Lemma part_detail id label s : plain esc id -> plain esc label ->
    part false Kept (txt "<li class=""detail"" data-detail=""" ++ id ++ txt """>" ++
       html_line (html_started true s) label [] ++ txt "</li>" ++ newline) (tagged Kept (label ++ txt ":")).
  Proof.
    intros PI PL.
    eapply part_same; [| |apply (part_app false Kept
      (tag_text (txt "li") [(txt "class", txt "detail"); (txt "data-detail", id)] ++
       html_line (html_started true s) label [] ++ tag_text (47%N :: txt "li") []) newline (tagged Kept (label ++ txt ":")) [])].
    - unfold tag_text. cbn [flat_map fst snd txt list_ascii_of_string map app].
      repeat (rewrite <- ?app_assoc; cbn [app]). reflexivity.
    - now rewrite app_nil_r.
    - apply part_block.
      + now left.
      + constructor; [apply attr_class; no_chars|]. constructor; [|constructor].
        split; [no_chars|]. now apply (plain_safe esc unescape OK).
      + reflexivity.
      + now apply part_label.
    - apply part_outside, (plain_newline esc unescape OK).
  Qed.

  (** ** Documents *)
  Lemma silent_marks d : forall m n, silent short http n d = true -> side_marks short http m n d = [].
  Proof.
    induction d as [|x IHx y IHy|l v|l| |c h IHh y IHy|c l y IHy|i l y IHy|i h IHh y IHy|d IH|a m0 v];
      intros m n; cbn [silent side_marks]; intros E; try discriminate; try reflexivity.
    - apply andb_true_iff in E. destruct E as [E1 E2]. now rewrite (IHx m n E1), (IHy m n E2).
    - now rewrite E.
    - apply andb_true_iff in E. destruct E as [E1 E2]. now rewrite (IHy m n E1), (IHh m n E2).
    - now rewrite E.
    - apply andb_true_iff in E. destruct E as [E1 E2]. destruct http; [discriminate|]. now rewrite E2.
    - destruct n; [reflexivity|]. now apply IH.
  Qed.

  Definition side_ok (w : list (mark * N)) (q : bool) (s : html_state) (r : text * html_state) : Prop :=
    part false Kept (fst r) w /\ is_empty (fst r) = q /\ hs_prefix (snd r) = hs_prefix s /\ hs_depth (snd r) = hs_depth s.
  Lemma if_part t w : part false Kept t w -> part false Kept (if http then [] else t) (if http then [] else w).
  Proof. intros H. destruct http; [apply part_nil|exact H]. Qed.

  Lemma print_marks d : plain_doc esc d -> forall s,
    side_ok (side_marks short http (prefix_mark (hs_prefix s)) (hs_depth s) d) (silent short http (hs_depth s) d) s
      (print_doc HP http d s).
  Proof.
    assert (SEC : forall d, (forall s, side_ok (side_marks short http (prefix_mark (hs_prefix s)) (hs_depth s) d)
          (silent short http (hs_depth s) d) s (print_doc HP http d s)) ->
      forall c l s, plain esc l ->
        side_ok (if silent short http (hs_depth s) d then []
           else tagged Kept (l ++ txt ":") ++ side_marks short http (prefix_mark (hs_prefix s)) (hs_depth s) d)
          (silent short http (hs_depth s) d) s
          (print_indent HP true c (print_label HP l) (print_doc HP http d) s)).
    { clear d. intros d IH c l s PL. unfold print_indent.
      destruct (IH (html_started false s)) as (PB & EB & _ & _). change (p_body HP s) with (html_started false s).
      destruct (print_doc HP http d (html_started false s)) as [tb sb]. cbn [fst snd hs_depth hs_prefix html_started] in *.
      rewrite EB. destruct (silent short http (hs_depth s) d) eqn:SI; cbn [negb].
      - split; [apply part_nil|]. repeat split.
      - unfold no_flag, print_label. cbn [p_header html_printer p_line]. split; [|repeat split].
        cbn [fst]. apply (part_header c); [now apply part_label|exact PB]. }
    induction d as [|x IHx y IHy|l v|l| |c h IHh y IHy|c l y IHy|i l y IHy|i h IHh y IHy|d IH|a m v];
      cbn [plain_doc]; intros PL s; cbn [print_doc side_marks silent].
    - split; [apply part_nil|repeat split].
    - destruct PL as [P1 P2]. destruct (IHx P1 s) as (PA & EA & FA & DA).
      destruct (print_doc HP http x s) as [ta s1]. cbn [fst snd] in *.
      destruct (IHy P2 s1) as (PB & EB & FB & DB). destruct (print_doc HP http y s1) as [tb s2]. cbn [fst snd] in *.
      rewrite DA, FA in *. split; [now apply part_app|]. cbn [fst snd]. split; [|split; congruence].
      rewrite <- EA, <- EB. now destruct ta.
    - change (p_value HP v) with (html_value v). rewrite (value_nothing esc unescape) by exact OK. destruct (nothing short v) eqn:N.
      + split; [apply part_nil|repeat split].
      + cbn [p_line html_printer]. split; [|split; [apply html_line_nonempty|split; reflexivity]]. cbn [fst].
        apply part_line; [exact PL|]. now rewrite (value_nothing esc unescape) by exact OK.
    - unfold print_label. cbn [p_line html_printer]. split; [|split; [apply html_line_nonempty|split; reflexivity]].
      cbn [fst]. now apply part_label.
    - split; [apply part_nil|repeat split].
    - destruct PL as [P1 P2]. unfold print_indent.
      destruct (IHy P2 (html_started false s)) as (PB & EB & _ & _). change (p_body HP s) with (html_started false s).
      destruct (print_doc HP http y (html_started false s)) as [tb sb]. cbn [fst snd hs_depth hs_prefix html_started] in *.
      rewrite EB. destruct (silent short http (hs_depth s) y) eqn:SI; cbn [negb andb].
      + rewrite (silent_marks y _ _ SI), app_nil_r. now apply IHh.
      + cbn [p_header html_printer]. unfold no_flag.
        destruct (IHh P1 (html_started true s)) as (PA & EA & FA & DA).
        destruct (print_doc HP http h (html_started true s)) as [ta s1]. cbn [fst snd] in *.
        split; [|split; [reflexivity|split; assumption]]. cbn [fst]. now apply part_header.
    - destruct PL as [P1 P2]. apply SEC; auto.
    - destruct PL as (P0 & P1 & P2).
      destruct (Bool.bool_dec http true) as [E|E].
      + rewrite E. cbn [negb andb p_detail html_printer]. split; [|repeat split]. cbn [fst]. now apply part_detail.
      + apply not_true_is_false in E. rewrite E in SEC |- *. cbn [negb andb].
        rewrite E in IHy. exact (SEC y (IHy P2) true l s P1).
    - destruct PL as [P1 P2]. cbn [p_id html_printer]. unfold no_flag.
      destruct (IHh P1 (html_started true s)) as (PA & EA & FA & DA).
      destruct (print_doc HP http h (html_started true s)) as [ta s1]. cbn [fst snd hs_depth hs_prefix html_started] in *.
      destruct (IHy P2 (html_started false s1)) as (PB & EB & FB & DB).
      destruct (print_doc HP http y (html_started false s1)) as [tb s2].
      cbn [fst snd hs_depth hs_prefix html_started] in *. rewrite DA, FA in *.
      rewrite if_pair. split; [|split; [reflexivity|]].
      + cbn [fst]. apply part_id; [exact PA|]. now apply if_part.
      + cbn [snd]. case http; cbn [hs_prefix hs_depth html_started]; split; congruence.
    - cbn [p_inline_begin html_printer]. destruct s as [p n ls]. cbn [hs_depth hs_prefix] in *. destruct n as [|n].
      + split; [apply part_nil|repeat split].
      + destruct (IH PL (mkHtml p n ls)) as (PA & EA & FA & DA). cbn [hs_depth hs_prefix hs_line_started] in *.
        destruct (print_doc HP http d (mkHtml p n ls)) as [ta s1]. cbn [fst snd] in *.
        split; [exact PA|]. split; [exact EA|]. cbn. split; congruence.
    - cbn [p_instruction html_printer words]. split; [|split; [reflexivity|split; reflexivity]]. cbn [fst].
      now apply part_instruction.
  Qed.

  Local Notation same := (fun a b => text_eqb (html_value a) (html_value b)).
  Lemma silent_diff_marks d : forall n, silent_diff short http n d = true -> diff_marks short http same n d = [].
  Proof.
    ddoc_ind d; intros n; cbn [silent_diff diff_marks]; intros E; try discriminate; try reflexivity.
    - apply andb_true_iff in E. destruct E as [E1 E2]. now rewrite (IHa n E1), (IHb n E2).
    - apply andb_true_iff in E. destruct E as [E1 E2]. rewrite E1.
      pose proof (value_nothing esc unescape alphanumeric OK a) as VA. pose proof (value_nothing esc unescape alphanumeric OK b) as VB.
      rewrite E1 in VA. rewrite E2 in VB. apply is_empty_iff in VA, VB. now rewrite VA, VB.
    - apply andb_true_iff in E. destruct E as [E1 E2]. now rewrite (IHb n E1), (IHh n E2).
    - now rewrite E.
    - destruct n; [reflexivity|]. now apply IH.
    - now apply silent_marks.
    - now apply silent_marks.
    - apply andb_true_iff in E. destruct E as [E1 E2]. now rewrite (silent_marks a _ n E1), (silent_marks b _ n E2).
    - now apply IH.
    - now apply IH.
  Qed.

  Definition pair_ok (w : list (mark * N)) (q : bool) (s : html_state) (r : text * html_state * bool) : Prop :=
    part false Kept (fst (fst r)) w /\ is_empty (fst (fst r)) = q /\ hs_depth (snd (fst r)) = hs_depth s.
  Lemma keep_kept s : prefix_mark (hs_prefix (keep_modify HP s)) = Kept /\ hs_depth (keep_modify HP s) = hs_depth s.
  Proof. unfold keep_modify. cbn [p_get_prefix html_printer]. destruct s as [[] n ls]; split; reflexivity. Qed.
  Lemma nothing_shown v : nothing short v = true -> shown short v = [].
  Proof.
    induction v as [|v1 IH1 v2 IH2|s|s|id v IH]; cbn [nothing shown]; intros E; try reflexivity.
    - apply andb_true_iff in E. destruct E as [E1 E2]. now rewrite IH1, IH2.
    - now apply is_empty_iff in E.
    - apply andb_true_iff in E. destruct E as [E1 E2]. apply text_eqb_iff in E1. rewrite <- E1. now apply is_empty_iff in E2.
    - apply andb_true_iff in E. now apply IH.
  Qed.
  Lemma label_marks l s diff : plain esc l -> pair_ok (tagged Kept (l ++ txt ":")) false s (diff_label HP l s diff).
  Proof.
    intros PL. unfold diff_label. split; [|split]; cbn [fst snd p_line html_printer].
    - now apply part_label.
    - apply html_line_nonempty.
    - apply keep_kept.
  Qed.
  Lemma line_marks l x y s diff : plain esc l ->
    pair_ok (diff_marks short http same (hs_depth s) (DLine l x y)) (silent_diff short http (hs_depth s) (DLine l x y)) s
      (diff_line HP l x y s diff).
  Proof.
    intros PL. unfold diff_line. cbn [diff_marks silent_diff].
    change (p_value HP x) with (html_value x). change (p_value HP y) with (html_value y).
    pose proof (value_nothing esc unescape alphanumeric OK x) as VX. pose proof (value_nothing esc unescape alphanumeric OK y) as VY.
    rewrite VX, VY. destruct (text_eqb (html_value x) (html_value y)) eqn:E.
    - apply text_eqb_iff in E. assert (EN : nothing short y = nothing short x) by (rewrite <- VX, <- VY; now rewrite E).
      rewrite EN. destruct (nothing short x) eqn:N; cbn [andb].
      + split; [apply part_nil|]. split; reflexivity.
      + destruct (keep_kept s) as [K D]. split; [|split]; cbn [fst snd p_line html_printer].
        * rewrite tagged_app. pose proof (part_line (keep_modify HP s) l x PL VX) as PP. now rewrite K in PP.
        * apply html_line_nonempty.
        * exact D.
    - destruct (nothing short x) eqn:NX; cbn [andb orb].
      + rewrite (nothing_shown x NX). destruct (nothing short y) eqn:NY.
        * exfalso. apply is_empty_iff in VX, VY. rewrite VX, VY in E. discriminate.
        * split; [|split]; cbn [fst snd p_line html_printer p_prefix].
          -- now apply (part_line (mkHtml XAdd (hs_depth s) (hs_line_started s))).
          -- apply html_line_nonempty.
          -- reflexivity.
      + destruct (nothing short y) eqn:NY; cbn [orb].
        * rewrite (nothing_shown y NY). split; [|split]; cbn [fst snd p_line html_printer p_prefix].
          -- cbn [tagged map app]. rewrite app_nil_r. now apply (part_line (mkHtml XDelete (hs_depth s) (hs_line_started s))).
          -- apply html_line_nonempty.
          -- reflexivity.
        * cbn [p_line_diff html_printer]. split; [|split]; cbn [fst snd].
          -- now apply part_line_diff.
          -- apply html_line_diff_nonempty.
          -- reflexivity.
  Qed.

  Local Notation runs := (html_state -> bool -> text * html_state * bool).
  Definition runs_ok (n : nat) (w : list (mark * N)) (q : bool) (f : runs) : Prop :=
    forall s diff, hs_depth s = n -> pair_ok w q s (f s diff).
  Lemma body_marks n w q f s : runs_ok n w q f -> hs_depth s = n ->
    part false Kept (fst (diff_body HP f s)) w /\ is_empty (fst (diff_body HP f s)) = q.
  Proof.
    intros R D. unfold diff_body. cbn [p_prefix p_body html_printer].
    destruct (R (mkHtml XEqual (hs_depth (html_started false s)) (hs_line_started (html_started false s))) false D) as (P & E & _).
    destruct (f _ false) as [[t0 s0] f0]. cbn [fst snd] in *. now split.
  Qed.
  Lemma head_marks n w q f s diff : runs_ok n w q f -> hs_depth s = n -> pair_ok w q s (diff_header HP f diff s).
  Proof.
    intros R D. unfold diff_header. cbn [p_prefix html_printer].
    exact (R (mkHtml (if diff then XModify else XEqual) (hs_depth s) (hs_line_started s)) false D).
  Qed.
  Lemma indent_marks n wh wb qh qb optional collapsed h f :
    runs_ok n wh qh h -> runs_ok n wb qb f -> (qb = true -> wb = []) ->
    runs_ok n (if qb && optional then [] else wh ++ wb) (qb && (optional || qh)) (diff_indent HP optional collapsed h f).
  Proof.
    intros H F Q s diff D. unfold diff_indent. destruct (body_marks n wb qb f s F D) as (P & E).
    destruct (diff_body HP f s) as [bt bf]. cbn [fst snd] in *. rewrite E. destruct qb; cbn [negb andb].
    - rewrite (Q eq_refl). destruct optional; cbn [negb orb].
      + split; [apply part_nil|]. split; reflexivity.
      + rewrite app_nil_r. now apply H.
    - cbn [p_header html_printer].
      destruct (head_marks n wh qh h (html_started true s) bf H D) as (P' & E' & D').
      destruct (diff_header HP h bf (html_started true s)) as [[t0 s0] f0]. cbn [fst snd] in *.
      split; [|split]; cbn [fst snd]; [now apply part_header|reflexivity|exact D'].
  Qed.

  Lemma compare_marks d : plain_diff esc d -> forall n,
    runs_ok n (diff_marks short http same n d) (silent_diff short http n d) (diff_doc HP true http d).
  Proof.
    ddoc_ind d; cbn [plain_diff]; intros PL n; cbn [diff_marks silent_diff] in *.
    - intros s diff D. split; [apply part_nil|]. split; reflexivity.
    - intros s diff D. destruct PL as [P1 P2]. cbn [diff_doc].
      destruct (IHa P1 n s diff D) as (PA & EA & DA).
      destruct (diff_doc HP true http a s diff) as [[ta s1] f1]. cbn [fst snd] in *.
      destruct (IHb P2 n s1 f1) as (PB & EB & DB); [congruence|].
      destruct (diff_doc HP true http b s1 f1) as [[tb s2] f2]. cbn [fst snd] in *.
      split; [now apply part_app|]. cbn [fst snd]. split; [rewrite <- EA, <- EB; now destruct ta|congruence].
    - intros s diff D. subst n. now apply line_marks.
    - intros s diff D. now apply label_marks.
    - intros s diff D. split; [apply part_nil|]. split; reflexivity.
    - destruct PL as [P1 P2]. pose proof (indent_marks n _ _ _ _ false c _ _ (IHh P1 n) (IHb P2 n)) as R.
      rewrite andb_false_r in R. apply R, silent_diff_marks.
    - destruct PL as [P1 P2].
      assert (LB : runs_ok n (tagged Kept (l ++ txt ":")) false (diff_label HP l)).
      { intros s diff D. now apply label_marks. }
      pose proof (indent_marks n _ _ _ _ true c _ _ LB (IHb P2 n)) as R.
      rewrite !andb_true_r in R. apply R, silent_diff_marks.
    - intros s diff D. destruct PL as [P1 P2]. cbn [diff_doc].
      destruct (body_marks n _ _ _ s (IHb P2 n) D) as (P & E).
      destruct (diff_body HP (diff_doc HP true http b) s) as [bt bf]. cbn [fst snd] in *. cbn [p_id html_printer].
      destruct (head_marks n _ _ _ (html_started true s) bf (IHh P1 n) D) as (P' & E' & D').
      destruct (diff_header HP (diff_doc HP true http h) bf (html_started true s)) as [[t0 s0] f0]. cbn [fst snd] in *.
      rewrite if_pair. split; [|split]; cbn [fst snd].
      + apply part_id; [exact P'|]. now apply if_part.
      + reflexivity.
      + case http; exact D'.
    - intros s diff D. cbn [diff_doc p_inline_begin html_printer]. destruct s as [p m ls]. cbn [hs_depth hs_prefix hs_line_started] in *.
      subst m. destruct n as [|n].
      + split; [apply part_nil|]. split; reflexivity.
      + destruct (IH PL n (mkHtml p n ls) diff eq_refl) as (PA & EA & DA).
        destruct (diff_doc HP true http d (mkHtml p n ls) diff) as [[ta s1] f1]. cbn [fst snd hs_depth hs_prefix] in *.
        split; [exact PA|]. split; [exact EA|]. cbn. congruence.
    - intros s diff D. cbn [diff_doc p_prefix html_printer].
      destruct (print_marks d PL (mkHtml XDelete (hs_depth s) (hs_line_started s))) as (PA & EA & _ & DA).
      destruct (print_doc HP http d _) as [ta s1]. cbn [fst snd hs_depth hs_prefix prefix_mark] in *. rewrite D in *.
      split; [exact PA|]. split; [exact EA|]. cbn. congruence.
    - intros s diff D. cbn [diff_doc p_prefix html_printer].
      destruct (print_marks d PL (mkHtml XAdd (hs_depth s) (hs_line_started s))) as (PA & EA & _ & DA).
      destruct (print_doc HP http d _) as [ta s1]. cbn [fst snd hs_depth hs_prefix prefix_mark] in *. rewrite D in *.
      split; [exact PA|]. split; [exact EA|]. cbn. congruence.
    - intros s diff D. destruct PL as [P1 P2]. cbn [diff_doc p_prefix p_sub html_printer].
      destruct (print_marks a P1 (mkHtml XDelete (hs_depth s) (hs_line_started s))) as (PA & EA & _ & DA).
      destruct (print_doc HP http a _) as [ta s1]. cbn [fst snd hs_depth hs_prefix prefix_mark] in *.
      destruct (print_marks b P2 (mkHtml XAdd (hs_depth s1) (hs_line_started s1))) as (PB & EB & _ & DB).
      destruct (print_doc HP http b _) as [tb s2]. cbn [fst snd hs_depth hs_prefix prefix_mark] in *. rewrite DA, D in *.
      assert (E : is_empty (ta ++ tb) = silent short http n a && silent short http n b).
      { rewrite <- EA, <- EB. now destruct ta. }
      rewrite E. destruct (silent short http n a && silent short http n b) eqn:Q; cbn [negb].
      + apply andb_true_iff in Q. destruct Q as [SA SB]. rewrite (silent_marks a _ n SA), (silent_marks b _ n SB).
        split; [apply part_nil|]. split; reflexivity.
      + split; [now apply part_app|]. split; [exact E|reflexivity].
    - intros s diff D. cbn [diff_doc p_sub html_printer].
      destruct (IH PL n s false D) as (PA & EA & DA).
      destruct (diff_doc HP true http d s false) as [[ta s1] f1]. cbn [fst snd] in *. rewrite orb_true_r.
      split; [exact PA|]. split; [exact EA|reflexivity].
    - intros s diff D. cbn [diff_doc].
      destruct (IH PL n s diff D) as (PA & EA & DA).
      destruct (diff_doc HP true http d s diff) as [[ta s1] f1]. cbn [fst snd] in *.
      split; [exact PA|]. split; [exact EA|exact DA].
  Qed.

  (** ** Whole pages *)
  Lemma marked_emit run es st :
    marked (emit run ++ es) st = (if existsb for_text (map fst st) then tagged (inside st) run else []) ++ marked es st.
  Proof. destruct run; [now destruct (existsb for_text (map fst st))|reflexivity]. Qed.
  Lemma marked_closed es : forall run st,
    marked (closed (feed run es)) st = (if existsb for_text (map fst st) then tagged (inside st) run else []) ++ marked es st.
  Proof.
    induction es as [|[t|n l|n] es IH]; intros run st.
    - unfold closed. cbn [feed fst snd app]. rewrite <- (app_nil_r (emit run)). apply marked_emit.
    - cbn [feed marked]. rewrite IH. destruct (existsb for_text (map fst st)); [now rewrite tagged_app, app_assoc|reflexivity].
    - rewrite closed_cons by exact I. rewrite marked_emit. apply f_equal2; [reflexivity|]. cbn [marked].
      destruct (text_eqb n (txt "br")); rewrite IH; destruct (existsb for_text _); reflexivity.
    - rewrite closed_cons by exact I. rewrite marked_emit. apply f_equal2; [reflexivity|]. cbn [marked].
      rewrite IH; destruct (existsb for_text _); reflexivity.
  Qed.
  Lemma part_page t w : part false Kept t w -> exists es, read_html unescape t = Some es /\ marked es [] = w.
  Proof.
    intros (es & R & _ & M). exists (closed (feed [] es)). split.
    - unfold read_html. specialize (R [] []). rewrite app_nil_r in R. change (esct []) with (@nil N) in R.
      rewrite R. cbn [scan option_map]. now rewrite (chars_emit esc unescape OK).
    - rewrite marked_closed. cbn. now apply M.
  Qed.

  (** ** Values *)
  Lemma value_full v : exists es, reads (html_value v) es /\
    forall rest, in_full unescape (es ++ rest) false = text_value v ++ in_full unescape rest false.
  Proof.
    induction v as [|v1 (e1 & R1 & F1) v2 (e2 & R2 & F2)|s|s|id v (es & R & F)]; cbn [PrintModel.html_value text_value].
    - exists []. split; [apply (reads_nil esc)|reflexivity].
    - exists (e1 ++ e2). split; [now apply reads_app|]. intros rest. rewrite <- !app_assoc, F1, F2. reflexivity.
    - exists [Chars s]. split; [now apply reads_text|reflexivity].
    - destruct (text_eqb s (short s)) eqn:E; cbn [negb].
      + exists [Chars s]. split; [now apply reads_text|reflexivity].
      + exists ([Open (txt "span") [(txt "title", esct s)]] ++ [Chars (short s)] ++ [Close (txt "span")]). split.
        * replace (txt "<span title=""" ++ esct s ++ txt """>" ++ esct (short s) ++ txt "</span>") with
            (tag_text (txt "span") [(txt "title", esct s)] ++ esct (short s) ++ tag_text (47%N :: txt "span") [])
            by (unfold tag_text; cbn [flat_map fst snd txt list_ascii_of_string map app]; rewrite <- !app_assoc; reflexivity).
          apply reads_app; [|apply reads_app; [now apply reads_text|]].
          -- apply (reads_tag esc unescape OK (txt "span")); [no_chars|]. constructor; [|constructor].
             split; [no_chars|]. intros x X. now apply (esct_safe esc unescape OK) in X.
          -- apply (reads_tag esc unescape OK (47%N :: txt "span") []); [no_chars|constructor].
        * intros rest. cbn [app in_full]. change (title_of [(txt "title", esct s)]) with (Some (esct s)). cbv iota.
          rewrite text_eqb_refl. cbn [andb negb app]. unfold escaped. now rewrite (esc_inverse _ _ OK).
    - destruct (id =? 0) eqn:E; [now exists es|].
      pose (l := [(txt "class", txt "link"); (txt "data-link", dec (N.of_nat id)); (txt "href", txt "#" ++ dec (N.of_nat id))]).
      exists ([Open (txt "a") l] ++ es ++ [Close (txt "a")]). split.
      + match goal with |- reads ?t _ => replace t with (tag_text (txt "a") l ++ html_value v ++ tag_text (47%N :: txt "a") []) end.
        * apply reads_app; [|apply reads_app; [exact R|]].
          -- apply (reads_tag esc unescape OK (txt "a")); [no_chars|].
             constructor; [|constructor; [|constructor; [|constructor]]]; (split; cbn [fst snd]).
             ++ no_chars.
             ++ no_chars.
             ++ no_chars.
             ++ exact (id_text_safe alphanumeric id).
             ++ no_chars.
             ++ intros x [<-|X]; [repeat split; discriminate|]. now apply (id_text_safe alphanumeric id).
          -- apply (reads_tag esc unescape OK (47%N :: txt "a") []); [no_chars|constructor].
        * unfold tag_text, l. cbn [flat_map fst snd txt list_ascii_of_string map app]. rewrite <- !app_assoc.
          cbn [app]. rewrite <- !app_assoc. reflexivity.
      + intros rest. rewrite <- !app_assoc. change ([Open (txt "a") l] ++ es ++ [Close (txt "a")] ++ rest) with (Open (txt "a") l :: es ++ [Close (txt "a")] ++ rest).
        cbn [in_full]. change (title_of l) with (@None text). cbv iota. rewrite F. reflexivity.
  Qed.
  Lemma full_emit run es k : in_full unescape (emit run ++ es) k = (if k then [] else run) ++ in_full unescape es k.
  Proof. destruct run; [now destruct k|reflexivity]. Qed.
  Lemma full_closed es : forall run k,
    in_full unescape (closed (feed run es)) k = (if k then [] else run) ++ in_full unescape es k.
  Proof.
    induction es as [|[t|n l|n] es IH]; intros run k.
    - unfold closed. cbn [feed fst snd app]. rewrite <- (app_nil_r (emit run)). apply full_emit.
    - cbn [feed in_full]. rewrite IH. destruct k; [reflexivity|]. now rewrite app_assoc.
    - rewrite closed_cons by exact I. rewrite full_emit. apply f_equal2; [reflexivity|]. cbn [in_full].
      destruct (title_of l); rewrite IH; destruct k; reflexivity.
    - rewrite closed_cons by exact I. rewrite full_emit. apply f_equal2; [reflexivity|]. cbn [in_full].
      rewrite IH. now destruct (k && _).
  Qed.
  Lemma value_read v : exists es, read_html unescape (html_value v) = Some es /\ in_full unescape es false = text_value v.
  Proof.
    destruct (value_full v) as (es & R & F). exists (closed (feed [] es)). split.
    - unfold read_html. specialize (R [] []). rewrite app_nil_r in R. change (esct []) with (@nil N) in R.
      rewrite R. cbn [scan option_map]. now rewrite (chars_emit esc unescape OK).
    - rewrite full_closed. specialize (F []). rewrite !app_nil_r in F. exact F.
  Qed.
End Marks.
