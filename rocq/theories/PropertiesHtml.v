(** HTML output (properties C25, C28, C29 and C42).

    [esc] is what the library for escaping replaces a character by, [unescape] how a
    browser reads text, [alphanumeric] which characters Rust considers so. *)
From Coq Require Import List Arith NArith Bool String Ascii Lia.
From Verif Require Import PrintModel PrintSpec HtmlSpec HtmlProofs ShortSpec ShortProofs.
Import ListNotations.

Local Notation page esc alnum http d n :=
  (fst (print_doc (html_printer esc alnum http) http d (html_start n))).
Local Notation diff_page esc alnum http d n :=
  (fst (fst (diff_doc (html_printer esc alnum http) true http d (html_start n) false))).
(** Two values are displayed in the same way. *)
Local Notation same esc alnum := (fun a b => text_eqb (html_value esc alnum a) (html_value esc alnum b)).

Lemma print_page esc unescape alnum http d n :
  escape_ok esc unescape -> plain_doc esc d ->
  exists es, read_html unescape (page esc alnum http d n) = Some es /\
    nest es [] = Some [] /\ Forall known es /\
    content es [] = words (short_name alnum) http n d /\
    titles unescape es = full_names (short_name alnum) http n d /\ Forall unmarked es.
Proof.
  intros OK PL.
  destruct (print_html esc unescape alnum http OK d PL (html_start n) false) as (P & _); [intros _; now left|].
  destruct (piece_page esc unescape OK _ _ _ _ P) as (es & R & N & K & C & T & U).
  exists es. auto 10.
Qed.
Lemma compare_page esc unescape alnum http d n b :
  escape_ok esc unescape -> plain_diff esc d ->
  (b = false -> identical_html (short_name alnum) http (same esc alnum) n d) ->
  exists es, read_html unescape (diff_page esc alnum http d n) = Some es /\
    nest es [] = Some [] /\ Forall known es /\
    content es [] = words_diff (short_name alnum) http (same esc alnum) n d /\
    titles unescape es = full_names_diff (short_name alnum) http (same esc alnum) n d /\
    (b = false -> Forall unmarked es /\
       snd (diff_doc (html_printer esc alnum http) true http d (html_start n) false) = false).
Proof.
  intros OK PL I.
  destruct (diff_html esc unescape alnum http OK d PL n b I (html_start n) false eq_refl) as (P & _ & _ & F); [intros _; now left|].
  destruct (piece_page esc unescape OK _ _ _ _ P) as (es & R & N & K & C & T & U).
  exists es. repeat (split; [assumption|]). intros B. split; [now apply U|]. now apply F.
Qed.

(** ** C25: A diff of identical content is silent *)

(** In HTML everything is shown, but nothing is marked as deleted, added or modified. *)
Theorem C25_html : forall esc unescape alnum http d n,
  escape_ok esc unescape -> plain_diff esc d ->
  identical_html (short_name alnum) http (same esc alnum) n d ->
  exists es, read_html unescape (diff_page esc alnum http d n) = Some es /\ Forall unmarked es /\
    snd (diff_doc (html_printer esc alnum http) true http d (html_start n) false) = false.
Proof.
  intros esc unescape alnum http d n OK PL I.
  destruct (compare_page esc unescape alnum http d n false OK PL (fun _ => I)) as (es & R & _ & _ & _ & _ & U).
  exists es. split; [exact R|]. now apply U.
Qed.
Print Assumptions C25_html.

(** ** C28: HTML output escapes all text *)

(** A page can be read; it has only the elements the program writes; and the text in it
    and the full names given for shortened names are those of the document. *)
Theorem C28_text : forall esc unescape alnum http d n,
  escape_ok esc unescape -> plain_doc esc d ->
  exists es, read_html unescape (page esc alnum http d n) = Some es /\ Forall known es /\
    content es [] = words (short_name alnum) http n d /\
    titles unescape es = full_names (short_name alnum) http n d.
Proof.
  intros esc unescape alnum http d n OK PL.
  destruct (print_page esc unescape alnum http d n OK PL) as (es & R & _ & K & C & T & _).
  exists es. auto.
Qed.
Print Assumptions C28_text.
Theorem C28_text_diff : forall esc unescape alnum http d n,
  escape_ok esc unescape -> plain_diff esc d ->
  exists es, read_html unescape (diff_page esc alnum http d n) = Some es /\ Forall known es /\
    content es [] = words_diff (short_name alnum) http (same esc alnum) n d /\
    titles unescape es = full_names_diff (short_name alnum) http (same esc alnum) n d.
Proof.
  intros esc unescape alnum http d n OK PL.
  destruct (compare_page esc unescape alnum http d n true OK PL) as (es & R & _ & K & C & T & _); [discriminate|].
  exists es. auto.
Qed.
Print Assumptions C28_text_diff.

(** The same for one value: its output has no markup of its own, and reads as the text. *)
Theorem C28_string : forall esc unescape alnum s,
  escape_ok esc unescape ->
  (forall x, In x (html_value esc alnum (VText s)) -> x <> 60%N /\ x <> 62%N /\ x <> 34%N) /\
  unescape (html_value esc alnum (VText s)) = s.
Proof.
  intros esc unescape alnum s OK. split.
  - intros x. apply (esct_safe esc unescape OK).
  - apply (esc_inverse _ _ OK).
Qed.
Print Assumptions C28_string.

(** An escape function and its inverse, which do what is assumed of the library. *)
Definition entities : list (N * text) :=
  [(38%N, txt "&amp;"); (60%N, txt "&lt;"); (62%N, txt "&gt;"); (34%N, txt "&quot;"); (39%N, txt "&#39;")].
Definition esc5 (c : N) : text :=
  match find (fun p => N.eqb (fst p) c) entities with Some p => snd p | None => [c] end.
Fixpoint drop_prefix (p t : text) : option text :=
  match p, t with
  | [], _ => Some t
  | x :: p, y :: t => if N.eqb x y then drop_prefix p t else None
  | _, [] => None
  end.
Fixpoint unescape5_aux (fuel : nat) (t : text) : text :=
  match fuel with
  | O => []
  | S fuel =>
      match t with
      | [] => []
      | c :: r =>
          match find (fun p => match drop_prefix (snd p) t with Some _ => true | None => false end) entities with
          | Some p => fst p :: unescape5_aux fuel (match drop_prefix (snd p) t with Some r => r | None => [] end)
          | None => c :: unescape5_aux fuel r
          end
      end
  end.
Definition unescape5 (t : text) : text := unescape5_aux (List.length t) t.

Lemma esc5_cases c : (exists p, In p entities /\ fst p = c /\ esc5 c = snd p) \/
  (esc5 c = [c] /\ c <> 38%N /\ c <> 60%N /\ c <> 62%N /\ c <> 34%N).
Proof.
  unfold esc5. destruct (find _ entities) as [p|] eqn:E.
  - left. apply find_some in E. destruct E as [IN E]. apply N.eqb_eq in E. exists p. auto.
  - right. split; [reflexivity|]. repeat split; intros ->; discriminate.
Qed.
Lemma unescape5_step c : forall r fuel, unescape5_aux (S fuel) (esc5 c ++ r) = c :: unescape5_aux fuel r.
Proof.
  intros r fuel. destruct (esc5_cases c) as [(p & IN & <- & ->)|(-> & N & _)].
  - cbn in IN. repeat (destruct IN as [<-|IN]; [reflexivity|]). contradiction.
  - apply N.eqb_neq in N. rewrite N.eqb_sym in N.
    cbn [unescape5_aux app find entities snd]. unfold txt.
    cbn [list_ascii_of_string map drop_prefix N_of_ascii N_of_digits N.add N.mul Pos.mul Pos.add Pos.succ Pos.add_carry].
    rewrite N. reflexivity.
Qed.
Lemma unescape5_inverse s : unescape5 (flat_map esc5 s) = s.
Proof.
  unfold unescape5. assert (H : forall fuel, List.length s <= fuel -> unescape5_aux fuel (flat_map esc5 s) = s).
  { induction s as [|c s IH]; intros fuel L; [now destruct fuel|]. destruct fuel as [|fuel]; [cbn in L; lia|].
    cbn [flat_map]. rewrite unescape5_step, IH; [reflexivity|]. cbn in L. lia. }
  apply H. clear H. induction s as [|c s IH]; [reflexivity|]. cbn [flat_map]. rewrite app_length. cbn.
  enough (1 <= List.length (esc5 c)) by lia.
  destruct (esc5_cases c) as [(p & IN & _ & ->)|[-> _]]; [|cbn; lia].
  cbn in IN. repeat (destruct IN as [<-|IN]; [cbn; lia|]). contradiction.
Qed.
Example C28_escape_ok : escape_ok esc5 unescape5.
Proof.
  split.
  - intros c x X. destruct (esc5_cases c) as [(p & IN & <- & E)|(E & N1 & N2 & N3 & N4)]; rewrite E in X.
    + cbn in IN. repeat (destruct IN as [<-|IN]; [cbn in X; repeat (destruct X as [<-|X]; [repeat split; discriminate|]); contradiction|]).
      contradiction.
    + destruct X as [<-|[]]. auto.
  - apply unescape5_inverse.
  - intros c IN. cbn in IN. repeat (destruct IN as [<-|IN]; [reflexivity|]). contradiction.
Qed.

Local Definition t := txt.
Local Definition no_alnum (c : N) : bool := (97 <=? c)%N && (c <=? 122)%N.
Local Definition evil : pdoc :=
  PId 7 (PLine [] (VSeq (VText (t "<b> & ")) (VLink 3 (VName (t "a::v<b::c>")))))
    (PSeq (PLine (t "name") (VText (t """</li><script>"))) (PSection true (t "more") (PLine [] VNil))).
Example C28_example :
  plain_doc esc5 evil /\
  page esc5 no_alnum false evil 1 =
    t "<li class=""treebranch"" id=""7""><span class=""field"">&lt;b&gt; &amp; <a class=""link"" data-link=""3"" href=""#3""><span title=""a::v&lt;b::c&gt;"">a::v&lt;c&gt;</span></a></span><ul style=""display:none"">" ++ newline ++
    t "<li><span class=""field"">name:</span> <span class=""field"">&quot;&lt;/li&gt;&lt;script&gt;</span></li>" ++ newline ++
    t "</ul></li>" ++ newline /\
  words (short_name no_alnum) false 1 evil = t "<b> & a::v<c>name:""</li><script>" /\
  full_names (short_name no_alnum) false 1 evil = [t "a::v<b::c>"].
Proof. split; [cbn; repeat split|]. split; [|split]; vm_compute; reflexivity. Qed.

(** ** C29: HTML elements are balanced *)

Theorem C29_balanced : forall esc unescape alnum http d n,
  escape_ok esc unescape -> plain_doc esc d ->
  exists es, read_html unescape (page esc alnum http d n) = Some es /\ nest es [] = Some [].
Proof.
  intros esc unescape alnum http d n OK PL.
  destruct (print_page esc unescape alnum http d n OK PL) as (es & R & N & _). exists es. auto.
Qed.
Print Assumptions C29_balanced.
Theorem C29_balanced_diff : forall esc unescape alnum http d n,
  escape_ok esc unescape -> plain_diff esc d ->
  exists es, read_html unescape (diff_page esc alnum http d n) = Some es /\ nest es [] = Some [].
Proof.
  intros esc unescape alnum http d n OK PL.
  destruct (compare_page esc unescape alnum http d n true OK PL) as (es & R & N & _); [discriminate|]. exists es. auto.
Qed.
Print Assumptions C29_balanced_diff.

Local Definition both : ddoc :=
  DTree false (DLine [] (VText (t "f")) (VText (t "f")))
    (DSeq (DLine (t "size") (VText (t "1")) (VText (t "<2")))
    (DSeq (DIfDiff (DLine (t "line") (VText (t "1")) (VText (t "1"))))
      (DBlock (PTree true (PLine [] (VText (t "x"))) (PInstruction (Some 16%N) (t "mov") VNil)) PNil))).
Example C29_example :
  plain_diff esc5 both /\
  diff_page esc5 no_alnum false both 1 =
    t "<li class=""treebranch""><span class=""field mod"">f</span><ul>" ++ newline ++
    t "<li><span class=""field"">size:</span> <span class=""field""><span class=""del"">1</span><br>" ++ newline ++
    t "<span class=""add"">&lt;2</span></span></li>" ++ newline ++
    t "<li><span class=""field"">line:</span> <span class=""field"">1</span></li>" ++ newline ++
    t "<li class=""treebranch""><span class=""field del"">x</span><ul style=""display:none"">" ++ newline ++
    t "<tr><td>10</td><td>mov</td><td></td></tr></ul></li>" ++ newline ++
    t "</ul></li>" ++ newline /\
  exists es, read_html unescape5 (diff_page esc5 no_alnum false both 1) = Some es /\ nest es [] = Some [].
Proof.
  split; [cbn; repeat split|]. split; [vm_compute; reflexivity|].
  eexists. split; vm_compute; reflexivity.
Qed.
Example C25_html_example :
  let d := DTree false (DLine [] (VText (t "f")) (VText (t "f"))) (DIfDiff (DLine (t "size") (VText (t "1")) (VText (t "1")))) in
  plain_diff esc5 d /\ identical_html (short_name no_alnum) false (same esc5 no_alnum) 1 d /\
  diff_page esc5 no_alnum false d 1 =
    t "<li class=""treebranch""><span class=""field"">f</span><ul>" ++ newline ++
    t "<li><span class=""field"">size:</span> <span class=""field"">1</span></li>" ++ newline ++
    t "</ul></li>" ++ newline.
Proof. split; [|split]; vm_compute; repeat split. Qed.

(** ** C42: Shortened names in HTML *)

(** Names without angle brackets and braces are not changed. *)
Theorem C42_unchanged : forall alnum name,
  (forall c, In c name -> c <> 60%N /\ c <> 62%N /\ c <> 123%N /\ c <> 125%N) ->
  short_name alnum name = name.
Proof.
  intros alnum name H. unfold short_name. rewrite short_outside_only.
  - cbn. apply app_nil_r.
  - apply Forall_forall. intros c IN. destruct (H c IN) as (A & B & C & D). unfold opens, closes, is_brace.
    apply N.eqb_neq in A, B, C, D. rewrite A, B, C, D. auto.
Qed.
Print Assumptions C42_unchanged.

(** Without braces, everything outside of angle brackets is kept, and at most two levels of
    arguments are shown. *)
Theorem C42_outside : forall alnum name,
  (forall c, In c name -> c <> 123%N /\ c <> 125%N) ->
  outside 0 (short_name alnum name) = outside 0 name /\ nesting 0 (short_name alnum name) <= 2.
Proof.
  intros alnum name H. apply short_parts. apply Forall_forall. intros c IN. destruct (H c IN) as [A B].
  unfold is_brace. apply N.eqb_neq in A, B. now rewrite A, B.
Qed.
Print Assumptions C42_outside.

(** In arguments, namespaces are removed and arguments of arguments are left out. *)
Theorem C42_arguments : forall alnum name a,
  (forall c, In c name -> c <> 60%N /\ c <> 62%N /\ c <> 123%N /\ c <> 125%N) ->
  arguments_ok alnum a ->
  short_name alnum (name ++ txt "<" ++ arguments_text a ++ txt ">") =
    name ++ txt "<" ++ arguments_short a ++ txt ">".
Proof.
  intros alnum name a H A. apply short_arguments; [|exact A].
  apply Forall_forall. intros c IN. destruct (H c IN) as (A1 & B & C & D). unfold opens, closes, is_brace.
  apply N.eqb_neq in A1, B, C, D. rewrite A1, B, C, D. auto.
Qed.
Print Assumptions C42_arguments.

(** Whenever the name shown is not the name, the name is given in full. *)
Theorem C42_full_name : forall esc unescape alnum name,
  escape_ok esc unescape ->
  exists es,
    scan unescape (html_value esc alnum (VName name) ++ txt "</td>") (InText []) = Some (es ++ [Close (txt "td")]) /\
    content es [txt "td"] = short_name alnum name /\
    titles unescape es = if text_eqb name (short_name alnum name) then [] else [name].
Proof.
  intros esc unescape alnum name OK.
  destruct (piece_value esc unescape alnum OK (VName name) false) as (es & R & B & C & T & K & M).
  exists (closed (feed [] es)). split; [|split].
  - specialize (R (txt "</td>") []). change (escaped esc []) with (@nil N) in R. rewrite R.
    destruct (feed [] es) as [x r]. unfold closed. cbn [fst snd].
    change (scan unescape (txt "</td>") (InText (escaped esc r))) with
      (option_map (app (chars unescape (escaped esc r))) (Some [Close (txt "td")])).
    rewrite (chars_emit esc unescape OK). cbn. now rewrite app_assoc.
  - rewrite content_closed. cbn. apply C. reflexivity.
  - rewrite titles_closed, T. reflexivity.
Qed.
Print Assumptions C42_full_name.

(** With braces, parts of a name are moved to the end. *)
Theorem C42_braces_refuted : exists name, forall alnum,
  name = txt "{impl#0}::foo" /\ short_name alnum name = txt "::foo{impl#0}".
Proof. exists (txt "{impl#0}::foo"). intros alnum. split; reflexivity. Qed.
Print Assumptions C42_braces_refuted.

(** Single colons in arguments are taken for namespace separators if there are two. *)
Theorem C42_colons_refuted : exists name,
  name = txt "f<a:b, c:d>" /\ short_name no_alnum name = txt "f<a:b, d>".
Proof. exists (txt "f<a:b, c:d>"). split; vm_compute; reflexivity. Qed.
Print Assumptions C42_colons_refuted.

Local Definition args : arguments :=
  ([(([t "std"; t "vec"], t "vec"), Arguments (t "core::u<v>")); (([], []), Punctuation 44%N);
    (([], []), Punctuation 32%N)], ([t "alloc"], t "string")).
Example C42_example :
  arguments_ok no_alnum args /\
  txt "a::map" ++ txt "<" ++ arguments_text args ++ txt ">" = t "a::map<std::vec::vec<core::u<v>>, alloc::string>" /\
  short_name no_alnum (t "a::map<std::vec::vec<core::u<v>>, alloc::string>") = t "a::map<vec<...>, string>".
Proof.
  split; [|split; reflexivity].
  unfold arguments_ok, args. cbn [fst snd]. repeat constructor.
Qed.
