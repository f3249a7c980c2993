(** What pages of comparisons mark (property C105). *)
From Coq Require Import List Arith NArith ZArith Bool String Ascii Lia Permutation.
From Verif Require Import Base RangeModel TypeModel FileModel FileSpec OptionsModel IdModel PrintModel PrintSpec HtmlSpec MarkSpec MarkProofs PrintProofs
  NameModel CodeModel BloatModel ItemModel EntryModel FilterModel ReportModel PropertiesHtml ServeModel WholeModel
  PairModel RunModel RunSpec RunPlain PropertiesRun DieModel ItemShown ServeSpec PropertiesServe.
Import ListNotations.
Local Open Scope list_scope.

Local Notation compared esc alnum http d n :=
  (fst (fst (diff_doc (html_printer esc alnum http) true http d (html_start n) false))).
Local Notation same esc alnum := (fun a b => text_eqb (html_value esc alnum a) (html_value esc alnum b)).

(** Exactly what the second file does not have is marked as deleted, exactly what the first does not have as added. *)
Theorem C105_marks : forall esc unescape alnum http d n,
  escape_ok esc unescape -> plain_diff esc d ->
  exists es, read_html unescape (compared esc alnum http d n) = Some es /\
    marked es [] = diff_marks (short_name alnum) http (same esc alnum) n d.
Proof.
  intros esc unescape alnum http d n OK PL. apply (part_page esc unescape OK).
  exact (proj1 (compare_marks esc unescape alnum http OK d PL n (html_start n) false eq_refl)).
Qed.
Print Assumptions C105_marks.

(** The marks of the page of a run. *)
Theorem C105_run : forall esc unescape alnum header footer choose order ca cb fuel o a b page,
  escape_ok esc unescape -> plain_letters esc -> plain_mnemonics esc (ob_program a) -> plain_mnemonics esc (ob_program b) ->
  o_html o = true ->
  run esc alnum header footer choose order ca cb fuel o (ToCompare a b) = Some page ->
  exists d body es, diff_file choose o (compare_parameters_in a b) fuel (load_two a b ca cb) = Some d /\
    page = header ++ body ++ footer /\ read_html unescape body = Some es /\
    marked es [] = diff_marks (short_name alnum) (o_http o) (same esc alnum) (N.to_nat (o_inline_depth o)) d.
Proof.
  intros esc unescape alnum header footer choose order ca cb fuel o a b page OK L C C' HTML E. cbn [run] in E.
  destruct (diff_file _ _ _ _ _) as [d|] eqn:F; [|discriminate]. cbn [option_map] in E. apply some_eq in E. subst page.
  unfold formatted_diff. rewrite HTML. destruct (calm_two esc a b ca cb C C') as (K & K').
  destruct (C105_marks esc unescape alnum (o_http o) d (N.to_nat (o_inline_depth o)) OK (plain_diff_file esc L _ o _ _ _ _ K K' F)) as (es & R & M).
  exists d, (diff_web esc alnum o d), es. split; [reflexivity|]. split; [reflexivity|]. split; [|exact M].
  unfold diff_web. rewrite HTML. exact R.
Qed.
Print Assumptions C105_run.

(** Values that differ in the text output are displayed differently in HTML, even where names are shortened to the same. *)
Theorem C105_differ : forall esc unescape alnum a b,
  escape_ok esc unescape -> text_value a <> text_value b -> html_value esc alnum a <> html_value esc alnum b.
Proof.
  intros esc unescape alnum a b OK NE E. apply NE.
  destruct (value_read esc unescape alnum OK a) as (ea & RA & FA). destruct (value_read esc unescape alnum OK b) as (eb & RB & FB).
  rewrite E in RA. congruence.
Qed.
Print Assumptions C105_differ.

(** The other way round is false: a link that leads elsewhere makes values differ that have the same text. *)
Theorem C105_same_refuted : exists a b, text_value a = text_value b /\
  forall es, read_html unescape5 (compared esc5 (fun _ => true) false (DLine (txt "type") a b) 0) = Some es ->
    without Deleted (marked es []) <> txt "type:" ++ text_value b ++ newline /\ In (Deleted, 120%N) (marked es []) /\ In (Added, 120%N) (marked es []).
Proof.
  exists (VLink 1 (VText (txt "x"))), (VLink 2 (VText (txt "x"))). split; [reflexivity|]. intros es E.
  vm_compute in E. injection E as <-. vm_compute. split; [discriminate|]. tauto.
Qed.
Print Assumptions C105_same_refuted.

(** A file without debug info, whose only section is at an address. *)
Local Open Scope string_scope.
Local Open Scope list_scope.
Local Open Scope N_scope.
Local Definition moved (address : N) : object_input :=
  mkObjectInput "a.out" false [] [mkObjectSection (Some ".text") None address 64] [] []
    (fun _ => EncSigned) (fun _ => EndDefault) (fun _ => []) (fun _ => None) None.
Local Definition moved_cli (output : string) : cli := mkCli (Some output) None None ["file-address"] [] None [] [].
Local Definition moved_run (o : options) : option text :=
  run esc5 (fun _ => true) [] [] (fun _ _ _ _ => O) (fun l => l) (fun _ => O) (fun _ => O) 5 o (ToCompare (moved 4096) (moved 8192)).

(** The mark for what has changes in it is not exact: after a part with changes, a line that is the same in both files and has
    nothing below it is marked as well.  The text output has no such line. *)
Theorem C105_modified_refuted : exists o o' page out,
  parse_options (moved_cli "html") = Some o /\ parse_options (moved_cli "text") = Some o' /\
  moved_run o = Some page /\ moved_run o' = Some out /\
  contains page (txt "<li><span class=""field"">size:</span> <span class=""field mod"">64</span></li>") /\
  ~ contains page (txt "<span class=""del"">64</span>") /\ ~ contains page (txt "<span class=""add"">64</span>") /\
  contains out (newline ++ txt "  " ++ [9] ++ txt "size: 64" ++ newline).
Proof.
  destruct (parse_options (moved_cli "html")) as [o|] eqn:O; [|vm_compute in O; discriminate].
  destruct (parse_options (moved_cli "text")) as [o'|] eqn:O'; [|vm_compute in O'; discriminate].
  assert (H : match parse_options (moved_cli "html"), parse_options (moved_cli "text") with
    | Some o, Some o' => match moved_run o, moved_run o' with
      | Some page, Some out =>
          holds (txt "<li><span class=""field"">size:</span> <span class=""field mod"">64</span></li>") page &&
          negb (holds (txt "<span class=""del"">64</span>") page) && negb (holds (txt "<span class=""add"">64</span>") page) &&
          holds (newline ++ txt "  " ++ [9] ++ txt "size: 64" ++ newline) out
      | _, _ => false end
    | _, _ => false end = true) by (vm_compute; reflexivity).
  rewrite O, O' in H. destruct (moved_run o) as [page|] eqn:P; [|discriminate]. destruct (moved_run o') as [out|] eqn:Q; [|discriminate].
  repeat (apply andb_prop in H; destruct H as [H ?]).
  exists o, o', page, out. repeat (split; [reflexivity || assumption|]).
  repeat match goal with |- _ /\ _ => split end.
  - now apply holds_spec.
  - intros C. apply holds_spec in C. rewrite C in *. discriminate.
  - intros C. apply holds_spec in C. rewrite C in *. discriminate.
  - now apply holds_spec.
Qed.
Print Assumptions C105_modified_refuted.

(** Marks on a page: of two types only one is shown in short, a function is added, and a line is the same. *)
Local Definition changes : ddoc :=
  DTree false (DLine [] (VText (txt "f")) (VText (txt "f")))
    (DSeq (DLine (txt "size") (VText (txt "1")) (VText (txt "<2")))
    (DSeq (DIfDiff (DLine (txt "line") (VText (txt "1")) (VText (txt "1"))))
    (DSeq (DLine (txt "type") (VName (txt "v<a::b>")) (VName (txt "v<c::b>")))
      (DBlock PNil (PTree true (PLine [] (VText (txt "x"))) (PInstruction (Some 16) (txt "mov") VNil)))))).
Example C105_example : escape_ok esc5 unescape5 /\ plain_diff esc5 changes /\
  exists es, read_html unescape5 (compared esc5 (fun c => N.leb 97 c) false changes 1) = Some es /\
    marked es [] = (tagged Kept (txt "fsize:") ++ tagged Deleted (txt "1") ++ tagged Kept newline ++ tagged Added (txt "<2") ++
      tagged Kept (txt "line:1type:") ++ tagged Deleted (txt "v<b>") ++ tagged Kept newline ++ tagged Added (txt "v<b>") ++
      tagged Added (txt "x") ++ tagged Kept (txt "10mov"))%list /\
    without Added (marked es []) = (txt "fsize:1" ++ newline ++ txt "line:1type:v<b>" ++ newline ++ txt "10mov")%list.
Proof.
  split; [exact C28_escape_ok|]. split; [cbn; repeat split|]. eexists. split; [vm_compute; reflexivity|]. split; vm_compute; reflexivity.
Qed.
