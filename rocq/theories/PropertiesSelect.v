(** Filters and categories leave out parts of the output and change nothing else (property C107). *)
From Coq Require Import List Arith NArith ZArith Bool String Ascii Lia Permutation.
From Verif Require Import Base RangeModel TypeModel FileModel FileSpec OptionsModel IdModel PrintModel PrintSpec HtmlSpec PrintProofs
  NameModel RefModel CodeModel BloatModel ItemModel EntryModel FilterModel FilterSpec ReportModel PropertiesPrint PropertiesListing ServeModel WholeModel WholeSpec WholeShown
  PairModel RunModel RunSpec OutlineSpec SelectSpec SelectProofs DieModel ReadModel ReadSpec RawModel RawSpec EndSpec EndSample PropertiesRaw PropertiesEnd ItemShown.
Import ListNotations.
Local Open Scope list_scope.

(** With [--filter] and [--category] the output is that of the same command without them, of which are left the part for the file,
    if the category is selected, and of the units that match, with their items that match, all with the same lines in the same order. *)
Theorem C107_run : forall esc alnum header footer choose order ca cb fuel c c' o o' given ob out,
  configured c o given -> configured c' o' given -> only_selects c c' -> well_formed ob -> acyclic_types ob -> o_html o = false ->
  run esc alnum header footer choose order ca cb fuel o (ToPrint ob) = Some out ->
  exists hs xs xs' hs' ys,
    out = write_lines (hs ++ flat_map lines_of_unit xs) /\
    map ul_unit xs = printed_units o (im_hash (load ca ob)) (im_units (load ca ob)) /\
    Forall (unit_written o (compare_parameters ob) fuel (load ca ob)) xs /\
    run esc alnum header footer choose order ca cb fuel o' (ToPrint ob) = Some (write_lines (hs' ++ flat_map lines_of_unit ys)) /\
    (category_wanted c' "file" -> hs' = hs) /\ (~ category_wanted c' "file" -> hs' = []) /\
    selects (fun x => unit_listed given o' (ul_unit x)) xs xs' /\
    Forall2 (narrowed c' o' (im_hash (load ca ob))) xs' ys.
Proof.
  intros esc alnum header footer choose order ca cb fuel c c' o o' given ob out C C' S WF AC TEXT E. cbn [run] in E.
  destruct (print_file _ _ _ _) as [d|] eqn:F; [|discriminate]. cbn [option_map] in E. apply some_eq in E. subst out.
  destruct (file_selected c c' o o' given C C' S _ fuel _ (compare_consistent ob WF AC) TEXT d F)
    as (hd & hs & xs & xs' & ys & e & _ & _ & M & W & LD & SE & N & PE & hs' & LE & H1 & H2).
  pose proof (same_options c c' o o' given C C' S) as SO.
  exists hs, xs, xs', hs', ys. split; [|split; [exact M|split; [exact W|split; [|repeat (split; [assumption|]); assumption]]]].
  - unfold formatted, text_output. rewrite TEXT, <- LD. apply C46_printed.
  - cbn [run]. rewrite PE. cbn [option_map]. unfold formatted, text_output.
    assert (T : o_html o' = false) by (rewrite SO; exact TEXT). rewrite T.
    assert (D : o_inline_depth o' = o_inline_depth o) by (rewrite SO; reflexivity). rewrite D, <- LE. f_equal. apply C46_printed.
Qed.
Print Assumptions C107_run.

(** Nothing is written with them that is not written without: every line is one of the lines of the whole output. *)
Theorem C107_no_more : forall esc alnum header footer choose order ca cb fuel c c' o o' given ob out,
  configured c o given -> configured c' o' given -> only_selects c c' -> well_formed ob -> acyclic_types ob -> o_html o = false ->
  run esc alnum header footer choose order ca cb fuel o (ToPrint ob) = Some out ->
  exists ls ls', out = write_lines ls /\
    run esc alnum header footer choose order ca cb fuel o' (ToPrint ob) = Some (write_lines ls') /\ subsequence ls' ls.
Proof.
  intros esc alnum header footer choose order ca cb fuel c c' o o' given ob out C C' S WF AC TEXT E.
  destruct (C107_run esc alnum header footer choose order ca cb fuel c c' o o' given ob out C C' S WF AC TEXT E)
    as (hs & xs & xs' & hs' & ys & -> & _ & _ & R & H1 & H2 & SE & N).
  exists (hs ++ flat_map lines_of_unit xs), (hs' ++ flat_map lines_of_unit ys). split; [reflexivity|]. split; [exact R|].
  apply sub_app.
  - destruct (category_wanted_dec c' "file") as [W|W]; [rewrite (H1 W); apply sub_refl|rewrite (H2 W); apply sub_none].
  - apply (sub_trans (flat_map lines_of_unit xs')); [exact (sub_selects _ _ _ _ SE)|exact (sub_narrowed _ _ _ _ _ N)].
Qed.
Print Assumptions C107_no_more.

(** With another [--sort] the output has the same parts in another order: the units, and within each unit its types, its functions
    and its variables. *)
Theorem C107_sort : forall esc alnum header footer choose order ca cb fuel c c' o o' ob out,
  parse_options c = Some o -> parse_options c' = Some o' -> only_sorts c c' -> o_html o = false ->
  run esc alnum header footer choose order ca cb fuel o (ToPrint ob) = Some out ->
  exists hs xs xs' ys,
    out = write_lines (hs ++ flat_map lines_of_unit xs) /\
    map ul_unit xs = printed_units o (im_hash (load ca ob)) (im_units (load ca ob)) /\
    Forall (unit_shown o (compare_parameters ob) fuel (load ca ob) o) xs /\
    run esc alnum header footer choose order ca cb fuel o' (ToPrint ob) = Some (write_lines (hs ++ flat_map lines_of_unit ys)) /\
    Permutation xs xs' /\ Forall2 rearranged xs' ys.
Proof.
  intros esc alnum header footer choose order ca cb fuel c c' o o' ob out C C' S TEXT E. cbn [run] in E.
  destruct (print_file _ _ _ _) as [d|] eqn:F; [|discriminate]. cbn [option_map] in E. apply some_eq in E. subst out.
  destruct (file_sorted c c' o o' C C' S _ fuel _ TEXT d F) as (hs & xs & xs' & ys & e & M & W & LD & P & R & PE & LE & _).
  pose proof (sort_options c c' o o' C C' S) as SO.
  exists hs, xs, xs', ys. split; [|split; [exact M|split; [exact W|split; [|now split]]]].
  - unfold formatted, text_output. rewrite TEXT, <- LD. apply C46_printed.
  - cbn [run]. rewrite PE. cbn [option_map]. unfold formatted, text_output.
    assert (T : o_html o' = false) by (rewrite SO; exact TEXT). rewrite T.
    assert (D : o_inline_depth o' = o_inline_depth o) by (rewrite SO; reflexivity). rewrite D, <- LE. f_equal. apply C46_printed.
Qed.
Print Assumptions C107_sort.

(** ** A file *)
Local Open Scope string_scope.
Local Open Scope list_scope.
Local Open Scope N_scope.

Local Definition everything : cli := mkCli None None None [] [] (Some "name") [] [].
Local Definition some_types : cli := mkCli None None (Some ["type"; "unit"]) [] ["namespace=geo"; "unit=a.cpp"] (Some "name") [] [].
Local Definition written (c : cli) : option text :=
  bind (parse_options c) (fun o =>
    run (fun x => [x]) (fun _ => true) [] [] (fun _ _ _ _ => O) (fun l => l) sample_first sample_first 9 o (ToPrint sample_read)).

Example C107_example :
  (exists o o', configured everything o [] /\ configured some_types o' [] /\ only_selects everything some_types /\ o_html o = false) /\
  well_formed sample_read /\ acyclic_types sample_read /\
  (exists out, written everything = Some out) /\
  written some_types = Some (write_lines
    [Line 0 (txt "unit /src/a.cpp"); Line 1 (txt "fn size: 32"); Line 1 (txt "var size: 48"); Blank;
     Line 0 (txt "struct geo::Point"); Line 1 (txt "size: 16"); Line 1 (txt "members:"); Line 2 (txt "0[4]" ++ [9] ++ txt "x: int");
     Line 2 (txt "4[4]" ++ [9] ++ txt "<padding>"); Line 2 (txt "8[4]" ++ [9] ++ txt "y: int"); Line 2 (txt "12[4]" ++ [9] ++ txt "<padding>"); Blank;
     Line 0 (txt "enum geo::Colour"); Line 1 (txt "size: 4"); Line 1 (txt "enumerators:"); Line 2 (txt "Red(0)"); Line 2 (txt "Blue(7)"); Blank]).
Proof.
  split.
  - do 2 eexists. split; [split; [reflexivity|constructor]|]. split; [split; [reflexivity|constructor]|]. split; [now constructor|reflexivity].
  - split; [eapply C88_well_formed; [exact sample_raw_well_formed|reflexivity]|].
    split; [eapply C95_acyclic; [exact sample_raw_well_formed|reflexivity|exact sample_raw_acyclic]|].
    split; [eexists; vm_compute; reflexivity|vm_compute; reflexivity].
Qed.

Local Definition by_size : cli := mkCli None None (Some ["type"; "unit"]) [] ["namespace=geo"; "unit=a.cpp"] (Some "size") [] [].
Example C107_example_sort :
  only_sorts some_types by_size /\ (exists o, parse_options by_size = Some o) /\
  written by_size = Some (write_lines
    [Line 0 (txt "unit /src/a.cpp"); Line 1 (txt "fn size: 32"); Line 1 (txt "var size: 48"); Blank;
     Line 0 (txt "enum geo::Colour"); Line 1 (txt "size: 4"); Line 1 (txt "enumerators:"); Line 2 (txt "Red(0)"); Line 2 (txt "Blue(7)"); Blank;
     Line 0 (txt "struct geo::Point"); Line 1 (txt "size: 16"); Line 1 (txt "members:"); Line 2 (txt "0[4]" ++ [9] ++ txt "x: int");
     Line 2 (txt "4[4]" ++ [9] ++ txt "<padding>"); Line 2 (txt "8[4]" ++ [9] ++ txt "y: int"); Line 2 (txt "12[4]" ++ [9] ++ txt "<padding>"); Blank]).
Proof. split; [reflexivity|]. split; [eexists; reflexivity|]. vm_compute. reflexivity. Qed.
