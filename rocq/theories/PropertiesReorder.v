(** Sorting a comparison differently only changes the order (property C111). *)
From Coq Require Import List Arith NArith ZArith Bool String Ascii Lia Permutation.
From Verif Require Import Base RangeModel TypeModel FileModel FileSpec OptionsModel OptionsProofs CliProofs IdModel PrintModel PrintSpec HtmlSpec PrintProofs
  NameModel RefModel CodeModel BloatModel ItemModel EntryModel FilterModel FilterSpec ReportModel PropertiesPrint PropertiesListing ServeModel WholeModel WholeSpec WholeShown
  PairModel PairProofs RunModel RunSpec OutlineSpec SelectSpec SelectProofs ReorderSpec ReorderProofs DieModel ReadModel ReadSpec RawModel RawSpec EndSpec EndTypes EndSample EndLocalSample EndPairSample ReportSpec ReportProofs ItemShown ServeSpec PropertiesServe CodeModel.
Import ListNotations.
Local Open Scope list_scope.

(** With another [--sort] a comparison has the same parts in another order: the units and pairs of units, and within each of them its
    types, its functions and its variables, or the pairs of these, all with the same lines and marks. *)
Theorem C111_run : forall esc alnum header footer choose order ca cb fuel c c' o o' a b out,
  parse_options c = Some o -> parse_options c' = Some o' -> only_sorts c c' -> o_html o = false ->
  run esc alnum header footer choose order ca cb fuel o (ToCompare a b) = Some out ->
  let ii := load_two a b ca cb in
  exists hs xs xs' ys,
    out = write_marked (hs ++ flat_map lines_compared xs) /\
    map co_units xs = shown_units ii o /\
    Forall (unit_row_shown o choose (compare_parameters_in a b) fuel ii o) xs /\
    run esc alnum header footer choose order ca cb fuel o' (ToCompare a b) = Some (write_marked (hs ++ flat_map lines_compared ys)) /\
    map co_units ys = shown_units ii o' /\
    Permutation xs xs' /\ Forall2 reordered xs' ys.
Proof.
  intros esc alnum header footer choose order ca cb fuel c c' o o' a b out C C' S TEXT E. cbv zeta. cbn [run] in E.
  destruct (diff_file choose o _ _ _) as [d|] eqn:F; [|discriminate]. cbn [option_map] in E. apply some_eq in E. subst out.
  destruct (file_reordered c c' o o' C C' S choose _ fuel _ TEXT d F) as (hs & xs & xs' & ys & e & M & W & LD & P & R & PE & LE & M').
  pose proof (sort_options c c' o o' C C' S) as SO.
  exists hs, xs, xs', ys. split; [|split; [exact M|split; [exact W|split; [|now repeat split]]]].
  - unfold formatted_diff, diff_output. rewrite TEXT, <- LD. destruct (report_compare d (N.to_nat (o_inline_depth o))) as (s & ->). reflexivity.
  - cbn [run]. rewrite PE. cbn [option_map]. unfold formatted_diff, diff_output.
    assert (T : o_html o' = false) by (rewrite SO; exact TEXT). rewrite T.
    assert (D : o_inline_depth o' = o_inline_depth o) by (rewrite SO; reflexivity). rewrite D, <- LE.
    destruct (report_compare e (N.to_nat (o_inline_depth o))) as (s & ->). reflexivity.
Qed.
Print Assumptions C111_run.

(** In particular no line appears, disappears or gets another mark. *)
Theorem C111_lines : forall esc alnum header footer choose order ca cb fuel c c' o o' a b out,
  parse_options c = Some o -> parse_options c' = Some o' -> only_sorts c c' -> o_html o = false ->
  run esc alnum header footer choose order ca cb fuel o (ToCompare a b) = Some out ->
  exists ls ls', out = write_marked ls /\
    run esc alnum header footer choose order ca cb fuel o' (ToCompare a b) = Some (write_marked ls') /\ Permutation ls ls'.
Proof.
  intros esc alnum header footer choose order ca cb fuel c c' o o' a b out C C' S TEXT E.
  destruct (C111_run esc alnum header footer choose order ca cb fuel c c' o o' a b out C C' S TEXT E) as (hs & xs & xs' & ys & O & _ & _ & R & _ & P & F).
  exists (hs ++ flat_map lines_compared xs), (hs ++ flat_map lines_compared ys). split; [exact O|]. split; [exact R|].
  apply Permutation_app_head. etransitivity; [apply Permutation_flat_map, P|]. clear - F.
  induction F as [|x y l m [_ W T U I V] _ IH]; cbn [flat_map]; [constructor|]. apply Permutation_app; [|exact IH]. unfold lines_compared. rewrite W.
  apply Permutation_app_head, Permutation_app; [now apply Permutation_flat_map|]. apply Permutation_app; [now apply Permutation_flat_map|].
  apply Permutation_app; now apply Permutation_flat_map.
Qed.
Print Assumptions C111_lines.

(** ** Two files *)
Local Open Scope string_scope.
Local Open Scope list_scope.
Local Open Scope N_scope.

Local Definition sorted_by (w : string) : cli := mkCli None None (Some ["function"; "variable"]) [] ["unit=a.c"] (Some w) [] [].
Local Definition unsorted : cli := mkCli None None (Some ["function"; "variable"]) [] ["unit=a.c"] None [] [].
Local Definition compared (c : cli) (a b : object_input) : option text :=
  bind (parse_options c) (fun o =>
    run (fun x => [x]) (fun _ => true) [] [] (fun _ _ _ _ => O) (fun l => l) sample_first sample_first 9 o (ToCompare a b)).
Local Definition old (n : nat) (s : string) : mark * line := (Old, Line n (txt s)).
Local Definition new (n : nat) (s : string) : mark * line := (New, Line n (txt s)).
Local Definition both (n : nat) (s : string) : mark * line := (Same, Line n (txt s)).
Local Definition gap : mark * line := (Same, Blank).
Local Definition int_old : mark * line := (Old, Line 2 (txt "[4]" ++ [9] ++ txt "int")).
Local Definition int_new : mark * line := (New, Line 2 (txt "[4]" ++ [9] ++ txt "int")).
Local Definition int_both : mark * line := (Same, Line 2 (txt "[4]" ++ [9] ++ txt "int")).
Local Definition next_lines := [new 0 "fn next"; new 1 "address: 0x1030-0x103f"; new 1 "size: 16"; new 1 "return type:"; int_new; (New, Blank)].
Local Definition past_lines := [old 0 "fn past"; old 1 "address: 0x1030-0x103f"; old 1 "size: 16"; old 1 "return type:"; int_old; (Old, Blank)].
Local Definition sum_lines := [both 0 "fn sum"; old 1 "address: 0x1000-0x101f"; new 1 "address: 0x1000-0x102f"; old 1 "size: 32"; new 1 "size: 48";
     both 1 "return type:"; int_both; gap].
Local Definition extra_lines := [new 0 "var extra: int"; new 1 "address: 0x2000"; new 1 "size: 4"; (New, Blank)].
Local Definition kept_lines := [old 0 "var kept: int"; new 0 "var kept: struct Pair"; both 1 "address: 0x2008"; old 1 "size: 4"; new 1 "size: 8"; gap].
Local Definition lost_lines := [old 0 "var lost: int"; old 1 "address: 0x2000"; old 1 "size: 4"; (Old, Blank)].
Example C111_example :
  (exists o o', parse_options (sorted_by "name") = Some o /\ parse_options (sorted_by "size") = Some o' /\ o_html o = false) /\
  only_sorts (sorted_by "name") (sorted_by "size") /\ only_sorts (sorted_by "name") unsorted /\
  compared (sorted_by "name") (pair_read false) (pair_read true) =
    Some (write_marked (next_lines ++ past_lines ++ sum_lines ++ extra_lines ++ kept_lines ++ lost_lines)) /\
  compared (sorted_by "size") (pair_read false) (pair_read true) =
    Some (write_marked (next_lines ++ past_lines ++ sum_lines ++ extra_lines ++ lost_lines ++ kept_lines)) /\
  compared unsorted (pair_read false) (pair_read true) =
    Some (write_marked (sum_lines ++ next_lines ++ past_lines ++ extra_lines ++ lost_lines ++ kept_lines)).
Proof.
  split; [do 2 eexists; split; [reflexivity|]; split; reflexivity|]. split; [reflexivity|]. split; [reflexivity|]. split; [|split]; vm_compute; reflexivity.
Qed.
