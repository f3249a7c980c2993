(** More details only add lines to the output (property C108). *)
From Coq Require Import List Arith NArith ZArith Bool String Ascii Lia Permutation.
From Verif Require Import Base RangeModel TypeModel FileModel FileSpec OptionsModel CliProofs IdModel PrintModel PrintSpec HtmlSpec PrintProofs
  NameModel RefModel CodeModel BloatModel ItemModel EntryModel FilterModel FilterSpec ReportModel PropertiesPrint PropertiesListing ServeModel WholeModel WholeSpec WholeShown
  PairModel RunModel RunSpec OutlineSpec SelectSpec SelectProofs MoreProofs DieModel ReadModel ReadSpec RawModel RawSpec EndSpec EndSample EndLocalSample EndPairSample ReportSpec ReportProofs ItemShown ServeSpec PropertiesServe CodeModel.
Import ListNotations.
Local Open Scope list_scope.

(** With further [--print] values and a [--inline-depth] that is not smaller, the output has all lines of the output without them,
    in the same order and with the same indentation. *)
Theorem C108_run : forall esc alnum header footer choose order ca cb fuel c c' o o' ob out',
  parse_options c = Some o -> parse_options c' = Some o' -> only_details c c' -> (o_inline_depth o <= o_inline_depth o')%N -> o_html o = false ->
  run esc alnum header footer choose order ca cb fuel o' (ToPrint ob) = Some out' ->
  exists ls ls', run esc alnum header footer choose order ca cb fuel o (ToPrint ob) = Some (write_lines ls) /\
    out' = write_lines ls' /\ subsequence ls ls'.
Proof.
  intros esc alnum header footer choose order ca cb fuel c c' o o' ob out' C C' M D TEXT E. cbn [run] in E |- *.
  destruct (print_file o' _ _ _) as [e|] eqn:F; [|discriminate]. cbn [option_map] in E. apply some_eq in E. subst out'.
  destruct (fewer_details c c' o o' C C' M) as [FW FI].
  destruct (grows_file o o' FW TEXT FI _ _ _ e F) as (d & -> & X). cbn [option_map].
  assert (T : o_html o' = false) by (rewrite (more_options o o' FW); exact TEXT).
  exists (lines (N.to_nat (o_inline_depth o)) 0 d), (lines (N.to_nat (o_inline_depth o')) 0 e). unfold formatted, text_output. rewrite TEXT, T.
  split; [f_equal; apply C46_printed|]. split; [apply C46_printed|]. apply extends_more; [exact X|lia].
Qed.
Print Assumptions C108_run.

(** Comparisons, with the marks of the lines: what differs with fewer details differs with more. *)
Local Lemma compared_less esc alnum header footer choose order ca cb fuel o o' a b out' :
  fewer o o' /\ o_filter o' = o_filter o -> (o_inline_depth o <= o_inline_depth o')%N -> o_html o = false ->
  run esc alnum header footer choose order ca cb fuel o' (ToCompare a b) = Some out' ->
  exists ls ls', run esc alnum header footer choose order ca cb fuel o (ToCompare a b) = Some (write_marked ls) /\
    out' = write_marked ls' /\ subsequence ls ls'.
Proof.
  intros [FW FI] D TEXT E. cbn [run] in E |- *.
  destruct (diff_file choose o' _ _ _) as [e|] eqn:F; [|discriminate]. cbn [option_map] in E. apply some_eq in E. subst out'.
  destruct (dgrows_file o o' FW TEXT choose _ _ _ FI e F) as (d & -> & X). cbn [option_map].
  assert (T : o_html o' = false) by (rewrite (more_options o o' FW); exact TEXT).
  exists (fst (report (N.to_nat (o_inline_depth o)) 0 d)), (fst (report (N.to_nat (o_inline_depth o')) 0 e)).
  unfold formatted_diff, diff_output. rewrite TEXT, T.
  destruct (report_compare d (N.to_nat (o_inline_depth o))) as (s & ->), (report_compare e (N.to_nat (o_inline_depth o'))) as (s' & ->).
  split; [reflexivity|]. split; [reflexivity|]. apply less_report; [exact X|lia].
Qed.
Theorem C108_comparison : forall esc alnum header footer choose order ca cb fuel c c' o o' a b out',
  parse_options c = Some o -> parse_options c' = Some o' -> only_details c c' -> (o_inline_depth o <= o_inline_depth o')%N -> o_html o = false ->
  run esc alnum header footer choose order ca cb fuel o' (ToCompare a b) = Some out' ->
  exists ls ls', run esc alnum header footer choose order ca cb fuel o (ToCompare a b) = Some (write_marked ls) /\
    out' = write_marked ls' /\ subsequence ls ls'.
Proof. intros * C C' M. apply compared_less. exact (fewer_details c c' o o' C C' M). Qed.
Print Assumptions C108_comparison.

(** With fewer categories, lines are left out of a comparison (for one file, C107). *)
Theorem C107_comparison : forall esc alnum header footer choose order ca cb fuel c c' o o' a b out,
  parse_options c = Some o -> parse_options c' = Some o' -> only_categories c c' -> o_html o = false ->
  run esc alnum header footer choose order ca cb fuel o (ToCompare a b) = Some out ->
  exists ls ls', out = write_marked ls /\
    run esc alnum header footer choose order ca cb fuel o' (ToCompare a b) = Some (write_marked ls') /\ subsequence ls' ls.
Proof.
  intros esc alnum header footer choose order ca cb fuel c c' o o' a b out C C' I TEXT E.
  pose proof (fewer_categories c' c o' o C' C I) as FW.
  assert (O : o_inline_depth o' = o_inline_depth o).
  { apply parse_options_parts in C, C'. destruct I as [_ I]. rewrite I in C'. cbn [cl_output cl_inline_depth] in C'.
    destruct C as (d & p & A1 & A2 & _), C' as (d' & p' & B1 & B2 & _). rewrite A1 in B1. injection B1 as _ _ <- _. rewrite A2 in B2. congruence. }
  assert (T : o_html o' = false) by (pose proof (more_options o' o (proj1 FW)) as R; rewrite R in TEXT; exact TEXT).
  destruct (compared_less esc alnum header footer choose order ca cb fuel o' o a b out FW ltac:(rewrite O; lia) T E) as (ls & ls' & R & W & S).
  exists ls', ls. now split.
Qed.
Print Assumptions C107_comparison.

(** With further [--ignore] values, lines are left out of a comparison, and no line is changed or added.  The addresses of functions
    that are called are printed unless addresses of functions are ignored, so both command lines ignore those or neither does, or calls
    are not printed. *)
Theorem C109_run : forall esc alnum header footer choose order ca cb fuel c c' o o' a b out,
  parse_options c = Some o -> parse_options c' = Some o' -> only_ignores c c' -> o_html o = false ->
  (one_of (cl_print c) ["all"; "function-calls"] ->
   one_of (cl_ignore c') ["address"; "function-address"] -> one_of (cl_ignore c) ["address"; "function-address"])%string ->
  run esc alnum header footer choose order ca cb fuel o (ToCompare a b) = Some out ->
  exists ls ls', out = write_marked ls /\
    run esc alnum header footer choose order ca cb fuel o' (ToCompare a b) = Some (write_marked ls') /\ subsequence ls' ls.
Proof.
  intros esc alnum header footer choose order ca cb fuel c c' o o' a b out C C' I TEXT CA E.
  assert (FW : fewer o' o /\ o_filter o = o_filter o').
  { apply (fewer_ignored c' c); [assumption..|]. intros P. destruct (C43_ignore c o C) as (_ & _ & F & _), (C43_ignore c' o' C') as (_ & _ & F' & _).
    destruct (C43_print c o C) as (_ & _ & _ & PC & _). cbv zeta in F, F', PC. apply PC in P. destruct P as [P|P].
    - apply parse_options_parts in C. destruct C as (? & ? & C & _). unfold http in P. rewrite P in C. cbn in C. rewrite TEXT in C. discriminate C.
    - apply eq_true_iff_eq. rewrite F, F'. split; [exact (CA P)|]. apply one_more. exact (proj1 I). }
  assert (O : o_inline_depth o' = o_inline_depth o).
  { apply parse_options_parts in C, C'. destruct I as [_ I]. rewrite I in C'. cbn [cl_output cl_inline_depth] in C'.
    destruct C as (d & p & A1 & A2 & _), C' as (d' & p' & B1 & B2 & _). rewrite A1 in B1. injection B1 as _ _ <- _. rewrite A2 in B2. congruence. }
  assert (T : o_html o' = false) by (pose proof (more_options o' o (proj1 FW)) as R; rewrite R in TEXT; exact TEXT).
  destruct (compared_less esc alnum header footer choose order ca cb fuel o' o a b out FW ltac:(rewrite O; lia) T E) as (ls & ls' & R & W & S).
  exists ls', ls. now split.
Qed.
Print Assumptions C109_run.

(** ** A file *)
Local Open Scope string_scope.
Local Open Scope list_scope.
Local Open Scope N_scope.

Local Definition plain : cli := mkCli None (Some "0") (Some ["function"]) [] ["function-inline=n"] (Some "name") [] [].
Local Definition detailed : cli := mkCli None (Some "1") (Some ["function"]) ["variable-locations"; "function-variables"; "source"] ["function-inline=n"] (Some "name") [] [].
Local Definition written (c : cli) : option text :=
  bind (parse_options c) (fun o =>
    run (fun x => [x]) (fun _ => true) [] [] (fun _ _ _ _ => O) (fun l => l) sample_first sample_first 9 o (ToPrint held_read)).

Local Definition ty (n : nat) (s : string) : line := Line n (txt "[4]" ++ [9] ++ txt s).
Example C108_example :
  (exists o o', parse_options plain = Some o /\ parse_options detailed = Some o' /\ o_inline_depth o <= o_inline_depth o' /\ o_html o = false) /\
  only_details plain detailed /\
  written plain = Some (write_lines
    [Line 0 (txt "fn outer"); Line 1 (txt "address: 0x1000-0x103f"); Line 1 (txt "size: 64"); Line 1 (txt "return type:"); ty 2 "int";
     Line 1 (txt "parameters:"); ty 2 "a: int"; Blank;
     Line 0 (txt "fn twice"); Line 1 (txt "address: 0x1040-0x104f"); Line 1 (txt "size: 16"); Line 1 (txt "return type:"); ty 2 "int";
     Line 1 (txt "parameters:"); ty 2 "n: int"; Blank]) /\
  written detailed = Some (write_lines
    [Line 0 (txt "fn outer"); Line 1 (txt "address: 0x1000-0x103f"); Line 1 (txt "size: 64"); Line 1 (txt "return type:"); ty 2 "int";
     Line 1 (txt "parameters:"); ty 2 "a: int"; Line 3 (txt "registers:"); Line 4 (txt "rdi"); Line 3 (txt "stack frame: -36");
     Line 1 (txt "variables:"); ty 2 "t: int"; Line 3 (txt "stack frame: -24"); ty 2 "w: int"; Line 3 (txt "stack frame: -40");
     Line 1 (txt "inlined functions:"); Line 2 (txt "[8]" ++ [9] ++ txt "twice"); Line 3 (txt "call source: /src/inc/h.cpp:7");
     Line 3 (txt "variables:"); ty 4 "r: int"; Line 5 (txt "stack frame: -28"); Blank;
     Line 0 (txt "fn twice"); Line 1 (txt "address: 0x1040-0x104f"); Line 1 (txt "size: 16"); Line 1 (txt "return type:"); ty 2 "int";
     Line 1 (txt "parameters:"); ty 2 "n: int"; Line 3 (txt "registers:"); Line 4 (txt "rdi"); Line 1 (txt "variables:"); ty 2 "r: int"; Blank]).
Proof.
  split; [do 2 eexists; split; [reflexivity|]; split; [reflexivity|]; split; [discriminate|reflexivity]|].
  split; [split; [intros x []|reflexivity]|]. split; vm_compute; reflexivity.
Qed.

Local Definition compared (c : cli) : option text :=
  bind (parse_options c) (fun o =>
    run (fun x => [x]) (fun _ => true) [] [] (fun _ _ _ _ => O) (fun l => l) sample_first sample_first 9 o (ToCompare (pair_read false) (pair_read true))).
Local Definition units : cli := mkCli None None (Some ["unit"]) [] [] (Some "name") [] [].
Local Definition addresses : cli := mkCli None None (Some ["unit"]) ["unit-address"; "source"] [] (Some "name") [] [].
Local Definition all_lines : cli := mkCli None None (Some ["function"; "variable"]) [] [] (Some "name") [] [].
Local Definition not_added : cli := mkCli None None (Some ["function"; "variable"]) [] [] (Some "name") ["added"; "function-size"; "function-address"] [].
Local Definition old (n : nat) (s : string) : mark * line := (Old, Line n (txt s)).
Local Definition new (n : nat) (s : string) : mark * line := (New, Line n (txt s)).
Local Definition both (n : nat) (s : string) : mark * line := (Same, Line n (txt s)).
Local Definition gap : mark * line := (Same, Blank).
Example C108_example_comparison :
  (exists o o', parse_options units = Some o /\ parse_options addresses = Some o' /\ o_inline_depth o <= o_inline_depth o' /\ o_html o = false) /\
  only_details units addresses /\
  compared units = Some (write_marked
    [both 0 "unit /src/a.c"; old 1 "fn size: 48"; new 1 "fn size: 64 (+16)"; old 1 "var size: 8"; new 1 "var size: 12 (+4)";
     old 1 "unknown size: 16"; new 1 "unknown size: 0 (-16)"; gap]) /\
  compared addresses = Some (write_marked
    [both 0 "unit /src/a.c"; both 1 "addresses:"; old 2 "0x1000-0x101f (32)"; new 2 "0x1000-0x103f (64)"; old 2 "0x1030-0x103f (16)";
     both 2 "0x2000-0x2003 (4)"; old 2 "0x2008-0x200b (4)"; new 2 "0x2008-0x200f (8)"; both 1 "unknown addresses:"; old 2 "0x1020-0x102f (16)";
     old 1 "fn size: 48"; new 1 "fn size: 64 (+16)"; old 1 "var size: 8"; new 1 "var size: 12 (+4)";
     old 1 "unknown size: 16"; new 1 "unknown size: 0 (-16)"; gap]).
Proof.
  split; [do 2 eexists; split; [reflexivity|]; split; [reflexivity|]; split; [discriminate|reflexivity]|].
  split; [split; [intros x []|reflexivity]|]. split; vm_compute; reflexivity.
Qed.

(** Of functions and variables, the variables. *)
Local Definition variables : cli := mkCli None None (Some ["variable"]) [] [] (Some "name") [] [].
Example C107_example_comparison :
  (exists o o', parse_options all_lines = Some o /\ parse_options variables = Some o' /\ o_html o = false) /\
  only_categories all_lines variables /\
  compared variables = Some (write_marked
    [new 0 "var extra: int"; new 1 "address: 0x2000"; new 1 "size: 4"; (New, Blank);
     old 0 "var kept: int"; new 0 "var kept: struct Pair"; both 1 "address: 0x2008"; old 1 "size: 4"; new 1 "size: 8"; gap;
     old 0 "var lost: int"; old 1 "address: 0x2000"; old 1 "size: 4"; (Old, Blank)]).
Proof.
  split; [do 2 eexists; split; [reflexivity|]; split; reflexivity|].
  split; [split; [|reflexivity]|vm_compute; reflexivity]. intros w [E|(vs & E & W)]; [discriminate E|]. injection E as <-. right. eexists. split; [reflexivity|].
  cbn in *. tauto.
Qed.

(** The function whose address and size differ is left out, and so are the function and the variable that are added. *)
Local Definition int_old : mark * line := (Old, Line 2 (txt "[4]" ++ [9] ++ txt "int")).
Local Definition int_new : mark * line := (New, Line 2 (txt "[4]" ++ [9] ++ txt "int")).
Local Definition int_both : mark * line := (Same, Line 2 (txt "[4]" ++ [9] ++ txt "int")).
Example C109_example :
  (exists o o', parse_options all_lines = Some o /\ parse_options not_added = Some o' /\ o_html o = false) /\
  only_ignores all_lines not_added /\ ~ one_of (cl_print all_lines) ["all"; "function-calls"] /\
  compared all_lines = Some (write_marked
    [new 0 "fn next"; new 1 "address: 0x1030-0x103f"; new 1 "size: 16"; new 1 "return type:"; int_new; (New, Blank);
     old 0 "fn past"; old 1 "address: 0x1030-0x103f"; old 1 "size: 16"; old 1 "return type:"; int_old; (Old, Blank);
     both 0 "fn sum"; old 1 "address: 0x1000-0x101f"; new 1 "address: 0x1000-0x102f"; old 1 "size: 32"; new 1 "size: 48";
     both 1 "return type:"; int_both; gap;
     new 0 "var extra: int"; new 1 "address: 0x2000"; new 1 "size: 4"; (New, Blank);
     old 0 "var kept: int"; new 0 "var kept: struct Pair"; both 1 "address: 0x2008"; old 1 "size: 4"; new 1 "size: 8"; gap;
     old 0 "var lost: int"; old 1 "address: 0x2000"; old 1 "size: 4"; (Old, Blank)]) /\
  compared not_added = Some (write_marked
    [old 0 "fn past"; old 1 "address: 0x1030-0x103f"; old 1 "size: 16"; old 1 "return type:"; int_old; (Old, Blank);
     old 0 "var kept: int"; new 0 "var kept: struct Pair"; both 1 "address: 0x2008"; old 1 "size: 4"; new 1 "size: 8"; gap;
     old 0 "var lost: int"; old 1 "address: 0x2000"; old 1 "size: 4"; (Old, Blank)]).
Proof.
  split; [do 2 eexists; split; [reflexivity|]; split; reflexivity|]. split; [split; [intros x []|reflexivity]|].
  split; [intros (w & [] & _)|]. split; vm_compute; reflexivity.
Qed.

(** Without the condition about calls it is false: of a call is written where it is and where it leads to, unless the addresses of
    functions are ignored. *)
Local Definition calling : program :=
  mkProgram (fun _ a => if a =? 0x1000 then Some [mkInsn 0x1000 [232] (Some (txt "call")) [] true false [PImm 0x1030]] else Some [])
    [mkSegment 0x1000 (repeat 232 64)] (fun _ => None) (fun _ => None) (fun _ => []).
Local Definition with_code (ob : object_input) : object_input :=
  mkObjectInput (ob_path ob) (ob_big_endian ob) (ob_segments ob) (ob_sections ob) (ob_symbols ob) (ob_units ob) (ob_encoding ob)
    (ob_endianity ob) (ob_enumerators ob) (ob_register ob) (Some calling).
Local Definition with_calls (ignore : list string) : cli := mkCli None None (Some ["function"]) ["function-calls"] [] (Some "name") ignore [].
Local Definition called (ignore : list string) : option text :=
  bind (parse_options (with_calls ignore)) (fun o =>
    run (fun x => [x]) (fun _ => true) [] [] (fun _ _ _ _ => O) (fun l => l) sample_first sample_first 9 o
      (ToCompare (with_code (pair_read false)) (with_code (pair_read true)))).
Theorem C109_calls_refuted : exists ignore out out',
  only_ignores (with_calls []) (with_calls ignore) /\ called [] = Some out /\ called ignore = Some out' /\
  contains out' (newline ++ txt "- " ++ [9; 9] ++ txt "past" ++ newline) /\ ~ contains out (newline ++ txt "- " ++ [9; 9] ++ txt "past" ++ newline) /\
  contains out (newline ++ txt "- " ++ [9; 9] ++ txt "0x1000 -> 0x1030 past" ++ newline).
Proof.
  exists ["function-address"]. do 2 eexists. split; [split; [intros x []|reflexivity]|].
  split; [vm_compute; reflexivity|]. split; [vm_compute; reflexivity|].
  split; [apply holds_spec; vm_compute; reflexivity|]. split; [|apply holds_spec; vm_compute; reflexivity].
  intros X. apply holds_spec in X. vm_compute in X. discriminate X.
Qed.
Print Assumptions C109_calls_refuted.
