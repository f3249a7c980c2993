(** Filtering a comparison by name only leaves out lines (property C110). *)
From Coq Require Import List Arith NArith ZArith Bool String Ascii Lia Permutation.
From Verif Require Import Base RangeModel TypeModel FileModel FileSpec OptionsModel OptionsProofs CliProofs IdModel PrintModel PrintSpec HtmlSpec PrintProofs
  NameModel RefModel CodeModel BloatModel ItemModel EntryModel FilterModel FilterSpec ReportModel PropertiesPrint PropertiesListing ServeModel WholeModel WholeSpec WholeShown
  PairModel PairProofs RunModel RunSpec OutlineSpec SelectSpec SelectProofs MoreProofs NarrowProofs DieModel ReadModel ReadSpec RawModel RawSpec EndSpec EndTypes EndSample EndLocalSample EndPairSample ReportSpec ReportProofs ItemShown ServeSpec PropertiesServe CodeModel.
Import ListNotations.
Local Open Scope list_scope.

(** With filters by name or namespace, lines are left out of a comparison, and no line is changed or added: what both files have is
    never reported as deleted or added because of the filter. *)
Theorem C110_run : forall esc alnum header footer choose order ca cb fuel c c' o o' a b out,
  parse_options c = Some o -> parse_options c' = Some o' -> only_names c c' -> o_html o = false ->
  well_formed a -> well_formed b -> acyclic_types a -> acyclic_types b ->
  run esc alnum header footer choose order ca cb fuel o (ToCompare a b) = Some out ->
  exists ls ls', out = write_marked ls /\
    run esc alnum header footer choose order ca cb fuel o' (ToCompare a b) = Some (write_marked ls') /\ subsequence ls' ls.
Proof.
  intros esc alnum header footer choose order ca cb fuel c c' o o' a b out C C' I TEXT WA WB AA AB E. pose proof (named_options c c' o o' C C' I) as NM.
  assert (T : o_html o' = false) by (rewrite (nm_rest _ _ NM); exact TEXT). assert (D : o_inline_depth o' = o_inline_depth o) by (rewrite (nm_rest _ _ NM); reflexivity).
  cbn [run] in E |- *. destruct (diff_file choose o _ _ _) as [e|] eqn:F; [|discriminate]. cbn [option_map] in E. apply some_eq in E. subst out.
  destruct (narrowed_file o o' NM T _ (pair_consistent a b WA WB AA AB) fuel choose _ e F) as (d & -> & X). cbn [option_map].
  exists (fst (report (N.to_nat (o_inline_depth o)) 0 e)), (fst (report (N.to_nat (o_inline_depth o)) 0 d)).
  unfold formatted_diff, diff_output. rewrite TEXT, T, D.
  destruct (report_compare d (N.to_nat (o_inline_depth o))) as (s & ->), (report_compare e (N.to_nat (o_inline_depth o))) as (s' & ->).
  split; [reflexivity|]. split; [reflexivity|]. apply less_report; [exact X|lia].
Qed.
Print Assumptions C110_run.

(** ** Two files *)
Local Open Scope string_scope.
Local Open Scope list_scope.
Local Open Scope N_scope.

Local Definition all_lines : cli := mkCli None None (Some ["function"; "variable"]) [] ["unit=a.c"] (Some "name") [] [].
Local Definition filtered (ws : list string) : cli := mkCli None None (Some ["function"; "variable"]) [] ("unit=a.c" :: ws) (Some "name") [] [].
Local Definition compared (c : cli) (a b : object_input) : option text :=
  bind (parse_options c) (fun o =>
    run (fun x => [x]) (fun _ => true) [] [] (fun _ _ _ _ => O) (fun l => l) sample_first sample_first 9 o (ToCompare a b)).
Local Definition old (n : nat) (s : string) : mark * line := (Old, Line n (txt s)).
Local Definition new (n : nat) (s : string) : mark * line := (New, Line n (txt s)).
Local Definition both (n : nat) (s : string) : mark * line := (Same, Line n (txt s)).
Local Definition gap : mark * line := (Same, Blank).
Local Definition int_old : mark * line := (Old, Line 2 (txt "[4]" ++ [9] ++ txt "int")).
Local Definition int_new : mark * line := (New, Line 2 (txt "[4]" ++ [9] ++ txt "int")).
Local Definition int_both : mark * line := (Same, Line 2 (txt "[4]" ++ [9] ++ txt "int")).
Example C110_example :
  (exists o o', parse_options all_lines = Some o /\ parse_options (filtered ["name=kept"]) = Some o' /\ o_html o = false) /\
  (forall later, well_formed (pair_read later) /\ acyclic_types (pair_read later)) /\
  only_names all_lines (filtered ["name=kept"]) /\ only_names all_lines (filtered ["namespace=a"; "name=kept"]) /\
  compared all_lines (pair_read false) (pair_read true) = Some (write_marked
    [new 0 "fn next"; new 1 "address: 0x1030-0x103f"; new 1 "size: 16"; new 1 "return type:"; int_new; (New, Blank);
     old 0 "fn past"; old 1 "address: 0x1030-0x103f"; old 1 "size: 16"; old 1 "return type:"; int_old; (Old, Blank);
     both 0 "fn sum"; old 1 "address: 0x1000-0x101f"; new 1 "address: 0x1000-0x102f"; old 1 "size: 32"; new 1 "size: 48";
     both 1 "return type:"; int_both; gap;
     new 0 "var extra: int"; new 1 "address: 0x2000"; new 1 "size: 4"; (New, Blank);
     old 0 "var kept: int"; new 0 "var kept: struct Pair"; both 1 "address: 0x2008"; old 1 "size: 4"; new 1 "size: 8"; gap;
     old 0 "var lost: int"; old 1 "address: 0x2000"; old 1 "size: 4"; (Old, Blank)]) /\
  compared (filtered ["name=kept"]) (pair_read false) (pair_read true) = Some (write_marked
    [old 0 "var kept: int"; new 0 "var kept: struct Pair"; both 1 "address: 0x2008"; old 1 "size: 4"; new 1 "size: 8"; gap]) /\
  compared (filtered ["namespace=a"; "name=kept"]) (pair_read false) (pair_read true) = Some [].
Proof.
  assert (N : forall ws, (forall w, In w ws -> In w ["namespace=a"; "name=kept"]) -> only_names all_lines (filtered ws)).
  { intros ws W. split; [|split; [|reflexivity]].
    - intros w k y [<-|[]] K I. apply split_at_eq_some in K. cbn in K. injection K as <- <-. cbn in I. intuition discriminate.
    - exists ws. split; [reflexivity|]. intros w k y V K I. apply W in V. apply split_at_eq_some in K. cbn in V.
      destruct V as [<-|[<-|[]]]; cbn in K; injection K as <- <-; cbn in I; intuition discriminate. }
  split; [do 2 eexists; split; [reflexivity|]; split; reflexivity|].
  split.
  { intros later. assert (R : read_file (pair_raw later) = Some (pair_read later)) by (destruct later; reflexivity).
    split; [exact (object_well_formed _ _ (pair_well_formed later) R)|exact (acyclic_raw _ _ (pair_well_formed later) R (pair_acyclic later))]. }
  split; [apply N; intros w [<-|[]]; right; now left|]. split; [apply N; trivial|].
  split; [|split]; vm_compute; reflexivity.
Qed.

(** For the other two filters it is false.  What follows an [@] in the name of a unit does not count when units are paired, but it
    does for the filter: the other unit is left out, and everything in this one is reported as deleted. *)
Local Definition release_unit (name : string) (inline : list (N * raw_value)) : raw_unit :=
  mkRawUnit (mkPlace 0 11 100)
    (RawDie 0x11 11 [(0x03, RwString (chars name)); (0x13, RwLanguage 0x0c); (0x11, RwAddress 0x1000); (0x12, RwConst (UnsignedData 32))]
       [int_die; RawDie 0x2e 70 ([(0x03, RwString (chars "sum")); (0x49, RwUnitRef 20); (0x11, RwAddress 0x1000); (0x12, RwConst (UnsignedData 32))] ++ inline) []])
    None 4 8 [] [] [] (fun _ => None) [] (fun _ => None).
Local Definition release (path name : string) (inline : list (N * raw_value)) : option object_input :=
  read_file (mkRawFile path false [] [] [] [release_unit name inline] [] [] (fun _ => None) None).
Local Definition functions (ws : list string) : cli := mkCli None None (Some ["function"]) [] ws (Some "name") [] [].
Theorem C110_unit_refuted : exists a b out out', release "before" "lib@1" [] = Some a /\ release "after" "lib@2" [] = Some b /\
  compared (functions []) a b = Some out /\ compared (functions ["unit=lib@1"]) a b = Some out' /\
  out = [] /\ contains out' (txt "- fn sum" ++ newline).
Proof.
  do 4 eexists. split; [vm_compute; reflexivity|]. split; [vm_compute; reflexivity|]. split; [vm_compute; reflexivity|].
  split; [vm_compute; reflexivity|]. split; [reflexivity|]. apply holds_spec. vm_compute. reflexivity.
Qed.
Print Assumptions C110_unit_refuted.

(** A function that may be inlined in one file only is reported as added if those are left out. *)
Theorem C110_inline_refuted : exists a b out out', release "before" "lib" [(0x20, RwInline 1)] = Some a /\ release "after" "lib" [] = Some b /\
  compared (functions []) a b = Some out /\ compared (functions ["function-inline=no"]) a b = Some out' /\
  contains out (txt "  fn sum" ++ newline) /\ ~ contains out (txt "+ fn sum" ++ newline) /\ contains out' (txt "+ fn sum" ++ newline).
Proof.
  do 4 eexists. split; [vm_compute; reflexivity|]. split; [vm_compute; reflexivity|]. split; [vm_compute; reflexivity|].
  split; [vm_compute; reflexivity|]. split; [apply holds_spec; vm_compute; reflexivity|]. split; [|apply holds_spec; vm_compute; reflexivity].
  intros X. apply holds_spec in X. vm_compute in X. discriminate X.
Qed.
Print Assumptions C110_inline_refuted.
