(** The page of a file and the text output have the same lines (property C106). *)
From Coq Require Import List Arith NArith ZArith Bool String Ascii Lia Permutation.
From Verif Require Import Base RangeModel TypeModel FileModel FileSpec OptionsModel IdModel PrintModel PrintSpec HtmlSpec HtmlProofs MarkSpec PrintProofs
  NameModel RefModel CodeModel BloatModel ItemModel EntryModel FilterModel FilterSpec ReportModel PropertiesPrint PropertiesHtml PropertiesListing ServeModel WholeModel WholeSpec WholeShown
  PairModel RunModel RunSpec RunPlain PropertiesRun OutlineSpec OutlineProofs OutlineNeat OutlineFile OutlineSizes DieModel ReadModel ReadSpec RawModel RawSpec EndSpec EndSample PropertiesRaw PropertiesEnd ItemShown ServeSpec PropertiesServe.
Import ListNotations.
Local Open Scope list_scope.

Local Notation page_of esc alnum d n := (fst (print_doc (html_printer esc alnum false) false d (html_start n))).

(** What is printed is read on a page, with names in full and nested as deep, as the lines that are not blank. *)
Theorem C106_page : forall esc unescape alnum d n,
  escape_ok esc unescape -> plain_doc esc d -> tidy (short_name alnum) d ->
  exists es, read_html unescape (page_of esc alnum d n) = Some es /\ outline unescape es = filled (lines n 0 d).
Proof.
  intros esc unescape alnum d n OK PL T. destruct (page_outline esc unescape alnum OK d T PL n) as (t & E & R & _).
  unfold html_start. rewrite E. cbn [fst]. apply (trip_page esc unescape OK t _ _ (R 0%nat)).
Qed.
Print Assumptions C106_page.

(** The page of a file against the text output of the same run. *)
Theorem C106_run : forall esc unescape alnum header footer choose order ca cb fuel o ob out,
  escape_ok esc unescape -> plain_letters esc -> plain_mnemonics esc (ob_program ob) -> well_formed ob -> acyclic_types ob ->
  links_named o (load ca ob) -> o_html o = false -> o_http o = false ->
  run esc alnum header footer choose order ca cb fuel o (ToPrint ob) = Some out ->
  exists body es hs ps,
    run esc alnum header footer choose order ca cb fuel (with_html true o) (ToPrint ob) = Some (header ++ body ++ footer) /\
    read_html unescape body = Some es /\
    out = write_lines (hs ++ flat_map (as_text (c_unit (o_category o))) ps) /\
    outline unescape es = filled hs ++ flat_map (on_page (c_unit (o_category o))) ps /\
    Forall2 (part_of o (compare_parameters ob) fuel (load ca ob))
      (printed_units o (im_hash (load ca ob)) (im_units (load ca ob))) ps.
Proof.
  intros esc unescape alnum header footer choose order ca cb fuel o ob out OK L C WF AC NAMED TEXT HTTP E. cbn [run] in E.
  destruct (print_file _ _ _ _) as [d|] eqn:F; [|discriminate]. cbn [option_map] in E. apply some_eq in E. subst out.
  destruct (file_outline alnum o _ fuel _ (compare_consistent ob WF AC) TEXT NAMED d F) as (hs & ps & e & PE & FP & _ & LD & LE & T).
  destruct (C106_page esc unescape alnum e (N.to_nat (o_inline_depth o)) OK (plain_file esc L _ _ _ _ _ (calm_load esc ca ob C) PE) T) as (es & R & OU).
  exists (print_web esc alnum (with_html true o) e), es, hs, ps. split; [|split; [|split; [|split]]].
  - cbn [run]. rewrite PE. reflexivity.
  - unfold print_web, web_printer. cbn [o_http with_html]. rewrite HTTP. exact R.
  - unfold formatted. rewrite TEXT. unfold text_output. rewrite <- LD. apply C46_printed.
  - now rewrite OU.
  - exact FP.
Qed.
Print Assumptions C106_run.

(** The page of the report of sizes, which has no blank lines, against the text output of the same run. *)
Theorem C106_sizes : forall esc unescape alnum header footer choose order ca cb fuel o ob out,
  escape_ok esc unescape -> (forall u f, In u (loaded_units ca ob) -> In f (un_functions u) -> fn_name f <> Some ""%string) ->
  o_html o = false -> o_http o = false ->
  run esc alnum header footer choose order ca cb fuel o (ToSize ob) = Some out ->
  exists body es ls,
    run esc alnum header footer choose order ca cb fuel (with_html true o) (ToSize ob) = Some (header ++ body ++ footer) /\
    read_html unescape body = Some es /\ out = write_lines ls /\ outline unescape es = ls.
Proof.
  intros esc unescape alnum header footer choose order ca cb fuel o ob out OK NAMED TEXT HTTP E. cbn [run] in E.
  destruct (size_report ca ob order) as [d|] eqn:F; [|discriminate]. cbn [option_map ok] in E. apply some_eq in E. subst out.
  pose proof (neat_report (short_name alnum) ca ob order d NAMED F) as N.
  assert (P : plain_doc esc d).
  { unfold size_report in F. destruct (size_callers ca ob) as [m|]; [|discriminate]. exact (plain_sizes esc _ _ _ _ F). }
  destruct (C106_page esc unescape alnum d (N.to_nat (o_inline_depth o)) OK P (neat_tidy _ _ N)) as (es & R & OU).
  exists (print_web esc alnum (with_html true o) d), es, (lines (N.to_nat (o_inline_depth o)) 0 d). split; [|split; [|split]].
  - cbn [run]. rewrite F. reflexivity.
  - unfold print_web, web_printer. cbn [o_http with_html]. rewrite HTTP. exact R.
  - unfold formatted. rewrite TEXT. apply C46_printed.
  - now rewrite OU, (neat_filled _ _ N).
Qed.
Print Assumptions C106_sizes.

(** ** A file *)

Local Open Scope string_scope.
Local Open Scope list_scope.
Local Open Scope N_scope.

Local Definition bases_named (im : image) : bool :=
  forallb (fun u => forallb (fun t => match t_kind t with
    | TStruct s => forallb (fun i => negb (is_empty (text_value (vw_ref_at (im_view im) (i_ty i))))) (s_inherits s)
    | _ => true end) (un_types u)) (im_units im).
Local Lemma bases_named_spec o im : i_function_address (o_ignore o) = false -> bases_named im = true -> links_named o im.
Proof.
  intros A B. split; [rewrite A; discriminate|]. intros u t s i U T K I. unfold bases_named in B. rewrite forallb_forall in B.
  specialize (B u U). rewrite forallb_forall in B. specialize (B t T). rewrite K, forallb_forall in B. specialize (B i I).
  now destruct (text_value (vw_ref_at (im_view im) (i_ty i))).
Qed.
Local Definition page (o : options) (ob : object_input) : option (list line) :=
  match run esc5 (fun _ => true) [] [] (fun _ _ _ _ => O) (fun l => l) sample_first sample_first 9 o (ToPrint ob) with
  | Some t => option_map (outline unescape5) (read_html unescape5 t)
  | None => None
  end.
Local Definition sample_page : list line :=
  [Line 0 (txt "file a.out"); Line 1 (txt "size: 80"); Line 1 (txt "fn size: 32"); Line 1 (txt "var size: 48"); Line 1 (txt "other size: 0");
   Line 0 (txt "unit /src/a.cpp"); Line 1 (txt "fn size: 32"); Line 1 (txt "var size: 48"); Line 1 (txt "types:");
   Line 2 (txt "base int"); Line 3 (txt "size: 4"); Line 3 (txt "encoding: signed");
   Line 2 (txt "struct geo::Point"); Line 3 (txt "size: 16"); Line 3 (txt "members:"); Line 4 (txt "0[4]" ++ [9] ++ txt "x: int");
   Line 4 (txt "4[4]" ++ [9] ++ txt "<padding>"); Line 4 (txt "8[4]" ++ [9] ++ txt "y: int"); Line 4 (txt "12[4]" ++ [9] ++ txt "<padding>");
   Line 2 (txt "enum geo::Colour"); Line 3 (txt "size: 4"); Line 3 (txt "enumerators:"); Line 4 (txt "Red(0)"); Line 4 (txt "Blue(7)");
   Line 2 (txt "type word = int"); Line 3 (txt "size: 4");
   Line 2 (txt "union Either"); Line 3 (txt "size: 4"); Line 3 (txt "members:"); Line 4 (txt "0[4]" ++ [9] ++ txt "a: int");
   Line 4 (txt "0[4]" ++ [9] ++ txt "b: word");
   Line 2 (txt "struct Derived"); Line 3 (txt "size: 24"); Line 3 (txt "inherits: struct geo::Point"); Line 3 (txt "members:");
   Line 4 (txt "0[16]" ++ [9] ++ txt "<inherit>: struct geo::Point"); Line 4 (txt "16[0.3]" ++ [9] ++ txt "<padding>");
   Line 4 (txt "16.3[0.5]" ++ [9] ++ txt "z: int"); Line 4 (txt "17[7]" ++ [9] ++ txt "<padding>");
   Line 2 (txt "type packet = struct <anon>"); Line 3 (txt "size: 8"); Line 3 (txt "members:"); Line 4 (txt "0[4]" ++ [9] ++ txt "n: int");
   Line 4 (txt "4[4]" ++ [9] ++ txt "<anon>: union <anon>"); Line 5 (txt "0[4]" ++ [9] ++ txt "i: int"); Line 5 (txt "0[4]" ++ [9] ++ txt "w: word");
   Line 1 (txt "functions:");
   Line 2 (txt "fn geo::norm"); Line 3 (txt "linkage name: _ZN3geo4normEPKNS_5PointEi"); Line 3 (txt "address: 0x1000-0x101f");
   Line 3 (txt "size: 32"); Line 3 (txt "return type:"); Line 4 (txt "[4]" ++ [9] ++ txt "int"); Line 3 (txt "parameters:");
   Line 4 (txt "[8]" ++ [9] ++ txt "p: * const struct geo::Point"); Line 4 (txt "[4]" ++ [9] ++ txt "int");
   Line 1 (txt "variables:");
   Line 2 (txt "var table: [struct geo::Point; 3]"); Line 3 (txt "address: 0x2000"); Line 3 (txt "size: 48");
   Line 0 (txt "unit <symtab>"); Line 0 (txt "unit <unknown>")].

Example C106_example :
  escape_ok esc5 unescape5 /\ plain_letters esc5 /\ plain_mnemonics esc5 (ob_program sample_read) /\
  well_formed sample_read /\ acyclic_types sample_read /\ links_named sample_settings (load sample_first sample_read) /\
  o_html sample_settings = false /\ o_http sample_settings = false /\
  page (with_html true sample_settings) sample_read = Some sample_page.
Proof.
  split; [exact C28_escape_ok|]. split; [intros c I; vm_compute in I; repeat (destruct I as [<-|I]; [reflexivity|]); destruct I|].
  split; [intros q bytes a insns i m E; discriminate E|].
  split; [eapply C88_well_formed; [exact sample_raw_well_formed|reflexivity]|].
  split; [eapply C95_acyclic; [exact sample_raw_well_formed|reflexivity|exact sample_raw_acyclic]|].
  split; [apply bases_named_spec; [reflexivity|vm_compute; reflexivity]|]. split; [reflexivity|]. split; [reflexivity|]. vm_compute. reflexivity.
Qed.

(** [inline int twice(..) { .. }] that is nowhere on its own, and [struct Odd] with the base class given. *)
Local Definition twice_die : raw_die :=
  RawDie 0x2e 24 [(0x03, RwString (chars "twice")); (0x20, RwInline 1)] [].
Local Definition root_die : raw_die :=
  RawDie 0x2e 26 [(0x03, RwString (chars "root")); (0x11, RwAddress 0x1000); (0x12, RwConst (UnsignedData 8))] [].
Local Definition odd_die : raw_die :=
  RawDie 0x02 30 [(0x03, RwString (chars "Odd")); (0x0b, RwConst (FixedData 1 4))] [RawDie 0x1c 32 [(0x49, RwUnitRef 20)] []].
Local Definition file_of (name : string) : raw_file :=
  mkRawFile "a.out" false [] [] []
    [mkRawUnit (mkPlace 0 11 200)
       (RawDie 0x11 11 [(0x03, RwString (chars "a.cpp"))]
          [RawDie 0x24 20 [(0x03, RwString (chars name)); (0x0b, RwConst (FixedData 1 4))] []; twice_die; root_die; odd_die])
       None 4 8 [] [] [] (fun _ => None) [] (fun _ => None)] [] [] (fun _ => None) None.
Local Definition odd_settings : options := Eval vm_compute in
  match parse_options (mkCli None None None [] [] None [] []) as x return match x with Some _ => options | None => True end with Some o => o | None => I end.
Local Definition text_lines (name : string) : option text :=
  match read_file (file_of name) with
  | Some ob => run esc5 (fun _ => true) [] [] (fun _ _ _ _ => O) (fun l => l) sample_first sample_first 9 odd_settings (ToPrint ob)
  | None => None
  end.
Local Definition page_lines (name : string) : option (list line) :=
  match read_file (file_of name) with Some ob => page (with_html true odd_settings) ob | None => None end.

(** The function without a size is under its own title. *)
Example C106_example_inlined :
  text_lines "int" = Some (write_lines
    [Line 0 (txt "file a.out"); Line 1 (txt "size: 8"); Line 1 (txt "fn size: 8"); Line 1 (txt "var size: 0"); Line 1 (txt "other size: 0"); Blank;
     Line 0 (txt "unit a.cpp"); Line 1 (txt "fn size: 8"); Blank;
     Line 0 (txt "base int"); Line 1 (txt "size: 4"); Blank;
     Line 0 (txt "struct Odd"); Line 1 (txt "size: 4"); Line 1 (txt "inherits: int"); Line 1 (txt "members:");
     Line 2 (txt "0[4]" ++ [9] ++ txt "<inherit>: int"); Blank;
     Line 0 (txt "fn twice"); Line 1 (txt "inline: yes"); Blank;
     Line 0 (txt "fn root"); Line 1 (txt "address: 0x1000-0x1007"); Line 1 (txt "size: 8"); Blank;
     Line 0 (txt "unit <symtab>"); Blank; Line 0 (txt "unit <unknown>"); Blank]) /\
  page_lines "int" = Some
    [Line 0 (txt "file a.out"); Line 1 (txt "size: 8"); Line 1 (txt "fn size: 8"); Line 1 (txt "var size: 0"); Line 1 (txt "other size: 0");
     Line 0 (txt "unit a.cpp"); Line 1 (txt "fn size: 8"); Line 1 (txt "types:");
     Line 2 (txt "base int"); Line 3 (txt "size: 4");
     Line 2 (txt "struct Odd"); Line 3 (txt "size: 4"); Line 3 (txt "inherits: int"); Line 3 (txt "members:");
     Line 4 (txt "0[4]" ++ [9] ++ txt "<inherit>: int");
     Line 1 (txt "functions:"); Line 2 (txt "fn root"); Line 3 (txt "address: 0x1000-0x1007"); Line 3 (txt "size: 8");
     Line 1 (txt "inlined functions:"); Line 2 (txt "fn twice"); Line 3 (txt "inline: yes");
     Line 0 (txt "unit <symtab>"); Line 0 (txt "unit <unknown>")].
Proof. split; vm_compute; reflexivity. Qed.

(** A base class whose name is empty is a line on the page, but not in the text output. *)
Theorem C106_unnamed_refuted : exists out ls, text_lines "" = Some out /\ page_lines "" = Some ls /\
  In (Line 3 (txt "inherits: ")) ls /\ ~ contains out (txt "inherits").
Proof.
  destruct (text_lines "") as [out|] eqn:T; [|vm_compute in T; discriminate]. destruct (page_lines "") as [ls|] eqn:P; [|vm_compute in P; discriminate].
  exists out, ls. split; [reflexivity|]. split; [reflexivity|]. split.
  - vm_compute in P. injection P as <-. vm_compute. tauto.
  - intros C. apply holds_spec in C. assert (H : option_map (holds (txt "inherits")) (text_lines "") = Some false) by (vm_compute; reflexivity).
    rewrite T in H. cbn [option_map] in H. congruence.
Qed.
Print Assumptions C106_unnamed_refuted.

(** Two copies of a function, one with a call to it. *)
Local Definition report_lines : list line :=
  [Line 0 (txt "22 get<int> a.h:3"); Line 1 (txt "10 /src/a.cpp"); Line 1 (txt "12 /src/b.cpp"); Line 2 (txt "start");
   Line 0 (txt "16 one"); Line 1 (txt "16 /src/a.cpp"); Line 0 (txt "16 start"); Line 1 (txt "16 <symtab>")].
Local Definition report (html : bool) : option text :=
  run esc5 (fun _ => true) [] [] (fun _ _ _ _ => O) (fun l => l) sample_first sample_first 9 (with_html html odd_settings) (ToSize PropertiesRun.sample).
Example C106_example_sizes :
  (forall u f, In u (loaded_units sample_first PropertiesRun.sample) -> In f (un_functions u) -> fn_name f <> Some ""%string) /\
  report false = Some (write_lines report_lines) /\
  bind (report true) (fun t => option_map (outline unescape5) (read_html unescape5 t)) = Some report_lines.
Proof.
  split; [|split; vm_compute; reflexivity].
  assert (C : forallb (fun u => forallb (fun f => match fn_name f with Some ""%string => false | _ => true end) (un_functions u))
    (loaded_units sample_first PropertiesRun.sample) = true) by (vm_compute; reflexivity).
  intros u f U F E. rewrite forallb_forall in C. specialize (C u U). rewrite forallb_forall in C. specialize (C f F). clear U F. rewrite E in C. discriminate C.
Qed.
