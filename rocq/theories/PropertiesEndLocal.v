(** From the values of attributes to what is printed inside a function (properties C102 and C104). *)
From Coq Require Import List Arith NArith ZArith Bool String Lia Sorting.Sorted.
From Verif Require Import DescribeProofs MemberProofs DetailSpec PropertiesMember Base BaseProofs RangeModel NamespaceModel NamespaceSpec TypeModel TypeSpec TypeProofs TypeSizeProofs LayoutModel FileModel FileSpec FilterModel FilterSpec
  FilterProofs DiffModel PrintModel PrintSpec PrintProofs LocationModel RefModel RefSpec RefProofs ReadModel ReadSpec CodeModel ItemModel ItemSpec OptionsModel EntryModel EntrySpec EntryProofs
  IdModel ReportModel ReportSpec DetailModel NameModel MemberSpec WholeModel WholeSpec WholeProofs WholeDepth WholeShown PropertiesWhole PropertiesDie RawModel RawSpec RawProofs PropertiesRaw
  EndSpec EndProofs EndTypes EndSample EndLocalSample PropertiesEnd EndLocalSpec EndLocals EndCalls EndInlined.
From Verif Require Import DieModel DieSpec.
Import ListNotations.
Local Open Scope N_scope.

Local Lemma function_whole : forall c o given fuel choice rf ob out u d x ps vs sites inner,
  configured c o given -> o_html o = false -> raw_well_formed rf -> raw_acyclic rf -> read_file rf = Some ob ->
  print_output fuel choice o ob = Some out ->
  In u (rf_units rf) -> raw_unit_wanted rf given o u -> c_function (o_category o) = true ->
  gives_function rf u d x -> raw_function_wanted o x ->
  locals_in rf u d ps vs -> gives_sites rf u d sites -> Forall2 (gives_inlined rf u) (inside 0x1d d) inner ->
  (p_function_stack_frame (o_print o) = true -> moderate_frame ps vs inner) ->
  exists before ls after, whole_function_lines rf o x ps vs sites inner ls /\ out = write_lines (before ++ ls ++ after).
Proof.
  intros c o given fuel choice rf ob out u d x ps vs sites inner C HT WF AC RD OUT I UW CF G W LI GS GI MF.
  pose proof (C88_well_formed rf ob WF RD) as OW. pose proof (unit_in rf ob RD u I) as Iu.
  assert (J : In d (raw_below u)) by (destruct G as [? b path|? b path]; now apply (placed_below rf u b path)).
  destruct (In_nth_error _ _ Iu) as (i & Ei).
  destruct (function_described rf ob u d x WF AC RD I G) as (g0 & D0 & _ & _ & _ & _ & FW & _).
  destruct (function_given rf ob WF AC RD u I d x G) as (g & D & H).
  assert (g0 = g) as ->.
  { pose proof (unit_distinct ob OW _ Iu) as UD. pose proof (items_read ob (read_unit rf u)) as IR. destruct (C35_kept _ _ _ UD IR) as (SS & _).
    destruct (located_entry (unit_base (read_unit rf u)) (ui_children (read_unit rf u))) as (_ & EN).
    apply (NoDup_map_eq fu_offset _ _ _ (StronglySorted_lt_NoDup _ SS)).
    - exact (C35_resolved _ _ _ _ _ UD IR D0).
    - exact (C35_resolved _ _ _ _ _ UD IR D).
    - rewrite (proj2 (EN _ _ D0)), (proj2 (EN _ _ D)). reflexivity. }
  destruct (C80_unit c o given fuel choice ob i (read_unit rf u) out C HT OW (acyclic_raw rf ob WF RD AC) OUT Ei (unit_read_wanted rf given o u UW))
    as (w & pre & ts & fs & lvs & post & _ & _ & _ & _ & F & _ & ->).
  destruct F as [B|ls _ (gs & _ & IG & _ & EA)]; [congruence|].
  apply FW, (IG _ g D) in W. destruct (each_split _ _ _ g EA W) as (a & xs & b & -> & (f & FF & R & S & SH)).
  unfold function_holds in H. destruct H as (HO & PO & TX & HN & HL & HD & HS & HA & HZ & B & HR & HI & HDe & HT' & _).
  destruct (function_like choice rf ob WF AC RD u I d ps vs sites inner J LI GS GI) as (K1 & K2 & K3 & K4).
  exists (pre ++ (if c_unit (o_category o) then unit_lines o (load choice ob) w else []) ++ ts ++ a)%list, xs, (b ++ lvs ++ post)%list.
  split.
  2: { f_equal. repeat (cbn [app]; rewrite <- ?app_assoc). reflexivity. }
  destruct FF as (F0 & F1 & F2 & F3 & F4 & F5 & F6 & F7 & F8 & F9).
  assert (DE : sc_details (file_scene choice ob) f = details_of (get_function_details (entry_space ob) (file_offsets (loaded choice ob)) (spot_in u d))).
  { cbn [file_scene sc_details]. unfold function_details_of. now rewrite F0, HO. }
  inversion SH as [lp lv lf li cs code dd P1 P2 P3 P4 P5 P6 XS]. clear SH XS. subst dd.
  rewrite DE in P1, P2, P3, P4.
  exists (fn_symbol_name f), lp, lv, lf, li,
    (if p_function_calls (o_print o)
      then under 1 "call sites" (flat_map (site_shown o (file_scene choice ob) (ui_dir (read_unit rf u)) 2) (de_calls (sc_details (file_scene choice ob) f))) else []),
    (under 1 "calls" cs ++ under 1 "instructions" code)%list.
  split; [|split; [|split; [|split; [|split; [|split; [|split]]]]]].
  - rewrite (raw_symbols rf ob RD) in F9. now rewrite HA, HL, HN in F9.
  - exact (formals_shown choice rf ob RD o 2 _ ps lp K1 P1).
  - exact (optional_same (fun k => slots_shown choice rf ob RD o 2 _ vs k K2) P2).
  - destruct P3 as [E|k E (es & S1 & S2 & ->)]; [now constructor|]. constructor; [exact E|].
    exact (frame_lines_given choice ob _ ps vs inner es K1 K2 K3 (MF E) S1 S2).
  - rewrite <- HD. exact (inner_given choice rf ob RD o _ _ 2 _ inner li K3 P4).
  - split; [now intros ->|]. intros -> k ->. rewrite DE, <- HD. f_equal. now apply sites_same.
  - intros E1 E2. destruct P5 as [_|k X _]; [|congruence]. destruct P6 as [_|k X _]; [|congruence]. reflexivity.
  - unfold function_name, returns_shown. rewrite R.
    assert (K : labelled_line 1 "size" (match known (fn_size f) with Some n => dec n | None => [] end) =
      match rn_size x with Some n => [Line 1 (txt "size: " ++ dec n)] | None => [] end).
    { rewrite F5, HZ. destruct B as [(_ & ->)|(? & n & _ & _ & -> & Ln)]; [reflexivity|]. cbn [opt64_from]. unfold known. destruct (N.eqb_spec n u64_max); [lia|]. apply dec_line. }
    specialize (HT' choice). unfold return_shown in HT'. change (vw_find (file_view choice ob)) with (vw_find (sc_view (file_scene choice ob))) in HT'.
    change (vw_hash (file_view choice ob)) with (vw_hash (sc_view (file_scene choice ob))) in HT'. change (vw_ref (file_view choice ob)) with (vw_ref (sc_view (file_scene choice ob))) in HT'.
    rewrite HT', K, S, F1, F2, F3, F6, F7, F8, HN, HL, HS, HI, HDe, HR, HD.
    assert (PN : forall m, path_and_name (fu_namespace g) m = path_text (rn_path x) ++ name_or "<anon>" m) by (intros m; rewrite <- TX; reflexivity). rewrite PN.
    unfold function_words, optional_name, yes. repeat (cbn [app]; rewrite <- ?app_assoc). reflexivity.
Qed.

(** C102: all lines of a function, but for calls and code: its head, parameters and variables with where they are, the stack frame, and the functions inlined into it. *)
Theorem C102_function : forall c o given fuel choice rf ob out u d x ps vs inner,
  configured c o given -> o_html o = false -> raw_well_formed rf -> raw_acyclic rf -> read_file rf = Some ob ->
  print_output fuel choice o ob = Some out ->
  In u (rf_units rf) -> raw_unit_wanted rf given o u -> c_function (o_category o) = true ->
  gives_function rf u d x -> raw_function_wanted o x ->
  locals_in rf u d ps vs -> Forall2 (gives_inlined rf u) (inside 0x1d d) inner ->
  (p_function_stack_frame (o_print o) = true -> moderate_frame ps vs inner) ->
  exists before ls after, whole_function_lines rf o x ps vs None inner ls /\ out = write_lines (before ++ ls ++ after).
Proof.
  intros c o given fuel choice rf ob out u d x ps vs inner C HT WF AC RD OUT I UW CF G W LI GI MF.
  exact (function_whole c o given fuel choice rf ob out u d x ps vs None inner C HT WF AC RD OUT I UW CF G W LI Logic.I GI MF).
Qed.
Print Assumptions C102_function.
(** C104: with the calls. *)
Theorem C104_function : forall c o given fuel choice rf ob out u d x ps vs sites inner,
  configured c o given -> o_html o = false -> raw_well_formed rf -> raw_acyclic rf -> read_file rf = Some ob ->
  print_output fuel choice o ob = Some out ->
  In u (rf_units rf) -> raw_unit_wanted rf given o u -> c_function (o_category o) = true ->
  gives_function rf u d x -> raw_function_wanted o x ->
  locals_in rf u d ps vs -> Forall2 (gives_site rf u) (calls_inside d) sites -> Forall2 (gives_inlined rf u) (inside 0x1d d) inner ->
  (p_function_stack_frame (o_print o) = true -> moderate_frame ps vs inner) ->
  exists before ls after, whole_function_lines rf o x ps vs (Some sites) inner ls /\ out = write_lines (before ++ ls ++ after).
Proof.
  intros c o given fuel choice rf ob out u d x ps vs sites inner C HT WF AC RD OUT I UW CF G W LI GS GI MF.
  exact (function_whole c o given fuel choice rf ob out u d x ps vs (Some sites) inner C HT WF AC RD OUT I UW CF G W LI GS GI MF).
Qed.
Print Assumptions C104_function.

(** An example: a function with a parameter at two places, a variable in a block, and an inlined function with a parameter and a variable. *)
Local Open Scope string_scope.
Local Open Scope list_scope.
Local Open Scope N_scope.
Local Notation rf := held_raw.
Local Notation u := held_raw_unit.
Local Lemma held_placed d : In d [int_die; held_twice_die; outer_die; other_die] -> placed rf u false [] d.
Proof. intros I. apply pl_top. exact I. Qed.
Local Lemma held_int attrs : gives 0x49 attrs (RwUnitRef 20) ->
  type_text rf u 0x49 attrs (txt "int") /\ type_bytes rf u attrs 4 /\ type_spot rf u attrs (Some 20).
Proof.
  intros G. split; [|split].
  - eapply tt_entry; [exact G|apply (rfs_unit _ u int_die)| |]; [cbn; tauto|cbn; tauto|].
    eapply (et_base _ _ int_die false [] (Some "int")); [reflexivity|apply held_placed; now left|named_now O].
  - eapply tb_entry; [exact G|apply (rfs_unit _ u int_die)| |]; [cbn; tauto|cbn; tauto|].
    eapply (eb_given _ _ int_die false []); [now left|apply held_placed; now left|number_now 1%nat].
  - apply (tsp_entry rf u attrs (RwUnitRef 20) u int_die G); [apply (rfs_unit _ u int_die); cbn; tauto|cbn; tauto].
Qed.
Local Ltac held_result n := apply (rsh_type _ _ _ (RwUnitRef 20) (txt "int") 4); [gives_now n|apply held_int; gives_now n|apply held_int; gives_now n].
Local Ltac held_source := apply sa_intro; [apply fa_none|apply na_none|apply na_none]; lacks_now.
Local Definition int_line : list line := [Line 2 (txt "[4]" ++ [9] ++ txt "int")].
Local Definition outer_given : raw_function :=
  mkRawFunction [] (Some "outer") None (Some "/src") (mkSource None None 0 0) (Some 0x1000) (Some 0x40) [mkRange 0x1000 0x1040] false false int_line
    [mkRawParameter 62 (Some "a") (txt "int") 4].
Local Definition twice_given : raw_function :=
  mkRawFunction [] (Some "twice") None (Some "/src") (mkSource None None 0 0) None None [] true false int_line [mkRawParameter 42 (Some "n") (txt "int") 4].
Local Definition int_local (spot : N) (name : string) (l : list held) : raw_local := mkRawLocal spot (Some name) (txt "int") 4 (Some 20) None l.
Local Definition inner_site : raw_site := mkRawSite false (Some 0x1014) None [] [txt "0x2000"] (mkSource None None 0 0) [].
Local Definition outer_sites : list raw_site :=
  [mkRawSite false None (Some 0x1018) (txt " -> twice") [] (mkSource (Some "inc") (Some "h.cpp") 8 0)
     [mkRawArgument (Some "n") (Some (txt "int")) [txt "rdi"] [txt "r3+0x1"] [] []];
   mkRawSite true None (Some 0x1030) (txt " -> indirect(parameter)") [txt "rdi"] (mkSource None None 0 0) []].
Local Definition outer_inlined : raw_inlined :=
  mkRawInlined (Some 8) (txt "twice") (mkSource (Some "inc") (Some "h.cpp") 7 0) [int_local 42 "n" [InRegister 3]] [int_local 44 "r" [OnStack (-28)]]
    (Some [inner_site]) [].
Local Definition outer_parameters : list raw_local := [int_local 62 "a" [InRegister 5; OnStack (-36)]].
Local Definition outer_variables : list raw_local := [int_local 64 "t" [OnStack (-24)]; int_local 68 "w" [OnStack (-40)]].
Local Lemma outer_is : gives_function rf u outer_die outer_given.
Proof.
  apply (gf_own _ _ _ false).
  - reflexivity.
  - apply held_placed. cbn. tauto.
  - lacks_now.
  - lacks_now.
  - apply cg_one; [lacks_now|]. eapply ca_length; [gives_now 2%nat|apply ads_given|discriminate|gives_now 3%nat|discriminate|reflexivity].
  - named_now 1%nat.
  - named_now O.
  - unnamed_now.
  - held_source.
  - apply isi_none. lacks_now.
  - apply isd_none. lacks_now.
  - held_result 1%nat.
  - change (with_raw_tag 0x05 outer_die) with [held_a_die].
    eapply po_new; [lacks_now|named_now O|apply held_int; gives_now 1%nat|apply held_int; gives_now 1%nat|]. apply po_none.
Qed.
Local Lemma held_twice_is : gives_function rf u held_twice_die twice_given.
Proof.
  apply (gf_own _ _ _ false).
  - reflexivity.
  - apply held_placed. cbn. tauto.
  - lacks_now.
  - lacks_now.
  - apply cg_none; lacks_now.
  - named_now 1%nat.
  - named_now O.
  - unnamed_now.
  - held_source.
  - apply (isi_yes _ 1); [gives_now 2%nat|now left].
  - apply isd_none. lacks_now.
  - held_result 1%nat.
  - change (with_raw_tag 0x05 held_twice_die) with [held_n_die].
    eapply po_new; [lacks_now|named_now O|apply held_int; gives_now 1%nat|apply held_int; gives_now 1%nat|]. apply po_none.
Qed.
Local Ltac new_local l := eapply (lo_new rf u _ _ _ _ _ _ l); [lacks_now|named_now O|apply held_int; gives_now 1%nat|apply held_int; gives_now 1%nat|apply held_int; gives_now 1%nat| |].
Local Lemma outer_locals : locals_in rf u outer_die outer_parameters outer_variables.
Proof.
  apply (li_intro _ _ _ _ _ [] []); [apply cp_none; lacks_now| |].
  - change (with_raw_tag 0x05 outer_die) with [held_a_die]. new_local [InRegister 5; OnStack (-36)]; [|apply lo_none].
    apply (ha_list u _ (RwLocations 0) held_list [InRegister 5; OnStack (-36)]); [gives_now 2%nat|now apply lst_offset|].
    constructor; [apply hb_register|constructor; [apply hb_frame|constructor]].
  - change (inside 0x34 outer_die) with [held_t_die; held_w_die].
    new_local [OnStack (-24)]; [eapply ha_expression; [gives_now 2%nat|apply hb_frame]|].
    new_local [OnStack (-40)]; [eapply ha_expression; [gives_now 2%nat|apply hb_frame]|apply lo_none].
Qed.
Local Lemma twice_copies attrs : gives 0x31 attrs (RwUnitRef 40) -> copied rf u attrs [int_local 42 "n" []] [int_local 44 "r" []].
Proof.
  intros G. apply (cp_copy rf u attrs (RwUnitRef 40) u held_twice_die); [exact G|apply (rfs_unit _ u held_twice_die); cbn; tauto|cbn; tauto| |].
  - change (with_raw_tag 0x05 held_twice_die) with [held_n_die]. new_local (@nil held); [apply ha_none; lacks_now|apply lo_none].
  - change (inside 0x34 held_twice_die) with [held_r_die]. new_local (@nil held); [apply ha_none; lacks_now|apply lo_none].
Qed.
Local Lemma held_file attrs : gives 0x58 attrs (RwFileIndex 1) -> call_file_at rf u attrs (Some "h.cpp") (Some "inc").
Proof.
  intros G. apply (cfa_file rf u _ (RwFileIndex 1) (RwString (chars "h.cpp")) (RwString (chars "inc"))); [exact G| | | |].
  - split; [reflexivity|]. do 3 eexists. do 3 (split; [first [reflexivity|discriminate]|]). exists [], []. now split.
  - split; [reflexivity|]. do 4 eexists. do 3 (split; [first [reflexivity|discriminate]|]).
    split; [exists [], []; now split|]. left. exists [], []. now split.
  - apply (sym_string rf u _ (text_of (chars "h.cpp"))), sys_inline.
  - apply (sym_string rf u _ (text_of (chars "inc"))), sys_inline.
Qed.
Local Ltac no_call_source := apply csa_intro; [apply cfa_none|apply na_none|apply na_none]; lacks_now.
Local Ltac none_now := apply oo_none; let k := fresh in let K := fresh in intros k K; cbn in K; repeat (destruct K as [<-|K]; [lacks_now|]); destruct K.
Local Ltac one_now n code := apply (oo_one _ _ code); [cbn; tauto|gives_now n|let k := fresh in let K := fresh in let NE := fresh in
  intros k K NE; cbn in K; repeat (destruct K as [<-|K]; [first [now destruct NE|lacks_now]|]); destruct K].
Local Lemma outer_calls : Forall2 (gives_site rf u) (calls_inside outer_die) outer_sites.
Proof.
  change (calls_inside outer_die) with [direct_call_die; last_call_die]. constructor; [|constructor; [|constructor]].
  - apply gs_intro.
    + now left.
    + split; [split; lacks_now|reflexivity].
    + apply adb_none. none_now.
    + apply (adb_address _ _ _ (RwAddress 0x1018)); [one_now O 0x7d|constructor].
    + apply (cb_function rf u _ (RwUnitRef 40) u held_twice_die twice_given); [one_now 1%nat 0x7f|apply (rfs_unit _ u held_twice_die); cbn; tauto|exact held_twice_is].
    + apply eb_none. none_now.
    + apply csa_intro; [apply held_file; gives_now 2%nat|apply na_number; [gives_now 3%nat|split; reflexivity]|apply na_none; lacks_now].
    + change (argument_entries direct_call_die) with [argument_die]. constructor; [|constructor]. apply ga_intro.
      * apply (aw_for rf u _ (RwUnitRef 42) u held_n_die); [one_now O 0x80|apply (rfs_unit _ u held_n_die); cbn; tauto|cbn; tauto| |].
        -- right. split; [intros L; apply L; now left|named_now O].
        -- right. split; [intros L; apply L; right; now left|]. apply (tsd_type rf u _ (RwUnitRef 20)); [gives_now 1%nat|apply held_int; gives_now 1%nat].
      * apply (eb_words rf u _ _ [] [] [ORegister 5]); [one_now 1%nat 0x02|apply ew_register].
      * apply (eb_words rf u _ _ [] [] [ORegisterOffset 3 1]); [one_now 2%nat 0x7e|apply ew_place, ow_based].
      * apply eb_none. none_now.
      * apply eb_none. none_now.
  - apply gs_intro.
    + right. now left.
    + split; [discriminate|]. intros (_ & L). destruct L. now left.
    + apply adb_none. none_now.
    + apply (adb_address _ _ _ (RwAddress 0x1030)); [one_now 1%nat 0x11|constructor].
    + apply (cb_parameter rf u _ (RwUnitRef 62) u held_a_die); [one_now 2%nat 0x31|apply (rfs_unit _ u held_a_die); cbn; tauto|cbn; tauto|reflexivity].
    + apply (eb_words rf u _ _ [] [] [ORegister 5]); [one_now 3%nat 0x2113|apply ew_register].
    + no_call_source.
    + constructor.
Qed.
Local Lemma inner_calls : gives_sites rf u inlined_die (Some [inner_site]).
Proof.
  change (Forall2 (gives_site rf u) [inner_call_die] [inner_site]). constructor; [|constructor]. apply gs_intro.
  - now left.
  - split; [split; lacks_now|reflexivity].
  - apply (adb_address _ _ _ (RwAddress 0x1014)); [one_now O 0x81|constructor].
  - apply adb_none. none_now.
  - apply cb_none. none_now.
  - apply (eb_words rf u _ _ [] [] [OAddress 0x2000]); [one_now 1%nat 0x83|apply ew_place, ow_address; reflexivity].
  - no_call_source.
  - constructor.
Qed.
Local Lemma outer_inlines : gives_inlined rf u inlined_die outer_inlined.
Proof.
  apply gi_intro.
  - reflexivity.
  - eapply ib_code, cg_one; [lacks_now|]. eapply ca_length; [gives_now 1%nat|apply ads_given|discriminate|gives_now 2%nat|discriminate|reflexivity].
  - eapply (iw_function rf u _ (RwUnitRef 40) u held_twice_die twice_given); [gives_now O|apply (rfs_unit _ u held_twice_die); cbn; tauto|exact held_twice_is].
  - apply csa_intro.
    + apply held_file. gives_now 3%nat.
    + apply na_number; [gives_now 4%nat|split; reflexivity].
    + apply na_none. lacks_now.
  - apply (li_intro _ _ _ _ _ [int_local 42 "n" []] [int_local 44 "r" []]); [apply twice_copies; gives_now O| |].
    + change (with_raw_tag 0x05 inlined_die) with [inlined_n_die].
      apply (lo_known rf u [] (int_local 42 "n" []) [] inlined_n_die (RwUnitRef 42) u held_n_die (Some "n") (txt "int") 4 (Some 20) [InRegister 3]);
        [gives_now O|apply (rfs_unit _ u held_n_die); cbn; tauto|reflexivity|constructor|eexists; split; [unnamed_now|reflexivity]
        |left; split; [lacks_now|now split]|eapply ha_expression; [gives_now 1%nat|apply hb_register]|apply lo_none].
    + change (inside 0x34 inlined_die) with [inlined_r_die].
      apply (lo_known rf u [] (int_local 44 "r" []) [] inlined_r_die (RwUnitRef 44) u held_r_die (Some "r") (txt "int") 4 (Some 20) [OnStack (-28)]);
        [gives_now O|apply (rfs_unit _ u held_r_die); cbn; tauto|reflexivity|constructor|eexists; split; [unnamed_now|reflexivity]
        |left; split; [lacks_now|now split]|eapply ha_expression; [gives_now 1%nat|apply hb_frame]|apply lo_none].
  - exact inner_calls.
  - constructor.
Qed.
Local Definition outer_printed : list line :=
  [Line 0 (txt "fn outer"); Line 1 (txt "address: 0x1000-0x103f"); Line 1 (txt "size: 64");
   Line 1 (txt "return type:"); Line 2 (txt "[4]" ++ [9] ++ txt "int");
   Line 1 (txt "parameters:"); Line 2 (txt "[4]" ++ [9] ++ txt "a: int"); Line 3 (txt "registers:"); Line 4 (txt "rdi"); Line 3 (txt "stack frame: -36");
   Line 1 (txt "variables:"); Line 2 (txt "[4]" ++ [9] ++ txt "t: int"); Line 3 (txt "stack frame: -24");
   Line 2 (txt "[4]" ++ [9] ++ txt "w: int"); Line 3 (txt "stack frame: -40");
   Line 1 (txt "stack frame:"); Line 2 (txt "-40[4]" ++ [9] ++ txt "w: int"); Line 2 (txt "-36[4]" ++ [9] ++ txt "a: int");
   Line 2 (txt "-32[4]" ++ [9] ++ txt "<unknown>"); Line 2 (txt "-28[4]" ++ [9] ++ txt "r: int"); Line 2 (txt "-24[4]" ++ [9] ++ txt "t: int");
   Line 1 (txt "inlined functions:"); Line 2 (txt "[8]" ++ [9] ++ txt "twice"); Line 3 (txt "call source: /src/inc/h.cpp:7");
   Line 3 (txt "parameters:"); Line 4 (txt "[4]" ++ [9] ++ txt "n: int"); Line 5 (txt "registers:"); Line 6 (txt "r3");
   Line 3 (txt "variables:"); Line 4 (txt "[4]" ++ [9] ++ txt "r: int"); Line 5 (txt "stack frame: -28");
   Line 3 (txt "call sites:"); Line 4 (txt "call at 0x1014"); Line 5 (txt "target:"); Line 6 (txt "0x2000");
   Line 1 (txt "call sites:"); Line 2 (txt "call at <before return> -> twice"); Line 3 (txt "return address: 0x1018"); Line 3 (txt "source: /src/inc/h.cpp:8");
   Line 3 (txt "parameters:"); Line 4 (txt "n: int"); Line 5 (txt "location:"); Line 6 (txt "rdi"); Line 5 (txt "value:"); Line 6 (txt "r3+0x1");
   Line 2 (txt "tail call at <before return> -> indirect(parameter)"); Line 3 (txt "return address: 0x1030"); Line 3 (txt "target:"); Line 4 (txt "rdi"); Blank].
Local Definition held_printed : text := write_lines
  ([Line 0 (txt "fn twice"); Line 1 (txt "inline: yes"); Line 1 (txt "return type:"); Line 2 (txt "[4]" ++ [9] ++ txt "int");
    Line 1 (txt "parameters:"); Line 2 (txt "[4]" ++ [9] ++ txt "n: int"); Line 1 (txt "variables:"); Line 2 (txt "[4]" ++ [9] ++ txt "r: int"); Blank] ++
   outer_printed ++
   [Line 0 (txt "fn twice"); Line 1 (txt "address: 0x1040-0x104f"); Line 1 (txt "size: 16"); Line 1 (txt "return type:"); Line 2 (txt "[4]" ++ [9] ++ txt "int");
    Line 1 (txt "parameters:"); Line 2 (txt "[4]" ++ [9] ++ txt "n: int"); Line 3 (txt "registers:"); Line 4 (txt "rdi");
    Line 1 (txt "variables:"); Line 2 (txt "[4]" ++ [9] ++ txt "r: int"); Blank]).
(** For both theorems. *)
Example C102_example :
  configured held_arguments held_settings [] /\ o_html held_settings = false /\ raw_well_formed rf /\ raw_acyclic rf /\ read_file rf = Some held_read /\
  print_output 9 sample_first held_settings held_read = Some held_printed /\
  In u (rf_units rf) /\ raw_unit_wanted rf [] held_settings u /\ c_function (o_category held_settings) = true /\
  gives_function rf u outer_die outer_given /\ raw_function_wanted held_settings outer_given /\
  locals_in rf u outer_die outer_parameters outer_variables /\ Forall2 (gives_site rf u) (calls_inside outer_die) outer_sites /\
  Forall2 (gives_inlined rf u) (inside 0x1d outer_die) [outer_inlined] /\
  moderate_frame outer_parameters outer_variables [outer_inlined].
Proof.
  split; [exact held_settings_from|]. split; [reflexivity|]. split; [exact held_well_formed|]. split; [exact held_acyclic|]. split; [reflexivity|].
  split; [vm_compute; reflexivity|]. split; [now left|].
  split; [exists (Some "h.cpp"); split; [named_now O|]; intros f E; discriminate E|]. split; [reflexivity|]. split; [exact outer_is|].
  split; [split; [right; discriminate|split; [split; [intros m E; discriminate E|exists []; reflexivity]|intros n E; discriminate E]]|].
  split; [exact outer_locals|]. split; [exact outer_calls|]. split; [constructor; [exact outer_inlines|constructor]|].
  assert (B : forall z, In z [-36; -24; -40; -28]%Z -> (- 2 ^ 61 < z < 2 ^ 61)%Z) by (intros z J; cbn in J; lia).
  intros p z J K.
  assert (In p (outer_parameters ++ outer_variables ++ [int_local 42 "n" [InRegister 3]; int_local 44 "r" [OnStack (-28)]])).
  { destruct J as [J|(y & [<-|[]] & J)]; [rewrite app_assoc; apply in_app_iff; now left|]. rewrite app_assoc. apply in_app_iff. right.
    destruct J as [? ? ? ? ? ? ? E J|? ? ? ? ? ? ? y E J _]; inversion E; subst; [exact J|destruct J]. }
  cbn in H. split.
  - apply B. repeat (destruct H as [<-|H]; [cbn in K |- *; tauto|]). destruct H.
  - repeat (destruct H as [<-|H]; [reflexivity|]). destruct H.
Qed.
