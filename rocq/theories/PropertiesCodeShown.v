(** C103: the calls and instructions listed for a function. *)
From Coq Require Import List Arith NArith ZArith Bool String Lia.
From Verif Require Import Base RangeModel NamespaceModel TypeModel CfiModel LayoutModel FileModel FileSpec FilterModel FilterSpec PrintModel PrintSpec LocationModel RefModel
  CodeModel CodeSpec ItemModel ItemSpec OptionsModel EntryModel EntrySpec EntryShown ReportModel ReportSpec DetailModel NameModel DieModel DieSpec
  WholeModel WholeSpec WholeProofs WholeDepth WholeShown WholeMore PropertiesWhole CodeShownSpec CodeShown.
From Verif Require PropertiesEntry.
Import ListNotations.
Local Open Scope N_scope.

Local Notation inline_depth o := (N.to_nat (o_inline_depth o)).

(** What is listed follows from the code, and from the parameters and variables. *)
Theorem C103_listed : forall o sc dir depth f p ls,
  sc_program sc = Some p -> program_fits p f -> local_sizes_fit sc f ->
  function_shown o sc dir depth f ls -> code_listed o sc p f ls.
Proof.
  intros o sc dir depth f p ls HP PF LF SH. inversion SH as [ps vs fs inner cs code d P1 P2 P3 P4 P5 P6 XS].
  match goal with |- code_listed _ _ _ _ (?h :: ?a1 ++ ?a2 ++ ?a3 ++ ?a4 ++ ?a5 ++ ?a6 ++ ?a7 ++ ?a8 ++ ?a9 ++ ?a10 ++ ?a11 ++ ?a12 ++ ?a13 ++ ?rest) =>
    exists (h :: a1 ++ a2 ++ a3 ++ a4 ++ a5 ++ a6 ++ a7 ++ a8 ++ a9 ++ a10 ++ a11 ++ a12 ++ a13)%list, cs, code end.
  split; [|split].
  - repeat (cbn [app]; rewrite <- ?app_assoc). reflexivity.
  - destruct P5 as [E|k E (l & C & ->)]; [now constructor|]. constructor; [exact E|]. exists l. split; [|reflexivity].
    exact (calls_found sc p f PF HP l C).
  - destruct P6 as [E|k E (q & C & ->)]; [now constructor|]. constructor; [exact E|]. exact (instructions_shown sc p f PF LF HP depth 2 q C).
Qed.
Print Assumptions C103_listed.

(** So it is in what is printed of a file, for every function that is wanted. *)
Theorem C103_printed : forall c o given fuel choice ob i u out p d g,
  configured c o given -> o_html o = false -> well_formed ob -> acyclic_types ob ->
  print_output fuel choice o ob = Some out -> ob_program ob = Some p ->
  nth_error (ob_units ob) i = Some u -> unit_wanted given o u -> c_function (o_category o) = true ->
  describes (unit_base u) (ui_children u) d g -> function_wanted o g ->
  exists f before ls after, function_for (parse_symbols (ob_symbols ob)) g f /\ out = write_lines (before ++ ls ++ after) /\
    function_shown o (file_scene choice ob) (ui_dir u) (inline_depth o) f ls /\
    (program_fits p f -> local_sizes_fit (file_scene choice ob) f -> code_listed o (file_scene choice ob) p f ls).
Proof.
  intros c o given fuel choice ob i u out p d g C HT WF AC E HP Eu Wu CF D W.
  destruct (C80_unit c o given fuel choice ob i u out C HT WF AC E Eu Wu) as (w & pre & ts & fs & lvs & post & _ & _ & _ & _ & F & _ & ->).
  destruct F as [B|ls _ (gs & _ & IG & _ & EA)]; [congruence|].
  apply (IG d g D) in W. destruct (each_split _ _ _ g EA W) as (a & xs & b & -> & (f & FF & R & S & SH)).
  exists f, (pre ++ (if c_unit (o_category o) then unit_lines o (load choice ob) w else []) ++ ts ++ a)%list, xs, (b ++ lvs ++ post)%list.
  split; [exact FF|]. split; [f_equal; repeat (cbn [app]; rewrite <- ?app_assoc); reflexivity|]. split; [exact SH|].
  intros PF LF. exact (C103_listed o (file_scene choice ob) (ui_dir u) (inline_depth o) f p xs HP PF LF SH).
Qed.
Print Assumptions C103_printed.

(** An example: half of a parameter is loaded into the register of a variable, then there is a call and a jump back. *)
Local Open Scope string_scope.
Local Open Scope list_scope.
Local Open Scope N_scope.
Local Definition listed_insns : list insn :=
  [ mkInsn 4096 [72; 139; 69; 244] (Some (txt "mov")) [txt "rax"; txt "qword ptr [rbp - 0xc]"] false false [PReg (XGeneral GA W64); PMem (XGeneral GBP W64) (-12)];
    mkInsn 4100 [232; 1] (Some (txt "call")) [txt "0x2000"] true false [PImm 8192];
    mkInsn 4102 [235] (Some (txt "jmp")) [txt "0x1000"] false true [PImm 4096]; mkInsn 4103 [6] None [] false false [] ].
Local Definition listed_program : program :=
  mkProgram (fun _ a => if a =? 4096 then Some listed_insns else None) [mkSegment 4096 [72; 139; 69; 244; 232; 1; 235; 6; 0; 0]] (fun _ => None) (fun _ => None)
    (fun _ => [(4096, StartProc); (4100, Offset 6 (-16)); (4104, EndProc)]).
Local Definition listed_details : details :=
  mkDetails [mkFormal (Some "x") 2 [(mkRange 4096 4100, mkPiece 0 u64_max (LRegisterOffset 6 (-16)) 0 false)]]
    [mkSlot (Some "w") 1 u64_max u64_max [(mkRange 4096 4104, mkPiece 0 u64_max (LRegister 0) 0 false)]] [] [].
Local Definition listed_scene : scene := PropertiesEntry.scene_of 0 listed_details (Some listed_program).
Local Notation f := PropertiesEntry.the_function.
Local Definition listed_options : options :=
  mkOptions (mkPrintOpts true true true true true true true true true) 1 false false
    (mkCategoryOpts false false false true true) (mkFilterOpts None None [] None) SortName
    (mkIgnoreOpts false false false false false false false false false false) [].
Local Notation o := listed_options.
Example C103_example :
  sc_program listed_scene = Some listed_program /\ program_fits listed_program f /\ local_sizes_fit listed_scene f /\
  exists front, function_shown o listed_scene None 0 f
    (front ++ [Line 1 (txt "calls:"); Line 2 (txt "0x1004 -> 0x2000 g"); Line 1 (txt "instructions:");
      Line 2 (txt "              .org 0x1000");
      Line 2 (txt "  0:          .cfi_startproc");
      Line 2 (txt "  0:  mov     rax, qword ptr [rbp - 0xc]");
      Line 2 (txt "              r0 = w: int");
      Line 2 (txt "              [r6 - 0x10] = x: * int");
      Line 2 (txt "  4:          .cfi_offset 6, -0x10");
      Line 2 (txt "  4:  call    0x2000");
      Line 2 (txt "              0x2000 = g");
      Line 2 (txt "  6:  jmp     +0");
      Line 2 (txt "  7:  .byte  06 ");
      Line 2 (txt "  8:          .cfi_endproc"); Blank]).
Proof.
  split; [reflexivity|]. split; [|split].
  - split; [|split; [|split]].
    + constructor; [|constructor]. split; [reflexivity|]. repeat (constructor; [reflexivity|]). constructor.
    + constructor; [|constructor]. split; [discriminate|reflexivity].
    + intros l a insns. cbn [listed_program pg_disasm]. destruct (a =? 4096); [|discriminate]. intros [= <-].
      apply Forall_forall. intros i I op d t size J R. repeat (destruct I as [<-|I]); try contradiction; repeat (destruct J as [<-|J]); try contradiction; inversion R.
    + intros r c I. repeat (destruct I as [<-|I]); try contradiction; cbn; lia.
  - intros t size places [q I|q I]; (destruct I as [<-|[]]); split; try reflexivity.
    + intros a reg z (r & pc & [[= <- <-]|[]] & _ & [= <- <-] & _). cbn. lia.
    + intros a reg z (r & pc & [[= <- <-]|[]] & _ & H0 & _). discriminate.
  - destruct (print_function o 3 listed_scene None f) as [d|] eqn:E; [|vm_compute in E; discriminate].
    pose proof (function_printed o 3 listed_scene None f d 0 E) as P. exists (firstn (List.length (lines 0 0 d) - 15) (lines 0 0 d)).
    assert (L : lines 0 0 d = firstn (List.length (lines 0 0 d) - 15) (lines 0 0 d) ++ skipn (List.length (lines 0 0 d) - 15) (lines 0 0 d)) by (symmetry; apply firstn_skipn).
    rewrite L in P. match goal with |- function_shown _ _ _ _ _ (_ ++ ?r) => replace r with (skipn (List.length (lines 0 0 d) - 15) (lines 0 0 d)) end.
    + exact P.
    + clear P L. vm_compute in E. injection E as <-. vm_compute. reflexivity.
Qed.
