(** What is printed for functions and variables, and for comparisons of them (properties C40 and
    C61 to C64). *)
From Coq Require Import List Arith NArith ZArith Bool String Lia Permutation Sorting.Sorted.
From Verif Require Import CfiModel Base BaseProofs RangeModel NamespaceModel TypeModel TypeSpec TypeProofs LayoutModel
  FileModel DieModel OptionsModel FilterModel FilterSpec DiffModel PrintModel PrintSpec PrintProofs PropertiesPrint
  NameModel RefModel LocationModel CodeModel ItemModel ItemSpec ItemProofs ItemShown EntryModel EntrySpec
  EntryProofs EntryShown IgnoreSpec IgnoreProofs.
Import ListNotations.
Local Open Scope string_scope.
Local Open Scope N_scope.

Local Notation compare_docs := (diff_doc text_printer false false).
Local Notation show := (print_doc text_printer false).

(** *** A file for the examples *)

(** [shift] is added to the offset of every type. *)
Local Definition sample_types (shift : N) : list type :=
  [mkType (1 + shift) (TBase (mkBase (Some "int") 4));
   mkType (2 + shift) (TModifier (mkModifier MPointer (1 + shift) None u64_max (Some 8)))].
Local Definition sample_env (shift : N) : type_env := fun off => find (fun t => t_offset t =? off) (sample_types shift).
Local Definition sample_size (shift : N) (t : type) : option N :=
  match byte_size 9 (sample_env shift) t with TypeModel.Done s => s | NoFuel => None end.
Local Definition sample_view (shift : N) : view :=
  mkView (mkHash (sample_env shift) (sample_size shift) "a.out")
    (fun t => match type_ref (sample_env shift) (fun _ => O) (fun _ => []) 9 t with Some v => v | None => VNil end)
    (fun _ => O) (fun _ => no_source) (fun _ => EncSigned) (fun _ => EndDefault) (fun _ => []).
Local Definition sample_cmp (a b : type) : comparison :=
  match cmp_id false 3 (sample_env 0) a (sample_env 0) b with Ord c => c | _ => Eq end.
Local Definition lowest (l1 l2 : list N) (m : list (list N)) (n : nat) : nat := O.

Local Fixpoint shallow (n : nat) (t : type) : bool :=
  match n with
  | O => false
  | S n' => forallb (fun off => match from_offset (sample_env 0) off with Some u => shallow n' u | None => true end)
              (refs_list t)
  end.
Local Lemma shallow_bounded n : forall t, shallow n t = true -> bounded n (sample_env 0) t.
Proof.
  induction n as [|n IH]; cbn [shallow bounded]; intros t E; [discriminate|]. intros off u R F.
  rewrite forallb_forall in E. specialize (E off (proj1 (refs_list_spec t off) R)). rewrite F in E. auto.
Qed.
Local Lemma sample_bounded t : bounded 3 (sample_env 0) t.
Proof.
  intros off u _ F. change (bounded 2 (sample_env 0) u). apply shallow_bounded.
  assert (C : forallb (shallow 2) (void_type :: sample_types 0) = true) by reflexivity.
  rewrite forallb_forall in C. apply C. unfold from_offset in F. destruct (_ =? _) in F; [left; congruence|]. right.
  unfold sample_env in F. apply List.find_some in F. tauto.
Qed.
Local Lemma sample_acyclic : acyclic_view (sample_view 0).
Proof. intros off t _. exact (bounded_acyclic 3 _ _ (sample_bounded t)). Qed.
Local Lemma sample_compares : compares_types (mkSides (sample_view 0) (sample_view 0) sample_cmp).
Proof.
  intros a b c H. cbn [sd_cmp]. unfold sample_cmp.
  assert (B : bounded 3 (sample_env 0) a \/ bounded 3 (sample_env 0) b) by (left; apply sample_bounded).
  rewrite (cmp_id_spec 3 _ _ _ _ B). symmetry. exact (proj1 (compares_iff (sample_env 0, a) (sample_env 0, b) c 3 B) H).
Qed.
Local Lemma short_small {A} (l : list A) : (List.length l <=? 9)%nat = true -> short l.
Proof. intros E. apply Nat.leb_le in E. unfold short. lia. Qed.

Local Definition all_range : range := mkRange 0 100.
Local Definition at_frame (off : Z) (bits : N) : range * piece := (all_range, mkPiece 0 bits (LFrameOffset off) 0 false).
Local Definition in_register (r : N) : range * piece := (all_range, mkPiece 0 u64_max (LRegister r) 0 false).
Local Definition the_function : func :=
  mkFunc 20 (Some (Ns None (Some "ns") KNamespace)) (Some "f") (Some "_Z1f") None 4096 8 [mkRange 4096 4104] false false.
Local Definition other_function : func :=
  mkFunc 30 None (Some "g") None None 8192 2 [mkRange 8192 8194] true false.
Local Definition the_variable : var := mkVar 40 None (Some "v") None (Some "sym") 2 12288 u64_max true.
Local Definition the_inlined : inlined :=
  mkInlined 30 6 (mkSource (Some "dir") (Some "a.c") 3 0) [mkFormal (Some "y") 1 [at_frame 8 u64_max]]
    [] [mkInlined 99 u64_max no_source [] [mkSlot (Some "z") 1 u64_max u64_max [at_frame (-12) u64_max]] [] []] [].
Local Definition the_details (shift : N) : details :=
  mkDetails [mkFormal (Some "x") (1 + shift) [in_register 5; at_frame 8 12; in_register 3; in_register 5]]
    [mkSlot (Some "w") (2 + shift) u64_max u64_max [at_frame (-24) u64_max];
     mkSlot (Some "c") (2 + shift) 4096 u64_max []]
    [the_inlined]
    [mkSite NormalCall (Some 4098) None (Some (Direct other_function)) [mkPiece 0 u64_max (LRegisterOffset 5 (-16)) 0 false]
       no_source [mkArgument (Some "x") (Some 1) [] [mkPiece 0 u64_max (LLiteral 255) 0 true] [] []]].
Local Definition the_program : program :=
  mkProgram (fun _ a => Some [mkInsn 4096 [232; 1] (Some (txt "call")) [txt "0x2000"] true false [PImm 8192];
                              mkInsn 4098 [232; 1] (Some (txt "call")) [txt "0x3000"] true false [PImm 12288]])
    [mkSegment 4096 [232; 1; 232; 1; 0; 0; 0; 0]] (fun _ => None)
    (fun a => if a =? 12288 then Some "puts" else None) (fun _ => []).
Local Definition scene_of (shift : N) (d : details) (p : option program) : scene :=
  mkScene (sample_view shift) (fun r => if r =? 5 then Some "rdi" else None)
    (fun a => if a =? 8192 then Some other_function else None) (fun _ => None)
    (fun off => if off =? 30 then Some other_function else None) (fun f => N.to_nat (fn_offset f))
    (fun v => N.to_nat (va_offset v)) (fun f => if fn_offset f =? 20 then u64_max else 1)
    (fun _ => mkSource None (Some "a.c") 1 2) (fun _ => no_source)
    (fun f => if fn_offset f =? 20 then d else mkDetails [] [] [] []) p.
Local Definition sample_scene : scene := scene_of 0 (the_details 0) (Some the_program).
Local Definition sample_options : options :=
  mkOptions (mkPrintOpts true false false true false true true true true) 1 false false
    (mkCategoryOpts false false false true true) (mkFilterOpts None None [] None) SortName
    (mkIgnoreOpts false false false false false false false false false false) [].
Local Definition few_options : options :=
  mkOptions (mkPrintOpts false false false false true false true false false) 0 false false
    (mkCategoryOpts false false false true true) (mkFilterOpts None None [] None) SortName
    (mkIgnoreOpts false false false false false false false false false false) [].
Local Ltac small :=
  repeat match goal with
  | |- _ /\ _ => split
  | |- short _ => apply short_small; reflexivity
  | |- short_formal _ => apply short_small; reflexivity
  | |- short_slot _ => apply short_small; reflexivity
  | |- short_site _ => split
  | |- short_argument _ => unfold short_argument
  | |- modest _ => split; [|reflexivity]
  | |- short_inlined _ => constructor
  | |- throughout _ _ => constructor
  | |- Forall _ (_ :: _) => constructor
  | |- Forall _ [] => constructor
  | |- Forall _ ?l => let l' := eval hnf in l in change l with l'
  | |- forall y, In y _ -> _ => let H := fresh in intros ? H; cbn in H;
      repeat (destruct H as [<-|H]); try contradiction
  end.
Local Lemma sample_short : short_function sample_scene the_function.
Proof.
  split.
  - change (sc_details sample_scene the_function) with (the_details 0). unfold short_details. small.
  - intros l E. vm_compute in E. injection E as <-. now apply short_small.
Qed.

(** ** C40: places in the stack frame *)

(** If no difference is reported, then the same places are shown on both sides: unless there is
    more than one place on the new side only. *)
Theorem C40_shown : forall l1 l2 depth,
  (several l2 -> several l1) ->
  exists e, diff_frames l1 l2 = Some e /\
    (snd (compare_docs e (text_start depth) false) = false ->
     forall t, (exists x, In x l1 /\ frame_shown x = t) <-> (exists x, In x l2 /\ frame_shown x = t)).
Proof.
  intros l1 l2 depth AL. destruct (frames_shown l1 l2 depth AL) as (e & E & U & M). exists e. split; [exact E|].
  intros F t. assert (CH : changed depth e = false).
  { destruct (changed depth e) eqn:C; [|reflexivity].
    rewrite (flag_complete e U (text_start depth) false C) in F. discriminate. }
  specialize (M CH). destruct (sorted_frames_distinct l1) as [_ I1], (sorted_frames_distinct l2) as [_ I2].
  split; intros (x & IX & <-).
  - apply I1, (in_map frame_shown) in IX. rewrite M in IX. apply in_map_iff in IX. destruct IX as (y & EY & IY).
    exists y. split; [now apply I2|exact EY].
  - apply I2, (in_map frame_shown) in IX. rewrite <- M in IX. apply in_map_iff in IX. destruct IX as (y & EY & IY).
    exists y. split; [now apply I1|exact EY].
Qed.
Print Assumptions C40_shown.

Example C40_example :
  several [mkFrame 8 32; mkFrame (-4) 12] /\
  option_map (fun e => diff_lines 0 1 e) (diff_frames [mkFrame 8 32; mkFrame (-4) 12] [mkFrame 8 32]) =
    Some [(Same, Line 1 (txt "stack frame:")); (Old, Line 2 (txt "-4[2]")); (Same, Line 2 (txt "8[4]"))].
Proof. split; [|reflexivity]. exists (mkFrame 8 32), (mkFrame (-4) 12). cbn. intuition discriminate. Qed.

(** A further place on the new side goes unnoticed. *)
Theorem C40_lost_refuted : exists l1 l2 x e,
  In x l2 /\ (forall y, In y l1 -> frame_shown y <> frame_shown x) /\
  diff_frames l1 l2 = Some e /\
  forall depth, snd (compare_docs e (text_start depth) false) = false.
Proof.
  exists [mkFrame 8 32], [mkFrame 8 32; mkFrame 16 32], (mkFrame 16 32). eexists.
  split; [cbn; tauto|]. split; [|split; [reflexivity|intros; reflexivity]].
  intros y [<-|[]]. vm_compute. discriminate.
Qed.
Print Assumptions C40_lost_refuted.

(** So does a change of the size within a byte. *)
Theorem C40_bits_refuted : exists a b e,
  a <> b /\ diff_frames [a] [b] = Some e /\
  forall depth, snd (compare_docs e (text_start depth) false) = false.
Proof. exists (mkFrame 8 1), (mkFrame 8 8). eexists. split; [discriminate|]. split; [reflexivity|]. intros; reflexivity. Qed.
Print Assumptions C40_bits_refuted.

(** ** C61: a function or variable compared with itself is silent *)

(** If a function can be printed, then in the comparison of it with itself no difference is
    reported; and all lines are common to both sides and what is printed for the function with local
    variables sorted, unless instructions are listed. *)
Theorem C61_function_silent : forall choose sc cmp o id fuel dir f p depth,
  acyclic_view (sc_view sc) -> compares_types (mkSides (sc_view sc) (sc_view sc) cmp) -> short_function sc f ->
  print_function o fuel sc dir f = Some p ->
  exists e ls s,
    diff_function choose o (mkScenes sc sc cmp) id fuel dir dir f f = Some e /\
    compare_docs e (text_start depth) false = (write_marked ls, s, false) /\
    (p_function_instructions (o_print o) = false ->
     exists p', printed_up_to_order o fuel sc dir f p' /\ ls = with_mark Same (lines depth 0 p')).
Proof.
  intros choose sc cmp o id fuel dir f p n AC CT SF E.
  destruct (function_fine choose o (mkScenes sc sc cmp) dir dir False id fuel f f p p SF SF
              ltac:(tauto) ltac:(tauto) ltac:(tauto) E E) as (e & p' & q' & ED & PA & _ & R & Q & _).
  assert (X : one_file (mkScenes sc sc cmp) dir dir /\ f = f).
  { split; [|reflexivity]. split; [reflexivity|]. split; [reflexivity|]. split; assumption. }
  specialize (R (or_intror X)). specialize (Q X). destruct R as (RO & _ & U), Q as [QI QS].
  destruct (diff_text_unhidden e U (text_start n) false) as (s & fl & EC & _).
  pose proof (flag_silent e U (text_start n) false (QI n)) as F. rewrite EC in F. cbn [snd] in F. subst fl.
  exists e. destruct (p_function_instructions (o_print o)) eqn:NI.
  - exists (diff_lines n 0 e), s. split; [exact ED|]. split; [exact EC|]. discriminate.
  - destruct (C25_silent e (text_start n) false (QS eq_refl n)) as (ls & s' & C & _ & _ & L).
    exists ls, s'. split; [exact ED|]. split; [exact C|]. intros _. exists p'. split; [exact PA|].
    rewrite (L U). cbn [text_start ts_depth ts_indent]. now rewrite (RO n 0%nat).
Qed.
Print Assumptions C61_function_silent.

Theorem C61_variable_silent : forall sc cmp o dir v depth,
  exists s, compare_docs (diff_variable o (mkScenes sc sc cmp) dir dir v v) (text_start depth) false =
    (write_marked (with_mark Same (lines depth 0 (print_variable o sc dir v))), s, false).
Proof.
  intros sc cmp o dir v n. set (ss := mkScenes sc sc cmp).
  destruct (variable_reads o ss dir dir v v) as (RO & _ & U).
  destruct (C25_silent _ (text_start n) false (variable_self o ss dir v eq_refl n)) as (ls & s & C & _ & _ & L).
  exists s. rewrite C, (L U). cbn [text_start ts_depth ts_indent]. now rewrite (RO n 0%nat).
Qed.
Print Assumptions C61_variable_silent.

Local Definition tab (a b : string) : text := (txt a ++ [9] ++ txt b)%list.
Local Definition printed1 : pdoc := Eval vm_compute in
  match print_function sample_options 3 sample_scene (Some "/src") the_function with Some p => p | None => PNil end.
Local Notation sample_scenes := (mkScenes sample_scene sample_scene sample_cmp).
Local Definition self1 : ddoc := Eval vm_compute in
  match diff_function lowest sample_options sample_scenes 7 3 (Some "/src") (Some "/src") the_function the_function with
  | Some e => e | None => DNil end.

Example C61_example :
  acyclic_view (sc_view sample_scene) /\
  compares_types (mkSides (sc_view sample_scene) (sc_view sample_scene) sample_cmp) /\
  short_function sample_scene the_function /\
  print_function sample_options 3 sample_scene (Some "/src") the_function = Some printed1 /\
  diff_function lowest sample_options sample_scenes 7 3 (Some "/src") (Some "/src") the_function the_function = Some self1 /\
  snd (compare_docs self1 (text_start 1) false) = false /\
  lines 1 0 printed1 <> map snd (diff_lines 1 0 self1).
Proof.
  split; [exact sample_acyclic|]. split; [exact sample_compares|]. split; [exact sample_short|].
  split; [vm_compute; reflexivity|]. split; [vm_compute; reflexivity|]. split; [vm_compute; reflexivity|].
  vm_compute. discriminate.
Qed.

(** ** C62: both sides of a comparison of functions or variables can be read *)

Theorem C62_functions : forall choose o ss id fuel da db a b pa pb depth,
  short_function (ss_a ss) a -> short_function (ss_b ss) b ->
  settled_details o (sc_details (ss_a ss) a) -> settled_details o (sc_details (ss_b ss) b) ->
  ranges_alike (fn_ranges a) (fn_ranges b) ->
  print_function o fuel (ss_a ss) da a = Some pa -> print_function o fuel (ss_b ss) db b = Some pb ->
  exists e pa' pb' ls s flag,
    diff_function choose o ss id fuel da db a b = Some e /\
    printed_up_to_order o fuel (ss_a ss) da a pa' /\ printed_up_to_order o fuel (ss_b ss) db b pb' /\
    compare_docs e (text_start depth) false = (write_marked ls, s, flag) /\
    plus_headings (lines depth 0 pa') (old_lines ls) /\
    plus_headings (lines depth 0 pb') (new_lines ls) /\
    (heeds_functions o -> flag = false -> lines depth 0 pa' = lines depth 0 pb') /\
    (flag = false -> forall label, In label function_fields -> ~ In label (ignored_of_function (o_ignore o)) ->
     with_label label (lines depth 0 pa') = with_label label (lines depth 0 pb')).
Proof.
  intros choose o ss id fuel da db a b pa pb n SA SB TA TB AL EA EB.
  destruct (function_fine choose o ss da db True id fuel a b pa pb SA SB (fun _ => TA) (fun _ => TB) (fun _ => AL) EA EB)
    as (e & p' & q' & ED & PA & PB & R & _ & UN).
  specialize (R (or_introl I)). destruct R as (RO & RN & U).
  destruct (diff_text_unhidden e U (text_start n) false) as (s' & f' & EC & _).
  destruct (sides_headings e U n 0) as [HO HN]. rewrite (RO n 0%nat) in HO. rewrite (RN n 0%nat) in HN.
  exists e, p', q', (diff_lines n 0 e), s', f'. do 4 (split; [assumption|]). do 2 (split; [assumption|]).
  assert (CH : f' = false -> changed n e = false).
  { intros ->. destruct (changed n e) eqn:C; [|reflexivity]. exfalso.
    pose proof (flag_complete e U (text_start n) false C) as F. rewrite EC in F. discriminate. }
  rewrite <- (RO n 0%nat), <- (RN n 0%nat). split.
  - intros HE F. apply unchanged_sides; [exact (UN HE)|auto].
  - intros F label J NI. exact (functions_labels choose o ss id fuel da db a b e n label ED (CH F) J NI).
Qed.
Print Assumptions C62_functions.

Theorem C62_variables : forall o ss da db a b depth,
  exists ls s flag,
    compare_docs (diff_variable o ss da db a b) (text_start depth) false = (write_marked ls, s, flag) /\
    plus_headings (lines depth 0 (print_variable o (ss_a ss) da a)) (old_lines ls) /\
    plus_headings (lines depth 0 (print_variable o (ss_b ss) db b)) (new_lines ls) /\
    (flag = false <->
     heeded (ignored_of_variable (o_ignore o)) (lines depth 0 (print_variable o (ss_a ss) da a)) =
     heeded (ignored_of_variable (o_ignore o)) (lines depth 0 (print_variable o (ss_b ss) db b))).
Proof.
  intros o ss da db a b n. destruct (variable_reads o ss da db a b) as (RO & RN & U).
  set (e := diff_variable o ss da db a b) in *.
  destruct (diff_text_unhidden e U (text_start n) false) as (s' & f' & EC & _).
  destruct (sides_headings e U n 0) as [HO HN]. rewrite (RO n 0%nat) in HO. rewrite (RN n 0%nat) in HN.
  exists (diff_lines n 0 e), s', f'. do 3 (split; [assumption|]).
  pose proof (variables_flag o ss da db a b n) as V. fold e in V. rewrite EC in V. exact V.
Qed.
Print Assumptions C62_variables.

(** Which differences of two functions count: those of the linkage name, the symbol name, the addresses, the size and
    the inlining count if and only if the respective option is not given, whatever else is compared. *)
Theorem C62_ignored : forall choose o ss id fuel da db a b e depth,
  diff_function choose o ss id fuel da db a b = Some e ->
  exists e0, diff_function choose (heads_ignored o) ss id fuel da db a b = Some e0 /\
    (snd (compare_docs e (text_start depth) false) = true <->
     snd (compare_docs e0 (text_start depth) false) = true \/ counted_difference (o_ignore o) a b).
Proof. exact functions_flag. Qed.
Print Assumptions C62_ignored.

(** The function in another build: a parameter less, another local variable, another inlined function. *)
Local Definition new_function : func :=
  mkFunc 20 (Some (Ns None (Some "ns") KNamespace)) (Some "f") (Some "_Z1f") None 4112 12 [mkRange 4112 4124] false false.
Local Definition new_details : details :=
  mkDetails [] [mkSlot (Some "a") 1 u64_max u64_max [at_frame (-8) u64_max]; mkSlot (Some "w") 2 u64_max u64_max [at_frame (-24) u64_max]]
    [mkInlined 30 9 (mkSource (Some "dir") (Some "a.c") 4 0) [] [] [] []] [].
Local Definition new_scene : scene := scene_of 0 new_details None.
Local Notation new_scenes := (mkScenes sample_scene new_scene sample_cmp).
Local Definition diff2 : ddoc := Eval vm_compute in
  match diff_function lowest sample_options new_scenes 7 3 None None the_function new_function with
  | Some e => e | None => DNil end.
Local Ltac one_place := intros _ (x & y & IX & IY & N); vm_compute in IX, IY; intuition congruence.
Local Ltac all_settled :=
  unfold settled_details;
  repeat match goal with
  | |- _ /\ _ => split
  | |- settled _ _ => one_place
  | |- settled_inlined _ _ => constructor
  | |- throughout _ _ => constructor
  | |- Forall _ (_ :: _) => constructor
  | |- Forall _ [] => constructor
  | |- Forall _ ?l => let l' := eval hnf in l in change l with l'
  | |- forall y, In y _ -> _ => let H := fresh in intros ? H; cbn in H;
      repeat (destruct H as [<-|H]); try contradiction
  end.
Example C62_example :
  short_function new_scene new_function /\
  settled_details sample_options (sc_details sample_scene the_function) /\
  settled_details sample_options (sc_details new_scene new_function) /\
  ranges_alike (fn_ranges the_function) (fn_ranges new_function) /\
  heeds_functions sample_options /\
  diff_function lowest sample_options new_scenes 7 3 None None the_function new_function = Some diff2 /\
  diff_lines 0 0 diff2 =
    [(Same, Line 0 (txt "fn ns::f")); (Same, Line 1 (txt "linkage name: _Z1f")); (Same, Line 1 (txt "source: a.c:1:2"));
     (Old, Line 1 (txt "address: 0x1000-0x1007")); (New, Line 1 (txt "address: 0x1010-0x101b"));
     (Old, Line 1 (txt "size: 8")); (New, Line 1 (txt "size: 12"));
     (Same, Line 1 (txt "parameters:")); (Old, Line 2 (tab "[4]" "x: int"));
     (Old, Line 3 (txt "registers:")); (Old, Line 4 (txt "r3")); (Old, Line 4 (txt "rdi"));
     (Old, Line 3 (txt "stack frame: 8[2]"));
     (Same, Line 1 (txt "variables:"));
     (New, Line 2 (tab "[4]" "a: int")); (New, Line 3 (txt "stack frame: -8"));
     (Old, Line 2 (tab "[8]" "c: * int")); (Old, Line 3 (txt "address: 0x1000"));
     (Same, Line 2 (tab "[8]" "w: * int")); (Same, Line 3 (txt "stack frame: -24"));
     (Same, Line 1 (txt "stack frame:"));
     (Same, Line 2 (txt "-24" ++ tab "[8]" "w: * int")%list);
     (Old, Line 2 (tab "-16[4]" "<unknown>")); (Old, Line 2 (txt "-12" ++ tab "[4]" "z: int")%list);
     (New, Line 2 (tab "-16[8]" "<unknown>")); (New, Line 2 (txt "-8" ++ tab "[4]" "a: int")%list);
     (Old, Line 2 (tab "-8[16]" "<unknown>")); (Old, Line 2 (txt "8" ++ tab "[2]" "x: int")%list);
     (Old, Line 2 (txt "8" ++ tab "[4]" "y: int")%list);
     (Same, Line 1 (txt "call sites:"));
     (Old, Line 2 (txt "call at <before return> -> g")); (Old, Line 3 (txt "return address: 0x1002"));
     (Old, Line 3 (txt "target:")); (Old, Line 4 (txt "rdi-0x10")); (Old, Line 3 (txt "parameters:"));
     (Old, Line 4 (txt "x: int")); (Old, Line 5 (txt "value:")); (Old, Line 6 (txt "0xff"));
     (Same, Line 1 (txt "calls:")); (Old, Line 2 (txt "0x1000 -> 0x2000 g"));
     (Old, Line 2 (txt "0x1002 -> 0x3000 puts")); (Same, Blank)].
Proof.
  split.
  { split.
    - change (sc_details new_scene new_function) with new_details. unfold short_details. small.
    - intros l E. vm_compute in E. injection E as <-. now apply short_small. }
  split; [change (sc_details sample_scene the_function) with (the_details 0); all_settled|].
  split; [change (sc_details new_scene new_function) with new_details; all_settled|].
  split; [split; cbn; lia|]. split; [repeat split|]. split; [vm_compute; reflexivity|]. vm_compute. reflexivity.
Qed.

(** The function with another linkage name and another size, and a variable with another linkage name and address. *)
Local Definition renamed_function : func :=
  mkFunc 20 (Some (Ns None (Some "ns") KNamespace)) (Some "f") (Some "_Z1g") None 4112 13 [mkRange 4112 4124] false false.
Local Definition ignoring (size linkage variable_address : bool) : options :=
  with_ignore few_options (mkIgnoreOpts false false false size false linkage false variable_address linkage false).
Local Definition new_alone : scenes := mkScenes new_scene new_scene sample_cmp.
Local Definition seen_function (o : options) : option bool :=
  bind (diff_function lowest o new_alone 7 3 None None new_function renamed_function)
    (fun e => Some (snd (compare_docs e (text_start 0) false))).
Local Definition var_a : var := mkVar 30 None (Some "v") (Some "_v") None 1 4096 u64_max false.
Local Definition var_b : var := mkVar 30 None (Some "v") (Some "_w") None 1 8192 u64_max false.
Local Definition seen_variable (o : options) : bool :=
  snd (compare_docs (diff_variable o new_alone None None var_a var_b) (text_start 0) false).
Example C62_ignored_example :
  map seen_function [ignoring false false false; ignoring true false false; ignoring false true false; ignoring true true false] =
    [Some true; Some true; Some true; Some false] /\
  map seen_variable [ignoring false false false; ignoring false false true; ignoring false true false; ignoring false true true] =
    [true; true; true; false] /\
  counted_difference (o_ignore (ignoring true false false)) new_function renamed_function /\
  ~ counted_difference (o_ignore (ignoring true true false)) new_function renamed_function /\
  lines 0 0 (print_variable few_options new_scene None var_a) =
    [Line 0 (txt "var v: int"); Line 1 (txt "linkage name: _v"); Line 1 (txt "address: 0x1000"); Line 1 (txt "size: 4"); Blank] /\
  heeded (ignored_of_variable (o_ignore (ignoring false true false)))
    (lines 0 0 (print_variable few_options new_scene None var_a)) =
    [Line 0 (txt "var v: int"); Line 1 (txt "address: 0x1000"); Line 1 (txt "size: 4"); Blank].
Proof.
  split; [vm_compute; reflexivity|]. split; [vm_compute; reflexivity|].
  split; [left; split; [reflexivity|discriminate]|].
  split; [intros [(X & _)|[(_ & X)|[(_ & X)|[(X & _)|(_ & X)]]]]; try discriminate; now apply X|].
  split; vm_compute; reflexivity.
Qed.

(** One address range against several: the one is printed on the line of the label, but shown below
    it in the comparison. *)
Local Definition split_function : func :=
  mkFunc 20 (Some (Ns None (Some "ns") KNamespace)) (Some "f") (Some "_Z1f") None 4112 12
    [mkRange 4096 4104; mkRange 4112 4124] false false.
Local Definition diff3 : ddoc := Eval vm_compute in
  match diff_function lowest few_options new_scenes 7 3 None None new_function split_function with
  | Some e => e | None => DNil end.
Local Definition print3 : pdoc := Eval vm_compute in
  match print_function few_options 3 sample_scene None new_function with Some e => e | None => PNil end.
Theorem C62_ranges_refuted : exists choose o ss id fuel a b e pa ls s flag x,
  diff_function choose o ss id fuel None None a b = Some e /\
  print_function o fuel (ss_a ss) None a = Some pa /\
  (forall p', printed_up_to_order o fuel (ss_a ss) None a p' -> In x (lines 0 0 p')) /\
  compare_docs e (text_start 0) false = (write_marked ls, s, flag) /\
  ~ In x (old_lines ls).
Proof.
  exists lowest, few_options, new_scenes, 7%nat, 3%nat, new_function, split_function.
  exists diff3, print3, (diff_lines 0 0 diff3). eexists. eexists. exists (Line 1 (txt "address: 0x1010-0x101b")).
  split; [vm_compute; reflexivity|]. split; [vm_compute; reflexivity|]. split; [|split; [vm_compute; reflexivity|]].
  - intros p' (vars & inner & _ & _ & E). unfold print_function_listed in E. apply bind_some in E.
    destruct E as (body & E & EP). apply some_eq in EP. rewrite <- EP. clear EP. unfold print_function_body in E. cbv zeta in E.
    change (print_addresses (fn_ranges new_function)) with (Some (field "address" (txt "0x1010-0x101b"))) in E.
    cbn [bind] in E.
    repeat (apply bind_some in E; destruct E as (? & _ & E)). apply some_eq in E. rewrite <- E. cbn [lines].
    apply in_or_app. left. apply in_or_app. right. rewrite pseq_lines. apply in_flat_map.
    exists (field "address" (txt "0x1010-0x101b")). split; [cbn [In]; tauto|]. vm_compute. now left.
  - vm_compute. intuition discriminate.
Qed.
Print Assumptions C62_ranges_refuted.

(** A difference is reported although the two functions are printed the same: entries of the stack
    frame are matched by the offset of the type in its file. *)
Local Definition frame_details (shift : N) : details :=
  mkDetails [mkFormal (Some "x") (1 + shift) [at_frame 8 u64_max]] [] [] [].
Local Definition moved_scenes : scenes :=
  mkScenes (scene_of 0 (frame_details 0) None) (scene_of 64 (frame_details 64) None) sample_cmp.
Local Definition print4 : pdoc := Eval vm_compute in
  match print_function few_options 3 (ss_a moved_scenes) None the_function with Some e => e | None => PNil end.
Local Definition diff4 : ddoc := Eval vm_compute in
  match diff_function lowest few_options moved_scenes 7 3 None None the_function the_function with
  | Some e => e | None => DNil end.
Theorem C62_same_refuted : exists choose o ss id fuel a b e p,
  heeds_variables o /\
  print_function o fuel (ss_a ss) None a = Some p /\ print_function o fuel (ss_b ss) None b = Some p /\
  diff_function choose o ss id fuel None None a b = Some e /\
  snd (compare_docs e (text_start 0) false) = true.
Proof.
  exists lowest, few_options, moved_scenes, 7%nat, 3%nat, the_function, the_function, diff4, print4.
  split; [repeat split|]. repeat (split; [vm_compute; reflexivity|]). vm_compute. reflexivity.
Qed.
Print Assumptions C62_same_refuted.

(** A difference is reported although no line is marked: an empty location added to an argument. *)
Local Definition site_details (l : list piece) : details :=
  mkDetails [] [] [] [mkSite TailCall None (Some 4096) None [] no_source [mkArgument (Some "x") None l [] [] []]].
Local Definition empty_scenes : scenes :=
  mkScenes (scene_of 0 (site_details [mkPiece 0 8 (LRegister 5) 0 false]) None)
    (scene_of 0 (site_details [mkPiece 0 8 (LRegister 5) 0 false; mkPiece 8 8 LEmpty 0 false]) None) sample_cmp.
Local Definition diff5 : ddoc := Eval vm_compute in
  match diff_function lowest sample_options empty_scenes 7 3 None None the_function the_function with
  | Some e => e | None => DNil end.
Theorem C62_empty_refuted : exists choose o ss id fuel a b e ls s,
  diff_function choose o ss id fuel None None a b = Some e /\
  compare_docs e (text_start 0) false = (write_marked ls, s, true) /\
  forall x, In x ls -> fst x = Same.
Proof.
  exists lowest, sample_options, empty_scenes, 7%nat, 3%nat, the_function, the_function, diff5, (diff_lines 0 0 diff5).
  eexists. split; [vm_compute; reflexivity|]. split; [vm_compute; reflexivity|].
  apply Forall_forall. vm_compute. repeat constructor.
Qed.
Print Assumptions C62_empty_refuted.

(** ** C63: what is printed for a function or a variable *)

Theorem C63_function : forall o fuel sc dir f p depth,
  print_function o fuel sc dir f = Some p ->
  exists ls, fst (show p (text_start depth)) = write_lines ls /\ function_shown o sc dir depth f ls.
Proof.
  intros o fuel sc dir f p n E. exists (lines n 0 p). split; [now rewrite print_doc_text|].
  now apply (function_printed o fuel).
Qed.
Print Assumptions C63_function.

Theorem C63_variable : forall o sc dir v depth,
  fst (show (print_variable o sc dir v) (text_start depth)) = write_lines (variable_shown o sc dir v).
Proof. intros. rewrite print_doc_text. cbn [fst text_start ts_depth ts_indent]. now rewrite variable_printed. Qed.
Print Assumptions C63_variable.

Example C63_example :
  print_function sample_options 3 sample_scene (Some "/src") the_function = Some printed1 /\
  lines 1 0 printed1 =
    [Line 0 (txt "fn ns::f"); Line 1 (txt "linkage name: _Z1f"); Line 1 (txt "source: a.c:1:2");
     Line 1 (txt "address: 0x1000-0x1007"); Line 1 (txt "size: 8");
     Line 1 (txt "parameters:"); Line 2 (tab "[4]" "x: int"); Line 3 (txt "registers:"); Line 4 (txt "r3"); Line 4 (txt "rdi");
     Line 3 (txt "stack frame: 8[2]");
     Line 1 (txt "variables:"); Line 2 (tab "[8]" "w: * int"); Line 3 (txt "stack frame: -24");
     Line 2 (tab "[8]" "c: * int"); Line 3 (txt "address: 0x1000");
     Line 1 (txt "stack frame:"); Line 2 (txt "-24" ++ tab "[8]" "w: * int")%list; Line 2 (tab "-16[4]" "<unknown>");
     Line 2 (txt "-12" ++ tab "[4]" "z: int")%list; Line 2 (tab "-8[16]" "<unknown>");
     Line 2 (txt "8" ++ tab "[2]" "x: int")%list; Line 2 (txt "8" ++ tab "[4]" "y: int")%list;
     Line 1 (txt "inlined functions:"); Line 2 (tab "[6]" "g"); Line 3 (txt "call source: /src/dir/a.c:3");
     Line 3 (txt "parameters:"); Line 4 (tab "[4]" "y: int"); Line 5 (txt "stack frame: 8");
     Line 1 (txt "call sites:"); Line 2 (txt "call at <before return> -> g"); Line 3 (txt "return address: 0x1002");
     Line 3 (txt "target:"); Line 4 (txt "rdi-0x10"); Line 3 (txt "parameters:"); Line 4 (txt "x: int");
     Line 5 (txt "value:"); Line 6 (txt "0xff");
     Line 1 (txt "calls:"); Line 2 (txt "0x1000 -> 0x2000 g"); Line 2 (txt "0x1002 -> 0x3000 puts"); Blank] /\
  variable_shown sample_options sample_scene (Some "/src") the_variable =
    [Line 0 (txt "var v: * int"); Line 1 (txt "symbol name: sym"); Line 1 (txt "address: 0x3000");
     Line 1 (txt "size: 8"); Line 1 (txt "declaration: yes"); Blank].
Proof. split; [vm_compute; reflexivity|]. split; vm_compute; reflexivity. Qed.

(** ** C64: when functions can be printed and compared *)

(** A function can be printed exactly if its code does not make the disassembly fail. *)
Theorem C64_terminates : forall o sc dir f,
  (exists fuel p, print_function o fuel sc dir f = Some p) <->
  (p_function_calls (o_print o) = true -> exists l, calls sc f = Some l) /\
  (p_function_instructions (o_print o) = true -> exists p, print_instructions sc f = Some p).
Proof.
  intros o sc dir f. split.
  - intros (fuel & p & E). apply function_printable in E. split; apply E.
  - intros [H1 H2]. now apply print_function_ex.
Qed.
Print Assumptions C64_terminates.

(** The depth that is available then makes no difference. *)
Theorem C64_depth : forall o fuel fuel' sc dir f p,
  (fuel <= fuel')%nat -> print_function o fuel sc dir f = Some p -> print_function o fuel' sc dir f = Some p.
Proof. intros. eapply print_function_le; eauto. Qed.
Print Assumptions C64_depth.

(** Functions that can be printed can be compared. *)
Theorem C64_compares : forall choose o ss id fuel da db a b pa pb,
  short_function (ss_a ss) a -> short_function (ss_b ss) b ->
  print_function o fuel (ss_a ss) da a = Some pa -> print_function o fuel (ss_b ss) db b = Some pb ->
  exists e, diff_function choose o ss id fuel da db a b = Some e.
Proof.
  intros choose o ss id fuel da db a b pa pb SA SB EA EB.
  destruct (function_fine choose o ss da db False id fuel a b pa pb SA SB
              ltac:(tauto) ltac:(tauto) ltac:(tauto) EA EB) as (e & _ & _ & E & _). eauto.
Qed.
Print Assumptions C64_compares.

Example C64_example :
  (exists l, calls sample_scene the_function = Some l /\ l = [mkCall 4096 8192; mkCall 4098 12288]) /\
  (exists p, print_instructions sample_scene the_function = Some p).
Proof. split; eexists; [split|]; vm_compute; reflexivity. Qed.
