(** Every line of a comparison is one of the files (property C112). *)
From Coq Require Import List Arith NArith ZArith Bool String Ascii Lia Permutation.
From Verif Require Import Base BaseProofs RangeModel NamespaceModel TypeModel TypeSpec FileModel FileSpec FilterModel FilterSpec DiffModel IdModel
  OptionsModel OptionsProofs PrintModel PrintSpec PrintProofs RefModel NameModel CodeModel BloatModel ItemModel ItemSpec ItemShown EntryModel EntrySpec
  ReportModel ReportSpec ReportProofs PropertiesPrint PropertiesListing LocationModel DetailModel ServeModel WholeModel WholeSpec WholeProofs WholeShown PairModel PairProofs
  PairShown WholeDepth PropertiesWhole RunModel OriginSpec OriginProofs DieModel CodeModel.
Import ListNotations.
Local Open Scope list_scope.

(** A comparison shows what the files contain: with the types, functions and variables selected, a line that it does not mark as added is
    also printed for the first file alone, and one that it does not mark as deleted is also printed for the second, except that the title of a
    list may be written on behalf of the other file. *)
Theorem C112_run : forall esc alnum header footer choose order ca cb fuel c o given a b ta tb out,
  configured c o given -> o_html o = false -> c_file (o_category o) = false -> c_unit (o_category o) = false ->
  short_image (load ca a) -> short_image (load cb b) ->
  (forall u v, In u (loaded_units ca a) -> In v (loaded_units cb b) -> same_unit given u v -> units_alike o (load_two a b ca cb) u v) ->
  run esc alnum header footer choose order ca cb fuel o (ToPrint a) = Some ta ->
  run esc alnum header footer choose order cb ca fuel o (ToPrint b) = Some tb ->
  run esc alnum header footer choose order ca cb fuel o (ToCompare a b) = Some out ->
  exists la lb ls, ta = write_lines la /\ tb = write_lines lb /\ out = write_marked ls /\ Forall (from_files la lb) ls.
Proof.
  intros esc alnum header footer choose order ca cb fuel c o given a b ta tb out CO HT CF CU SA SB AL EA EB E. cbn [run] in EA, EB, E.
  destruct (print_file o (compare_parameters a) fuel (load ca a)) as [pa|] eqn:PA; [|discriminate].
  destruct (print_file o (compare_parameters b) fuel (load cb b)) as [pb|] eqn:PB; [|discriminate].
  destruct (diff_file choose o _ _ _) as [d|] eqn:F; [|discriminate]. cbn [option_map] in EA, EB, E. apply some_eq in EA, EB, E. subst ta tb out.
  set (n := N.to_nat (o_inline_depth o)).
  exists (lines n 0 pa), (lines n 0 pb), (fst (report n 0 d)).
  split; [|split; [|split]].
  - unfold formatted, text_output. rewrite HT. exact (C46_printed _ n).
  - unfold formatted, text_output. rewrite HT. exact (C46_printed _ n).
  - unfold formatted_diff, diff_output. rewrite HT. destruct (report_compare d n) as (s & EC). unfold n in EC. rewrite EC. reflexivity.
  - exact (file_from choose o (compare_parameters_in a b) (compare_parameters a) (compare_parameters b) fuel (load_two a b ca cb) c given pa pb n d SA SB HT CF CU CO AL PA PB F).
Qed.
Print Assumptions C112_run.

(** ** Two files *)
Local Open Scope string_scope.
Local Open Scope list_scope.
Local Open Scope N_scope.

Local Definition int_entry : die := Die TagBase 20 [AName (Some "int"); AByteSize (Some 4)%Z] [].
Local Definition count_entry : die :=
  Die TagVariable 50 [AName (Some "count"); AType (Some 20); ALocation (PExpression [(GAddress 8192, None)] [OAddress 8192])] [].
Local Definition function_entry (off : N) (name : string) (low size : N) : die :=
  Die TagSubprogram off [AName (Some name); AType (Some 20); ALowPc (Some low); AHighPcSize size] [].
Local Definition unit_with (fs : list die) : unit_input :=
  mkUnitInput [AName (Some "a.c"); ALowPc (Some 4096); AHighPcSize 48] (int_entry :: count_entry :: fs) None None false 4 8 (fun _ => None).
Local Definition file_with (path : string) (fs : list die) : object_input :=
  mkObjectInput path false [] [mkObjectSection (Some ".text") None 4096 48; mkObjectSection (Some ".data") None 8192 4]
    [] [unit_with fs] (fun _ => EncSigned) (fun _ => EndDefault) (fun _ => []) (fun _ => None) None.
Local Definition alpha_entry : die := function_entry 30 "alpha" 4096 16.
Local Definition beta_entry : die := function_entry 40 "beta" 4112 16.
Local Definition beta_entry' : die := function_entry 70 "beta" 4096 32.
Local Definition gamma_entry : die := function_entry 60 "gamma" 4128 16.
Local Definition before : object_input := file_with "a.out" [alpha_entry; beta_entry].
Local Definition after : object_input := file_with "b.out" [gamma_entry; beta_entry'].
Local Definition first_choice (n : N) : nat := O.
Local Definition lowest (l1 l2 : list N) (m : list (list N)) (n : nat) : nat := O.

(** One function is gone, one is new and one is larger. *)
Local Definition item_cli : cli := mkCli None None (Some ["type"; "function"; "variable"]) [] [] None [] [].
Local Definition unit_cli : cli := mkCli None None (Some ["unit"; "function"]) [] [] None [] [].
Local Definition item_options : options := Eval vm_compute in
  match parse_options item_cli as x return match x with Some _ => options | None => True end with Some o => o | None => I end.
Local Definition unit_options : options := Eval vm_compute in
  match parse_options unit_cli as x return match x with Some _ => options | None => True end with Some o => o | None => I end.
Local Definition result (o : options) (t : task) : option text :=
  run (fun x => [x]) (fun _ => true) [] [] lowest (fun l => l) first_choice first_choice 5 o t.
Local Definition clean (ob : object_input) : bool := forallb (fun d => negb (die_offset d =? u64_max)) (all_entries ob).
Local Lemma well_formed_by ob : NoDup (map die_offset (all_entries ob)) -> clean ob = true -> well_formed ob.
Proof.
  intros ND C. split; [exact ND|]. apply Forall_forall. intros d I. unfold clean in C. rewrite forallb_forall in C.
  specialize (C d I). now apply negb_true_iff, N.eqb_neq in C.
Qed.
Local Ltac well := apply well_formed_by; [vm_compute; repeat (constructor; [cbn; intuition discriminate|]); constructor|reflexivity].
Local Lemma before_formed : well_formed before. Proof. well. Qed.
Local Lemma after_formed : well_formed after. Proof. well. Qed.
Local Definition pair_types : list type := Eval vm_compute in
  flat_map (fun off => match from_offset (type_at before) off with Some t => [t] | None => [] end) (places before).
Local Definition types_in (ob : object_input) : list type :=
  flat_map (fun off => match from_offset (type_at ob) off with Some t => [t] | None => [] end) (places ob).
Local Lemma types_among ob : well_formed ob -> types_in ob = pair_types ->
  forall off t, from_offset (type_at ob) off = Some t -> In t pair_types.
Proof.
  intros WF <- off t E. apply in_flat_map. exists off. split; [exact (type_at_place ob WF off t E)|]. rewrite E. now left.
Qed.
Local Lemma before_types : types_in before = pair_types. Proof. vm_compute. reflexivity. Qed.
Local Lemma after_types : types_in after = pair_types. Proof. vm_compute. reflexivity. Qed.
Local Lemma short_few {A} (l : list A) : (List.length l <=? 9)%nat = true -> short l.
Proof. intros H. apply Nat.leb_le in H. unfold short. lia. Qed.
Local Lemma short_by ob : well_formed ob -> types_in ob = pair_types -> (List.length (kept_sections ob) <=? 9)%nat = true ->
  (forall t, short (type_enumerators ob t)) ->
  flat_map un_types (loaded_units first_choice ob) = [nth 1 pair_types void_type] ->
  (forall u f, In u (loaded_units first_choice ob) -> In f (un_functions u) -> sc_details (file_scene first_choice ob) f = mkDetails [] [] [] [] /\ EntryModel.calls (file_scene first_choice ob) f = Some []) ->
  short_image (load first_choice ob).
Proof.
  intros WF T KS EN TS FS.
  assert (ST : forall t, In t pair_types -> short_type t).
  { intros t E. cbv [pair_types] in E. repeat (destruct E as [<-|E]); try contradiction; exact I. }
  split; [|split].
  - split; [|exact EN]. intros off t E. now apply ST, (types_among ob WF T off).
  - now apply short_few.
  - apply Forall_forall. intros u Iu. change (In u (loaded_units first_choice ob)) in Iu. split; apply Forall_forall.
    + intros t It. apply ST. assert (J : In t (flat_map un_types (loaded_units first_choice ob))) by (apply in_flat_map; eauto).
      rewrite TS in J. destruct J as [<-|[]]. right. now left.
    + intros f If. destruct (FS u f Iu If) as (A & B). change (im_scene (load first_choice ob)) with (file_scene first_choice ob). split.
      * rewrite A. repeat split; try constructor; now apply short_few.
      * intros l E. rewrite B in E. injection E as <-. now apply short_few.
Qed.
Local Definition plain_function (ob : object_input) (f : func) : Prop :=
  sc_details (file_scene first_choice ob) f = mkDetails [] [] [] [] /\ EntryModel.calls (file_scene first_choice ob) f = Some [] /\ List.length (fn_ranges f) = 1%nat.
Local Ltac plain := intros u f Iu If; vm_compute in Iu; repeat (destruct Iu as [<-|Iu]); try contradiction;
  cbn [un_functions] in If; repeat (destruct If as [<-|If]); try contradiction; (split; [|split]); vm_compute; reflexivity.
Local Lemma before_functions u f : In u (loaded_units first_choice before) -> In f (un_functions u) -> plain_function before f.
Proof. revert u f. plain. Qed.
Local Lemma after_functions u f : In u (loaded_units first_choice after) -> In f (un_functions u) -> plain_function after f.
Proof. revert u f. plain. Qed.

Local Definition int_line : line := Line 2 (txt "[4]" ++ [9] ++ txt "int").
Example C112_example :
  configured item_cli item_options [] /\ o_html item_options = false /\ c_file (o_category item_options) = false /\ c_unit (o_category item_options) = false /\
  short_image (load first_choice before) /\ short_image (load first_choice after) /\
  (forall u v, In u (loaded_units first_choice before) -> In v (loaded_units first_choice after) -> same_unit [] u v ->
     units_alike item_options (load_two before after first_choice first_choice) u v) /\
  (exists ta tb, result item_options (ToPrint before) = Some ta /\ result item_options (ToPrint after) = Some tb) /\
  result item_options (ToCompare before after) = Some (write_marked
    [(Old, Line 0 (txt "fn alpha")); (Old, Line 1 (txt "address: 0x1000-0x100f")); (Old, Line 1 (txt "size: 16"));
     (Old, Line 1 (txt "return type:")); (Old, int_line); (Same, Blank);
     (Same, Line 0 (txt "fn beta")); (Old, Line 1 (txt "address: 0x1010-0x101f")); (New, Line 1 (txt "address: 0x1000-0x101f"));
     (Old, Line 1 (txt "size: 16")); (New, Line 1 (txt "size: 32")); (Same, Line 1 (txt "return type:")); (Same, int_line); (Same, Blank);
     (New, Line 0 (txt "fn gamma")); (New, Line 1 (txt "address: 0x1020-0x102f")); (New, Line 1 (txt "size: 16"));
     (New, Line 1 (txt "return type:")); (New, int_line); (Same, Blank)]).
Proof.
  assert (D1 := before_functions). assert (D2 := after_functions).
  assert (L1 : flat_map un_types (loaded_units first_choice before) = [nth 1 pair_types void_type]) by (vm_compute; reflexivity).
  assert (L2 : flat_map un_types (loaded_units first_choice after) = [nth 1 pair_types void_type]) by (vm_compute; reflexivity).
  split; [split; [reflexivity|constructor]|]. split; [reflexivity|]. split; [reflexivity|]. split; [reflexivity|].
  split. { apply short_by; [exact before_formed|exact before_types|vm_compute; reflexivity| |exact L1|].
    - intros t. unfold type_enumerators. destruct (t_kind t); now apply short_few.
    - intros u f Iu If. destruct (D1 u f Iu If) as (A & B & _). split; [exact A|exact B]. }
  split. { apply short_by; [exact after_formed|exact after_types|vm_compute; reflexivity| |exact L2|].
    - intros t. unfold type_enumerators. destruct (t_kind t); now apply short_few.
    - intros u f Iu If. destruct (D2 u f Iu If) as (A & B & _). split; [exact A|exact B]. }
  split.
  { intros u v Iu Iv _. split; [|split; [|split]].
    - intros x y Ix Iy _. assert (J : In x (flat_map un_types (loaded_units first_choice before))) by (apply in_flat_map; exists u; split; assumption).
      assert (K : In y (flat_map un_types (loaded_units first_choice after))) by (apply in_flat_map; exists v; split; assumption).
      rewrite L1 in J. rewrite L2 in K. destruct J as [<-|[]], K as [<-|[]]. repeat split.
    - intros x y Ix Iy _. destruct (D1 u x Iu Ix) as (_ & _ & A). destruct (D2 v y Iv Iy) as (_ & _ & B).
      unfold ranges_alike. rewrite A, B. split; intros (_ & L); exact (Nat.lt_irrefl _ L).
    - intros x Ix. destruct (D1 u x Iu Ix) as (A & _). change (settled_details item_options (sc_details (file_scene first_choice before) x)). rewrite A. split; [constructor|]. split; constructor.
    - intros x Ix. destruct (D2 v x Iv Ix) as (A & _). change (settled_details item_options (sc_details (file_scene first_choice after) x)). rewrite A. split; [constructor|]. split; constructor. }
  split; [do 2 eexists; split; vm_compute; reflexivity|]. vm_compute. reflexivity.
Qed.

(** With the units selected a comparison also says by how much a total has changed, so that its lines are not all lines of the files. *)
Theorem C112_unit_refuted : exists lb ls x,
  result unit_options (ToPrint after) = Some (write_lines lb) /\ result unit_options (ToCompare before after) = Some (write_marked ls) /\
  In (New, x) ls /\ ~ In x lb /\ ~ heading x.
Proof.
  exists [Line 0 (txt "unit a.c"); Line 1 (txt "fn size: 48"); Line 1 (txt "var size: 4"); Blank;
     Line 0 (txt "fn beta"); Line 1 (txt "address: 0x1000-0x101f"); Line 1 (txt "size: 32"); Line 1 (txt "return type:"); int_line; Blank;
     Line 0 (txt "fn gamma"); Line 1 (txt "address: 0x1020-0x102f"); Line 1 (txt "size: 16"); Line 1 (txt "return type:"); int_line; Blank;
     Line 0 (txt "unit <symtab>"); Blank; Line 0 (txt "unit <unknown>"); Blank],
    ([(Same, Line 0 (txt "unit a.c")); (Old, Line 1 (txt "fn size: 32")); (New, Line 1 (txt "fn size: 48 (+16)"));
     (Same, Line 1 (txt "var size: 4")); (Old, Line 1 (txt "unknown size: 16")); (New, Line 1 (txt "unknown size: 0 (-16)")); (Same, Blank);
     (Old, Line 0 (txt "fn alpha")); (Old, Line 1 (txt "address: 0x1000-0x100f")); (Old, Line 1 (txt "size: 16"));
     (Old, Line 1 (txt "return type:")); (Old, int_line); (Same, Blank);
     (Same, Line 0 (txt "fn beta")); (Old, Line 1 (txt "address: 0x1010-0x101f")); (New, Line 1 (txt "address: 0x1000-0x101f"));
     (Old, Line 1 (txt "size: 16")); (New, Line 1 (txt "size: 32")); (Same, Line 1 (txt "return type:")); (Same, int_line); (Same, Blank);
     (New, Line 0 (txt "fn gamma")); (New, Line 1 (txt "address: 0x1020-0x102f")); (New, Line 1 (txt "size: 16"));
     (New, Line 1 (txt "return type:")); (New, int_line); (Same, Blank)]), (Line 1 (txt "fn size: 48 (+16)")).
  split; [vm_compute; reflexivity|]. split; [vm_compute; reflexivity|]. split; [do 2 right; now left|]. split.
  - intros I. vm_compute in I. repeat (destruct I as [I|I]; [discriminate I|]). destruct I.
  - intros (i & t & T & E). injection E as _ E. cbv [titles] in T. repeat (destruct T as [<-|T]; [vm_compute in E; discriminate E|]). destruct T.
Qed.
Print Assumptions C112_unit_refuted.
