(** The items of a unit: functions (C35), variables (C36) and types (C49). *)
From Coq Require Import List Arith NArith ZArith Bool String Lia Permutation Sorted.
From Verif Require Import Base RangeModel NamespaceModel TypeModel LocationModel DieModel DieSpec
  MemberSpec DieProofs FixupProofs DescribeProofs KeptProofs VariableProofs MemberProofs KeptTypes KeptVariables.
Import ListNotations.
Local Open Scope N_scope.

Lemma parse_items_runs cx top :
  exists m s vs, resolve cx (S (dies_count top)) (start_map cx top, start_state cx top) = Some (m, s)
    /\ resolve_variables (S (List.length (ws_deferred s)))
         (map_insert_all vr_offset (ws_variables s) []) (ws_deferred s) = Some vs
    /\ parse_items cx top = Some (mkWalk (ws_types s) m vs (ws_subprograms s) (ws_deferred s)).
Proof.
  destruct (fixup_subprograms_runs cx top) as (m & s & E1 & E2).
  destruct (resolve_variables_total (S (List.length (ws_deferred s)))
    (map_insert_all vr_offset (ws_variables s) []) (ws_deferred s)) as (vs & E3); [lia|].
  exists m, s, vs. split; [assumption|]. split; [assumption|].
  unfold parse_items. fold (walked cx top). rewrite E2. unfold fixup_variables.
  cbn [set_functions ws_deferred ws_variables ws_types ws_functions ws_subprograms]. now rewrite E3.
Qed.

(** ** C35: functions *)

(** The search for what functions refer to ends, whatever they refer to and even if several
    entries were at the same offset. *)
Theorem C35_terminates cx top : exists s, parse_items cx top = Some s.
Proof. destruct (parse_items_runs cx top) as (m & s & vs & _ & _ & E). eauto. Qed.
Print Assumptions C35_terminates.

(** Each entry of a function has exactly one function, in the order of the offsets. *)
Theorem C35_kept cx top s :
  distinct_offsets top -> parse_items cx top = Some s ->
  StronglySorted N.lt (map fu_offset (ws_functions s))
  /\ forall o, In o (map fu_offset (ws_functions s))
       <-> exists t d, found top t d /\ die_tag d = TagSubprogram /\ die_offset d = o.
Proof.
  intros D E. destruct (parse_items_runs cx top) as (m & s' & vs & E1 & _ & E2).
  rewrite E2 in E. inversion E; subst. cbn [ws_functions]. split.
  - apply ordered_keys. now apply (fixup_items cx top (distinct_funs cx top D) m s' (IFun 0) E1).
  - now apply (resolved_functions cx top D m s' E1).
Qed.
Print Assumptions C35_kept.

(** The function has what its entry gives itself: where the code is, and the name, linkage
    name, place of declaration and return type if the entry has them. *)
Theorem C35_own cx top s f :
  distinct_offsets top -> parse_items cx top = Some s -> In f (ws_functions s) ->
  exists t d, found top t d /\ die_tag d = TagSubprogram /\ fu_offset f = die_offset d
  /\ (forall address size ranges, occupies (cx_low_pc cx) (die_attrs d) address size ranges ->
        fu_address f = address /\ fu_size f = size /\ fu_ranges f = ranges)
  /\ fu_inline f = given_inline (die_attrs d) /\ fu_declaration f = given_declaration (die_attrs d)
  /\ (given_name (die_attrs d) <> None -> fu_name f = given_name (die_attrs d))
  /\ (given_linkage_name (die_attrs d) <> None -> fu_linkage_name f = given_linkage_name (die_attrs d))
  /\ (so_file (given_source (die_attrs d)) <> None -> fu_source f = given_source (die_attrs d))
  /\ (given_type (die_attrs d) <> type_offset_none -> fu_return f = given_type (die_attrs d)).
Proof.
  intros D E Hf. destruct (parse_items_runs cx top) as (m & s' & vs & E1 & _ & E2).
  rewrite E2 in E. inversion E; subst. cbn [ws_functions] in Hf.
  pose proof (resolved_sound cx top D m s' E1) as S. rewrite Forall_forall in S.
  destruct (S f Hf) as (t & d & F & T & A & B & C). exists t, d. repeat split; try tauto.
  all: apply extent_occupies in H; rewrite B in H; now inversion H.
Qed.
Print Assumptions C35_own.

(** What an entry takes from the function that it refers to, directly or through others, in
    whatever order and however deep the entries are: the functions that the entries describe
    are in the unit. *)
Theorem C35_resolved cx top s d f :
  distinct_offsets top -> parse_items cx top = Some s ->
  describes (cx_low_pc cx) top d f -> In f (ws_functions s).
Proof.
  intros D E Hd. destruct (parse_items_runs cx top) as (m & s' & vs & E1 & _ & E2).
  rewrite E2 in E. inversion E; subst. cbn [ws_functions].
  destruct (resolved_described cx top (distinct_funs cx top D) _ m s' E1) as (A & _). eauto.
Qed.
Print Assumptions C35_resolved.

(** Functions in entries that the walk does not look into, such as modules, are not kept. *)
Theorem C35_refuted : exists cx top s d,
  distinct_offsets top /\ parse_items cx top = Some s /\ In d (flat_map entries top)
  /\ die_tag d = TagSubprogram /\ ~ In (die_offset d) (map fu_offset (ws_functions s)).
Proof.
  exists (mkContext None false false 5 8 (fun _ => None)),
    [Die (TagOther 30) 16 [AName (Some "m"%string)] [Die TagSubprogram 32 [AName (Some "f"%string)] []]],
    no_items, (Die TagSubprogram 32 [AName (Some "f"%string)] []).
  repeat split.
  - unfold distinct_offsets. cbn. repeat constructor; cbn; intuition discriminate.
  - cbn. tauto.
  - intros [].
Qed.
Print Assumptions C35_refuted.

(** An example: a method that is defined before the class that declares it, with a concrete
    out-of-line instance that refers to the definition, a type and a function inside it, and
    two functions that refer to each other. *)
Definition ex_context := mkContext (Some 0) false false 5 8 (fun _ => None).
Definition ex_top : list die :=
  [ Die TagSubprogram 10 [ASpecification (Some 52); ALowPc (Some 4096); AHighPcSize 32]
      [ Die TagParameter 12 [AName (Some "this"%string); AType (Some 90)] [];
        Die TagStructure 14 [AName (Some "Inner"%string); AByteSize (Some 4%Z)]
          [ Die TagSubprogram 16 [AName (Some "g"%string)] [] ] ];
    Die TagSubprogram 30 [AAbstractOrigin (Some 10); ALowPc (Some 8192); AHighPcAddress (Some 8200)]
      [ Die TagParameter 32 [AAbstractOrigin (Some 12); AType (Some 91)] [] ];
    Die TagNamespace 40 [AName (Some "ns"%string)]
      [ Die TagClass 50 [AName (Some "C"%string); AByteSize (Some 8%Z)]
          [ Die TagSubprogram 52 [AName (Some "f"%string); ADeclaration (Some true); AType (Some 92)]
              [ Die TagParameter 54 [AType (Some 90)] [] ] ] ];
    Die TagSubprogram 60 [ASpecification (Some 70)] [];
    Die TagSubprogram 70 [ASpecification (Some 60); AName (Some "h"%string)] [] ].

Definition ex_class : option namespace :=
  Some (Ns (Some (Ns None (Some "ns"%string) KNamespace)) (Some "C"%string) KType).
Definition ex_function : dw_function :=
  mkFunction 10 ex_class (Some "f"%string) None no_source 4096 32 [mkRange 4096 4128]
    false false [mkParameterType 12 (Some "this"%string) 90] 92.
Definition ex_instance : dw_function :=
  mkFunction 30 ex_class (Some "f"%string) None no_source 8192 8 [mkRange 8192 8200]
    false false [mkParameterType 12 (Some "this"%string) 91] 92.

Example C35_example_result : exists s, parse_items ex_context ex_top = Some s
  /\ map fu_offset (ws_functions s) = [10; 16; 30; 52; 60; 70]
  /\ In ex_function (ws_functions s) /\ In ex_instance (ws_functions s)
  /\ map fu_name (ws_functions s)
     = [Some "f"; Some "g"; Some "f"; Some "f"; None; Some "h"]%string.
Proof. eexists. split; [vm_compute; reflexivity|]. vm_compute. tauto. Qed.

Example C35_example_distinct : distinct_offsets ex_top.
Proof. unfold distinct_offsets. cbn. repeat constructor; cbn; intuition discriminate. Qed.

(** The example meets the hypotheses of [C35_resolved]. *)
Example C35_example_described : exists d, describes (Some 0) ex_top d ex_function
  /\ exists e, describes (Some 0) ex_top e ex_instance
  /\ exists c, In c (die_children d) /\ die_offset c = 14 /\ die_tag c = TagStructure.
Proof.
  assert (L1 : located (Some 0) ex_top TagClass ex_class
     (Die TagSubprogram 52 [AName (Some "f"%string); ADeclaration (Some true); AType (Some 92)]
              [ Die TagParameter 54 [AType (Some 90)] [] ])).
  { eapply (loc_type _ _ TagNamespace (Some (Ns None (Some "ns"%string) KNamespace)) TagClass 50
      [AName (Some "C"%string); AByteSize (Some 8%Z)]); [|discriminate|cbn; tauto|].
    - eapply (loc_namespace _ _ None 40 [AName (Some "ns"%string)]).
      + apply loc_top. cbn. tauto.
      + left. reflexivity.
    - left. reflexivity. }
  assert (D1 : describes (Some 0) ex_top
     (Die TagSubprogram 52 [AName (Some "f"%string); ADeclaration (Some true); AType (Some 92)]
              [ Die TagParameter 54 [AType (Some 90)] [] ])
     (mkFunction 52 ex_class (Some "f"%string) None no_source opt64_none opt64_none [] false true
        [mkParameterType 54 None 90] 92)).
  { eapply (desc_own (Some 0) ex_top TagClass ex_class 52); [exact L1|reflexivity| |].
    - now apply occ_nowhere.
    - apply ext_new; [discriminate|]. apply ext_done. }
  assert (D2 : describes (Some 0) ex_top
     (Die TagSubprogram 10 [ASpecification (Some 52); ALowPc (Some 4096); AHighPcSize 32]
      [ Die TagParameter 12 [AName (Some "this"%string); AType (Some 90)] [];
        Die TagStructure 14 [AName (Some "Inner"%string); AByteSize (Some 4%Z)]
          [ Die TagSubprogram 16 [AName (Some "g"%string)] [] ] ]) ex_function).
  { eapply (desc_refer (Some 0) ex_top TagNamespace None 10
      [ASpecification (Some 52); ALowPc (Some 4096); AHighPcSize 32]
      [ Die TagParameter 12 [AName (Some "this"%string); AType (Some 90)] [];
        Die TagStructure 14 [AName (Some "Inner"%string); AByteSize (Some 4%Z)]
          [ Die TagSubprogram 16 [AName (Some "g"%string)] [] ] ] 52 false _
      (mkFunction 52 ex_class (Some "f"%string) None no_source opt64_none opt64_none [] false true
        [mkParameterType 54 None 90] 92) 4096 32 [mkRange 4096 4128]
      [mkParameterType 12 (Some "this"%string) 90]);
      [apply loc_top; cbn; tauto|reflexivity|exact D1|reflexivity| |].
    - now apply (occ_length _ _ 4096 32).
    - apply ext_new; [discriminate|]. apply ext_skip; [discriminate|]. apply ext_done. }
  eexists. split; [exact D2|]. eexists. split.
  - eapply (desc_refer (Some 0) ex_top TagNamespace None 30
      [AAbstractOrigin (Some 10); ALowPc (Some 8192); AHighPcAddress (Some 8200)]
      [ Die TagParameter 32 [AAbstractOrigin (Some 12); AType (Some 91)] [] ] 10 true _ ex_function
      8192 8 [mkRange 8192 8200] [mkParameterType 12 (Some "this"%string) 91]);
      [apply loc_top; cbn; tauto|reflexivity|exact D2|reflexivity| |].
    + now apply (occ_up_to _ _ 8192 8200).
    + apply (ext_amend [] (mkParameterType 12 (Some "this"%string) 90) [] 32 _ [] [] 12);
        [reflexivity|reflexivity|constructor|]. apply ext_done.
  - eexists. split; [right; left; reflexivity|]. split; reflexivity.
Qed.

(** ** C36: variables *)

(** The variables of the unit, in the order of their offsets: those of the entries that refer to
    none, or to one that in turn has a variable. *)
Theorem C36_kept cx top s :
  distinct_offsets top -> parse_items cx top = Some s ->
  StronglySorted N.lt (map vr_offset (ws_variables s))
  /\ forall o, In o (map vr_offset (ws_variables s)) <-> exists d, has_variable cx top d /\ die_offset d = o.
Proof.
  intros D E. destruct (parse_items_runs cx top) as (m & s' & vs & E1 & E2 & E3).
  rewrite E3 in E. inversion E; subst. cbn [ws_variables].
  destruct (resolve_variables_keys _ _ _ _ E2) as (A & B). split.
  - apply ordered_keys, A. apply map_insert_all_ordered. constructor.
  - intros o. rewrite B, <- (reached_has_variable cx top D m s' E1).
    assert (K : forall o, In o (map vr_offset (map_insert_all vr_offset (ws_variables s') []))
                          <-> In o (map vr_offset (ws_variables s'))).
    { intros o'. rewrite map_insert_all_key. cbn [map In]. tauto. }
    split.
    + induction 1 as [x H|t x H1 H2 IH]; [constructor; now apply K|now apply (reached_next _ _ t)].
    + induction 1 as [x H|t x H1 H2 IH]; [constructor; now apply K|now apply (reached_next _ _ t)].
Qed.
Print Assumptions C36_kept.

(** The variable has what its entry gives itself: place of declaration, address and size, and the name, linkage
    name and type if the entry has them. *)
Theorem C36_own cx top s v :
  (forall o e, cx_tree cx o = Some e -> In e (flat_map entries top)) ->
  distinct_offsets top -> parse_items cx top = Some s -> In v (ws_variables s) ->
  exists d, has_variable cx top d /\ vr_offset v = die_offset d
  /\ vr_source v = given_source (die_attrs d) /\ vr_address v = given_address (die_attrs d)
  /\ vr_size v = given_size (die_attrs d) /\ vr_declaration v = given_declaration (die_attrs d)
  /\ (given_name (die_attrs d) <> None -> vr_name v = given_name (die_attrs d))
  /\ (given_linkage_name (die_attrs d) <> None -> vr_linkage_name v = given_linkage_name (die_attrs d))
  /\ (given_type (die_attrs d) <> type_offset_none -> vr_ty v = given_type (die_attrs d)).
Proof.
  intros T D E I. pose proof (items_named cx top T s E) as F. rewrite Forall_forall in F. destruct (F v I) as (d & J & O).
  exists d. split; [|exact O].
  destruct (C36_kept cx top s D E) as (_ & K). destruct (proj1 (K (vr_offset v)) (in_map _ _ _ I)) as (e & H & OE).
  assert (e = d) as <-; [|exact H].
  assert (Ie : In e (flat_map entries top)) by now apply (has_variable_entry cx top T).
  apply (same_entry die_offset (flat_map entries top)); [exact D|exact Ie|exact J|]. rewrite OE. apply O.
Qed.
Print Assumptions C36_own.

(** What a variable takes from the one that it refers to. *)
Theorem C36_resolved cx top s d v :
  distinct_offsets top -> no_rust_statics cx -> parse_items cx top = Some s ->
  describes_variable (cx_low_pc cx) top d v -> In v (ws_variables s).
Proof.
  intros D R E Hd. destruct (parse_items_runs cx top) as (m & s' & vs & E1 & E2 & E3).
  rewrite E3 in E. inversion E; subst. cbn [ws_variables].
  destruct (resolved_described cx top (distinct_funs cx top D) _ m s' E1) as (_ & A).
  apply (variables_described cx top s' _ vs A (final_nodup cx top D R m s' E1) E2 d v Hd).
Qed.
Print Assumptions C36_resolved.

(** Not every entry of a variable has a variable: that of a static member of a class that is
    described as DWARF 5 prescribes is lost, with its address. *)
Theorem C36_refuted : exists cx top s d,
  distinct_offsets top /\ parse_items cx top = Some s /\ found top TagNamespace d
  /\ die_tag d = TagVariable /\ given_address (die_attrs d) <> opt64_none /\ ws_variables s = [].
Proof.
  pose (place := ALocation (PExpression
     [(GAddress 4096, None)] [OAddress 4096])).
  exists (mkContext None false false 5 8 (fun _ => None)),
    [ Die TagClass 16 [AName (Some "C"%string)]
        [Die TagVariable 32 [AName (Some "count"%string); ADeclaration (Some true)] []];
      Die TagVariable 48 [ASpecification (Some 32); place] [] ].
  eexists. exists (Die TagVariable 48 [ASpecification (Some 32); place] []).
  split; [unfold distinct_offsets; cbn; repeat constructor; cbn; intuition discriminate|].
  split; [vm_compute; reflexivity|]. split; [apply found_top; cbn; tauto|].
  split; [reflexivity|]. split; [vm_compute; discriminate|reflexivity].
Qed.
Print Assumptions C36_refuted.

(** An example: a definition before the declaration it refers to, in a namespace, and a static
    member. *)
Definition ex_variables : list die :=
  [ Die TagVariable 10 [ASpecification (Some 22);
      ALocation (PExpression [(GAddress 4096, None)] [OAddress 4096])] [];
    Die TagNamespace 20 [AName (Some "ns"%string)]
      [ Die TagVariable 22 [AName (Some "v"%string); AType (Some 90); ADeclaration (Some true)] [];
        Die TagStructure 30 [AName (Some "S"%string)]
          [ Die TagMember 32 [AName (Some "s"%string); ADeclaration (Some true)] [];
            Die TagMember 34 [AName (Some "m"%string)] [] ] ];
    Die TagVariable 40 [ASpecification (Some 10)] [];
    Die TagVariable 50 [ASpecification (Some 50)] [] ].

Example C36_example : exists s, parse_items ex_context ex_variables = Some s
  /\ map (fun v => (vr_offset v, vr_name v, vr_namespace v)) (ws_variables s)
     = let ns := Some (Ns None (Some "ns"%string) KNamespace) in
       [ (10, Some "v"%string, ns); (22, Some "v"%string, ns);
         (32, Some "s"%string, Some (Ns ns (Some "S"%string) KType)); (40, Some "v"%string, ns) ].
Proof. eexists. split; vm_compute; reflexivity. Qed.

Example C36_example_described : distinct_offsets ex_variables /\ no_rust_statics ex_context
  /\ exists d, describes_variable (Some 0) ex_variables d
       (mkVariable 10 (Some (Ns None (Some "ns"%string) KNamespace)) (Some "v"%string) None 90 no_source
          4096 opt64_none false).
Proof.
  split; [unfold distinct_offsets; cbn; repeat constructor; cbn; intuition discriminate|].
  split; [discriminate|]. eexists.
  eapply (dvar_refer _ _ None (Die TagVariable 10 [ASpecification (Some 22);
      ALocation (PExpression [(GAddress 4096, None)] [OAddress 4096])] [])
      [ASpecification (Some 22);
       ALocation (PExpression [(GAddress 4096, None)] [OAddress 4096])] 22
      (Die TagVariable 22 [AName (Some "v"%string); AType (Some 90); ADeclaration (Some true)] [])
      (mkVariable 22 (Some (Ns None (Some "ns"%string) KNamespace)) (Some "v"%string) None 90 no_source
        opt64_none opt64_none true)); try reflexivity.
  - apply loc_top. cbn. tauto.
  - eapply (dvar_own _ _ TagNamespace (Some (Ns None (Some "ns"%string) KNamespace))
      (Die TagVariable 22 [AName (Some "v"%string); AType (Some 90); ADeclaration (Some true)] [])
      [AName (Some "v"%string); AType (Some 90); ADeclaration (Some true)]); [|reflexivity|].
    + eapply (loc_namespace _ _ None 20 [AName (Some "ns"%string)]).
      * apply loc_top. cbn. tauto.
      * left. reflexivity.
    + left. repeat split.
Qed.

(** ** C49: types *)

(** Each entry of a type has exactly one type in the unit. *)
Theorem C49_kept cx top s :
  distinct_offsets top -> parse_items cx top = Some s ->
  NoDup (map t_offset (ws_types s))
  /\ forall o, In o (map t_offset (ws_types s))
       <-> exists t d, found top t d /\ is_type_tag (die_tag d) = true /\ t <> TagEnumeration /\ die_offset d = o.
Proof.
  intros D E. destruct (parse_items_runs cx top) as (m & s' & vs & E1 & _ & E3).
  rewrite E3 in E. inversion E; subst. cbn [ws_types]. now apply (resolved_types cx top D m s' E1).
Qed.
Print Assumptions C49_kept.

(** It is the one that the entry describes, in the namespace that the entry is in. *)
Theorem C49_described cx top s outer ns d :
  distinct_offsets top -> parse_items cx top = Some s ->
  located (cx_low_pc cx) top outer ns d -> is_type_tag (die_tag d) = true -> outer <> TagEnumeration ->
  exists t, In t (ws_types s) /\ t_offset t = die_offset d /\ describes_type cx ns d (t_kind t).
Proof.
  intros D E Hl Ht Ho. destruct (parse_items_runs cx top) as (m & s' & vs & E1 & _ & E3).
  rewrite E3 in E. inversion E; subst. cbn [ws_types].
  destruct (resolved_described cx top (distinct_funs cx top D) _ m s' E1) as (_ & A).
  destruct (A _ _ _ Hl) as (B & _). exists (entry_type cx ns d). split; [now apply B|].
  now apply entry_type_described.
Qed.
Print Assumptions C49_described.

(** Every type of the unit is described by its entry in some namespace, also inside functions
    whose namespace is only known through a reference. *)
Theorem C49_every cx top s t :
  parse_items cx top = Some s -> In t (ws_types s) ->
  exists ns outer d, found top outer d /\ is_type_tag (die_tag d) = true /\ outer <> TagEnumeration
    /\ t_offset t = die_offset d /\ describes_type cx ns d (t_kind t).
Proof. apply types_described. Qed.
Print Assumptions C49_every.

(** The type inside the method of the first example is in the namespace of the method, which
    is only known once the method's declaration has been found. *)
Example C49_example : exists s, parse_items ex_context ex_top = Some s
  /\ map t_offset (ws_types s) = [50; 14]
  /\ In (mkType 14 (TStruct (mkStruct (Some (Ns ex_class (Some "f"%string) KFunction)) (Some "Inner"%string) 4
                               false [] [] []))) (ws_types s).
Proof. eexists. split; [vm_compute; reflexivity|]. vm_compute. tauto. Qed.

Example C49_example_located :
  exists d, located (Some 0) ex_top TagSubprogram (Some (Ns ex_class (Some "f"%string) KFunction)) d
            /\ die_offset d = 14 /\ is_type_tag (die_tag d) = true.
Proof.
  destruct C35_example_described as ([t off attrs children] & D & _ & _ & c & I & O & T).
  exists c. split; [|now rewrite T].
  assert (t = TagSubprogram) as -> by (inversion D; reflexivity).
  now apply (loc_function _ _ off attrs children c ex_function).
Qed.
