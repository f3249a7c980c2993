(** What is looked up in a file while it is printed (property C81). *)
From Coq Require Import List Arith NArith ZArith Bool String Lia.
From Verif Require Import Base BaseProofs RangeModel NamespaceModel TypeModel FileModel FileSpec ReadModel ReadSpec PropertiesRead PropertiesDie LocationModel ItemModel
  EntryModel ReportModel NameModel DieModel DieSpec DieProofs WholeModel WholeSpec WholeProofs WholeDepth WholeShown IdModel IdSpec DescribeProofs WholeNumbers ViewSpec.
From Verif Require Import DieModel DieSpec.
Import ListNotations.
Local Open Scope N_scope.

(** C81: each unit is read with the properties of its own header, and references lead to its own entries. *)
Theorem C81_context : forall ob u, well_formed ob -> In u (ob_units ob) -> reading_context ob u (unit_context ob u).
Proof.
  intros ob u WF I. unfold reading_context. cbn [unit_context cx_low_pc cx_rust cx_big_endian cx_version cx_address_size cx_tree].
  repeat (split; [reflexivity|]). intros off d. split; [apply find_dies_sound|].
  intros (Id & <-). destruct (find_dies_complete (die_offset d) (ui_children u)) as (x & E); [now exists d|].
  rewrite E. f_equal. apply find_dies_sound in E. destruct E as (Ix & E). exact (entry_unique ob WF u x d I Ix Id E).
Qed.
Print Assumptions C81_context.

(** C81: the source of a type is what its entry gives. *)
Theorem C81_source : forall choice ob u d t, well_formed ob -> In u (ob_units ob) -> In d (unit_entries u) ->
  t_offset t = die_offset d -> vw_source (file_view choice ob) t = given_source (die_attrs d).
Proof.
  intros choice ob u d t WF I J E. cbn [file_view vw_source]. unfold type_source. rewrite E.
  rewrite (entry_in_complete ob WF u d I J). apply attr_source_given.
Qed.
Print Assumptions C81_source.

Lemma enumerators_ext h e1 e2 x children : (forall o, e1 o = e2 o) -> enumerators h e1 x children = enumerators h e2 x children.
Proof.
  intros E. unfold enumerators, enumeration_encoding. destruct (from_offset h (e_ty x)) as [t|]; [|reflexivity].
  destruct (t_kind t); try reflexivity. now rewrite E.
Qed.

(** C81: the enumerators of an enumeration are those of its entry; their values are signed unless the type under the
    enumeration is an unsigned one. *)
Theorem C81_enumerators : forall choice ob codes t x,
  (forall off, ob_encoding ob off = encoding_of_code (codes off)) -> t_kind t = TEnum x ->
  (forall attrs c, In (Some attrs) (ob_enumerators ob (t_offset t)) -> In (EnConst c) attrs -> const_sane c) ->
  exists unsigned : bool,
    (unsigned = true <-> exists s b, from_offset (type_at ob) (e_ty x) = Some s /\ t_kind s = TBase b /\ In (codes (t_offset s)) [1; 2; 7; 8]) /\
    Forall2 (enumerator_of unsigned)
      (flat_map (fun c => match c with Some attrs => [attrs] | None => [] end) (ob_enumerators ob (t_offset t)))
      (vw_enumerators (file_view choice ob) t).
Proof.
  intros choice ob codes t x C K S. cbn [file_view vw_enumerators]. unfold type_enumerators. rewrite K.
  rewrite (enumerators_ext _ _ _ _ _ C).
  destruct (from_offset (type_at ob) (e_ty x)) as [s|] eqn:F.
  - assert (D : (exists b, t_kind s = TBase b) \/ forall b, t_kind s <> TBase b) by (destruct (t_kind s); eauto; right; discriminate).
    destruct D as [(b & B)|NB].
    + destruct (C78_enumerators _ codes x _ s b F B S) as (un & U & R). exists un. split; [|exact R].
      rewrite U. split; [intros H; now exists s, b|]. intros (s' & b' & [= <-] & _ & H). exact H.
    + exists false. split; [|apply C78_enumerators_signed; [intros s' b E; rewrite F in E; injection E as <-; apply NB|exact S]].
      split; [discriminate|]. intros (s' & b & [= <-] & B & _). destruct (NB b B).
  - exists false. split; [|apply C78_enumerators_signed; [congruence|exact S]].
    split; [discriminate|]. intros (s' & b & E & _). discriminate.
Qed.
Print Assumptions C81_enumerators.

(** C81: the first address of a unit that has functions is that of the unit it was read from. *)
Theorem C81_first : forall choice ob i u w outer d, well_formed ob -> nth_error (ob_units ob) i = Some u ->
  nth_error (im_units (load choice ob)) i = Some w -> found (ui_children u) outer d -> die_tag d = TagSubprogram ->
  im_low_pc (load choice ob) w = unit_base u.
Proof.
  intros choice ob i u w outer d WF Eu Ew FD T. cbn [load im_low_pc]. unfold unit_first_pc.
  pose proof (nth_error_In _ _ Eu) as I.
  assert (IO : item_offset ob u (die_offset d)).
  { right; left. apply (proj2 (C35_kept (unit_context ob u) (ui_children u) _ (unit_distinct ob WF u I) (items_read ob u))). now exists outer, d. }
  now rewrite (origin_at choice ob WF i u w _ Eu Ew IO).
Qed.
Print Assumptions C81_first.

(** C81: the parameters that a function type is printed with have the names of the entries of its parameters. *)
Theorem C81_parameter_names : forall ob u d t ps, well_formed ob -> In u (ob_units ob) -> In d (unit_entries u) ->
  t_offset t = die_offset d -> extends [] (die_children d) ps -> parameter_names ob t = map pt_name ps.
Proof.
  intros ob u d t ps WF I J E X. unfold parameter_names. rewrite E, (entry_in_complete ob WF u d I J).
  now rewrite (parameters_extends _ _ _ X).
Qed.
Print Assumptions C81_parameter_names.

(** C81: the number that an item has in the output leads to that item: those of types, of functions and variables that
    were read, and of units with functions. *)
Theorem C81_numbers : forall choice ob i w, well_formed ob -> nth_error (im_units (load choice ob)) i = Some w ->
  let item_of := print_id_item (im_units (load choice ob)) (fst (assign_ids (im_units (load choice ob)))) in
  (forall t, In t (un_types w) -> item_of (vw_id (file_view choice ob) t) = Some (ItType w t)) /\
  (forall f, In f (un_functions w) -> fn_offset f <> u64_max ->
     item_of (sc_function_id (file_scene choice ob) f) = Some (ItFunction w f)) /\
  (forall v, In v (un_variables w) -> va_offset v <> u64_max ->
     item_of (sc_variable_id (file_scene choice ob) v) = Some (ItVariable w v)) /\
  (forall u outer d, nth_error (ob_units ob) i = Some u -> found (ui_children u) outer d -> die_tag d = TagSubprogram ->
     item_of (im_unit_id (load choice ob) w) = Some (ItUnit w)).
Proof.
  intros choice ob i w WF E. cbn zeta. cbn [load im_units] in *.
  split; [|split; [|split]].
  - intros t I. apply In_nth_error in I. destruct I as (k & K). exact (type_numbered choice ob WF i k w t E K).
  - intros f I NA. apply In_nth_error in I. destruct I as (k & K). exact (function_numbered choice ob WF i k w f E K NA).
  - intros v I NA. apply In_nth_error in I. destruct I as (k & K). exact (variable_numbered choice ob WF i k w v E K NA).
  - intros u outer d Eu FD T. apply (unit_numbered choice ob WF i u w (die_offset d) Eu E).
    right; left. apply (proj2 (C35_kept (unit_context ob u) (ui_children u) _ (unit_distinct ob WF u (nth_error_In _ _ Eu)) (items_read ob u))).
    now exists outer, d.
Qed.
Print Assumptions C81_numbers.

(** An enumeration of an unsigned type, with its source; the second unit has another base address. *)
Local Open Scope string_scope.
Local Open Scope list_scope.
Local Open Scope N_scope.
Local Definition colour : die :=
  Die TagEnumeration 30 [AName (Some "Colour"); AType (Some 20); ADeclFile (Some (Some "a.h", None)); ADeclLine (Some 7)] [].
Local Definition first_unit : unit_input :=
  mkUnitInput [AName (Some "a.c"); ALowPc (Some 4096); AHighPcSize 64]
    [ Die TagBase 20 [AName (Some "unsigned char"); AByteSize (Some 1)%Z] []; colour;
      Die TagSubprogram 40 [AName (Some "main"); ALowPc (Some 4096); AHighPcSize 32] [] ]
    None None false 4 8 (fun _ => None).
Local Definition second_unit : unit_input :=
  mkUnitInput [AName (Some "b.rs"); ALowPc (Some 8192); AHighPcSize 64]
    [ Die TagSubprogram 140 [AName (Some "run"); ALowPc (Some 8192); AHighPcSize 32] [] ]
    None None true 5 4 (fun _ => None).
Local Definition sample : object_input :=
  mkObjectInput "a.out" true [] [] [] [first_unit; second_unit] (fun _ => encoding_of_code 8) (fun _ => EndDefault)
    (fun off => if (off =? 30)%N then [Some [EnName (Some "Red"); EnConst (FixedData 1 200)]] else []) (fun _ => None) None.
Local Definition first_choice (n : N) : nat := O.
Local Definition colour_type : type := mkType 30 (TEnum (mkEnum None (Some "Colour") false 20 opt64_none)).

Example C81_view_example :
  well_formed sample /\ In colour (unit_entries first_unit) /\ type_at sample 30 = Some colour_type /\
  so_line (vw_source (file_view first_choice sample) colour_type) = 7 /\
  vw_enumerators (file_view first_choice sample) colour_type = [mkEnumerator (Some "Red") (EvUnsigned 200)] /\
  map (im_low_pc (load first_choice sample)) (im_units (load first_choice sample)) = [Some 4096; Some 8192; None; None] /\
  cx_rust (unit_context sample second_unit) = true /\ cx_tree (unit_context sample second_unit) 30 = None.
Proof.
  split; [|split; [vm_compute; tauto|repeat split; vm_compute; reflexivity]].
  split.
  - vm_compute. repeat (constructor; [cbn; intuition discriminate|]). constructor.
  - apply Forall_forall. intros d I. assert (C : forallb (fun d => negb (die_offset d =? u64_max)) (all_entries sample) = true) by reflexivity.
    rewrite forallb_forall in C. specialize (C d I). now apply negb_true_iff, N.eqb_neq in C.
Qed.

Example C81_numbers_example :
  map (fun u => (map (vw_id (file_view first_choice sample)) (un_types u), map (sc_function_id (file_scene first_choice sample)) (un_functions u)))
    (im_units (load first_choice sample)) = [([1; 2], [3]); ([], [5]); ([], []); ([], [])]%nat /\
  map (im_unit_id (load first_choice sample)) (im_units (load first_choice sample)) = [0; 4; 6; 7]%nat.
Proof. vm_compute. auto. Qed.
