(** Proofs about DetailModel.v, third part: sizes, signatures and the index. *)
From Coq Require Import List Arith NArith ZArith Bool String Lia.
From Verif Require Import Base BaseProofs RangeModel NamespaceModel TypeModel LocationModel LocationProofs DieModel
  DieSpec DieProofs DescribeProofs FileModel EntryModel DetailModel DetailSpec DetailProofs DetailShown.
Import ListNotations.
Local Open Scope N_scope.

(** ** The whole function *)

Lemma get_ok sp h off rd d :
  sp off = Some (rd, d) -> off <> u64_max ->
  get_function_details sp h off =
  fold_left (fun st c => visit_details sp h rd false c st) (die_children d)
    (abstract_details sp (attr_function_origin (die_attrs d))).
Proof.
  intros S NE. unfold get_function_details, function_tree. change type_offset_none with u64_max.
  now rewrite (proj2 (N.eqb_neq _ _) NE), S.
Qed.

Lemma whole sp h off rd d :
  sp off = Some (rd, d) -> off <> u64_max -> all_proper sp ->
  let st := get_function_details sp h off in
  fd_parameters st = map parameter_of (groups [] (parameter_entries sp rd (die_attrs d) (die_children d))) /\
  fd_variables st = map variable_of (groups [] (variable_entries sp rd (die_attrs d) (die_children d))) /\
  fd_inlined st = map (item_inlined sp h rd) (flat_map (through_blocks is_inlined) (die_children d)) /\
  fd_calls st = map (item_call sp h rd) (flat_map (through_blocks is_call) (die_children d)).
Proof.
  intros S NE P. cbn zeta. rewrite (get_ok _ _ _ _ _ S NE). apply details_ok; [exact P|].
  intros e I. pose proof (P off rd d S) as Q. intros x a n [<-|[]]. apply Q.
  apply in_map. now apply in_children_through in I.
Qed.

(** Parameters need no conditions. *)
Lemma whole_parameters sp h off rd d :
  sp off = Some (rd, d) -> off <> u64_max ->
  fd_parameters (get_function_details sp h off) =
  map parameter_of (groups [] (parameter_entries sp rd (die_attrs d) (die_children d))).
Proof.
  intros S NE. rewrite (get_ok _ _ _ _ _ S NE), visit_parameters, abstract_start.
  unfold parameter_entries, entries_for.
  destruct (abstract_origin sp (die_attrs d)) as [[rd' d']|]; cbn [fd_parameters no_details app].
  - now rewrite <- fold_left_app, parameters_grouped.
  - now rewrite parameters_grouped.
Qed.

Lemma whole_calls sp h off rd d :
  sp off = Some (rd, d) -> off <> u64_max ->
  Forall2 (calls sp h rd) (flat_map (through_blocks is_call) (die_children d))
    (fd_calls (get_function_details sp h off)).
Proof.
  intros S NE. rewrite (get_ok _ _ _ _ _ S NE).
  destruct (visit_list sp h rd false (die_children d) (abstract_details sp (attr_function_origin (die_attrs d))))
    as (_ & _ & C).
  rewrite C, abstract_start. destruct (abstract_origin sp (die_attrs d)) as [[rd' d']|]; apply item_call_ok.
Qed.

(** ** Signatures *)

Definition signature (p : parameter) : parameter_type := mkParameterType (pa_offset p) (pa_name p) (pa_ty p).

Lemma amend_signature o p l :
  option_map (map signature) (amend_parameter o p l) = update_parameter o (signature p) (map signature l).
Proof.
  induction l as [|q l IH]; [reflexivity|]. cbn [amend_parameter update_parameter map signature pt_offset].
  destruct (pa_offset q =? o); [reflexivity|]. fold (signature p). rewrite <- IH.
  now destruct (amend_parameter o p l).
Qed.
Lemma add_signature l e :
  map signature (add_parameter l e) = parse_parameter_type (map signature l) (e_offset e) (e_attrs e).
Proof.
  unfold add_parameter, parse_parameter, parse_parameter_type.
  destruct (attr_abstract_origin (e_attrs e)) as [o|]; [|now rewrite map_app].
  set (p := mkParameter _ _ _ _). pose proof (amend_signature o p l) as A.
  change (signature p) with (mkParameterType (e_offset e) (attr_name (e_attrs e)) (attr_type (e_attrs e))) in A.
  destruct (amend_parameter o p l), (update_parameter o _ (map signature l)); try discriminate A.
  - cbn [option_map] in A; now injection A.
  - now rewrite map_app.
Qed.
Lemma fold_signature rd children : forall l,
  map signature (fold_left add_parameter (map (pair rd) (filter is_parameter children)) l) =
  parse_parameter_types children (map signature l).
Proof.
  unfold parse_parameter_types. induction children as [|d c IH]; intros l; [reflexivity|].
  cbn [filter fold_left]. destruct d as [t o a ch]. cbn [is_parameter die_tag].
  destruct t; try apply IH. cbn [map fold_left]. etransitivity; [apply IH|]. f_equal. apply add_signature.
Qed.

Lemma signatures_ok sp h low top d f rd :
  describes low top d f -> die_offset d <> u64_max -> sp (die_offset d) = Some (rd, d) ->
  (forall e g, describes low top e g -> exists rd', sp (die_offset e) = Some (rd', e)) ->
  (forall o, given_specification (die_attrs d) = Some (o, false) -> given_origin (die_attrs d) = None) ->
  (forall o, given_origin (die_attrs d) = Some o ->
     o <> u64_max /\
     forall rd' e, sp o = Some (rd', e) -> given_origin (die_attrs e) = None) ->
  map signature (fd_parameters (get_function_details sp h (die_offset d))) = fu_parameters f.
Proof.
  intros D NE S T ONE FLAT. rewrite (get_ok _ _ _ _ _ S NE), visit_parameters, abstract_start, fold_signature.
  assert (NONE : forall l, given_specification l = None -> given_origin l = None).
  { intros l. unfold given_specification, given_origin, given.
    assert (G : forall x y, (x = None -> y = None) ->
              last (flat_map (fun a => match match a with ASpecification (Some o) => Some (Some (o, false))
                 | AAbstractOrigin (Some o) => Some (Some (o, true)) | _ => None end with Some v => [v] | None => [] end) l) x
                = None ->
              last (flat_map (fun a => match match a with AAbstractOrigin (Some o) => Some (Some o) | _ => None end
                with Some v => [v] | None => [] end) l) y = (None : option N)).
    { induction l as [|a l IH]; intros x y H; [exact H|]. cbn [flat_map].
      destruct a; try apply IH; try exact H; destruct v; cbn [app]; try (now apply IH);
        rewrite !last_cons; apply IH; try discriminate. }
    apply G. reflexivity. }
  assert (SOME : forall l o, given_specification l = Some (o, true) -> given_origin l = Some o).
  { intros l o. unfold given_specification, given_origin, given.
    assert (G : forall x y, (x = Some (o, true) -> y = Some o) ->
              last (flat_map (fun a => match match a with ASpecification (Some o) => Some (Some (o, false))
                 | AAbstractOrigin (Some o) => Some (Some (o, true)) | _ => None end with Some v => [v] | None => [] end) l) x
                = Some (o, true) ->
              last (flat_map (fun a => match match a with AAbstractOrigin (Some o) => Some (Some o) | _ => None end
                with Some v => [v] | None => [] end) l) y = Some o).
    { induction l as [|a l IH]; intros x y H; [exact H|]. cbn [flat_map].
      destruct a; try apply IH; try exact H; destruct v; cbn [app]; try (now apply IH);
        rewrite !last_cons; apply IH; try discriminate. intros E. now injection E as ->. }
    apply G. discriminate. }
  inversion D as [outer ns off attrs children address size ranges ps L GS O X E1 E2
                 |outer ns off attrs children target ab d' g address size ranges ps L GS D' OF O X E1 E2]; subst; cbn [fu_parameters die_attrs die_children] in *.
  - unfold abstract_origin. rewrite (NONE _ GS). cbn [fd_parameters no_details map].
    now apply parameters_extends.
  - destruct ab.
    + pose proof (SOME _ _ GS) as GO. destruct (FLAT _ GO) as [NO PLAIN].
      destruct (T _ _ D') as [rd' S']. unfold abstract_origin. rewrite GO, (proj2 (N.eqb_neq _ _) NO), S'.
      cbn [fd_parameters]. rewrite fold_signature. cbn [map].
      specialize (PLAIN _ _ S').
      assert (PG : parse_parameter_types (die_children d') [] = fu_parameters g).
      { inversion D' as [o2 n2 off2 attrs2 children2 ad2 s2 r2 ps2 L2 GS2 O2 X2 E1 E2
                        |o2 n2 off2 attrs2 children2 t2 ab2 d2 g2 ad2 s2 r2 ps2 L2 GS2 D2 OF2 O2 X2 E1 E2]; subst;
          cbn [fu_parameters die_attrs die_children] in *.
        - now apply parameters_extends.
        - destruct ab2; [|now apply parameters_extends].
          rewrite (SOME _ _ GS2) in PLAIN. discriminate. }
      rewrite PG. now apply parameters_extends.
    + unfold abstract_origin. rewrite (ONE _ GS). cbn [fd_parameters no_details map].
      now apply parameters_extends.
Qed.

(** ** The index *)

Lemma index_none {A} (key : A -> N) l off : forall x,
  ~ In off (map key l) -> fold_left (fun x a => if key a =? off then Some a else x) l x = x.
Proof.
  induction l as [|a l IH]; intros x H; [reflexivity|]. cbn [fold_left map] in *.
  destruct (N.eqb_spec (key a) off) as [E|E]; [exfalso; apply H; now left|]. apply IH. intros I. apply H. now right.
Qed.
Lemma index_found {A} (key : A -> N) l off : NoDup (map key l) -> forall a,
  index_by key l off = Some a <-> In a l /\ key a = off.
Proof.
  intros D a. unfold index_by.
  enough (G : forall x, ~ In off (map key l) \/ x = None ->
    (fold_left (fun x a => if key a =? off then Some a else x) l x = Some a <-> (In a l /\ key a = off) \/ x = Some a)).
  { rewrite G by now right. split; [intros [H|H]; [exact H|discriminate]|now left]. }
  induction l as [|b l IH]; intros x H; [cbn; tauto|]. cbn [map] in D. inversion D as [|? ? NI D']; subst.
  cbn [fold_left map] in *. destruct (N.eqb_spec (key b) off) as [E|E].
  - rewrite index_none by now rewrite <- E. destruct H as [H| ->]; [exfalso; apply H; now left|].
    split.
    + intros F. injection F as ->. left. split; [now left|exact E].
    + intros [[[->|I] K]|F]; [reflexivity| |discriminate]. exfalso. apply NI. rewrite E, <- K. now apply in_map.
  - rewrite IH by (exact D' || (destruct H as [H|H]; [left; intros I; apply H; now right|now right])).
    split; (intros [[I K]|F]; [left|now right]).
    + split; [now right|exact K].
    + destruct I as [->|I]; [contradiction|]. tauto.
Qed.

Lemma group_heads l : forall seen,
  NoDup (map e_offset l) -> NoDup (map (fun g => e_offset (fst g)) (groups seen l)).
Proof.
  induction l as [|e l IH]; intros seen D; [constructor|]. cbn [groups map] in *.
  inversion D as [|? ? NI D']; subst. destruct existsb; [now apply IH|]. cbn [map fst]. constructor; [|now apply IH].
  intros H. apply NI. apply in_map_iff in H. destruct H as (g & E & I). apply groups_in in I.
  rewrite <- E. apply in_map. exact (proj1 I).
Qed.
