(** Every type of a unit is what an entry of it describes, also inside functions whose
    namespace is only known through a reference. *)
From Coq Require Import List Arith NArith ZArith Bool String Lia Permutation.
From Verif Require Import Base RangeModel NamespaceModel TypeModel LocationModel DieModel DieSpec MemberSpec
  DieProofs FixupProofs KeptProofs DescribeProofs MemberProofs.
Import ListNotations.
Local Open Scope N_scope.

Section Types.
  Variables (cx : context) (top : list die).

  Definition true_type (t : type) : Prop :=
    exists ns outer d, found top outer d /\ is_type_tag (die_tag d) = true /\ outer <> TagEnumeration
      /\ t = entry_type cx ns d.
  Definition true_pending (p : pending) : Prop :=
    exists outer d, found top outer d /\ die_tag d = TagSubprogram /\ die_children d = pe_children p.
  Definition true_state (s : walk_state) : Prop :=
    Forall true_type (ws_types s) /\ Forall true_pending (ws_subprograms s).

  Lemma push_true ns outer d s :
    found top outer d -> is_type_tag (die_tag d) = true -> outer <> TagEnumeration ->
    true_state s -> true_state (push_type (entry_type cx ns d) s).
  Proof.
    intros F T N (A & B). split; [|exact B]. cbn [push_type ws_types]. apply Forall_app. split; [exact A|].
    constructor; [|constructor]. now exists ns, outer, d.
  Qed.

  Lemma parse_child_true d : forall outer ns s,
    found top outer d -> true_state s -> true_state (parse_child cx (parent_of outer) ns d s).
  Proof.
    induction d as [t o a l IH] using die_ind'. intros outer ns s Hf H.
    assert (IHl : forall ns' s', looks outer t = true -> true_state s' ->
      true_state (fold_left (fun s c => parse_child cx (parent_of t) ns' c s) l s')).
    { intros ns' s' Hl. apply looks_spec in Hl.
      assert (Hin : Forall (found top t) l).
      { apply Forall_forall. intros c Hc. apply (found_inside top outer (Die t o a l) c Hf Hl Hc). }
      revert s'. clear Hf Hl. induction IH as [|d l Hd Hl IHl]; intros s' Hs; cbn [fold_left]; [assumption|].
      inversion Hin; subst. apply IHl; [assumption|]. now apply Hd. }
    clear IH. pose proof (found_scope top _ _ Hf) as Hs.
    assert (T : is_type_tag t = true -> outer <> TagEnumeration -> forall s', true_state s' ->
        true_state (push_type (entry_type cx ns (Die t o a l)) s')).
    { intros. eapply push_true; eauto. }
    destruct t; cbn [parse_child]; try (destruct outer; try destruct Hs; cbn [parent_of]; exact H);
      try (destruct outer; try destruct Hs; cbn [parent_of]; try exact H; apply T; (reflexivity || discriminate || idtac); exact H).
    - destruct outer; try destruct Hs; cbn [parent_of]; try exact H. now apply IHl.
    - assert (G : true_state
         match attr_specification a with
         | Some (o0, ab) => push_subprogram (mkPending l o0 ab (own_function (cx_low_pc cx) ns o a)) s
         | None => push_function (with_parameters (own_function (cx_low_pc cx) ns o a) (parse_parameter_types l []))
            (fold_left (fun s c => parse_child cx InSubprogram (function_namespace (own_function (cx_low_pc cx) ns o a)) c s) l s)
         end).
      { destruct (attr_specification a) as [[o0 ab]|].
        - destruct H as (H1 & H2). split; [assumption|]. cbn [push_subprogram ws_subprograms].
          apply Forall_app. split; [assumption|]. constructor; [|constructor].
          exists outer, (Die TagSubprogram o a l). repeat split; auto.
        - exact (IHl (function_namespace (own_function (cx_low_pc cx) ns o a)) s eq_refl H). }
      destruct outer; try destruct Hs; exact G.
    - destruct outer; try destruct Hs; cbn [parent_of]; try exact H.
      destruct (attr_variable_specification a); exact H.
    - destruct outer; try destruct Hs; cbn [parent_of]; try exact H; now apply IHl.
    - destruct outer; try destruct Hs; cbn [parent_of]; try exact H; apply T; try reflexivity; try discriminate; now apply IHl.
    - destruct outer; try destruct Hs; cbn [parent_of]; try exact H; apply T; try reflexivity; try discriminate; now apply IHl.
    - destruct outer; try destruct Hs; cbn [parent_of]; try exact H; apply T; try reflexivity; try discriminate; now apply IHl.
    - destruct outer; try destruct Hs; cbn [parent_of]; try exact H; apply T; try reflexivity; try discriminate; now apply IHl.
  Qed.

  Lemma parse_children_true outer ns l s :
    Forall (found top outer) l -> true_state s -> true_state (parse_children cx (parent_of outer) ns l s).
  Proof.
    unfold parse_children. revert s. induction l as [|d l IH]; intros s Hf H; cbn [fold_left]; [assumption|].
    inversion Hf; subst. apply IH; [assumption|]. now apply parse_child_true.
  Qed.

  Lemma add_true f p m s :
    true_pending p -> true_state s -> true_state (snd (add_subprogram cx f (pe_children p) (m, s))).
  Proof.
    intros (t & d & Fd & Td & Cd) H. cbn [add_subprogram snd].
    change (true_state (parse_children cx (parent_of TagSubprogram) (function_namespace f) (pe_children p) s)).
    apply parse_children_true; [|exact H]. apply Forall_forall. intros c Hc. rewrite <- Td. rewrite <- Cd in Hc.
    apply (found_inside top t d c Fd); [|exact Hc]. rewrite Td. apply into_subprogram.
  Qed.

  Lemma pass_true l : forall m s b,
    Forall true_pending l -> true_state s -> true_state (snd (fst (fold_left (resolve_one cx) l (m, s, b)))).
  Proof.
    induction l as [|p l IH]; intros m s b F H; cbn [fold_left]; [exact H|]. inversion F as [|? ? Fp Fl]; subst.
    cbn [resolve_one]. destruct (map_get fu_offset (pe_specification p) m) as [g|].
    - pose proof (add_true (inherit_function g (pe_function p) (pe_abstract_origin p)) p m s Fp H) as G.
      destruct (add_subprogram cx (inherit_function g (pe_function p) (pe_abstract_origin p)) (pe_children p) (m, s))
        as [m' s']. now apply IH.
    - apply IH; [exact Fl|]. destruct H as (A & B). split; [exact A|].
      cbn [push_subprogram ws_subprograms]. apply Forall_app. split; [exact B|]. now constructor.
  Qed.

  Lemma drain_true l : forall st,
    Forall true_pending l -> true_state (snd st) ->
    true_state (snd (fold_left (fun st p => add_subprogram cx (pe_function p) (pe_children p) st) l st)).
  Proof.
    induction l as [|p l IH]; intros [m s] F H; cbn [fold_left]; [exact H|]. inversion F; subst.
    apply IH; [assumption|]. now apply add_true.
  Qed.

  Lemma resolve_true fuel : forall st m s,
    true_state (snd st) -> resolve cx fuel st = Some (m, s) -> true_state s.
  Proof.
    induction fuel as [|fuel IH]; intros [m0 s0] m s H E; cbn [resolve fst snd] in *.
    - destruct (ws_subprograms s0); [|discriminate]. now injection E as <- <-.
    - destruct (ws_subprograms s0) as [|p w] eqn:W; [now injection E as <- <-|].
      assert (H0 : true_state (set_subprograms [] s0)) by (split; [apply H|constructor]).
      assert (FW : Forall true_pending (p :: w)) by (rewrite <- W; apply H).
      pose proof (pass_true (p :: w) m0 _ false FW H0) as G.
      destruct (fold_left (resolve_one cx) (p :: w) (m0, set_subprograms [] s0, false)) as [[m1 s1] b].
      cbn [fst snd] in G. destruct b.
      + eapply IH; [|exact E]. exact G.
      + eapply IH; [|exact E]. apply drain_true; [apply G|]. split; [apply G|constructor].
  Qed.

  Lemma items_true s : parse_items cx top = Some s -> Forall true_type (ws_types s).
  Proof.
    intros E. unfold parse_items, fixup_subprograms, fixup_variables in E.
    set (s0 := parse_children cx InNamespace None top no_items) in E.
    assert (S0 : true_state (set_functions [] s0)).
    { change (true_state s0). unfold s0. change InNamespace with (parent_of TagNamespace). apply parse_children_true.
      - apply Forall_forall. intros d Hd. now apply found_top.
      - split; constructor. }
    destruct (resolve cx (S (dies_count top)) (map_insert_all fu_offset (ws_functions s0) [], set_functions [] s0))
      as [[m s1]|] eqn:R; [|discriminate].
    apply resolve_true in R; [|exact S0].
    destruct (resolve_variables _ _ _) as [vs|] in E; [|discriminate]. injection E as <-. exact (proj1 R).
  Qed.

  Lemma types_described s t :
    parse_items cx top = Some s -> In t (ws_types s) ->
    exists ns outer d, found top outer d /\ is_type_tag (die_tag d) = true /\ outer <> TagEnumeration
      /\ t_offset t = die_offset d /\ describes_type cx ns d (t_kind t).
  Proof.
    intros E I. apply items_true in E. rewrite Forall_forall in E.
    destruct (E t I) as (ns & outer & d & F & T & N & ->). exists ns, outer, d.
    destruct (entry_type_described cx ns d T) as (A & B). auto.
  Qed.
End Types.
