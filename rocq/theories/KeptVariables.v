(** What the entry of a variable says itself is what the variable has, also inside functions whose
    namespace is only known through a reference. *)
From Coq Require Import List Arith NArith ZArith Bool String Lia Permutation.
From Verif Require Import Base RangeModel NamespaceModel TypeModel LocationModel DieModel DieSpec MemberSpec
  DieProofs FixupProofs KeptProofs DescribeProofs VariableProofs MemberProofs KeptTypes.
Import ListNotations.
Local Open Scope N_scope.

Lemma same_entry {A B} (f : A -> B) l x y : NoDup (map f l) -> In x l -> In y l -> f x = f y -> x = y.
Proof.
  induction l as [|z l IH]; [intros _ []|]. cbn [map]. intros D Ix Iy E. inversion D as [|? ? N D']; subst.
  destruct Ix as [->|Ix], Iy as [->|Iy]; [reflexivity| | |now apply IH].
  - exfalso. apply N. rewrite E. now apply in_map.
  - exfalso. apply N. rewrite <- E. now apply in_map.
Qed.

Section Variables.
  Variables (cx : context) (top : list die).
  Hypothesis TREE : forall o s, cx_tree cx o = Some s -> In s (flat_map entries top).

  Definition own_variable (v : dw_variable) (d : die) : Prop :=
    vr_offset v = die_offset d /\ vr_source v = given_source (die_attrs d) /\
    vr_address v = given_address (die_attrs d) /\ vr_size v = given_size (die_attrs d) /\
    vr_declaration v = given_declaration (die_attrs d) /\
    (given_name (die_attrs d) <> None -> vr_name v = given_name (die_attrs d)) /\
    (given_linkage_name (die_attrs d) <> None -> vr_linkage_name v = given_linkage_name (die_attrs d)) /\
    (given_type (die_attrs d) <> type_offset_none -> vr_ty v = given_type (die_attrs d)).
  Definition true_variable (v : dw_variable) : Prop := exists d, In d (flat_map entries top) /\ own_variable v d.
  Definition named_state (s : walk_state) : Prop :=
    Forall true_variable (ws_variables s) /\ Forall true_variable (map snd (ws_deferred s)) /\ Forall (true_pending top) (ws_subprograms s).

  Lemma variable_true ns o a t l : In (Die t o a l) (flat_map entries top) -> true_variable (parse_variable ns o a).
  Proof.
    intros I. exists (Die t o a l). split; [exact I|]. rewrite parse_variable_fields. repeat split.
  Qed.
  Lemma entries_inside d : forall x y, In x (entries d) -> In y (die_children x) -> In y (entries d).
  Proof.
    induction d as [t o a l IH] using die_ind'. intros x y I J. cbn [entries] in *. destruct I as [<-|I].
    - right. apply in_flat_map. exists y. split; [exact J|]. destruct y. now left.
    - right. apply in_flat_map in I. destruct I as (z & Iz & I). apply in_flat_map. exists z. split; [exact Iz|].
      rewrite Forall_forall in IH. now apply (IH z Iz x).
  Qed.
  Lemma child_in d c : In d (flat_map entries top) -> In c (die_children d) -> In c (flat_map entries top).
  Proof.
    intros I J. apply in_flat_map in I. destruct I as (x & Ix & I). apply in_flat_map. exists x. split; [exact Ix|].
    now apply (entries_inside x d).
  Qed.
  Lemma found_entry outer d : found top outer d -> In d (flat_map entries top).
  Proof.
    induction 1 as [d I|outer d c _ IH _ I].
    - apply in_flat_map. exists d. split; [exact I|]. destruct d. now left.
    - now apply (child_in d).
  Qed.
  Lemma statics_true ns l : (forall d, In d l -> In d (flat_map entries top)) -> Forall true_variable (statics_of ns l).
  Proof.
    intros H. apply Forall_forall. intros v I. unfold statics_of in I. apply in_flat_map in I. destruct I as (d & Id & I).
    specialize (H d Id). destruct d as [t o a c]. destruct t; try destruct I. destruct (is_static a); [|destruct I].
    destruct I as [<-|[]]. now apply (variable_true ns o a TagMember c).
  Qed.
  Lemma part_statics_true ns d : In d (flat_map entries top) -> Forall true_variable (variant_part_statics cx ns (die_children d)).
  Proof.
    intros H. apply Forall_forall. intros v I. unfold variant_part_statics in I. apply in_flat_map in I. destruct I as (c & Ic & I).
    pose proof (child_in d c H Ic) as Jc. assert (G : In v (statics_of ns [c]) -> true_variable v).
    { intros J. pose proof (statics_true ns [c]) as F. rewrite Forall_forall in F. apply F; [|exact J]. intros e [<-|[]]. exact Jc. }
    destruct c as [t o a l]. destruct t; try (exact (G I)). unfold variant_statics in I. apply in_app_iff in I. destruct I as [I|I].
    - pose proof (statics_true ns l) as F. rewrite Forall_forall in F. apply F; [|exact I]. intros e Ie. exact (child_in (Die TagVariant o a l) e Jc Ie).
    - unfold variant_structure in I. destruct (cx_rust cx); [|destruct I]. destruct (members_of cx l) as [|m [|? ?]]; try destruct I.
      destruct (m_ty m =? type_offset_none); [destruct I|]. destruct (cx_tree cx (m_ty m)) as [s|] eqn:E; [|destruct I].
      apply TREE in E. destruct s as [t' o' a' c']. destruct t'; try destruct I. cbn [die_children] in I.
      pose proof (statics_true ns c') as F. rewrite Forall_forall in F. apply F; [|exact I]. intros e Ie. exact (child_in _ e E Ie).
  Qed.
  Lemma push_named l s : Forall true_variable l -> named_state s -> named_state (push_variables l s).
  Proof. intros F (A & B & C). split; [|split; [exact B|exact C]]. cbn [push_variables ws_variables]. now apply Forall_app. Qed.

  Lemma parse_child_named d : forall outer ns s,
    found top outer d -> named_state s -> named_state (parse_child cx (parent_of outer) ns d s).
  Proof.
    induction d as [t o a l IH] using die_ind'. intros outer ns s Hf H.
    assert (IHl : forall ns' s', looks outer t = true -> named_state s' ->
      named_state (fold_left (fun s c => parse_child cx (parent_of t) ns' c s) l s')).
    { intros ns' s' Hl. apply looks_spec in Hl.
      assert (Hin : Forall (found top t) l).
      { apply Forall_forall. intros c Hc. apply (found_inside top outer (Die t o a l) c Hf Hl Hc). }
      revert s'. clear Hf Hl. induction IH as [|d l Hd Hl IHl]; intros s' Hs; cbn [fold_left]; [assumption|].
      inversion Hin; subst. apply IHl; [assumption|]. now apply Hd. }
    clear IH. pose proof (found_scope top _ _ Hf) as Hs. pose proof (found_entry _ _ Hf) as He.
    assert (T : forall x s', named_state s' -> named_state (push_type x s')) by (intros x s' G; exact G).
    assert (M : t = TagMember -> forall s', named_state s' -> named_state (push_variables (statics_of ns [Die t o a l]) s')).
    { intros _ s' G. apply push_named; [|exact G]. apply statics_true. intros e [<-|[]]. exact He. }
    assert (P : forall s', named_state s' -> named_state (push_variables (variant_part_statics cx ns l) s')).
    { intros s' G. apply push_named; [|exact G]. exact (part_statics_true ns (Die t o a l) He). }
    destruct t; cbn [parse_child]; try (destruct outer; try destruct Hs; cbn [parent_of]; try exact H; first [now apply T|now apply M|now apply P]).
    - destruct outer; try destruct Hs; cbn [parent_of]; try exact H. now apply IHl.
    - assert (G : named_state
         match attr_specification a with
         | Some (o0, ab) => push_subprogram (mkPending l o0 ab (own_function (cx_low_pc cx) ns o a)) s
         | None => push_function (with_parameters (own_function (cx_low_pc cx) ns o a) (parse_parameter_types l []))
            (fold_left (fun s c => parse_child cx InSubprogram (function_namespace (own_function (cx_low_pc cx) ns o a)) c s) l s)
         end).
      { destruct (attr_specification a) as [[o0 ab]|].
        - destruct H as (H1 & H2 & H3). split; [assumption|]. split; [assumption|]. cbn [push_subprogram ws_subprograms].
          apply Forall_app. split; [assumption|]. constructor; [|constructor].
          exists outer, (Die TagSubprogram o a l). repeat split; auto.
        - exact (IHl (function_namespace (own_function (cx_low_pc cx) ns o a)) s eq_refl H). }
      destruct outer; try destruct Hs; exact G.
    - destruct outer; try destruct Hs; cbn [parent_of]; try exact H.
      destruct (attr_variable_specification a).
      + destruct H as (A & B & C). split; [exact A|]. split; [|exact C]. cbn [push_deferred ws_deferred]. rewrite map_app. apply Forall_app.
        split; [exact B|]. constructor; [|constructor]. exact (variable_true ns o a _ _ He).
      + apply push_named; [|exact H]. constructor; [|constructor]. exact (variable_true ns o a _ _ He).
    - destruct outer; try destruct Hs; cbn [parent_of]; try exact H; now apply IHl.
    - destruct outer; try destruct Hs; cbn [parent_of]; try exact H; apply T; now apply IHl.
    - destruct outer; try destruct Hs; cbn [parent_of]; try exact H; apply T; now apply IHl.
    - destruct outer; try destruct Hs; cbn [parent_of]; try exact H; apply T; now apply IHl.
    - destruct outer; try destruct Hs; cbn [parent_of]; try exact H; apply T; now apply IHl.
  Qed.
  Lemma parse_children_named outer ns l s :
    Forall (found top outer) l -> named_state s -> named_state (parse_children cx (parent_of outer) ns l s).
  Proof.
    unfold parse_children. revert s. induction l as [|d l IH]; intros s Hf H; cbn [fold_left]; [assumption|].
    inversion Hf; subst. apply IH; [assumption|]. now apply parse_child_named.
  Qed.

  Lemma add_named f p m s :
    true_pending top p -> named_state s -> named_state (snd (add_subprogram cx f (pe_children p) (m, s))).
  Proof.
    intros (t & d & Fd & Td & Cd) H. cbn [add_subprogram snd].
    change (named_state (parse_children cx (parent_of TagSubprogram) (function_namespace f) (pe_children p) s)).
    apply parse_children_named; [|exact H]. apply Forall_forall. intros c Hc. rewrite <- Td. rewrite <- Cd in Hc.
    apply (found_inside top t d c Fd); [|exact Hc]. rewrite Td. apply into_subprogram.
  Qed.

  Lemma pass_named l : forall m s b,
    Forall (true_pending top) l -> named_state s -> named_state (snd (fst (fold_left (resolve_one cx) l (m, s, b)))).
  Proof.
    induction l as [|p l IH]; intros m s b F H; cbn [fold_left]; [exact H|]. inversion F as [|? ? Fp Fl]; subst.
    cbn [resolve_one]. destruct (map_get fu_offset (pe_specification p) m) as [g|].
    - pose proof (add_named (inherit_function g (pe_function p) (pe_abstract_origin p)) p m s Fp H) as G.
      destruct (add_subprogram cx (inherit_function g (pe_function p) (pe_abstract_origin p)) (pe_children p) (m, s))
        as [m' s']. now apply IH.
    - apply IH; [exact Fl|]. destruct H as (A & B & C). split; [exact A|]. split; [exact B|].
      cbn [push_subprogram ws_subprograms]. apply Forall_app. split; [exact C|]. now constructor.
  Qed.

  Lemma drain_named l : forall st,
    Forall (true_pending top) l -> named_state (snd st) ->
    named_state (snd (fold_left (fun st p => add_subprogram cx (pe_function p) (pe_children p) st) l st)).
  Proof.
    induction l as [|p l IH]; intros [m s] F H; cbn [fold_left]; [exact H|]. inversion F; subst.
    apply IH; [assumption|]. now apply add_named.
  Qed.

  Lemma resolve_named fuel : forall st m s,
    named_state (snd st) -> resolve cx fuel st = Some (m, s) -> named_state s.
  Proof.
    induction fuel as [|fuel IH]; intros [m0 s0] m s H E; cbn [resolve fst snd] in *.
    - destruct (ws_subprograms s0); [|discriminate]. now injection E as <- <-.
    - destruct (ws_subprograms s0) as [|p w] eqn:W; [now injection E as <- <-|].
      assert (H0 : named_state (set_subprograms [] s0)) by (split; [apply H|split; [apply H|constructor]]).
      assert (FW : Forall (true_pending top) (p :: w)) by (rewrite <- W; apply H).
      pose proof (pass_named (p :: w) m0 _ false FW H0) as G.
      destruct (fold_left (resolve_one cx) (p :: w) (m0, set_subprograms [] s0, false)) as [[m1 s1] b].
      cbn [fst snd] in G. destruct b.
      + eapply IH; [|exact E]. exact G.
      + eapply IH; [|exact E]. apply drain_named; [apply G|]. split; [apply G|split; [apply G|constructor]].
  Qed.

  Lemma inherit_true origin v : true_variable v -> true_variable (inherit_variable origin v).
  Proof.
    intros (d & I & O & A & B & C & D & N & L & T). exists d. split; [exact I|].
    unfold own_variable, inherit_variable. cbn [vr_offset vr_source vr_address vr_size vr_declaration vr_name vr_linkage_name vr_ty].
    do 5 (split; [assumption|]). repeat split; intros NE.
    - rewrite (N NE). now destruct (given_name (die_attrs d)).
    - rewrite (L NE). now destruct (given_linkage_name (die_attrs d)).
    - rewrite (T NE). now destruct (N.eqb_spec (given_type (die_attrs d)) type_offset_none).
  Qed.
  Lemma insert_true v l : true_variable v -> Forall true_variable l -> Forall true_variable (map_insert vr_offset v l).
  Proof.
    intros T F. induction F as [|x l Hx F IH]; cbn [map_insert]; [now constructor|]. destruct (N.compare _ _); repeat constructor; auto.
  Qed.
  Lemma insert_all_true l : forall m, Forall true_variable l -> Forall true_variable m -> Forall true_variable (map_insert_all vr_offset l m).
  Proof.
    unfold map_insert_all. induction l as [|x l IH]; intros m F G; cbn [fold_left]; [exact G|]. inversion F; subst. apply IH; [assumption|]. now apply insert_true.
  Qed.
  Lemma variables_pass l : forall m defer p, Forall true_variable m -> Forall true_variable (map snd l) -> Forall true_variable (map snd defer) ->
    let '(m', defer', p') := fold_left resolve_variable l (m, defer, p) in Forall true_variable m' /\ Forall true_variable (map snd defer').
  Proof.
    induction l as [|x l IH]; intros m defer p A B C; cbn [fold_left]; [now split|]. inversion B as [|? ? Hx Hl]; subst.
    cbn [resolve_variable]. destruct (map_get vr_offset (fst x) m).
    - apply IH; auto. apply insert_true; [now apply inherit_true|exact A].
    - apply IH; auto. rewrite map_app. apply Forall_app. split; [exact C|]. now constructor.
  Qed.
  Lemma resolve_variables_true fuel : forall m l vs, Forall true_variable m -> Forall true_variable (map snd l) ->
    resolve_variables fuel m l = Some vs -> Forall true_variable vs.
  Proof.
    induction fuel as [|fuel IH]; intros m l vs A B E; cbn [resolve_variables] in E; [discriminate|].
    pose proof (variables_pass l m [] false A B (Forall_nil _)) as P.
    destruct (fold_left resolve_variable l (m, [], false)) as ((m' & defer) & p). destruct P as (P1 & P2).
    destruct defer as [|x defer]; [now injection E as <-|]. destruct p; [|now injection E as <-]. exact (IH _ _ _ P1 P2 E).
  Qed.

  Lemma items_named s : parse_items cx top = Some s -> Forall true_variable (ws_variables s).
  Proof.
    intros E. unfold parse_items, fixup_subprograms, fixup_variables in E.
    set (s0 := parse_children cx InNamespace None top no_items) in E.
    assert (S0 : named_state (set_functions [] s0)).
    { change (named_state s0). unfold s0. change InNamespace with (parent_of TagNamespace). apply parse_children_named.
      - apply Forall_forall. intros d Hd. now apply found_top.
      - repeat split; constructor. }
    destruct (resolve cx (S (dies_count top)) (map_insert_all fu_offset (ws_functions s0) [], set_functions [] s0))
      as [[m s1]|] eqn:R; [|discriminate].
    apply resolve_named in R; [|exact S0]. destruct R as (R1 & R2 & _).
    destruct (resolve_variables _ _ _) as [vs|] eqn:V in E; [|discriminate]. injection E as <-. cbn [ws_variables].
    cbn [set_functions ws_variables ws_deferred] in V.
    exact (resolve_variables_true _ _ _ _ (insert_all_true _ _ R1 (Forall_nil _)) R2 V).
  Qed.

  Lemma has_variable_entry d : has_variable cx top d -> In d (flat_map entries top).
  Proof.
    assert (V : forall d s, variable_entry cx top d s -> In d (flat_map entries top)).
    { intros ? ? H. induction H; eauto using found_entry, child_in. }
    destruct 1; eauto.
  Qed.
End Variables.
