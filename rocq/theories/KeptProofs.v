(** Proofs about DieModel.v, fourth part: every function and type is kept once, as its own entry
    gives it. *)
From Coq Require Import List Arith NArith ZArith Bool String Lia Permutation Sorted.
From Verif Require Import Base RangeModel NamespaceModel TypeModel LocationModel DieModel DieSpec
  DieProofs FixupProofs DescribeProofs.
Import ListNotations.
Local Open Scope N_scope.

Lemma count_offset_cons d l o :
  count_occ N.eq_dec (map die_offset (d :: l)) o
  = ((if N.eq_dec (die_offset d) o then 1 else 0) + count_occ N.eq_dec (map die_offset l) o)%nat.
Proof. cbn [map count_occ]. destruct (N.eq_dec (die_offset d) o); lia. Qed.

Section Kept.
  Variable cx : context.

  Definition keyed (x : item) (o : N) : Prop := x = IFun o \/ x = ITyp o.

  Lemma item_of_once x o outer d : keyed x o ->
    (cnt x (item_of cx (outer, d)) <= if N.eq_dec (die_offset d) o then 1 else 0)%nat.
  Proof.
    intros K. destruct d as [t off a c].
    assert (V : forall l : list dw_variable, cnt x (map (fun v => IVar (vr_offset v) None) l) = 0%nat).
    { intros l. induction l as [|v l IH]; [reflexivity|]. unfold cnt in *. cbn [map count_occ].
      destruct (item_eq_dec (IVar (vr_offset v) None) x); [|exact IH]. destruct K; congruence. }
    assert (F : (cnt x [IFun off] <= if N.eq_dec off o then 1 else 0)%nat).
    { unfold cnt. cbn [count_occ]. destruct (item_eq_dec (IFun off) x), (N.eq_dec off o); try lia.
      destruct K; congruence. }
    assert (T : (cnt x [ITyp off] <= if N.eq_dec off o then 1 else 0)%nat).
    { unfold cnt. cbn [count_occ]. destruct (item_eq_dec (ITyp off) x), (N.eq_dec off o); try lia.
      destruct K; congruence. }
    assert (W : forall sp, cnt x [IVar off sp] = 0%nat).
    { intros sp. unfold cnt. cbn [count_occ]. destruct (item_eq_dec (IVar off sp) x); [|reflexivity].
      destruct K; congruence. }
    assert (Z : forall e : die, (0 <= if N.eq_dec (die_offset e) o then 1 else 0)%nat) by (intros; lia).
    cbn [item_of die_offset].
    destruct t, (parent_of outer); try exact F; try exact T; try exact (Z (Die TagOther off a c));
      try (rewrite W; lia); try (rewrite V; lia); cbn [cnt count_occ]; try lia.
    all: destruct (is_static a); [rewrite W|cbn [cnt count_occ]]; lia.
  Qed.

  Lemma inner_once x o : keyed x o -> forall d outer,
    (cnt x (flat_map (item_of cx) (inner outer d)) <= count_occ N.eq_dec (map die_offset (entries d)) o)%nat.
  Proof.
    intros K d. induction d as [t off a c IH] using die_ind'. intros outer.
    cbn [inner flat_map entries die_children]. rewrite cnt_app, count_offset_cons.
    pose proof (item_of_once x o outer (Die t off a c) K) as H1.
    enough (H2 : (cnt x (flat_map (item_of cx) (if looks outer t then flat_map (inner t) c else []))
            <= count_occ N.eq_dec (map die_offset (flat_map entries c)) o)%nat) by lia.
    destruct (looks outer t); [|cbn; lia]. clear H1.
    induction IH as [|d c Hd Hc IHc]; cbn [flat_map]; [cbn; lia|].
    rewrite flat_map_app, cnt_app, map_app, count_occ_app. specialize (Hd t). lia.
  Qed.

  Lemma items_in_once x o outer l : keyed x o ->
    (cnt x (items_in cx outer l) <= count_occ N.eq_dec (map die_offset (flat_map entries l)) o)%nat.
  Proof.
    intros K. induction l as [|d l IH]; [cbn; lia|]. rewrite items_in_cons, cnt_app. cbn [flat_map].
    rewrite map_app, count_occ_app. pose proof (inner_once x o K d outer). lia.
  Qed.

  Variable top : list die.
  Hypothesis Hdistinct : distinct_offsets top.

  Lemma distinct_once x o : keyed x o -> (cnt x (items_in cx TagNamespace top) <= 1)%nat.
  Proof.
    intros K. etransitivity; [apply (items_in_once x o _ _ K)|].
    apply (NoDup_count_occ N.eq_dec). exact Hdistinct.
  Qed.

  Lemma distinct_funs o : (cnt (IFun o) (items_in cx TagNamespace top) <= 1)%nat.
  Proof. apply distinct_once with o. now left. Qed.

  Lemma in_items x : In x (items_in cx TagNamespace top) <-> exists t d, found top t d /\ In x (item_of cx (t, d)).
  Proof.
    unfold items_in. rewrite in_flat_map. split.
    - intros ((t & d) & H1 & H2). exists t, d. rewrite found_inner. auto.
    - intros (t & d & H1 & H2). exists (t, d). rewrite found_inner in H1. auto.
  Qed.

  Lemma in_item_fun o t d : In (IFun o) (item_of cx (t, d)) <-> die_tag d = TagSubprogram /\ die_offset d = o.
  Proof.
    destruct d as [u off a c]. cbn [item_of die_tag die_offset].
    assert (V : forall l : list dw_variable, ~ In (IFun o) (map (fun v => IVar (vr_offset v) None) l)).
    { intros l H. apply in_map_iff in H. destruct H as (v & E & _). discriminate. }
    split.
    - destruct u, (parent_of t); try (now intros []); try (intros [E|[]]; congruence);
        try (intros H; now apply V in H); try (now intros [[=]|[]]);
        destruct (is_static a); intros H; cbn in H; intuition discriminate.
    - intros (-> & ->). destruct (parent_of t); now left.
  Qed.

  Lemma in_item_typ o t d : scope t ->
    In (ITyp o) (item_of cx (t, d)) <-> is_type_tag (die_tag d) = true /\ t <> TagEnumeration /\ die_offset d = o.
  Proof.
    intros Hs. destruct d as [u off a c]. cbn [item_of die_tag die_offset].
    assert (V : forall l : list dw_variable, ~ In (ITyp o) (map (fun v => IVar (vr_offset v) None) l)).
    { intros l H. apply in_map_iff in H. destruct H as (v & E & _). discriminate. }
    split.
    - intros H. destruct u, t; try destruct Hs; cbn [parent_of] in H; try (now destruct H);
        try (destruct H as [H|[]]; first [discriminate H | injection H as ->; repeat split; discriminate]);
        try (now apply V in H); destruct (is_static a); cbn in H; intuition discriminate.
    - intros (H1 & H2 & ->). destruct u; try discriminate H1; destruct t; try destruct Hs; try congruence;
        cbn [parent_of]; now left.
  Qed.

  Lemma found_scope t d : found top t d -> scope t.
  Proof. induction 1 as [d H|t d c H IH Hl Hc]; [exact I|]. apply looks_spec in Hl. eapply looks_scope, Hl. Qed.

  Lemma resolved_functions m s :
    resolve cx (S (dies_count top)) (start_map cx top, start_state cx top) = Some (m, s) ->
    forall o, In o (map fu_offset m) <->
      exists t d, found top t d /\ die_tag d = TagSubprogram /\ die_offset d = o.
  Proof.
    intros E o. destruct (fixup_items cx top distinct_funs m s (IFun o) E) as (_ & W & F & C).
    assert (Z : cnt (IFun o) (items cx s) = 0%nat).
    { unfold items. rewrite F, W. cbn [map flat_map app]. rewrite app_nil_r.
      apply (count_occ_not_In item_eq_dec). intros H. rewrite !in_app_iff, !in_map_iff in H.
      destruct H as [(? & X & _)|[(? & X & _)|(? & X & _)]]; discriminate. }
    rewrite Z, Nat.add_0_r, cnt_fun_items in C.
    rewrite (count_occ_In N.eq_dec), C. unfold cnt. rewrite <- (count_occ_In item_eq_dec), in_items.
    split; intros (t & d & H1 & H2); exists t, d; (split; [assumption|]); now apply (in_item_fun o t d).
  Qed.

  Lemma resolved_types m s :
    resolve cx (S (dies_count top)) (start_map cx top, start_state cx top) = Some (m, s) ->
    NoDup (map t_offset (ws_types s)) /\
    forall o, In o (map t_offset (ws_types s)) <->
      exists t d, found top t d /\ is_type_tag (die_tag d) = true /\ t <> TagEnumeration /\ die_offset d = o.
  Proof.
    intros E.
    assert (X : forall o, count_occ N.eq_dec (map t_offset (ws_types s)) o
              = cnt (ITyp o) (items_in cx TagNamespace top)).
    { intros o. destruct (fixup_items cx top distinct_funs m s (ITyp o) E) as (_ & W & F & C). rewrite <- C.
      unfold items. rewrite F, W, !cnt_app. cbn [map flat_map app].
      assert (Z1 : cnt (ITyp o) (fun_items m) = 0%nat).
      { apply (count_occ_not_In item_eq_dec). intros H. apply in_map_iff in H. destruct H as (? & H & _). discriminate. }
      assert (Z2 : cnt (ITyp o) (map (fun v => IVar (vr_offset v) None) (ws_variables s)) = 0%nat).
      { apply (count_occ_not_In item_eq_dec). intros H. apply in_map_iff in H. destruct H as (? & H & _). discriminate. }
      assert (Z3 : cnt (ITyp o) (map (fun p => IVar (vr_offset (snd p)) (Some (fst p))) (ws_deferred s)) = 0%nat).
      { apply (count_occ_not_In item_eq_dec). intros H. apply in_map_iff in H. destruct H as (? & H & _). discriminate. }
      rewrite Z1, Z2, Z3. change (cnt (ITyp o) []) with 0%nat. rewrite !Nat.add_0_r, !Nat.add_0_l.
      clear. induction (ws_types s) as [|t l IH]; [reflexivity|]. unfold cnt in *. cbn [map count_occ].
      destruct (N.eq_dec (t_offset t) o), (item_eq_dec (ITyp (t_offset t)) (ITyp o)); try congruence. }
    split.
    - apply (NoDup_count_occ N.eq_dec). intros o. rewrite X. apply distinct_once with o. now right.
    - intros o. rewrite (count_occ_In N.eq_dec), X. unfold cnt. rewrite <- (count_occ_In item_eq_dec), in_items.
      split.
      + intros (t & d & H1 & H2). exists t, d. split; [assumption|].
        apply in_item_typ; [now apply found_scope in H1|assumption].
      + intros (t & d & H1 & H2). exists t, d. split; [assumption|].
        apply in_item_typ; [now apply found_scope in H1|assumption].
  Qed.

  (** ** What an entry gives itself *)

  Definition own_parts (d : die) (f : dw_function) : Prop :=
    fu_offset f = die_offset d
    /\ subprogram_extent (cx_low_pc cx) (die_attrs d) = (fu_address f, fu_size f, fu_ranges f)
    /\ fu_inline f = given_inline (die_attrs d) /\ fu_declaration f = given_declaration (die_attrs d)
    /\ (given_name (die_attrs d) <> None -> fu_name f = given_name (die_attrs d))
    /\ (given_linkage_name (die_attrs d) <> None -> fu_linkage_name f = given_linkage_name (die_attrs d))
    /\ (so_file (given_source (die_attrs d)) <> None -> fu_source f = given_source (die_attrs d))
    /\ (given_type (die_attrs d) <> type_offset_none -> fu_return f = given_type (die_attrs d)).

  Definition sound_function (f : dw_function) : Prop :=
    exists t d, found top t d /\ die_tag d = TagSubprogram /\ own_parts d f.

  Definition sound_pending (p : pending) : Prop :=
    exists t d, found top t d /\ die_tag d = TagSubprogram /\ die_children d = pe_children p
      /\ own_parts d (pe_function p).

  Lemma own_function_own t o a c ns :
    own_parts (Die t o a c) (own_function (cx_low_pc cx) ns o a).
  Proof.
    unfold own_parts, own_function. cbn [die_offset die_attrs].
    destruct (subprogram_extent (cx_low_pc cx) a) as [[ad sz] rg].
    cbn [fu_offset fu_address fu_size fu_ranges fu_inline fu_declaration fu_name fu_linkage_name fu_source fu_return].
    rewrite attr_inline_given, attr_declaration_given, attr_name_given, attr_linkage_name_given,
      attr_source_given, attr_type_given. repeat split.
  Qed.

  Lemma own_with d f ps : own_parts d f -> own_parts d (with_parameters f ps).
  Proof. intros H. exact H. Qed.

  Lemma own_inherit d f g ab : own_parts d f -> own_parts d (inherit_function g f ab).
  Proof.
    intros (A & B & C & D & E & F & G & H). unfold own_parts, inherit_function.
    cbn [fu_offset fu_address fu_size fu_ranges fu_inline fu_declaration fu_name fu_linkage_name fu_source fu_return].
    repeat split; auto.
    - intros Hn. specialize (E Hn). rewrite E. destruct (given_name (die_attrs d)); [reflexivity|contradiction].
    - intros Hn. specialize (F Hn). rewrite F. destruct (given_linkage_name (die_attrs d)); [reflexivity|contradiction].
    - intros Hn. specialize (G Hn). rewrite G. unfold source_is_none.
      destruct (so_file (given_source (die_attrs d))); [reflexivity|contradiction].
    - intros Hn. specialize (H Hn). rewrite H. apply N.eqb_neq in Hn. now rewrite Hn.
  Qed.

  Definition sound_state (s : walk_state) : Prop :=
    Forall sound_function (ws_functions s) /\ Forall sound_pending (ws_subprograms s).

  Lemma parse_child_sound d : forall outer ns s,
    found top outer d -> sound_state s -> sound_state (parse_child cx (parent_of outer) ns d s).
  Proof.
    induction d as [t o a l IH] using die_ind'. intros outer ns s Hf H.
    assert (IHl : forall ns' s', looks outer t = true -> sound_state s' ->
      sound_state (fold_left (fun s c => parse_child cx (parent_of t) ns' c s) l s')).
    { intros ns' s' Hl. apply looks_spec in Hl.
      assert (Hin : Forall (found top t) l).
      { apply Forall_forall. intros c Hc. apply (found_inside top outer (Die t o a l) c Hf Hl Hc). }
      revert s'. clear Hf Hl. induction IH as [|d l Hd Hl IHl]; intros s' Hs; cbn [fold_left]; [assumption|].
      inversion Hin; subst. apply IHl; [assumption|]. now apply Hd. }
    clear IH. pose proof (found_scope _ _ Hf) as Hs.
    assert (T : forall ty s', sound_state s' -> sound_state (push_type ty s')) by (intros; assumption).
    assert (V : forall l s', sound_state s' -> sound_state (push_variables l s')) by (intros; assumption).
    assert (D : forall l s', sound_state s' -> sound_state (push_deferred l s')) by (intros; assumption).
    destruct t; cbn [parse_child]; try (destruct outer; try destruct Hs; cbn [parent_of]; exact H).
    - destruct outer; try destruct Hs; cbn [parent_of]; try exact H. now apply IHl.
    - assert (G : sound_state
         match attr_specification a with
         | Some (o0, ab) => push_subprogram (mkPending l o0 ab (own_function (cx_low_pc cx) ns o a)) s
         | None => push_function (with_parameters (own_function (cx_low_pc cx) ns o a) (parse_parameter_types l []))
            (fold_left (fun s c => parse_child cx InSubprogram (function_namespace (own_function (cx_low_pc cx) ns o a)) c s) l s)
         end).
      { destruct (attr_specification a) as [[o0 ab]|].
        - destruct H as (H1 & H2). split; [assumption|]. cbn [push_subprogram ws_subprograms].
          apply Forall_app. split; [assumption|]. constructor; [|constructor].
          exists outer, (Die TagSubprogram o a l). repeat split; auto; apply own_function_own.
        - specialize (IHl (function_namespace (own_function (cx_low_pc cx) ns o a)) s eq_refl H).
          destruct IHl as (H1 & H2). split; [|assumption]. cbn [push_function ws_functions].
          apply Forall_app. split; [assumption|]. constructor; [|constructor].
          exists outer, (Die TagSubprogram o a l). split; [assumption|]. split; [reflexivity|].
          apply own_with. apply own_function_own. }
      destruct outer; try destruct Hs; exact G.
    - destruct outer; try destruct Hs; cbn [parent_of]; try exact H.
      destruct (attr_variable_specification a); exact H.
    - destruct outer; try destruct Hs; cbn [parent_of]; try exact H; now apply IHl.
    - destruct outer; try destruct Hs; cbn [parent_of]; try exact H; now apply T, IHl.
    - destruct outer; try destruct Hs; cbn [parent_of]; try exact H; now apply T, IHl.
    - destruct outer; try destruct Hs; cbn [parent_of]; try exact H; now apply T, IHl.
    - destruct outer; try destruct Hs; cbn [parent_of]; try exact H; now apply T, IHl.
  Qed.

  Lemma parse_children_sound outer ns l s :
    Forall (found top outer) l -> sound_state s ->
    sound_state (parse_children cx (parent_of outer) ns l s).
  Proof.
    unfold parse_children. revert s. induction l as [|d l IH]; intros s Hf H; cbn [fold_left]; [assumption|].
    inversion Hf; subst. apply IH; [assumption|]. now apply parse_child_sound.
  Qed.

  Definition sound_all (m : list dw_function) (s : walk_state) (rest : list pending) : Prop :=
    Forall sound_function m /\ sound_state s /\ Forall sound_pending rest.

  Lemma add_sound p f m s rest m' s' :
    good cx m s (p :: rest) -> sound_all m s (p :: rest) -> fu_offset f = fu_offset (pe_function p) ->
    (forall d, own_parts d (pe_function p) -> own_parts d f) ->
    add_subprogram cx f (pe_children p) (m, s) = (m', s') -> sound_all m' s' rest.
  Proof.
    intros G (H1 & H2 & H3) Eo Ho A. inversion H3 as [|? ? (t & d & Fd & Td & Cd & Od) H4]; subst.
    assert (W : sound_state (parse_children cx InSubprogram (function_namespace f) (pe_children p) s)).
    { change InSubprogram with (parent_of TagSubprogram). apply parse_children_sound; [|assumption].
      apply Forall_forall. intros c Hc. rewrite <- Td. rewrite <- Cd in Hc.
      apply (found_inside top t d c Fd); [|assumption]. rewrite Td. apply into_subprogram. }
    cbn [add_subprogram] in A. injection A as A1 A2. destruct W as (W1 & W2).
    repeat split.
    - subst m'. clear A2. revert W1.
      assert (M : forall x l, sound_function x -> Forall sound_function l ->
          Forall sound_function (map_insert fu_offset x l)).
      { intros x l Hx. induction l as [|y l IH]; intros Hl; cbn [map_insert]; [now constructor|].
        inversion Hl; subst. destruct (N.compare (fu_offset x) (fu_offset y)); constructor; auto. }
      intros W1. unfold map_insert_all.
      assert (M2 : forall l n, Forall sound_function l -> Forall sound_function n ->
          Forall sound_function (fold_left (fun m x => map_insert fu_offset x m) l n)).
      { induction l as [|y l IH]; intros n Hl Hn; cbn [fold_left]; [assumption|].
        inversion Hl; subst. apply IH; auto. }
      apply M2; [exact W1|]. apply M; [|assumption].
      exists t, d. split; [assumption|]. split; [assumption|]. apply own_with. now apply Ho.
    - subst s'. constructor.
    - subst s'. exact W2.
    - assumption.
  Qed.

  Lemma sound_resolve : inv_resolve cx sound_all.
  Proof.
    intros p m s rest origin m' s' G H M A. eapply add_sound; try eassumption; [reflexivity|].
    intros d Hd. now apply own_inherit.
  Qed.
  Lemma sound_force : inv_force cx sound_all.
  Proof. intros p m s rest m' s' G H A. eapply add_sound; try eassumption; auto. Qed.
  Lemma sound_keep : inv_keep cx sound_all.
  Proof.
    intros p m s rest G (H1 & (H2 & H3) & H4). inversion H4; subst. repeat split; auto.
    cbn [push_subprogram ws_subprograms]. apply Forall_app. auto.
  Qed.
  Lemma sound_swap : inv_swap cx sound_all.
  Proof. intros m s G (H1 & (H2 & H3) & H4). repeat split; auto. Qed.

  Lemma resolved_sound m s :
    resolve cx (S (dies_count top)) (start_map cx top, start_state cx top) = Some (m, s) ->
    Forall sound_function m.
  Proof.
    intros E.
    assert (W : sound_state (walked cx top)).
    { unfold walked. change InNamespace with (parent_of TagNamespace). apply parse_children_sound.
      - apply Forall_forall. intros d Hd. now apply found_top.
      - split; constructor. }
    destruct W as (W1 & W2).
    assert (S0 : sound_all (start_map cx top) (start_state cx top) []).
    { repeat split; try constructor.
      - eapply Permutation_Forall; [|exact W1]. symmetry. apply start_perm. apply distinct_funs.
      - exact W2. }
    destruct (resolve_keeps cx sound_all _ _ _ _ _ sound_resolve sound_keep sound_swap sound_force
      (start_good cx top distinct_funs) S0 E) as (_ & _ & (R & _) & _). exact R.
  Qed.
End Kept.
