(** Proofs about DieModel.v, first part: attributes, maps, and which items the walk finds. *)
From Coq Require Import List Arith NArith ZArith Bool String Lia Permutation Sorted.
From Verif Require Import Base RangeModel NamespaceModel TypeModel LocationModel DieModel DieSpec.
Import ListNotations.
Local Open Scope N_scope.

(** ** Attributes *)

Lemma last_cons {A} (x d : A) l : last (x :: l) d = last l x.
Proof.
  revert x d. induction l as [|y l IH]; intros x d; [reflexivity|].
  change (last (x :: y :: l) d) with (last (y :: l) d).
  now rewrite !IH.
Qed.

Lemma given_cons {A} (pick : attr -> option A) a l x :
  given pick (a :: l) x = given pick l match pick a with Some v => v | None => x end.
Proof.
  unfold given. cbn [flat_map]. destruct (pick a); cbn [app]; [|reflexivity]. apply last_cons.
Qed.

Lemma scan_given {A} (f : attr -> A -> A) (pick : attr -> option A) l x :
  (forall a y, f a y = match pick a with Some v => v | None => y end) ->
  scan f l x = given pick l x.
Proof.
  intros H. revert x. induction l as [|a l IH]; intros x; [reflexivity|].
  rewrite given_cons. unfold scan. cbn [fold_left]. rewrite H. apply IH.
Qed.

Lemma attr_name_given l : attr_name l = given_name l.
Proof. apply scan_given. now intros []. Qed.
Lemma attr_linkage_name_given l : attr_linkage_name l = given_linkage_name l.
Proof. apply scan_given. now intros []. Qed.
Lemma attr_type_given l : attr_type l = given_type l.
Proof. apply scan_given. intros [] y; try reflexivity; now destruct v. Qed.
Lemma attr_specification_given l : attr_specification l = given_specification l.
Proof. apply scan_given. intros [] y; try reflexivity; now destruct v. Qed.
Lemma attr_abstract_origin_given l : attr_abstract_origin l = given_origin l.
Proof. apply scan_given. intros [] y; try reflexivity; now destruct v. Qed.
Lemma attr_variable_specification_given l :
  attr_variable_specification l = given_variable_specification l.
Proof. apply scan_given. intros [] y; try reflexivity; now destruct v. Qed.
Lemma attr_declaration_given l : attr_declaration l = given_declaration l.
Proof. apply scan_given. intros [] y; try reflexivity; now destruct v. Qed.
Lemma attr_inline_given l : attr_inline l = given_inline l.
Proof. apply scan_given. intros [] y; try reflexivity; now destruct v. Qed.
Lemma attr_ranges_given l : attr_ranges l = given_ranges l.
Proof. apply scan_given. now intros []. Qed.
Lemma attr_high_pc_given l : attr_high_pc l = given_high_pc l.
Proof. apply scan_given. now intros []. Qed.
Lemma attr_size_given l : attr_size l = given_length l.
Proof. apply scan_given. intros [] y; try reflexivity; now destruct (v =? 0). Qed.

Lemma attr_low_pc_given low l :
  attr_low_pc low l = opt64_from (given_low_pc low l).
Proof.
  unfold attr_low_pc, given_low_pc.
  change opt64_none with (opt64_from (@None N)).
  generalize (@None N) as x. induction l as [|a l IH]; intros x; [reflexivity|].
  rewrite given_cons, <- IH. unfold scan. cbn [fold_left]. f_equal.
  destruct a; try reflexivity. destruct v as [n|]; [|reflexivity].
  destruct (N.eqb_spec n 0) as [->|H]; cbn [negb orb]; [|reflexivity].
  now destruct low as [[]|].
Qed.

Lemma is_static_declared l : is_static l = declared_only l.
Proof.
  unfold is_static, declared_only.
  assert (H : forall x, scan (fun a x => match a with ADeclaration _ => true | _ => x end) l x
                        = x || existsb (fun a => match a with ADeclaration _ => true | _ => false end) l).
  { induction l as [|a l IH]; intros x; [now rewrite orb_false_r|].
    unfold scan in *. cbn [fold_left existsb]. rewrite IH.
    destruct a; try reflexivity. now rewrite orb_true_r. }
  apply H.
Qed.

Lemma attr_source_given l : attr_source l = given_source l.
Proof.
  unfold attr_source, given_source, given_position.
  match goal with
  | |- scan ?F l no_source = mkSource (given ?p1 l _) (given ?p2 l _) (given ?p3 l _) (given ?p4 l _) =>
      enough (H : forall a b c e, scan F l (mkSource a b c e)
                  = mkSource (given p1 l a) (given p2 l b) (given p3 l c) (given p4 l e)) by apply H
  end.
  induction l as [|x l IH]; intros a b c e; [reflexivity|].
  rewrite !given_cons. unfold scan in *. cbn [fold_left].
  assert (P : forall v y, position v y
     = match match v with
             | Some n => if (0 <? n) && (n <? 4294967296) then Some n else None
             | None => None
             end with Some v0 => v0 | None => y end).
  { intros [n|] y; [|reflexivity]. unfold position.
    destruct (N.eqb_spec n 0), (N.leb_spec n 4294967295), (N.ltb_spec 0 n), (N.ltb_spec n 4294967296);
      cbn [negb andb]; try reflexivity; lia. }
  destruct x; try apply IH.
  - destruct v as [[file [dir|]]|]; cbn [so_line so_column so_directory]; apply IH.
  - cbn [so_line so_column so_directory so_file]. rewrite IH, <- P. reflexivity.
  - cbn [so_line so_column so_directory so_file]. rewrite IH, <- P. reflexivity.
Qed.

(** ** Maps *)

Section Map.
  Context {A : Type}.
  Variable key : A -> N.

  Definition ordered (m : list A) : Prop := StronglySorted (fun x y => key x < key y) m.

  Lemma map_insert_key x m k :
    In k (map key (map_insert key x m)) <-> k = key x \/ In k (map key m).
  Proof.
    induction m as [|y m IH]; cbn [map_insert map In]; [intuition|].
    destruct (N.compare_spec (key x) (key y)) as [E|E|E]; cbn [map In].
    - rewrite <- E. intuition.
    - intuition.
    - rewrite IH. intuition.
  Qed.

  Lemma map_insert_ordered x m : ordered m -> ordered (map_insert key x m).
  Proof.
    unfold ordered. induction m as [|y m IH]; intros H; cbn [map_insert].
    - repeat constructor.
    - inversion H as [|? ? H1 H2]; subst.
      destruct (N.compare_spec (key x) (key y)) as [E|E|E].
      + constructor; [assumption|]. eapply Forall_impl; [|exact H2]. cbn. intros; lia.
      + constructor; [assumption|]. constructor; [assumption|].
        eapply Forall_impl; [|exact H2]. cbn. intros; lia.
      + constructor; [auto|]. rewrite Forall_forall in *. intros z Hz.
        assert (Hk : In (key z) (map key (map_insert key x m))) by now apply in_map.
        apply map_insert_key in Hk. destruct Hk as [->|Hk]; [assumption|].
        apply in_map_iff in Hk. destruct Hk as (w & E2 & Hw). rewrite <- E2. now apply H2.
  Qed.

  Lemma map_insert_perm x m :
    ~ In (key x) (map key m) -> Permutation (map_insert key x m) (x :: m).
  Proof.
    induction m as [|y m IH]; intros H; cbn [map_insert]; [reflexivity|].
    cbn [map In] in H.
    destruct (N.compare_spec (key x) (key y)) as [E|E|E].
    - exfalso. apply H. now left.
    - reflexivity.
    - rewrite IH by tauto. apply perm_swap.
  Qed.

  Lemma map_insert_all_key l m k :
    In k (map key (map_insert_all key l m)) <-> In k (map key l) \/ In k (map key m).
  Proof.
    unfold map_insert_all. revert m. induction l as [|x l IH]; intros m; cbn [fold_left map In]; [tauto|].
    rewrite IH, map_insert_key. intuition.
  Qed.

  Lemma map_insert_all_ordered l m : ordered m -> ordered (map_insert_all key l m).
  Proof.
    unfold map_insert_all. revert m. induction l as [|x l IH]; intros m H; cbn [fold_left]; [assumption|].
    apply IH. now apply map_insert_ordered.
  Qed.

  Lemma map_insert_all_perm l m :
    NoDup (map key (l ++ m)) -> Permutation (map_insert_all key l m) (l ++ m).
  Proof.
    unfold map_insert_all. revert m. induction l as [|x l IH]; intros m H; cbn [fold_left app]; [reflexivity|].
    cbn [app map] in H. inversion H as [|? ? H1 H2]; subst.
    assert (P : Permutation (map_insert key x m) (x :: m)).
    { apply map_insert_perm. intros Hin. apply H1. rewrite map_app. apply in_or_app. now right. }
    rewrite IH.
    - rewrite P. symmetry. apply Permutation_middle.
    - rewrite P. rewrite <- Permutation_middle. exact H.
  Qed.

  Lemma ordered_unique m x y : ordered m -> In x m -> In y m -> key x = key y -> x = y.
  Proof.
    unfold ordered. induction 1 as [|z m H IH Hf]; intros Hx Hy E; [destruct Hx|].
    rewrite Forall_forall in Hf. destruct Hx as [->|Hx], Hy as [->|Hy]; auto.
    - specialize (Hf _ Hy). lia.
    - specialize (Hf _ Hx). lia.
  Qed.

  Lemma map_get_some k m x : map_get key k m = Some x -> In x m /\ key x = k.
  Proof.
    intros H. apply find_some in H. destruct H as [H E]. split; [assumption|]. now apply N.eqb_eq.
  Qed.

  Lemma map_get_none k m x : map_get key k m = None -> In x m -> key x <> k.
  Proof.
    intros H Hx E. pose proof (find_none _ _ H _ Hx) as Hn. cbn in Hn. apply N.eqb_neq in Hn. tauto.
  Qed.

  Lemma ordered_keys m : ordered m -> StronglySorted N.lt (map key m).
  Proof.
    induction 1 as [|x m H IH Hf]; cbn [map]; constructor; [assumption|].
    rewrite Forall_map. exact Hf.
  Qed.

  Lemma ordered_nodup m : ordered m -> NoDup (map key m).
  Proof.
    induction 1 as [|x m H IH Hf]; cbn [map]; constructor; [|assumption].
    rewrite Forall_forall in Hf. intros Hin. apply in_map_iff in Hin.
    destruct Hin as (y & E & Hy). specialize (Hf _ Hy). lia.
  Qed.
End Map.

(** ** Induction on entries *)

Lemma die_ind' (P : die -> Prop) :
  (forall t o a c, Forall P c -> P (Die t o a c)) -> forall d, P d.
Proof.
  intros H. fix IH 1. intros [t o a c]. apply H.
  induction c as [|x c IHc]; constructor; [apply IH|exact IHc].
Qed.

(** ** The entries that count, as a list *)

Definition parent_of (t : tag) : parent :=
  match t with
  | TagSubprogram => InSubprogram
  | TagLexicalBlock => InBlock
  | TagStructure | TagClass => InStructure
  | TagUnion => InUnion
  | TagEnumeration => InEnumeration
  | _ => InNamespace
  end.

Definition scope (t : tag) : Prop :=
  match t with
  | TagNamespace | TagSubprogram | TagLexicalBlock | TagStructure | TagClass | TagUnion
  | TagEnumeration => True
  | _ => False
  end.

Definition looks (outer t : tag) : bool :=
  match t with
  | TagNamespace => match outer with TagNamespace => true | _ => false end
  | TagSubprogram => true
  | TagLexicalBlock => match outer with TagSubprogram | TagLexicalBlock => true | _ => false end
  | TagStructure | TagClass | TagUnion | TagEnumeration =>
      match outer with TagEnumeration => false | _ => true end
  | _ => false
  end.

Lemma looks_spec outer t : looks outer t = true <-> looks_into outer t.
Proof.
  split.
  - destruct t; cbn [looks]; try discriminate; destruct outer; try discriminate; intros _;
      constructor; auto; discriminate.
  - intros []; cbn [looks]; subst; try reflexivity.
    + destruct H; subst; reflexivity.
    + destruct outer; try reflexivity; congruence.
    + destruct outer; try reflexivity; congruence.
    + destruct outer; try reflexivity; congruence.
    + destruct outer; try reflexivity; congruence.
Qed.

Lemma looks_scope outer t : looks outer t = true -> scope t.
Proof. destruct t; cbn; try discriminate; auto. Qed.

Fixpoint inner (outer : tag) (d : die) : list (tag * die) :=
  match d with
  | Die t o a c =>
      (outer, d) :: if looks outer t then flat_map (inner t) c else []
  end.

Lemma found_inner top t d : found top t d <-> In (t, d) (flat_map (inner TagNamespace) top).
Proof.
  split.
  - assert (C : forall e outer u d c, In (u, d) (inner outer e) -> looks u (die_tag d) = true ->
               In c (die_children d) -> In (die_tag d, c) (inner outer e)).
    { intros e. induction e as [t0 o a l IH] using die_ind'.
      intros outer u d' c H Hl Hc. cbn [inner In] in H. destruct H as [E|H].
      - inversion E; subst. cbn [die_tag die_children] in *. cbn [inner]. rewrite Hl.
        right. apply in_flat_map. exists c. split; [assumption|].
        destruct c. now left.
      - cbn [inner]. right. destruct (looks outer t0); [|destruct H].
        apply in_flat_map in H. destruct H as (x & Hx & H). apply in_flat_map. exists x.
        split; [assumption|]. rewrite Forall_forall in IH. now apply IH with u. }
    induction 1 as [d H|t d c H IH Hl Hc].
    + apply in_flat_map. exists d. split; [assumption|]. destruct d. now left.
    + apply in_flat_map in IH. destruct IH as (e & He & IH). apply in_flat_map.
      exists e. split; [assumption|]. apply C with t; auto. now apply looks_spec.
  - intros H. apply in_flat_map in H. destruct H as (e & He & H).
    assert (C : forall e outer, found top outer e -> forall u d, In (u, d) (inner outer e) -> found top u d).
    { intros e'. induction e' as [t0 o a l IH] using die_ind'. intros outer F u d' Hin.
      cbn [inner In] in Hin. destruct Hin as [E|Hin]; [now inversion E; subst|].
      destruct (looks outer t0) eqn:El; [|destruct Hin].
      apply in_flat_map in Hin. destruct Hin as (x & Hx & Hin). rewrite Forall_forall in IH.
      apply (IH x Hx t0); [|assumption].
      apply (found_inside top outer (Die t0 o a l) x F); [now apply looks_spec|assumption]. }
    apply (C e TagNamespace); [|assumption]. now apply found_top.
Qed.

Lemma inner_entries d : forall outer x, In x (inner outer d) -> In (snd x) (entries d).
Proof.
  induction d as [t o a l IH] using die_ind'. intros outer x H. cbn [inner In entries die_children] in *.
  destruct H as [<-|H]; [now left|]. right. destruct (looks outer t); [|destruct H].
  apply in_flat_map in H. destruct H as (y & Hy & H). apply in_flat_map. exists y.
  split; [assumption|]. rewrite Forall_forall in IH. now apply (IH y Hy t).
Qed.

(** ** What the walk collects *)

Inductive item := IFun (o : N) | ITyp (o : N) | IVar (o : N) (spec : option N).

Lemma item_eq_dec : forall x y : item, {x = y} + {x <> y}.
Proof. decide equality; try apply N.eq_dec. decide equality. apply N.eq_dec. Qed.

Definition cnt (x : item) (l : list item) : nat := count_occ item_eq_dec l x.

Lemma cnt_app x l m : cnt x (l ++ m) = (cnt x l + cnt x m)%nat.
Proof. apply count_occ_app. Qed.

Definition item_of (cx : context) (x : tag * die) : list item :=
  match x with
  | (outer, Die t o a c) =>
      match t, parent_of outer with
      | TagSubprogram, _ => [IFun o]
      | _, InEnumeration => []
      | TagVariable, InNamespace => [IVar o (attr_variable_specification a)]
      | TagMember, (InStructure | InUnion) => if is_static a then [IVar o None] else []
      | TagVariantPart, InStructure =>
          map (fun v => IVar (vr_offset v) None) (variant_part_statics cx None c)
      | (TagBase | TagTypedef | TagStructure | TagClass | TagUnion | TagEnumeration | TagUnspecified), _ =>
          [ITyp o]
      | _, _ => []
      end
  end.

Definition items_in (cx : context) (outer : tag) (l : list die) : list item :=
  flat_map (item_of cx) (flat_map (inner outer) l).

Definition pending_items (cx : context) (p : pending) : list item :=
  IFun (fu_offset (pe_function p)) :: items_in cx TagSubprogram (pe_children p).

Definition items (cx : context) (s : walk_state) : list item :=
  map (fun f => IFun (fu_offset f)) (ws_functions s)
  ++ map (fun t => ITyp (t_offset t)) (ws_types s)
  ++ map (fun v => IVar (vr_offset v) None) (ws_variables s)
  ++ map (fun p => IVar (vr_offset (snd p)) (Some (fst p))) (ws_deferred s)
  ++ flat_map (pending_items cx) (ws_subprograms s).

Lemma own_function_offset low ns o a : fu_offset (own_function low ns o a) = o.
Proof. unfold own_function. now destruct (subprogram_extent low a) as [[? ?] ?]. Qed.

Lemma statics_offsets ns l :
  map (fun v => IVar (vr_offset v) None) (statics_of ns l)
  = map (fun v => IVar (vr_offset v) None) (statics_of None l).
Proof.
  unfold statics_of. induction l as [|[t o a c] l IH]; [reflexivity|].
  cbn [flat_map]. rewrite !map_app, IH. f_equal.
  destruct t; try reflexivity. now destruct (is_static a).
Qed.

Lemma variant_part_statics_offsets cx ns l :
  map (fun v => IVar (vr_offset v) None) (variant_part_statics cx ns l)
  = map (fun v => IVar (vr_offset v) None) (variant_part_statics cx None l).
Proof.
  unfold variant_part_statics. induction l as [|[t o a c] l IH]; [reflexivity|].
  cbn [flat_map]. rewrite !map_app, IH. f_equal.
  destruct t; try apply statics_offsets.
  unfold variant_statics. rewrite !map_app, (statics_offsets ns).
  f_equal. destruct (variant_structure cx (members_of cx c)); [apply statics_offsets|reflexivity].
Qed.

Section Collect.
  Variable cx : context.

  Local Ltac unfold_items :=
    unfold items, push_type, push_function, push_variables, push_subprogram, push_deferred;
    cbn [ws_functions ws_types ws_variables ws_deferred ws_subprograms].

  Lemma cnt_push_type x t s :
    cnt x (items cx (push_type t s)) = (cnt x (items cx s) + cnt x [ITyp (t_offset t)])%nat.
  Proof. unfold_items. rewrite map_app, !cnt_app. cbn [map]. lia. Qed.
  Lemma cnt_push_function x f s :
    cnt x (items cx (push_function f s)) = (cnt x (items cx s) + cnt x [IFun (fu_offset f)])%nat.
  Proof. unfold_items. rewrite map_app, !cnt_app. cbn [map]. lia. Qed.
  Lemma cnt_push_variables x l s :
    cnt x (items cx (push_variables l s))
    = (cnt x (items cx s) + cnt x (map (fun v => IVar (vr_offset v) None) l))%nat.
  Proof. unfold_items. rewrite map_app, !cnt_app. lia. Qed.
  Lemma cnt_push_subprogram x p s :
    cnt x (items cx (push_subprogram p s)) = (cnt x (items cx s) + cnt x (pending_items cx p))%nat.
  Proof. unfold_items. rewrite flat_map_app, !cnt_app. cbn [flat_map]. rewrite app_nil_r. lia. Qed.
  Lemma cnt_push_deferred x p s :
    cnt x (items cx (push_deferred p s))
    = (cnt x (items cx s) + cnt x [IVar (vr_offset (snd p)) (Some (fst p))])%nat.
  Proof. unfold_items. rewrite map_app, !cnt_app. cbn [map]. lia. Qed.

  Lemma items_in_cons outer d l :
    items_in cx outer (d :: l) = flat_map (item_of cx) (inner outer d) ++ items_in cx outer l.
  Proof. unfold items_in. cbn [flat_map]. now rewrite flat_map_app. Qed.

  (** The walk puts each item into the state exactly once. *)
  Lemma parse_child_items d : forall outer ns s x, scope outer ->
    cnt x (items cx (parse_child cx (parent_of outer) ns d s))
    = (cnt x (items cx s) + cnt x (flat_map (item_of cx) (inner outer d)))%nat.
  Proof.
    induction d as [t o a l IH] using die_ind'. intros outer ns s x Hs.
    assert (IHl : forall u ns s, scope u ->
      cnt x (items cx (fold_left (fun s c => parse_child cx (parent_of u) ns c s) l s))
      = (cnt x (items cx s) + cnt x (items_in cx u l))%nat).
    { intros u ns' s' Hu. revert s'. induction IH as [|d l Hd Hl IHl]; intros s'.
      - cbn. lia.
      - cbn [fold_left]. rewrite IHl, Hd, items_in_cons, cnt_app by assumption. lia. }
    clear IH.
    assert (Hcons : forall z, cnt x (item_of cx (outer, Die t o a l) ++ z)
       = (cnt x (item_of cx (outer, Die t o a l)) + cnt x z)%nat) by (intros; apply cnt_app).
    cbn [inner flat_map]. rewrite cnt_app.
    destruct t; cbn [parse_child].
    all: try (destruct outer; try destruct Hs; cbn [parent_of item_of looks flat_map app cnt count_occ];
              cbn [cnt count_occ]; lia).
    - (* namespace *)
      destruct outer; try destruct Hs; cbn [parent_of item_of looks flat_map app];
        try (cbn [cnt count_occ]; lia).
      change InNamespace with (parent_of TagNamespace). rewrite IHl by exact I.
      unfold items_in. cbn [cnt count_occ]. lia.
    - (* subprogram *)
      assert (G : cnt x (items cx
         match attr_specification a with
         | Some (o0, ab) => push_subprogram (mkPending l o0 ab (own_function (cx_low_pc cx) ns o a)) s
         | None => push_function (with_parameters (own_function (cx_low_pc cx) ns o a) (parse_parameter_types l []))
            (fold_left (fun s c => parse_child cx InSubprogram (function_namespace (own_function (cx_low_pc cx) ns o a)) c s) l s)
         end) = (cnt x (items cx s) + (cnt x [IFun o] + cnt x (items_in cx TagSubprogram l)))%nat).
      { destruct (attr_specification a) as [[o0 ab]|].
        - rewrite cnt_push_subprogram. unfold pending_items. cbn [pe_function pe_children].
          rewrite own_function_offset.
          change (IFun o :: items_in cx TagSubprogram l) with ([IFun o] ++ items_in cx TagSubprogram l).
          now rewrite cnt_app.
        - rewrite cnt_push_function. change InSubprogram with (parent_of TagSubprogram).
          rewrite IHl by exact I. cbn [with_parameters fu_offset]. rewrite own_function_offset. lia. }
      destruct outer; try destruct Hs; cbn [parent_of item_of looks]; exact G.
    - (* variable *)
      destruct outer; try destruct Hs; cbn [parent_of item_of looks flat_map app];
        try (cbn [cnt count_occ]; lia).
      destruct (attr_variable_specification a).
      + rewrite cnt_push_deferred. cbn [fst snd vr_offset parse_variable]. cbn [cnt count_occ]. lia.
      + rewrite cnt_push_variables. cbn [map vr_offset parse_variable]. cbn [cnt count_occ]. lia.
    - (* block *)
      destruct outer; try destruct Hs; cbn [parent_of item_of looks flat_map app];
        try (cbn [cnt count_occ]; lia);
        change InBlock with (parent_of TagLexicalBlock); rewrite IHl by exact I;
        unfold items_in; cbn [cnt count_occ]; lia.
    - destruct outer; try destruct Hs; cbn [parent_of item_of looks flat_map app];
        try rewrite cnt_push_type; cbn [t_offset]; cbn [cnt count_occ]; lia.
    - destruct outer; try destruct Hs; cbn [parent_of item_of looks flat_map app];
        try rewrite cnt_push_type; cbn [t_offset]; cbn [cnt count_occ]; lia.
    - destruct outer; try destruct Hs; cbn [parent_of item_of looks];
        try (cbn [flat_map cnt count_occ]; lia);
        rewrite cnt_push_type; change InStructure with (parent_of TagStructure); rewrite IHl by exact I;
        cbn [t_offset]; unfold items_in; lia.
    - destruct outer; try destruct Hs; cbn [parent_of item_of looks];
        try (cbn [flat_map cnt count_occ]; lia);
        rewrite cnt_push_type; change InStructure with (parent_of TagClass); rewrite IHl by exact I;
        cbn [t_offset]; unfold items_in; lia.
    - destruct outer; try destruct Hs; cbn [parent_of item_of looks];
        try (cbn [flat_map cnt count_occ]; lia);
        rewrite cnt_push_type; change InUnion with (parent_of TagUnion); rewrite IHl by exact I;
        cbn [t_offset]; unfold items_in; lia.
    - destruct outer; try destruct Hs; cbn [parent_of item_of looks];
        try (cbn [flat_map cnt count_occ]; lia);
        rewrite cnt_push_type; change InEnumeration with (parent_of TagEnumeration); rewrite IHl by exact I;
        cbn [t_offset]; unfold items_in; lia.
    - destruct outer; try destruct Hs; cbn [parent_of item_of looks flat_map app];
        try rewrite cnt_push_type; cbn [t_offset]; cbn [cnt count_occ]; lia.
    - (* member *)
      destruct outer; try destruct Hs; cbn [parent_of item_of looks flat_map app];
        try (cbn [cnt count_occ]; lia);
        rewrite cnt_push_variables; unfold statics_of; cbn [flat_map]; destruct (is_static a);
        cbn [app map vr_offset parse_variable]; cbn [cnt count_occ]; lia.
    - (* variant part *)
      destruct outer; try destruct Hs; cbn [parent_of item_of looks flat_map app];
        try (cbn [cnt count_occ]; lia);
        rewrite cnt_push_variables, variant_part_statics_offsets; cbn [cnt count_occ]; lia.
  Qed.

  Lemma parse_children_items outer ns l s x : scope outer ->
    cnt x (items cx (parse_children cx (parent_of outer) ns l s))
    = (cnt x (items cx s) + cnt x (items_in cx outer l))%nat.
  Proof.
    intros Hs. unfold parse_children. revert s. induction l as [|d l IH]; intros s.
    - cbn. lia.
    - cbn [fold_left]. rewrite IH, parse_child_items, items_in_cons, cnt_app by assumption. lia.
  Qed.
End Collect.
