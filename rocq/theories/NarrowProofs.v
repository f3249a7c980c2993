(** Filtering by name leaves out rows of a comparison and changes nothing else. *)
From Coq Require Import List Arith NArith Bool String Lia Permutation Sorted Btauto.
From Verif Require Import Base BaseProofs RangeModel NamespaceModel NamespaceProofs TypeModel LayoutModel RefModel FileModel OptionsModel OptionsProofs CliProofs FilterModel FilterSpec FilterProofs
  DiffModel MergeProofs IdModel PrintModel PrintSpec NameModel CodeModel ItemModel EntryModel ReportModel ReportSpec ItemProofs ItemShown EntryProofs ReportProofs RunPlain
  PropertiesListing OutlineFile SelectSpec SelectProofs MoreProofs.
Import ListNotations.
Local Open Scope list_scope.

(** ** Merging what is kept *)
Definition row_kept {T U} (p : T -> bool) (q : U -> bool) (r : merge_result T U) : bool :=
  match r with MLeft x => p x | MRight y => q y | MBoth x _ => p x end.

Section Merged.
  Context {K T U : Type} (kcmp : K -> K -> comparison) (TP : total_preorder kcmp) (kl : T -> K) (kr : U -> K) (p : T -> bool) (q : U -> bool).
  Local Notation cmp := (fun x y => kcmp (kl x) (kr y)).
  Hypothesis SAME : forall x y, cmp x y = Eq -> p x = q y.
  Lemma merge_first_left x l r : (forall y, In y r -> cmp x y = Lt) -> merge cmp (x :: l) r = MLeft x :: merge cmp l r.
  Proof. intros H. rewrite merge_eq. destruct r as [|y r]; [reflexivity|]. now rewrite (H y (or_introl eq_refl)). Qed.
  Lemma merge_first_right y l r : (forall x, In x l -> cmp x y = Gt) -> merge cmp l (y :: r) = MRight y :: merge cmp l r.
  Proof. intros H. rewrite merge_eq. destruct l as [|x l]; [reflexivity|]. now rewrite (H x (or_introl eq_refl)). Qed.
  Lemma merge_kept l r : StronglySorted (fun x y => kcmp (kl x) (kl y) <> Gt) l -> StronglySorted (fun x y => kcmp (kr x) (kr y) <> Gt) r ->
    merge cmp (filter p l) (filter q r) = filter (row_kept p q) (merge cmp l r).
  Proof.
    revert l r. apply (merge_ind cmp (fun l r => StronglySorted (fun x y => kcmp (kl x) (kl y) <> Gt) l ->
      StronglySorted (fun x y => kcmp (kr x) (kr y) <> Gt) r -> merge cmp (filter p l) (filter q r) = filter (row_kept p q) (merge cmp l r))).
    - reflexivity.
    - intros x l IH SL SR. inversion_clear SL as [|? ? S F]. rewrite (merge_eq cmp (x :: l) []). cbn [filter row_kept]. specialize (IH S SR).
      destruct (p x); [|exact IH]. rewrite merge_first_left by intros ? []. f_equal. exact IH.
    - intros y r IH SL SR. inversion_clear SR as [|? ? S F]. rewrite (merge_eq cmp [] (y :: r)). cbn [filter row_kept]. specialize (IH SL S).
      destruct (q y); [|exact IH]. rewrite merge_first_right by intros ? []. f_equal. exact IH.
    - intros x l y r E IH SL SR. inversion_clear SL as [|? ? S F]. inversion_clear SR as [|? ? S' F']. rewrite (merge_eq cmp (x :: l) (y :: r)), E.
      cbn [filter row_kept]. rewrite <- (SAME x y E). specialize (IH S S'). destruct (p x); [|exact IH]. rewrite merge_eq, E. f_equal. exact IH.
    - intros x l y r E IH SL SR. inversion_clear SL as [|? ? S F]. rewrite (merge_eq cmp (x :: l) (y :: r)), E. cbn [filter row_kept]. specialize (IH S SR).
      cbn [filter] in IH |- *. destruct (p x); [|exact IH]. rewrite merge_first_left; [f_equal; exact IH|].
      intros z Z. apply (tp_lt_le_trans _ TP _ (kr y)); [exact E|]. inversion_clear SR as [|? ? S' F'].
      assert (I : In z (y :: r)) by (destruct (q y); [destruct Z as [->|Z]; [now left|]|]; right; now apply filter_In in Z).
      destruct I as [->|I]; [rewrite (tp_refl _ TP); discriminate|]. rewrite Forall_forall in F'. now apply F'.
    - intros x l y r E IH SL SR. inversion_clear SR as [|? ? S F]. rewrite (merge_eq cmp (x :: l) (y :: r)), E. cbn [filter row_kept]. specialize (IH SL S).
      cbn [filter] in IH |- *. destruct (q y); [|exact IH]. rewrite merge_first_right; [f_equal; exact IH|].
      intros z Z. apply (tp_lt_gt _ TP). apply (tp_lt_le_trans _ TP _ (kl x)); [now apply (tp_lt_gt _ TP)|]. inversion_clear SL as [|? ? S' F'].
      assert (I : In z (x :: l)) by (destruct (p x); [destruct Z as [->|Z]; [now left|]|]; right; now apply filter_In in Z).
      destruct I as [->|I]; [rewrite (tp_refl _ TP); discriminate|]. rewrite Forall_forall in F'. now apply F'.
  Qed.
End Merged.

Lemma filter_and {A} (f g : A -> bool) l : filter (fun x => f x && g x) l = filter g (filter f l).
Proof. induction l as [|x l IH]; [reflexivity|]. cbn [filter]. destruct (f x); cbn [filter andb]; now rewrite IH. Qed.
Lemma filter_same {A} (f g : A -> bool) l : (forall x, f x = g x) -> filter f l = filter g l.
Proof. intros H. induction l as [|x l IH]; [reflexivity|]. cbn [filter]. now rewrite H, IH. Qed.
Lemma sorted_weaker {A} (R S : A -> A -> Prop) l : (forall x y, R x y -> S x y) -> StronglySorted R l -> StronglySorted S l.
Proof. intros H. induction 1 as [|x l _ IH F]; constructor; [exact IH|]. rewrite Forall_forall in *. auto. Qed.

(** ** Options *)
Record named (o0 o1 : options) : Prop := {
  nm_name : f_name (o_filter o0) = None;
  nm_namespace : f_namespace (o_filter o0) = [];
  nm_inline : f_function_inline (o_filter o1) = f_function_inline (o_filter o0);
  nm_unit : f_unit (o_filter o1) = f_unit (o_filter o0);
  nm_rest : o1 = mkOptions (o_print o0) (o_inline_depth o0) (o_html o0) (o_http o0) (o_category o0) (o_filter o1) (o_sort o0) (o_ignore o0) (o_prefix_map o0) }.

Section Named.
  Variables (o0 o1 : options).
  Hypothesis NAMED : named o0 o1.
  Definition kept_name (ns : option namespace) (n : option string) : bool := filter_name o1 n && filter_namespace o1 ns.
  Lemma kept_same ns n ns' n' : (ns_path_opt ns, n) = (ns_path_opt ns', n') -> kept_name ns n = kept_name ns' n'.
  Proof.
    intros E. injection E as E <-. unfold kept_name. f_equal. unfold filter_namespace. destruct (f_namespace (o_filter o1)) as [|c f]; [reflexivity|].
    destruct ns as [a|], ns' as [b|]; cbn in E; try reflexivity.
    - apply eq_true_iff_eq. rewrite !is_within_spec, E. reflexivity.
    - pose proof (ns_path_nonempty a). congruence.
    - pose proof (ns_path_nonempty b). congruence.
  Qed.
  Lemma any_name ns n : filter_name o0 n = true /\ filter_namespace o0 ns = true.
  Proof. unfold filter_name, filter_namespace. rewrite (nm_name _ _ NAMED), (nm_namespace _ _ NAMED). now split. Qed.
  Definition kept_function (f : func) : bool := kept_name (fn_namespace f) (fn_name f).
  Definition kept_variable (v : var) : bool := kept_name (va_namespace v) (va_name v).
  Definition kept_type (t : type) : bool :=
    match t_kind t with
    | TBase x => kept_name None (b_name x)
    | TDef x => kept_name (d_namespace x) (d_name x)
    | TStruct x => kept_name (s_namespace x) (s_name x)
    | TUnion x => kept_name (u_namespace x) (u_name x)
    | TEnum x => kept_name (e_namespace x) (e_name x)
    | _ => true
    end.
  Lemma function_both f : filter_function o1 f = filter_function o0 f && kept_function f.
  Proof.
    unfold filter_function, kept_function, kept_name, filter_function_inline. rewrite (nm_inline _ _ NAMED).
    destruct (negb (fn_inline f) && _); [reflexivity|]. destruct (any_name (fn_namespace f) (fn_name f)) as [-> ->]. cbn [andb]. apply andb_comm.
  Qed.
  Lemma variable_both v : filter_variable o1 v = filter_variable o0 v && kept_variable v.
  Proof.
    unfold filter_variable, kept_variable, kept_name.
    destruct (negb (va_declaration v) && _); [reflexivity|]. destruct (any_name (va_namespace v) (va_name v)) as [-> ->]. reflexivity.
  Qed.
  Lemma type_both d inl t : filter_type o1 d inl t = filter_type o0 d inl t && kept_type t.
  Proof.
    unfold filter_type, kept_type, kept_name. destruct (t_kind t) as [ |x|x|x|x|x|x|x|x|x|x|x];
      try (rewrite !andb_false_r; reflexivity);
      match goal with |- context[filter_name o0 ?n && filter_namespace o0 ?ns] => destruct (any_name ns n) as [-> ->] end;
      rewrite <- !andb_assoc; cbn [andb]; rewrite !andb_true_r || idtac;
      repeat match goal with |- context[?a && _] => is_var a; destruct a end; btauto.
  Qed.

  (** ** Rows *)
  Lemma types_both h d u : filter_types o1 h d u = filter kept_type (filter_types o0 h d u).
  Proof. unfold filter_types. cbv zeta. rewrite <- filter_and. apply filter_same. intros t. apply type_both. Qed.
  Lemma functions_both u : filter_functions o1 u = filter kept_function (filter_functions o0 u).
  Proof. unfold filter_functions. rewrite <- filter_and. apply filter_same, function_both. Qed.
  Lemma variables_both u : filter_variables o1 u = filter kept_variable (filter_variables o0 u).
  Proof. unfold filter_variables. rewrite <- filter_and. apply filter_same, variable_both. Qed.

  Lemma listable_in o h d u t : In t (filter_types o h d u) -> is_listable t.
  Proof. intros I. apply filter_In in I. destruct I as [_ I]. apply filter_type_iff in I. eapply listed_listable; eauto. Qed.
  Lemma kept_type_key a b : is_listable a -> is_listable b -> type_key a = type_key b -> kept_type a = kept_type b.
  Proof.
    intros (k1 & ns1 & n1 & L1) (k2 & ns2 & n2 & L2) E. unfold kept_type.
    inversion L1; inversion L2; subst; unfold type_key in E; cbn [t_kind] in E |- *; try discriminate E; apply kept_same; injection E; intros; congruence.
  Qed.
  Variables (ha hb : hash).
  Lemma merged_variables_both u v : merged_variables o1 u v = filter (row_kept kept_variable kept_variable) (merged_variables o0 u v).
  Proof.
    unfold merged_variables. rewrite !variables_both, !merge_all_total.
    set (cmp := fun x y => cmp_item (variable_key x) (variable_key y)).
    assert (TP : total_preorder cmp) by (apply (cmp_on_tp variable_key), cmp_item_tp).
    assert (SO : forall l, stable_sort variable_cmp_id l = stable_sort cmp l) by (intros l; apply stable_sort_ext; intros; apply variable_cmp_id_key).
    rewrite !SO, <- !(sort_kept cmp TP). rewrite !(merge_ext variable_cmp_id cmp) by (intros; apply variable_cmp_id_key).
    apply (merge_kept cmp_item cmp_item_tp variable_key variable_key); [|apply (stable_sort_sorted cmp TP)..].
    intros x y E. apply cmp_item_eq in E. now apply kept_same.
  Qed.
  Lemma merged_types_both u v : merged_types o1 ha u hb v = filter (row_kept kept_type kept_type) (merged_types o0 ha u hb v).
  Proof.
    unfold merged_types. rewrite !types_both, !merge_all_total.
    set (cmp := fun x y => cmp_key (type_key x) (type_key y)).
    assert (TP : total_preorder cmp) by (apply (cmp_on_tp type_key), cmp_key_tp).
    assert (SO : forall h l, (forall x, In x l -> is_listable x) -> stable_sort (fun x y => type_cmp_id h x h y) l = stable_sort cmp l).
    { intros h l L. apply stable_sort_ext. intros x y X Y. apply type_cmp_id_key; auto. }
    pose proof (listable_in o0 ha true u) as LA. pose proof (listable_in o0 hb true v) as LB.
    set (la := filter_types o0 ha true u) in *. set (lb := filter_types o0 hb true v) in *.
    rewrite !SO; [|assumption|assumption|intros x X; apply filter_In in X; now apply LB|intros x X; apply filter_In in X; now apply LA].
    rewrite <- !(sort_kept cmp TP).
    assert (IA : forall x, In x (stable_sort cmp la) -> is_listable x) by (intros x X; apply LA; now apply (Permutation_in _ (stable_sort_perm cmp la)) in X).
    assert (IB : forall x, In x (stable_sort cmp lb) -> is_listable x) by (intros x X; apply LB; now apply (Permutation_in _ (stable_sort_perm cmp lb)) in X).
    rewrite (merge_ext _ cmp) by (intros x y X Y; apply filter_In in X, Y; apply type_cmp_id_key; [now apply IA|now apply IB]).
    rewrite (merge_ext (fun x y => type_cmp_id ha x hb y) cmp) by (intros x y X Y; apply type_cmp_id_key; [now apply IA|now apply IB]).
    set (sa := stable_sort cmp la) in *. set (sb := stable_sort cmp lb) in *.
    assert (SA : StronglySorted (le_cmp cmp) sa) by apply (stable_sort_sorted cmp TP).
    assert (SB : StronglySorted (le_cmp cmp) sb) by apply (stable_sort_sorted cmp TP).
    (* the key decides whether a type is kept *)
    set (q := fun t => match t_kind t with TBase _ | TDef _ | TStruct _ | TUnion _ | TEnum _ => kept_type t | _ => kept_name None None end).
    assert (QA : forall t, is_listable t -> q t = kept_type t) by (intros t (k & ns & n & L); inversion L; reflexivity).
    assert (FA : filter kept_type sa = filter q sa) by (apply filter_ext_in; intros t I; symmetry; apply QA; now apply IA).
    assert (FB : filter kept_type sb = filter q sb) by (apply filter_ext_in; intros t I; symmetry; apply QA; now apply IB).
    rewrite FA, FB, (merge_kept cmp_key cmp_key_tp type_key type_key q q); [|intros x y E|exact SA|exact SB].
    - apply filter_ext_in. intros r R. destruct (row_in_side _ ha hb r R) as [X|X]; rewrite ?merge_lefts, ?merge_rights in X.
      + destruct r as [x|y|x y]; cbn [row_kept rep snd] in X |- *; [apply QA; now apply IA| |].
        * apply QA. now apply IA.
        * apply QA. apply IA. rewrite <- (merge_lefts cmp sa sb). apply in_flat_map. exists (MBoth x y). cbn. auto.
      + destruct r as [x|y|x y]; cbn [row_kept rep snd] in X |- *; [apply QA; now apply IB|apply QA; now apply IB|].
        apply QA. apply IA. rewrite <- (merge_lefts cmp sa sb). apply in_flat_map. exists (MBoth x y). cbn. auto.
    - apply cmp_key_eq in E. unfold q, kept_type. unfold type_key in E.
      destruct (t_kind x), (t_kind y); try discriminate E; try reflexivity; apply kept_same; injection E; intros; congruence.
  Qed.
  Variable pc : param_cmp.
  Hypothesis CONSISTENT : consistent pc.
  Lemma merged_functions_both u v :
    fst (merged_functions o1 pc ha u hb v) = filter (row_kept kept_function kept_function) (fst (merged_functions o0 pc ha u hb v)) /\
    snd (merged_functions o1 pc ha u hb v) = filter (row_kept kept_function kept_function) (snd (merged_functions o0 pc ha u hb v)).
  Proof.
    unfold merged_functions. cbv zeta. cbn [fst snd]. rewrite !functions_both, !merge_all_total.
    rewrite <- !(sort_kept (fun x y => function_cmp_for_sort pc ha x ha y) (cmp_on_tp (fun x => (ha, x)) _ (function_sort_tp pc CONSISTENT))).
    rewrite <- !(sort_kept (fun x y => function_cmp_for_sort pc hb x hb y) (cmp_on_tp (fun x => (hb, x)) _ (function_sort_tp pc CONSISTENT))).
    set (cmp := fun x y => cmp_item (function_key x) (function_key y)).
    assert (SO : forall h l, StronglySorted (le_cmp cmp) (stable_sort (fun x y => function_cmp_for_sort pc h x h y) l)).
    { intros h l. pose proof (stable_sort_sorted _ (cmp_on_tp (fun x => (h, x)) _ (function_sort_tp pc CONSISTENT)) l) as S.
      revert S. apply sorted_weaker. intros x y. unfold le_cmp, on_pairs. cbn [fst snd]. rewrite function_sort_then. unfold cmp.
      destruct (cmp_item _ _); cbn; congruence. }
    rewrite !(merge_ext function_cmp_id cmp) by (intros; apply function_cmp_id_key).
    rewrite (merge_kept cmp_item cmp_item_tp function_key function_key); [|intros x y E; apply cmp_item_eq in E; now apply kept_same|apply SO..].
    split; rewrite <- !filter_and; apply filter_same; intros r; apply andb_comm.
  Qed.
End Named.

(** ** What is written *)
Lemma named_fewer o0 o1 : named o0 o1 -> fewer o1 o0.
Proof.
  intros [_ _ _ _ R]. assert (PR : o_print o1 = o_print o0) by (rewrite R; reflexivity). assert (IG : o_ignore o1 = o_ignore o0) by (rewrite R; reflexivity).
  assert (CT : o_category o1 = o_category o0) by (rewrite R; reflexivity).
  split; rewrite ?PR, ?IG, ?CT; try (intros X; exact X); try (intros g _ X; exact X); [now split|]. rewrite R. now destruct o0.
Qed.

Section Narrowed.
  Variables (o0 o1 : options).
  Hypothesis NAMED : named o0 o1.
  Hypothesis TEXT : o_html o1 = false.
  Variable pc : param_cmp.
  Hypothesis CONSISTENT : consistent pc.
  Variable fuel : nat.
  Local Notation FW := (named_fewer o0 o1 NAMED).

  Lemma narrowed_printed {A} (f g : A -> option pdoc) (k : A -> bool) l : (forall x, grows (f x) (g x)) -> grows (all_printed f (filter k l)) (all_printed g l).
  Proof.
    intros H. induction l as [|x l IH]; cbn [filter all_printed]; [apply grows_same|]. destruct (k x); cbn [all_printed].
    - apply grows_bind; [apply H|]. intros d e X. apply grows_bind; [exact IH|]. intros d' e' X'. apply grows_some. now constructor.
    - intros e E. apply bind_some in E. destruct E as (e1 & _ & E). apply bind_some in E. destruct E as (e2 & E2 & E). apply some_eq in E. subst e.
      destruct (IH e2 E2) as (d & -> & X). exists d. split; [reflexivity|now apply ex_drop].
  Qed.
  Lemma narrowed_types h u : printed_types o1 h u = filter (kept_type o1) (printed_types o0 h u).
  Proof.
    assert (CT : o_category o1 = o_category o0) by (rewrite (nm_rest _ _ NAMED); reflexivity). assert (SO : o_sort o1 = o_sort o0) by (rewrite (nm_rest _ _ NAMED); reflexivity).
    unfold printed_types. rewrite CT. destruct (c_type (o_category o0)); [|reflexivity]. unfold print_list. rewrite (types_both o0 o1 NAMED).
    pose proof (listable_in o0 h false u) as L. set (l := filter_types o0 h false u) in *.
    rewrite (stable_sort_ext _ (fun a b => type_cmp_listed o0 h a h b) (filter _ l)).
    2: { intros x y X Y. apply filter_In in X, Y. rewrite (type_by_listed o1) by (apply L; tauto). unfold type_cmp_listed. now rewrite SO. }
    rewrite (stable_sort_ext _ (fun a b => type_cmp_listed o0 h a h b) l) by (intros x y X Y; apply type_by_listed; now apply L).
    symmetry. apply (sort_kept (fun a b => type_cmp_listed o0 h a h b) (cmp_on_tp (fun x => (h, x)) _ (type_listed_tp o0))).
  Qed.
  Lemma narrowed_functions h u : printed_functions o1 pc h u = filter (kept_function o1) (printed_functions o0 pc h u).
  Proof.
    assert (CT : o_category o1 = o_category o0) by (rewrite (nm_rest _ _ NAMED); reflexivity). assert (SO : o_sort o1 = o_sort o0) by (rewrite (nm_rest _ _ NAMED); reflexivity).
    unfold printed_functions. rewrite CT. destruct (c_function (o_category o0)); [|reflexivity]. unfold print_list. rewrite (functions_both o0 o1 NAMED).
    rewrite (sort_kept _ (cmp_on_tp (fun x => (h, x)) _ (function_by_tp o0 pc CONSISTENT))). apply stable_sort_ext. intros x y _ _.
    unfold function_cmp_by, on_pairs. now rewrite SO.
  Qed.
  Lemma narrowed_variables h u : printed_variables o1 h u = filter (kept_variable o1) (printed_variables o0 h u).
  Proof.
    assert (CT : o_category o1 = o_category o0) by (rewrite (nm_rest _ _ NAMED); reflexivity). assert (SO : o_sort o1 = o_sort o0) by (rewrite (nm_rest _ _ NAMED); reflexivity).
    unfold printed_variables. rewrite CT. destruct (c_variable (o_category o0)); [|reflexivity]. unfold print_list. rewrite (variables_both o0 o1 NAMED).
    rewrite (sort_kept _ (cmp_on_tp (fun x => (h, x)) _ (variable_by_tp o0))). apply stable_sort_ext. intros x y _ _.
    unfold variable_cmp_by, on_pairs. now rewrite SO.
  Qed.
  Lemma narrowed_unit im u : grows (print_unit o1 pc fuel im u) (print_unit o0 pc fuel im u).
  Proof.
    assert (CT : o_category o1 = o_category o0) by (rewrite (nm_rest _ _ NAMED); reflexivity).
    assert (T0 : o_html o0 = false) by (rewrite (nm_rest _ _ NAMED) in TEXT; exact TEXT).
    unfold print_unit. apply grows_bind; [|intros d e X; rewrite TEXT, T0; now apply grows_some].
    unfold print_unit_body. rewrite TEXT, T0, CT. apply grows_bind; [apply (grows_fields o1 o0 FW)|]. intros d1 e1 X1.
    unfold print_types, print_functions, print_variables. rewrite narrowed_types, narrowed_functions, narrowed_variables.
    apply grows_bind; [apply narrowed_printed; intros; apply (grows_type o1 o0 FW)|]. intros d2 e2 X2.
    apply grows_bind; [apply narrowed_printed; intros; apply (grows_variable o1 o0 FW)|]. intros d3 e3 X3.
    apply grows_bind; [apply narrowed_printed; intros; apply (grows_function o1 o0 FW)|]. intros d4 e4 X4. apply grows_some.
    destruct (c_unit (o_category o0)); cbn [pseq fold_right]; repeat first [assumption|apply ex_same|apply ex_seq|apply ex_tree].
  Qed.

  Variable choose : list N -> list N -> list (list N) -> nat -> nat.
  Variable ii : images.
  Local Notation ha := (im_hash (is_a ii)).
  Local Notation hb := (im_hash (is_b ii)).
  Lemma narrowed_rows {T} (cmp1 cmp0 : hash -> T -> hash -> T -> comparison) c (pa pa' pb pb' : T -> option pdoc) (df df' : T -> T -> option ddoc)
      (k : merge_result T T -> bool) rows : total_preorder c ->
    (forall r s, In r rows -> In s rows -> merge_result_cmp cmp0 ha hb r s = c r s) ->
    (forall r s, In r rows -> In s rows -> merge_result_cmp cmp1 ha hb r s = c r s) ->
    (forall x, grows (pa x) (pa' x)) -> (forall x, grows (pb x) (pb' x)) -> (forall x y, dgrows (df x y) (df' x y)) ->
    dgrows (listed_rows o1 ii cmp1 pa pb df (filter k rows)) (listed_rows o0 ii cmp0 pa' pb' df' rows).
  Proof.
    intros TP C0 C1 GA GB GD. assert (IG : o_ignore o1 = o_ignore o0) by (rewrite (nm_rest _ _ NAMED); reflexivity).
    unfold listed_rows, diff_rows. rewrite IG.
    rewrite (stable_sort_ext _ c (filter k rows)) by (intros r s R S; apply filter_In in R, S; now apply C1).
    rewrite (stable_sort_ext _ c rows) by assumption. rewrite <- (sort_kept c TP), <- filter_and.
    apply dgrows_rows; [|exact GA|exact GB|].
    - intros r R. apply andb_true_iff in R. exact (proj2 R).
    - intros x y. apply dgrows_bind; [apply GD|]. intros d e X. apply dgrows_some. now constructor.
  Qed.
  Definition row_by {T} (f : hash -> T -> hash -> T -> comparison) (r s : merge_result T T) : comparison :=
    on_pairs f (rep ha hb r) (rep ha hb s).
  Lemma row_by_tp {T} (f : hash -> T -> hash -> T -> comparison) : total_preorder (on_pairs f) -> total_preorder (row_by f).
  Proof. apply (cmp_on_tp (rep ha hb)). Qed.
  Lemma types_listable u v r : In r (merged_types o0 ha u hb v) -> is_listable (snd (rep ha hb r)).
  Proof.
    unfold merged_types. rewrite merge_all_total. intros I. apply (row_in_side _ ha hb) in I. rewrite merge_lefts, merge_rights in I.
    destruct I as [I|I]; apply (Permutation_in _ (stable_sort_perm _ _)) in I; eapply listable_in; exact I.
  Qed.
  Lemma narrowed_compared u v : dgrows (diff_unit choose o1 pc fuel ii u v) (diff_unit choose o0 pc fuel ii u v).
  Proof.
    assert (CT : o_category o1 = o_category o0) by (rewrite (nm_rest _ _ NAMED); reflexivity).
    assert (SO : o_sort o1 = o_sort o0) by (rewrite (nm_rest _ _ NAMED); reflexivity).
    assert (T0 : o_html o0 = false) by (rewrite (nm_rest _ _ NAMED) in TEXT; exact TEXT).
    unfold diff_unit. apply dgrows_bind; [|intros d e X; rewrite TEXT, T0; now apply dgrows_some].
    unfold diff_unit_body, diff_types, diff_functions, diff_variables. cbv zeta. rewrite TEXT, T0, CT.
    apply dgrows_bind; [apply (dgrows_fields o1 o0 FW)|]. intros d1 e1 X1.
    apply dgrows_bind.
    { destruct (c_type (o_category o0)); [|apply dgrows_same]. rewrite (merged_types_both o0 o1 NAMED).
      apply (narrowed_rows _ _ (row_by (type_cmp_listed o0))); [apply row_by_tp, type_listed_tp|..].
      - intros r s R S. rewrite merge_result_cmp_rep. apply type_by_listed; eapply types_listable; eassumption.
      - intros r s R S. rewrite merge_result_cmp_rep. rewrite (type_by_listed o1) by (eapply types_listable; eassumption). unfold row_by, on_pairs, type_cmp_listed. now rewrite SO.
      - intros; apply (grows_type o1 o0 FW).
      - intros; apply (grows_type o1 o0 FW).
      - intros; apply (dgrows_type o1 o0 FW). }
    intros d2 e2 X2. destruct (merged_functions_both o0 o1 NAMED ha hb pc CONSISTENT u v) as [FA FB].
    assert (FN : forall rows, dgrows (listed_rows o1 ii (function_cmp_by o1 pc) (print_function_in o1 fuel (is_a ii) u) (print_function_in o1 fuel (is_b ii) v)
          (diff_function choose o1 (is_scenes ii) (im_unit_id (is_a ii) u) fuel (im_dir (is_a ii) u) (im_dir (is_b ii) v)) (filter (row_kept (kept_function o1) (kept_function o1)) rows))
        (listed_rows o0 ii (function_cmp_by o0 pc) (print_function_in o0 fuel (is_a ii) u) (print_function_in o0 fuel (is_b ii) v)
          (diff_function choose o0 (is_scenes ii) (im_unit_id (is_a ii) u) fuel (im_dir (is_a ii) u) (im_dir (is_b ii) v)) rows)).
    { intros rows. apply (narrowed_rows _ _ (row_by (function_cmp_by o0 pc))); [apply row_by_tp, (function_by_tp o0 pc CONSISTENT)|..].
      - intros r s R S. now rewrite merge_result_cmp_rep.
      - intros r s R S. rewrite merge_result_cmp_rep. unfold row_by, on_pairs, function_cmp_by. now rewrite SO.
      - intros; apply (grows_function o1 o0 FW).
      - intros; apply (grows_function o1 o0 FW).
      - intros; apply (dgrows_function o1 o0 FW). }
    apply dgrows_bind.
    { destruct (c_function (o_category o0)); [|apply dgrows_same]. rewrite FA, FB.
      apply dgrows_bind; [apply FN|]. intros d e X. apply dgrows_bind; [apply FN|]. intros d' e' X'. apply dgrows_some. now constructor. }
    intros d3 e3 X3. apply dgrows_bind.
    { destruct (c_variable (o_category o0)); [|apply dgrows_same]. rewrite (merged_variables_both o0 o1 NAMED).
      apply (narrowed_rows _ _ (row_by (variable_cmp_by o0))); [apply row_by_tp, variable_by_tp|..].
      - intros r s R S. now rewrite merge_result_cmp_rep.
      - intros r s R S. rewrite merge_result_cmp_rep. unfold row_by, on_pairs, variable_cmp_by. now rewrite SO.
      - intros; apply (grows_variable o1 o0 FW).
      - intros; apply (grows_variable o1 o0 FW).
      - intros; apply dgrows_some, (dgrows_variable o1 o0 FW). }
    intros d4 e4 X4. apply dgrows_some. cbn [dseq fold_right].
    destruct (c_unit (o_category o0)); repeat first [assumption|apply le_same|apply le_seq|apply le_tree].
  Qed.
  Lemma narrowed_file : dgrows (diff_file choose o1 pc fuel ii) (diff_file choose o0 pc fuel ii).
  Proof.
    assert (CT : o_category o1 = o_category o0) by (rewrite (nm_rest _ _ NAMED); reflexivity).
    assert (PR : o_print o1 = o_print o0) by (rewrite (nm_rest _ _ NAMED); reflexivity).
    assert (PM : o_prefix_map o1 = o_prefix_map o0) by (rewrite (nm_rest _ _ NAMED); reflexivity).
    assert (SO : o_sort o1 = o_sort o0) by (rewrite (nm_rest _ _ NAMED); reflexivity).
    unfold diff_file, diff_file_header. cbv zeta. rewrite CT, PR. apply dgrows_bind; [apply dgrows_same|]. intros d e X.
    assert (MU : merged_units o1 (im_units (is_a ii)) (im_units (is_b ii)) = filter (fun _ => true) (merged_units o0 (im_units (is_a ii)) (im_units (is_b ii)))).
    { rewrite filter_all. unfold merged_units, filter_units, unit_cmp_id, filter_unit. now rewrite PM, (nm_unit _ _ NAMED). }
    rewrite MU. apply dgrows_bind.
    { apply (narrowed_rows _ _ (row_by (unit_cmp_by o0))); [apply row_by_tp, unit_by_tp|..].
      - intros r s R S. now rewrite merge_result_cmp_rep.
      - intros r s R S. rewrite merge_result_cmp_rep. unfold row_by, on_pairs, unit_cmp_by, unit_cmp_id. now rewrite SO, PM.
      - intros; apply narrowed_unit.
      - intros; apply narrowed_unit.
      - intros; apply narrowed_compared. }
    intros d' e' X'. apply dgrows_some. now constructor.
  Qed.
End Narrowed.

(** ** The command line *)
Lemma values_app {A} (step : A -> string -> option A) l m : forall a, for_values step (l ++ m) a = match for_values step l a with Some b => for_values step m b | None => None end.
Proof. induction l as [|x l IH]; intros a; cbn [app for_values]; [reflexivity|]. destruct (step a x); [apply IH|reflexivity]. Qed.
Lemma not_member k l : ~ In k l -> member_str k l = false.
Proof. intros N. apply not_true_iff_false. intros M. now apply member_str_iff in M. Qed.
Lemma filters_unnamed l : forall f g, never_given ["name"; "namespace"]%string l -> for_values parse_filter l f = Some g ->
  f_name g = f_name f /\ f_namespace g = f_namespace f.
Proof.
  induction l as [|w l IH]; intros f g N E; cbn [for_values] in E; [injection E as <-; now split|].
  destruct (parse_filter f w) as [f'|] eqn:P; [|discriminate E]. destruct (IH f' g) as [A B]; [intros v k y V; apply N; now right|exact E|]. rewrite A, B.
  destruct (split_at_eq w) as [[k x]|] eqn:S; [|unfold parse_filter in P; rewrite S in P; discriminate P]. apply split_at_eq_some in S.
  specialize (N w k x (or_introl eq_refl) S). rewrite (parse_filter_kv f w k x S) in P. cbn [In] in N.
  destruct (member_str k _); [destruct (member_str x _); [injection P as <-; now split|]; destruct (member_str x _); [injection P as <-; now split|discriminate P]|].
  destruct (String.eqb_spec k "name") as [->|_]; [exfalso; apply N; now left|].
  destruct (String.eqb_spec k "namespace") as [->|_]; [exfalso; apply N; right; now left|].
  destruct (String.eqb k "unit"); [injection P as <-; now split|discriminate P].
Qed.
Lemma filters_named l : forall f g, never_given ["unit"; "inline"; "function-inline"]%string l -> for_values parse_filter l f = Some g ->
  f_function_inline g = f_function_inline f /\ f_unit g = f_unit f.
Proof.
  induction l as [|w l IH]; intros f g N E; cbn [for_values] in E; [injection E as <-; now split|].
  destruct (parse_filter f w) as [f'|] eqn:P; [|discriminate E]. destruct (IH f' g) as [A B]; [intros v k y V; apply N; now right|exact E|]. rewrite A, B.
  destruct (split_at_eq w) as [[k x]|] eqn:S; [|unfold parse_filter in P; rewrite S in P; discriminate P]. apply split_at_eq_some in S.
  specialize (N w k x (or_introl eq_refl) S). rewrite (parse_filter_kv f w k x S), not_member in P by (cbn [In] in *; tauto). cbn [In] in N.
  destruct (String.eqb k "name"); [injection P as <-; now split|]. destruct (String.eqb k "namespace"); [injection P as <-; now split|].
  destruct (String.eqb_spec k "unit") as [->|_]; [exfalso; apply N; now left|discriminate P].
Qed.
Lemma named_options c0 c1 o0 o1 : parse_options c0 = Some o0 -> parse_options c1 = Some o1 -> only_names c0 c1 -> named o0 o1.
Proof.
  intros P0 P1 (N & (more & F & M) & R). rewrite R in P1. apply parse_options_parts in P0, P1. destruct P0 as (d & p & A1 & A2 & A3 & A4 & A5 & A6 & A7 & A8).
  destruct P1 as (d' & p' & B1 & B2 & B3 & B4 & B5 & B6 & B7 & B8). cbn [cl_output cl_inline_depth cl_category cl_print cl_filter cl_sort cl_ignore cl_prefix_map] in *.
  rewrite A1 in B1. injection B1 as E1 E2 <- <-. rewrite A6 in B6. injection B6 as E4. rewrite A2 in B2. injection B2 as E3. rewrite A4 in B4. injection B4 as E9.
  rewrite A3 in B3. injection B3 as E5. rewrite A7 in B7. injection B7 as E7. rewrite A8 in B8. injection B8 as E8.
  rewrite F, values_app, A5 in B5. destruct (filters_unnamed _ _ _ N A5) as [X1 X2]. destruct (filters_named _ _ _ M B5) as [Y1 Y2].
  split; [exact X1|exact X2|exact Y1|exact Y2|]. rewrite E1, E2, E3, E4, E5, E7, E8, E9. now destruct o1.
Qed.
