(** Property theorems C43, C44, C45: the command line, the order of listings, and the
    rows of a comparison. *)
From Coq Require Import List Arith NArith Bool String Ascii Lia Sorted Permutation.
From Coq Require Import ZifyBool ZifyNat ZifyN.
From Verif Require Import Base BaseProofs RangeModel NamespaceModel NamespaceSpec NamespaceProofs TypeModel
  LayoutModel FileModel DiffModel DiffSpec MergeProofs OptionsModel FilterModel FilterSpec
  OptionsProofs CliProofs FilterProofs PropertiesFilter.
Import ListNotations.
Local Open Scope string_scope.

Ltac conjs := repeat match goal with |- _ /\ _ => split end.

(** ** C43: the command line *)

(** Exactly the command lines made of known words and well-formed values are accepted. *)
Theorem C43_accepted : forall c, (exists o, parse_options c = Some o) <-> cli_accepted c.
Proof. exact parse_options_accepts. Qed.
Print Assumptions C43_accepted.

(** A category is on iff it is named or none is. *)
Theorem C43_categories :
  forall c o, parse_options c = Some o ->
    (c_file (o_category o) = true <-> category_wanted c "file") /\
    (c_unit (o_category o) = true <-> category_wanted c "unit") /\
    (c_type (o_category o) = true <-> category_wanted c "type") /\
    (c_function (o_category o) = true <-> category_wanted c "function") /\
    (c_variable (o_category o) = true <-> category_wanted c "variable").
Proof.
  intros c o H. conjs.
  - apply (category_parsed c_file); auto. intros l b E. now apply category_file.
  - apply (category_parsed c_unit); auto. intros l b E. now apply category_unit.
  - apply (category_parsed c_type); auto. intros l b E. now apply category_type.
  - apply (category_parsed c_function); auto. intros l b E. now apply category_function.
  - apply (category_parsed c_variable); auto. intros l b E. now apply category_variable.
Qed.
Print Assumptions C43_categories.

(** A detail is printed iff one of the words for it is given, or the output is [http]
    and it belongs to what that turns on. *)
Definition one_of (l words : list string) : Prop := exists w, In w l /\ In w words.
Definition http (c : cli) : Prop := cl_output c = Some "http".

Theorem C43_print :
  forall c o, parse_options c = Some o ->
    let p := o_print o in let l := cl_print c in
    (p_source p = true <-> http c \/ one_of l ["all"; "source"]) /\
    (p_file_address p = true <-> one_of l ["all"; "address"; "file-address"]) /\
    (p_unit_address p = true <-> one_of l ["all"; "address"; "unit-address"]) /\
    (p_function_calls p = true <-> http c \/ one_of l ["all"; "function-calls"]) /\
    (p_function_instructions p = true <-> http c \/ one_of l ["all"; "function-instructions"]) /\
    (p_function_variables p = true <-> one_of l ["all"; "function-variables"]) /\
    (p_function_stack_frame p = true <-> one_of l ["all"; "function-stack-frame"]) /\
    (p_inlined_function_parameters p = true <-> one_of l ["all"; "inlined-function-parameters"]) /\
    (p_variable_locations p = true <-> one_of l ["all"; "variable-locations"]).
Proof.
  intros c o H p l. apply parse_options_parts in H. destruct H as (d & p0 & H & _ & _ & E & _).
  assert (P0 : (http c /\ p0 = mkPrintOpts true false false true true false false false false) \/
               (~ http c /\ p0 = default_print)).
  { unfold http. unfold parse_output in H. destruct (cl_output c) as [v|].
    - destruct (String.eqb_spec v "text") as [E1|N1]; [rewrite E1 in *; right; split; [discriminate|congruence]|].
      destruct (String.eqb_spec v "html") as [E2|N2]; [rewrite E2 in *; right; split; [discriminate|congruence]|].
      destruct (String.eqb_spec v "http") as [E3|N3]; [rewrite E3 in *; left; split; congruence|discriminate].
    - right. split; [discriminate|congruence]. }
  pose proof (print_source _ _ _ E). pose proof (print_file_address _ _ _ E).
  pose proof (print_unit_address _ _ _ E). pose proof (print_function_calls _ _ _ E).
  pose proof (print_function_instructions _ _ _ E). pose proof (print_function_variables _ _ _ E).
  pose proof (print_function_stack_frame _ _ _ E).
  pose proof (print_inlined_function_parameters _ _ _ E).
  pose proof (print_variable_locations _ _ _ E). unfold one_of, p, l.
  destruct P0 as [[P0 ->]|[P0 ->]]; cbn [p_source p_file_address p_unit_address p_function_calls
    p_function_instructions p_function_variables p_function_stack_frame
    p_inlined_function_parameters p_variable_locations default_print] in *;
    conjs; (etransitivity; [eassumption|]);
    (split; [intros [X|X]; try discriminate; auto|intros X; try (destruct X as [X|X]); auto]);
    try contradiction; right; exact X.
Qed.
Print Assumptions C43_print.

(** A difference is ignored iff one of the words for it is given. *)
Theorem C43_ignore :
  forall c o, parse_options c = Some o ->
    let i := o_ignore o in let l := cl_ignore c in
    (i_added i = true <-> one_of l ["added"]) /\
    (i_deleted i = true <-> one_of l ["deleted"]) /\
    (i_function_address i = true <-> one_of l ["address"; "function-address"]) /\
    (i_function_size i = true <-> one_of l ["function-size"]) /\
    (i_function_inline i = true <-> one_of l ["function-inline"]) /\
    (i_function_linkage_name i = true <-> one_of l ["linkage-name"]) /\
    (i_function_symbol_name i = true <-> one_of l ["symbol-name"; "function-symbol-name"]) /\
    (i_variable_address i = true <-> one_of l ["address"; "variable-address"]) /\
    (i_variable_linkage_name i = true <-> one_of l ["linkage-name"]) /\
    (i_variable_symbol_name i = true <-> one_of l ["symbol-name"; "variable-symbol-name"]).
Proof.
  intros c o H i l. apply parse_options_parts in H.
  destruct H as (d & p0 & _ & _ & _ & _ & _ & _ & E & _). unfold one_of, i, l.
  pose proof (ignore_added _ _ _ E). pose proof (ignore_deleted _ _ _ E).
  pose proof (ignore_function_address _ _ _ E). pose proof (ignore_function_size _ _ _ E).
  pose proof (ignore_function_inline _ _ _ E). pose proof (ignore_function_linkage_name _ _ _ E).
  pose proof (ignore_function_symbol_name _ _ _ E). pose proof (ignore_variable_address _ _ _ E).
  pose proof (ignore_variable_linkage_name _ _ _ E).
  pose proof (ignore_variable_symbol_name _ _ _ E).
  cbn [i_added i_deleted i_function_address i_function_size i_function_inline
    i_function_linkage_name i_function_symbol_name i_variable_address i_variable_linkage_name
    i_variable_symbol_name] in *.
  conjs; (etransitivity; [eassumption|]);
    (split; [intros [X|X]; [discriminate|exact X]|intros X; right; exact X]).
Qed.
Print Assumptions C43_ignore.

(** For every filter the value given last counts; a namespace is split at its double
    colons. *)
Theorem C43_filters :
  forall c o, parse_options c = Some o ->
    let f := o_filter o in let l := cl_filter c in
    (forall s, f_name f = Some s <-> last_given ["name"] l s) /\
    (forall s, f_unit f = Some s <-> last_given ["unit"] l s) /\
    (f_namespace f = [] <-> never_given ["namespace"] l) /\
    (forall s, last_given ["namespace"] l s -> components (f_namespace f) s) /\
    (f_function_inline f = Some true <->
       exists s, last_given ["inline"; "function-inline"] l s /\ In s ["y"; "yes"]) /\
    (f_function_inline f = Some false <->
       exists s, last_given ["inline"; "function-inline"] l s /\ In s ["n"; "no"]).
Proof.
  intros c o H f l. apply parse_options_parts in H.
  destruct H as (d & p0 & _ & _ & _ & _ & E & _). unfold f, l.
  assert (FUN : forall keys l s t, last_given keys l s -> last_given keys l t -> s = t).
  { clear. intros keys l. induction l as [|v l IH] using rev_ind; intros s t A B.
    - destruct A as ([|] & v & a & k & X & _); discriminate.
    - apply last_given_snoc in A, B.
      destruct A as [(k & K & I)|(N & A)], B as [(k' & K' & I')|(N' & B)]; eauto.
      + apply (key_value_fun _ _ _ _ _ K K').
      + exfalso. exact (N' _ _ K I).
      + exfalso. exact (N _ _ K' I'). }
  assert (EXC : forall keys l s, never_given keys l -> ~ last_given keys l s).
  { clear. intros keys l s N (b & v & a & k & -> & K & I & _).
    apply (N v k s); auto. apply in_app_iff. cbn. auto. }
  assert (NE : forall s, split_colons "" s <> []).
  { intros s X. pose proof (split_colons_components s) as C. rewrite X in C. inversion C. }
  assert (OPT : forall keys x, setting keys (cl_filter c) None Some x ->
            forall s : string, x = Some s <-> last_given keys (cl_filter c) s).
  { intros keys x [[N ->]|(t & T & ->)] s.
    - split; [discriminate|]. intros L. exfalso. exact (EXC _ _ _ N L).
    - split; [intros X; now injection X as <-|]. intros L. f_equal. eauto. }
  conjs.
  - apply OPT. now apply filter_opt_name.
  - apply OPT. now apply filter_opt_unit.
  - destruct (filter_opt_namespace _ _ E) as [[N ->]|(t & T & ->)].
    + split; auto.
    + split; [intros X; exfalso; exact (NE _ X)|]. intros N. exfalso. exact (EXC _ _ _ N T).
  - intros s L. destruct (filter_opt_namespace _ _ E) as [[N ->]|(t & T & ->)].
    + exfalso. exact (EXC _ _ _ N L).
    + rewrite (FUN _ _ _ _ L T). apply split_colons_components.
  - destruct (filter_opt_inline _ _ E) as [[N ->]|(t & T & ->)].
    + split; [discriminate|]. intros (s & L & _). exfalso. exact (EXC _ _ _ N L).
    + split.
      * intros X. injection X as X. change (member_str t ["y"; "yes"] = true) in X.
        apply member_str_iff in X. eauto.
      * intros (s & L & I). rewrite (FUN _ _ _ _ T L). f_equal. now apply member_str_iff.
  - destruct (filter_opt_inline _ _ E) as [[N ->]|(t & T & ->)].
    + split; [discriminate|]. intros (s & L & _). exfalso. exact (EXC _ _ _ N L).
    + split.
      * intros X. injection X as X. change (member_str t ["y"; "yes"] = false) in X. exists t. split; [exact T|].
        assert (A : forall v k x, In v (cl_filter c) -> key_value v k x ->
                      In k ["inline"; "function-inline"] -> In x ["y"; "yes"; "n"; "no"]).
        { intros v k x I K J. assert (F : filter_accepted v).
          { apply (proj2 (filter_accepts (cl_filter c) (mkFilterOpts None None [] None))); eauto. }
          destruct F as (k' & x' & K' & F). destruct (key_value_fun _ _ _ _ _ K K') as [-> ->].
          destruct F as [[_ F]|F]; [exact F|]. exfalso. clear - J F. cbn in J, F.
          intuition (subst; discriminate). }
        destruct T as (b & v & a & k & X' & K & I & _).
        specialize (A v k t). rewrite X' in A. assert (M : In t ["y"; "yes"; "n"; "no"]).
        { apply A; auto. apply in_app_iff. cbn. auto. }
        assert (M2 : ~ In t ["y"; "yes"]) by (rewrite <- member_str_iff; congruence).
        clear - M M2. cbn in *. tauto.
      * intros (s & L & I). rewrite (FUN _ _ _ _ T L). f_equal. cbn in I.
        destruct I as [<-|[<-|[]]]; reflexivity.
Qed.
Print Assumptions C43_filters.

(** Output format, inline depth and sort key. *)
Theorem C43_output_depth_sort :
  forall c o, parse_options c = Some o ->
    (o_html o = true <-> cl_output c = Some "html" \/ http c) /\
    (o_http o = true <-> http c) /\
    (forall s, cl_inline_depth c = Some s -> numeral s (o_inline_depth o)) /\
    (cl_inline_depth c = None -> http c -> o_inline_depth o = 100%N) /\
    (cl_inline_depth c = None -> ~ http c -> o_inline_depth o = 1%N) /\
    (o_sort o = SortName <-> cl_sort c = Some "name") /\
    (o_sort o = SortSize <-> cl_sort c = Some "size") /\
    (o_sort o = SortNone <-> cl_sort c = None).
Proof.
  intros c o H. apply parse_options_parts in H.
  destruct H as (d & p0 & H1 & H2 & _ & _ & _ & H3 & _).
  assert (O : (cl_output c = Some "html" /\ o_html o = true /\ o_http o = false /\ d = 1%N) \/
              (http c /\ o_html o = true /\ o_http o = true /\ d = 100%N) \/
              (~ http c /\ cl_output c <> Some "html" /\ o_html o = false /\ o_http o = false /\ d = 1%N)).
  { unfold http. unfold parse_output in H1. destruct (cl_output c) as [v|].
    - destruct (String.eqb_spec v "text") as [E1|N1]; [rewrite E1 in *; injection H1 as <- <- <- _; right; right|].
      { repeat split; discriminate || auto. }
      destruct (String.eqb_spec v "html") as [E2|N2]; [rewrite E2 in *; injection H1 as <- <- <- _; left; auto|].
      destruct (String.eqb_spec v "http") as [E3|N3]; [rewrite E3 in *; injection H1 as <- <- <- _|discriminate].
      right; left; auto.
    - injection H1 as <- <- <- _. right; right. repeat split; discriminate || auto. }
  assert (S : (cl_sort c = Some "name" /\ o_sort o = SortName) \/
              (cl_sort c = Some "size" /\ o_sort o = SortSize) \/
              (cl_sort c = None /\ o_sort o = SortNone)).
  { unfold parse_sort in H3. destruct (cl_sort c) as [v|]; [|right; right; split; congruence].
    destruct (String.eqb_spec v "name") as [E1|N1]; [rewrite E1 in *; left; split; congruence|].
    destruct (String.eqb_spec v "size") as [E2|N2]; [rewrite E2 in *; right; left; split; congruence|discriminate]. }
  conjs.
  - unfold http in *. destruct O as [(-> & -> & _)|[(-> & -> & _)|(N1 & N2 & -> & _)]]; try tauto.
    split; [discriminate|]. tauto.
  - unfold http in *. destruct O as [(-> & _ & -> & _)|[(-> & _ & -> & _)|(N1 & N2 & _ & -> & _)]];
      split; try tauto; discriminate.
  - intros s E. rewrite E in H2. now apply parse_usize_spec in H2.
  - intros E X. rewrite E in H2. injection H2 as <-. unfold http in *.
    destruct O as [(Q & _)|[(_ & _ & _ & ->)|(N & _)]]; [congruence|reflexivity|contradiction].
  - intros E X. rewrite E in H2. injection H2 as <-.
    destruct O as [(_ & _ & _ & ->)|[(N & _)|(_ & _ & _ & _ & ->)]]; [reflexivity|contradiction|reflexivity].
  - destruct S as [[-> ->]|[[-> ->]|[-> ->]]]; split; congruence.
  - destruct S as [[-> ->]|[[-> ->]|[-> ->]]]; split; congruence.
  - destruct S as [[-> ->]|[[-> ->]|[-> ->]]]; split; congruence.
Qed.
Print Assumptions C43_output_depth_sort.

Example C43_example :
  let c := mkCli (Some "http") (Some "+07") (Some ["type"; "unit"]) ["address"]
             ["name=f"; "namespace=a:::b"; "name=g=h"; "inline=no"] (Some "size") ["added"] [] in
  cli_accepted c /\
  exists o, parse_options c = Some o /\ o_inline_depth o = 7%N /\ f_name (o_filter o) = Some "g=h" /\
    f_namespace (o_filter o) = ["a"; ":b"] /\ f_function_inline (o_filter o) = Some false.
Proof.
  cbv zeta. rewrite <- C43_accepted. split; eexists; [reflexivity|].
  split; [reflexivity|]. repeat split.
Qed.

(** ** C44: the order of listings *)

Definition on_pairs {A} (f : hash -> A -> hash -> A -> comparison) (x y : hash * A) : comparison :=
  f (fst x) (snd x) (fst y) (snd y).
(** The outcome of comparing parameters is a consistent order. *)
Definition consistent (pc : param_cmp) : Prop := total_preorder (on_pairs pc).

(** The comparison of listed types. *)
Definition type_cmp_listed (o : options) (ha : hash) (a : type) (hb : hash) (b : type) : comparison :=
  match o_sort o with
  | SortNone => N.compare (t_offset a) (t_offset b)
  | SortName => cmp_key (type_key a) (type_key b)
  | SortSize => cmp_option N.compare (h_size ha a) (h_size hb b)
  end.

Lemma eq_tp {A} : total_preorder (fun _ _ : A => Eq).
Proof. split; auto; intros; discriminate. Qed.
Lemma unit_by_tp o : total_preorder (on_pairs (unit_cmp_by o)).
Proof.
  unfold on_pairs, unit_cmp_by. destruct (o_sort o).
  - apply eq_tp.
  - exact (cmp_on_tp (fun x : hash * unit => unit_path o (snd x)) cmp_string cmp_string_tp).
  - exact (cmp_on_tp (fun x : hash * unit => unit_size (h_sizes (fst x)) (snd x)) N.compare N_compare_tp).
Qed.
Lemma type_listed_tp o : total_preorder (on_pairs (type_cmp_listed o)).
Proof.
  unfold on_pairs, type_cmp_listed. destruct (o_sort o).
  - exact (cmp_on_tp (fun x : hash * type => t_offset (snd x)) N.compare N_compare_tp).
  - exact (cmp_on_tp (fun x : hash * type => type_key (snd x)) cmp_key cmp_key_tp).
  - exact (cmp_on_tp (fun x : hash * type => h_size (fst x) (snd x)) _ (cmp_option_tp _ N_compare_tp)).
Qed.
Lemma function_sort_then pc ha a hb b :
  function_cmp_for_sort pc ha a hb b =
  then_with (cmp_item (function_key a) (function_key b)) (pc ha a hb b).
Proof. unfold function_cmp_for_sort. rewrite function_cmp_id_key. now destruct (cmp_item _ _). Qed.
Lemma function_sort_tp pc : consistent pc -> total_preorder (on_pairs (function_cmp_for_sort pc)).
Proof.
  intros C. unfold on_pairs.
  assert (H : total_preorder (fun x y : hash * func =>
     then_with (cmp_item (function_key (snd x)) (function_key (snd y))) (on_pairs pc x y))).
  { apply then_with_tp; [|exact C].
    exact (cmp_on_tp (fun x : hash * func => function_key (snd x)) cmp_item cmp_item_tp). }
  destruct H as [R S T]. split; intros; rewrite ?function_sort_then in *;
    [apply R|apply S|eapply T; eauto].
Qed.
Lemma function_by_tp o pc : consistent pc -> total_preorder (on_pairs (function_cmp_by o pc)).
Proof.
  intros C. unfold on_pairs, function_cmp_by. destruct (o_sort o).
  - exact (cmp_on_tp (fun x : hash * func => opt64_get (fn_address (snd x))) _ (cmp_option_tp _ N_compare_tp)).
  - exact (function_sort_tp pc C).
  - exact (cmp_on_tp (fun x : hash * func => opt64_get (fn_size (snd x))) _ (cmp_option_tp _ N_compare_tp)).
Qed.
Lemma variable_by_tp o : total_preorder (on_pairs (variable_cmp_by o)).
Proof.
  unfold on_pairs, variable_cmp_by. destruct (o_sort o).
  - exact (cmp_on_tp (fun x : hash * var => opt64_get (va_address (snd x))) _ (cmp_option_tp _ N_compare_tp)).
  - pose proof (cmp_on_tp (fun x : hash * var => variable_key (snd x)) cmp_item cmp_item_tp) as [R S T].
    split; intros; rewrite ?variable_cmp_id_key in *; [apply R|apply S|eapply T; eauto].
  - exact (cmp_on_tp (fun x : hash * var => var_byte_size (h_sizes (fst x)) (snd x)) _
             (cmp_option_tp _ N_compare_tp)).
Qed.

Lemma unit_before_iff given o ha a hb b : maps given o ->
  unit_before given (o_sort o) ha a hb b <-> unit_cmp_by o ha a hb b = Lt.
Proof.
  intros M. unfold unit_before, unit_cmp_by. destruct (o_sort o).
  - split; [tauto|discriminate].
  - rewrite unit_cmp_id_path, cmp_string_lt. split.
    + intros (p & q & P & Q & L). apply (match_path_iff given o) in P, Q; auto. now subst.
    + intros L. exists (unit_path o a), (unit_path o b).
      rewrite !(match_path_iff given o) by assumption. auto.
  - now rewrite N.compare_lt_iff.
Qed.
Lemma type_before_iff o ha a hb b : is_listable a -> is_listable b ->
  type_before (o_sort o) ha a hb b <-> type_cmp_listed o ha a hb b = Lt.
Proof.
  intros LA LB. unfold type_before, type_cmp_listed. destruct (o_sort o).
  - now rewrite N.compare_lt_iff.
  - rewrite cmp_key_lt. split.
    + intros (k & i & l & j & A & B & H). apply type_identity_iff in A, B; auto.
      rewrite <- A, <- B. exact H.
    + intros H. destruct (type_key a) as [k i] eqn:KA, (type_key b) as [l j] eqn:KB.
      exists k, i, l, j. rewrite !type_identity_iff by assumption. auto.
  - apply opt_lt_iff.
Qed.
Lemma type_by_listed o ha a hb b : is_listable a -> is_listable b ->
  type_cmp_by o ha a hb b = type_cmp_listed o ha a hb b.
Proof.
  intros LA LB. unfold type_cmp_by, type_cmp_listed. destruct (o_sort o); auto.
  now apply type_cmp_id_key.
Qed.
Lemma function_before_iff o pc ha a hb b :
  function_before pc (o_sort o) ha a hb b <-> function_cmp_by o pc ha a hb b = Lt.
Proof.
  unfold function_before, function_cmp_by. destruct (o_sort o).
  - apply opt_lt_iff.
  - unfold function_cmp_for_sort. rewrite same_function_iff, function_cmp_id_key.
    assert ((exists i j, function_identity a i /\ function_identity b j /\ item_lt i j) <->
            cmp_item (function_key a) (function_key b) = Lt) as ->.
    { rewrite cmp_item_lt. split.
      - intros (i & j & A & B & L). apply function_identity_iff in A, B. now subst.
      - intros L. do 2 eexists. rewrite !function_identity_iff. eauto. }
    destruct (cmp_item _ _); split; try tauto; try discriminate.
    + intros [?|[_ H]]; [discriminate|exact H].
    + intros [?|[? _]]; discriminate.
  - apply opt_lt_iff.
Qed.
Lemma variable_before_iff o ha a hb b :
  variable_before (o_sort o) ha a hb b <-> variable_cmp_by o ha a hb b = Lt.
Proof.
  unfold variable_before, variable_cmp_by. destruct (o_sort o).
  - apply opt_lt_iff.
  - rewrite variable_cmp_id_key, cmp_item_lt. split.
    + intros (i & j & A & B & L). apply variable_identity_iff in A, B. now subst.
    + intros L. do 2 eexists. rewrite !variable_identity_iff. eauto.
  - apply opt_lt_iff.
Qed.

(** Units come in the order of the requested key, ties and unsorted units in file order. *)
Theorem C44_units_order :
  forall c o given h units, configured c o given ->
    ordered (fun a b => unit_before given (o_sort o) h a h b) (filter_units o units)
      (printed_units o h units).
Proof.
  intros c o given h units H. apply configured_maps in H. unfold printed_units, print_list.
  apply (sort_ordered _ (fun a b => unit_cmp_by o h a h b)); auto.
  - exact (cmp_on_tp (fun x => (h, x)) _ (unit_by_tp o)).
  - intros x y _ _. now apply unit_before_iff.
Qed.
Print Assumptions C44_units_order.

(** Types by offset, by kind and qualified name, or by size. *)
Theorem C44_types_order :
  forall o h u, c_type (o_category o) = true ->
    ordered (fun a b => type_before (o_sort o) h a h b) (filter_types o h false u)
      (printed_types o h u).
Proof.
  intros o h u C. unfold printed_types, print_list. rewrite C.
  assert (L : forall t, In t (filter_types o h false u) -> is_listable t).
  { intros t I. apply filter_In in I. destruct I as [_ I]. apply filter_type_iff in I.
    eapply listed_listable; eauto. }
  apply (sort_ordered _ (fun a b => type_cmp_listed o h a h b)).
  - exact (cmp_on_tp (fun x => (h, x)) _ (type_listed_tp o)).
  - intros. apply type_by_listed; auto.
  - intros. apply type_before_iff; auto.
Qed.
Print Assumptions C44_types_order.

(** Functions by address, by qualified name and then parameters, or by size. *)
Theorem C44_functions_order :
  forall o pc h u, consistent pc -> c_function (o_category o) = true ->
    ordered (fun a b => function_before pc (o_sort o) h a h b) (filter_functions o u)
      (printed_functions o pc h u).
Proof.
  intros o pc h u PC C. unfold printed_functions, print_list. rewrite C.
  apply (sort_ordered _ (fun a b => function_cmp_by o pc h a h b)); auto.
  - exact (cmp_on_tp (fun x => (h, x)) _ (function_by_tp o pc PC)).
  - intros. apply function_before_iff.
Qed.
Print Assumptions C44_functions_order.

(** Variables by address, by qualified name, or by size. *)
Theorem C44_variables_order :
  forall o h u, c_variable (o_category o) = true ->
    ordered (fun a b => variable_before (o_sort o) h a h b) (filter_variables o u)
      (printed_variables o h u).
Proof.
  intros o h u C. unfold printed_variables, print_list. rewrite C.
  apply (sort_ordered _ (fun a b => variable_cmp_by o h a h b)); auto.
  - exact (cmp_on_tp (fun x => (h, x)) _ (variable_by_tp o)).
  - intros. apply variable_before_iff.
Qed.
Print Assumptions C44_variables_order.

Definition ex_hash := mkHash (fun _ => None) (fun t => match t_kind t with TBase x => opt64_get (b_byte_size x) | _ => Some 8%N end) "a.out".
Definition ex_pc : param_cmp := fun _ a _ b => Nat.compare (List.length (fn_ranges a)) (List.length (fn_ranges b)).

(** Two functions of the same size stay in file order; a smaller one moves up. *)
Example C44_example :
  let f1 := ex_func 1 ["a"] "f" 16 9 false in
  let f2 := ex_func 2 ["a"] "e" 8 9 false in
  let f3 := ex_func 3 [] "g" 48 4 false in
  let u := mkUnit (Some "x.rs") [] [] [f1; f2; f3] [] in
  let run := fun sort => match parse_options (ex_cli None None [] [] sort [] []) with
                         | Some o => printed_functions o ex_pc ex_hash u | None => [] end in
  run (Some "size") = [f3; f1; f2] /\ run (Some "name") = [f3; f2; f1] /\ run None = [f2; f1; f3] /\
  consistent ex_pc.
Proof.
  repeat split; try reflexivity.
  - intros x. apply Nat.compare_refl.
  - intros x y. apply Nat.compare_antisym.
  - intros x y z. unfold on_pairs, ex_pc. rewrite !Nat.compare_le_iff. lia.
Qed.

(** ** C45: the rows of a comparison *)

Lemma sorted_weaken {A} (R S : A -> A -> Prop) l :
  (forall x y, R x y -> S x y) -> StronglySorted R l -> StronglySorted S l.
Proof.
  intros H. induction 1 as [|x l T IH F]; constructor; auto.
  eapply Forall_impl; [|exact F]. auto.
Qed.

(** Every listed unit of both files is in one row; two units share a row exactly if
    their rewritten paths agree, as far as there are partners. *)
Theorem C45_units_matched :
  forall c o given a b, configured c o given ->
    matched (same_unit given) (filter_units o a) (filter_units o b) (merged_units o a b).
Proof.
  intros c o given a b H. apply configured_maps in H. unfold merged_units. rewrite merge_all_total.
  assert (TP : total_preorder (unit_cmp_id o))
    by exact (cmp_on_tp (unit_path o) cmp_string cmp_string_tp).
  apply (merge_matched cmp_string cmp_string_tp (unit_path o) (unit_path o)).
  - apply stable_sort_perm.
  - apply stable_sort_perm.
  - exact (stable_sort_sorted _ TP _).
  - exact (stable_sort_sorted _ TP _).
  - intros x y _ _. now rewrite (same_unit_iff given o), unit_cmp_id_path.
Qed.
Print Assumptions C45_units_matched.

Theorem C45_types_matched :
  forall o ha a hb b,
    matched same_type (filter_types o ha true a) (filter_types o hb true b)
      (merged_types o ha a hb b).
Proof.
  intros o ha a hb b. unfold merged_types. rewrite merge_all_total.
  assert (L : forall h u t, In t (filter_types o h true u) -> is_listable t).
  { intros h u t I. apply filter_In in I. destruct I as [_ I]. apply filter_type_iff in I.
    eapply listed_listable; eauto. }
  set (kc := fun x y => cmp_key (type_key x) (type_key y)).
  assert (TP : total_preorder kc) by exact (cmp_on_tp type_key cmp_key cmp_key_tp).
  rewrite (stable_sort_ext (fun x y => type_cmp_id ha x ha y) kc)
    by (intros; apply type_cmp_id_key; eauto).
  rewrite (stable_sort_ext (fun x y => type_cmp_id hb x hb y) kc)
    by (intros; apply type_cmp_id_key; eauto).
  pose proof (stable_sort_perm kc (filter_types o ha true a)) as PA.
  pose proof (stable_sort_perm kc (filter_types o hb true b)) as PB.
  rewrite (merge_ext _ kc).
  - apply (merge_matched cmp_key cmp_key_tp type_key type_key); auto.
    + exact (stable_sort_sorted _ TP _).
    + exact (stable_sort_sorted _ TP _).
    + intros x y I J. apply same_type_iff; eauto.
  - intros x y I J. apply type_cmp_id_key.
    + apply (Permutation_in x PA) in I. eauto.
    + apply (Permutation_in y PB) in J. eauto.
Qed.
Print Assumptions C45_types_matched.

(** The rows of functions are divided by whether one of the functions in it has no
    code of its own. *)
Theorem C45_functions_matched :
  forall o pc ha a hb b with_code without, consistent pc ->
    merged_functions o pc ha a hb b = (with_code, without) ->
    exists rows, matched same_function (filter_functions o a) (filter_functions o b) rows /\
      selects (fun r => ~ row_without_code r) rows with_code /\
      selects row_without_code rows without.
Proof.
  intros o pc ha a hb b fs inl PC E. unfold merged_functions in E. rewrite merge_all_total in E.
  set (rows := merge _ _ _) in E. injection E as <- <-. exists rows.
  assert (RW : forall r, row_inlined r = true <-> row_without_code r).
  { clear. intros r. unfold row_without_code. destruct r as [x|y|x y]; cbn;
      rewrite ?orb_true_iff, ?is_none_iff; split.
    - intros H. exists x. auto.
    - intros (f & H & [E|[E|[(g & E)|(g & E)]]]); try discriminate. now injection E as <-.
    - intros H. exists y. auto.
    - intros (f & H & [E|[E|[(g & E)|(g & E)]]]); try discriminate. now injection E as <-.
    - intros [H|H]; [exists x|exists y]; eauto 10.
    - intros (f & H & [E|[E|[(g & E)|(g & E)]]]); try discriminate; injection E as <- <-; auto. }
  split; [|split].
  - unfold rows.
    assert (TPA : forall h, total_preorder (fun x y => function_cmp_for_sort pc h x h y)).
    { intros h. exact (cmp_on_tp (fun x => (h, x)) _ (function_sort_tp pc PC)). }
    assert (W : forall h x y, function_cmp_for_sort pc h x h y <> Gt ->
                  cmp_item (function_key x) (function_key y) <> Gt).
    { intros h x y. rewrite function_sort_then. destruct (cmp_item _ _); cbn; congruence. }
    rewrite (merge_ext _ (fun x y => cmp_item (function_key x) (function_key y)))
      by (intros; apply function_cmp_id_key).
    apply (merge_matched cmp_item cmp_item_tp function_key function_key).
    + apply stable_sort_perm.
    + apply stable_sort_perm.
    + eapply sorted_weaken; [|exact (stable_sort_sorted _ (TPA ha) _)]. intros x y. exact (W ha x y).
    + eapply sorted_weaken; [|exact (stable_sort_sorted _ (TPA hb) _)]. intros x y. exact (W hb x y).
    + intros x y _ _. now rewrite same_function_iff, function_cmp_id_key.
  - apply filter_selects. intros r _. rewrite negb_true_iff, <- not_true_iff_false, RW. reflexivity.
  - apply filter_selects. intros r _. apply RW.
Qed.
Print Assumptions C45_functions_matched.

Theorem C45_variables_matched :
  forall o a b,
    matched same_variable (filter_variables o a) (filter_variables o b) (merged_variables o a b).
Proof.
  intros o a b. unfold merged_variables. rewrite merge_all_total.
  set (kc := fun x y => cmp_item (variable_key x) (variable_key y)).
  assert (TP : total_preorder kc) by exact (cmp_on_tp variable_key cmp_item cmp_item_tp).
  rewrite !(stable_sort_ext variable_cmp_id kc) by (intros; apply variable_cmp_id_key).
  rewrite (merge_ext _ kc) by (intros; apply variable_cmp_id_key).
  apply (merge_matched cmp_item cmp_item_tp variable_key variable_key).
  - apply stable_sort_perm.
  - apply stable_sort_perm.
  - exact (stable_sort_sorted _ TP _).
  - exact (stable_sort_sorted _ TP _).
  - intros x y _ _. now rewrite same_variable_iff, variable_cmp_id_key.
Qed.
Print Assumptions C45_variables_matched.

(** Rows are visited in the order of the requested key of their new item (or the old
    one if there is no new one); added and deleted rows are left out if so requested. *)
Definition visited {A} (before : hash -> A -> hash -> A -> Prop) (o : options) (ha hb : hash)
    (rows out : list (merge_result A A)) : Prop :=
  exists p, ordered (row_before before ha hb) rows p /\ selects (row_wanted o) p out.

Lemma diff_rows_visited {A} (f g : hash -> A -> hash -> A -> comparison) before (P : A -> Prop) o ha hb rows :
  total_preorder (on_pairs g) ->
  (forall h x k y, P x -> P y -> f h x k y = g h x k y) ->
  (forall h x k y, P x -> P y -> (before h x k y <-> g h x k y = Lt)) ->
  (forall x, In x (lefts rows) \/ In x (rights rows) -> P x) ->
  visited before o ha hb rows (diff_rows f o ha hb rows).
Proof.
  intros TP FG LT PR. exists (stable_sort (merge_result_cmp f ha hb) rows). split.
  - apply (rows_ordered ha hb f g before P); auto.
    intros r I. apply PR. now apply row_in_side.
  - apply filter_selects. intros [x|y|x y] _; cbn; rewrite ?negb_true_iff; tauto.
Qed.

Theorem C45_rows_visited :
  forall c o given pc ha hb, configured c o given -> consistent pc ->
    (forall rows, visited (unit_before given (o_sort o)) o ha hb rows
                    (diff_rows (unit_cmp_by o) o ha hb rows)) /\
    (forall a b, visited (type_before (o_sort o)) o ha hb (merged_types o ha a hb b)
                    (diff_rows (type_cmp_by o) o ha hb (merged_types o ha a hb b))) /\
    (forall rows, visited (function_before pc (o_sort o)) o ha hb rows
                    (diff_rows (function_cmp_by o pc) o ha hb rows)) /\
    (forall rows, visited (variable_before (o_sort o)) o ha hb rows
                    (diff_rows (variable_cmp_by o) o ha hb rows)).
Proof.
  intros c o given pc ha hb H PC. apply configured_maps in H. conjs.
  - intros rows. apply (diff_rows_visited _ (unit_cmp_by o) _ (fun _ => True)); auto.
    + apply unit_by_tp.
    + intros. now apply unit_before_iff.
  - intros a b. apply (diff_rows_visited _ (type_cmp_listed o) _ is_listable).
    + apply type_listed_tp.
    + intros. now apply type_by_listed.
    + intros. now apply type_before_iff.
    + destruct (C45_types_matched o ha a hb b) as (PA & PB & _).
      assert (L : forall h u t, In t (filter_types o h true u) -> is_listable t).
      { intros h u t I. apply filter_In in I. destruct I as [_ I]. apply filter_type_iff in I.
        eapply listed_listable; eauto. }
      intros x [I|I]; [apply (Permutation_in x PA) in I|apply (Permutation_in x PB) in I]; eauto.
  - intros rows. apply (diff_rows_visited _ (function_cmp_by o pc) _ (fun _ => True)); auto.
    + now apply function_by_tp.
    + intros. apply function_before_iff.
  - intros rows. apply (diff_rows_visited _ (variable_cmp_by o) _ (fun _ => True)); auto.
    + apply variable_by_tp.
    + intros. apply variable_before_iff.
Qed.
Print Assumptions C45_rows_visited.

(** One function in common, one deleted, one added, and a duplicate without partner. *)
Example C45_example :
  let f n a := ex_func a [] n a 4 false in
  let ua := mkUnit None [] [] [f "x" 1; f "y" 2; f "x" 3]%N [] in
  let ub := mkUnit None [] [] [f "z" 5; f "x" 7]%N [] in
  match parse_options (ex_cli None None [] [] None ["deleted"] []) with
  | Some o =>
      let rows := fst (merged_functions o ex_pc ex_hash ua ex_hash ub) in
      rows = [MBoth (f "x" 1) (f "x" 7); MLeft (f "x" 3); MLeft (f "y" 2); MRight (f "z" 5)]%N /\
      diff_rows (function_cmp_by o ex_pc) o ex_hash ex_hash rows =
        [MRight (f "z" 5); MBoth (f "x" 1) (f "x" 7)]%N
  | None => False
  end.
Proof. split; reflexivity. Qed.

(** Equal items need not be paired when the same name occurs more than once: overloads
    are paired by position, so an unchanged function can be shown as changed. *)
Theorem C45_same_item_paired_refuted :
  exists o pc h ua ub x y, consistent pc /\ In x (un_functions ua) /\ In x (un_functions ub) /\
    x <> y /\ In (MBoth y x) (fst (merged_functions o pc h ua h ub)) /\
    In (MLeft x) (fst (merged_functions o pc h ua h ub)).
Proof.
  destruct (parse_options (ex_cli None None [] [] None [] [])) as [o|] eqn:E; [|discriminate].
  set (f n k := mkFunc k None (Some n) None None k 4%N [] false false).
  exists o, ex_pc, ex_hash, (mkUnit None [] [] [f "x" 1%N; f "x" 2%N] []),
    (mkUnit None [] [] [f "x" 2%N] []), (f "x" 2%N), (f "x" 1%N).
  injection E as <-.
  split. { destruct C44_example as (_ & _ & _ & H). exact H. }
  cbn. repeat split; auto. discriminate.
Qed.
Print Assumptions C45_same_item_paired_refuted.
