(** Property theorems C30, C31, C43, C44, C45: the command line, path mappings,
    filters, the order of listings, and the rows of a comparison. *)
From Coq Require Import List Arith NArith Bool String Ascii Lia Sorted Permutation.
From Coq Require Import ZifyBool ZifyNat ZifyN.
From Verif Require Import Base BaseProofs RangeModel NamespaceModel NamespaceSpec NamespaceProofs TypeModel
  LayoutModel FileModel DiffModel DiffSpec MergeProofs OptionsModel FilterModel FilterSpec
  OptionsProofs CliProofs FilterProofs.
Import ListNotations.
Local Open Scope string_scope.

Lemma configured_maps c o given : configured c o given -> maps given o.
Proof. intros [H1 H2]. eapply maps_parsed; eauto. Qed.

(** ** C30: path mappings *)

(** For every command line, every path is rewritten with its longest old prefix, and
    of several mappings for that prefix with the first. *)
Theorem C30_longest_prefix :
  forall c o given name, configured c o given ->
    forall new rest, prefix_map (o_prefix_map o) name = (new, rest) <-> rewrites given name new rest.
Proof.
  intros c o given name H new rest. apply configured_maps in H. rewrite H.
  pose proof (prefix_map_rewrites given name) as R. destruct (prefix_map _ _) as [n r]. split.
  - intros E. injection E as <- <-. exact R.
  - intros R'. destruct (rewrites_fun _ _ _ _ _ _ R R') as [-> ->]. reflexivity.
Qed.
Print Assumptions C30_longest_prefix.

(** Units are matched with each other exactly if their rewritten paths agree up to
    the first [@] of the remainder, and filtered by their rewritten paths. *)
Theorem C30_units_by_rewritten_path :
  forall c o given, configured c o given ->
    (forall a b, unit_cmp_id o a b = Eq <-> same_unit given a b) /\
    (forall a b, unit_cmp_id o a b = Lt <->
       exists p q, match_path given a p /\ match_path given b q /\ string_lt p q) /\
    (forall u, filter_unit o u = true <->
       forall f, f_unit (o_filter o) = Some f -> filter_path given u f).
Proof.
  intros c o given H. apply configured_maps in H. split; [|split].
  - intros a b. now rewrite (same_unit_iff given o).
  - intros a b. rewrite unit_cmp_id_path, cmp_string_lt. split.
    + intros L. exists (unit_path o a), (unit_path o b).
      rewrite !(match_path_iff given o) by assumption. auto.
    + intros (p & q & P & Q & L). apply (match_path_iff given o) in P, Q; auto. now subst.
  - intros u. now rewrite (filter_unit_iff given).
Qed.
Print Assumptions C30_units_by_rewritten_path.

(** Without mappings, paths are unchanged. *)
Theorem C30_no_mapping : forall name new rest, rewrites [] name new rest <-> new = "" /\ rest = name.
Proof.
  intros name new rest. split.
  - intros H. inversion H; subst; auto. destruct before; discriminate.
  - intros [-> ->]. apply rw_none. intros ? [].
Qed.
Print Assumptions C30_no_mapping.

Definition ex_cli (output : option string) category print filter sort ignore pm :=
  mkCli output None category print filter sort ignore pm.

(** Overlapping prefixes, a repeated prefix, and one that does not match. *)
Example C30_example :
  exists o given,
    configured (ex_cli None None [] [] None []
                  ["/a=/short"; "/a/b=/first"; "/a/b=/second"; "/zzzzzzzz=/no"]) o given /\
    prefix_map (o_prefix_map o) "/a/b/c.rs" = ("/first", "/c.rs") /\
    prefix_map (o_prefix_map o) "/a/x.rs" = ("/short", "/x.rs") /\
    prefix_map (o_prefix_map o) "b" = ("", "b").
Proof.
  eexists _, [("/a", "/short"); ("/a/b", "/first"); ("/a/b", "/second"); ("/zzzzzzzz", "/no")].
  split; [split; [reflexivity|]|auto].
  repeat constructor; intros (a & b & E);
    repeat (destruct a as [|? a]; [discriminate E|injection E as _ E]); destruct a; discriminate.
Qed.

(** ** C31: filters *)

(** Every listing consists of the items that satisfy all filters, in file order. *)
Theorem C31_units :
  forall c o given units, configured c o given ->
    selects (unit_listed given o) units (filter_units o units).
Proof.
  intros c o given units H. apply configured_maps in H. apply filter_selects. intros u _.
  now apply filter_unit_iff.
Qed.
Print Assumptions C31_units.

Theorem C31_types :
  forall o h diff u, selects (type_listed o (h_env h) diff u) (un_types u) (filter_types o h diff u).
Proof. intros o h diff u. apply filter_selects. intros t _. apply filter_type_iff. Qed.
Print Assumptions C31_types.

Theorem C31_functions :
  forall o u, selects (function_listed o) (un_functions u) (filter_functions o u).
Proof. intros o u. apply filter_selects. intros f _. apply filter_function_iff. Qed.
Print Assumptions C31_functions.

Theorem C31_variables :
  forall o u, selects (variable_listed o) (un_variables u) (filter_variables o u).
Proof. intros o u. apply filter_selects. intros f _. apply filter_variable_iff. Qed.
Print Assumptions C31_variables.

(** Where the position of an item is needed, it is the one in the file. *)
Definition indexed {A} (P : A -> Prop) (l : list A) (out : list (nat * A)) : Prop :=
  (forall i x, In (i, x) out <-> nth_error l i = Some x /\ P x) /\
  StronglySorted (fun p q => fst p < fst q) out.

Lemma filter_indexed {A} (P : A -> Prop) f l :
  (forall x, f x = true <-> P x) -> indexed P l (filter (fun p => f (snd p)) (enumerate l)).
Proof.
  intros H. split.
  - intros i x. rewrite filter_In, enumerate_in, H. reflexivity.
  - apply filter_sorted, enumerate_sorted.
Qed.

Theorem C31_indices :
  forall c o given, configured c o given ->
    (forall units, indexed (unit_listed given o) units (enumerate_and_filter_units o units)) /\
    (forall h diff u,
       indexed (type_listed o (h_env h) diff u) (un_types u) (enumerate_and_filter_types o h diff u)) /\
    (forall u, indexed (function_listed o) (un_functions u) (enumerate_and_filter_functions o u)) /\
    (forall u, indexed (variable_listed o) (un_variables u) (enumerate_and_filter_variables o u)).
Proof.
  intros c o given H. apply configured_maps in H. repeat apply conj; intros.
  - apply filter_indexed. intros. now apply filter_unit_iff.
  - apply (filter_indexed (type_listed o (h_env h) diff u)). intros. apply filter_type_iff.
  - apply filter_indexed. intros. apply filter_function_iff.
  - apply filter_indexed. intros. apply filter_variable_iff.
Qed.
Print Assumptions C31_indices.

Lemma category_parsed (g : category_opts -> bool) word c o :
  parse_options c = Some o ->
  g (mkCategoryOpts true true true true true) = true ->
  (forall l b, for_values parse_category l (mkCategoryOpts false false false false false) = Some b ->
     (g b = true <-> In word l)) ->
  (g (o_category o) = true <-> category_wanted c word).
Proof.
  intros H G W. apply parse_options_parts in H. destruct H as (d & p & _ & _ & H & _).
  unfold category_wanted, parse_categories in *. destruct (cl_category c) as [vs|].
  - rewrite (W _ _ H). split; [eauto|]. intros [?|(vs' & E & I)]; [discriminate|]. congruence.
  - injection H as <-. split; auto.
Qed.

(** What is printed for a unit: the items of the wanted categories that satisfy all
    filters. *)
Theorem C31_printed :
  forall c o given pc h u, configured c o given ->
    (forall t, In t (printed_types o h u) <->
       category_wanted c "type" /\ In t (un_types u) /\ type_listed o (h_env h) false u t) /\
    (forall f, In f (printed_functions o pc h u) <->
       category_wanted c "function" /\ In f (un_functions u) /\ function_listed o f) /\
    (forall v, In v (printed_variables o h u) <->
       category_wanted c "variable" /\ In v (un_variables u) /\ variable_listed o v).
Proof.
  intros c o given pc h u [H _].
  assert (G : forall A (cmp : A -> A -> comparison) (b : bool) (f : A -> bool) l W (P : A -> Prop) x,
    (b = true <-> W) -> (forall x, f x = true <-> P x) ->
    (In x (if b then stable_sort cmp (filter f l) else []) <-> W /\ In x l /\ P x)).
  { intros A cmp b f l W P x BW FP. destruct b.
    - split.
      + intros I. apply (Permutation_in x (stable_sort_perm cmp _)) in I. apply filter_In in I.
        rewrite FP in I. split; [now apply BW|exact I].
      + intros (_ & I & Q). apply (Permutation_in x (Permutation_sym (stable_sort_perm cmp _))).
        apply filter_In. rewrite FP. auto.
    - split; [intros []|]. intros [W' _]. apply BW in W'. discriminate. }
  split; [|split]; intros x.
  - apply (G type).
    + apply (category_parsed c_type); auto. intros l b E. now apply category_type.
    + intros. apply filter_type_iff.
  - apply (G func).
    + apply (category_parsed c_function); auto. intros l b E. now apply category_function.
    + intros. apply filter_function_iff.
  - apply (G var).
    + apply (category_parsed c_variable); auto. intros l b E. now apply category_variable.
    + intros. apply filter_variable_iff.
Qed.
Print Assumptions C31_printed.

(** Without [--filter] there is no condition on names, namespaces, units or inlining. *)
Theorem C31_no_filter :
  forall c o given, configured c o given -> cl_filter c = [] ->
    (forall u, unit_listed given o u) /\
    (forall f, function_listed o f <->
       fn_inline f = true \/ (opt64_get (fn_address f) <> None /\ opt64_get (fn_size f) <> None)) /\
    (forall v, variable_listed o v <-> va_declaration v = true \/ opt64_get (va_address v) <> None) /\
    (forall h u t, type_listed o h false u t <->
       t_offset t <> u64_max /\ ~ shown_inside h u (t_offset t) /\
       exists rank ns name, listable t rank ns name).
Proof.
  intros c o given [H _] E. apply parse_options_parts in H.
  destruct H as (d & p & _ & _ & _ & _ & H & _). rewrite E in H. cbn in H. injection H as H.
  unfold unit_listed, function_listed, variable_listed, type_listed, name_matches,
    namespace_matches, inline_matches. rewrite <- H. cbn.
  split; [discriminate|]. split; [|split].
  - intros f. split; [tauto|]. intros K. split; [exact K|]. split; [discriminate|]. split; [auto|discriminate].
  - intros v. split; [tauto|]. intros K. split; [exact K|]. split; [discriminate|auto].
  - intros h u t. split.
    + intros (A & B & k & ns & n & L & _). eauto 10.
    + intros (A & B & k & ns & n & L). split; [exact A|]. split; [exact B|].
      exists k, ns, n. split; [exact L|]. split; [discriminate|]. split; [auto|discriminate].
Qed.
Print Assumptions C31_no_filter.

(** Items with neither code nor inlined copies are never listed, filter or not. *)
Theorem C31_everything_listed_refuted :
  exists c o given u f, configured c o given /\ cl_filter c = [] /\ In f (un_functions u) /\
    ~ In f (filter_functions o u).
Proof.
  exists (ex_cli None None [] [] None [] []).
  eexists _, [], (mkUnit None [] [] [mkFunc 1 None (Some "f") None None u64_max u64_max [] false true] []), _.
  split; [split; [reflexivity|constructor]|]. split; [reflexivity|].
  split; [cbn; auto|]. intros [].
Qed.
Print Assumptions C31_everything_listed_refuted.

Definition ex_ns (l : list string) : option namespace :=
  fold_left (fun p n => Some (Ns p (Some n) KNamespace)) l None.
Definition ex_func off ns name (addr size : N) inline :=
  mkFunc off (ex_ns ns) (Some name) None None addr size [] inline false.

(** Two filters together: only the second function satisfies both. *)
Example C31_example :
  let u := mkUnit (Some "x.rs") [] []
    [ex_func 1 ["a"] "f" 16 4 false; ex_func 2 ["a"; "b"] "f" 32 4 false;
     ex_func 3 ["a"; "b"] "g" 48 4 false; ex_func 4 ["a"; "b"; "c"] "f" 64 0 false;
     ex_func 5 ["b"] "f" 80 4 false] [] in
  exists o given,
    configured (ex_cli None None [] ["name=f"; "namespace=a::b"] None [] []) o given /\
    map fst (enumerate_and_filter_functions o u) = [1; 3] /\
    function_listed o (ex_func 2 ["a"; "b"] "f" 32 4 false).
Proof.
  eexists _, []. split; [split; [reflexivity|constructor]|]. split; [reflexivity|].
  now apply filter_function_iff.
Qed.

(** Types: an anonymous structure (2), one shown inside another through an unnamed
    member (3), a closure (4, listed except in a comparison), a pointer (5), and the
    type that contains members of both (1). *)
Example C31_example_types :
  let st off name ms := mkType off (TStruct (mkStruct None name 8 false ms [] []))%N in
  let u := mkUnit None [] [st 1 (Some "s") [mkMember 11 None 3 0 u64_max; mkMember 12 (Some "m") 6 32 u64_max];
                           st 2 None []; st 3 (Some "in") []; st 4 (Some "closure") [];
                           mkType 5 (TModifier (mkModifier MPointer 1 None u64_max (Some 8)));
                           mkType 6 (TUnion (mkUnion None (Some "u") 4 false []))]%N [] [] in
  let h := mkHash (fun off => find (fun t => N.eqb (t_offset t) off) (un_types u)) (fun _ => None) "a.out" in
  exists o given,
    configured (ex_cli None None [] [] None [] []) o given /\
    map t_offset (filter_types o h false u) = [1; 4; 6]%N /\
    map t_offset (filter_types o h true u) = [1; 6]%N /\
    shown_inside (h_env h) u 3%N /\ shown_inside (h_env h) u 2%N.
Proof.
  eexists _, []. split; [split; [reflexivity|constructor]|]. split; [reflexivity|].
  split; [reflexivity|]. split.
  - eexists. split; [left; reflexivity|]. right. eexists. split; [constructor; left; reflexivity|].
    split; [left; reflexivity|reflexivity].
  - eexists. split; [right; left; reflexivity|]. left. split; [constructor; auto|reflexivity].
Qed.
