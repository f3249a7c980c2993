(** When there is an output, and that it does not depend on the depth. *)
From Coq Require Import List Arith NArith ZArith Bool String Lia Permutation Sorting.Sorted.
From Verif Require Import Base BaseProofs RangeModel NamespaceModel TypeModel TypeSpec FileModel FileSpec FilterModel FilterSpec
  FilterProofs PropertiesFilter PrintModel PrintSpec PrintProofs RefModel ItemModel ItemProofs ItemSpec ItemShown PropertiesItem OptionsModel EntryModel EntrySpec
  CodeModel EntryShown PropertiesEntry ReportModel ReportSpec.
From Verif Require DieModel WholeModel.
Import ListNotations.
Local Open Scope N_scope.

Section Out.
  Variables (o : options) (pc : param_cmp) (im : image).
  Hypothesis HTML : o_html o = false.

  Lemma fields_ex u : exists p, print_unit_fields o im u = Some p.
  Proof.
    unfold print_unit_fields. cbv zeta.
    destruct (all_printed_ex print_range (unit_ranges (im_sizes im) u)) as (p & E); [intros; unfold print_range; eauto|].
    destruct (all_printed_ex print_range (unit_unknown_ranges (im_sizes im) u)) as (q & F); [intros; unfold print_range; eauto|].
    rewrite E, F. unfold collapsed_of. cbn [bind option_map]. destruct (p_unit_address (o_print o)); [|cbn; eauto].
    destruct (1 <? _)%nat; cbn; eauto.
  Qed.
  Lemma header_ex : exists p, print_file_header o im = Some p.
  Proof.
    unfold print_file_header. cbv zeta.
    destruct (all_printed_ex print_range (file_ranges (im_sizes im) (im_units im))) as (p & E); [intros; unfold print_range; eauto|].
    destruct (all_printed_ex (fun s => Some (print_section s)) (im_sections im)) as (q & F); [eauto|].
    rewrite E, F. unfold collapsed_of. cbn [bind option_map]. destruct (p_file_address (o_print o)); cbn; eauto.
  Qed.

  Lemma unit_deeper f f' u p : (f <= f')%nat -> print_unit o pc f im u = Some p -> print_unit o pc f' im u = Some p.
  Proof.
    intros L. unfold print_unit, print_unit_body. rewrite HTML.
    destruct (print_unit_fields o im u) as [fields|]; [|discriminate]. cbn [bind].
    destruct (print_types o f im u) as [ts|] eqn:T; [|discriminate]. cbn [bind].
    unfold print_types in *. rewrite (all_printed_mono _ (print_type_in o f' im u) _ _ (fun x q _ => C59_depth o f f' _ _ x q L) T).
    destruct (print_variables o im u) as [vs|]; [|discriminate]. cbn [bind].
    destruct (print_functions o pc f im u) as [fs|] eqn:F; [|discriminate]. cbn [bind].
    unfold print_functions in *. rewrite (all_printed_mono _ (print_function_in o f' im u) _ _ (fun x q _ => C64_depth o f f' _ _ x q L) F).
    auto.
  Qed.
  Lemma file_deeper f f' p : (f <= f')%nat -> print_file o pc f im = Some p -> print_file o pc f' im = Some p.
  Proof.
    intros L. unfold print_file. destruct (if c_file (o_category o) then _ else _) as [h|]; [|discriminate]. cbn [bind].
    destruct (all_printed (print_unit o pc f im) _) as [us|] eqn:U; [|discriminate]. cbn [bind].
    rewrite (all_printed_mono _ (print_unit o pc f' im) _ _ (fun x q _ => unit_deeper f f' x q L) U). auto.
  Qed.

  (** Enough depth for all items of a list. *)
  Lemma deep_enough {A} (pr : nat -> A -> option pdoc) l :
    (forall f f' x p, (f <= f')%nat -> pr f x = Some p -> pr f' x = Some p) ->
    (forall x, In x l -> exists f p, pr f x = Some p) -> exists f p, all_printed (pr f) l = Some p.
  Proof.
    intros M. induction l as [|x l IH]; intros H; [exists O; cbn; eauto|].
    destruct (H x (or_introl eq_refl)) as (f & p & E). destruct IH as (g & q & F); [intros; apply H; now right|].
    exists (max f g). cbn [all_printed]. rewrite (M f (max f g) x p) by (auto; lia). cbn [bind].
    rewrite (all_printed_mono (pr g) (pr (max f g)) l q (fun y d _ => M g (max f g) y d (Nat.le_max_r f g)) F). cbn; eauto.
  Qed.

  Hypothesis TYPES : forall u t v, In u (im_units im) -> In t (un_types u) ->
    shows_members (im_view im) t v -> nests (im_view im) v.
  Hypothesis FUNCTIONS : forall u f, In u (im_units im) -> In f (un_functions u) ->
    (p_function_calls (o_print o) = true -> exists l, calls (im_scene im) f = Some l) /\
    (p_function_instructions (o_print o) = true -> exists p, print_instructions (im_scene im) f = Some p).

  Lemma listed_in u t : In t (printed_types o (im_hash im) u) -> In t (un_types u) /\ printable t.
  Proof.
    unfold printed_types. destruct (c_type (o_category o)); [|intros []]. unfold print_list. intros I.
    apply (Permutation_in _ (stable_sort_perm _ _)) in I.
    pose proof (C31_types o (im_hash im) false u) as S.
    assert (X : In t (un_types u) /\ type_listed o (h_env (im_hash im)) false u t).
    { revert I. clear - S. induction S as [|y l l' Py S IH|y l l' NP S IH]; cbn; [intros []| |].
      - intros [->|I]; [auto|]. destruct (IH I). auto.
      - intros I. destruct (IH I). auto. }
    split; [apply X|]. destruct X as (_ & _ & _ & rank & ns & name & LS & _). destruct LS; exact Logic.I.
  Qed.
  Lemma function_in u f : In f (printed_functions o pc (im_hash im) u) -> In f (un_functions u).
  Proof.
    unfold printed_functions. destruct (c_function (o_category o)); [|intros []]. unfold print_list. intros I.
    apply (Permutation_in _ (stable_sort_perm _ _)) in I. unfold filter_functions in I. now apply filter_In in I.
  Qed.

  Lemma unit_ex u : In u (im_units im) -> exists f p, print_unit o pc f im u = Some p.
  Proof.
    intros IU. destruct (fields_ex u) as (fields & EF).
    destruct (deep_enough (fun f => print_type_in o f im u) (printed_types o (im_hash im) u)) as (f & ts & ET).
    { intros f f' x p. apply C59_depth. }
    { intros t I. apply listed_in in I. destruct I as (It & PT). apply C59_terminates; [exact PT|].
      intros v SM. exact (TYPES u t v IU It SM). }
    destruct (deep_enough (fun f => print_function_in o f im u) (printed_functions o pc (im_hash im) u)) as (g & fs & EG).
    { intros h h' x p. apply C64_depth. }
    { intros x I. apply function_in in I. apply C64_terminates. now apply (FUNCTIONS u). }
    destruct (all_printed_ex (print_variable_in o im u) (printed_variables o (im_hash im) u)) as (vs & EV).
    { intros. unfold print_variable_in. eauto. }
    exists (max f g). unfold print_unit, print_unit_body. rewrite HTML, EF. unfold print_types, print_functions, print_variables.
    rewrite (all_printed_mono _ (print_type_in o (max f g) im u) _ _ (fun x q _ => C59_depth o f (max f g) _ _ x q (Nat.le_max_l f g)) ET).
    rewrite (all_printed_mono _ (print_function_in o (max f g) im u) _ _ (fun x q _ => C64_depth o g (max f g) _ _ x q (Nat.le_max_r f g)) EG).
    rewrite EV. cbn [bind]. eauto.
  Qed.
  Lemma file_ex : exists f p, print_file o pc f im = Some p.
  Proof.
    destruct (deep_enough (fun f => print_unit o pc f im) (printed_units o (im_hash im) (im_units im))) as (f & us & E).
    { intros f f' x p. apply unit_deeper. }
    { intros u I. apply unit_ex. unfold printed_units, print_list in I.
      apply (Permutation_in _ (stable_sort_perm _ _)) in I. unfold filter_units in I. now apply filter_In in I. }
    exists f. unfold print_file. destruct header_ex as (h & EH). rewrite E.
    destruct (c_file (o_category o)); [rewrite EH|]; cbn [bind]; eauto.
  Qed.
End Out.
