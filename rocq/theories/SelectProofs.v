(** Selecting leaves out items and changes nothing else. *)
From Coq Require Import List Arith NArith Bool String Permutation Sorted.
From Verif Require Import Base BaseProofs RangeModel TypeModel LayoutModel RefModel FileModel OptionsModel OptionsProofs CliProofs FilterModel FilterSpec FilterProofs
  DiffModel IdModel PrintModel PrintSpec NameModel CodeModel ItemModel EntryModel ReportModel ItemProofs ItemShown EntryProofs ReportProofs RunPlain
  PropertiesFilter PropertiesListing OutlineSpec OutlineProofs OutlineNeat OutlineFile SelectSpec.
Import ListNotations.
Local Open Scope list_scope.

Section Selected.
  Variables (c0 c1 : cli) (o0 o1 : options) (given : list (string * string)).
  Hypothesis P0 : configured c0 o0 given.
  Hypothesis P1 : configured c1 o1 given.
  Hypothesis SEL : only_selects c0 c1.
  Variables (pc : param_cmp) (fuel : nat) (im : image).
  Hypothesis CONSISTENT : consistent pc.
  Local Notation h := (im_hash im).

  Lemma same_options : o1 = mkOptions (o_print o0) (o_inline_depth o0) (o_html o0) (o_http o0) (o_category o1) (o_filter o1) (o_sort o0) (o_ignore o0) (o_prefix_map o0).
  Proof.
    destruct P0 as [H0 _], P1 as [H1 _], SEL as [_ _ R]. rewrite R in H1.
    apply parse_options_parts in H0, H1. destruct H0 as (d & p & A1 & A2 & A3 & A4 & A5 & A6 & A7 & A8).
    destruct H1 as (d' & p' & B1 & B2 & B3 & B4 & B5 & B6 & B7 & B8). cbn [cl_output cl_inline_depth cl_category cl_print cl_filter cl_sort cl_ignore cl_prefix_map] in *.
    rewrite A1 in B1. injection B1 as E1 E2 <- <-. rewrite A2 in B2. injection B2 as E3. rewrite A4 in B4. injection B4 as E4.
    rewrite A6 in B6. injection B6 as E6. rewrite A7 in B7. injection B7 as E7. rewrite A8 in B8. injection B8 as E8.
    rewrite E1, E2, E3, E4, E6, E7, E8. now destruct o1.
  Qed.
  Lemma all_filters : o_filter o0 = mkFilterOpts None None [] None.
  Proof.
    destruct P0 as [H0 _], SEL as [F _ _]. apply parse_options_parts in H0. destruct H0 as (d & p & _ & _ & _ & _ & A & _).
    rewrite F in A. cbn in A. now injection A as <-.
  Qed.
  Lemma all_categories : o_category o0 = mkCategoryOpts true true true true true.
  Proof.
    destruct P0 as [H0 _], SEL as [_ F _]. apply parse_options_parts in H0. destruct H0 as (d & p & _ & _ & A & _).
    rewrite F in A. cbn in A. now injection A as <-.
  Qed.

  (** ** Which items *)
  Lemma filter_twice {A} (f g : A -> bool) l : (forall x, f x = true -> g x = true) -> filter f l = filter f (filter g l).
  Proof.
    intros H. induction l as [|x l IH]; cbn [filter]; [reflexivity|]. destruct (f x) eqn:F.
    - rewrite (H x F). cbn [filter]. now rewrite F, IH.
    - destruct (g x); cbn [filter]; [rewrite F|]; exact IH.
  Qed.
  Lemma unit_kept u : filter_unit o1 u = true -> filter_unit o0 u = true.
  Proof. intros _. unfold filter_unit. now rewrite all_filters. Qed.
  Lemma function_kept f : filter_function o1 f = true -> filter_function o0 f = true.
  Proof.
    rewrite !filter_function_iff. intros (A & _). split; [exact A|]. rewrite all_filters. cbn.
    split; [intros s E; discriminate E|]. split; [now left|]. intros s E. discriminate E.
  Qed.
  Lemma variable_kept v : filter_variable o1 v = true -> filter_variable o0 v = true.
  Proof.
    rewrite !filter_variable_iff. intros (A & _). split; [exact A|]. rewrite all_filters. cbn.
    split; [intros s E; discriminate E|now left].
  Qed.
  Lemma type_kept u t : filter_type o1 false (inline_types u h) t = true -> filter_type o0 false (inline_types u h) t = true.
  Proof.
    rewrite !filter_type_iff. intros (A & B & k & ns & n & L & _). split; [exact A|]. split; [exact B|]. exists k, ns, n. split; [exact L|].
    rewrite all_filters. cbn. split; [intros s E; discriminate E|]. split; [now left|discriminate].
  Qed.
  Lemma sort_ext {A} (f g : A -> A -> comparison) l : (forall x y, In x l -> In y l -> f x y = g x y) -> stable_sort f l = stable_sort g l.
  Proof.
    assert (INS : forall x l, (forall y, In y l -> f x y = g x y) -> insert f x l = insert g x l).
    { intros x m. induction m as [|y m IH]; intros H; [reflexivity|]. cbn [insert]. rewrite (H y (or_introl eq_refl)).
      destruct (g x y); try reflexivity. f_equal. apply IH. intros z Z. apply H. now right. }
    induction l as [|x l IH]; intros H; [reflexivity|]. cbn [stable_sort]. rewrite IH by (intros; apply H; now right).
    apply INS. intros y Y. apply H; [now left|right]. now apply (Permutation_in _ (stable_sort_perm g l)) in Y.
  Qed.
  Lemma types_kept u : printed_types o1 h u = if c_type (o_category o1) then filter (filter_type o1 false (inline_types u h)) (printed_types o0 h u) else [].
  Proof.
    unfold printed_types. rewrite all_categories. cbn [c_type]. destruct (c_type (o_category o1)); [|reflexivity].
    unfold print_list, filter_types. cbv zeta. rewrite (filter_twice _ _ (un_types u) (type_kept u)).
    assert (L : forall o t, In t (filter (filter_type o false (inline_types u h)) (un_types u)) -> is_listable t).
    { intros o t I. apply filter_In in I. destruct I as [_ I]. apply filter_type_iff in I. eapply listed_listable; eauto. }
    rewrite <- filter_twice by apply type_kept.
    rewrite (sort_ext _ (fun a b => type_cmp_listed o0 h a h b) (filter (filter_type o1 false (inline_types u h)) (un_types u))).
    2: { intros x y X Y. rewrite (type_by_listed o1) by (eapply L; eassumption). unfold type_cmp_listed. now rewrite same_options. }
    rewrite (sort_ext _ (fun a b => type_cmp_listed o0 h a h b) (filter (filter_type o0 false (inline_types u h)) (un_types u))).
    2: { intros x y X Y. apply type_by_listed; eapply L; eassumption. }
    rewrite (sort_kept (fun a b => type_cmp_listed o0 h a h b) (cmp_on_tp (fun x => (h, x)) _ (type_listed_tp o0))).
    now rewrite <- (filter_twice _ _ (un_types u) (type_kept u)).
  Qed.
  Lemma functions_kept u : printed_functions o1 pc h u = if c_function (o_category o1) then filter (filter_function o1) (printed_functions o0 pc h u) else [].
  Proof.
    unfold printed_functions. rewrite all_categories. cbn [c_function]. destruct (c_function (o_category o1)); [|reflexivity].
    unfold print_list, filter_functions. rewrite (sort_kept _ (cmp_on_tp (fun x => (h, x)) _ (function_by_tp o0 pc CONSISTENT))).
    rewrite <- (filter_twice _ _ (un_functions u) function_kept). apply sort_ext. intros x y _ _. unfold function_cmp_by. now rewrite same_options.
  Qed.
  Lemma variables_kept u : printed_variables o1 h u = if c_variable (o_category o1) then filter (filter_variable o1) (printed_variables o0 h u) else [].
  Proof.
    unfold printed_variables. rewrite all_categories. cbn [c_variable]. destruct (c_variable (o_category o1)); [|reflexivity].
    unfold print_list, filter_variables. rewrite (sort_kept _ (cmp_on_tp (fun x => (h, x)) _ (variable_by_tp o0))).
    rewrite <- (filter_twice _ _ (un_variables u) variable_kept). apply sort_ext. intros x y _ _. unfold variable_cmp_by. now rewrite same_options.
  Qed.
  Lemma units_kept us : printed_units o1 h us = filter (filter_unit o1) (printed_units o0 h us).
  Proof.
    unfold printed_units, print_list, filter_units. rewrite (sort_kept _ (cmp_on_tp (fun x => (h, x)) _ (unit_by_tp o0))).
    rewrite <- (filter_twice _ _ us unit_kept). apply sort_ext. intros x y _ _. unfold unit_cmp_by, unit_path. now rewrite same_options.
  Qed.

  (** ** The lines of an item do not depend on what is selected *)
  Lemma type_same u t : print_type_in o1 fuel im u t = print_type_in o0 fuel im u t.
  Proof. rewrite same_options. reflexivity. Qed.
  Lemma variable_same u v : print_variable_in o1 im u v = print_variable_in o0 im u v.
  Proof. rewrite same_options. reflexivity. Qed.
  Lemma inlined_same sc dir n : forall x, print_inlined o1 n sc dir x = print_inlined o0 n sc dir x.
  Proof. induction n as [|n IH]; intros x; [reflexivity|]. rewrite !print_inlined_S, (printed_ext _ _ _ IH). rewrite same_options. reflexivity. Qed.
  Lemma function_same u f : print_function_in o1 fuel im u f = print_function_in o0 fuel im u f.
  Proof.
    unfold print_function_in, print_function, print_function_listed, print_function_body.
    rewrite (printed_ext _ _ _ (inlined_same (im_scene im) (im_dir im u) fuel)). rewrite same_options. reflexivity.
  Qed.

  (** ** Lines *)
  Hypothesis TEXT : o_html o0 = false.
  Local Notation at0 := (lines (N.to_nat (o_inline_depth o0)) 0).
  Definition entries {A} (pr : A -> option pdoc) (l : list A) (xs : list (A * list line)) : Prop :=
    Forall2 (fun a x => fst x = a /\ exists d, pr a = Some d /\ snd x = at0 d) l xs.
  Lemma entries_of {A} (pr : A -> option pdoc) l : forall d, all_printed pr l = Some d ->
    exists xs, entries pr l xs /\ at0 d = flat_map snd xs /\
      forall f, exists e, all_printed pr (filter f l) = Some e /\ at0 e = flat_map snd (filter (fun x => f (fst x)) xs).
  Proof.
    induction l as [|a l IH]; intros d E; cbn [all_printed] in E; inv_bind.
    - exists []. split; [constructor|]. split; [reflexivity|]. intros f. now exists PNil.
    - destruct (IH _ H0) as (xs & F & L & K). exists ((a, at0 x) :: xs). split; [constructor; [split; [reflexivity|]; now exists x|exact F]|].
      split; [cbn [lines flat_map snd]; now rewrite L|]. intros f. destruct (K f) as (e & EE & LE). cbn [filter fst].
      destruct (f a); [|now exists e]. exists (PSeq x e). cbn [all_printed]. rewrite H, EE. split; [reflexivity|].
      cbn [lines flat_map snd]. now rewrite LE.
  Qed.
  Lemma entries_kept {A} (pr : A -> option pdoc) (b : bool) (f : A -> bool) (P : A -> Prop) word l d :
    all_printed pr l = Some d -> (forall x, f x = true <-> P x) -> (b = true <-> category_wanted c1 word) ->
    exists xs e ys, entries pr l xs /\ at0 d = flat_map snd xs /\ all_printed pr (if b then filter f l else []) = Some e /\
      at0 e = flat_map snd ys /\ kept c1 word P xs ys.
  Proof.
    intros E FP W. destruct (entries_of pr l d E) as (xs & F & L & K). destruct b.
    - destruct (K f) as (e & EE & LE). exists xs, e, (filter (fun x => f (fst x)) xs). repeat (split; [assumption|]).
      split; [|intros N; now destruct N; apply W]. intros _. apply filter_selects. intros x _. apply FP.
    - exists xs, PNil, []. repeat (split; [first [assumption|reflexivity]|]). split; [|reflexivity]. intros N. apply W in N. discriminate.
  Qed.

  (** What is written for a unit when everything is selected. *)
  Record unit_written (x : unit_lines) : Prop := {
    uw_own : exists d, print_unit_fields o0 im (ul_unit x) = Some d /\
      ul_own x = Line 0 (txt "unit " ++ txt (unit_ref (un_name (ul_unit x)) (im_dir im (ul_unit x)))) :: deeper 1 (at0 d);
    uw_types : entries (print_type_in o0 fuel im (ul_unit x)) (printed_types o0 h (ul_unit x)) (ul_types x);
    uw_functions : entries (print_function_in o0 fuel im (ul_unit x)) (printed_functions o0 pc h (ul_unit x)) (ul_functions x);
    uw_variables : entries (print_variable_in o0 im (ul_unit x)) (printed_variables o0 h (ul_unit x)) (ul_variables x) }.
  Lemma fields_same u : print_unit_fields o1 im u = print_unit_fields o0 im u.
  Proof. rewrite same_options. reflexivity. Qed.
  Lemma text_same : o_html o1 = false.
  Proof. rewrite same_options. exact TEXT. Qed.
  Lemma unit_selected u d : print_unit o0 pc fuel im u = Some d ->
    exists x y e, ul_unit x = u /\ unit_written x /\ at0 d = lines_of_unit x /\
      print_unit o1 pc fuel im u = Some e /\ at0 e = lines_of_unit y /\ narrowed c1 o1 h x y.
  Proof.
    intros E. unfold print_unit, print_unit_body in E. rewrite TEXT in E. inv_bind.
    rename H0 into FI, H1 into TY, H2 into VA, H3 into FU. rewrite all_categories. cbn [c_unit].
    destruct P1 as [PO _].
    destruct (entries_kept _ (c_type (o_category o1)) (filter_type o1 false (inline_types u h)) (type_listed o1 (h_env h) false u) "type" _ _ TY)
      as (ts & te & ts' & TE & TL & TP & TL' & TK); [intros t; apply filter_type_iff|apply (category_parsed c_type); auto; intros l b; apply category_type|].
    destruct (entries_kept _ (c_function (o_category o1)) (filter_function o1) (function_listed o1) "function" _ _ FU)
      as (fs & fe & fs' & FE & FL & FP & FL' & FK); [intros t; apply filter_function_iff|apply (category_parsed c_function); auto; intros l b; apply category_function|].
    destruct (entries_kept _ (c_variable (o_category o1)) (filter_variable o1) (variable_listed o1) "variable" _ _ VA)
      as (vs & ve & vs' & VE & VL & VP & VL' & VK); [intros t; apply filter_variable_iff|apply (category_parsed c_variable); auto; intros l b; apply category_variable|].
    pose (own := Line 0 (txt "unit " ++ txt (unit_ref (un_name u) (im_dir im u))) :: deeper 1 (at0 x0)).
    assert (W : c_unit (o_category o1) = true <-> category_wanted c1 "unit") by (apply (category_parsed c_unit); auto; intros l b; apply category_unit).
    exists (mkUnitLines u own ts fs vs), (mkUnitLines u (if c_unit (o_category o1) then own else []) ts' fs' vs').
    exists (pseq [(if c_unit (o_category o1) then PTree false (PLine [] (unit_value im u)) x0 else PNil); te; fe; ve]).
    split; [reflexivity|]. split; [constructor; [now exists x0|exact TE|exact FE|exact VE]|]. split.
    { unfold lines_of_unit. cbn [ul_own ul_types ul_functions ul_variables]. cbn [pseq fold_right]. rewrite <- TL, <- FL, <- VL.
      cbn [lines]. rewrite app_nil_r, (lines_at 1). reflexivity. }
    split.
    { unfold print_unit, print_unit_body, print_types, print_functions, print_variables.
      rewrite fields_same, FI, types_kept, functions_kept, variables_kept, text_same. cbn [bind].
      rewrite (printed_ext _ _ _ (type_same u)), (printed_ext _ _ _ (variable_same u)), (printed_ext _ _ _ (function_same u)).
      rewrite TP, VP, FP. reflexivity. }
    split.
    { unfold lines_of_unit. cbn [ul_own ul_types ul_functions ul_variables]. cbn [pseq fold_right]. rewrite <- TL', <- FL', <- VL'.
      cbn [lines]. rewrite app_nil_r. destruct (c_unit (o_category o1)); [|reflexivity]. cbn [lines]. rewrite (lines_at 1). reflexivity. }
    constructor; cbn [ul_unit ul_own ul_types ul_functions ul_variables]; try assumption; [reflexivity|].
    destruct (c_unit (o_category o1)); split; intros C; try reflexivity; exfalso; [now apply C, W|now apply W in C].
  Qed.
  Lemma units_selected us : forall d, all_printed (print_unit o0 pc fuel im) us = Some d ->
    exists xs xs' ys e, map ul_unit xs = us /\ Forall unit_written xs /\ at0 d = flat_map lines_of_unit xs /\
      selects (fun x => unit_listed given o1 (ul_unit x)) xs xs' /\ Forall2 (narrowed c1 o1 h) xs' ys /\
      all_printed (print_unit o1 pc fuel im) (filter (filter_unit o1) us) = Some e /\ at0 e = flat_map lines_of_unit ys.
  Proof.
    induction us as [|u us IH]; intros d E; cbn [all_printed] in E; inv_bind.
    - exists [], [], [], PNil. repeat split; constructor.
    - destruct (IH _ H0) as (xs & xs' & ys & e & M & W & L & S & N & PE & LE).
      destruct (unit_selected u x H) as (a & b & e1 & MA & WA & LA & PA & LB & NA).
      pose proof (filter_unit_iff given o1 u (configured_maps _ _ _ P1)) as FI. cbn [filter].
      destruct (filter_unit o1 u) eqn:F.
      + exists (a :: xs), (a :: xs'), (b :: ys), (PSeq e1 e). split; [cbn [map]; now rewrite MA, M|]. split; [now constructor|].
        split; [cbn [lines flat_map]; now rewrite LA, L|]. split; [apply sel_keep; [rewrite MA; now apply FI|exact S]|]. split; [now constructor|].
        split; [cbn [all_printed]; now rewrite PA, PE|]. cbn [lines flat_map]. now rewrite LB, LE.
      + exists (a :: xs), xs', ys, e. split; [cbn [map]; now rewrite MA, M|]. split; [now constructor|].
        split; [cbn [lines flat_map]; now rewrite LA, L|]. split; [apply sel_drop; [rewrite MA; intros C; apply FI in C; discriminate|exact S]|].
        now split.
  Qed.
  Lemma file_selected d : print_file o0 pc fuel im = Some d ->
    exists hd hs xs xs' ys e, print_file_header o0 im = Some hd /\ hs = at0 hd /\
      map ul_unit xs = printed_units o0 h (im_units im) /\ Forall unit_written xs /\ at0 d = hs ++ flat_map lines_of_unit xs /\
      selects (fun x => unit_listed given o1 (ul_unit x)) xs xs' /\ Forall2 (narrowed c1 o1 h) xs' ys /\
      print_file o1 pc fuel im = Some e /\
      exists hs', at0 e = hs' ++ flat_map lines_of_unit ys /\ (category_wanted c1 "file" -> hs' = hs) /\ (~ category_wanted c1 "file" -> hs' = []).
  Proof.
    intros E. unfold print_file in E. rewrite all_categories in E. cbn [c_file] in E. inv_bind.
    destruct (units_selected _ _ H0) as (xs & xs' & ys & e & M & W & L & S & N & PE & LE).
    assert (C : c_file (o_category o1) = true <-> category_wanted c1 "file") by (destruct P1; apply (category_parsed c_file); auto; intros l b; apply category_file).
    assert (HD : print_file_header o1 im = print_file_header o0 im) by (rewrite same_options; reflexivity).
    exists x, (at0 x), xs, xs', ys, (PSeq (if c_file (o_category o1) then x else PNil) e). split; [exact H|]. split; [reflexivity|].
    split; [exact M|]. split; [exact W|]. split; [cbn [lines]; now rewrite L|]. split; [exact S|]. split; [exact N|]. split.
    - unfold print_file. rewrite HD, H, units_kept, PE. now destruct (c_file (o_category o1)).
    - exists (if c_file (o_category o1) then at0 x else []). split; [cbn [lines]; rewrite LE; now destruct (c_file (o_category o1))|].
      destruct (c_file (o_category o1)); split; intros B; try reflexivity; exfalso; [now apply B, C|now apply C in B].
  Qed.
End Selected.

(** ** Lists with elements left out *)
Lemma sub_none {A} (l : list A) : subsequence [] l.
Proof. induction l; now constructor. Qed.
Lemma sub_refl {A} (l : list A) : subsequence l l.
Proof. induction l; now constructor. Qed.
Lemma sub_app {A} (a b c d : list A) : subsequence a b -> subsequence c d -> subsequence (a ++ c) (b ++ d).
Proof. intros H K. induction H; cbn [app]; [exact K|now constructor|now constructor]. Qed.
Lemma sub_trans {A} (b c : list A) : subsequence b c -> forall a, subsequence a b -> subsequence a c.
Proof.
  induction 1 as [|x b c S IH|x b c S IH]; intros a H.
  - exact H.
  - inversion H; subst; constructor; now apply IH.
  - constructor. now apply IH.
Qed.
Lemma sub_selects {A B} (P : A -> Prop) (f : A -> list B) l m : selects P l m -> subsequence (flat_map f m) (flat_map f l).
Proof.
  induction 1 as [|x l m _ _ IH|x l m _ _ IH]; cbn [flat_map]; [constructor|apply sub_app; [apply sub_refl|exact IH]|].
  exact (sub_app [] (f x) _ _ (sub_none _) IH).
Qed.
Lemma category_wanted_dec c w : category_wanted c w \/ ~ category_wanted c w.
Proof.
  unfold category_wanted. destruct (cl_category c) as [vs|]; [|now left; left].
  destruct (in_dec string_dec w vs) as [I|I]; [left; right; now exists vs|right]. intros [E|(vs' & E & I')]; [discriminate|congruence].
Qed.
Lemma sub_kept {A} c w (P : A -> Prop) l m : kept c w P l m -> subsequence (flat_map snd m) (flat_map snd l).
Proof.
  intros [H K]. destruct (category_wanted_dec c w) as [W|W]; [exact (sub_selects _ snd _ _ (H W))|]. rewrite (K W). apply sub_none.
Qed.
Lemma sub_narrowed c o h l m : Forall2 (narrowed c o h) l m -> subsequence (flat_map lines_of_unit m) (flat_map lines_of_unit l).
Proof.
  induction 1 as [|x y l m [_ [O O'] T F V] _ IH]; cbn [flat_map]; [constructor|]. apply sub_app; [|exact IH]. unfold lines_of_unit.
  apply sub_app; [|apply sub_app; [eapply sub_kept; exact T|apply sub_app; eapply sub_kept; eassumption]].
  destruct (category_wanted_dec c "unit") as [W|W]; [rewrite (O W); apply sub_refl|rewrite (O' W); apply sub_none].
Qed.

(** ** Sorting *)
Section Sorted.
  Variables (c0 c1 : cli) (o0 o1 : options).
  Hypothesis P0 : parse_options c0 = Some o0.
  Hypothesis P1 : parse_options c1 = Some o1.
  Hypothesis SORT : only_sorts c0 c1.
  Variables (pc : param_cmp) (fuel : nat) (im : image).
  Local Notation h := (im_hash im).
  Local Notation at0 := (lines (N.to_nat (o_inline_depth o0)) 0).

  Lemma sort_options : o1 = mkOptions (o_print o0) (o_inline_depth o0) (o_html o0) (o_http o0) (o_category o0) (o_filter o0) (o_sort o1) (o_ignore o0) (o_prefix_map o0).
  Proof.
    pose proof P0 as H0. pose proof P1 as H1. rewrite SORT in H1.
    apply parse_options_parts in H0, H1. destruct H0 as (d & p & A1 & A2 & A3 & A4 & A5 & A6 & A7 & A8).
    destruct H1 as (d' & p' & B1 & B2 & B3 & B4 & B5 & B6 & B7 & B8). cbn [cl_output cl_inline_depth cl_category cl_print cl_filter cl_sort cl_ignore cl_prefix_map] in *.
    rewrite A1 in B1. injection B1 as E1 E2 <- <-. rewrite A2 in B2. injection B2 as E3. rewrite A4 in B4. injection B4 as E4.
    rewrite A3 in B3. injection B3 as E5. rewrite A5 in B5. injection B5 as E6. rewrite A7 in B7. injection B7 as E7. rewrite A8 in B8. injection B8 as E8.
    rewrite E1, E2, E3, E4, E5, E6, E7, E8. now destruct o1.
  Qed.

  (** ** The same items *)
  Lemma sorts_perm {A} (f g : A -> A -> comparison) l : Permutation (stable_sort f l) (stable_sort g l).
  Proof. etransitivity; [apply stable_sort_perm|symmetry; apply stable_sort_perm]. Qed.
  Lemma types_perm u : Permutation (printed_types o0 h u) (printed_types o1 h u).
  Proof.
    unfold printed_types. assert (E : o_category o1 = o_category o0) by (rewrite sort_options; reflexivity). rewrite E.
    destruct (c_type (o_category o0)); [|constructor]. assert (F : filter_types o1 h false u = filter_types o0 h false u) by (rewrite sort_options; reflexivity).
    rewrite F. apply sorts_perm.
  Qed.
  Lemma functions_perm u : Permutation (printed_functions o0 pc h u) (printed_functions o1 pc h u).
  Proof.
    unfold printed_functions. assert (E : o_category o1 = o_category o0) by (rewrite sort_options; reflexivity). rewrite E.
    destruct (c_function (o_category o0)); [|constructor]. assert (F : filter_functions o1 u = filter_functions o0 u) by (rewrite sort_options; reflexivity).
    rewrite F. apply sorts_perm.
  Qed.
  Lemma variables_perm u : Permutation (printed_variables o0 h u) (printed_variables o1 h u).
  Proof.
    unfold printed_variables. assert (E : o_category o1 = o_category o0) by (rewrite sort_options; reflexivity). rewrite E.
    destruct (c_variable (o_category o0)); [|constructor]. assert (F : filter_variables o1 u = filter_variables o0 u) by (rewrite sort_options; reflexivity).
    rewrite F. apply sorts_perm.
  Qed.
  Lemma units_perm us : Permutation (printed_units o0 h us) (printed_units o1 h us).
  Proof.
    unfold printed_units. assert (F : filter_units o1 us = filter_units o0 us) by (rewrite sort_options; reflexivity).
    rewrite F. apply sorts_perm.
  Qed.

  (** ** The same lines *)
  Lemma s_type u t : print_type_in o1 fuel im u t = print_type_in o0 fuel im u t.
  Proof. rewrite sort_options. reflexivity. Qed.
  Lemma s_variable u v : print_variable_in o1 im u v = print_variable_in o0 im u v.
  Proof. rewrite sort_options. reflexivity. Qed.
  Lemma s_inlined sc dir n : forall x, print_inlined o1 n sc dir x = print_inlined o0 n sc dir x.
  Proof. induction n as [|n IH]; intros x; [reflexivity|]. rewrite !print_inlined_S, (printed_ext _ _ _ IH). rewrite sort_options. reflexivity. Qed.
  Lemma s_function u f : print_function_in o1 fuel im u f = print_function_in o0 fuel im u f.
  Proof.
    unfold print_function_in, print_function, print_function_listed, print_function_body.
    rewrite (printed_ext _ _ _ (s_inlined (im_scene im) (im_dir im u) fuel)). rewrite sort_options. reflexivity.
  Qed.
  Lemma printed_by {A} (pr : A -> option pdoc) (x : A -> list line) l :
    (forall a, In a l -> exists d, pr a = Some d /\ x a = at0 d) -> exists e, all_printed pr l = Some e /\ at0 e = flat_map x l.
  Proof.
    induction l as [|a l IH]; intros H; [now exists PNil|]. destruct (H a (or_introl eq_refl)) as (d & E & L).
    destruct IH as (e & EE & LE); [intros b B; apply H; now right|]. exists (PSeq d e). cbn [all_printed]. rewrite E, EE. split; [reflexivity|].
    cbn [lines flat_map]. now rewrite L, LE.
  Qed.
  Lemma entries_in {A} (pr : A -> option pdoc) l xs : entries o0 pr l xs -> forall x, In x xs -> exists d, pr (fst x) = Some d /\ snd x = at0 d.
  Proof.
    induction 1 as [|a x l xs (F & d & E & L) _ IH]; intros y Y; [destruct Y|]. destruct Y as [<-|Y]; [|now apply IH]. exists d. now rewrite F.
  Qed.
  Lemma entries_fst {A} (pr : A -> option pdoc) l xs : entries o0 pr l xs -> map fst xs = l.
  Proof. induction 1 as [|a x l xs (F & _) _ IH]; cbn [map]; [reflexivity|]. now rewrite F, IH. Qed.
  Lemma entries_perm {A} (pr : A -> option pdoc) l l' : Permutation l l' -> forall d, all_printed pr l = Some d ->
    exists xs xs' e, entries o0 pr l xs /\ at0 d = flat_map snd xs /\ all_printed pr l' = Some e /\ at0 e = flat_map snd xs' /\
      entries o0 pr l' xs' /\ Permutation xs xs'.
  Proof.
    intros P d E. destruct (entries_of o0 pr l d E) as (xs & F & L & _).
    assert (Q : exists xs', map fst xs' = l' /\ Permutation xs xs').
    { apply Permutation_sym in P. rewrite <- (entries_fst _ _ _ F) in P. apply Permutation_map_inv in P. destruct P as (ys & M & P). now exists ys. }
    destruct Q as (xs' & M & Q). pose proof (entries_in _ _ _ F) as IN.
    assert (IN' : forall x, In x xs' -> exists d, pr (fst x) = Some d /\ snd x = at0 d) by (intros x X; apply IN; now apply (Permutation_in _ (Permutation_sym Q))).
    assert (G : exists e, all_printed pr l' = Some e /\ at0 e = flat_map snd xs').
    { clear - M IN'. revert l' M. induction xs' as [|x xs' IH]; intros l' <-; [now exists PNil|]. destruct (IN' x (or_introl eq_refl)) as (d & E & L).
      destruct (IH (fun y Y => IN' y (or_intror Y)) _ eq_refl) as (e & EE & LE). exists (PSeq d e). cbn [map all_printed]. rewrite E, EE. split; [reflexivity|].
      cbn [lines flat_map]. now rewrite L, LE. }
    destruct G as (e & EE & LE). exists xs, xs', e. repeat (split; [assumption|]). split; [|exact Q].
    clear - M IN'. revert l' M. induction xs' as [|x xs' IH]; intros l' <-; [constructor|]. cbn [map]. constructor; [split; [reflexivity|apply IN'; now left]|].
    apply (IH (fun y Y => IN' y (or_intror Y)) _ eq_refl).
  Qed.

  (** What is written for a unit. *)
  Record unit_shown (o : options) (x : unit_lines) : Prop := {
    us_own : exists d, print_unit_fields o im (ul_unit x) = Some d /\
      ul_own x = if c_unit (o_category o) then Line 0 (txt "unit " ++ txt (unit_ref (un_name (ul_unit x)) (im_dir im (ul_unit x)))) :: deeper 1 (at0 d) else [];
    us_types : entries o (print_type_in o fuel im (ul_unit x)) (printed_types o h (ul_unit x)) (ul_types x);
    us_functions : entries o (print_function_in o fuel im (ul_unit x)) (printed_functions o pc h (ul_unit x)) (ul_functions x);
    us_variables : entries o (print_variable_in o im (ul_unit x)) (printed_variables o h (ul_unit x)) (ul_variables x) }.
  Hypothesis TEXT : o_html o0 = false.
  Lemma unit_sorted u d : print_unit o0 pc fuel im u = Some d ->
    exists x y e, ul_unit x = u /\ unit_shown o0 x /\ at0 d = lines_of_unit x /\
      print_unit o1 pc fuel im u = Some e /\ at0 e = lines_of_unit y /\ rearranged x y.
  Proof.
    intros E. unfold print_unit, print_unit_body in E. rewrite TEXT in E. inv_bind.
    rename H0 into FI, H1 into TY, H2 into VA, H3 into FU.
    destruct (entries_perm _ _ _ (types_perm u) _ TY) as (ts & ts' & te & TE & TL & TP & TL' & _ & TK).
    destruct (entries_perm _ _ _ (functions_perm u) _ FU) as (fs & fs' & fe & FE & FL & FP & FL' & _ & FK).
    destruct (entries_perm _ _ _ (variables_perm u) _ VA) as (vs & vs' & ve & VE & VL & VP & VL' & _ & VK).
    pose (own := if c_unit (o_category o0) then Line 0 (txt "unit " ++ txt (unit_ref (un_name u) (im_dir im u))) :: deeper 1 (at0 x0) else []).
    assert (TEXT1 : o_html o1 = false) by (rewrite sort_options; exact TEXT).
    assert (CAT : o_category o1 = o_category o0) by (rewrite sort_options; reflexivity).
    assert (FS : print_unit_fields o1 im u = print_unit_fields o0 im u) by (rewrite sort_options; reflexivity).
    exists (mkUnitLines u own ts fs vs), (mkUnitLines u own ts' fs' vs').
    exists (pseq [(if c_unit (o_category o0) then PTree false (PLine [] (unit_value im u)) x0 else PNil); te; fe; ve]).
    split; [reflexivity|]. split; [constructor; [now exists x0|exact TE|exact FE|exact VE]|].
    assert (OWN : at0 (if c_unit (o_category o0) then PTree false (PLine [] (unit_value im u)) x0 else PNil) = own).
    { subst own. destruct (c_unit (o_category o0)); [|reflexivity]. cbn [lines]. rewrite (lines_at 1). reflexivity. }
    split.
    { unfold lines_of_unit. cbn [ul_own ul_types ul_functions ul_variables]. cbn [pseq fold_right]. rewrite <- TL, <- FL, <- VL.
      cbn [lines]. now rewrite app_nil_r, <- OWN. }
    split.
    { unfold print_unit, print_unit_body, print_types, print_functions, print_variables.
      rewrite FS, FI, TEXT1, CAT. cbn [bind].
      rewrite (printed_ext _ _ _ (s_type u)), (printed_ext _ _ _ (s_variable u)), (printed_ext _ _ _ (s_function u)).
      rewrite TP, VP, FP. reflexivity. }
    split.
    { unfold lines_of_unit. cbn [ul_own ul_types ul_functions ul_variables]. cbn [pseq fold_right]. rewrite <- TL', <- FL', <- VL'.
      cbn [lines]. now rewrite app_nil_r, <- OWN. }
    now constructor.
  Qed.
  Lemma units_sorted us : forall d, all_printed (print_unit o0 pc fuel im) us = Some d ->
    exists l : list (unit_lines * unit_lines), map (fun p => ul_unit (fst p)) l = us /\ Forall (fun p => unit_shown o0 (fst p) /\ rearranged (fst p) (snd p)) l /\
      at0 d = flat_map (fun p => lines_of_unit (fst p)) l /\
      Forall (fun p => exists e, print_unit o1 pc fuel im (ul_unit (fst p)) = Some e /\ at0 e = lines_of_unit (snd p)) l.
  Proof.
    induction us as [|u us IH]; intros d E; cbn [all_printed] in E; inv_bind.
    - exists []. repeat split; constructor.
    - destruct (IH _ H0) as (l & M & W & L & Q). destruct (unit_sorted u x H) as (a & b & e & MA & WA & LA & PA & LB & NA).
      exists ((a, b) :: l). split; [cbn [map fst]; now rewrite MA, M|]. split; [now constructor|].
      split; [cbn [lines flat_map fst]; now rewrite LA, L|]. constructor; [|exact Q]. cbn [fst snd]. rewrite MA. now exists e.
  Qed.
  Lemma file_sorted d : print_file o0 pc fuel im = Some d ->
    exists hs xs xs' ys e, map ul_unit xs = printed_units o0 h (im_units im) /\ Forall (unit_shown o0) xs /\ at0 d = hs ++ flat_map lines_of_unit xs /\
      Permutation xs xs' /\ Forall2 rearranged xs' ys /\ print_file o1 pc fuel im = Some e /\ at0 e = hs ++ flat_map lines_of_unit ys /\
      map ul_unit ys = printed_units o1 h (im_units im).
  Proof.
    intros E. unfold print_file in E. inv_bind. destruct (units_sorted _ _ H0) as (l & M & W & L & Q).
    assert (R : exists l', map (fun p => ul_unit (fst p)) l' = printed_units o1 h (im_units im) /\ Permutation l l').
    { pose proof (Permutation_sym (units_perm (im_units im))) as P. rewrite <- M in P. apply Permutation_map_inv in P. destruct P as (l' & M' & P). now exists l'. }
    destruct R as (l' & M' & P).
    assert (Q' : Forall (fun p => exists e, print_unit o1 pc fuel im (ul_unit (fst p)) = Some e /\ at0 e = lines_of_unit (snd p)) l') by (eapply Permutation_Forall; eassumption).
    assert (W' : Forall (fun p => unit_shown o0 (fst p) /\ rearranged (fst p) (snd p)) l') by (eapply Permutation_Forall; eassumption).
    assert (G : exists e, all_printed (print_unit o1 pc fuel im) (printed_units o1 h (im_units im)) = Some e /\ at0 e = flat_map (fun p => lines_of_unit (snd p)) l').
    { rewrite <- M'. clear - Q'. induction Q' as [|p l (d & E & L) _ (e & EE & LE)]; [now exists PNil|]. exists (PSeq d e). cbn [map all_printed].
      rewrite E, EE. split; [reflexivity|]. cbn [lines flat_map]. now rewrite L, LE. }
    destruct G as (e & EE & LE).
    assert (FM : forall (f : unit_lines * unit_lines -> unit_lines) k, flat_map (fun p => lines_of_unit (f p)) k = flat_map lines_of_unit (map f k)).
    { intros f k. induction k as [|p k IH]; [reflexivity|]. cbn [flat_map map]. now rewrite IH. }
    assert (HD : (if c_file (o_category o1) then print_file_header o1 im else Some PNil) = Some x) by (rewrite sort_options; exact H).
    exists (at0 x), (map fst l), (map fst l'), (map snd l'), (PSeq x e). split; [now rewrite map_map|]. split.
    { apply Forall_forall. intros y Y. apply in_map_iff in Y. destruct Y as (p & <- & Y). rewrite Forall_forall in W. now apply W. }
    split; [cbn [lines]; now rewrite L, <- FM|]. split; [now apply Permutation_map|]. split.
    { clear - W'. induction W' as [|p k [_ R] _ IH]; cbn [map]; now constructor. }
    split; [unfold print_file; now rewrite HD, EE|]. split; [cbn [lines]; now rewrite LE, FM|].
    rewrite map_map, <- M'. apply map_ext_in. intros p I. rewrite Forall_forall in W'. destruct (W' p I) as [_ [U _ _ _ _]]. exact U.
  Qed.
End Sorted.
