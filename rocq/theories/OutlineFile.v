(** The outline of the page of a file. *)
From Coq Require Import List Arith NArith Bool String Lia Permutation Sorted.
From Verif Require Import Base BaseProofs RangeModel TypeModel LayoutModel RefModel FileModel OptionsModel FilterModel DiffModel IdModel
  PrintModel PrintSpec HtmlSpec MarkSpec NameModel CodeModel ItemModel EntryModel ReportModel ItemProofs ItemShown EntryProofs ReportProofs RunPlain
  PropertiesListing OutlineSpec OutlineProofs OutlineNeat.
Import ListNotations.
Local Open Scope list_scope.

(** ** Sorting what is kept *)
Section Kept.
  Context {A : Type} (cmp : A -> A -> comparison) (TP : total_preorder cmp) (keep : A -> bool).
  Lemma insert_first x l : (forall y, In y l -> cmp x y <> Gt) -> insert cmp x l = x :: l.
  Proof. destruct l as [|y l]; intros H; [reflexivity|]. cbn. specialize (H y (or_introl eq_refl)). now destruct (cmp x y). Qed.
  Lemma insert_kept x l : StronglySorted (le_cmp cmp) l ->
    filter keep (insert cmp x l) = if keep x then insert cmp x (filter keep l) else filter keep l.
  Proof.
    induction 1 as [|y l S IH F]; cbn [insert filter]; [now destruct (keep x)|].
    destruct (cmp x y) eqn:C; cbn [filter].
    - destruct (keep x); [|reflexivity]. destruct (keep y) eqn:K; [cbn; now rewrite C|].
      symmetry. apply insert_first. intros z Z. apply filter_In in Z. destruct Z as [Z _].
      apply (tp_trans _ TP x y z); [now rewrite C|]. rewrite Forall_forall in F. now apply F.
    - destruct (keep x); [|reflexivity]. destruct (keep y) eqn:K; [cbn; now rewrite C|].
      symmetry. apply insert_first. intros z Z. apply filter_In in Z. destruct Z as [Z _].
      apply (tp_trans _ TP x y z); [now rewrite C|]. rewrite Forall_forall in F. now apply F.
    - rewrite IH. destruct (keep x), (keep y); try reflexivity. cbn. now rewrite C.
  Qed.
  Lemma sort_kept l : filter keep (stable_sort cmp l) = stable_sort cmp (filter keep l).
  Proof.
    induction l as [|x l IH]; cbn [stable_sort filter]; [reflexivity|].
    rewrite insert_kept by (now apply stable_sort_sorted). rewrite IH. now destruct (keep x).
  Qed.
End Kept.

Section File.
  Variables (alphanumeric : N -> bool) (o : options) (pc : param_cmp) (fuel : nat) (im : image).
  Hypothesis CONSISTENT : consistent pc.
  Hypothesis TEXT : o_html o = false.
  Local Notation short := (short_name alphanumeric).
  Local Notation web := (with_html true o).
  Local Notation depth := (N.to_nat (o_inline_depth o)).
  Local Notation at0 := (lines depth 0).

  (** What the lines of a unit are. *)
  Record part_of (u : unit) (p : unit_part) : Prop := {
    po_name : up_name p = txt "unit " ++ txt (unit_ref (un_name u) (im_dir im u));
    po_fields : exists d, print_unit_fields o im u = Some d /\ up_fields p = at0 d;
    po_types : exists d, print_types o fuel im u = Some d /\ up_types p = at0 d;
    po_functions : Forall2 (fun f x => fst x = sized f /\ exists d, print_function_in o fuel im u f = Some d /\ snd x = at0 d)
      (printed_functions o pc (im_hash im) u) (up_functions p);
    po_variables : exists d, print_variables o im u = Some d /\ up_variables p = at0 d }.

  (** All that is written as nothing but a link has a text: the functions that are called, if their addresses are left out, and
      base classes. *)
  Record links_named : Prop := {
    ln_calls : i_function_address (o_ignore o) = true ->
      forall a f, sc_function_at (im_scene im) a = Some f -> fn_name f <> Some ""%string;
    ln_bases : forall u t s i, In u (im_units im) -> In t (un_types u) -> t_kind t = TStruct s -> In i (s_inherits s) ->
      text_value (vw_ref_at (im_view im) (i_ty i)) <> [] }.

  Lemma titled_section c t b : labelled (txt t) [] = txt t ++ txt ":" -> heavy b -> filled (lines depth 1 (PSection c (txt t) b)) = titled t (at0 b).
  Proof.
    intros T H. cbn [lines]. rewrite T, (lines_at 2). unfold titled. specialize (H depth).
    destruct (at0 b) as [|x l] eqn:L; [reflexivity|]. destruct (filled (x :: l)) as [|y m] eqn:F; [specialize (H eq_refl); discriminate|].
    rewrite <- F. rewrite <- filled_deeper. reflexivity.
  Qed.
  Lemma parts (pr : func -> option pdoc) fs : forall d, all_printed pr fs = Some d ->
    exists l, Forall2 (fun f x => fst x = sized f /\ exists d, pr f = Some d /\ snd x = at0 d) fs l /\ at0 d = flat_map snd l /\
      (forall k, exists e, all_printed pr (filter (fun f => Bool.eqb (sized f) k) fs) = Some e /\
         at0 e = flat_map snd (filter (fun x : bool * list line => Bool.eqb (fst x) k) l)).
  Proof.
    induction fs as [|f fs IH]; intros d E; cbn [all_printed] in E; inv_bind.
    - exists []. split; [constructor|]. split; [reflexivity|]. intros k. now exists PNil.
    - destruct (IH _ H0) as (l & F & L & K). exists ((sized f, at0 x) :: l). split; [constructor; [split; [reflexivity|]; now exists x|exact F]|].
      split; [cbn [lines flat_map snd]; now rewrite L|]. intros k. destruct (K k) as (e & EE & LE). cbn [filter fst].
      destruct (Bool.eqb (sized f) k); [|now exists e]. exists (PSeq x e). cbn [all_printed]. rewrite H, EE. split; [reflexivity|].
      cbn [lines flat_map snd]. now rewrite LE.
  Qed.

  Lemma types_listed u t : In t (printed_types o (im_hash im) u) -> In t (un_types u).
  Proof.
    unfold printed_types. destruct (c_type (o_category o)); [|intros []]. intros I. apply (Permutation_in _ (stable_sort_perm _ _)) in I.
    unfold filter_types in I. now apply filter_In in I.
  Qed.
  Lemma functions_tp h : total_preorder (fun a b => function_cmp_by o pc h a h b).
  Proof.
    destruct (function_by_tp o pc CONSISTENT) as [R S T]. split.
    - intros x. exact (R (h, x)).
    - intros x y. exact (S (h, x) (h, y)).
    - intros x y z. exact (T (h, x) (h, y) (h, z)).
  Qed.
  Lemma printed_ext {A} (f g : A -> option pdoc) l : (forall x, f x = g x) -> all_printed f l = all_printed g l.
  Proof. intros H. induction l as [|x l IH]; [reflexivity|]. cbn [all_printed]. now rewrite H, IH. Qed.
  Lemma web_inlined sc dir n : forall x, print_inlined web n sc dir x = print_inlined o n sc dir x.
  Proof. induction n as [|n IH]; intros x; [reflexivity|]. rewrite !print_inlined_S, (printed_ext _ _ _ IH). reflexivity. Qed.
  Lemma web_function u f : print_function_in web fuel im u f = print_function_in o fuel im u f.
  Proof.
    unfold print_function_in, print_function, print_function_listed, print_function_body.
    rewrite (printed_ext _ _ _ (web_inlined (im_scene im) (im_dir im u) fuel)). reflexivity.
  Qed.
  Hypothesis NAMED : links_named.
  Lemma solid_call c : solid short (call_value o (im_scene im) c).
  Proof.
    unfold call_value. destruct (i_function_address (o_ignore o)) eqn:I; [|apply solid_full; discriminate].
    destruct (sc_function_at (im_scene im) (ca_to c)) as [f|] eqn:F.
    - apply solid_full. pose proof (ln_calls NAMED I _ _ F) as N. cbn [text_value app]. unfold ref_value, qualified. intros E.
      cbn [text_value app vcat] in E.
      apply app_eq_nil in E. destruct E as [_ E]. destruct (fn_name f) as [[|c0 n]|]; [now destruct N|discriminate|discriminate].
    - destruct (bind _ _) as [s|]; intros E; cbn [text_value nothing app] in *; [now rewrite E|discriminate].
  Qed.
  Lemma unit_outline u d : In u (im_units im) -> print_unit o pc fuel im u = Some d ->
    exists p e, print_unit web pc fuel im u = Some e /\ part_of u p /\ at0 d = as_text (c_unit (o_category o)) p /\
      filled (at0 e) = on_page (c_unit (o_category o)) p /\ tidy short e.
  Proof.
    intros IN E. unfold print_unit, print_unit_body in E. rewrite TEXT in E. inv_bind.
    rename H0 into FI, H1 into TY, H2 into VA, H3 into FU.
    assert (FT : fine short x1).
    { refine (fine_all short _ _ _ _ TY). intros t e T P. eapply fine_type; [|exact P]. unfold named_bases. destruct (t_kind t) eqn:KI; try exact I.
      intros i I. apply (ln_bases NAMED u t _ i IN (types_listed u t T) KI I). }
    assert (FV : fine short x2).
    { refine (fine_all short _ _ _ _ VA). intros v e _ P. apply some_eq in P. subst e. apply fine_variable. }
    assert (FF : forall l e, all_printed (print_function_in o fuel im u) l = Some e -> fine short e).
    { intros l e. apply fine_all. intros f g _ P. eapply fine_function; [apply solid_call|exact P]. }
    destruct (parts _ _ _ FU) as (l & FL & LL & K).
    destruct (K true) as (e1 & E1 & L1). destruct (K false) as (e2 & E2 & L2).
    set (p := mkPart (txt "unit " ++ txt (unit_ref (un_name u) (im_dir im u))) (at0 x0) (at0 x1) l (at0 x2)).
    pose (fns := if c_function (o_category o) then PSeq (PSection true (txt "functions") e1) (PSection true (txt "inlined functions") e2) else PNil).
    exists p, (PId (im_unit_id im u) (PLine [] (unit_value im u))
      (pseq [(if c_unit (o_category o) then x0 else PNil); PSection true (txt "types") x1; fns; PSection true (txt "variables") x2])).
    split.
    { unfold print_unit, print_unit_body.
      change (print_unit_fields web im u) with (print_unit_fields o im u). change (print_types web fuel im u) with (print_types o fuel im u).
      change (print_variables web im u) with (print_variables o im u). rewrite FI, TY, VA. cbn [bind o_html with_html o_category].
      unfold fns, print_some_functions. cbn [o_category].
      change (function_cmp_by web pc) with (function_cmp_by o pc). change (filter_functions web u) with (filter_functions o u).
      rewrite !(printed_ext (print_function_in web fuel im u) (print_function_in o fuel im u) _ (web_function u)).
      unfold printed_functions in E1, E2. destruct (c_function (o_category o)) eqn:CF; [|reflexivity].
      unfold print_list in *. rewrite (sort_kept _ (functions_tp (im_hash im))) in E1, E2.
      rewrite (filter_ext (fun f => Bool.eqb (sized f) true) sized) in E1 by (intros f; now destruct (sized f)).
      rewrite (filter_ext (fun f => Bool.eqb (sized f) false) (fun f => negb (sized f))) in E2 by (intros f; now destruct (sized f)).
      unfold collapsed_of. rewrite E1, E2. reflexivity. }
    split.
    { constructor; [reflexivity|now exists x0|now exists x1|exact FL|now exists x2]. }
    split.
    { unfold as_text, p. cbn [up_name up_fields up_types up_functions up_variables].
      cbn [pseq fold_right lines]. rewrite LL, app_nil_r. destruct (c_unit (o_category o)); [|reflexivity].
      cbn [lines]. rewrite (lines_at 1). reflexivity. }
    split.
    - unfold on_page, p. cbn [up_name up_fields up_types up_functions up_variables].
      match goal with |- filled (at0 (PId ?a ?h ?b)) = _ => change (at0 (PId a h b)) with (at0 h ++ lines depth 1 b) end. cbn [pseq fold_right].
      rewrite filled_app.
      change (lines depth 1 (PSeq (if c_unit (o_category o) then x0 else PNil) (PSeq (PSection true (txt "types") x1) (PSeq fns (PSeq (PSection true (txt "variables") x2) PNil)))))
        with (lines depth 1 (if c_unit (o_category o) then x0 else PNil) ++ lines depth 1 (PSection true (txt "types") x1) ++ lines depth 1 fns ++
              lines depth 1 (PSection true (txt "variables") x2) ++ []).
      rewrite !filled_app, !titled_section by (reflexivity || apply FT || apply FV). rewrite app_nil_r.
      assert (FN : filled (lines depth 1 fns) = titled "functions" (flat_map snd (filter fst l)) ++
        titled "inlined functions" (flat_map snd (filter (fun f : bool * list line => negb (fst f)) l))).
      { rewrite (filter_ext (fun x : bool * list line => Bool.eqb (fst x) true) fst) in L1 by (intros [[] ?]; reflexivity).
        rewrite (filter_ext (fun x : bool * list line => Bool.eqb (fst x) false) (fun x => negb (fst x))) in L2 by (intros [[] ?]; reflexivity).
        unfold fns. destruct (c_function (o_category o)) eqn:CF.
        - match goal with |- filled (lines depth 1 (PSeq ?a ?b)) = _ => change (lines depth 1 (PSeq a b)) with (lines depth 1 a ++ lines depth 1 b) end. rewrite filled_app, !titled_section by (reflexivity || eapply FF; eassumption).
          now rewrite L1, L2.
        - unfold printed_functions in FL. rewrite CF in FL. inversion FL. reflexivity. }
      rewrite FN. rewrite <- app_assoc. f_equal. f_equal.
      destruct (c_unit (o_category o)); [|reflexivity]. now rewrite (lines_at 1), filled_deeper.
    - cbn [tidy pseq fold_right]. split; [exists (unit_value im u); split; [reflexivity|discriminate]|].
      repeat split; try discriminate; try apply FT; try apply FV.
      + destruct (c_unit (o_category o)); [|exact I]. eapply tidy_unit_fields; eassumption.
      + unfold fns. destruct (c_function (o_category o)); [|exact I].
        split; (split; [discriminate|]; eapply FF; eassumption).
  Qed.
  Lemma units_outline units : (forall u, In u units -> In u (im_units im)) -> forall d, all_printed (print_unit o pc fuel im) units = Some d ->
    exists ps e, all_printed (print_unit web pc fuel im) units = Some e /\ Forall2 part_of units ps /\
      at0 d = flat_map (as_text (c_unit (o_category o))) ps /\ filled (at0 e) = flat_map (on_page (c_unit (o_category o))) ps /\ tidy short e.
  Proof.
    induction units as [|u units IH]; intros IN d E; cbn [all_printed] in E; inv_bind.
    - exists [], PNil. repeat split. constructor.
    - destruct (IH (fun v V => IN v (or_intror V)) _ H0) as (ps & e & PE & F & LD & LE & T).
      destruct (unit_outline u x (IN u (or_introl eq_refl)) H) as (p & e1 & PE1 & F1 & LD1 & LE1 & T1).
      exists (p :: ps), (PSeq e1 e). split; [cbn [all_printed]; now rewrite PE1, PE|]. split; [now constructor|].
      split; [cbn [lines flat_map]; now rewrite LD1, LD|]. split; [cbn [lines flat_map]; now rewrite filled_app, LE1, LE|]. now split.
  Qed.
  Lemma file_outline d : print_file o pc fuel im = Some d ->
    exists hs ps e, print_file web pc fuel im = Some e /\ Forall2 part_of (printed_units o (im_hash im) (im_units im)) ps /\
      (if c_file (o_category o) then exists h, print_file_header o im = Some h /\ hs = at0 h else hs = []) /\
      at0 d = hs ++ flat_map (as_text (c_unit (o_category o))) ps /\
      filled (at0 e) = filled hs ++ flat_map (on_page (c_unit (o_category o))) ps /\ tidy short e.
  Proof.
    intros E. unfold print_file in E. inv_bind.
    destruct (units_outline (printed_units o (im_hash im) (im_units im))) with (d := x0) as (ps & e & PE & F & LD & LE & T); [|exact H0|].
    { intros u U. unfold printed_units, print_list in U. apply (Permutation_in _ (stable_sort_perm _ _)) in U. now apply filter_In in U. }
    exists (at0 x), ps, (PSeq x e). split; [|split; [exact F|split; [|split; [|split]]]].
    - unfold print_file. change (c_file (o_category web)) with (c_file (o_category o)). change (print_file_header web im) with (print_file_header o im).
      rewrite H. cbn [bind]. change (printed_units web (im_hash im) (im_units im)) with (printed_units o (im_hash im) (im_units im)). now rewrite PE.
    - destruct (c_file (o_category o)); [now exists x|]. inv_bind. reflexivity.
    - cbn [lines]. now rewrite LD.
    - cbn [lines]. now rewrite filled_app, LE.
    - split; [|exact T]. destruct (c_file (o_category o)); [eapply tidy_file_header; eassumption|]. inv_bind. exact I.
  Qed.
End File.
