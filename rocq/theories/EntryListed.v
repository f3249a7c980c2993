(** What is printed for a function whose local variables are listed in another order. *)
From Coq Require Import List Arith NArith ZArith Bool String Lia Permutation Sorting.Sorted.
From Verif Require Import Base BaseProofs RangeModel NamespaceModel TypeModel LayoutModel CfiModel FileModel DieModel
  OptionsModel FilterModel PrintModel PrintSpec PrintProofs NameModel RefModel LocationModel CodeModel ItemModel
  ItemSpec ItemProofs ItemShown EntryModel EntrySpec EntryProofs EntryShown.
Import ListNotations.
Local Open Scope N_scope.

Lemma listed_printed o fuel sc dir f vars inner p depth : print_function_listed o fuel sc dir f vars inner = Some p ->
  exists ps more, each (formal_shown o sc 2) (de_parameters (sc_details sc f)) ps /\
    lines depth 0 p =
      Line 0 (txt "fn " ++ function_name f) ::
       labelled_line 1 "linkage name" (match fn_linkage_name f with Some n => txt n | None => [] end) ++
       labelled_line 1 "symbol name" (match fn_symbol_name f with Some n => txt n | None => [] end) ++
       (if p_source (o_print o) then labelled_line 1 "source" (source_text dir (sc_function_source sc f)) else []) ++
       ranges_shown 1 (fn_ranges f) ++
       labelled_line 1 "size" (match known (fn_size f) with Some n => dec n | None => [] end) ++
       labelled_line 1 "inline" (if fn_inline f then txt "yes" else []) ++
       labelled_line 1 "declaration" (if fn_declaration f then txt "yes" else []) ++
       under 1 "return type" (text_line 2 (returns_shown sc f)) ++
       under 1 "parameters" ps ++ more ++ [Blank].
Proof.
  unfold print_function_listed, print_function_body. cbv zeta. intros E.
  apply bind_some in E. destruct E as (body & E & EP). apply some_eq in EP. rewrite <- EP. clear EP p.
  apply bind_some in E. destruct E as (ad & EA & E). apply bind_some in E. destruct E as (ps & EPS & E).
  apply bind_some in E. destruct E as (vs & EV & E). apply bind_some in E. destruct E as (fs & EF & E).
  apply bind_some in E. destruct E as (inn & EI & E). apply bind_some in E. destruct E as (cs & EC & E).
  apply bind_some in E. destruct E as (code & ECO & E). apply some_eq in E. rewrite <- E. clear E body.
  cbn [lines]. rewrite pseq_lines. cbn [flat_map].
  rewrite !field_line by discriminate. rewrite (addresses_lines _ _ _ _ EA).
  unfold section_of in EPS. apply bind_some in EPS. destruct EPS as (ps' & EPS & [= <-]).
  exists (lines depth 2 ps'), (lines depth 1 vs ++ lines depth 1 fs ++ lines depth 1 (PInline inn) ++ lines depth 1 cs ++ lines depth 1 code).
  split; [exact (each_lines _ _ _ _ _ _ (fun x q _ => formal_lines_shown o sc x q depth 2) EPS)|].
  rewrite !section_under by discriminate. fold (lines depth 2 (PLine [] (return_value sc f))).
  rewrite text_line_value, return_text, !app_nil_r.
  assert (HD : text_value (function_value f) = txt "fn " ++ function_name f).
  { unfold function_value, function_name. cbn [text_value vtxt]. f_equal. exact (function_name_eq 0 f). }
  rewrite HD. cbn [app]. rewrite <- !app_assoc.
  destruct (p_source (o_print o)); [rewrite field_line by discriminate|]; reflexivity.
Qed.
