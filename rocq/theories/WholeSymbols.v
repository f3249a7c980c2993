(** The symbols that the debug info does not account for, in the output. *)
From Coq Require Import List Arith NArith Bool String Lia Permutation Sorting.Sorted.
From Verif Require Import Base BaseProofs RangeModel NamespaceModel TypeModel FileModel FileSpec FilterModel FilterSpec
  PrintModel PrintSpec PrintProofs LocationModel RefModel ReadModel CodeModel ItemModel ItemSpec ItemProofs ItemShown OptionsModel EntryModel EntrySpec
  ReportModel ReportSpec EntryShown DetailModel PropertiesListing PropertiesReport SymbolProofs FileProofs DieModel
  WholeModel WholeSpec WholeProofs WholeDepth WholeShown.
Import ListNotations.
Local Open Scope N_scope.

Section Symbols.
  Variable choice : N -> nat.
  Variable ob : object_input.
  Hypothesis WF : well_formed ob.
  Hypothesis SB : Forall symbol_in_bounds (parse_symbols (ob_symbols ob)).
  Notation symbols := (parse_symbols (ob_symbols ob)).
  Notation sc := (file_scene choice ob).

  Lemma symtab_loaded : exists claimed unclaimed st,
    In st (loaded_units choice ob) /\ un_name st = Some "<symtab>"%string /\
    Permutation symbols (claimed ++ unclaimed) /\
    (forall s, In s claimed -> debug_address (parsed_units ob) (sy_address s)) /\
    (forall s, In s unclaimed -> ~ debug_address (parsed_units ob) (sy_address s)) /\
    un_types st = [] /\
    un_functions st = map symbol_function (filter is_function_symbol unclaimed) /\
    un_variables st = map symbol_variable (filter (fun s => negb (is_function_symbol s)) unclaimed).
  Proof.
    unfold loaded_units, loaded. rewrite normalize_eq. cbn [fl_units file_read fl_symbols].
    set (l := sort_symbols symbols). set (addrs := flat_map un_addrs (parsed_units ob)).
    exists (filter (fun s => negb (unused addrs s)) l), (filter (unused addrs) l), (symtab_unit l (flags addrs l)).
    split. { apply in_app_iff. left. apply in_app_iff. right. now left. }
    rewrite symtab_unit_spec. split; [reflexivity|]. split.
    { etransitivity; [symmetry; apply sort_symbols_perm|]. apply partition_perm. }
    split. { intros s H. apply filter_In in H as [_ H]. apply unused_spec. now apply negb_true_iff. }
    split. { intros s H D. apply filter_In in H as [_ H]. apply unused_spec in D. fold addrs in D. congruence. }
    repeat split.
  Qed.

  Lemma reserved_item u : In u (ob_units ob) -> ~ item_offset ob u u64_max.
  Proof.
    intros Iu H. apply (item_entry ob WF u _ Iu) in H. apply in_map_iff in H. destruct H as (d & E & Id).
    destruct WF as [_ N]. rewrite Forall_forall in N. apply (N d); [|exact E]. unfold all_entries. apply in_flat_map. eauto.
  Qed.
  Lemma symtab_dir st : In u64_max (map fn_offset (un_functions st)) \/ In u64_max (map va_offset (un_variables st)) ->
    unit_dir choice ob st = None.
  Proof.
    intros H. unfold unit_dir, unit_origin. destruct (find _ _) as [[w u]|] eqn:F; [|reflexivity]. exfalso.
    apply find_some in F. destruct F as (I & LK). apply nth_combine in I. destruct I as (j & Ej & Fj). cbn [fst snd] in *.
    destruct (loaded_at choice ob j u Fj) as (w' & E & LU). rewrite Ej in E. injection E as <-.
    apply like_offsets in LK. apply loaded_offsets in LU. destruct LU as (B1 & B2 & B3), LK as (C1 & C2 & C3).
    apply (reserved_item u); [now apply nth_error_In in Fj|]. unfold item_offset. rewrite <- B1, <- B2, <- B3, C1, C2, C3. tauto.
  Qed.

  Lemma absent_function : read_function ob u64_max = None.
  Proof.
    unfold read_function. destruct (find _ _) as [g|] eqn:F; [|reflexivity]. exfalso.
    apply find_some in F. destruct F as [I E]. apply N.eqb_eq in E. apply in_flat_map in I. destruct I as (s & Is & Ig).
    unfold all_items in Is. apply in_map_iff in Is. destruct Is as (u & <- & Iu).
    destruct (function_entry ob WF u g Iu Ig) as (d & Id & _ & O). destruct WF as [_ N]. rewrite Forall_forall in N.
    apply (N d); [|congruence]. unfold all_entries. apply in_flat_map. eauto.
  Qed.
  Lemma absent_variable : read_variable ob u64_max = None.
  Proof.
    unfold read_variable. destruct (find _ _) as [g|] eqn:F; [|reflexivity]. exfalso.
    apply find_some in F. destruct F as [I E]. apply N.eqb_eq in E. apply in_flat_map in I. destruct I as (s & Is & Ig).
    unfold all_items in Is. apply in_map_iff in Is. destruct Is as (u & <- & Iu).
    destruct (variable_entry_of ob WF u g Iu Ig) as (d & Id & _ & O). destruct WF as [_ N]. rewrite Forall_forall in N.
    apply (N d); [|congruence]. unfold all_entries. apply in_flat_map. eauto.
  Qed.

  Lemma symbol_known s : In s symbols -> known (sy_size s) = Some (sy_size s) /\ known (sy_address s) = Some (sy_address s) /\
    opt64_get (sy_address s) <> None /\ opt64_get (sy_size s) <> None /\ sy_size s <> u64_max.
  Proof.
    intros I. assert (B : symbol_in_bounds s) by (rewrite Forall_forall in SB; auto).
    destruct (symbol_opt64 s B) as (-> & ->).
    unfold symbol_in_bounds in B. assert (E : u64_max = 2 ^ 64 - 1) by reflexivity.
    unfold known. destruct (N.eqb_spec (sy_size s) u64_max); [lia|]. destruct (N.eqb_spec (sy_address s) u64_max); [lia|].
    repeat split; discriminate || assumption.
  Qed.
  Lemma void_written : written_type (file_view choice ob) type_offset_none = txt "void".
  Proof.
    unfold written_type, vw_find. cbn [file_view vw_hash file_hash h_env vw_ref]. unfold from_offset. rewrite N.eqb_refl.
    unfold ref_of. destruct (depth_limit ob) as [|n] eqn:E; [rewrite depth_limit_eq in E; lia|]. reflexivity.
  Qed.
  Lemma symbol_function_shown o dir depth s xs : In s symbols ->
    function_shown o sc dir depth (symbol_function s) xs -> symbol_printed choice ob o depth s xs.
  Proof.
    intros I H. inversion H as [ps vs fs inner cs code d P1 P2 P3 P4 P5 P6 XS]. clear H. subst d.
    assert (D : sc_details sc (symbol_function s) = mkDetails [] [] [] []) by reflexivity.
    rewrite D in *. cbn [de_parameters de_variables de_inlined de_calls] in *.
    assert (ps = []) as -> by now inversion P1.
    assert (vs = []) as ->. { destruct P2 as [|ls _ E]; [reflexivity|now inversion E]. }
    assert (fs = []) as ->.
    { destruct P3 as [|ls _ (es & _ & IE & ->)]; [reflexivity|]. destruct es as [|e es]; [reflexivity|]. exfalso.
      destruct (proj1 (IE e) (or_introl eq_refl)) as [p []|v []|y []]. }
    assert (inner = []) as -> by now inversion P4.
    assert (B : symbol_in_bounds s /\ 0 < sy_size s).
    { split; [rewrite Forall_forall in SB; auto|]. destruct (PropertiesFile.C20_symbols_considered (ob_symbols ob)) as (_ & _ & Z).
      rewrite Forall_forall in Z. auto. }
    destruct B as (B & Z).
    unfold function_name, returns_shown. cbn [file_scene sc_return sc_function_source symbol_function fn_offset fn_namespace fn_name fn_linkage_name fn_symbol_name fn_size fn_ranges fn_inline fn_declaration].
    rewrite absent_function. rewrite symbol_range_plain by exact B. replace (0 <? sy_size s) with true by lia.
    rewrite (proj1 (symbol_known s I)).
    assert (SRC : NameModel.source_text dir no_source = []) by reflexivity. rewrite SRC.
    unfold vw_find, from_offset. rewrite N.eqb_refl. cbn [t_kind void_type].
    destruct (p_source (o_print o)); (destruct (p_function_calls (o_print o)) eqn:CC;
      (exact (sp_intro choice ob o depth s cs code ltac:(rewrite ?CC; exact P5) P6))).
  Qed.

  Lemma symbol_variable_shown o dir s : In s symbols -> variable_shown o sc dir (symbol_variable s) = symbol_variable_piece s.
  Proof.
    intros I. destruct (symbol_known s I) as (KS & KA & _ & _ & NS).
    unfold variable_shown, symbol_variable_piece.
    cbn [file_scene sc_variable_source symbol_variable va_offset va_namespace va_name va_linkage_name va_symbol_name va_address va_size va_declaration va_ty].
    change (sc_view sc) with (file_view choice ob). rewrite absent_variable, KA, void_written. destruct (N.eqb_spec (sy_size s) u64_max); [contradiction|].
    destruct (p_source _); reflexivity.
  Qed.

  (** Listings of what was made from other things. *)
  Lemma selects_map {A B} (f : A -> B) (P : B -> Prop) (Q : A -> Prop) l : forall out,
    (forall x, In x l -> (P (f x) <-> Q x)) -> selects P (map f l) out -> exists sel, selects Q l sel /\ out = map f sel.
  Proof.
    induction l as [|x l IH]; intros out H S.
    - inversion S. exists []. split; [constructor|reflexivity].
    - cbn [map] in S. inversion S as [|y l' r Py S' E1 E2|y l' r NP S' E1 E2].
      + destruct (IH r (fun z I => H z (or_intror I)) S') as (sel & SE & ->).
        exists (x :: sel). split; [|reflexivity]. constructor; [apply H; [now left|exact Py]|exact SE].
      + destruct (IH out (fun z I => H z (or_intror I)) S') as (sel & SE & ->).
        exists sel. split; [|reflexivity]. constructor; [|exact SE]. intros Q'. apply NP. apply H; [now left|exact Q'].
  Qed.
  Lemma listing_map {A B} (f : A -> B) (P : B -> Prop) (Q : A -> Prop) before depth pr l ls :
    (forall x, In x l -> (P (f x) <-> Q x)) -> listing P before depth pr (map f l) ls ->
    exists sel out, selects Q l sel /\ Permutation sel out /\
      each (fun x xs => exists p, pr (f x) = Some p /\ xs = lines depth 0 p) out ls.
  Proof.
    intros H (so & out & S & (PM & _) & E). destruct (selects_map f P Q l so H S) as (sel & SE & ->).
    apply Permutation_sym in PM. destruct (Permutation_map_inv _ _ (Permutation_sym PM)) as (out' & -> & PM').
    exists sel, out'. split; [exact SE|]. split; [exact PM'|]. clear - E. remember (map f out') as m. revert out' Heqm.
    induction E as [|y m ys ls Py E IH]; intros [|x out'] Q'; try discriminate; [constructor|].
    cbn [map] in Q'. injection Q' as -> ->. constructor; [exact Py|]. now apply IH.
  Qed.
End Symbols.
