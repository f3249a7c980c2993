(** C86: a whole run over two files; C87: what it means that no difference was seen. *)
From Coq Require Import List Arith NArith ZArith Bool String Lia Permutation Sorting.Sorted.
From Verif Require Import Base BaseProofs RangeModel NamespaceModel NamespaceSpec TypeModel TypeSpec TypeProofs FileModel FileSpec FilterModel FilterSpec FilterProofs
  DiffModel DiffSpec PrintModel PrintSpec PrintProofs RefModel NameModel ItemModel ItemSpec ItemProofs ItemShown OptionsModel OptionsProofs EntryModel EntrySpec EntryShown
  ReportModel ReportSpec ReportProofs PropertiesFilter PropertiesListing PropertiesItem IgnoreSpec PropertiesEntry PropertiesReport LocationModel DetailModel MemberSpec
  DieModel DieProofs PropertiesDie WholeModel WholeSpec WholeProofs WholeDepth WholeShown PropertiesWhole
  PairModel PairSpec PairProofs PairShown PairItems DieSpec.
Import ListNotations.
Local Notation compare_docs := (diff_doc text_printer false false).

Lemma output_inv a b choose fuel ca cb o out seen : compare_output a b choose fuel ca cb o = Some (out, seen) ->
  exists e, diff_file choose o (compare_parameters_in a b) fuel (load_two a b ca cb) = Some e /\
    out = fst (fst (compare_docs e (text_start (N.to_nat (o_inline_depth o))) false)) /\
    seen = snd (compare_docs e (text_start (N.to_nat (o_inline_depth o))) false).
Proof.
  unfold compare_output. destruct (diff_file _ _ _ _ _) as [e|]; [|discriminate]. cbn [option_map]. intros E. exists e.
  injection E as <- <-. auto.
Qed.

Section Text.
  Variables (choice : N -> nat) (ob : object_input) (o : options).
  Hypothesis WF : well_formed ob.
  Lemma function_texts fuel i u w g f p : nth_error (ob_units ob) i = Some u -> nth_error (loaded_units choice ob) i = Some w ->
    In g (ws_functions (unit_items ob u)) -> function_for (parse_symbols (ob_symbols ob)) g f ->
    print_function_in o fuel (load choice ob) w f = Some p -> function_text choice ob o u g (lines (N.to_nat (o_inline_depth o)) 0 p).
  Proof.
    intros Eu Ew Ig R Ep. assert (Iu : In u (ob_units ob)) by now apply nth_error_In in Eu. exists f. split; [exact R|].
    assert (OF : fn_offset f = fu_offset g) by apply R. split; [|split].
    - cbn [file_scene sc_return]. rewrite OF, (read_function_in ob WF u g Iu Ig). reflexivity.
    - cbn [file_scene sc_function_source]. rewrite OF, (read_function_in ob WF u g Iu Ig). reflexivity.
    - unfold print_function_in in Ep. cbn [load im_scene im_dir] in Ep.
      rewrite (dir_at choice ob WF i u w (fu_offset g) Eu Ew) in Ep by (right; left; now apply in_map).
      now apply (function_printed o fuel).
  Qed.
  Lemma variable_texts i u w g v p depth : nth_error (ob_units ob) i = Some u -> nth_error (loaded_units choice ob) i = Some w ->
    In g (ws_variables (unit_items ob u)) -> variable_for (parse_symbols (ob_symbols ob)) g v ->
    print_variable_in o (load choice ob) w v = Some p -> variable_text choice ob o u g (lines depth 0 p).
  Proof.
    intros Eu Ew Ig R Ep. assert (Iu : In u (ob_units ob)) by now apply nth_error_In in Eu.
    exists (va_symbol_name v). unfold print_variable_in in Ep. cbn [load im_scene im_dir] in Ep.
    rewrite (dir_at choice ob WF i u w (vr_offset g) Eu Ew) in Ep by (right; right; now apply in_map). injection Ep as <-. rewrite variable_printed.
    destruct R as (F0 & F1 & F2 & F3 & F4 & F5 & F6 & F7 & F8). split; [exact F8|].
    assert (S : sc_variable_source (file_scene choice ob) v = vr_source g).
    { cbn [file_scene sc_variable_source]. rewrite F0, (read_variable_in ob WF u g Iu Ig). reflexivity. }
    unfold variable_shown, variable_piece, yes, optional_name.
    rewrite S, F1, F2, F3, F4, F5, F6, F7. cbn [file_scene sc_view]. reflexivity.
  Qed.
End Text.

(** ** C86: entries of one of the files *)

(** The text for a function starts as it is described; the rest is as C60, C61, C70 and C71 have it. *)
Theorem C86_function_text : forall choice ob o u g ls, function_text choice ob o u g ls ->
  exists f symbol parameters more,
    function_for (parse_symbols (ob_symbols ob)) g f /\
    symbol_shown (parse_symbols (ob_symbols ob)) (fu_address g) (own_name (fu_linkage_name g) (fu_name g)) symbol /\
    each (formal_shown o (file_scene choice ob) 2) (de_parameters (sc_details (file_scene choice ob) f)) parameters /\
    ls = (function_head o (file_view choice ob) (ui_dir u) g symbol parameters ++ more ++ [Blank])%list.
Proof.
  intros choice ob o u g ls (f & FF & R & S & SH).
  inversion SH as [ps vs' fs' inner cs code dd P1 P2 P3 P4 P5 P6 XS]. clear SH. subst dd.
  exists f, (fn_symbol_name f), ps.
  exists (under 1 "variables" vs' ++ under 1 "stack frame" fs' ++ under 1 "inlined functions" inner ++
       (if p_function_calls (o_print o)
        then under 1 "call sites" (flat_map (site_shown o (file_scene choice ob) (ui_dir u) 2) (de_calls (sc_details (file_scene choice ob) f))) else []) ++
       under 1 "calls" cs ++ under 1 "instructions" code)%list.
  split; [exact FF|]. destruct FF as (_ & F1 & F2 & F3 & F4 & F5 & F6 & F7 & F8 & F9). split; [exact F9|]. split; [exact P1|].
  unfold function_head, function_name, returns_shown, return_shown, yes, optional_name.
  rewrite R, S, F1, F2, F3, F5, F6, F7, F8. cbn [file_scene sc_view]. rewrite <- !app_assoc. cbn [app]. rewrite <- !app_assoc. reflexivity.
Qed.
Print Assumptions C86_function_text.

(** C86: a function, variable or type of the old file that is wanted, if the new one has no such thing, is shown as it is printed, marked as gone, and the
    run has seen a difference. *)
Theorem C86_function_gone : forall c o given choose fuel ca cb a b out seen i u d g,
  configured c o given -> o_html o = false -> well_formed a -> acyclic_types a -> well_formed b -> acyclic_types b ->
  compare_output a b choose fuel ca cb o = Some (out, seen) -> i_deleted (o_ignore o) = false ->
  nth_error (ob_units a) i = Some u -> unit_wanted given o u -> c_function (o_category o) = true ->
  describes (unit_base u) (ui_children u) d g -> function_wanted o g ->
  nowhere given b u (fun v => no_function o v None g) ->
  seen = true /\ exists ls, function_text ca a o u g ls /\ within (with_mark Old ls) out.
Proof.
  intros c o given choose fuel ca cb a b out seen i u d g CO HT WA AA WB AB E IG Eu Wu CF D Wg NW.
  destruct (output_inv _ _ _ _ _ _ _ _ _ E) as (e & ED & -> & ->). assert (Iu : In u (ob_units a)) by now apply nth_error_In in Eu.
  destruct (loaded_at ca a i u Eu) as (w & Ew & L). destruct (described_in a WA u w d g Iu L D) as (f & If & FF & Jg).
  destruct (old_function c o given choose (compare_parameters_in a b) fuel (load_two a b ca cb) (N.to_nat (o_inline_depth o)) CO
    (pair_consistent a b WA WB AA AB) HT e ED w f) as (p & Ep & WI & S); auto.
  - now apply nth_error_In in Ew.
  - now apply (wanted_unit a given o u w L).
  - now apply (wanted_function a o g f FF).
  - intros v y Iv SU Iy LY SF.
    apply (lacking_functions cb b WB o given u w _ g f NW FF (loaded_name a u w L) v y Iv); auto.
  - split; [exact S|]. eexists. split; [|exact WI]. exact (function_texts ca a o WA fuel i u w g f p Eu Ew Jg FF Ep).
Qed.
Print Assumptions C86_function_gone.

Theorem C86_variable_gone : forall c o given choose fuel ca cb a b out seen i u d g,
  configured c o given -> o_html o = false -> well_formed a -> acyclic_types a -> well_formed b -> acyclic_types b ->
  compare_output a b choose fuel ca cb o = Some (out, seen) -> i_deleted (o_ignore o) = false ->
  nth_error (ob_units a) i = Some u -> unit_wanted given o u -> c_variable (o_category o) = true ->
  no_rust_statics (unit_context a u) -> describes_variable (unit_base u) (ui_children u) d g -> variable_wanted o g ->
  nowhere given b u (fun v => no_variable o b v None g) ->
  seen = true /\ exists ls, variable_text ca a o u g ls /\ within (with_mark Old ls) out.
Proof.
  intros c o given choose fuel ca cb a b out seen i u d g CO HT WA AA WB AB E IG Eu Wu CF NR D Wg NW.
  destruct (output_inv _ _ _ _ _ _ _ _ _ E) as (e & ED & -> & ->). assert (Iu : In u (ob_units a)) by now apply nth_error_In in Eu.
  destruct (loaded_at ca a i u Eu) as (w & Ew & L). destruct (variable_described_in a WA u w d g Iu L NR D) as (f & If & FF & Jg).
  destruct (old_variable c o given choose (compare_parameters_in a b) fuel (load_two a b ca cb) (N.to_nat (o_inline_depth o)) CO
    (pair_consistent a b WA WB AA AB) HT e ED w f) as (p & Ep & WI & S); auto.
  - now apply nth_error_In in Ew.
  - now apply (wanted_unit a given o u w L).
  - now apply (wanted_variable a o g f FF).
  - intros v y Iv SU Iy LY SF.
    apply (lacking_variables cb b WB o given u w _ g f NW FF (loaded_name a u w L) v y Iv); auto.
  - split; [exact S|]. eexists. split; [|exact WI]. exact (variable_texts ca a o WA i u w g f p _ Eu Ew Jg FF Ep).
Qed.
Print Assumptions C86_variable_gone.

Theorem C86_type_gone : forall c o given choose fuel ca cb a b out seen i u outer ns d,
  configured c o given -> o_html o = false -> well_formed a -> acyclic_types a -> well_formed b -> acyclic_types b ->
  compare_output a b choose fuel ca cb o = Some (out, seen) -> i_deleted (o_ignore o) = false ->
  nth_error (ob_units a) i = Some u -> unit_wanted given o u -> c_type (o_category o) = true ->
  located (unit_base u) (ui_children u) outer ns d -> outer <> TagEnumeration -> is_type_tag (die_tag d) = true ->
  exists t kept,
    t_offset t = die_offset d /\ describes_type (unit_context a u) ns d (t_kind t) /\
    types_kept a u kept /\ type_at a (t_offset t) = Some t /\
    (type_listed o (type_at a) true (mkUnit None [] kept [] []) t -> nowhere given b u (fun v => no_type b v None t) ->
     seen = true /\ exists ls, type_shown o (file_view ca a) (ui_dir u) t ls /\ within (with_mark Old ls) out).
Proof.
  intros c o given choose fuel ca cb a b out seen i u outer ns d CO HT WA AA WB AB E IG Eu Wu CF D NE TT.
  destruct (output_inv _ _ _ _ _ _ _ _ _ E) as (e & ED & -> & ->). assert (Iu : In u (ob_units a)) by now apply nth_error_In in Eu.
  destruct (loaded_at ca a i u Eu) as (w & Ew & L). pose proof (unit_distinct a WA u Iu) as UD. pose proof (items_read a u) as IR.
  destruct (C49_described _ _ _ outer ns d UD IR D TT NE) as (t & It & Ot & DT).
  exists t, (ws_types (unit_items a u)). split; [exact Ot|]. split; [exact DT|]. split.
  { exact (unit_types_kept a WA u Iu). }
  split; [destruct (unit_types_kept a WA u Iu t It) as (?&?&?&_&_&_&_&_&TA); exact TA|].
  intros TL NW. pose proof (types_for a u w L) as T.
  destruct (old_type c o given choose (compare_parameters_in a b) fuel (load_two a b ca cb) (N.to_nat (o_inline_depth o)) CO
    (pair_consistent a b WA WB AA AB) HT e ED w t) as (p & Ep & WI & S); auto.
  - now apply nth_error_In in Ew.
  - now apply (wanted_unit a given o u w L).
  - now rewrite T.
  - revert TL. unfold type_listed, shown_inside. rewrite T. exact (fun x => x).
  - intros v y Iv SU Iy SF.
    apply (lacking_types cb b WB given u w t NW (loaded_name a u w L) v y Iv); auto.
  - split; [exact S|]. eexists. split; [|exact WI]. unfold print_type_in in Ep. cbn [is_a load_two load im_view im_scene im_dir file_scene sc_view] in Ep.
    rewrite (dir_at ca a WA i u w (t_offset t) Eu Ew) in Ep by (left; now apply in_map).
    now apply (type_lines o fuel).
Qed.
Print Assumptions C86_type_gone.

(** C86: a function, variable or type of the new file that is wanted, if the old one has no such thing, is shown as it is printed, marked as new, and the
    run has seen a difference. *)
Theorem C86_function_new : forall c o given choose fuel ca cb a b out seen i u d g,
  configured c o given -> o_html o = false -> well_formed a -> acyclic_types a -> well_formed b -> acyclic_types b ->
  compare_output a b choose fuel ca cb o = Some (out, seen) -> i_added (o_ignore o) = false ->
  nth_error (ob_units b) i = Some u -> unit_wanted given o u -> c_function (o_category o) = true ->
  describes (unit_base u) (ui_children u) d g -> function_wanted o g ->
  nowhere given a u (fun v => no_function o v None g) ->
  seen = true /\ exists ls, function_text cb b o u g ls /\ within (with_mark New ls) out.
Proof.
  intros c o given choose fuel ca cb a b out seen i u d g CO HT WA AA WB AB E IG Eu Wu CF D Wg NW.
  destruct (output_inv _ _ _ _ _ _ _ _ _ E) as (e & ED & -> & ->). assert (Iu : In u (ob_units b)) by now apply nth_error_In in Eu.
  destruct (loaded_at cb b i u Eu) as (w & Ew & L). destruct (described_in b WB u w d g Iu L D) as (f & If & FF & Jg).
  destruct (new_function c o given choose (compare_parameters_in a b) fuel (load_two a b ca cb) (N.to_nat (o_inline_depth o)) CO
    (pair_consistent a b WA WB AA AB) HT e ED w f) as (p & Ep & WI & S); auto.
  - now apply nth_error_In in Ew.
  - now apply (wanted_unit b given o u w L).
  - now apply (wanted_function b o g f FF).
  - intros v y Iv SU Iy LY SF.
    apply (lacking_functions ca a WA o given u w _ g f NW FF (loaded_name b u w L) v y Iv); [now apply same_unit_sym|exact Iy|exact LY|first [destruct SF as (j & A1 & A2); exists j; now split|destruct SF as (k & j & A1 & A2); exists k, j; now split]].
  - split; [exact S|]. eexists. split; [|exact WI]. exact (function_texts cb b o WB fuel i u w g f p Eu Ew Jg FF Ep).
Qed.
Print Assumptions C86_function_new.

Theorem C86_variable_new : forall c o given choose fuel ca cb a b out seen i u d g,
  configured c o given -> o_html o = false -> well_formed a -> acyclic_types a -> well_formed b -> acyclic_types b ->
  compare_output a b choose fuel ca cb o = Some (out, seen) -> i_added (o_ignore o) = false ->
  nth_error (ob_units b) i = Some u -> unit_wanted given o u -> c_variable (o_category o) = true ->
  no_rust_statics (unit_context b u) -> describes_variable (unit_base u) (ui_children u) d g -> variable_wanted o g ->
  nowhere given a u (fun v => no_variable o a v None g) ->
  seen = true /\ exists ls, variable_text cb b o u g ls /\ within (with_mark New ls) out.
Proof.
  intros c o given choose fuel ca cb a b out seen i u d g CO HT WA AA WB AB E IG Eu Wu CF NR D Wg NW.
  destruct (output_inv _ _ _ _ _ _ _ _ _ E) as (e & ED & -> & ->). assert (Iu : In u (ob_units b)) by now apply nth_error_In in Eu.
  destruct (loaded_at cb b i u Eu) as (w & Ew & L). destruct (variable_described_in b WB u w d g Iu L NR D) as (f & If & FF & Jg).
  destruct (new_variable c o given choose (compare_parameters_in a b) fuel (load_two a b ca cb) (N.to_nat (o_inline_depth o)) CO
    (pair_consistent a b WA WB AA AB) HT e ED w f) as (p & Ep & WI & S); auto.
  - now apply nth_error_In in Ew.
  - now apply (wanted_unit b given o u w L).
  - now apply (wanted_variable b o g f FF).
  - intros v y Iv SU Iy LY SF.
    apply (lacking_variables ca a WA o given u w _ g f NW FF (loaded_name b u w L) v y Iv); [now apply same_unit_sym|exact Iy|exact LY|first [destruct SF as (j & A1 & A2); exists j; now split|destruct SF as (k & j & A1 & A2); exists k, j; now split]].
  - split; [exact S|]. eexists. split; [|exact WI]. exact (variable_texts cb b o WB i u w g f p _ Eu Ew Jg FF Ep).
Qed.
Print Assumptions C86_variable_new.

Theorem C86_type_new : forall c o given choose fuel ca cb a b out seen i u outer ns d,
  configured c o given -> o_html o = false -> well_formed a -> acyclic_types a -> well_formed b -> acyclic_types b ->
  compare_output a b choose fuel ca cb o = Some (out, seen) -> i_added (o_ignore o) = false ->
  nth_error (ob_units b) i = Some u -> unit_wanted given o u -> c_type (o_category o) = true ->
  located (unit_base u) (ui_children u) outer ns d -> outer <> TagEnumeration -> is_type_tag (die_tag d) = true ->
  exists t kept,
    t_offset t = die_offset d /\ describes_type (unit_context b u) ns d (t_kind t) /\
    types_kept b u kept /\ type_at b (t_offset t) = Some t /\
    (type_listed o (type_at b) true (mkUnit None [] kept [] []) t -> nowhere given a u (fun v => no_type a v None t) ->
     seen = true /\ exists ls, type_shown o (file_view cb b) (ui_dir u) t ls /\ within (with_mark New ls) out).
Proof.
  intros c o given choose fuel ca cb a b out seen i u outer ns d CO HT WA AA WB AB E IG Eu Wu CF D NE TT.
  destruct (output_inv _ _ _ _ _ _ _ _ _ E) as (e & ED & -> & ->). assert (Iu : In u (ob_units b)) by now apply nth_error_In in Eu.
  destruct (loaded_at cb b i u Eu) as (w & Ew & L). pose proof (unit_distinct b WB u Iu) as UD. pose proof (items_read b u) as IR.
  destruct (C49_described _ _ _ outer ns d UD IR D TT NE) as (t & It & Ot & DT).
  exists t, (ws_types (unit_items b u)). split; [exact Ot|]. split; [exact DT|]. split.
  { exact (unit_types_kept b WB u Iu). }
  split; [destruct (unit_types_kept b WB u Iu t It) as (?&?&?&_&_&_&_&_&TA); exact TA|].
  intros TL NW. pose proof (types_for b u w L) as T.
  destruct (new_type c o given choose (compare_parameters_in a b) fuel (load_two a b ca cb) (N.to_nat (o_inline_depth o)) CO
    (pair_consistent a b WA WB AA AB) HT e ED w t) as (p & Ep & WI & S); auto.
  - now apply nth_error_In in Ew.
  - now apply (wanted_unit b given o u w L).
  - now rewrite T.
  - revert TL. unfold type_listed, shown_inside. rewrite T. exact (fun x => x).
  - intros v y Iv SU Iy SF.
    apply (lacking_types ca a WA given u w t NW (loaded_name b u w L) v y Iv); [now apply same_unit_sym|exact Iy|first [destruct SF as (j & A1 & A2); exists j; now split|destruct SF as (k & j & A1 & A2); exists k, j; now split]].
  - split; [exact S|]. eexists. split; [|exact WI]. unfold print_type_in in Ep. cbn [is_b load_two load im_view im_scene im_dir file_scene sc_view] in Ep.
    rewrite (dir_at cb b WB i u w (t_offset t) Eu Ew) in Ep by (left; now apply in_map).
    now apply (type_lines o fuel).
Qed.
Print Assumptions C86_type_new.

(** ** C86: entries of both files *)

(** Where the units are, and where the items in them, if there is only one of each. *)
Lemma units_split choice ob given u w : only_unit given ob u w ->
  exists l1 x l2 i, loaded_units choice ob = (l1 ++ x :: l2)%list /\ nth_error (ob_units ob) i = Some u /\ nth_error (loaded_units choice ob) i = Some x /\
    loaded_unit (parse_symbols (ob_symbols ob)) (unit_of ob u) x /\ In u (ob_units ob) /\ forall z, In z (l1 ++ l2) -> ~ same_unit given z (head_of w).
Proof.
  intros (SU & NS & NU & l1 & l2 & E & UQ).
  destruct (loaded_rest choice ob given l1 u l2 (head_of w) E UQ NS NU) as (x & m1 & m2 & EL & LE & L & Q).
  exists m1, x, m2, (List.length l1). split; [exact EL|]. split; [|split; [|split; [exact L|split; [|exact Q]]]].
  - rewrite E, nth_error_app2, Nat.sub_diag by lia. reflexivity.
  - rewrite EL, nth_error_app2, LE, Nat.sub_diag by lia. reflexivity.
  - rewrite E. apply in_elt.
Qed.

(** C86: a function, variable or type that is in both files, and matches nothing else, is compared: the lines that are not marked as new are
    those of the old file, up to headings, and those not marked as old those of the new file. They are in the report, and the run has seen a difference, if they
    differ. *)
Theorem C86_function_compared : forall c o given choose fuel ca cb a b out seen ta tb u v d g e h,
  configured c o given -> o_html o = false -> well_formed a -> acyclic_types a -> well_formed b -> acyclic_types b ->
  compare_output a b choose fuel ca cb o = Some (out, seen) ->
  print_output fuel ca o a = Some ta -> print_output fuel cb o b = Some tb ->
  only_unit given a u v -> only_unit given b v u -> unit_wanted given o u -> unit_wanted given o v -> c_function (o_category o) = true ->
  describes (unit_base u) (ui_children u) d g -> describes (unit_base v) (ui_children v) e h ->
  function_wanted o g -> function_wanted o h -> functions_match g h ->
  no_function o u (Some (fu_offset g)) h -> no_function o v (Some (fu_offset h)) g ->
  exists f k, function_for (parse_symbols (ob_symbols a)) g f /\ function_for (parse_symbols (ob_symbols b)) h k /\
    (short_function (file_scene ca a) f -> short_function (file_scene cb b) k ->
     settled_details o (sc_details (file_scene ca a) f) -> settled_details o (sc_details (file_scene cb b) k) ->
     ranges_alike (fu_ranges g) (fu_ranges h) ->
     exists p q ls,
       printed_up_to_order o fuel (file_scene ca a) (ui_dir u) f p /\ printed_up_to_order o fuel (file_scene cb b) (ui_dir v) k q /\
       plus_headings (lines (N.to_nat (o_inline_depth o)) 0 p) (old_lines ls) /\
       plus_headings (lines (N.to_nat (o_inline_depth o)) 0 q) (new_lines ls) /\
       (within ls out /\ seen = true \/
        (heeds_functions o -> lines (N.to_nat (o_inline_depth o)) 0 p = lines (N.to_nat (o_inline_depth o)) 0 q) /\
        forall label, In label function_fields -> ~ In label (ignored_of_function (o_ignore o)) ->
          with_label label (lines (N.to_nat (o_inline_depth o)) 0 p) = with_label label (lines (N.to_nat (o_inline_depth o)) 0 q))).
Proof.
  intros c o given choose fuel ca cb a b out seen ta tb u v d g e h CO HT WA AA WB AB E PA PB OU OV Wu Wv CF Dg Dh Wg Wh FM NA NB.
  destruct (output_inv _ _ _ _ _ _ _ _ _ E) as (x & ED & -> & ->).
  destruct (units_split ca a given u v OU) as (l1 & wa & l2 & i & EA & Eu & Ewa & La & Iu & UA).
  destruct (units_split cb b given v u OV) as (m1 & wb & m2 & j & EB & Ev & Ewb & Lb & Iv & UB).
  destruct (described_in a WA u wa d g Iu La Dg) as (f & If & Ff & Jg).
  destruct (described_in b WB v wb e h Iv Lb Dh) as (k & Ik & Fk & Jh).
  pose proof (functions_same' b _ g f h k Ff Fk FM) as SF.
  assert (FM' : functions_match h g) by (now apply same_place_sym).
  destruct (function_alone a WA o u wa _ h k g f Iu La NA Fk Ff If) as (a1 & a2 & Ea & Qa).
  destruct (function_alone b WB o v wb _ g f h k Iv Lb NB Ff Fk Ik) as (b1 & b2 & Eb & Qb).
  assert (SU : same_unit given wa wb).
  { destruct OU as (S & _). exact (same_unit_name given _ _ _ _ (eq_sym (loaded_name a u wa La)) (eq_sym (loaded_name b v wb Lb)) S). }
  exists f, k. split; [exact Ff|]. split; [exact Fk|]. intros SA SB TA TB AL.
  assert (LA : function_listed o f) by now apply (wanted_function a o g f Ff).
  assert (LB : function_listed o k) by now apply (wanted_function b o h k Fk).
  destruct (both_function c o given choose (compare_parameters_in a b) fuel (load_two a b ca cb) (N.to_nat (o_inline_depth o)) CO
    (pair_consistent a b WA WB AA AB) HT x ED l1 l2 m1 m2 wa wb EA EB) with (a1 := a1) (x := f) (a2 := a2) (b1 := b1) (y := k) (b2 := b2)
    as (dd & EDD & bl & ls & s & fl & EC & IN); auto.
  { now apply (wanted_unit a given o u wa La). } { now apply (wanted_unit b given o v wb Lb). }
  { intros z Iz S. apply (UA z Iz). exact (same_unit_name _ _ _ _ _ eq_refl (loaded_name b v wb Lb) S). }
  { intros z Iz S. apply (UB z Iz). apply same_unit_sym in S. exact (same_unit_name _ _ _ _ _ eq_refl (loaded_name a u wa La) S). }
  { intros z Iz LZ (q & A1 & A2). apply (Qa z Iz LZ). exists q. auto. }
  assert (PRA : exists p, print_function_in o fuel (load ca a) wa f = Some p).
  { unfold print_output in PA. destruct (print_file _ _ _ _) as [p0|] eqn:EP; [|discriminate].
    destruct (C67_file_printed c o given _ fuel _ p0 0 CO EP) as (hs & us & _ & L & _).
    destruct (listing_in _ _ _ _ _ _ wa L) as (_ & q & _ & Eq & _).
    { cbn [load im_units]. rewrite EA. apply in_elt. } { now apply (wanted_unit a given o u wa La). }
    destruct (C67_unit_printed o _ fuel _ wa q 0 (compare_consistent a WA AA) HT Eq) as (ts & fs & vs & _ & FS & _ & _).
    destruct FS as [B|ls' _ FS]; [congruence|]. destruct (listing_in _ _ _ _ _ _ f FS If LA) as (_ & p & _ & Ep & _). eauto. }
  assert (PRB : exists p, print_function_in o fuel (load cb b) wb k = Some p).
  { unfold print_output in PB. destruct (print_file _ _ _ _) as [p0|] eqn:EP; [|discriminate].
    destruct (C67_file_printed c o given _ fuel _ p0 0 CO EP) as (hs & us & _ & L & _).
    destruct (listing_in _ _ _ _ _ _ wb L) as (_ & q & _ & Eq & _).
    { cbn [load im_units]. rewrite EB. apply in_elt. } { now apply (wanted_unit b given o v wb Lb). }
    destruct (C67_unit_printed o _ fuel _ wb q 0 (compare_consistent b WB AB) HT Eq) as (ts & fs & vs & _ & FS & _ & _).
    destruct FS as [B|ls' _ FS]; [congruence|]. destruct (listing_in _ _ _ _ _ _ k FS Ik LB) as (_ & p & _ & Ep & _). eauto. }
  destruct PRA as (pa & EPA), PRB as (pb & EPB). unfold print_function_in in EPA, EPB. cbn [load im_scene im_dir] in EPA, EPB.
  cbn [load_two is_a is_b is_scenes load im_scene im_dir is_cmp] in EDD.
  rewrite (dir_at ca a WA i u wa (fu_offset g) Eu Ewa) in EPA, EDD by (right; left; now apply in_map).
  rewrite (dir_at cb b WB j v wb (fu_offset h) Ev Ewb) in EPB, EDD by (right; left; now apply in_map).
  destruct (C62_functions choose o (mkScenes (file_scene ca a) (file_scene cb b) (fun s t => types_compare a b a s b t)) (unit_number ca a wa) fuel (ui_dir u) (ui_dir v) f k pa pb
    (N.to_nat (o_inline_depth o)) SA SB TA TB) as (dd' & p & q & ls' & s' & fl' & ED' & P1 & P2 & EC' & H1 & H2 & H3 & H4); auto.
  { destruct Ff as (_ & _ & _ & _ & _ & _ & -> & _), Fk as (_ & _ & _ & _ & _ & _ & -> & _). exact AL. }
  assert (DD : Some dd' = Some dd) by (rewrite <- ED'; exact EDD). injection DD as ->.
  rewrite EC in EC'. injection EC' as E1 _ E2. exists p, q. destruct fl.
  - destruct (IN eq_refl) as (E3 & IW & IS). exists ls'. do 4 (split; [assumption|]). left. split; [|exact IS].
    rewrite E3 in E1. destruct IW as (x1 & x2 & EX). exists x1, x2. rewrite EX, !write_marked_app, <- E1. reflexivity.
  - exists ls'. do 4 (split; [assumption|]). right. split; [intros HE; now apply H3|]. apply H4. congruence.
Qed.
Print Assumptions C86_function_compared.

Theorem C86_variable_compared : forall c o given choose fuel ca cb a b out seen u v d g e h,
  configured c o given -> o_html o = false -> well_formed a -> acyclic_types a -> well_formed b -> acyclic_types b ->
  compare_output a b choose fuel ca cb o = Some (out, seen) ->
  only_unit given a u v -> only_unit given b v u -> unit_wanted given o u -> unit_wanted given o v -> c_variable (o_category o) = true ->
  no_rust_statics (unit_context a u) -> no_rust_statics (unit_context b v) ->
  describes_variable (unit_base u) (ui_children u) d g -> describes_variable (unit_base v) (ui_children v) e h ->
  variable_wanted o g -> variable_wanted o h -> variables_match g h ->
  no_variable o a u (Some (vr_offset g)) h -> no_variable o b v (Some (vr_offset h)) g ->
  exists old new ls, variable_text ca a o u g old /\ variable_text cb b o v h new /\
    plus_headings old (old_lines ls) /\ plus_headings new (new_lines ls) /\
    (within ls out /\ seen = true \/
     heeded (ignored_of_variable (o_ignore o)) old = heeded (ignored_of_variable (o_ignore o)) new).
Proof.
  intros c o given choose fuel ca cb a b out seen u v d g e h CO HT WA AA WB AB E OU OV Wu Wv CF NRA NRB Dg Dh Wg Wh FM NA NB.
  destruct (output_inv _ _ _ _ _ _ _ _ _ E) as (x & ED & -> & ->).
  destruct (units_split ca a given u v OU) as (l1 & wa & l2 & i & EA & Eu & Ewa & La & Iu & UA).
  destruct (units_split cb b given v u OV) as (m1 & wb & m2 & j & EB & Ev & Ewb & Lb & Iv & UB).
  destruct (variable_described_in a WA u wa d g Iu La NRA Dg) as (f & If & Ff & Jg).
  destruct (variable_described_in b WB v wb e h Iv Lb NRB Dh) as (k & Ik & Fk & Jh).
  pose proof (variables_same' b _ g f h k Ff Fk FM) as SF.
  destruct (variable_alone a WA o u wa _ h k g f Iu La NA Fk Ff If) as (a1 & a2 & Ea & Qa).
  destruct (variable_alone b WB o v wb _ g f h k Iv Lb NB Ff Fk Ik) as (b1 & b2 & Eb & Qb).
  assert (SU : same_unit given wa wb).
  { destruct OU as (S & _). exact (same_unit_name given _ _ _ _ (eq_sym (loaded_name a u wa La)) (eq_sym (loaded_name b v wb Lb)) S). }
  assert (LA : variable_listed o f) by now apply (wanted_variable a o g f Ff).
  assert (LB : variable_listed o k) by now apply (wanted_variable b o h k Fk).
  destruct (both_variable c o given choose (compare_parameters_in a b) fuel (load_two a b ca cb) (N.to_nat (o_inline_depth o)) CO
    (pair_consistent a b WA WB AA AB) HT x ED l1 l2 m1 m2 wa wb EA EB) with (a1 := a1) (x := f) (a2 := a2) (b1 := b1) (y := k) (b2 := b2)
    as (bl & ls & s & fl & EC & IN); auto.
  { now apply (wanted_unit a given o u wa La). } { now apply (wanted_unit b given o v wb Lb). }
  { intros z Iz S. apply (UA z Iz). exact (same_unit_name _ _ _ _ _ eq_refl (loaded_name b v wb Lb) S). }
  { intros z Iz S. apply (UB z Iz). apply same_unit_sym in S. exact (same_unit_name _ _ _ _ _ eq_refl (loaded_name a u wa La) S). }
  { intros z Iz LZ (q & A1 & A2). apply (Qa z Iz LZ). exists q. auto. }
  pose proof (variable_texts ca a o WA i u wa g f _ (N.to_nat (o_inline_depth o)) Eu Ewa Jg Ff eq_refl) as TA.
  pose proof (variable_texts cb b o WB j v wb h k _ (N.to_nat (o_inline_depth o)) Ev Ewb Jh Fk eq_refl) as TB.
  destruct (C62_variables o (is_scenes (load_two a b ca cb)) (im_dir (load ca a) wa) (im_dir (load cb b) wb) f k
    (N.to_nat (o_inline_depth o))) as (ls' & s' & fl' & EC' & H1 & H2 & H3).
  cbn [load_two is_a is_b] in EC. rewrite EC in EC'. injection EC' as E1 _ E2.
  eexists _, _, ls'. split; [exact TA|]. split; [exact TB|]. split; [exact H1|]. split; [exact H2|]. destruct fl.
  - left. destruct (IN eq_refl) as (E3 & IW & IS). split; [|exact IS].
    rewrite E3 in E1. destruct IW as (x1 & x2 & EX). exists x1, x2. rewrite EX, !write_marked_app, <- E1. reflexivity.
  - right. apply H3. congruence.
Qed.
Print Assumptions C86_variable_compared.

Theorem C86_type_compared : forall c o given choose fuel ca cb a b out seen u v outer ns d outer' ns' e,
  configured c o given -> o_html o = false -> well_formed a -> acyclic_types a -> well_formed b -> acyclic_types b ->
  compare_output a b choose fuel ca cb o = Some (out, seen) ->
  only_unit given a u v -> only_unit given b v u -> unit_wanted given o u -> unit_wanted given o v -> c_type (o_category o) = true ->
  located (unit_base u) (ui_children u) outer ns d -> outer <> TagEnumeration -> is_type_tag (die_tag d) = true ->
  located (unit_base v) (ui_children v) outer' ns' e -> outer' <> TagEnumeration -> is_type_tag (die_tag e) = true ->
  short_view (file_view ca a) -> short_view (file_view cb b) ->
  exists t kept s kept',
    t_offset t = die_offset d /\ describes_type (unit_context a u) ns d (t_kind t) /\
    types_kept a u kept /\ type_at a (t_offset t) = Some t /\
    t_offset s = die_offset e /\ describes_type (unit_context b v) ns' e (t_kind s) /\
    types_kept b v kept' /\ type_at b (t_offset s) = Some s /\
    (type_listed o (type_at a) true (mkUnit None [] kept [] []) t -> type_listed o (type_at b) true (mkUnit None [] kept' [] []) s ->
     same_type t s -> no_type a u (Some (t_offset t)) s -> no_type b v (Some (t_offset s)) t -> bases_alike t s -> short_type t -> short_type s ->
     exists old new ls, type_shown o (file_view ca a) (ui_dir u) t old /\ type_shown o (file_view cb b) (ui_dir v) s new /\
       plus_headings old (old_lines ls) /\ plus_headings new (new_lines ls) /\
       (within ls out /\ seen = true \/ old = new)).
Proof.
  intros c o given choose fuel ca cb a b out seen u v outer ns d outer' ns' e CO HT WA AA WB AB E OU OV Wu Wv CF Dg NE TT Dh NE' TT' VA VB.
  destruct (output_inv _ _ _ _ _ _ _ _ _ E) as (x & ED & -> & ->).
  destruct (units_split ca a given u v OU) as (l1 & wa & l2 & i & EA & Eu & Ewa & La & Iu & UA).
  destruct (units_split cb b given v u OV) as (m1 & wb & m2 & j & EB & Ev & Ewb & Lb & Iv & UB).
  pose proof (unit_distinct a WA u Iu) as UDa. pose proof (items_read a u) as IRa.
  pose proof (unit_distinct b WB v Iv) as UDb. pose proof (items_read b v) as IRb.
  destruct (C49_described _ _ _ outer ns d UDa IRa Dg TT NE) as (t & It & Ot & DT).
  destruct (C49_described _ _ _ outer' ns' e UDb IRb Dh TT' NE') as (k & Ik & Ok & DK).
  exists t, (ws_types (unit_items a u)), k, (ws_types (unit_items b v)). split; [exact Ot|]. split; [exact DT|]. split.
  { exact (unit_types_kept a WA u Iu). }
  split; [destruct (unit_types_kept a WA u Iu t It) as (?&?&?&_&_&_&_&_&TA); exact TA|].
  split; [exact Ok|]. split; [exact DK|]. split.
  { exact (unit_types_kept b WB v Iv). }
  split; [destruct (unit_types_kept b WB v Iv k Ik) as (?&?&?&_&_&_&_&_&TA); exact TA|].
  intros LA LB SF NA NB AL STa STb. pose proof (types_for a u wa La) as Ta. pose proof (types_for b v wb Lb) as Tb.
  assert (Ia : In t (un_types wa)) by now rewrite Ta. assert (Ib : In k (un_types wb)) by now rewrite Tb.
  destruct (type_alone a WA u wa k t Iu La NA Ia) as (a1 & a2 & Ea & Qa).
  destruct (type_alone b WB v wb t k Iv Lb NB Ib) as (b1 & b2 & Eb & Qb).
  assert (SU : same_unit given wa wb).
  { destruct OU as (S & _). exact (same_unit_name given _ _ _ _ (eq_sym (loaded_name a u wa La)) (eq_sym (loaded_name b v wb Lb)) S). }
  destruct (both_type c o given choose (compare_parameters_in a b) fuel (load_two a b ca cb) (N.to_nat (o_inline_depth o)) CO
    (pair_consistent a b WA WB AA AB) HT x ED l1 l2 m1 m2 wa wb EA EB) with (a1 := a1) (x := t) (a2 := a2) (b1 := b1) (y := k) (b2 := b2)
    as (dd & EDD & bl & ls & s & fl & EC & IN); auto.
  { now apply (wanted_unit a given o u wa La). } { now apply (wanted_unit b given o v wb Lb). }
  { intros z Iz S. apply (UA z Iz). exact (same_unit_name _ _ _ _ _ eq_refl (loaded_name b v wb Lb) S). }
  { intros z Iz S. apply (UB z Iz). apply same_unit_sym in S. exact (same_unit_name _ _ _ _ _ eq_refl (loaded_name a u wa La) S). }
  { revert LA. unfold type_listed, shown_inside. rewrite Ta. exact (fun x => x). }
  { revert LB. unfold type_listed, shown_inside. rewrite Tb. exact (fun x => x). }
  { intros z Iz (q & r & A1 & A2). apply (Qa z Iz). exists q, r. auto. }
  cbn [load_two is_a is_b load im_dir] in EDD.
  rewrite (dir_at ca a WA i u wa (t_offset t) Eu Ewa) in EDD by (left; now apply in_map).
  rewrite (dir_at cb b WB j v wb (t_offset k) Ev Ewb) in EDD by (left; now apply in_map).
  destruct (C57_both_sides choose o fuel (ss_sides (is_scenes (load_two a b ca cb))) (ui_dir u) (ui_dir v) t k dd (N.to_nat (o_inline_depth o)) VA VB) as
    (p & q & ls' & s' & fl' & EP & EQ & EC' & H1 & H2 & H3); auto.
  rewrite EC in EC'. injection EC' as E1 _ E2.
  exists (lines (N.to_nat (o_inline_depth o)) 0 p), (lines (N.to_nat (o_inline_depth o)) 0 q), ls'.
  split; [now apply (type_lines o fuel)|]. split; [now apply (type_lines o fuel)|]. split; [exact H1|]. split; [exact H2|]. destruct fl.
  - left. destruct (IN eq_refl) as (E3 & IW & IS). split; [|exact IS].
    rewrite E3 in E1. destruct IW as (x1 & x2 & EX). exists x1, x2. rewrite EX, !write_marked_app, <- E1. reflexivity.
  - right. now apply H3.
Qed.
Print Assumptions C86_type_compared.

(** C86: functions with the same name are put in order by their parameters, whichever file they are from. *)
Theorem C86_order : forall a b x y u v d e g h f k n,
  well_formed a -> acyclic_types a -> well_formed b -> acyclic_types b -> ob_path a <> ob_path b ->
  (x = a \/ x = b) -> (y = a \/ y = b) ->
  In u (ob_units x) -> describes (unit_base u) (ui_children u) d g -> fn_offset f = fu_offset g ->
  In v (ob_units y) -> describes (unit_base v) (ui_children v) e h -> fn_offset k = fu_offset h ->
  by_first (parameters_in_order x y) (fu_parameters g) (fu_parameters h) n ->
  compare_parameters_in a b (file_hash x) f (file_hash y) k = n.
Proof.
  intros a b x y u v d e g h f k n WA AA WB AB NP OX OY Iu Dg Of Iv Dh Ok BF.
  assert (SD : forall z, (z = a \/ z = b) -> side_of a b (file_hash z) = z).
  { intros z [->| ->]; [apply side_a|now apply side_b]. }
  assert (WX : well_formed x) by (destruct OX as [->| ->]; assumption). assert (WY : well_formed y) by (destruct OY as [->| ->]; assumption).
  unfold compare_parameters_in. rewrite !SD by assumption. unfold parameters_of. rewrite Of, Ok.
  rewrite (read_function_in x WX u g Iu (C35_resolved (unit_context x u) (ui_children u) _ d g (unit_distinct x WX u Iu) (items_read x u) Dg)).
  rewrite (read_function_in y WY v h Iv (C35_resolved (unit_context y v) (ui_children v) _ e h (unit_distinct y WY v Iv) (items_read y v) Dh)).
  assert (ONE : forall p q c, parameters_in_order x y p q c -> parameter_compare_in a b x p y q = c).
  { intros p q c H. unfold parameters_in_order in H. unfold parameter_compare_in. destruct (from_offset (type_at x) _), (from_offset (type_at y) _); auto.
    exact (types_compare_compares a b WA WB AA AB x _ y _ c OX H). }
  induction BF as [|q m|p l|p l q m c R NE|p l q m c R BF IH]; try reflexivity; cbn [parameters_compare_in]; rewrite (ONE _ _ _ R); [|exact IH].
  destruct c; [congruence|reflexivity|reflexivity].
Qed.
Print Assumptions C86_order.

(** ** C87: no difference *)

(** C87: if both files can be printed, and nothing is ignored, then they can be compared, and if no difference is seen then all that is wanted
    of them agrees. *)
Theorem C87_output : forall c o given choose fuel ca cb a b ta tb,
  configured c o given -> o_html o = false -> (0 < fuel)%nat -> heeds_all o ->
  well_formed a -> acyclic_types a -> well_formed b -> acyclic_types b -> ob_path a <> ob_path b ->
  short_image (load ca a) -> short_image (load cb b) ->
  (forall u v, In u (loaded_units ca a) -> In v (loaded_units cb b) -> same_unit given u v -> units_alike o (load_two a b ca cb) u v) ->
  print_output fuel ca o a = Some ta -> print_output fuel cb o b = Some tb ->
  exists out seen, compare_output a b choose fuel ca cb o = Some (out, seen) /\
    (seen = false -> files_agree o given fuel (load_two a b ca cb) (N.to_nat (o_inline_depth o))).
Proof.
  intros c o given choose fuel ca cb a b ta tb CO HT PF HE WA AA WB AB NP SA SB AL PA PB.
  unfold print_output in PA, PB.
  rewrite <- (print_file_one a b a WA AA (or_introl eq_refl) (side_a a b)) in PA.
  rewrite <- (print_file_one a b b WB AB (or_intror eq_refl) (side_b a b NP)) in PB.
  destruct (print_file _ _ _ (load ca a)) as [pa|] eqn:EA; [|discriminate]. destruct (print_file _ _ _ (load cb b)) as [pb|] eqn:EB; [|discriminate].
  destruct (C66_complete choose o (compare_parameters_in a b) fuel (load_two a b ca cb) c given pa pb (N.to_nat (o_inline_depth o)) SA SB HT PF HE CO AL EA EB) as (e & EE & R).
  do 2 eexists. unfold compare_output. rewrite EE. cbn [option_map]. split; [reflexivity|exact R].
Qed.
Print Assumptions C87_output.

Lemma paired_left {A B} (R : A -> B -> Prop) la lb x : paired R la lb -> In x la -> exists y, In y lb /\ R x y.
Proof.
  intros (l & PA & PB & H) I. apply (Permutation_in _ (Permutation_sym PA)), in_map_iff in I. destruct I as ((x' & y) & <- & I).
  exists y. split; [|now apply H]. apply (Permutation_in _ PB), in_map_iff. exists (x', y). auto.
Qed.
Lemma paired_right {A B} (R : A -> B -> Prop) la lb y : paired R la lb -> In y lb -> exists x, In x la /\ R x y.
Proof.
  intros (l & PA & PB & H) I. apply (Permutation_in _ (Permutation_sym PB)), in_map_iff in I. destruct I as ((x & y') & <- & I).
  exists x. split; [|now apply H]. apply (Permutation_in _ PA), in_map_iff. exists (x, y'). auto.
Qed.

(** C87: what there is in the old file is then in the new one as well, and is printed the same. *)
Lemma unit_kept o given fuel ca cb a b i u w : files_agree o given fuel (load_two a b ca cb) (N.to_nat (o_inline_depth o)) ->
  nth_error (ob_units a) i = Some u -> nth_error (loaded_units ca a) i = Some w -> loaded_unit (parse_symbols (ob_symbols a)) (unit_of a u) w ->
  unit_wanted given o u -> ~ same_unit given (head_of u) symtab_head -> ~ same_unit given (head_of u) unknown_head ->
  exists j v z, nth_error (ob_units b) j = Some v /\ nth_error (loaded_units cb b) j = Some z /\
    loaded_unit (parse_symbols (ob_symbols b)) (unit_of b v) z /\ same_unit given (head_of u) (head_of v) /\
    units_agree o fuel (load_two a b ca cb) (N.to_nat (o_inline_depth o)) w z.
Proof.
  intros (_ & la & lb & SA & SB & P) Eu Ew L Wu NS NU.
  assert (I : In w la).
  { apply (selects_in _ _ _ w SA). split; [now apply nth_error_In in Ew|]. now apply (wanted_unit a given o u w L). }
  destruct (paired_left _ _ _ w P I) as (z & J & SU & UA). apply (selects_in _ _ _ z SB) in J. destruct J as (J & _).
   destruct (loaded_in cb b z J) as [(j & v & Ev & Ez & Lz)|[(N & _)|(N & _)]].
  - exists j, v, z. do 3 (split; [assumption|]). split; [|exact UA].
    exact (same_unit_name _ _ _ _ _ (loaded_name a u w L) (loaded_name b v z Lz) SU).
  - destruct NS. exact (same_unit_name _ _ _ _ symtab_head (loaded_name a u w L) N SU).
  - destruct NU. exact (same_unit_name _ _ _ _ unknown_head (loaded_name a u w L) N SU).
Qed.

Theorem C87_function_kept : forall o given fuel ca cb a b i u d g,
  well_formed a -> well_formed b -> files_agree o given fuel (load_two a b ca cb) (N.to_nat (o_inline_depth o)) ->
  nth_error (ob_units a) i = Some u -> unit_wanted given o u -> c_function (o_category o) = true ->
  ~ same_unit given (head_of u) symtab_head -> ~ same_unit given (head_of u) unknown_head ->
  describes (unit_base u) (ui_children u) d g -> function_wanted o g ->
  exists v outer e h f k p q, In v (ob_units b) /\ same_unit given (head_of u) (head_of v) /\
    found (ui_children v) outer e /\ die_tag e = TagSubprogram /\ fu_offset h = die_offset e /\
    (forall h', describes (unit_base v) (ui_children v) e h' -> h' = h) /\ functions_match g h /\
    function_for (parse_symbols (ob_symbols a)) g f /\ function_for (parse_symbols (ob_symbols b)) h k /\
    printed_up_to_order o fuel (file_scene ca a) (ui_dir u) f p /\ printed_up_to_order o fuel (file_scene cb b) (ui_dir v) k q /\
    lines (N.to_nat (o_inline_depth o)) 0 p = lines (N.to_nat (o_inline_depth o)) 0 q.
Proof.
  intros o given fuel ca cb a b i u d g WA WB FA Eu Wu CF NS NU D Wg. assert (Iu : In u (ob_units a)) by now apply nth_error_In in Eu.
  destruct (loaded_at ca a i u Eu) as (w & Ew & L). destruct (described_in a WA u w d g Iu L D) as (f & If & FF & Jg).
  destruct (unit_kept o given fuel ca cb a b i u w FA Eu Ew L Wu NS NU) as (j & v & z & Ev & Ez & Lz & SU & (_ & _ & UF & _)).
  destruct (UF CF) as (la & lb & SA & SB & P). assert (Iv : In v (ob_units b)) by now apply nth_error_In in Ev.
  destruct (paired_left _ _ _ f P) as (k & Ik & SF & ST).
  { apply (selects_in _ _ _ f SA). split; [exact If|]. now apply (wanted_function a o g f FF). }
  apply (selects_in _ _ _ k SB) in Ik. destruct Ik as (Ik & _). destruct ST as (p & q & Pp & Pq & E).
  destruct (function_origin b WB v z k Iv Lz Ik) as (h & outer & e & Ih & Fh & A & B & C & _ & U).
  exists v, outer, e, h, f, k. exists p, q. split; [exact Iv|]. split; [exact SU|]. do 4 (split; [assumption|]).
  split. { exact (functions_same b _ g f h k FF Fh SF). } split; [exact FF|]. split; [exact Fh|].
  cbn [load_two is_a is_b load im_scene im_dir] in Pp, Pq.
  rewrite (dir_at ca a WA i u w (fu_offset g) Eu Ew) in Pp by (right; left; now apply in_map).
  rewrite (dir_at cb b WB j v z (fu_offset h) Ev Ez) in Pq by (right; left; now apply in_map). auto.
Qed.
Print Assumptions C87_function_kept.

Theorem C87_variable_kept : forall o given fuel ca cb a b i u d g,
  well_formed a -> well_formed b -> files_agree o given fuel (load_two a b ca cb) (N.to_nat (o_inline_depth o)) ->
  nth_error (ob_units a) i = Some u -> unit_wanted given o u -> c_variable (o_category o) = true ->
  ~ same_unit given (head_of u) symtab_head -> ~ same_unit given (head_of u) unknown_head ->
  no_rust_statics (unit_context a u) -> (forall v, In v (ob_units b) -> no_rust_statics (unit_context b v)) ->
  describes_variable (unit_base u) (ui_children u) d g -> variable_wanted o g ->
  exists v e h ls, In v (ob_units b) /\ same_unit given (head_of u) (head_of v) /\
    has_variable (unit_context b v) (ui_children v) e /\ vr_offset h = die_offset e /\
    (forall h', describes_variable (unit_base v) (ui_children v) e h' -> h' = h) /\ variables_match g h /\
    variable_text ca a o u g ls /\ variable_text cb b o v h ls.
Proof.
  intros o given fuel ca cb a b i u d g WA WB FA Eu Wu CF NS NU NR NR' D Wg. assert (Iu : In u (ob_units a)) by now apply nth_error_In in Eu.
  destruct (loaded_at ca a i u Eu) as (w & Ew & L). destruct (variable_described_in a WA u w d g Iu L NR D) as (f & If & FF & Jg).
  destruct (unit_kept o given fuel ca cb a b i u w FA Eu Ew L Wu NS NU) as (j & v & z & Ev & Ez & Lz & SU & (_ & _ & _ & UF)).
  destruct (UF CF) as (la & lb & SA & SB & P). assert (Iv : In v (ob_units b)) by now apply nth_error_In in Ev.
  destruct (paired_left _ _ _ f P) as (k & Ik & SF & ST).
  { apply (selects_in _ _ _ f SA). split; [exact If|]. now apply (wanted_variable a o g f FF). }
  apply (selects_in _ _ _ k SB) in Ik. destruct Ik as (Ik & _). destruct ST as (p & q & Pp & Pq & E).
  destruct (variable_origin b WB v z k Iv Lz Ik) as (h & e & Ih & Fh & A & B & _ & U). specialize (U (NR' v Iv)).
  exists v, e, h, (lines (N.to_nat (o_inline_depth o)) 0 p). split; [exact Iv|]. split; [exact SU|]. do 3 (split; [assumption|]).
  split. { exact (variables_same b _ g f h k FF Fh SF). }
  split; [ exact (variable_texts ca a o WA i u w g f _ _ Eu Ew Jg FF Pp)|rewrite E; exact (variable_texts cb b o WB j v z h k _ _ Ev Ez Ih Fh Pq)].
Qed.
Print Assumptions C87_variable_kept.

Theorem C87_type_kept : forall o given fuel ca cb a b i u outer ns d,
  well_formed a -> well_formed b -> files_agree o given fuel (load_two a b ca cb) (N.to_nat (o_inline_depth o)) ->
  nth_error (ob_units a) i = Some u -> unit_wanted given o u -> c_type (o_category o) = true ->
  ~ same_unit given (head_of u) symtab_head -> ~ same_unit given (head_of u) unknown_head ->
  located (unit_base u) (ui_children u) outer ns d -> outer <> TagEnumeration -> is_type_tag (die_tag d) = true ->
  exists t kept,
    t_offset t = die_offset d /\ describes_type (unit_context a u) ns d (t_kind t) /\
    types_kept a u kept /\
    (type_listed o (type_at a) true (mkUnit None [] kept [] []) t ->
     exists v outer' e s ls, In v (ob_units b) /\ same_unit given (head_of u) (head_of v) /\
       found (ui_children v) outer' e /\ is_type_tag (die_tag e) = true /\ t_offset s = die_offset e /\
       (forall ns', located (unit_base v) (ui_children v) outer' ns' e -> describes_type (unit_context b v) ns' e (t_kind s)) /\
       same_type t s /\ type_shown o (file_view ca a) (ui_dir u) t ls /\ type_shown o (file_view cb b) (ui_dir v) s ls).
Proof.
  intros o given fuel ca cb a b i u outer ns d WA WB FA Eu Wu CF NS NU D NE TT. assert (Iu : In u (ob_units a)) by now apply nth_error_In in Eu.
  destruct (loaded_at ca a i u Eu) as (w & Ew & L). pose proof (unit_distinct a WA u Iu) as UD. pose proof (items_read a u) as IR.
  destruct (C49_described _ _ _ outer ns d UD IR D TT NE) as (t & It & Ot & DT).
  exists t, (ws_types (unit_items a u)). split; [exact Ot|]. split; [exact DT|]. split.
  { exact (unit_types_kept a WA u Iu). }
  intros TL. pose proof (types_for a u w L) as T.
  destruct (unit_kept o given fuel ca cb a b i u w FA Eu Ew L Wu NS NU) as (j & v & z & Ev & Ez & Lz & SU & (_ & UF & _)).
  destruct (UF CF) as (la & lb & SA & SB & P). assert (Iv : In v (ob_units b)) by now apply nth_error_In in Ev.
  destruct (paired_left _ _ _ t P) as (k & Ik & SF & ST).
  { apply (selects_in _ _ _ t SA). split; [now rewrite T|]. revert TL. unfold type_listed, shown_inside. rewrite T. exact (fun x => x). }
  apply (selects_in _ _ _ k SB) in Ik. destruct Ik as (Ik & _). destruct ST as (p & q & Pp & Pq & E).
  destruct (type_origin b WB v z k Iv Lz Ik) as (outer' & e & A & NE' & B & C & _ & U).
  exists v, outer', e, k, (lines (N.to_nat (o_inline_depth o)) 0 p). split; [exact Iv|]. split; [exact SU|]. do 3 (split; [assumption|]). split; [exact (fun ns' => U outer' ns' NE')|].
  split. { exact SF. }
  unfold print_type_in in Pp, Pq. cbn [load_two is_a is_b load im_view im_scene im_dir file_scene sc_view] in Pp, Pq.
  rewrite (dir_at ca a WA i u w (t_offset t) Eu Ew) in Pp by (left; now apply in_map).
  rewrite (dir_at cb b WB j v z (t_offset k) Ev Ez) in Pq by (left; rewrite <- (types_for b v z Lz); now apply in_map).
  split; [ now apply (type_lines o fuel)|rewrite E; now apply (type_lines o fuel)].
Qed.
Print Assumptions C87_type_kept.

(** C87: what there is in the new file is then in the old one as well, and is printed the same. *)
Lemma unit_known o given fuel ca cb a b i u w : files_agree o given fuel (load_two a b ca cb) (N.to_nat (o_inline_depth o)) ->
  nth_error (ob_units b) i = Some u -> nth_error (loaded_units cb b) i = Some w -> loaded_unit (parse_symbols (ob_symbols b)) (unit_of b u) w ->
  unit_wanted given o u -> ~ same_unit given (head_of u) symtab_head -> ~ same_unit given (head_of u) unknown_head ->
  exists j v z, nth_error (ob_units a) j = Some v /\ nth_error (loaded_units ca a) j = Some z /\
    loaded_unit (parse_symbols (ob_symbols a)) (unit_of a v) z /\ same_unit given (head_of u) (head_of v) /\
    units_agree o fuel (load_two a b ca cb) (N.to_nat (o_inline_depth o)) z w.
Proof.
  intros (_ & la & lb & SA & SB & P) Eu Ew L Wu NS NU.
  assert (I : In w lb).
  { apply (selects_in _ _ _ w SB). split; [now apply nth_error_In in Ew|]. now apply (wanted_unit b given o u w L). }
  destruct (paired_right _ _ _ w P I) as (z & J & SU & UA). apply (selects_in _ _ _ z SA) in J. destruct J as (J & _).
  apply same_unit_sym in SU. destruct (loaded_in ca a z J) as [(j & v & Ev & Ez & Lz)|[(N & _)|(N & _)]].
  - exists j, v, z. do 3 (split; [assumption|]). split; [|exact UA].
    exact (same_unit_name _ _ _ _ _ (loaded_name b u w L) (loaded_name a v z Lz) SU).
  - destruct NS. exact (same_unit_name _ _ _ _ symtab_head (loaded_name b u w L) N SU).
  - destruct NU. exact (same_unit_name _ _ _ _ unknown_head (loaded_name b u w L) N SU).
Qed.

Theorem C87_function_known : forall o given fuel ca cb a b i u d g,
  well_formed a -> well_formed b -> files_agree o given fuel (load_two a b ca cb) (N.to_nat (o_inline_depth o)) ->
  nth_error (ob_units b) i = Some u -> unit_wanted given o u -> c_function (o_category o) = true ->
  ~ same_unit given (head_of u) symtab_head -> ~ same_unit given (head_of u) unknown_head ->
  describes (unit_base u) (ui_children u) d g -> function_wanted o g ->
  exists v outer e h f k p q, In v (ob_units a) /\ same_unit given (head_of u) (head_of v) /\
    found (ui_children v) outer e /\ die_tag e = TagSubprogram /\ fu_offset h = die_offset e /\
    (forall h', describes (unit_base v) (ui_children v) e h' -> h' = h) /\ functions_match g h /\
    function_for (parse_symbols (ob_symbols b)) g f /\ function_for (parse_symbols (ob_symbols a)) h k /\
    printed_up_to_order o fuel (file_scene cb b) (ui_dir u) f p /\ printed_up_to_order o fuel (file_scene ca a) (ui_dir v) k q /\
    lines (N.to_nat (o_inline_depth o)) 0 p = lines (N.to_nat (o_inline_depth o)) 0 q.
Proof.
  intros o given fuel ca cb a b i u d g WA WB FA Eu Wu CF NS NU D Wg. assert (Iu : In u (ob_units b)) by now apply nth_error_In in Eu.
  destruct (loaded_at cb b i u Eu) as (w & Ew & L). destruct (described_in b WB u w d g Iu L D) as (f & If & FF & Jg).
  destruct (unit_known o given fuel ca cb a b i u w FA Eu Ew L Wu NS NU) as (j & v & z & Ev & Ez & Lz & SU & (_ & _ & UF & _)).
  destruct (UF CF) as (la & lb & SA & SB & P). assert (Iv : In v (ob_units a)) by now apply nth_error_In in Ev.
  destruct (paired_right _ _ _ f P) as (k & Ik & SF & ST).
  { apply (selects_in _ _ _ f SB). split; [exact If|]. now apply (wanted_function b o g f FF). }
  apply (selects_in _ _ _ k SA) in Ik. destruct Ik as (Ik & _). destruct ST as (p & q & Pp & Pq & E).
  destruct (function_origin a WA v z k Iv Lz Ik) as (h & outer & e & Ih & Fh & A & B & C & _ & U).
  exists v, outer, e, h, f, k. exists q, p. split; [exact Iv|]. split; [exact SU|]. do 4 (split; [assumption|]).
  split. { apply same_place_sym. exact (functions_same b _ h k g f Fh FF SF). } split; [exact FF|]. split; [exact Fh|].
  cbn [load_two is_a is_b load im_scene im_dir] in Pp, Pq.
  rewrite (dir_at cb b WB i u w (fu_offset g) Eu Ew) in Pq by (right; left; now apply in_map).
  rewrite (dir_at ca a WA j v z (fu_offset h) Ev Ez) in Pp by (right; left; now apply in_map). auto.
Qed.
Print Assumptions C87_function_known.

Theorem C87_variable_known : forall o given fuel ca cb a b i u d g,
  well_formed a -> well_formed b -> files_agree o given fuel (load_two a b ca cb) (N.to_nat (o_inline_depth o)) ->
  nth_error (ob_units b) i = Some u -> unit_wanted given o u -> c_variable (o_category o) = true ->
  ~ same_unit given (head_of u) symtab_head -> ~ same_unit given (head_of u) unknown_head ->
  no_rust_statics (unit_context b u) -> (forall v, In v (ob_units a) -> no_rust_statics (unit_context a v)) ->
  describes_variable (unit_base u) (ui_children u) d g -> variable_wanted o g ->
  exists v e h ls, In v (ob_units a) /\ same_unit given (head_of u) (head_of v) /\
    has_variable (unit_context a v) (ui_children v) e /\ vr_offset h = die_offset e /\
    (forall h', describes_variable (unit_base v) (ui_children v) e h' -> h' = h) /\ variables_match g h /\
    variable_text cb b o u g ls /\ variable_text ca a o v h ls.
Proof.
  intros o given fuel ca cb a b i u d g WA WB FA Eu Wu CF NS NU NR NR' D Wg. assert (Iu : In u (ob_units b)) by now apply nth_error_In in Eu.
  destruct (loaded_at cb b i u Eu) as (w & Ew & L). destruct (variable_described_in b WB u w d g Iu L NR D) as (f & If & FF & Jg).
  destruct (unit_known o given fuel ca cb a b i u w FA Eu Ew L Wu NS NU) as (j & v & z & Ev & Ez & Lz & SU & (_ & _ & _ & UF)).
  destruct (UF CF) as (la & lb & SA & SB & P). assert (Iv : In v (ob_units a)) by now apply nth_error_In in Ev.
  destruct (paired_right _ _ _ f P) as (k & Ik & SF & ST).
  { apply (selects_in _ _ _ f SB). split; [exact If|]. now apply (wanted_variable b o g f FF). }
  apply (selects_in _ _ _ k SA) in Ik. destruct Ik as (Ik & _). destruct ST as (p & q & Pp & Pq & E).
  destruct (variable_origin a WA v z k Iv Lz Ik) as (h & e & Ih & Fh & A & B & _ & U). specialize (U (NR' v Iv)).
  exists v, e, h, (lines (N.to_nat (o_inline_depth o)) 0 p). split; [exact Iv|]. split; [exact SU|]. do 3 (split; [assumption|]).
  split. { apply same_place_sym. exact (variables_same b _ h k g f Fh FF SF). }
  split; [rewrite E; exact (variable_texts cb b o WB i u w g f _ _ Eu Ew Jg FF Pq)| exact (variable_texts ca a o WA j v z h k _ _ Ev Ez Ih Fh Pp)].
Qed.
Print Assumptions C87_variable_known.

Theorem C87_type_known : forall o given fuel ca cb a b i u outer ns d,
  well_formed a -> well_formed b -> files_agree o given fuel (load_two a b ca cb) (N.to_nat (o_inline_depth o)) ->
  nth_error (ob_units b) i = Some u -> unit_wanted given o u -> c_type (o_category o) = true ->
  ~ same_unit given (head_of u) symtab_head -> ~ same_unit given (head_of u) unknown_head ->
  located (unit_base u) (ui_children u) outer ns d -> outer <> TagEnumeration -> is_type_tag (die_tag d) = true ->
  exists t kept,
    t_offset t = die_offset d /\ describes_type (unit_context b u) ns d (t_kind t) /\
    types_kept b u kept /\
    (type_listed o (type_at b) true (mkUnit None [] kept [] []) t ->
     exists v outer' e s ls, In v (ob_units a) /\ same_unit given (head_of u) (head_of v) /\
       found (ui_children v) outer' e /\ is_type_tag (die_tag e) = true /\ t_offset s = die_offset e /\
       (forall ns', located (unit_base v) (ui_children v) outer' ns' e -> describes_type (unit_context a v) ns' e (t_kind s)) /\
       same_type t s /\ type_shown o (file_view cb b) (ui_dir u) t ls /\ type_shown o (file_view ca a) (ui_dir v) s ls).
Proof.
  intros o given fuel ca cb a b i u outer ns d WA WB FA Eu Wu CF NS NU D NE TT. assert (Iu : In u (ob_units b)) by now apply nth_error_In in Eu.
  destruct (loaded_at cb b i u Eu) as (w & Ew & L). pose proof (unit_distinct b WB u Iu) as UD. pose proof (items_read b u) as IR.
  destruct (C49_described _ _ _ outer ns d UD IR D TT NE) as (t & It & Ot & DT).
  exists t, (ws_types (unit_items b u)). split; [exact Ot|]. split; [exact DT|]. split.
  { exact (unit_types_kept b WB u Iu). }
  intros TL. pose proof (types_for b u w L) as T.
  destruct (unit_known o given fuel ca cb a b i u w FA Eu Ew L Wu NS NU) as (j & v & z & Ev & Ez & Lz & SU & (_ & UF & _)).
  destruct (UF CF) as (la & lb & SA & SB & P). assert (Iv : In v (ob_units a)) by now apply nth_error_In in Ev.
  destruct (paired_right _ _ _ t P) as (k & Ik & SF & ST).
  { apply (selects_in _ _ _ t SB). split; [now rewrite T|]. revert TL. unfold type_listed, shown_inside. rewrite T. exact (fun x => x). }
  apply (selects_in _ _ _ k SA) in Ik. destruct Ik as (Ik & _). destruct ST as (p & q & Pp & Pq & E).
  destruct (type_origin a WA v z k Iv Lz Ik) as (outer' & e & A & NE' & B & C & _ & U).
  exists v, outer', e, k, (lines (N.to_nat (o_inline_depth o)) 0 p). split; [exact Iv|]. split; [exact SU|]. do 3 (split; [assumption|]). split; [exact (fun ns' => U outer' ns' NE')|].
  split. { destruct SF as (n & m & A1 & A2). exists n, m. now split. }
  unfold print_type_in in Pp, Pq. cbn [load_two is_a is_b load im_view im_scene im_dir file_scene sc_view] in Pp, Pq.
  rewrite (dir_at cb b WB i u w (t_offset t) Eu Ew) in Pq by (left; now apply in_map).
  rewrite (dir_at ca a WA j v z (t_offset k) Ev Ez) in Pp by (left; rewrite <- (types_for a v z Lz); now apply in_map).
  split; [rewrite E; now apply (type_lines o fuel)| now apply (type_lines o fuel)].
Qed.
Print Assumptions C87_type_known.

(** ** An example *)

Local Open Scope string_scope.
Local Open Scope list_scope.
Local Open Scope N_scope.

Local Definition int_entry : die := Die TagBase 20 [AName (Some "int"); AByteSize (Some 4)%Z] [].
Local Definition count_entry : die :=
  Die TagVariable 50 [AName (Some "count"); AType (Some 20); ALocation (PExpression [(GAddress 8192, None)] [OAddress 8192])] [].
Local Definition function_entry (off : N) (name : string) (low size : N) : die :=
  Die TagSubprogram off [AName (Some name); AType (Some 20); ALowPc (Some low); AHighPcSize size] [].
Local Definition unit_with (fs : list die) : unit_input :=
  mkUnitInput [AName (Some "a.c"); ALowPc (Some 4096); AHighPcSize 48] (int_entry :: count_entry :: fs) None None false 4 8 (fun _ => None).
Local Definition file_with (path : string) (fs : list die) : object_input :=
  mkObjectInput path false [] [mkObjectSection (Some ".text") None 4096 48; mkObjectSection (Some ".data") None 8192 4]
    [] [unit_with fs] (fun _ => EncSigned) (fun _ => EndDefault) (fun _ => []) (fun _ => None) None.
Local Definition alpha_entry : die := function_entry 30 "alpha" 4096 16.
Local Definition beta_entry : die := function_entry 40 "beta" 4112 16.
Local Definition beta_entry' : die := function_entry 70 "beta" 4096 32.
Local Definition gamma_entry : die := function_entry 60 "gamma" 4128 16.
Local Definition before : object_input := file_with "a.out" [alpha_entry; beta_entry].
Local Definition after : object_input := file_with "b.out" [gamma_entry; beta_entry'].
Local Definition copy : object_input := file_with "b.out" [beta_entry; alpha_entry].
Local Definition first_choice (n : N) : nat := O.
Local Definition lowest (l1 l2 : list N) (m : list (list N)) (n : nat) : nat := O.
Local Definition pair_cli : cli := mkCli None None None [] [] None [] [].
(** All but the file itself, so that the path of it makes no difference. *)
Local Definition part_cli : cli := mkCli None None (Some ["unit"; "type"; "function"; "variable"]) [] [] None [] [].
Local Definition part_options : options := Eval vm_compute in
  match parse_options part_cli as x return match x with Some _ => options | None => True end with Some o => o | None => I end.
Local Definition pair_options : options := Eval vm_compute in
  match parse_options pair_cli as x return match x with Some _ => options | None => True end with Some o => o | None => I end.

Local Definition pair_report : list (mark * line) :=
  [(Old, Line 0 (txt "file a.out")); (New, Line 0 (txt "file b.out")); (Same, Line 1 (txt "size: 52"));
   (Old, Line 1 (txt "fn size: 32")); (New, Line 1 (txt "fn size: 48 (+16)")); (Same, Line 1 (txt "var size: 4"));
   (Old, Line 1 (txt "other size: 16")); (New, Line 1 (txt "other size: 0 (-16)")); (Same, Line 1 (txt "sections:"));
   (Same, Line 2 (txt ".text")); (Same, Line 3 (txt "address: 0x1000-0x102f")); (Same, Line 3 (txt "size: 48"));
   (Same, Line 2 (txt ".data")); (Same, Line 3 (txt "address: 0x2000-0x2003")); (Same, Line 3 (txt "size: 4")); (Same, Blank);
   (Same, Line 0 (txt "unit a.c")); (Old, Line 1 (txt "fn size: 32")); (New, Line 1 (txt "fn size: 48 (+16)"));
   (Same, Line 1 (txt "var size: 4")); (Old, Line 1 (txt "unknown size: 16")); (New, Line 1 (txt "unknown size: 0 (-16)")); (Same, Blank);
   (Old, Line 0 (txt "fn alpha")); (Old, Line 1 (txt "address: 0x1000-0x100f")); (Old, Line 1 (txt "size: 16"));
   (Old, Line 1 (txt "return type:")); (Old, Line 2 (txt "[4]" ++ [9] ++ txt "int")); (Same, Blank);
   (Same, Line 0 (txt "fn beta")); (Old, Line 1 (txt "address: 0x1010-0x101f")); (New, Line 1 (txt "address: 0x1000-0x101f"));
   (Old, Line 1 (txt "size: 16")); (New, Line 1 (txt "size: 32")); (Same, Line 1 (txt "return type:"));
   (Same, Line 2 (txt "[4]" ++ [9] ++ txt "int")); (Same, Blank);
   (New, Line 0 (txt "fn gamma")); (New, Line 1 (txt "address: 0x1020-0x102f")); (New, Line 1 (txt "size: 16"));
   (New, Line 1 (txt "return type:")); (New, Line 2 (txt "[4]" ++ [9] ++ txt "int")); (Same, Blank)].

Local Definition clean (ob : object_input) : bool := forallb (fun d => negb (die_offset d =? u64_max)) (all_entries ob).
Local Lemma well_formed_by ob : NoDup (map die_offset (all_entries ob)) -> clean ob = true -> well_formed ob.
Proof.
  intros ND C. split; [exact ND|]. apply Forall_forall. intros d I. unfold clean in C. rewrite forallb_forall in C.
  specialize (C d I). now apply negb_true_iff, N.eqb_neq in C.
Qed.
Local Ltac well := apply well_formed_by; [vm_compute; repeat (constructor; [cbn; intuition discriminate|]); constructor|reflexivity].
Local Lemma before_formed : well_formed before. Proof. well. Qed.
Local Lemma after_formed : well_formed after. Proof. well. Qed.
Local Lemma copy_formed : well_formed copy. Proof. well. Qed.
Local Definition pair_types : list type := Eval vm_compute in
  flat_map (fun off => match from_offset (type_at before) off with Some t => [t] | None => [] end) (places before).
Local Definition types_in (ob : object_input) : list type :=
  flat_map (fun off => match from_offset (type_at ob) off with Some t => [t] | None => [] end) (places ob).
Local Lemma types_among ob : well_formed ob -> types_in ob = pair_types ->
  forall off t, from_offset (type_at ob) off = Some t -> In t pair_types.
Proof.
  intros WF <- off t E. apply in_flat_map. exists off. split; [exact (type_at_place ob WF off t E)|]. rewrite E. now left.
Qed.
Local Lemma acyclic_by ob : well_formed ob -> types_in ob = pair_types -> acyclic_types ob.
Proof.
  intros WF T off t E. apply (types_among ob WF T) in E. apply (bounded_acyclic 1). intros o u R. exfalso.
  apply refs_list_spec in R. cbv [pair_types] in E. repeat (destruct E as [<-|E]); try contradiction; vm_compute in R; contradiction.
Qed.
Local Lemma before_types : types_in before = pair_types. Proof. vm_compute. reflexivity. Qed.
Local Lemma after_types : types_in after = pair_types. Proof. vm_compute. reflexivity. Qed.
Local Lemma copy_types : types_in copy = pair_types. Proof. vm_compute. reflexivity. Qed.

Local Definition function_at (off : N) (name : string) (low size : N) : dw_function :=
  mkFunction off None (Some name) None no_source low size [mkRange low (low + size)] false false [] 20.
Local Ltac described :=
  refine (desc_own _ _ _ _ _ _ _ _ _ _ [] (loc_top _ _ _ _) _ _ _);
    [cbn; tauto|reflexivity
    |match goal with |- occupies ?lo ?l ?low ?size _ => apply (occ_length lo l low size); (reflexivity || discriminate) end|constructor].
Local Definition alpha : dw_function := function_at 30 "alpha" 4096 16.
Local Definition beta : dw_function := function_at 40 "beta" 4112 16.
Local Definition beta' : dw_function := function_at 70 "beta" 4096 32.
Local Definition gamma : dw_function := function_at 60 "gamma" 4128 16.
Local Lemma alpha_described : describes (unit_base (unit_with [alpha_entry; beta_entry])) (ui_children (unit_with [alpha_entry; beta_entry])) alpha_entry alpha.
Proof. described. Qed.
Local Lemma beta_described : describes (unit_base (unit_with [alpha_entry; beta_entry])) (ui_children (unit_with [alpha_entry; beta_entry])) beta_entry beta.
Proof. described. Qed.
Local Lemma beta_described' : describes (unit_base (unit_with [gamma_entry; beta_entry'])) (ui_children (unit_with [gamma_entry; beta_entry'])) beta_entry' beta'.
Proof. described. Qed.
Local Lemma gamma_described : describes (unit_base (unit_with [gamma_entry; beta_entry'])) (ui_children (unit_with [gamma_entry; beta_entry'])) gamma_entry gamma.
Proof. described. Qed.
Local Ltac wanted := split; [right; split; vm_compute; discriminate|split; [intros n E; discriminate E|split; [now left|intros n E; discriminate E]]].
Local Ltac mismatch := intros (_ & E); discriminate E.
(** The functions of a unit are all at the top. *)
Local Lemma found_flat fs outer d : (forall e, In e fs -> die_children e = []) -> found (ui_children (unit_with fs)) outer d ->
  die_tag d = TagSubprogram -> In d fs.
Proof.
  intros NC F T. assert (TOP : In d (ui_children (unit_with fs))).
  { clear T. induction F as [d I|t d c F IH L I]; [exact I|]. exfalso. destruct IH as [<-|[<-|J]]; [destruct I|destruct I|]. now rewrite (NC d J) in I. }
  destruct TOP as [<-|[<-|I]]; [discriminate T|discriminate T|exact I].
Qed.
Local Ltac lacks := 
  let outer := fresh in let d := fresh in let F := fresh in let T := fresh in let O := fresh in
  intros outer d F T O; apply found_flat in F; [|cbn; intuition; subst; reflexivity|exact T];
  destruct F as [<-|[<-|[]]]; try (now destruct O).
Local Lemma pair_configured : configured pair_cli pair_options [].
Proof. split; [reflexivity|constructor]. Qed.
Local Lemma unit_is_wanted o fs : f_unit (o_filter o) = None -> unit_wanted [] o (unit_with fs).
Proof. intros E f E'. congruence. Qed.
Local Lemma paths_same u v : same_unit [] u v <-> unit_path pair_options u = unit_path pair_options v.
Proof.
  assert (M : maps [] pair_options) by exact (configured_maps _ _ _ pair_configured). split.
  - intros (p & A & B). apply (match_path_iff _ _ _ _ M) in A, B. congruence.
  - intros E. exists (unit_path pair_options u). split; apply (match_path_iff _ _ _ _ M); congruence.
Qed.
Local Lemma units_differ fs : ~ same_unit [] (head_of (unit_with fs)) symtab_head /\ ~ same_unit [] symtab_head (head_of (unit_with fs)) /\
  ~ same_unit [] (head_of (unit_with fs)) unknown_head /\ ~ same_unit [] unknown_head (head_of (unit_with fs)).
Proof. rewrite !paths_same. repeat split; intros E; vm_compute in E; discriminate E. Qed.
Local Lemma unit_is_only path fs fs' : only_unit [] (file_with path fs) (unit_with fs) (unit_with fs').
Proof.
  destruct (units_differ fs') as (_ & A & _ & B). split; [now apply paths_same|]. split; [exact A|]. split; [exact B|].
  exists [], []. split; [reflexivity|intros z []].
Qed.

(** One function is gone, and one is new. *)
Example C86_example :
  configured pair_cli pair_options [] /\ well_formed before /\ acyclic_types before /\ well_formed after /\ acyclic_types after /\
  compare_output before after lowest 5 first_choice first_choice pair_options = Some (write_marked pair_report, true) /\
  unit_wanted [] pair_options (unit_with [alpha_entry; beta_entry]) /\ unit_wanted [] pair_options (unit_with [gamma_entry; beta_entry']) /\
  function_wanted pair_options alpha /\ nowhere [] after (unit_with [alpha_entry; beta_entry]) (fun v => no_function pair_options v None alpha) /\
  function_wanted pair_options gamma /\ nowhere [] before (unit_with [gamma_entry; beta_entry']) (fun v => no_function pair_options v None gamma).
Proof.
  split; [exact pair_configured|]. split; [exact before_formed|]. split; [exact (acyclic_by _ before_formed before_types)|].
  split; [exact after_formed|]. split; [exact (acyclic_by _ after_formed after_types)|]. split; [vm_compute; reflexivity|].
  split; [now apply unit_is_wanted|]. split; [now apply unit_is_wanted|].
  split; [wanted|]. split.
  - split; [apply units_differ|]. intros v [<-|[]] _.
    lacks; left; [exists gamma; split; [exact gamma_described|left; mismatch]|exists beta'; split; [exact beta_described'|left; mismatch]].
  - split; [wanted|]. split; [apply units_differ|]. intros v [<-|[]] _.
    lacks; left; [exists alpha; split; [exact alpha_described|left; mismatch]|exists beta; split; [exact beta_described|left; mismatch]].
Qed.
(** One is in both. *)
Example C86_example_compared :
  only_unit [] before (unit_with [alpha_entry; beta_entry]) (unit_with [gamma_entry; beta_entry']) /\
  only_unit [] after (unit_with [gamma_entry; beta_entry']) (unit_with [alpha_entry; beta_entry]) /\
  function_wanted pair_options beta /\ function_wanted pair_options beta' /\ functions_match beta beta' /\
  no_function pair_options (unit_with [alpha_entry; beta_entry]) (Some (fu_offset beta)) beta' /\
  no_function pair_options (unit_with [gamma_entry; beta_entry']) (Some (fu_offset beta')) beta /\
  ranges_alike (fu_ranges beta) (fu_ranges beta') /\
  (exists ta tb, print_output 5 first_choice pair_options before = Some ta /\ print_output 5 first_choice pair_options after = Some tb) /\
  parameters_compare_in before after before (fu_parameters beta) after (fu_parameters beta') = Eq.
Proof.
  split; [apply unit_is_only|]. split; [apply unit_is_only|]. split; [wanted|]. split; [wanted|].
  split; [split; [exists []; split; constructor|reflexivity]|]. split.
  { lacks. left. exists alpha. split; [exact alpha_described|left; mismatch]. }
  split. { lacks. left. exists gamma. split; [exact gamma_described|left; mismatch]. }
  split; [split; cbn; lia|]. split; [|reflexivity].
  do 2 eexists. split; vm_compute; reflexivity.
Qed.

Local Lemma short_few {A} (l : list A) : (List.length l <=? 9)%nat = true -> short l.
Proof. intros H. apply Nat.leb_le in H. unfold short. lia. Qed.
Local Lemma short_by ob : well_formed ob -> types_in ob = pair_types -> (List.length (kept_sections ob) <=? 9)%nat = true ->
  (forall t, short (type_enumerators ob t)) ->
  flat_map un_types (loaded_units first_choice ob) = [nth 1 pair_types void_type] ->
  (forall u f, In u (loaded_units first_choice ob) -> In f (un_functions u) -> sc_details (file_scene first_choice ob) f = mkDetails [] [] [] [] /\ EntryModel.calls (file_scene first_choice ob) f = Some []) ->
  short_image (load first_choice ob).
Proof.
  intros WF T KS EN TS FS.
  assert (ST : forall t, In t pair_types -> short_type t).
  { intros t E. cbv [pair_types] in E. repeat (destruct E as [<-|E]); try contradiction; exact I. }
  split; [|split].
  - split; [|exact EN]. intros off t E. now apply ST, (types_among ob WF T off).
  - now apply short_few.
  - apply Forall_forall. intros u Iu. change (In u (loaded_units first_choice ob)) in Iu. split; apply Forall_forall.
    + intros t It. apply ST. assert (J : In t (flat_map un_types (loaded_units first_choice ob))) by (apply in_flat_map; eauto).
      rewrite TS in J. destruct J as [<-|[]]. right. now left.
    + intros f If. destruct (FS u f Iu If) as (A & B). change (im_scene (load first_choice ob)) with (file_scene first_choice ob). split.
      * rewrite A. repeat split; try constructor; now apply short_few.
      * intros l E. rewrite B in E. injection E as <-. now apply short_few.
Qed.
Local Definition plain_function (ob : object_input) (f : func) : Prop :=
  sc_details (file_scene first_choice ob) f = mkDetails [] [] [] [] /\ EntryModel.calls (file_scene first_choice ob) f = Some [] /\ List.length (fn_ranges f) = 1%nat.
Local Ltac plain := intros u f Iu If; vm_compute in Iu; repeat (destruct Iu as [<-|Iu]); try contradiction;
  cbn [un_functions] in If; repeat (destruct If as [<-|If]); try contradiction; (split; [|split]); vm_compute; reflexivity.
Local Lemma before_functions u f : In u (loaded_units first_choice before) -> In f (un_functions u) -> plain_function before f.
Proof. revert u f. plain. Qed.
Local Lemma copy_functions u f : In u (loaded_units first_choice copy) -> In f (un_functions u) -> plain_function copy f.
Proof. revert u f. plain. Qed.
Local Lemma before_listed : flat_map un_types (loaded_units first_choice before) = [nth 1 pair_types void_type].
Proof. vm_compute. reflexivity. Qed.
Local Lemma copy_listed : flat_map un_types (loaded_units first_choice copy) = [nth 1 pair_types void_type].
Proof. vm_compute. reflexivity. Qed.
Local Lemma part_configured : configured part_cli part_options [].
Proof. split; [reflexivity|constructor]. Qed.

(** A file with the same contents in another order is the same but for its path. *)
Example C87_example :
  configured part_cli part_options [] /\ heeds_all part_options /\ well_formed copy /\ acyclic_types copy /\ ob_path before <> ob_path copy /\
  short_image (load first_choice before) /\ short_image (load first_choice copy) /\
  (forall u v, In u (loaded_units first_choice before) -> In v (loaded_units first_choice copy) -> same_unit [] u v ->
     units_alike part_options (load_two before copy first_choice first_choice) u v) /\
  (exists ta tb, print_output 5 first_choice part_options before = Some ta /\ print_output 5 first_choice part_options copy = Some tb) /\
  compare_output before copy lowest 5 first_choice first_choice part_options = Some ([], false) /\
  (exists out, compare_output before copy lowest 5 first_choice first_choice pair_options = Some (out, true)) /\
  (exists out, compare_output before after lowest 5 first_choice first_choice part_options = Some (out, true)).
Proof.
  assert (D1 := before_functions). assert (D2 := copy_functions).
  split; [exact part_configured|]. split; [repeat split|]. split; [exact copy_formed|]. split; [exact (acyclic_by _ copy_formed copy_types)|].
  split; [discriminate|].
  split. { apply short_by; [exact before_formed|exact before_types|vm_compute; reflexivity| |vm_compute; reflexivity|].
    - intros t. unfold type_enumerators. destruct (t_kind t); now apply short_few.
    - intros u f Iu If. destruct (D1 u f Iu If) as (A & B & _). split; [exact A|exact B]. }
  split. { apply short_by; [exact copy_formed|exact copy_types|vm_compute; reflexivity| |vm_compute; reflexivity|].
    - intros t. unfold type_enumerators. destruct (t_kind t); now apply short_few.
    - intros u f Iu If. destruct (D2 u f Iu If) as (A & B & _). split; [exact A|exact B]. }
  split.
  { intros u v Iu Iv _. split; [|split; [|split]].
    - intros x y Ix Iy _. assert (J : In x (flat_map un_types (loaded_units first_choice before))) by (apply in_flat_map; exists u; split; assumption).
      assert (K : In y (flat_map un_types (loaded_units first_choice copy))) by (apply in_flat_map; exists v; split; assumption).
      rewrite before_listed in J. rewrite copy_listed in K. destruct J as [<-|[]], K as [<-|[]]. repeat split.
    - intros x y Ix Iy _. destruct (D1 u x Iu Ix) as (_ & _ & A). destruct (D2 v y Iv Iy) as (_ & _ & B).
      unfold ranges_alike. rewrite A, B. split; intros (_ & L); exact (Nat.lt_irrefl _ L).
    - intros x Ix. destruct (D1 u x Iu Ix) as (A & _). change (settled_details part_options (sc_details (file_scene first_choice before) x)). rewrite A. split; [constructor|]. split; constructor.
    - intros x Ix. destruct (D2 v x Iv Ix) as (A & _). change (settled_details part_options (sc_details (file_scene first_choice copy) x)). rewrite A. split; [constructor|]. split; constructor. }
  split. { do 2 eexists. split; vm_compute; reflexivity. }
  split; [vm_compute; reflexivity|]. split; eexists; vm_compute; reflexivity.
Qed.
