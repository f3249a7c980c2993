(** A whole run over one file (properties C80 to C84). *)
From Coq Require Import List Arith NArith ZArith Bool String Ascii Lia Permutation Sorting.Sorted.
From Verif Require Import DescribeProofs MemberProofs DetailSpec PropertiesMember Base BaseProofs RangeModel NamespaceModel TypeModel TypeSpec TypeProofs TypeSizeProofs LayoutModel FileModel FileSpec FilterModel FilterSpec
  FilterProofs DiffModel PrintModel PrintSpec PrintProofs LocationModel RefModel RefSpec RefProofs ReadModel CodeModel ItemModel ItemSpec OptionsModel EntryModel EntrySpec
  IdModel ReportModel ReportSpec EntryShown DetailModel PropertiesListing PropertiesFile PropertiesReport PropertiesDie PropertiesDetail
  NameModel MemberSpec DieModel DieSpec DieProofs WholeModel WholeSpec WholeProofs WholeDepth WholeShown WholeMore WholeSymbols.
Import ListNotations.
Local Open Scope N_scope.

(** ** C80: what is printed for a unit *)

Local Notation inline_depth o := (N.to_nat (o_inline_depth o)).

Lemma each_nonempty {A} (P : A -> list line -> Prop) l ls : each P l ls -> ls <> [] -> exists x, In x l.
Proof. destruct 1 as [|x l ls ls' _ _]; [congruence|]. exists x. now left. Qed.

(** C80: the output has the header of each wanted unit, and then, as far as they are wanted, its types,
    its functions and its variables. *)
Theorem C80_unit : forall c o given fuel choice ob i u out,
  configured c o given -> o_html o = false -> well_formed ob -> acyclic_types ob ->
  print_output fuel choice o ob = Some out ->
  nth_error (ob_units ob) i = Some u -> unit_wanted given o u ->
  exists w before ts fs vs after,
    nth_error (loaded_units choice ob) i = Some w /\ un_name w = DieSpec.given_name (ui_attrs u) /\
    ((ts ++ fs ++ vs)%list <> [] -> im_dir (load choice ob) w = ui_dir u) /\
    optional (c_type (o_category o)) (types_printed choice ob o u) ts /\
    optional (c_function (o_category o)) (functions_printed choice ob o (inline_depth o) u) fs /\
    optional (c_variable (o_category o)) (variables_printed choice ob o u) vs /\
    out = write_lines (before ++ (if c_unit (o_category o) then unit_lines o (load choice ob) w else []) ++
                       ts ++ fs ++ vs ++ after).
Proof.
  intros c o given fuel choice ob i u out C HT WF AC E Eu Wu.
  unfold print_output in E. destruct (print_file _ _ _ _) as [p|] eqn:EP; [|discriminate]. cbn in E. injection E as <-.
  destruct (C67_file_printed c o given _ fuel _ p (inline_depth o) C EP) as (hs & us & _ & (sel & out & S & (PM & _) & E) & EQ).
  destruct (loaded_at choice ob i u Eu) as (w & Ew & LU).
  assert (Iw : In w out).
  { apply (Permutation_in _ (Permutation_sym PM)). apply (selects_in _ _ _ w S). split.
    - now apply nth_error_In in Ew.
    - now apply (wanted_unit ob given o u w LU). }
  destruct (each_split _ _ _ w E Iw) as (pre & xs & post & -> & (q & Eq & ->)).
  destruct (C67_unit_printed o _ fuel _ w q (inline_depth o) (compare_consistent ob WF AC) HT Eq) as (ts & fs & vs & T & F & V & L).
  cbn [load im_hash im_scene im_units file_scene sc_view file_view vw_hash file_hash h_env] in T, F, V.
  assert (T' : optional (c_type (o_category o)) (types_printed choice ob o u) ts).
  { destruct T as [B|ls B T]; [now constructor|constructor; [exact B|]]. exact (types_listed choice ob WF o fuel i u w _ _ ls Eu Ew T). }
  assert (F' : optional (c_function (o_category o)) (functions_printed choice ob o (inline_depth o) u) fs).
  { destruct F as [B|ls B F]; [now constructor|constructor; [exact B|]]. exact (functions_listed choice ob WF o fuel i u w _ _ ls Eu Ew F). }
  assert (V' : optional (c_variable (o_category o)) (variables_printed choice ob o u) vs).
  { destruct V as [B|ls B V]; [now constructor|constructor; [exact B|]]. exact (variables_listed choice ob WF o i u w _ _ ls Eu Ew V). }
  exists w, (hs ++ pre)%list, ts, fs, vs, post. split; [exact Ew|]. split; [|split; [|split; [exact T'|split; [exact F'|split; [exact V'|]]]]].
  - rewrite <- attr_name_given. exact (proj1 LU).
  - intros NE. cbn [load im_dir].
    assert (X : (exists t, In t (un_types w)) \/ (exists f, In f (un_functions w)) \/ exists v, In v (un_variables w)).
    { assert (Y : ts <> [] \/ fs <> [] \/ vs <> []).
      { destruct ts; [|left; discriminate]. destruct fs; [|right; left; discriminate]. right; right. exact NE. }
      assert (SI : forall A (P : A -> Prop) before depth pr l ls, listing P before depth pr l ls -> ls <> [] -> exists x, In x l).
      { intros A P bf dp pr l ls (sl & ou & S1 & (P1 & _) & E1) N1. destruct (each_nonempty _ _ _ E1 N1) as (x & Ix).
        apply (Permutation_in _ P1) in Ix. apply (selects_in _ _ _ x S1) in Ix. exists x. apply Ix. }
      destruct Y as [Y|[Y|Y]].
      - left. destruct T as [B|ls B T]; [congruence|]. exact (SI _ _ _ _ _ _ _ T Y).
      - right; left. destruct F as [B|ls B F]; [congruence|]. exact (SI _ _ _ _ _ _ _ F Y).
      - right; right. destruct V as [B|ls B V]; [congruence|]. exact (SI _ _ _ _ _ _ _ V Y). }
    destruct (loaded_offsets ob u w LU) as (O1 & O2 & O3).
    destruct X as [(x & Ix)|[(x & Ix)|(x & Ix)]].
    + apply (dir_at choice ob WF i u w (t_offset x) Eu Ew). left. rewrite <- O1. now apply in_map.
    + apply (dir_at choice ob WF i u w (fn_offset x) Eu Ew). right; left. rewrite <- O2. now apply in_map.
    + apply (dir_at choice ob WF i u w (va_offset x) Eu Ew). right; right. rewrite <- O3. now apply in_map.
  - unfold text_output. rewrite EQ. f_equal. rewrite L, <- !app_assoc. reflexivity.
Qed.
Print Assumptions C80_unit.

(** C80: the piece for a function that an entry describes and that is wanted. *)
Theorem C80_function : forall c o given fuel choice ob i u d g out,
  configured c o given -> o_html o = false -> well_formed ob -> acyclic_types ob ->
  print_output fuel choice o ob = Some out ->
  nth_error (ob_units ob) i = Some u -> unit_wanted given o u -> c_function (o_category o) = true ->
  describes (unit_base u) (ui_children u) d g -> function_wanted o g ->
  exists before after f symbol parameters more,
    function_for (parse_symbols (ob_symbols ob)) g f /\
    symbol_shown (parse_symbols (ob_symbols ob)) (fu_address g) (own_name (fu_linkage_name g) (fu_name g)) symbol /\
    each (formal_shown o (file_scene choice ob) 2) (de_parameters (sc_details (file_scene choice ob) f)) parameters /\
    out = write_lines (before ++ function_head o (file_view choice ob) (ui_dir u) g symbol parameters ++ more ++ [Blank] ++ after).
Proof.
  intros c o given fuel choice ob i u d g out C HT WF AC E Eu Wu CF D Wg.
  destruct (C80_unit c o given fuel choice ob i u out C HT WF AC E Eu Wu) as (w & pre & ts & fs & vs & post & _ & _ & _ & _ & F & _ & ->).
  destruct F as [B|ls _ (gs & _ & IG & _ & EA)]; [congruence|].
  apply (IG d g D) in Wg. destruct (each_split _ _ _ g EA Wg) as (a & xs & b & -> & (f & FF & R & S & SH)).
  inversion SH as [ps vs' fs' inner cs code dd P1 P2 P3 P4 P5 P6 XS]. clear SH. subst dd.
  exists (pre ++ (if c_unit (o_category o) then unit_lines o (load choice ob) w else []) ++ ts ++ a)%list, (b ++ vs ++ post)%list,
    f, (fn_symbol_name f), ps.
  exists (under 1 "variables" vs' ++ under 1 "stack frame" fs' ++ under 1 "inlined functions" inner ++
       (if p_function_calls (o_print o)
        then under 1 "call sites" (flat_map (site_shown o (file_scene choice ob) (ui_dir u) 2) (de_calls (sc_details (file_scene choice ob) f))) else []) ++
       under 1 "calls" cs ++ under 1 "instructions" code)%list.
  split; [exact FF|]. destruct FF as (_ & F1 & F2 & F3 & F4 & F5 & F6 & F7 & F8 & F9). split; [exact F9|]. split; [exact P1|].
  f_equal. unfold function_head, function_name, returns_shown, return_shown, yes, optional_name.
  rewrite R, S, F1, F2, F3, F5, F6, F7, F8. cbn [file_scene sc_view]. rewrite <- !app_assoc. cbn [app]. rewrite <- !app_assoc. reflexivity.
Qed.
Print Assumptions C80_function.

(** C80: the piece for a variable. *)
Theorem C80_variable : forall c o given fuel choice ob i u d g out,
  configured c o given -> o_html o = false -> well_formed ob -> acyclic_types ob ->
  print_output fuel choice o ob = Some out ->
  nth_error (ob_units ob) i = Some u -> unit_wanted given o u -> c_variable (o_category o) = true ->
  no_rust_statics (unit_context ob u) ->
  describes_variable (unit_base u) (ui_children u) d g -> variable_wanted o g ->
  exists before after symbol,
    symbol_shown (parse_symbols (ob_symbols ob)) (vr_address g) (own_name (vr_linkage_name g) (vr_name g)) symbol /\
    out = write_lines (before ++ variable_piece o (file_view choice ob) (ui_dir u) g symbol ++ after).
Proof.
  intros c o given fuel choice ob i u d g out C HT WF AC E Eu Wu CV NR D Wg.
  destruct (C80_unit c o given fuel choice ob i u out C HT WF AC E Eu Wu) as (w & pre & ts & fs & vs & post & _ & _ & _ & _ & _ & V & ->).
  destruct V as [B|ls _ (gs & _ & IG & _ & EA)]; [congruence|].
  apply (IG NR d g D) in Wg. destruct (each_split _ _ _ g EA Wg) as (a & xs & b & -> & (v & VF & S & ->)).
  exists (pre ++ (if c_unit (o_category o) then unit_lines o (load choice ob) w else []) ++ ts ++ fs ++ a)%list, (b ++ post)%list, (va_symbol_name v).
  destruct VF as (_ & F1 & F2 & F3 & F4 & F5 & F6 & F7 & F8). split; [exact F8|].
  f_equal. unfold variable_shown, variable_piece, yes, optional_name.
  rewrite S, F1, F2, F3, F4, F5, F6, F7. cbn [file_scene sc_view]. rewrite <- !app_assoc. reflexivity.
Qed.
Print Assumptions C80_variable.

(** C80: the piece for a type; [kept] are the types of the unit. *)
Theorem C80_type : forall c o given fuel choice ob i u outer ns d out,
  configured c o given -> o_html o = false -> well_formed ob -> acyclic_types ob ->
  print_output fuel choice o ob = Some out ->
  nth_error (ob_units ob) i = Some u -> unit_wanted given o u -> c_type (o_category o) = true ->
  located (unit_base u) (ui_children u) outer ns d -> outer <> TagEnumeration -> is_type_tag (die_tag d) = true ->
  exists t kept,
    t_offset t = die_offset d /\ describes_type (unit_context ob u) ns d (t_kind t) /\ type_at ob (t_offset t) = Some t /\
    (forall t', In t' kept -> exists ns' outer' d',
       found (ui_children u) outer' d' /\ is_type_tag (die_tag d') = true /\ outer' <> TagEnumeration /\
       t_offset t' = die_offset d' /\ describes_type (unit_context ob u) ns' d' (t_kind t') /\ type_at ob (t_offset t') = Some t') /\
    (type_listed o (type_at ob) false (mkUnit None [] kept [] []) t ->
     exists before piece after,
       type_shown o (file_view choice ob) (ui_dir u) t piece /\ out = write_lines (before ++ piece ++ after)).
Proof.
  intros c o given fuel choice ob i u outer ns d out C HT WF AC E Eu Wu CT L NE TT.
  destruct (C80_unit c o given fuel choice ob i u out C HT WF AC E Eu Wu) as (w & pre & ts & fs & vs & post & _ & _ & _ & T & _ & _ & ->).
  destruct T as [B|ls _ (kept & sel & _ & _ & KE & KD & KA & IS & EA)]; [congruence|].
  destruct (KD outer ns d L NE TT) as (t & It & Ot & DT). exists t, kept. split; [exact Ot|]. split; [exact DT|]. split; [now apply KA|].
  split.
  { intros t' I'. destruct (KE t' I') as (ns' & outer' & d' & A1 & A2 & A3 & A4 & A5). exists ns', outer', d'. repeat split; auto. }
  intros TL. destruct (each_split _ _ _ t EA) as (a & xs & b & -> & SH); [now apply IS|].
  exists (pre ++ (if c_unit (o_category o) then unit_lines o (load choice ob) w else []) ++ a)%list, xs, (b ++ fs ++ vs ++ post)%list.
  split; [exact SH|]. f_equal. rewrite <- !app_assoc. reflexivity.
Qed.
Print Assumptions C80_type.

(** ** C81: what is found by offset *)

Lemma located_entry low top : (forall outer ns d, located low top outer ns d -> In d (flat_map entries top)) /\
  forall d g, describes low top d g -> In d (flat_map entries top) /\ fu_offset g = die_offset d.
Proof.
  assert (CH : forall t o a c e, In (Die t o a c) (flat_map entries top) -> In e c -> In e (flat_map entries top)).
  { intros t o a c e I J. apply in_flat_map in I. destruct I as (x & Ix & I). apply in_flat_map. exists x.
    split; [exact Ix|]. apply (entries_trans x _ _ I). apply (entries_child e); [exact J|apply entries_self]. }
  assert (L : forall outer ns d, located low top outer ns d -> In d (flat_map entries top)).
  { apply (located_mut low top (fun _ _ e => In e (flat_map entries top)) (fun e _ => In e (flat_map entries top))); eauto.
    intros d I. apply in_flat_map. exists d. split; [exact I|]. apply entries_self. }
  split; [exact L|]. intros d g D. destruct D; split; try reflexivity; eapply L; eassumption.
Qed.
Lemma extends_total ds : forall ps, exists qs, extends ps ds qs.
Proof.
  assert (SPLIT : forall o (ps : list parameter_type), (exists a p b, ps = (a ++ p :: b)%list /\ pt_offset p = o /\
      Forall (fun q => pt_offset q <> o) a) \/ Forall (fun q => pt_offset q <> o) ps).
  { intros o. induction ps as [|p ps IH]; [right; constructor|]. destruct (N.eq_dec (pt_offset p) o) as [E|E].
    - left. exists [], p, ps. repeat split; [exact E|constructor].
    - destruct IH as [(a & q & b & -> & F & N)|N].
      + left. exists (p :: a), q, b. repeat split; [exact F|]. now constructor.
      + right. now constructor. }
  assert (TAG : forall t, t = TagParameter \/ t <> TagParameter) by (intros []; (now left) || (right; discriminate)).
  induction ds as [|d ds IH]; intros ps; [exists ps; constructor|].
  destruct (TAG (die_tag d)) as [T|T].
  - destruct d as [t off attrs c]. cbn [die_tag] in T. subst t.
    destruct (given_origin attrs) as [o|] eqn:G.
    + destruct (SPLIT o ps) as [(a & p & b & -> & F & N)|N].
      * edestruct IH as (qs & E). exists qs. eapply ext_amend; eauto.
      * edestruct IH as (qs & E). exists qs. eapply ext_new; [|exact E]. intros o' G'. rewrite G in G'. injection G' as <-. exact N.
    + edestruct IH as (qs & E). exists qs. eapply ext_new; [|exact E]. intros o' G'. congruence.
  - destruct (IH ps) as (qs & E). exists qs. now constructor.
Qed.

(** C81: a type that an entry describes is found at the offset of the entry, by everything that refers to it;
    and any other type found is the one that the entry there describes. *)
Theorem C81_types : forall ob u outer ns d,
  well_formed ob -> In u (ob_units ob) ->
  located (unit_base u) (ui_children u) outer ns d -> outer <> TagEnumeration -> is_type_tag (die_tag d) = true ->
  exists t, from_offset (type_at ob) (die_offset d) = Some t /\
    t_offset t = die_offset d /\ describes_type (unit_context ob u) ns d (t_kind t).
Proof.
  intros ob u outer ns d WF Iu L NE TT.
  destruct (C49_described _ _ _ outer ns d (unit_distinct ob WF u Iu) (items_read ob u) L TT NE) as (t & It & Ot & DT).
  exists t. split; [|auto]. destruct (type_at_named ob WF u t Iu It) as (A & B). unfold from_offset. rewrite <- Ot.
  destruct (N.eqb_spec (t_offset t) type_offset_none); [contradiction|exact A].
Qed.
Print Assumptions C81_types.

(** C81: the same for the types that are not kept. *)
Theorem C81_unnamed : forall ob u d,
  well_formed ob -> In u (ob_units ob) -> In d (unit_entries u) -> is_unnamed_tag (die_tag d) = true ->
  exists k, from_offset (type_at ob) (die_offset d) = Some (mkType (die_offset d) k) /\
    describes_unnamed (ui_address_size u) d k.
Proof.
  intros ob u d WF Iu Id T.
  assert (NE : die_offset d <> type_offset_none).
  { destruct WF as [_ F]. rewrite Forall_forall in F. apply F. unfold all_entries. apply in_flat_map. eauto. }
  assert (P : exists k, parse_unnamed_type (unit_context ob u) d = Some (mkType (die_offset d) k) /\ describes_unnamed (ui_address_size u) d k).
  { destruct d as [t off attrs c]. cbn [die_tag die_offset] in *. cbn [parse_unnamed_type].
    destruct t; try discriminate T; eexists; (split; [reflexivity|]).
    - assert (A := fun ns D => C38_array attrs c ns (proj1 D) (proj1 (proj2 D)) (proj1 (proj2 (proj2 D))) (proj2 (proj2 (proj2 D)))).
      destruct (array_counts c attrs) as (B & C & _). apply du_array; [reflexivity|exact B|exact C|].
      intros ns D. exact (proj1 (A ns D)).
    - apply du_subrange; cbn [die_attrs]; [reflexivity|apply attr_name_given|apply attr_type_given|apply attr_byte_size_given|].
      intros lo up (D & L & U & N). exact (C38_subrange attrs lo up D L U N).
    - destruct (extends_total c []) as (ps & E). unfold parse_subroutine_type. rewrite (parameters_extends _ _ _ E), attr_type_given.
      exact (du_function (ui_address_size u) (Die TagSubroutine off attrs c) ps eq_refl E).
    - unfold parse_pointer_to_member_type. rewrite attr_type_given, attr_byte_size_given.
      replace (attr_containing_type attrs) with (given_containing attrs); [exact (du_member (ui_address_size u) (Die TagPtrToMember off attrs c) eq_refl)|].
      symmetry. apply scan_given. now intros [].
    - unfold parse_type_modifier. rewrite attr_type_given, attr_byte_size_given, attr_name_given. exact (du_modifier (ui_address_size u) (Die (TagModifier _) off attrs c) _ eq_refl). }
  destruct P as (k & P & DU). exists k. split; [|exact DU]. unfold from_offset.
  destruct (N.eqb_spec (die_offset d) type_offset_none); [contradiction|]. unfold type_at.
  destruct (types_by_offset (parsed_units ob) (die_offset d)) as [t'|] eqn:F.
  - exfalso. apply C21_types_by_offset in F. destruct F as (b & a & Q & K & _). injection K as K.
    assert (I : In t' (all_types (parsed_units ob))) by (rewrite Q; apply in_app_iff; right; now left).
    rewrite parsed_types in I. apply in_flat_map in I. destruct I as (v & Iv & It).
    destruct (type_entry ob WF v t' Iv It) as (e & Ie & Te & Oe).
    assert (v = u) as ->. { apply (owner ob WF v u (die_offset d) Iv Iu); [rewrite <- K, Oe|]; now apply in_map. }
    rewrite (entry_unique ob WF u d e Iu Id Ie) in T by congruence. destruct (die_tag e); discriminate.
  - unfold unnamed_type. rewrite (entry_in_complete ob WF u d Iu Id). exact P.
Qed.
Print Assumptions C81_unnamed.

(** C81: nothing else is found. *)
Theorem C81_found : forall ob off t,
  well_formed ob -> from_offset (type_at ob) off = Some t ->
  off = type_offset_none /\ t_kind t = TVoid \/
  exists u d, In u (ob_units ob) /\ In d (unit_entries u) /\ die_offset d = off /\ t_offset t = off /\
    (is_type_tag (die_tag d) = true /\ (exists ns, describes_type (unit_context ob u) ns d (t_kind t)) \/
     is_unnamed_tag (die_tag d) = true /\ describes_unnamed (ui_address_size u) d (t_kind t)).
Proof.
  intros ob off t WF E0. pose proof E0 as E. unfold from_offset in E. destruct (N.eqb_spec off type_offset_none) as [->|NE].
  { injection E as <-. now left. }
  right. unfold type_at in E. destruct (types_by_offset (parsed_units ob) off) as [t'|] eqn:F.
  - injection E as ->. apply C21_types_by_offset in F. destruct F as (b & a & Q & K & _). injection K as K.
    assert (I : In t (all_types (parsed_units ob))) by (rewrite Q; apply in_app_iff; right; now left).
    rewrite parsed_types in I. apply in_flat_map in I. destruct I as (v & Iv & It).
    destruct (C49_every _ _ _ t (items_read ob v) It) as (ns & x & e & Fe & Te & _ & Oe & De). exists v, e.
    split; [exact Iv|]. split; [now apply found_entry in Fe|]. split; [congruence|]. split; [exact K|]. left. eauto.
  - unfold unnamed_type in E. destruct (entry_in (ob_units ob) off) as [[u d]|] eqn:G; [|discriminate].
    apply (entry_in_sound ob) in G; [|auto]. destruct G as (Iu & Id & Od). exists u, d. split; [exact Iu|]. split; [exact Id|].
    split; [exact Od|].
    assert (T : is_unnamed_tag (die_tag d) = true) by (destruct d as [tg o a c]; destruct tg; try discriminate E; reflexivity).
    destruct (C81_unnamed ob u d WF Iu Id T) as (k & K & DU). rewrite Od, E0 in K. injection K as ->. auto.
Qed.
Print Assumptions C81_found.

(** C81: the parameters listed for a function are those of its description, if its entry refers to at most
    one other. *)
Theorem C81_signature : forall choice ob u d g f,
  well_formed ob -> In u (ob_units ob) -> describes (unit_base u) (ui_children u) d g -> fn_offset f = fu_offset g ->
  (forall o, given_specification (die_attrs d) = Some (o, false) -> given_origin (die_attrs d) = None) ->
  (forall o, given_origin (die_attrs d) = Some o ->
     o <> u64_max /\ forall e, In e (all_entries ob) -> die_offset e = o -> given_origin (die_attrs e) = None) ->
  map (fun p => (fo_name p, fo_ty p)) (de_parameters (sc_details (file_scene choice ob) f)) =
  map (fun p => (pt_name p, pt_ty p)) (fu_parameters g).
Proof.
  intros choice ob u d g f WF Iu D EO NS NO. destruct (located_entry (unit_base u) (ui_children u)) as (_ & EN).
  assert (SP : forall e h, describes (unit_base u) (ui_children u) e h -> exists rd, entry_space ob (die_offset e) = Some (rd, e)).
  { intros e h H. eexists. unfold entry_space. rewrite (entry_in_complete ob WF u e Iu); [reflexivity|]. exact (proj1 (EN e h H)). }
  destruct (SP d g D) as (rd & S). destruct (EN d g D) as (Id & Og).
  assert (NE : die_offset d <> u64_max).
  { destruct WF as [_ F]. rewrite Forall_forall in F. apply F. unfold all_entries. apply in_flat_map. eauto. }
  cbn [file_scene sc_details]. unfold function_details_of, details_of. cbn [de_parameters]. rewrite EO, Og.
  rewrite <- (C73_agree (entry_space ob) (file_offsets (loaded choice ob)) _ _ d g rd D NE S SP NS).
  - rewrite !map_map. apply map_ext. intros p. reflexivity.
  - intros o G. destruct (NO o G) as (A & B). split; [exact A|]. intros rd' e E. unfold entry_space in E.
    destruct (entry_in (ob_units ob) o) as [[v e']|] eqn:G'; [|discriminate]. injection E as _ <-.
    apply (entry_in_sound ob) in G'; [|auto]. destruct G' as (Iv & Ie & Oe). apply B; [|exact Oe].
    unfold all_entries. apply in_flat_map. eauto.
Qed.
Print Assumptions C81_signature.

(** C81: what is listed inside a function comes from the entries in its entry, see C70 and C71. *)
Theorem C81_details : forall choice ob u d f,
  well_formed ob -> In u (ob_units ob) -> In d (unit_entries u) -> fn_offset f = die_offset d ->
  exists rd fd, entry_space ob (die_offset d) = Some (rd, d) /\ rd_address_size rd = ui_address_size u /\
    fd = get_function_details (entry_space ob) (file_offsets (loaded choice ob)) (die_offset d) /\
    sc_details (file_scene choice ob) f = details_of fd /\
    fd_parameters fd = map parameter_of (groups [] (parameter_entries (entry_space ob) rd (die_attrs d) (die_children d))) /\
    Forall2 (DetailSpec.calls (entry_space ob) (file_offsets (loaded choice ob)) rd)
      (flat_map (through_blocks is_call) (die_children d)) (fd_calls fd) /\
    (all_proper (entry_space ob) ->
     fd_variables fd = map variable_of (groups [] (variable_entries (entry_space ob) rd (die_attrs d) (die_children d)))) /\
    (all_proper (entry_space ob) -> tree_64 d ->
     Forall2 (DetailSpec.inlines (entry_space ob) (file_offsets (loaded choice ob)) rd)
       (flat_map (through_blocks is_inlined) (die_children d)) (fd_inlined fd)).
Proof.
  intros choice ob u d f WF Iu Id EO.
  assert (NE : die_offset d <> u64_max).
  { destruct WF as [_ F]. rewrite Forall_forall in F. apply F. unfold all_entries. apply in_flat_map. eauto. }
  assert (S : entry_space ob (die_offset d) = Some (mkReading (ui_address_size u) (ui_address u), d)).
  { unfold entry_space. now rewrite (entry_in_complete ob WF u d Iu Id). }
  eexists. eexists. split; [exact S|]. split; [reflexivity|]. split; [reflexivity|]. split; [cbn [file_scene sc_details]; unfold function_details_of; now rewrite EO|].
  split; [now apply C70_parameters|]. split; [now apply C71_calls|]. split.
  - intros P. now apply C70_variables.
  - intros P T. now apply C71_inlined.
Qed.
Print Assumptions C81_details.

(** ** C82: symbols that the debug info does not account for *)

(** C82: the symbols that are not at an address of a function or variable from the debug info are listed in a
    unit of their own, each as often as the symbol table has it; the others are not. *)
Theorem C82_symbols : forall c o given fuel choice ob out,
  configured c o given -> o_html o = false -> well_formed ob -> acyclic_types ob ->
  Forall symbol_in_bounds (parse_symbols (ob_symbols ob)) ->
  print_output fuel choice o ob = Some out ->
  unit_listed given o (mkUnit (Some "<symtab>"%string) [] [] [] []) ->
  exists before head fs vs after claimed unclaimed,
    out = write_lines (before ++ head ++ fs ++ vs ++ after) /\
    Permutation (parse_symbols (ob_symbols ob)) (claimed ++ unclaimed) /\
    (forall s, In s claimed -> debug_address (parsed_units ob) (sy_address s)) /\
    (forall s, In s unclaimed -> ~ debug_address (parsed_units ob) (sy_address s)) /\
    (c_unit (o_category o) = true -> unclaimed <> [] -> exists rest, head = Line 0 (txt "unit <symtab>") :: rest) /\
    optional (c_function (o_category o))
      (fun ls => exists sel l,
         selects (fun s => is_function_symbol s = true /\ symbol_wanted o s /\
                    inline_matches (f_function_inline (o_filter o)) false) unclaimed sel /\
         Permutation sel l /\ each (symbol_printed choice ob o (inline_depth o)) l ls) fs /\
    optional (c_variable (o_category o))
      (fun ls => exists sel l,
         selects (fun s => is_function_symbol s = false /\ symbol_wanted o s) unclaimed sel /\
         Permutation sel l /\ each (fun s xs => xs = symbol_variable_piece s) l ls) vs.
Proof.
  intros c o given fuel choice ob out C HT WF AC SB E Wu.
  destruct (symtab_loaded choice ob) as (claimed & unclaimed & st & Ist & Nst & PS & CL & UN & TS & FS & VS).
  assert (IU : forall s, In s unclaimed -> In s (parse_symbols (ob_symbols ob))).
  { intros s I. apply (Permutation_in _ (Permutation_sym PS)), in_app_iff. now right. }
  unfold print_output in E. destruct (print_file _ _ _ _) as [p|] eqn:EP; [|discriminate]. cbn in E. injection E as <-.
  destruct (C67_file_printed c o given _ fuel _ p (inline_depth o) C EP) as (hs & us & _ & (sel & outs & S & (PM & _) & E) & EQ).
  assert (Iw : In st outs).
  { apply (Permutation_in _ (Permutation_sym PM)). apply (selects_in _ _ _ st S). split; [exact Ist|].
    unfold unit_listed, filter_path in *. rewrite Nst. exact Wu. }
  destruct (each_split _ _ _ st E Iw) as (pre & xs & post & -> & (q & Eq & ->)).
  destruct (C67_unit_printed o _ fuel _ st q (inline_depth o) (compare_consistent ob WF AC) HT Eq) as (ts & fs & vs & T & F & V & L).
  assert (ts = []) as ->.
  { destruct T as [|ls _ (s1 & o1 & S1 & (P1 & _) & E1)]; [reflexivity|]. rewrite TS in S1. inversion S1; subst.
    apply Permutation_sym, Permutation_nil in P1. subst. now inversion E1. }
  exists (hs ++ pre)%list, (if c_unit (o_category o) then unit_lines o (load choice ob) st else []), fs, vs, post, claimed, unclaimed.
  split. { unfold text_output. rewrite EQ. f_equal. rewrite L, <- !app_assoc. reflexivity. }
  split; [exact PS|]. split; [exact CL|]. split; [exact UN|]. split.
  { intros -> NE. unfold unit_lines. rewrite Nst. cbn [load im_dir]. rewrite (symtab_dir choice ob WF st); [eexists; reflexivity|].
    rewrite FS, VS, !map_map. destruct unclaimed as [|s l]; [congruence|]. destruct (is_function_symbol s) eqn:K.
    - left. cbn [filter]. rewrite K. now left.
    - right. cbn [filter]. rewrite K. now left. }
  assert (SF : forall (P Q : symbol -> Prop) b l r, (forall s, In s l -> ((b s = true /\ Q s) <-> P s)) -> selects Q (filter b l) r -> selects P l r).
  { intros P Q b l. induction l as [|x l IH]; intros r H S1; [inversion S1; constructor|]. cbn [filter] in S1.
    assert (H' := fun z I => H z (or_intror I)). specialize (H x (or_introl eq_refl)). destruct (b x).
    - inversion S1 as [|y l' r' Py S' E1 E2|y l' r' NP S' E1 E2]; subst.
      + constructor; [apply H; auto|now apply IH].
      + constructor; [intros Px; apply NP, H, Px|now apply IH].
    - constructor; [intros Px; apply H in Px; destruct Px; discriminate|now apply IH]. }
  split.
  - destruct F as [B|ls B F]; [now constructor|constructor; [exact B|]]. rewrite FS in F.
    assert (H1 : forall s, In s (filter is_function_symbol unclaimed) -> (function_listed o (symbol_function s) <->
      symbol_wanted o s /\ inline_matches (f_function_inline (o_filter o)) false)).
    { intros s I. apply filter_In in I. destruct (symbol_known ob SB s (IU s (proj1 I))) as (_ & _ & K1 & K2 & _).
      unfold function_listed, symbol_wanted. cbn [symbol_function fn_inline fn_address fn_size fn_name fn_namespace]. tauto. }
    destruct (listing_map symbol_function _ _ _ _ _ _ _ H1 F) as (s1 & o1 & S1 & P1 & E1).
    assert (I1 : forall s, In s o1 -> In s unclaimed).
    { intros s I. apply (Permutation_in _ (Permutation_sym P1)) in I. apply (selects_in _ _ _ s S1) in I. destruct I as [I _]. now apply filter_In in I. }
    exists s1, o1. split; [|split; [exact P1|]].
    + refine (SF _ _ _ _ _ _ S1). intros s _. tauto.
    + refine (each_weaken _ _ _ _ _ E1). intros s xs I (pd & Ep & ->). unfold print_function_in in Ep.
      apply (symbol_function_shown choice ob WF SB o (im_dir (load choice ob) st) _ s _ (IU s (I1 s I))). now apply (function_printed o fuel).
  - destruct V as [B|ls B V]; [now constructor|constructor; [exact B|]]. rewrite VS in V.
    assert (H1 : forall s, In s (filter (fun s => negb (is_function_symbol s)) unclaimed) ->
      (variable_listed o (symbol_variable s) <-> symbol_wanted o s)).
    { intros s I. apply filter_In in I. destruct (symbol_known ob SB s (IU s (proj1 I))) as (_ & _ & K1 & K2 & _).
      unfold variable_listed, symbol_wanted. cbn [symbol_variable va_declaration va_address va_name va_namespace]. tauto. }
    destruct (listing_map symbol_variable _ _ _ _ _ _ _ H1 V) as (s1 & o1 & S1 & P1 & E1).
    assert (I1 : forall s, In s o1 -> In s unclaimed).
    { intros s I. apply (Permutation_in _ (Permutation_sym P1)) in I. apply (selects_in _ _ _ s S1) in I. destruct I as [I _]. now apply filter_In in I. }
    exists s1, o1. split; [|split; [exact P1|]].
    + refine (SF _ _ _ _ _ _ S1). intros s _. rewrite negb_true_iff. tauto.
    + refine (each_weaken _ _ _ _ _ E1). intros s xs I (pd & Ep & ->). unfold print_variable_in in Ep. injection Ep as <-.
      rewrite variable_printed. exact (symbol_variable_shown choice ob WF SB o (im_dir (load choice ob) st) s (IU s (I1 s I))).
Qed.
Print Assumptions C82_symbols.

(** ** C83: the bounds on recursion in the model make no difference *)

(** C83: sizes, references and comparisons have the answers that the code gives, which has no bound. *)
Theorem C83_sizes : forall ob off t, well_formed ob -> from_offset (type_at ob) off = Some t ->
  size_well_founded (type_at ob) t -> reports_size (type_at ob) t (type_size ob t).
Proof.
  intros ob off t WF E SZ.
  destruct (found_size (type_at ob) (places ob) (type_at_place ob WF) off t (depth_limit ob) E SZ) as (r & R).
  { rewrite places_length, depth_limit_eq. lia. }
  exists (depth_limit ob). intros fuel LE. unfold type_size. rewrite R. exact (byte_size_le _ _ _ _ _ LE R).
Qed.
Print Assumptions C83_sizes.

Theorem C83_references : forall choice ob t, well_formed ob -> acyclic_types ob ->
  spelled (type_at ob) (parameter_names ob) t (text_value (vw_ref (file_view choice ob) t)) /\
  exists v, type_ref (type_at ob) (type_number choice ob) (parameter_names ob) (depth_limit ob) t = Some v /\
    vw_ref (file_view choice ob) t = v.
Proof.
  intros choice ob t WF AC. destruct (ref_found ob WF AC (type_number choice ob) t) as (v & E).
  cbn [file_view vw_ref]. unfold ref_of. rewrite E. split; [|eauto]. now apply (ref_spelled _ (type_number choice ob) _ (depth_limit ob)).
Qed.
Print Assumptions C83_references.

Theorem C83_comparisons : forall ob a b c, well_formed ob -> acyclic_types ob ->
  compares false (type_at ob, a) (type_at ob, b) c -> type_compare ob a b = c.
Proof.
  intros ob a b c WF AC H.
  exact (compares_file ob WF AC (file_view (fun _ => 0%nat) ob) eq_refl a b c H).
Qed.
Print Assumptions C83_comparisons.

(** C83: if there is an output then a larger bound gives the same; and there is one, unless a type contains
    itself, for a large enough bound. *)
Theorem C83_same : forall f f' choice o ob out, o_html o = false -> (f <= f')%nat ->
  print_output f choice o ob = Some out -> print_output f' choice o ob = Some out.
Proof.
  intros f f' choice o ob out HT L. unfold print_output.
  destruct (print_file _ _ f _) as [p|] eqn:E; [|discriminate]. now rewrite (file_deeper o _ _ HT f f' p L E).
Qed.
Print Assumptions C83_same.

Theorem C83_output : forall choice o ob, o_html o = false -> well_formed ob ->
  (forall off t, from_offset (type_at ob) off = Some t -> nests (file_view choice ob) t) ->
  (ob_program ob = None \/ p_function_calls (o_print o) = false /\ p_function_instructions (o_print o) = false) ->
  exists fuel out, print_output fuel choice o ob = Some out.
Proof.
  intros choice o ob HT WF NS PR.
  destruct (file_ex o (compare_parameters ob) (load choice ob) HT) as (f & p & E).
  - intros w t v Iw It SM. cbn [load im_units] in Iw. unfold im_view in *. cbn [load im_scene file_scene sc_view] in *.
    assert (NT : nests (file_view choice ob) t).
    { unfold loaded_units, loaded in Iw. assert (A : In t (all_types (fl_units (normalize choice (h_sizes (file_hash ob)) (file_read ob))))).
      { unfold all_types. apply in_flat_map. eauto. }
      rewrite FileProofs.types_kept in A. cbn [file_read fl_units] in A. rewrite parsed_types in A.
      apply in_flat_map in A. destruct A as (u & Iu & Ju). destruct (type_at_named ob WF u t Iu Ju) as (A & B).
      apply (NS (t_offset t)). unfold from_offset. destruct (N.eqb_spec (t_offset t) type_offset_none); [contradiction|exact A]. }
    destruct SM as [s K|x K|d x K FD AN]; [exact NT|exact NT|]. exact (NS _ _ FD).
  - intros w f Iw If. unfold calls, print_instructions. cbn [load im_scene file_scene sc_program].
    destruct PR as [->|(-> & ->)]; split; intros; try discriminate; eauto.
  - exists f. unfold print_output. rewrite E. cbn. eauto.
Qed.
Print Assumptions C83_output.

(** ** C84: a file compared with itself *)

(** C84: if there is an output for a file then the comparison of it with itself exits as one that found no
    difference, and prints nothing but the header of the file, unmarked. *)
Theorem C84_silent : forall choose fuel choice o ob out,
  well_formed ob -> acyclic_types ob -> short_image (load choice ob) -> o_html o = false -> (0 < fuel)%nat ->
  print_output fuel choice o ob = Some out ->
  exists ls, self_diff_output choose fuel choice o ob = Some (write_marked (with_mark Same ls)) /\
    (c_file (o_category o) = false -> ls = []).
Proof.
  intros choose fuel choice o ob out WF AC SH HT PF E. unfold print_output in E.
  destruct (print_file _ _ _ _) as [p|] eqn:EP; [|discriminate].
  destruct (C65_silent choose (load choice ob) (type_compare ob) o _ fuel p (inline_depth o) SH AC
    (compares_file ob WF AC (file_view choice ob) eq_refl) HT PF EP) as (e & ls & s & E1 & E2 & E3 & _).
  exists ls. split; [|exact E3]. unfold self_diff_output. rewrite E1. cbn [option_map]. unfold diff_output.
  rewrite E2. reflexivity.
Qed.
Print Assumptions C84_silent.

(** ** An example *)

Local Open Scope string_scope.
Local Open Scope list_scope.
Local Open Scope N_scope.
Local Definition sample_unit : unit_input :=
  mkUnitInput [AName (Some "a.cpp"); ALowPc (Some 4096); AHighPcSize 64]
    [ Die TagBase 20 [AName (Some "int"); AByteSize (Some 4)%Z] [];
      Die TagNamespace 30 [AName (Some "geo")]
        [ Die TagStructure 40 [AName (Some "Point"); AByteSize (Some 16)%Z; ADeclFile (Some (Some "a.h", None)); ADeclLine (Some 3)]
            [ Die TagMember 50 [AName (Some "x"); AType (Some 20); ADataMemberLocation (MUdata 0)] [];
              Die TagMember 60 [AName (Some "next"); AType (Some 80); ADataMemberLocation (MUdata 8)] [];
              Die TagSubprogram 70 [AName (Some "norm"); ALinkageName (Some "_ZN3geo5Point4normEv"); AType (Some 20); ADeclaration (Some true)]
                [ Die TagParameter 74 [AType (Some 80)] [] ] ] ];
      Die (TagModifier MPointer) 80 [AType (Some 40)] [];
      Die TagSubprogram 90 [ASpecification (Some 70); ALowPc (Some 4096); AHighPcSize 32]
        [ Die TagParameter 94 [AName (Some "this"); AType (Some 80)] [];
          Die TagVariable 98 [AName (Some "sum"); AType (Some 20)] [] ];
      Die TagVariable 110 [AName (Some "origin"); AType (Some 40);
         ALocation (PExpression [(GAddress 8192, None)] [OAddress 8192])] [] ]
    None (Some "/src") false 4 8 (fun _ => None).
Local Definition sample : object_input :=
  mkObjectInput "a.out" false [] [mkObjectSection (Some ".text") None 4096 64; mkObjectSection (Some ".data") None 8192 16]
    [mkObjectSymbol "_ZN3geo5Point4normEv" OText 4096 32; mkObjectSymbol "start" OText 4128 16]
    [sample_unit] (fun _ => EncSigned) (fun _ => EndDefault) (fun _ => []) (fun _ => None) None.
Local Definition first_choice (n : N) : nat := O.
Local Definition lowest (l1 l2 : list N) (m : list (list N)) (n : nat) : nat := O.
Local Definition sample_cli : cli := mkCli None None None [] [] None [] [].
Local Definition sample_options : options := Eval vm_compute in
  match parse_options sample_cli as x return match x with Some _ => options | None => True end with Some o => o | None => I end.
Local Definition sample_header : list line :=
  [Line 0 (txt "file a.out"); Line 1 (txt "size: 80"); Line 1 (txt "fn size: 48"); Line 1 (txt "var size: 16");
   Line 1 (txt "other size: 16"); Line 1 (txt "sections:");
   Line 2 (txt ".text"); Line 3 (txt "address: 0x1000-0x103f"); Line 3 (txt "size: 64");
   Line 2 (txt ".data"); Line 3 (txt "address: 0x2000-0x200f"); Line 3 (txt "size: 16"); Blank].
Local Definition sample_text : text := write_lines (sample_header ++
  [Line 0 (txt "unit /src/a.cpp"); Line 1 (txt "fn size: 32"); Line 1 (txt "var size: 16"); Line 1 (txt "unknown size: 32"); Blank;
   Line 0 (txt "base int"); Line 1 (txt "size: 4"); Line 1 (txt "encoding: signed"); Blank;
   Line 0 (txt "struct geo::Point"); Line 1 (txt "size: 16"); Line 1 (txt "members:");
   Line 2 (txt "0[4]" ++ [9] ++ txt "x: int"); Line 2 (txt "4[4]" ++ [9] ++ txt "<padding>");
   Line 2 (txt "8[8]" ++ [9] ++ txt "next: * struct geo::Point"); Blank;
   Line 0 (txt "fn geo::Point::norm"); Line 1 (txt "linkage name: _ZN3geo5Point4normEv");
   Line 1 (txt "address: 0x1000-0x101f"); Line 1 (txt "size: 32"); Line 1 (txt "return type:"); Line 2 (txt "[4]" ++ [9] ++ txt "int");
   Line 1 (txt "parameters:"); Line 2 (txt "[8]" ++ [9] ++ txt "this: * struct geo::Point"); Blank;
   Line 0 (txt "var origin: struct geo::Point"); Line 1 (txt "address: 0x2000"); Line 1 (txt "size: 16"); Blank;
   Line 0 (txt "unit <symtab>"); Line 1 (txt "fn size: 16"); Blank;
   Line 0 (txt "fn start"); Line 1 (txt "linkage name: start"); Line 1 (txt "address: 0x1020-0x102f"); Line 1 (txt "size: 16"); Blank;
   Line 0 (txt "unit <unknown>"); Blank]).

Local Lemma sample_well_formed : well_formed sample.
Proof.
  split.
  - vm_compute. repeat (constructor; [cbn; intuition discriminate|]). constructor.
  - apply Forall_forall. intros d I. assert (C : forallb (fun d => negb (die_offset d =? u64_max)) (all_entries sample) = true) by reflexivity.
    rewrite forallb_forall in C. specialize (C d I). now apply negb_true_iff, N.eqb_neq in C.
Qed.
Local Definition sample_types : list type := Eval vm_compute in
  flat_map (fun off => match from_offset (type_at sample) off with Some t => [t] | None => [] end) (places sample).
Local Lemma sample_found off t : from_offset (type_at sample) off = Some t -> In t sample_types.
Proof.
  intros E. change sample_types with
    (flat_map (fun off => match from_offset (type_at sample) off with Some t => [t] | None => [] end) (places sample)).
  apply in_flat_map. exists off. split; [exact (type_at_place sample sample_well_formed off t E)|]. rewrite E. now left.
Qed.
Local Fixpoint shallow (n : nat) (t : type) : bool :=
  match n with
  | O => false
  | S n' => forallb (fun off => match from_offset (type_at sample) off with Some u => shallow n' u | None => true end)
              (refs_list t)
  end.
Local Lemma shallow_bounded n : forall t, shallow n t = true -> bounded n (type_at sample) t.
Proof.
  induction n as [|n IH]; cbn [shallow bounded]; intros t E; [discriminate|]. intros off u R F.
  rewrite forallb_forall in E. specialize (E off (proj1 (refs_list_spec t off) R)). rewrite F in E. auto.
Qed.
Local Lemma sample_acyclic : acyclic_types sample.
Proof.
  intros off t E. apply (bounded_acyclic 3). apply shallow_bounded.
  assert (C : forallb (shallow 3) sample_types = true) by (vm_compute; reflexivity).
  rewrite forallb_forall in C. exact (C t (sample_found off t E)).
Qed.
Local Lemma sample_sized : sized_types sample.
Proof.
  assert (H : forall t, In t sample_types -> size_well_founded (type_at sample) t).
  { intros t I. vm_compute in I. repeat (destruct I as [<-|I]); try contradiction;
      (constructor; [intros off u R F; inversion R as [| | |o x E P|]; subst; exfalso; apply P; unfold has_pointer_size; cbn; tauto|intros o x u K; discriminate]). }
  intros off t E. exact (H t (sample_found off t E)).
Qed.
Local Lemma sample_nests off t : from_offset (type_at sample) off = Some t -> nests (file_view first_choice sample) t.
Proof.
  intros E. apply sample_found in E. vm_compute in E.
  repeat (destruct E as [<-|E]); try contradiction; constructor; intros m u L; (inversion L as [s m' K J|s p v m' K J|x m' K J]; try discriminate K);
    injection K as <-; cbn [s_members s_variant_parts] in J; repeat (destruct J as [<-|J]); try contradiction;
    (intros [N|[(r & N)|(t & _ & N & A)]]; [discriminate|discriminate|]; vm_compute in N; injection N as <-; inversion A).
Qed.
Local Lemma sample_configured : configured sample_cli sample_options [].
Proof. split; [reflexivity|constructor]. Qed.
Local Lemma sample_printed : print_output 5 first_choice sample_options sample = Some sample_text.
Proof. vm_compute. reflexivity. Qed.
Local Lemma sample_unit_wanted : unit_wanted [] sample_options sample_unit.
Proof. intros f E. discriminate. Qed.

(** The entry of the method that is defined outside of its class. *)
Local Definition norm_entry : die := nth 3 (ui_children sample_unit) (Die TagBase 0 [] []).
Local Definition norm : dw_function :=
  mkFunction 90 (Some (Ns (Some (Ns None (Some "geo") KNamespace)) (Some "Point") KType)) (Some "norm")
    (Some "_ZN3geo5Point4normEv") no_source 4096 32 [mkRange 4096 4128] false false
    [mkParameterType 94 (Some "this") 80] 20.
Local Definition declared_entry : die :=
  Die TagSubprogram 70 [AName (Some "norm"); ALinkageName (Some "_ZN3geo5Point4normEv"); AType (Some 20); ADeclaration (Some true)]
    [ Die TagParameter 74 [AType (Some 80)] [] ].
Local Lemma norm_described : describes (unit_base sample_unit) (ui_children sample_unit) norm_entry norm.
Proof.
  set (top := ui_children sample_unit). set (low := unit_base sample_unit).
  assert (L1 : located low top TagNamespace None (nth 1 top (Die TagBase 0 [] []))) by (apply loc_top; right; now left).
  assert (L2 : located low top TagNamespace (Some (Ns None (Some "geo") KNamespace)) (nth 0 (die_children (nth 1 top (Die TagBase 0 [] []))) (Die TagBase 0 [] []))).
  { refine (loc_namespace low top None 30 [AName (Some "geo")] _ _ L1 _). now left. }
  assert (L3 : located low top TagStructure (Some (Ns (Some (Ns None (Some "geo") KNamespace)) (Some "Point") KType))
    declared_entry).
  { refine (loc_type low top _ _ TagStructure 40 _ _ _ L2 _ _ _); [discriminate|now left|]. right; right; now left. }
  assert (D : describes low top declared_entry (mkFunction 70 (Some (Ns (Some (Ns None (Some "geo") KNamespace)) (Some "Point") KType)) (Some "norm")
    (Some "_ZN3geo5Point4normEv") no_source opt64_none opt64_none [] false true [mkParameterType 74 None 80] 20)).
  { refine (desc_own low top _ _ 70 _ _ opt64_none opt64_none [] [mkParameterType 74 None 80] L3 _ _ _); [reflexivity| |].
    - constructor; reflexivity.
    - apply ext_new; [discriminate|]. constructor. }
  refine (desc_refer low top TagNamespace None 90 _ _ 70 false _ _ 4096 32 [mkRange 4096 4128] [mkParameterType 94 (Some "this") 80]
    (loc_top low top norm_entry _) _ D _ _ _); try reflexivity.
  - right; right; right; now left.
  - apply (occ_length low [ASpecification (Some 70); ALowPc (Some 4096); AHighPcSize 32] 4096 32); try reflexivity; discriminate.
  - apply ext_new; [discriminate|]. apply ext_skip; [discriminate|]. constructor.
Qed.

Example C80_example :
  configured sample_cli sample_options [] /\ well_formed sample /\ acyclic_types sample /\
  print_output 5 first_choice sample_options sample = Some sample_text /\
  nth_error (ob_units sample) 0 = Some sample_unit /\ unit_wanted [] sample_options sample_unit /\
  describes (unit_base sample_unit) (ui_children sample_unit) norm_entry norm /\ function_wanted sample_options norm.
Proof.
  split; [exact sample_configured|]. split; [exact sample_well_formed|]. split; [exact sample_acyclic|].
  split; [exact sample_printed|]. split; [reflexivity|]. split; [exact sample_unit_wanted|]. split; [exact norm_described|].
  split; [right; split; vm_compute; discriminate|]. split; [intros n E; discriminate E|]. split; [now left|intros n E; discriminate E].
Qed.

(** The method refers to its declaration, which refers to nothing. *)
Example C81_example :
  In norm_entry (unit_entries sample_unit) /\
  given_origin (die_attrs norm_entry) = None /\ given_specification (die_attrs norm_entry) = Some (70, false) /\
  de_parameters (sc_details (file_scene first_choice sample) (func_of norm)) = [mkFormal (Some "this") 80 []] /\
  from_offset (type_at sample) 80 =
    Some (mkType 80 (TModifier (mkModifier MPointer 40 None opt64_none (Some 8)))) /\
  type_at sample 50 = None.
Proof. split; [vm_compute; tauto|]. repeat split; vm_compute; reflexivity. Qed.

(** One of the two symbols is accounted for. *)
Example C82_example :
  Forall symbol_in_bounds (parse_symbols (ob_symbols sample)) /\
  unit_listed [] sample_options (mkUnit (Some "<symtab>") [] [] [] []) /\
  debug_address (parsed_units sample) 4096 /\ ~ debug_address (parsed_units sample) 4128.
Proof.
  split; [repeat constructor|]. split; [intros f E; discriminate|]. split.
  - left. exists (func_of norm). split; [vm_compute; tauto|]. split; [discriminate|]. now left.
  - intros [(f & I & _ & H)|(v & I & H)]; vm_compute in I.
    + repeat (destruct I as [<-|I]); try contradiction; vm_compute in H; destruct H as [H|(r & [] & _)]; discriminate.
    + repeat (destruct I as [<-|I]); try contradiction. discriminate.
Qed.

Example C83_example :
  sized_types sample /\ (forall off t, from_offset (type_at sample) off = Some t -> nests (file_view first_choice sample) t) /\
  ob_program sample = None /\ type_size sample (mkType 80 (TModifier (mkModifier MPointer 40 None opt64_none (Some 8)))) = Some 8 /\
  print_output 9 first_choice sample_options sample = Some sample_text.
Proof.
  split; [exact sample_sized|]. split; [exact sample_nests|]. split; [reflexivity|]. split; vm_compute; reflexivity.
Qed.

Local Lemma short_few {A} (l : list A) : (List.length l <=? 9)%nat = true -> short l.
Proof. intros H. apply Nat.leb_le in H. unfold short. lia. Qed.
Local Definition few {A} (l : list A) : bool := (List.length l <=? 9)%nat.
Local Definition few_details (d : details) : bool :=
  few (de_parameters d) && forallb (fun p => few (fo_locations p)) (de_parameters d) &&
  (few (de_variables d) && forallb (fun p => few (sl_locations p)) (de_variables d)) &&
  (match de_inlined d with [] => true | _ => false end && match de_calls d with [] => true | _ => false end).
Local Lemma few_short d : few_details d = true -> short_details d.
Proof.
  destruct d as [ps vs is cs]. unfold few_details, short_details. cbn [de_parameters de_variables de_inlined de_calls].
  destruct is as [|x is], cs as [|y cs]; intros E; repeat rewrite andb_true_iff in E; destruct E as (((A & B) & (C & D)) & (F & G));
    try discriminate.
  rewrite forallb_forall in B, D.
  repeat split; try (now apply short_few); try constructor; apply Forall_forall; intros; apply short_few; [now apply B|now apply D].
Qed.
Local Definition few_function (sc : scene) (f : func) : bool :=
  few_details (sc_details sc f) && match EntryModel.calls sc f with Some l => few l | None => false end.
Local Lemma few_functions sc us : forallb (fun u => forallb (few_function sc) (un_functions u)) us = true ->
  forall u, In u us -> Forall (short_function sc) (un_functions u).
Proof.
  intros T u Iu. rewrite forallb_forall in T. specialize (T u Iu). rewrite forallb_forall in T.
  apply Forall_forall. intros f If. apply T in If. unfold few_function in If. apply andb_true_iff in If. destruct If as (A & B).
  split; [now apply few_short|]. intros l E. rewrite E in B. now apply short_few.
Qed.
Local Lemma few_image choice ob types :
  (forall t, In t types -> short_type t) ->
  (forall off t, from_offset (type_at ob) off = Some t -> In t types) ->
  (forall t, short (type_enumerators ob t)) -> few (kept_sections ob) = true ->
  incl (flat_map un_types (loaded_units choice ob)) types ->
  forallb (fun u => forallb (few_function (file_scene choice ob)) (un_functions u)) (loaded_units choice ob) = true ->
  short_image (load choice ob).
Proof.
  intros ST TF EN KS TS FS. split; [|split].
  - split; [|exact EN]. intros off t E. now apply ST, (TF off).
  - now apply short_few.
  - apply Forall_forall. intros u Iu. change (In u (loaded_units choice ob)) in Iu.
    split; [|exact (few_functions (file_scene choice ob) _ FS u Iu)].
    apply Forall_forall. intros t It. apply ST, TS, in_flat_map. eauto.
Qed.
Local Lemma sample_short : short_image (load first_choice sample).
Proof.
  apply (few_image first_choice sample sample_types).
  - intros t E. cbv [sample_types] in E. repeat (destruct E as [<-|E]); try contradiction; try exact I.
    repeat split; try constructor; now apply short_few.
  - exact sample_found.
  - intros t. unfold type_enumerators. destruct (t_kind t); try (now apply short_few).
  - vm_compute. reflexivity.
  - assert (S : flat_map un_types (loaded_units first_choice sample) = firstn 2 (skipn 1 sample_types)) by (vm_compute; reflexivity).
    rewrite S. intros t [J|[J|[]]]; right; [now left|right; now left].
  - vm_compute. reflexivity.
Qed.

Example C84_example :
  short_image (load first_choice sample) /\
  self_diff_output lowest 5 first_choice sample_options sample = Some (write_marked (with_mark Same sample_header)).
Proof. split; [exact sample_short|]. vm_compute. reflexivity. Qed.
