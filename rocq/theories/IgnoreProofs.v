(** Proofs about the options that ignore differences. *)
From Coq Require Import List Arith NArith ZArith Bool String Lia.
From Verif Require Import Base BaseProofs RangeModel NamespaceModel TypeModel TypeSpec TypeProofs LayoutModel
  CfiModel FileModel DieModel OptionsModel FilterModel FilterProofs DiffModel DiffSpec MergeProofs PropertiesDiff PrintModel
  PrintSpec PrintProofs NameModel RefModel LocationModel CodeModel ItemModel ItemSpec ItemProofs ItemShown EntryModel
  EntrySpec EntryProofs EntryShown ReportShown IgnoreSpec.
Import ListNotations.
Local Open Scope N_scope.

Local Notation compare_docs := (diff_doc text_printer false false).

(** ** The flag of a comparison *)

Lemma flag_or d : forall s f,
  compare_docs d s f = (fst (fst (compare_docs d s false)), snd (fst (compare_docs d s false)),
                        f || snd (compare_docs d s false)).
Proof.
  induction d as [|a IHa b IHb|label a b|label| |c h IHh b IHb|c l b IHb|i0 h IHh b IHb|d IH|d|d|a b|d IH|fl d IH];
    intros s f; cbn [diff_doc].
  - now rewrite orb_false_r.
  - rewrite (IHa s f). destruct (compare_docs a s false) as [[ta s1] f1]. cbn [fst snd].
    rewrite (IHb s1 (f || f1)), (IHb s1 f1). destruct (compare_docs b s1 false) as [[tb s2] f2]. cbn [fst snd].
    now rewrite orb_assoc.
  - unfold diff_line. destruct (text_eqb _ _); [destruct (is_empty _); cbn [fst snd]; now rewrite orb_false_r|].
    destruct (is_empty _); [cbn [fst snd]; now rewrite orb_true_r|]. destruct (is_empty _); [cbn [fst snd]; now rewrite orb_true_r|].
    destruct (p_line_diff _ _ _ _ _) as [t s']. cbn [fst snd]. now rewrite orb_true_r.
  - unfold diff_label. cbn [fst snd]. now rewrite orb_false_r.
  - cbn [fst snd]. now rewrite orb_false_r.
  - unfold diff_indent. destruct (diff_body _ _ _) as [body g]. destruct (negb (is_empty body)).
    + destruct (p_header _ _ _ _ _) as [[t s'] g']. cbn [fst snd orb]. reflexivity.
    + cbn [negb]. rewrite (IHh s f). reflexivity.
  - unfold diff_indent. destruct (diff_body _ _ _) as [body g]. destruct (negb (is_empty body)).
    + destruct (p_header _ _ _ _ _) as [[t s'] g']. cbn [fst snd orb]. reflexivity.
    + cbn [negb fst snd]. now rewrite orb_false_r.
  - destruct (diff_body _ _ _) as [body g]. destruct (p_id _ _ _ _ _) as [[t s'] g']. reflexivity.
  - destruct (p_inline_begin _ s) as [s1|]; [|cbn [fst snd]; now rewrite orb_false_r].
    rewrite (IH s1 f). destruct (compare_docs d s1 false) as [[t s2] g]. reflexivity.
  - destruct (print_doc _ _ _ _) as [t s']. cbn [fst snd]. now rewrite orb_true_r.
  - destruct (print_doc _ _ _ _) as [t s']. cbn [fst snd]. now rewrite orb_true_r.
  - destruct (print_doc _ _ _ _) as [ta s1]. destruct (print_doc _ _ _ _) as [tb s2].
    destruct (negb (is_empty (ta ++ tb))); cbn [fst snd]; [now rewrite orb_true_r|now rewrite orb_false_r].
  - destruct (compare_docs d _ false) as [[t s'] g]. reflexivity.
  - rewrite (IH s f). destruct (compare_docs d s false) as [[t s'] g]. cbn [fst snd].
    destruct fl; [now rewrite orb_false_r|reflexivity].
Qed.

Local Notation flag d s := (snd (compare_docs d s false)).
Local Notation after d s := (snd (fst (compare_docs d s false))).

Lemma flag_seq a b s : flag (DSeq a b) s = flag a s || flag b (after a s).
Proof.
  cbn [diff_doc]. destruct (compare_docs a s false) as [[ta s1] f1]. cbn [fst snd]. rewrite (flag_or b s1 f1).
  destruct (compare_docs b s1 false) as [[tb s2] f2]. reflexivity.
Qed.
Lemma flag_ignored fl d s : flag (ignored fl d) s = negb fl && flag d s.
Proof. cbn [ignored diff_doc]. destruct (compare_docs d s false) as [[t s'] g]. now destruct fl. Qed.
Lemma after_ignored fl d s : after (ignored fl d) s = after d s.
Proof. cbn [ignored diff_doc]. destruct (compare_docs d s false) as [[t s'] g]. reflexivity. Qed.
Lemma flag_line label a b s : flag (DLine label a b) s = negb (text_eqb (text_value a) (text_value b)).
Proof. cbn [diff_doc]. destruct (diff_doc_text (DLine label a b) s false I) as (s' & E & _). cbn [diff_doc] in E. now rewrite E. Qed.
Lemma flag_id id label a b body s :
  flag (DId id (DLine label a b) body) s =
    flag body (text_set_prefix XEqual (text_indented s)) || negb (text_eqb (text_value a) (text_value b)).
Proof.
  rewrite <- (flag_line label a b (text_set_prefix (if flag body (text_set_prefix XEqual (text_indented s)) then XModify else XEqual) s)).
  change (compare_docs (DId id (DLine label a b) body) s false)
    with (let '(body_buf, f) := diff_body text_printer (compare_docs body) s in
          let '(t, s', f') := p_id text_printer id (diff_header text_printer (compare_docs (DLine label a b)) f)
                                (fun s => (body_buf, s, false)) s in (t, s', false || (f || f'))).
  unfold diff_body. cbn [p_prefix p_body text_printer].
  destruct (compare_docs body _ false) as [[t s1] g]. cbn [fst snd p_id text_printer orb].
  unfold diff_header. cbn [p_prefix text_printer].
  match goal with |- context [compare_docs (DLine label a b) ?x false] => destruct (compare_docs (DLine label a b) x false) as [[t' s2] g'] end.
  cbn [fst snd]. now rewrite orb_false_r.
Qed.

(** ** Ranges of addresses *)

Lemma range_cmp_eq a b : range_cmp a b = Eq -> a = b.
Proof.
  destruct a as [x y], b as [x' y']. unfold range_cmp, then_with. cbn [rbegin rend].
  destruct (N.compare_spec x x'); try discriminate. intros E. apply N.compare_eq in E. now subst.
Qed.
Lemma range_size_shown r : range_size_text r <> [].
Proof. unfold range_size_text. destruct (_ <? _); discriminate. Qed.

Definition range_rows := all_rows (fun x => Some (PLine [] (VText (range_size_text x))))
  (fun x => Some (PLine [] (VText (range_size_text x))))
  (fun x y => Some (DLine [] (VText (range_size_text x)) (VText (range_size_text y)))).
Lemma range_line_shown depth r : lines depth 0 (PLine [] (VText (range_size_text r))) <> [].
Proof.
  pose proof (range_size_shown r). cbn [lines text_value]. destruct (range_size_text r); [congruence|discriminate].
Qed.
Lemma range_rows_changed depth rows : (forall a b, In (MBoth a b) rows -> a = b) ->
  exists e, range_rows rows = Some e /\ visible depth e /\
    (changed depth e = false <-> lefts rows = rights rows /\ forall r, In r rows -> exists a, r = MBoth a a).
Proof.
  unfold range_rows. induction rows as [|r rows IH]; intros B.
  - exists DNil. split; [reflexivity|]. split; [exact I|]. split; [|reflexivity]. intros _. split; [reflexivity|]. intros r [].
  - destruct IH as (e & E & V & C); [intros; apply B; now right|].
    cbn [all_rows]. rewrite E. destruct r as [a|b|a b]; cbn [row_doc bind].
    + eexists. split; [reflexivity|]. split; [split; [apply range_line_shown|exact V]|].
      pose proof (range_line_shown depth a) as N. split.
      * cbn [changed]. intros H. apply orb_false_iff in H. destruct H as [H _]. exfalso. apply nonempty_iff in N. congruence.
      * intros [_ H]. destruct (H _ (or_introl eq_refl)) as (x & Y). discriminate.
    + eexists. split; [reflexivity|]. split; [split; [apply range_line_shown|exact V]|].
      pose proof (range_line_shown depth b) as N. split.
      * cbn [changed]. intros H. apply orb_false_iff in H. destruct H as [H _]. exfalso. apply nonempty_iff in N. congruence.
      * intros [_ H]. destruct (H _ (or_introl eq_refl)) as (x & Y). discriminate.
    + assert (a = b) by (apply B; now left). subst b.
      eexists. split; [reflexivity|]. split; [split; [exact I|exact V]|].
      cbn [changed]. rewrite text_eqb_refl. cbn [negb orb]. rewrite C. unfold lefts, rights. cbn [flat_map]. split.
      * intros [H1 H2]. split; [cbn [app]; now f_equal|]. intros r [<-|J]; eauto.
      * intros [H1 H2]. split; [cbn [app] in H1; congruence|]. intros r J. apply H2. now right.
Qed.

Lemma flag_ranges l1 l2 : exists e, diff_addresses l1 l2 = Some e /\ forall s, flag e s = true <-> ranges_differ l1 l2.
Proof.
  unfold diff_addresses, ranges_differ.
  destruct ((1 <? List.length l1)%nat || (1 <? List.length l2)%nat) eqn:L.
  - unfold diff_ranges, dcollapsed_of, compared_ord_list. fold range_rows. rewrite merge_all_total.
    assert (B : forall a b, In (MBoth a b) (merge range_cmp l1 l2) -> a = b).
    { intros a b J. apply range_cmp_eq. apply (merge_pairs range_cmp l1 l2). unfold pairs. apply in_flat_map.
      exists (MBoth a b). split; [exact J|now left]. }
    destruct (range_rows_changed 0 _ B) as (e & E & _). rewrite E. cbn [bind]. eexists. split; [reflexivity|].
    intros s. destruct (range_rows_changed (ts_depth s) _ B) as (e' & E' & V & C). rewrite E in E'. injection E' as <-.
    destruct (diff_doc_text (DSection true (txt "addresses") e) s false V) as (s' & ED & _). rewrite ED. cbn [snd orb changed].
    rewrite merge_lefts, merge_rights in C. destruct (changed (ts_depth s) e).
    + split; [|reflexivity]. intros _ ->. assert (false = true); [|discriminate]. symmetry. apply C. split; [reflexivity|].
      intros r J. rewrite merge_self in J by (intros; apply range_cmp_self). apply in_map_iff in J. destruct J as (a & <- & _). eauto.
    + split; [discriminate|]. intros N. destruct N. now apply C.
  - eexists. split; [reflexivity|]. intros s. unfold field2. rewrite flag_line. cbn [text_value].
    apply orb_false_iff in L. rewrite !Nat.ltb_ge in L. destruct L as [L1 L2].
    assert (K : first_range l1 = first_range l2 <-> map range_text l1 = map range_text l2).
    { assert (Z : forall r, range_text r <> []) by (intros r; unfold range_text; destruct (_ <? _); discriminate).
      destruct l1 as [|x [|y l1]], l2 as [|x' [|y' l2]]; cbn [List.length] in L1, L2; try lia; cbn [first_range map].
      - tauto.
      - split; [intros H; destruct (Z _ (eq_sym H))|discriminate].
      - split; [intros H; destruct (Z _ H)|discriminate].
      - split; [now intros ->|now intros [= H]]. }
    rewrite <- K, <- text_eqb_iff. destruct (text_eqb _ _); cbn [negb]; intuition congruence.
Qed.

(** ** Functions *)

Lemma flag_nil s : flag DNil s = false. Proof. reflexivity. Qed.
Lemma text_differs a b : negb (text_eqb a b) = true <-> a <> b.
Proof. rewrite <- text_eqb_iff. destruct (text_eqb a b); cbn [negb]; intuition congruence. Qed.
Lemma size_differs a b : opt_text dec a <> opt_text dec b <-> a <> b.
Proof.
  assert (Z : forall n, dec n <> []) by (intros n; apply dec_nonempty).
  destruct a as [a|], b as [b|]; cbn [opt_text]; split; intros N.
  - congruence.
  - intros E. apply N. apply dec_inj in E. congruence.
  - discriminate.
  - apply Z.
  - discriminate.
  - intros E. now apply (Z b).
  - congruence.
  - congruence.
Qed.
Lemma yes_differs a b : yes a <> yes b <-> a <> b.
Proof. destruct a, b; cbn [yes]; split; try congruence; intros _; discriminate. Qed.

Lemma all_printed_ext {A} (f g : A -> option pdoc) l : (forall x, f x = g x) -> all_printed f l = all_printed g l.
Proof. intros E. induction l as [|x l IH]; [reflexivity|]. cbn [all_printed]. now rewrite E, IH. Qed.
Lemma all_rows_ext {A} (pa pb pa' pb' : A -> option pdoc) df df' rows :
  (forall x, pa x = pa' x) -> (forall x, pb x = pb' x) -> (forall x y, df x y = df' x y) ->
  all_rows pa pb df rows = all_rows pa' pb' df' rows.
Proof.
  intros E1 E2 E3. induction rows as [|r rows IH]; [reflexivity|]. cbn [all_rows]. rewrite IH.
  destruct r; cbn [row_doc]; now rewrite ?E1, ?E2, ?E3.
Qed.
Lemma compared_list_ext {A} choose step dc (pa pb pa' pb' : A -> option pdoc) df df' l1 l2 :
  (forall x, pa x = pa' x) -> (forall x, pb x = pb' x) -> (forall x y, df x y = df' x y) ->
  compared_list choose step dc pa pb df l1 l2 = compared_list choose step dc pa' pb' df' l1 l2.
Proof.
  intros E1 E2 E3. unfold compared_list. destruct (edit_script _ _ _ _) as [rows|]; [|reflexivity]. cbn [bind].
  now apply all_rows_ext.
Qed.
Lemma print_inlined_with o ig fuel : forall sc dir x, print_inlined (with_ignore o ig) fuel sc dir x = print_inlined o fuel sc dir x.
Proof.
  induction fuel as [|fuel IH]; intros sc dir x; [reflexivity|]. cbn [print_inlined].
  change (print_formal (with_ignore o ig)) with (print_formal o). change (print_slot (with_ignore o ig)) with (print_slot o).
  change (print_site (with_ignore o ig)) with (print_site o). change (o_print (with_ignore o ig)) with (o_print o).
  now rewrite (all_printed_ext _ (print_inlined o fuel sc dir) (il_inlined x) (IH sc dir)).
Qed.
Lemma diff_slots_with choose o ig ss l1 l2 : i_variable_address ig = i_variable_address (o_ignore o) ->
  diff_slots choose (with_ignore o ig) ss l1 l2 = diff_slots choose o ss l1 l2.
Proof.
  intros E. unfold diff_slots. apply compared_list_ext; [reflexivity|reflexivity|]. intros x y. unfold diff_slot.
  change (o_print (with_ignore o ig)) with (o_print o). cbn [with_ignore o_ignore]. now rewrite E.
Qed.
Lemma diff_inlined_with choose o ig ss fuel : i_variable_address ig = i_variable_address (o_ignore o) ->
  forall da db x y, diff_inlined choose (with_ignore o ig) ss fuel da db x y = diff_inlined choose o ss fuel da db x y.
Proof.
  intros E. induction fuel as [|fuel IH]; intros da db x y; [reflexivity|]. cbn [diff_inlined].
  change (diff_formals choose (with_ignore o ig)) with (diff_formals choose o).
  change (diff_sites choose (with_ignore o ig)) with (diff_sites choose o). change (o_print (with_ignore o ig)) with (o_print o).
  rewrite (diff_slots_with choose o ig ss _ _ E).
  now rewrite (compared_list_ext choose inlined_step (inlined_cost ss da db) _ _ _ _ _ _ (il_inlined x) (il_inlined y)
    (print_inlined_with o ig fuel (ss_a ss) da) (print_inlined_with o ig fuel (ss_b ss) db) (IH da db)).
Qed.

Lemma functions_flag choose o ss id fuel da db a b e depth :
  diff_function choose o ss id fuel da db a b = Some e ->
  exists e0, diff_function choose (heads_ignored o) ss id fuel da db a b = Some e0 /\
    (flag e (text_start depth) = true <-> flag e0 (text_start depth) = true \/ counted_difference (o_ignore o) a b).
Proof.
  unfold heads_ignored. cbv zeta. set (ig := mkIgnoreOpts _ _ _ _ _ _ _ _ _ _).
  unfold diff_function, diff_function_body. cbv zeta.
  destruct (flag_ranges (fn_ranges a) (fn_ranges b)) as (ea & EA & FA). rewrite EA. cbn [bind].
  change (diff_formals choose (with_ignore o ig)) with (diff_formals choose o).
  change (diff_sites choose (with_ignore o ig)) with (diff_sites choose o). change (o_print (with_ignore o ig)) with (o_print o).
  rewrite (diff_slots_with choose o ig ss _ _ eq_refl).
  rewrite (compared_list_ext choose inlined_step (inlined_cost ss da db) _ _ _ _ _ _ (de_inlined (sc_details (ss_a ss) a)) (de_inlined (sc_details (ss_b ss) b))
    (print_inlined_with o ig fuel (ss_a ss) da) (print_inlined_with o ig fuel (ss_b ss) db) (diff_inlined_with choose o ig ss fuel eq_refl da db)).
  destruct (dsection_of _ _) as [params|]; [|discriminate]. cbn [bind].
  match goal with |- bind (bind ?X _) _ = _ -> _ => destruct X as [vars|]; [|discriminate] end. cbn [bind].
  match goal with |- bind (bind ?X _) _ = _ -> _ => destruct X as [frame|]; [|discriminate] end. cbn [bind].
  match goal with |- bind (bind ?X _) _ = _ -> _ => destruct X as [inner|]; [|discriminate] end. cbn [bind].
  match goal with |- bind (bind ?X _) _ = _ -> exists e0, bind (bind ?Y _) _ = _ /\ _ => assert (EY : Y = X) end.
  { destruct (p_function_calls (o_print o)) eqn:PC; [|reflexivity]. assert (CV : forall sc c, call_value (with_ignore o ig) sc c = call_value o sc c).
    { intros sc c. unfold call_value, ig. cbn [with_ignore o_ignore i_function_address]. rewrite ?PC. cbn [negb]. now rewrite orb_false_r. }
    destruct (diff_sites _ _ _ _ _ _ _) as [sites|]; [|reflexivity]. cbn [dcollapsed_of bind].
    destruct (calls _ a) as [c1|]; [|reflexivity]. destruct (calls _ b) as [c2|]; [|reflexivity]. cbn [bind].
    erewrite (compared_list_ext choose call_step (call_cost ss)); [reflexivity|..]; intros; now rewrite ?CV. }
  rewrite EY. clear EY.
  match goal with |- bind (bind ?X _) _ = _ -> _ => destruct X as [cs|]; [|discriminate] end. cbn [bind].
  match goal with |- bind (bind ?X _) _ = _ -> _ => destruct X as [code|]; [|discriminate] end. cbn [bind].
  intros [= <-]. eexists. split; [reflexivity|]. unfold dseq. cbn [fold_right].
  rewrite !flag_seq, !flag_id.
  repeat (rewrite ?flag_seq, ?flag_ignored, ?after_ignored).
  cbn [ig with_ignore o_ignore i_function_linkage_name i_function_symbol_name i_function_address i_function_size i_function_inline negb andb].
  unfold field2. rewrite !flag_line. cbn [text_value].
  clear EA. specialize (FA (after (if p_source (o_print o)
             then DLine (txt "source") (VText (source_text da (sc_function_source (ss_a ss) a)))
                (VText (source_text db (sc_function_source (ss_b ss) b))) else DNil)
            (after (DLine (txt "symbol name") (VText (opt_text txt (fn_symbol_name a))) (VText (opt_text txt (fn_symbol_name b))))
               (after (DLine (txt "linkage name") (VText (opt_text txt (fn_linkage_name a))) (VText (opt_text txt (fn_linkage_name b))))
                  (text_set_prefix XEqual (text_indented (text_start depth))))))).
  match type of FA with ?F = true <-> _ => set (P := F) in *; clearbody P end.
  match goal with |- context [snd (compare_docs (DSection false ?l ?d) ?s false) || ?R] =>
    generalize (snd (compare_docs (DSection false l d) s false) || R); intros tail end.
  match goal with |- context [snd (compare_docs (if p_source (o_print o) then ?x else ?y) ?s false)] =>
    generalize (snd (compare_docs (if p_source (o_print o) then x else y) s false)); intros src end.
  unfold counted_difference. rewrite <- FA.
  change (@opt_text string txt) with name_text.
  rewrite <- size_differs, <- yes_differs, <- !text_differs.
  rewrite !orb_true_iff, !andb_true_iff, !negb_true_iff, !orb_false_iff. tauto.
Qed.

(** ** The lines with a label *)

Lemma with_label_app label a b : with_label label (a ++ b) = with_label label a ++ with_label label b.
Proof. apply filter_app. Qed.
Lemma with_label_seq label depth i a b :
  with_label label (lines depth i (PSeq a b)) = with_label label (lines depth i a) ++ with_label label (lines depth i b).
Proof. apply with_label_app. Qed.
Lemma with_label_id label depth i id h b :
  with_label label (lines depth i (PId id h b)) = with_label label (lines depth i h) ++ with_label label (lines depth (S i) b).
Proof. apply with_label_app. Qed.
Lemma with_label_deep label depth i d : i <> 1%nat -> (1 <= i)%nat -> with_label label (lines depth i d) = [].
Proof.
  intros N P. rewrite lines_indent. unfold with_label. induction (lines depth 0 d) as [|l ls IH]; [reflexivity|].
  cbn [map filter]. assert (E : labelled_by label (line_shift i l) = false).
  { destruct l as [|j t]; [reflexivity|]. cbn [line_shift labelled_by]. now destruct i as [|[|i]]; [lia|lia|]. }
  now rewrite E, IH.
Qed.
Lemma with_label_section label depth c l d : labelled_by label (Line 1 (labelled (txt l) [])) = false ->
  with_label label (lines depth 1 (PSection c (txt l) d)) = [].
Proof.
  intros E. cbn [lines]. pose proof (with_label_deep label depth 2 d ltac:(lia) ltac:(lia)) as D.
  destruct (lines depth 2 d) as [|x xs]; [reflexivity|]. unfold with_label in *. cbn [filter] in *. now rewrite E.
Qed.

(** Nothing in a part has one of the labels. *)
Definition unlabelled (p : pdoc) : Prop :=
  forall label depth, In label function_fields -> with_label label (lines depth 1 p) = [].
Lemma unlabelled_nil : unlabelled PNil. Proof. intros label depth _. reflexivity. Qed.
Lemma unlabelled_section c l d : In l ["addresses"; "return type"; "parameters"; "variables"; "stack frame"; "inlined functions";
  "call sites"; "calls"; "instructions"]%string -> unlabelled (PSection c (txt l) d).
Proof.
  intros J label depth K. apply with_label_section. cbn [In function_fields] in J, K.
  repeat (destruct J as [<-|J]; [repeat (destruct K as [<-|K]; [reflexivity|]); destruct K|]). destruct J.
Qed.
Lemma unlabelled_seq a b : unlabelled a -> unlabelled b -> unlabelled (PSeq a b).
Proof. intros A B label depth J. cbn [lines]. now rewrite with_label_app, A, B. Qed.
Lemma unlabelled_inline a : unlabelled a -> unlabelled (PInline a).
Proof. intros A label [|depth] J; [reflexivity|]. cbn [lines]. now apply A. Qed.
Lemma dsection_inv l x d : dsection_of l x = Some d -> exists b, d = DSection false (txt l) b.
Proof. unfold dsection_of. destruct x as [b|]; [|discriminate]. intros [= <-]. eauto. Qed.
Lemma dcollapsed_inv l x d : dcollapsed_of l x = Some d -> exists b, d = DSection true (txt l) b.
Proof. unfold dcollapsed_of. destruct x as [b|]; [|discriminate]. intros [= <-]. eauto. Qed.

(** A field on one side. *)
Lemma with_label_field label l t depth : In label function_fields -> In l function_fields -> 
  with_label label (lines depth 1 (PLine (txt l) (VText t))) =
    if String.eqb label l then lines depth 1 (PLine (txt l) (VText t)) else [].
Proof.
  intros J K. cbn [lines text_value]. destruct t as [|c t]; [now destruct (String.eqb label l)|].
  unfold with_label. cbn [filter].
  assert (E : labelled_by label (Line 1 (labelled (txt l) (c :: t))) = String.eqb label l).
  { cbn [In function_fields] in J, K.
    repeat (destruct K as [<-|K]; [repeat (destruct J as [<-|J]; [reflexivity|]); destruct J|]). destruct K. }
  rewrite E. now destruct (String.eqb label l).
Qed.

Lemma functions_labels choose o ss id fuel da db a b e depth label :
  diff_function choose o ss id fuel da db a b = Some e -> changed depth e = false ->
  In label function_fields -> ~ In label (ignored_of_function (o_ignore o)) ->
  with_label label (lines depth 0 (old_side e)) = with_label label (lines depth 0 (new_side e)).
Proof.
  intros ED CH J NI. unfold diff_function in ED. destruct (diff_function_body choose o ss fuel da db a b) as [body|] eqn:EB; [|discriminate].
  injection ED as <-. cbn [old_side new_side changed] in *. rewrite !with_label_seq, !with_label_id. apply f_equal2; [|reflexivity].
  rewrite orb_false_r in CH. apply orb_false_iff in CH. destruct CH as [CH CB]. apply f_equal2.
  { destruct (text_eqb _ _) eqn:TE in CH; [|discriminate]. apply text_eqb_iff in TE. cbn [lines]. now rewrite TE. }
  unfold diff_function_body in EB. cbv zeta in EB.
  destruct (diff_addresses _ _) as [ea|] eqn:EA; [|discriminate]. cbn [bind] in EB.
  destruct (dsection_of _ _) as [params|] eqn:E1; [|discriminate]. cbn [bind] in EB. apply dsection_inv in E1. destruct E1 as (x1 & ->).
  match type of EB with bind ?X _ = _ => destruct X as [vars|] eqn:E2; [|discriminate] end. cbn [bind] in EB.
  match type of EB with bind ?X _ = _ => destruct X as [frame|] eqn:E3; [|discriminate] end. cbn [bind] in EB.
  match type of EB with bind ?X _ = _ => destruct X as [inner|] eqn:E4; [|discriminate] end. cbn [bind] in EB.
  match type of EB with bind ?X _ = _ => destruct X as [cs|] eqn:E5; [|discriminate] end. cbn [bind] in EB.
  match type of EB with bind ?X _ = _ => destruct X as [code|] eqn:E6; [|discriminate] end. cbn [bind] in EB.
  injection EB as <-. unfold dseq in *. cbn [fold_right old_side new_side changed] in *.
  assert (U2 : unlabelled (old_side vars) /\ unlabelled (new_side vars)).
  { destruct (p_function_variables _); [|injection E2 as <-; split; apply unlabelled_nil].
    apply dcollapsed_inv in E2. destruct E2 as (x & ->). split; apply unlabelled_section; cbn; tauto. }
  assert (U3 : unlabelled (old_side frame) /\ unlabelled (new_side frame)).
  { destruct (p_function_stack_frame _); [|injection E3 as <-; split; apply unlabelled_nil].
    apply dcollapsed_inv in E3. destruct E3 as (x & ->). split; apply unlabelled_section; cbn; tauto. }
  assert (U4 : unlabelled (PInline (old_side inner)) /\ unlabelled (PInline (new_side inner))).
  { apply dcollapsed_inv in E4. destruct E4 as (x & ->). split; apply unlabelled_inline, unlabelled_section; cbn; tauto. }
  assert (U5 : unlabelled (old_side cs) /\ unlabelled (new_side cs)).
  { destruct (p_function_calls _); [|injection E5 as <-; split; apply unlabelled_nil].
    destruct (dcollapsed_of _ _) as [sites|] eqn:F1 in E5; [|discriminate]. cbn [bind] in E5.
    destruct (calls _ a) as [c1|]; [|discriminate]. destruct (calls _ b) as [c2|]; [|discriminate]. cbn [bind] in E5.
    destruct (dcollapsed_of _ _) as [ds|] eqn:F2 in E5; [|discriminate]. injection E5 as <-.
    apply dcollapsed_inv in F1, F2. destruct F1 as (y1 & ->), F2 as (y2 & ->).
    split; apply unlabelled_seq; apply unlabelled_section; cbn; tauto. }
  assert (U6 : unlabelled (old_side code) /\ unlabelled (new_side code)).
  { destruct (p_function_instructions _); [|injection E6 as <-; split; apply unlabelled_nil].
    destruct (print_instructions _ a) as [x|]; [|discriminate]. destruct (print_instructions _ b) as [y|]; [|discriminate].
    injection E6 as <-. split; apply unlabelled_section; cbn; tauto. }
  assert (U0 : unlabelled (PSection false (txt "return type") (PLine [] (return_value (ss_a ss) a))) /\
               unlabelled (PSection false (txt "return type") (PLine [] (return_value (ss_b ss) b)))).
  { split; apply unlabelled_section; cbn; tauto. }
  assert (U1 : unlabelled (PSection false (txt "parameters") (old_side x1)) /\ unlabelled (PSection false (txt "parameters") (new_side x1))).
  { split; apply unlabelled_section; cbn; tauto. }
  assert (UA : (exists l1 l2, ea = field2 "address" l1 l2) \/ unlabelled (old_side ea) /\ unlabelled (new_side ea)).
  { unfold diff_addresses in EA. destruct (_ || _)%bool; [right|left; injection EA as <-; eauto].
    apply dcollapsed_inv in EA. destruct EA as (x & ->). split; apply unlabelled_section; cbn; tauto. }
  assert (FIELD : forall fl l ta tb, In l function_fields -> (fl = true -> In l (ignored_of_function (o_ignore o))) ->
    (negb fl && changed depth (field2 l ta tb))%bool = false ->
    with_label label (lines depth 1 (old_side (field2 l ta tb))) = with_label label (lines depth 1 (new_side (field2 l ta tb)))).
  { intros fl l ta tb JL IL C. cbn [field2 old_side new_side]. rewrite !(with_label_field label l) by assumption.
    destruct (String.eqb label l) eqn:EL; [|reflexivity]. apply String.eqb_eq in EL. subst l.
    destruct fl; [destruct (NI (IL eq_refl))|]. cbn [negb andb changed field2 text_value] in C.
    apply negb_false_iff, text_eqb_iff in C. now subst. }
  repeat (apply orb_false_iff in CB; let H := fresh "C" in destruct CB as [H CB]).
  rewrite !with_label_seq.
  assert (SRC : with_label label (lines depth 1 (old_side (if p_source (o_print o)
      then field2 "source" (source_text da (sc_function_source (ss_a ss) a)) (source_text db (sc_function_source (ss_b ss) b)) else DNil))) =
    with_label label (lines depth 1 (new_side (if p_source (o_print o)
      then field2 "source" (source_text da (sc_function_source (ss_a ss) a)) (source_text db (sc_function_source (ss_b ss) b)) else DNil)))).
  { destruct (p_source (o_print o)); [|reflexivity]. apply (FIELD false); [cbn; tauto|discriminate|assumption]. }
  repeat match goal with U : unlabelled _ /\ unlabelled _ |- _ => destruct U as [?V ?V] end.
  repeat match goal with U : unlabelled ?p |- context [with_label label (lines depth 1 ?p)] => rewrite (U label depth J) end.
  rewrite SRC.
  apply f_equal2; [apply (FIELD (i_function_linkage_name (o_ignore o))); [cbn; tauto| |assumption];
    intros E; unfold ignored_of_function; rewrite E; repeat (apply in_or_app; first [left; now left|right])|].
  apply f_equal2; [apply (FIELD (i_function_symbol_name (o_ignore o))); [cbn; tauto| |assumption];
    intros E; unfold ignored_of_function; rewrite E; repeat (apply in_or_app; first [left; now left|right])|].
  apply f_equal2; [reflexivity|].
  apply f_equal2.
  { cbn [ignored old_side new_side]. destruct UA as [(l1 & l2 & ->)|[UA UB]]; [|now rewrite UA, UB].
    apply (FIELD (i_function_address (o_ignore o))); [cbn; tauto| |assumption].
    intros E; unfold ignored_of_function; rewrite E; repeat (apply in_or_app; first [left; now left|right]). }
  apply f_equal2; [apply (FIELD (i_function_size (o_ignore o))); [cbn; tauto| |assumption];
    intros E; unfold ignored_of_function; rewrite E; repeat (apply in_or_app; first [left; now left|right])|].
  apply f_equal2; [apply (FIELD (i_function_inline (o_ignore o))); [cbn; tauto| |assumption];
    intros E; unfold ignored_of_function; rewrite E; repeat (apply in_or_app; first [left; now left|right]); now left|].
  apply f_equal2; [|reflexivity]. apply (FIELD false); [cbn; tauto|discriminate|assumption].
Qed.

(** ** Variables *)

Definition variable_fields : list string :=
  ["linkage name"; "symbol name"; "source"; "address"; "size"; "declaration"]%string.

Lemma heeded_app labels a b : heeded labels (a ++ b) = heeded labels a ++ heeded labels b.
Proof. apply filter_app. Qed.
Lemma heeded_blank labels : heeded labels [Blank] = [Blank].
Proof. unfold heeded. cbn [filter]. induction labels as [|x l IH]; [reflexivity|]. exact IH. Qed.
Lemma heeded_field labels l t depth : incl labels variable_fields -> In l variable_fields ->
  heeded labels (lines depth 1 (PLine (txt l) (VText t))) =
    if existsb (String.eqb l) labels then [] else lines depth 1 (PLine (txt l) (VText t)).
Proof.
  intros J K. cbn [lines text_value]. destruct t as [|c t]; [now destruct (existsb _ labels)|].
  unfold heeded. cbn [filter].
  assert (E : existsb (fun s => labelled_by s (Line 1 (labelled (txt l) (c :: t)))) labels = existsb (String.eqb l) labels).
  { induction labels as [|x labels IH]; [reflexivity|]. cbn [existsb]. rewrite IH by (intros y I; apply J; now right). f_equal.
    assert (I : In x variable_fields) by (apply J; now left). cbn [In variable_fields] in I, K.
    repeat (destruct K as [<-|K]; [repeat (destruct I as [<-|I]; [reflexivity|]); destruct I|]). destruct K. }
  rewrite E. now destruct (existsb (String.eqb l) labels).
Qed.
Lemma field_inj l a b depth : In l variable_fields ->
  lines depth 1 (PLine (txt l) (VText a)) = lines depth 1 (PLine (txt l) (VText b)) -> a = b.
Proof.
  intros K. cbn [lines text_value]. destruct a as [|c a], b as [|d b]; [reflexivity|discriminate|discriminate|].
  intros [= E]. cbn [In variable_fields] in K. revert E.
  repeat (destruct K as [<-|K]; [cbn; congruence|]). destruct K.
Qed.
Lemma ignored_variable_fields ig : incl (ignored_of_variable ig) variable_fields.
Proof.
  intros x. unfold ignored_of_variable. rewrite !in_app_iff. unfold when.
  destruct (i_variable_linkage_name ig), (i_variable_symbol_name ig), (i_variable_address ig); cbn; tauto.
Qed.
Lemma with_label_heeded label labels ls : with_label label (heeded labels ls) = heeded labels (with_label label ls).
Proof.
  unfold with_label, heeded. induction ls as [|l ls IH]; [reflexivity|]. cbn [filter].
  destruct (existsb _ labels) eqn:E1, (labelled_by label l) eqn:E2; cbn [negb filter]; rewrite ?E1, ?E2; cbn [negb]; now rewrite IH.
Qed.

Definition field_lines (depth : nat) (f : string * text) : list line := lines depth 1 (PLine (txt (fst f)) (VText (snd f))).
Lemma heeded_fields depth labels fs : forall gs, incl labels variable_fields -> NoDup (map fst fs) -> incl (map fst fs) variable_fields ->
  map fst fs = map fst gs ->
  heeded labels (flat_map (field_lines depth) fs) = heeded labels (flat_map (field_lines depth) gs) <->
  Forall2 (fun f g => existsb (String.eqb (fst f)) labels = false -> snd f = snd g) fs gs.
Proof.
  intros gs IL ND IF EM. assert (FF : incl variable_fields function_fields) by (intros x; cbn; tauto).
  assert (OUT : forall l fs, incl (map fst fs) variable_fields -> In l variable_fields -> ~ In l (map fst fs) ->
    with_label l (heeded labels (flat_map (field_lines depth) fs)) = []).
  { clear -FF. intros l fs IF Jl NI. rewrite with_label_heeded. induction fs as [|[k t] fs IH]; [reflexivity|].
    cbn [flat_map]. rewrite with_label_app, heeded_app. cbn [map fst] in *. rewrite IH.
    - unfold field_lines. cbn [fst snd]. rewrite (with_label_field l k t depth); [|apply FF; assumption|apply FF, IF; now left].
      destruct (String.eqb_spec l k) as [->|]; [destruct NI; now left|reflexivity].
    - intros x X. apply IF. now right.
    - intros X. apply NI. now right. }
  revert gs EM. induction fs as [|[l t] fs IH]; intros [|[k u] gs] EM; try discriminate.
  - split; [constructor|reflexivity].
  - cbn [map fst] in *. injection EM as <- EM. inversion ND as [|? ? NI ND']; subst.
    assert (IF' : incl (map fst fs) variable_fields) by (intros x X; apply IF; now right).
    assert (Jl : In l variable_fields) by (apply IF; now left).
    specialize (IH ND' IF' gs EM). cbn [flat_map]. rewrite !heeded_app. unfold field_lines at 1 3. cbn [fst snd].
    rewrite !heeded_field by assumption. destruct (existsb (String.eqb l) labels) eqn:EX.
    + cbn [app]. rewrite IH. split.
      * intros F. constructor; [cbn [fst]; congruence|exact F].
      * intros F. now inversion F.
    + split.
      * intros E. pose proof (f_equal (with_label l) E) as W. rewrite !with_label_app in W.
        rewrite OUT in W by assumption. rewrite OUT in W by (rewrite <- ?EM; assumption).
        rewrite !app_nil_r in W. rewrite !(with_label_field l l) in W by now apply FF. rewrite String.eqb_refl in W.
        rewrite W in E. apply app_inv_head in E. constructor; [|now apply IH]. cbn [fst snd]. intros _. now apply (field_inj l t u depth).
      * intros F. inversion F as [|? ? ? ? H F']; subst. cbn [fst snd] in H. rewrite (H EX). f_equal. now apply IH.
Qed.

Lemma variables_flag o ss da db a b depth :
  flag (diff_variable o ss da db a b) (text_start depth) = false <->
  heeded (ignored_of_variable (o_ignore o)) (lines depth 0 (print_variable o (ss_a ss) da a)) =
  heeded (ignored_of_variable (o_ignore o)) (lines depth 0 (print_variable o (ss_b ss) db b)).
Proof.
  set (labels := ignored_of_variable (o_ignore o)).
  assert (V : visible depth (diff_variable o ss da db a b)).
  { unfold diff_variable, diff_variable_body, dseq, ignored, field2. cbn [fold_right visible].
    destruct (p_source (o_print o)); cbn [visible]; tauto. }
  destruct (diff_doc_text _ (text_start depth) false V) as (s' & ED & _). rewrite ED. clear ED V. cbn [snd orb text_start ts_depth].
  set (fs := fun (sc : scene) dir v => [("linkage name"%string, opt_text txt (va_linkage_name v)); ("symbol name"%string, opt_text txt (va_symbol_name v));
    ("source"%string, if p_source (o_print o) then source_text dir (sc_variable_source sc v) else []);
    ("address"%string, variable_address v); ("size"%string, variable_size sc v); ("declaration"%string, yes (va_declaration v))]).
  assert (L : forall sc dir v, lines depth 0 (print_variable o sc dir v) =
    Line 0 (text_value (variable_value sc v)) :: flat_map (field_lines depth) (fs sc dir v) ++ [Blank]).
  { intros sc dir v. unfold print_variable, print_variable_body, pseq. cbn [fold_right lines].
    assert (H : exists t, text_value (variable_value sc v) = 118 :: t) by (eexists; reflexivity).
    destruct H as (t & H). rewrite H. cbn [app]. f_equal. f_equal. unfold fs, field_lines. cbn [flat_map fst snd].
    unfold field. destruct (p_source (o_print o)); reflexivity. }
  assert (HD : forall t ls, heeded labels (Line 0 t :: ls ++ [Blank]) = Line 0 t :: heeded labels ls ++ [Blank]).
  { intros t ls. change (Line 0 t :: ls ++ [Blank]) with ([Line 0 t] ++ ls ++ [Blank]). rewrite !heeded_app, heeded_blank.
    unfold heeded at 1. cbn [filter]. replace (existsb (fun s => labelled_by s (Line 0 t)) labels) with false; [reflexivity|].
    clear. induction labels as [|x l IH]; [reflexivity|]. exact IH. }
  rewrite !L, !HD. clear L HD.
  assert (IL : incl labels variable_fields) by apply ignored_variable_fields.
  pose proof (heeded_fields depth labels (fs (ss_a ss) da a) (fs (ss_b ss) db b) IL) as K.
  assert (ND : NoDup (map fst (fs (ss_a ss) da a))).
  { cbn. repeat (constructor; [cbn [In]; intuition discriminate|]). constructor. }
  specialize (K ND (fun x X => X) eq_refl). clear ND IL.
  assert (X : changed depth (diff_variable o ss da db a b) = false <->
    text_value (variable_value (ss_a ss) a) = text_value (variable_value (ss_b ss) b) /\
    Forall2 (fun f g => existsb (String.eqb (fst f)) labels = false -> snd f = snd g) (fs (ss_a ss) da a) (fs (ss_b ss) db b)).
  { assert (LS : forall x y, Forall2 (fun f g => existsb (String.eqb (fst f)) labels = false -> snd f = snd g) x y <->
      Forall2 (fun (f g : string * text) => (negb (existsb (String.eqb (fst f)) labels) && negb (text_eqb (snd f) (snd g)))%bool = false) x y).
    { clear. intros x y. split; intros F; induction F as [|f g x y H F IH]; constructor; auto; revert H; clear;
        rewrite <- text_eqb_iff; destruct (existsb _ labels), (text_eqb _ _); cbn [negb andb]; auto; try discriminate.
      intros H. now rewrite H. }
    rewrite LS. clear LS K.
    unfold diff_variable, diff_variable_body, dseq, ignored, field2, fs. cbn [fold_right changed]. cbv zeta.
    rewrite !orb_false_iff, negb_false_iff, text_eqb_iff.
    assert (N1 : existsb (String.eqb "linkage name") labels = i_variable_linkage_name (o_ignore o)).
    { unfold labels, ignored_of_variable, when. destruct (i_variable_linkage_name _), (i_variable_symbol_name _), (i_variable_address _); reflexivity. }
    assert (N2 : existsb (String.eqb "symbol name") labels = i_variable_symbol_name (o_ignore o)).
    { unfold labels, ignored_of_variable, when. destruct (i_variable_linkage_name _), (i_variable_symbol_name _), (i_variable_address _); reflexivity. }
    assert (N3 : existsb (String.eqb "address") labels = i_variable_address (o_ignore o)).
    { unfold labels, ignored_of_variable, when. destruct (i_variable_linkage_name _), (i_variable_symbol_name _), (i_variable_address _); reflexivity. }
    assert (N4 : forall l, In l ["source"; "size"; "declaration"]%string -> existsb (String.eqb l) labels = false).
    { intros l Jl. cbn [In] in Jl. unfold labels, ignored_of_variable, when.
      destruct (i_variable_linkage_name _), (i_variable_symbol_name _), (i_variable_address _); intuition (subst; reflexivity). }
    assert (SRC : changed depth (if p_source (o_print o)
      then DLine (txt "source") (VText (source_text da (sc_variable_source (ss_a ss) a))) (VText (source_text db (sc_variable_source (ss_b ss) b)))
      else DNil) = negb (text_eqb (if p_source (o_print o) then source_text da (sc_variable_source (ss_a ss) a) else [])
                     (if p_source (o_print o) then source_text db (sc_variable_source (ss_b ss) b) else []))).
    { destruct (p_source (o_print o)); reflexivity. }
    rewrite SRC. cbn [text_value]. split.
    - intros ((T & C1 & C2 & C3 & C4 & C5 & C6 & _) & _). split; [exact T|].
      repeat constructor; cbn [fst snd]; rewrite ?N1, ?N2, ?N3, ?(N4 _ (or_introl eq_refl)), ?(N4 _ (or_intror (or_introl eq_refl))),
        ?(N4 _ (or_intror (or_intror (or_introl eq_refl)))); cbn [negb andb]; assumption.
    - intros (T & F). split; [|reflexivity]. split; [exact T|].
      inversion F as [|? ? ? ? C1 F1]; subst. inversion F1 as [|? ? ? ? C2 F2]; subst. inversion F2 as [|? ? ? ? C3 F3]; subst.
      inversion F3 as [|? ? ? ? C4 F4]; subst. inversion F4 as [|? ? ? ? C5 F5]; subst. inversion F5 as [|? ? ? ? C6 F6]; subst.
      cbn [fst snd] in *. rewrite ?N1, ?N2, ?N3 in *. rewrite ?(N4 _ (or_introl eq_refl)), ?(N4 _ (or_intror (or_introl eq_refl))),
        ?(N4 _ (or_intror (or_intror (or_introl eq_refl)))) in *. cbn [negb andb] in *. tauto. }
  rewrite <- K in X. rewrite X. clear X K. split.
  - intros [E1 E2]. now rewrite E1, E2.
  - intros E. pose proof (f_equal (@tl line) E) as E2. cbn [tl] in E2. apply app_inv_tail in E2. split; [congruence|exact E2].
Qed.
