(** Proofs about the lines that are shown for files and units. *)
From Coq Require Import List Arith NArith ZArith Bool String Lia Permutation Sorting.Sorted.
From Verif Require Import CfiModel DieModel Base BaseProofs RangeModel RangeSpec NamespaceModel TypeModel TypeSpec LayoutModel FileModel
  DiffModel DiffSpec MergeProofs OptionsModel OptionsProofs FilterModel FilterSpec FilterProofs IdModel IdProofs PrintModel
  PrintSpec RefModel PrintProofs NameModel LocationModel CodeModel ItemModel ItemSpec ItemProofs ItemShown EntryModel
  EntrySpec EntryProofs EntryShown ReportModel ReportSpec ReportProofs ReportShown.
Import ListNotations.
Local Open Scope N_scope.

Lemma text_eqb_dec a b : text_eqb a b = if list_eq_dec N.eq_dec a b then true else false.
Proof.
  destruct (list_eq_dec N.eq_dec a b) as [->|NE]; [apply text_eqb_refl|].
  destruct (text_eqb a b) eqn:E; [|reflexivity]. apply text_eqb_eq in E. contradiction.
Qed.
Lemma field_report n i label a b : label <> ""%string ->
  fst (report n i (field2 label a b)) = line2 i label a b.
Proof.
  intros NE. unfold field2, line2. cbn [report fst diff_lines text_value]. rewrite text_eqb_dec.
  rewrite <- !(field_line label _ n i) by exact NE. unfold field.
  now destruct (list_eq_dec N.eq_dec a b).
Qed.
Lemma title_report n i v w :
  fst (report n i (DLine [] v w)) = title2 i (text_value v) (text_value w).
Proof.
  unfold title2. cbn [report fst]. unfold diff_lines. rewrite !text_line_value, text_eqb_dec.
  now destruct (list_eq_dec N.eq_dec (text_value v) (text_value w)).
Qed.
Lemma section_report n i c label b : label <> ""%string ->
  fst (report n i (DSection c (txt label) b)) = under2 i label (fst (report n (S i) b)).
Proof.
  intros NE. cbn [report]. destruct (report n (S i) b) as [[|x l] f]; [reflexivity|]. cbn [fst under2].
  unfold labelled. destruct label; [contradiction|]. reflexivity.
Qed.
Lemma seq_report n i a b : fst (report n i (DSeq a b)) = (fst (report n i a) ++ fst (report n i b))%list.
Proof. reflexivity. Qed.
Lemma tree_report n i c a b : fst (report n i (DTree c a b)) = (fst (report n i a) ++ fst (report n (S i) b))%list.
Proof. reflexivity. Qed.

(** ** Numbers *)

Lemma plus_text z : plus_sdec z = with_sign z.
Proof.
  unfold plus_sdec, with_sign. rewrite sdec_text. unfold signed. destruct (z <? 0)%Z; reflexivity.
Qed.
Lemma count_change a b : countable a -> countable b ->
  count_with_change a b = if a =? b then dec b else dec b ++ txt " (" ++ with_sign (difference a b) ++ txt ")".
Proof.
  intros CA CB. unfold count_with_change, countable in *. rewrite (N.eqb_sym b a). destruct (a =? b); [apply app_nil_r|].
  rewrite plus_text. unfold difference.
  assert (X : forall z, (- 2 ^ 63 <= z < 2 ^ 63)%Z -> as_i64 z = z).
  { intros z B. unfold as_i64. rewrite Z.mod_small by lia. lia. }
  assert (BA : (0 <= Z.of_N a < 2 ^ 63)%Z) by (split; [lia|]; apply N2Z.inj_lt in CA; exact CA).
  assert (BB : (0 <= Z.of_N b < 2 ^ 63)%Z) by (split; [lia|]; apply N2Z.inj_lt in CB; exact CB).
  rewrite (X (Z.of_N a)), (X (Z.of_N b)), X by lia. reflexivity.
Qed.
Lemma count_report n i label a b : label <> ""%string -> countable a -> countable b ->
  fst (report n i (count_field2 label a b)) = count2 i label a b.
Proof.
  intros NE CA CB. unfold count_field2, count2. rewrite field_report by exact NE. now rewrite count_self, count_change.
Qed.
Lemma nonzero_report n i label a b : label <> ""%string -> countable a -> countable b ->
  fst (report n i (nonzero_field2 label a b)) = nonzero2 i label a b.
Proof.
  intros NE CA CB. unfold nonzero_field2, nonzero2. destruct (a =? 0), (b =? 0); cbn [negb orb andb]; now rewrite ?count_report.
Qed.
Lemma count_lines n i label a : label <> ""%string -> lines n i (count_field label a) = count_line i label a.
Proof. intros NE. unfold count_field, count_line. now apply field_line. Qed.
Lemma nonzero_lines n i label a : label <> ""%string -> lines n i (nonzero_field label a) = nonzero_line i label a.
Proof. intros NE. unfold nonzero_field, nonzero_line. destruct (a =? 0); [reflexivity|now apply count_lines]. Qed.

(** ** Ranges *)

Lemma range_cmp_tp : total_preorder range_cmp.
Proof. apply then_with_tp; apply (cmp_on_tp _ N.compare N_compare_tp). Qed.
Lemma range_cmp_eq a b : range_cmp a b = Eq <-> a = b.
Proof.
  split; [|intros <-; apply range_cmp_self]. unfold range_cmp, then_with.
  destruct (N.compare_spec (rbegin a) (rbegin b)) as [E1| |]; try discriminate. intros E2. apply N.compare_eq_iff in E2.
  destruct a, b. cbn in *. congruence.
Qed.
Lemma ascending_sorted l : ascending l -> StronglySorted (fun x y => range_cmp x y <> Gt) l.
Proof.
  intros [NE S]. induction S as [|a l S IH F]; [constructor|]. inversion NE as [|? ? N1 N2]; subst. constructor; [now apply IH|].
  rewrite Forall_forall in *. intros b I. specialize (F b I). unfold RangeSpec.nonempty in N1. unfold range_cmp, then_with.
  destruct (N.compare_spec (rbegin a) (rbegin b)); try discriminate; lia.
Qed.
Lemma range_text_line n i r : lines n i (PLine [] (VText (range_size_text r))) = [Line i (range_with_size r)].
Proof.
  rewrite text_line_value. cbn [text_value]. rewrite range_size_eq. fold (range_with_size r).
  unfold text_line. pose proof (range_text_nonempty r) as NE. rewrite range_size_eq in NE. fold (range_with_size r) in NE.
  now destruct (range_with_size r).
Qed.
Lemma ranges_report n i l1 l2 : exists e,
  compared_ord_list range_cmp print_range print_range diff_range l1 l2 = Some e /\
  ranges_aligned i l1 l2 (fst (report n i e)).
Proof.
  unfold compared_ord_list. rewrite merge_all_total.
  assert (EQ : forall a b, In (MBoth a b) (merge range_cmp l1 l2) -> a = b).
  { intros a b I. apply range_cmp_eq. apply (merge_pairs range_cmp l1 l2). unfold pairs. apply in_flat_map.
    exists (MBoth a b). split; [exact I|now left]. }
  assert (X : forall rows, (forall a b, In (MBoth a b) rows -> a = b) ->
     exists e, all_rows print_range print_range diff_range rows = Some e /\ fst (report n i e) = flat_map (range_row i) rows).
  { induction rows as [|r rows IH]; intros H; cbn [all_rows]; [exists DNil; auto|].
    destruct IH as (e & -> & R); [intros; apply H; now right|]. destruct r as [a|b|a b]; cbn [row_doc print_range diff_range bind];
      (eexists; split; [reflexivity|]); rewrite seq_report, R; cbn [flat_map range_row]; f_equal.
    - cbn [report fst]. now rewrite range_text_line.
    - cbn [report fst]. now rewrite range_text_line.
    - rewrite (H a b (or_introl eq_refl)). rewrite title_report. cbn [text_value]. unfold title2.
      destruct (list_eq_dec N.eq_dec _ _); [|contradiction]. rewrite <- EntryShown.text_line_eq with (d := n).
      now rewrite range_text_line. }
  destruct (X _ EQ) as (e & E & R). exists e. split; [exact E|]. rewrite R.
  apply ranges_next; [apply merge_lefts|apply merge_rights|exact EQ|].
  intros A1 A2 a IL IR.
  destruct (merge_matched range_cmp range_cmp_tp (fun x => x) (fun x => x) eq l1 l2 l1 l2) as (_ & _ & _ & M);
    [reflexivity|reflexivity|now apply ascending_sorted|now apply ascending_sorted|intros; symmetry; apply range_cmp_eq|].
  exact (M a a IL IR eq_refl).
Qed.
Lemma ranges_printed n i label l : label <> ""%string -> exists p,
  collapsed_of label (all_printed print_range l) = Some p /\ lines n i p = ranges_lines i label l.
Proof.
  intros NE. unfold collapsed_of.
  assert (X : exists p, all_printed print_range l = Some p /\ lines n (S i) p = map (fun r => Line (S i) (range_with_size r)) l).
  { induction l as [|r l (p & E & L)]; cbn [all_printed print_range bind]; [exists PNil; auto|]. rewrite E. cbn [bind].
    eexists. split; [reflexivity|]. cbn [lines map]. fold (lines n (S i) (PLine [] (VText (range_size_text r)))).
    now rewrite range_text_line, L. }
  destruct X as (p & -> & L). cbn [bind]. eexists. split; [reflexivity|]. rewrite collapsed_under by exact NE. now rewrite L.
Qed.

(** ** Sections *)

Lemma section_title_eq s : section_text s = section_title s.
Proof. unfold section_text, section_title, opt_text, name_or. now destruct (ns_segment s), (ns_name s). Qed.
Lemma section_place_eq s : section_address_text s = section_place s.
Proof. unfold section_address_text, section_place, opt_text. destruct (section_address _); [apply range_text_eq|reflexivity]. Qed.
Lemma section_printed n i s : lines n i (print_section s) = section_lines i s.
Proof.
  unfold print_section, section_lines, pseq. cbn [fold_right].
  change (lines n i (PTree ?c ?h ?b)) with (lines n i h ++ lines n (S i) b)%list.
  rewrite text_line_value. cbn [text_value]. rewrite section_title_eq. f_equal.
  cbn [lines]. fold (lines n (S i) (field "address" (section_address_text s))) (lines n (S i) (count_field "size" (se_size (ns_section s)))).
  rewrite app_nil_r. rewrite count_lines by discriminate. rewrite field_line by discriminate. now rewrite section_place_eq.
Qed.
Lemma sections_printed n i l : exists p,
  collapsed_of "sections" (all_printed (fun s => Some (print_section s)) l) = Some p /\
  lines n i p = under i "sections" (flat_map (section_lines (S i)) l).
Proof.
  unfold collapsed_of.
  assert (X : exists p, all_printed (fun s => Some (print_section s)) l = Some p /\ lines n (S i) p = flat_map (section_lines (S i)) l).
  { induction l as [|r l (p & E & L)]; cbn [all_printed bind]; [exists PNil; auto|]. rewrite E. cbn [bind].
    eexists. split; [reflexivity|]. change (lines n (S i) (PSeq ?a ?b)) with (lines n (S i) a ++ lines n (S i) b)%list.
    now rewrite section_printed, L. }
  destruct X as (p & -> & L). cbn [bind]. eexists. split; [reflexivity|]. rewrite collapsed_under by discriminate. now rewrite L.
Qed.
Lemma sections_report choose n i l1 l2 : short l1 -> short l2 ->
  Forall (fun s => countable (se_size (ns_section s))) l1 -> Forall (fun s => countable (se_size (ns_section s))) l2 ->
  exists e,
  compared_list choose section_step section_cost (fun s => Some (print_section s))
    (fun s => Some (print_section s)) (fun a b => Some (diff_section a b)) l1 l2 = Some e /\
  sections_aligned i l1 l2 (fst (report n i e)).
Proof.
  intros S1 S2 F1 F2. rewrite Forall_forall in F1, F2. unfold compared_list.
  destruct (script_rows choose section_step section_cost l1 l2) as (rows & ER & L & R); [now apply short_cost|].
  rewrite ER. cbn [bind].
  assert (X : forall rows, (forall a, In a (lefts rows) -> In a l1) -> (forall a, In a (rights rows) -> In a l2) ->
     exists e, all_rows (fun s => Some (print_section s)) (fun s => Some (print_section s)) (fun a b => Some (diff_section a b)) rows = Some e
        /\ fst (report n i e) = flat_map (section_row i) rows).
  { clear rows ER L R. induction rows as [|r rows IH]; intros HL HR; cbn [all_rows]; [exists DNil; auto|].
    rewrite lefts_cons in HL. rewrite rights_cons in HR.
    destruct IH as (e & -> & R); [intros; apply HL; apply in_or_app; now right|intros; apply HR; apply in_or_app; now right|].
    destruct r as [a|b|a b]; cbn [row_doc bind];
      (eexists; split; [reflexivity|]); rewrite seq_report, R; cbn [flat_map section_row]; f_equal.
    - cbn [report fst]. now rewrite section_printed.
    - cbn [report fst]. now rewrite section_printed.
    - unfold diff_section, dseq. cbn [fold_right]. rewrite tree_report, !seq_report, title_report.
      cbn [text_value]. rewrite !section_title_eq. f_equal. rewrite field_report by discriminate.
      rewrite !section_place_eq. f_equal. rewrite count_report; [apply app_nil_r|discriminate|..].
      + apply F1, HL. now left.
      + apply F2, HR. now left. }
  destruct (X rows) as (e & E & RE); [now rewrite L|now rewrite R|]. exists e. split; [exact E|]. rewrite RE.
  now apply sections_next.
Qed.

(** ** Headers *)

Lemma file_header_printed o im : 
  file_function_size (im_file im) + file_variable_size (im_sizes im) (im_file im) < 2 ^ 64 ->
  forall n, exists p, print_file_header o im = Some p /\ lines n 0 p = file_lines o im.
Proof.
  intros F n. unfold print_file_header, file_lines.
  destruct (ranges_printed n 1 "addresses" (file_ranges (im_sizes im) (im_units im))) as (p1 & E1 & L1); [discriminate|].
  destruct (sections_printed n 1 (im_sections im)) as (p2 & E2 & L2). rewrite E1, E2.
  set (size := rl_size _). set (fns := file_function_size _) in *. set (vars := file_variable_size _ _) in *.
  assert (X : exists p, (if p_file_address (o_print o) then Some p1 else Some PNil) = Some p /\
     lines n 1 p = if p_file_address (o_print o) then ranges_lines 1 "addresses" (file_ranges (im_sizes im) (im_units im)) else []).
  { destruct (p_file_address _); eauto. }
  destruct X as (p & -> & L). cbn [bind]. eexists. split; [reflexivity|]. unfold pseq. cbn [fold_right].
  change (lines n 0 (PSeq ?a PBreak)) with (lines n 0 a ++ [Blank])%list.
  change (lines n 0 (PTree ?c ?h ?b)) with (lines n 0 h ++ lines n 1 b)%list.
  rewrite text_line_value. cbn [text_value].
  change (text_line 0 (txt "file " ++ ?x)) with [Line 0 (txt "file " ++ x)]. rewrite <- app_assoc. cbn [app]. f_equal.
  repeat change (lines n 1 (PSeq ?a ?b)) with (lines n 1 a ++ lines n 1 b)%list.
  rewrite L, !count_lines, L2 by discriminate. rewrite <- !app_assoc. cbn [lines app]. do 4 f_equal.
  unfold other_size, add64, wrap64. rewrite N.mod_small by (unfold two64; lia).
  destruct (N.leb_spec (fns + vars) size); [reflexivity|]. now replace (size - (fns + vars)) with 0 by lia.
Qed.
Lemma file_headers_shown choose o ii : short_image (is_a ii) -> short_image (is_b ii) ->
  sizes_fit (is_a ii) -> sizes_fit (is_b ii) ->
  forall n, exists e, diff_file_header choose o ii = Some e /\ files_shown o ii (fst (report n 0 e)).
Proof.
  intros SA SB (CA & FA & XA) (CB & FB & XB) n. unfold diff_file_header, diff_ranges, dcollapsed_of.
  destruct (ranges_report n 2 (file_ranges (im_sizes (is_a ii)) (im_units (is_a ii)))
              (file_ranges (im_sizes (is_b ii)) (im_units (is_b ii)))) as (er & ER & RR).
  unfold print_range, diff_range in ER. rewrite ER. cbn [bind].
  destruct (sections_report choose n 2 (im_sections (is_a ii)) (im_sections (is_b ii))
    (proj1 (proj2 SA)) (proj1 (proj2 SB)) XA XB) as (es & ES & RS). rewrite ES. cbn [bind].
  pose proof (files_lines o ii _ _ RR RS) as X. cbv beta zeta in X.
  set (sa := rl_size (file_ranges (im_sizes (is_a ii)) (im_units (is_a ii)))) in *.
  set (sb := rl_size (file_ranges (im_sizes (is_b ii)) (im_units (is_b ii)))) in *.
  set (fa := file_function_size (im_file (is_a ii))) in *. set (fb := file_function_size (im_file (is_b ii))) in *.
  set (va := file_variable_size (im_sizes (is_a ii)) (im_file (is_a ii))) in *.
  set (vb := file_variable_size (im_sizes (is_b ii)) (im_file (is_b ii))) in *.
  assert (OA : sub64 (sub64 sa fa) va = sa - (fa + va)).
  { unfold countable in CA. rewrite !sub64_le by (rewrite ?sub64_le; lia). lia. }
  assert (OB : sub64 (sub64 sb fb) vb = sb - (fb + vb)).
  { unfold countable in CB. rewrite !sub64_le by (rewrite ?sub64_le; lia). lia. }
  rewrite OA, OB.
  assert (Y : exists a, (if p_file_address (o_print o) then Some (DSection true (txt "addresses") er) else Some DNil) = Some a /\
     fst (report n 1 a) = if p_file_address (o_print o) then under2 1 "addresses" (fst (report n 2 er)) else []).
  { destruct (p_file_address (o_print o)); eexists; (split; [reflexivity|]); [|reflexivity]. now rewrite section_report. }
  destruct Y as (ea & -> & YA). cbn [bind]. eexists. split; [reflexivity|].
  unfold dseq. cbn [fold_right]. rewrite seq_report, tree_report, !seq_report, title_report. cbn [text_value].
  rewrite YA, section_report by discriminate. unfold countable in *. rewrite !count_report by (try discriminate; unfold countable; lia).
  rewrite <- !app_assoc. exact X.
Qed.

Lemma unit_fields_printed o im u : forall n, exists p, print_unit_fields o im u = Some p /\
  (Line 0 (txt "unit " ++ txt (unit_ref (un_name u) (im_dir im u))) :: lines n 1 p = unit_lines o im u).
Proof.
  intros n. unfold print_unit_fields, unit_lines.
  destruct (ranges_printed n 1 "addresses" (unit_ranges (im_sizes im) u)) as (p1 & E1 & L1); [discriminate|].
  destruct (ranges_printed n 1 "unknown addresses" (unit_unknown_ranges (im_sizes im) u)) as (p2 & E2 & L2); [discriminate|].
  rewrite E1, E2. cbn [bind].
  set (l := unit_ranges (im_sizes im) u) in *.
  assert (X : exists p, (if p_unit_address (o_print o) then
      bind (if (1 <? List.length l)%nat then Some p1 else Some (field "address" (unit_address_text im u l)))
        (fun x => Some (PSeq x p2)) else Some PNil) = Some p /\
     lines n 1 p = if p_unit_address (o_print o) then
     (match l with
     | [] => labelled_line 1 "address" (match im_low_pc im u with Some a => hex0x a | None => [] end)
     | [r] => labelled_line 1 "address" (range_shown r)
     | _ => ranges_lines 1 "addresses" l
     end ++ ranges_lines 1 "unknown addresses" (unit_unknown_ranges (im_sizes im) u))%list
   else []).
  { destruct (p_unit_address (o_print o)); [|exists PNil; auto].
    destruct l as [|r [|r' l']]; cbn [List.length Nat.ltb Nat.leb bind]; (eexists; split; [reflexivity|]);
      change (lines n 1 (PSeq ?a ?b)) with (lines n 1 a ++ lines n 1 b)%list; rewrite L2; f_equal.
    - rewrite field_line by discriminate. cbn [unit_address_text]. unfold opt_text, hex0x. now destruct (im_low_pc im u).
    - rewrite field_line by discriminate. cbn [unit_address_text]. now rewrite range_text_eq.
    - exact L1. }
  destruct X as (p & -> & L). cbn [bind]. eexists. split; [reflexivity|]. unfold pseq. cbn [fold_right].
  repeat change (lines n 1 (PSeq ?a ?b)) with (lines n 1 a ++ lines n 1 b)%list.
  rewrite L, !nonzero_lines by discriminate. reflexivity.
Qed.

Lemma unit_fields_shown o ii u v :
  Forall countable [unit_function_size u; unit_function_size v;
    unit_variable_size (im_sizes (is_a ii)) u; unit_variable_size (im_sizes (is_b ii)) v;
    rl_size (unit_unknown_ranges (im_sizes (is_a ii)) u); rl_size (unit_unknown_ranges (im_sizes (is_b ii)) v)] ->
  forall n, exists e, diff_unit_fields o ii u v = Some e /\
    units_shown o ii u v (fst (report n 0 (DTree true (DLine [] (unit_value (is_a ii) u) (unit_value (is_b ii) v)) e))).
Proof.
  intros C n. rewrite Forall_forall in C. unfold diff_unit_fields, diff_ranges, dcollapsed_of.
  destruct (ranges_report n 2 (unit_ranges (im_sizes (is_a ii)) u) (unit_ranges (im_sizes (is_b ii)) v)) as (er & ER & RR).
  unfold print_range, diff_range in ER. rewrite ER. cbn [bind].
  destruct (ranges_report n 2 (unit_unknown_ranges (im_sizes (is_a ii)) u) (unit_unknown_ranges (im_sizes (is_b ii)) v)) as (ek & EK & RK).
  rewrite EK. cbn [bind].
  pose proof (units_lines o ii u v _ _ RR RK) as X. cbv beta zeta in X.
  set (la := unit_ranges (im_sizes (is_a ii)) u) in *. set (lb := unit_ranges (im_sizes (is_b ii)) v) in *.
  match type of X with units_shown _ _ _ _ (_ ++ ?m ++ _)%list => set (middle := m) in X end.
  assert (Y : exists a, (if p_unit_address (o_print o) then
     bind (if (1 <? List.length la)%nat || (1 <? List.length lb)%nat then Some (DSection true (txt "addresses") er)
        else Some (field2 "address" (unit_address_text (is_a ii) u la) (unit_address_text (is_b ii) v lb)))
       (fun x => Some (DSeq x (DSection true (txt "unknown addresses") ek))) else Some DNil) = Some a /\
     fst (report n 1 a) = middle).
  { subst middle. destruct (p_unit_address (o_print o)); [|exists DNil; auto].
    assert (AD : forall im u l, unit_address_text im u l = match l with
         | [] => match im_low_pc im u with Some a => hex0x a | None => [] end | r :: _ => range_shown r end).
    { intros im w l. destruct l; cbn [unit_address_text]; [unfold opt_text, hex0x; now destruct (im_low_pc im w)|apply range_text_eq]. }
    destruct ((1 <? List.length la)%nat || (1 <? List.length lb)%nat); cbn [bind]; (eexists; split; [reflexivity|]);
      rewrite seq_report, !section_report by discriminate.
    - reflexivity.
    - rewrite field_report by discriminate. now rewrite !AD. }
  destruct Y as (a & -> & YA). cbn [bind]. eexists. split; [reflexivity|]. unfold dseq. cbn [fold_right].
  rewrite tree_report, title_report, !seq_report, YA.
  rewrite !nonzero_report by (try discriminate; apply C; cbn; tauto).
  cbn [unit_value text_value]. exact X.
Qed.

(** ** Marks *)

(** All deleted and added parts have lines, and no difference is ignored. *)
Fixpoint visible (d : ddoc) : Prop :=
  match d with
  | DSeq a b | DTree _ a b | DId _ a b => visible a /\ visible b
  | DSection _ _ a | DInline a | DIfDiff a => visible a
  | DDelete p | DAdd p => forall n i, lines n i p <> []
  | DIgnore flag a => flag = false /\ visible a
  | _ => True
  end.
Lemma marked_lines m (ls : list line) : existsb differs (with_mark m ls) = match m with Same => false | _ => nonempty ls end.
Proof.
  unfold with_mark. induction ls as [|a ls IH]; cbn [map existsb]; [now destruct m|].
  rewrite IH. unfold differs. cbn [fst]. destruct m; reflexivity.
Qed.
Lemma nonempty_iff {A} (l : list A) : nonempty l = true <-> l <> [].
Proof. destruct l; cbn; split; congruence. Qed.
Lemma report_marks d : visible d -> forall n i, snd (report n i d) = existsb differs (fst (report n i d)).
Proof.
  induction d; intros V n i; cbn [visible] in V; cbn [report fst snd]; try reflexivity.
  - destruct V as [V1 V2]. rewrite existsb_app, IHd1, IHd2; auto.
  - unfold diff_lines. destruct (text_eqb _ _) eqn:E; cbn [negb]; [now rewrite marked_lines|].
    rewrite existsb_app, !marked_lines. symmetry. apply orb_true_iff. rewrite !nonempty_iff.
    cbn [lines]. destruct (text_value a) eqn:EA, (text_value b) eqn:EB; try (left; discriminate); try (right; discriminate).
  - destruct V as [V1 V2]. rewrite existsb_app, IHd1, IHd2 by auto. f_equal.
    destruct (fst (report n (S i) d2)); reflexivity.
  - specialize (IHd V n (S i)). destruct (report n (S i) d) as [[|x l] f]; [reflexivity|]. cbn [fst snd] in *. exact IHd.
  - destruct V as [V1 V2]. rewrite existsb_app, IHd1, IHd2; auto.
  - destruct n; [reflexivity|]. now apply IHd.
  - rewrite marked_lines. symmetry. now apply nonempty_iff.
  - rewrite marked_lines. symmetry. now apply nonempty_iff.
  - now rewrite existsb_app, !marked_lines.
  - rewrite IHd by exact V. destruct (existsb differs (fst (report n i d))) eqn:E; cbn [fst snd]; [now rewrite E|reflexivity].
  - destruct V as [-> V]. cbn [negb andb]. now apply IHd.
Qed.

Lemma visible_rows {A} (pa pb : A -> option pdoc) df rows : forall e,
  (forall a p, pa a = Some p -> forall n, lines n 0 p <> []) -> (forall b p, pb b = Some p -> forall n, lines n 0 p <> []) ->
  (forall a b d, df a b = Some d -> visible d) -> all_rows pa pb df rows = Some e -> visible e.
Proof.
  intros e HA HB HD. revert e. induction rows as [|r rows IH]; cbn [all_rows]; intros e E.
  - apply some_eq in E. now rewrite <- E.
  - apply bind_some in E. destruct E as (d & ED & E). apply bind_some in E. destruct E as (rest & ER & E).
    apply some_eq in E. rewrite <- E. split; [|now apply IH].
    assert (L : forall p, (forall n, lines n 0 p <> []) -> forall n i, lines n i p <> []).
    { intros p H n i F. apply (H n). rewrite lines_indent in F. apply map_eq_nil in F. exact F. }
    destruct r as [a|b|a b]; cbn [row_doc] in ED; [| |exact (HD _ _ _ ED)]; apply bind_some in ED;
      destruct ED as (p & EP & EQ); apply some_eq in EQ; rewrite <- EQ; cbn [visible]; apply L; eauto.
Qed.
Lemma ranges_visible l1 l2 e :
  compared_ord_list range_cmp print_range print_range diff_range l1 l2 = Some e -> visible e.
Proof.
  unfold compared_ord_list. apply visible_rows.
  - intros a p E n. apply some_eq in E. rewrite <- E, range_text_line. discriminate.
  - intros a p E n. apply some_eq in E. rewrite <- E, range_text_line. discriminate.
  - intros a b d E. apply some_eq in E. now rewrite <- E.
Qed.
Lemma sections_visible choose l1 l2 e :
  compared_list choose section_step section_cost (fun s => Some (print_section s))
    (fun s => Some (print_section s)) (fun a b => Some (diff_section a b)) l1 l2 = Some e -> visible e.
Proof.
  unfold compared_list. intros E. apply bind_some in E. destruct E as (rows & _ & E). revert E. apply visible_rows.
  - intros a p E n. apply some_eq in E. rewrite <- E. apply section_nonempty.
  - intros a p E n. apply some_eq in E. rewrite <- E. apply section_nonempty.
  - intros a b d E. apply some_eq in E. rewrite <- E. cbn. tauto.
Qed.
Lemma file_header_visible choose o ii e : diff_file_header choose o ii = Some e -> visible e.
Proof.
  intros E. unfold diff_file_header in E. apply bind_some in E. destruct E as (x & EX & E).
  apply bind_some in E. destruct E as (y & EY & E). apply some_eq in E. rewrite <- E. cbn [visible dseq fold_right].
  assert (VX : visible x).
  { destruct (p_file_address _); [|apply some_eq in EX; now rewrite <- EX]. unfold diff_ranges, dcollapsed_of in EX.
    apply bind_some in EX. destruct EX as (z & EZ & EX). apply some_eq in EX. rewrite <- EX. exact (ranges_visible _ _ _ EZ). }
  assert (VY : visible y).
  { unfold dcollapsed_of in EY. apply bind_some in EY. destruct EY as (z & EZ & EY). apply some_eq in EY. rewrite <- EY.
    exact (sections_visible _ _ _ _ EZ). }
  cbn. tauto.
Qed.
Lemma unit_fields_visible o ii u v e : diff_unit_fields o ii u v = Some e -> visible e.
Proof.
  intros E. unfold diff_unit_fields in E. apply bind_some in E. destruct E as (x & EX & E). apply some_eq in E. rewrite <- E.
  assert (VX : visible x).
  { destruct (p_unit_address _); [|apply some_eq in EX; now rewrite <- EX].
    apply bind_some in EX. destruct EX as (y & EY & EX). apply bind_some in EX. destruct EX as (z & EZ & EX).
    apply some_eq in EX. rewrite <- EX. split.
    - destruct (_ || _) in EY; [|apply some_eq in EY; now rewrite <- EY]. unfold diff_ranges, dcollapsed_of in EY.
      apply bind_some in EY. destruct EY as (w & EW & EY). apply some_eq in EY. rewrite <- EY. exact (ranges_visible _ _ _ EW).
    - unfold dcollapsed_of in EZ. apply bind_some in EZ. destruct EZ as (w & EW & EZ). apply some_eq in EZ. rewrite <- EZ.
      exact (ranges_visible _ _ _ EW). }
  unfold nonzero_field2. cbn [visible dseq fold_right].
  repeat match goal with |- context [if ?b then _ else _] => destruct b end; cbn; tauto.
Qed.
