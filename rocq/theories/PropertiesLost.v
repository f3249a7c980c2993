(** A comparison shows every line that only one of the files has (property C113). *)
From Coq Require Import List Arith NArith ZArith Bool String Ascii Lia Permutation.
From Verif Require Import Base BaseProofs RangeModel NamespaceModel TypeModel TypeSpec FileModel FileSpec FilterModel FilterSpec DiffModel IdModel
  OptionsModel OptionsProofs PrintModel PrintSpec PrintProofs RefModel NameModel CodeModel BloatModel ItemModel ItemSpec ItemShown EntryModel EntrySpec
  ReportModel ReportSpec ReportProofs PropertiesPrint PropertiesListing LocationModel DetailModel ServeModel WholeModel WholeSpec WholeProofs WholeShown PairModel PairProofs
  PairShown WholeDepth PropertiesWhole RunModel OriginSpec OriginProofs PropertiesOrigin LostSpec LostProofs DieModel CodeModel.
Import ListNotations.
Local Open Scope list_scope.

(** If nothing is to be ignored, then a line that is printed for the first file but not for the second is marked as deleted in the comparison,
    and one that is printed for the second but not for the first is marked as added; this says nothing about the titles of lists, and about
    types that are named like closures. *)
Theorem C113_run : forall esc alnum header footer choose order ca cb fuel c o given a b ta tb out,
  configured c o given -> o_html o = false -> c_file (o_category o) = false -> c_unit (o_category o) = false -> heeds_all o ->
  short_image (load ca a) -> short_image (load cb b) -> Forall no_closures (loaded_units ca a) -> Forall no_closures (loaded_units cb b) ->
  (forall u v, In u (loaded_units ca a) -> In v (loaded_units cb b) -> same_unit given u v -> units_alike o (load_two a b ca cb) u v) ->
  run esc alnum header footer choose order ca cb fuel o (ToPrint a) = Some ta ->
  run esc alnum header footer choose order cb ca fuel o (ToPrint b) = Some tb ->
  run esc alnum header footer choose order ca cb fuel o (ToCompare a b) = Some out ->
  exists la lb ls, ta = write_lines la /\ tb = write_lines lb /\ out = write_marked ls /\
    (forall x, In x la -> ~ In x lb -> ~ heading x -> In (Old, x) ls) /\
    (forall x, In x lb -> ~ In x la -> ~ heading x -> In (New, x) ls).
Proof.
  intros esc alnum header footer choose order ca cb fuel c o given a b ta tb out CO HT CF CU HE SA SB NA NB AL EA EB E. cbn [run] in EA, EB, E.
  destruct (print_file o (compare_parameters a) fuel (load ca a)) as [pa|] eqn:PA; [|discriminate].
  destruct (print_file o (compare_parameters b) fuel (load cb b)) as [pb|] eqn:PB; [|discriminate].
  destruct (diff_file choose o _ _ _) as [d|] eqn:F; [|discriminate]. cbn [option_map] in EA, EB, E. apply some_eq in EA, EB, E. subst ta tb out.
  set (n := N.to_nat (o_inline_depth o)).
  pose proof (file_from choose o (compare_parameters_in a b) (compare_parameters a) (compare_parameters b) fuel (load_two a b ca cb) c given pa pb n d SA SB HT CF CU CO AL PA PB F) as FF.
  rewrite Forall_forall in FF.
  exists (lines n 0 pa), (lines n 0 pb), (fst (report n 0 d)).
  split; [|split; [|split; [|split]]].
  - unfold formatted, text_output. rewrite HT. exact (C46_printed _ n).
  - unfold formatted, text_output. rewrite HT. exact (C46_printed _ n).
  - unfold formatted_diff, diff_output. rewrite HT. destruct (report_compare d n) as (s & EC). unfold n in EC. rewrite EC. reflexivity.
  - intros x IX NX HX. destruct (file_shown_old choose o (compare_parameters_in a b) (compare_parameters a) (compare_parameters b) fuel (load_two a b ca cb) c given pa pb n d x
      SA SB HT CF CU HE CO NA AL PA PB F IX) as [J|(m & M & J)]; [contradiction|].
    destruct m; [|exact J|contradiction]. destruct (FF _ J) as [_ K]. destruct K as [K|K]; [discriminate|contradiction|contradiction].
  - intros x IX NX HX. destruct (file_shown_new choose o (compare_parameters_in a b) (compare_parameters a) (compare_parameters b) fuel (load_two a b ca cb) c given pa pb n d x
      SA SB HT CF CU HE CO NB AL PA PB F IX) as [J|(m & M & J)]; [contradiction|].
    destruct m; [|contradiction|exact J]. destruct (FF _ J) as [K _]. destruct K as [K|K]; [discriminate|contradiction|contradiction].
Qed.
Print Assumptions C113_run.

(** Conditions on two units hold in both directions. *)
Lemma alike_swapped o a b ca cb u v : units_alike o (load_two a b ca cb) u v -> units_alike o (load_two b a cb ca) v u.
Proof.
  intros (H1 & H2 & H3 & H4). split; [|split; [|split]].
  - intros x y Ix Iy S. specialize (H1 y x Iy Ix). unfold bases_alike in *. destruct (t_kind x), (t_kind y); try exact Logic.I.
    destruct H1 as [P Q]; [|split; [exact Q|exact P]]. destruct S as (k & i & P & Q). exists k, i. split; [exact Q|exact P].
  - intros x y Ix Iy S. destruct (H2 y x Iy Ix) as [P Q]; [|split; [exact Q|exact P]]. destruct S as (n & P & Q). exists n. split; [exact Q|exact P].
  - exact H4.
  - exact H3.
Qed.

(** In particular, when the files are exchanged, the lines that only one of them has remain and get the other mark. *)
Theorem C113_exchanged : forall esc alnum header footer choose order ca cb fuel c o given a b ta tb out back,
  configured c o given -> o_html o = false -> c_file (o_category o) = false -> c_unit (o_category o) = false -> heeds_all o ->
  short_image (load ca a) -> short_image (load cb b) -> Forall no_closures (loaded_units ca a) -> Forall no_closures (loaded_units cb b) ->
  (forall u v, In u (loaded_units ca a) -> In v (loaded_units cb b) -> same_unit given u v -> units_alike o (load_two a b ca cb) u v) ->
  run esc alnum header footer choose order ca cb fuel o (ToPrint a) = Some ta ->
  run esc alnum header footer choose order cb ca fuel o (ToPrint b) = Some tb ->
  run esc alnum header footer choose order ca cb fuel o (ToCompare a b) = Some out ->
  run esc alnum header footer choose order cb ca fuel o (ToCompare b a) = Some back ->
  exists la lb ls ls', ta = write_lines la /\ tb = write_lines lb /\ out = write_marked ls /\ back = write_marked ls' /\
    (forall x, ~ heading x -> ~ (In x la /\ In x lb) -> (In (Old, x) ls <-> In (New, x) ls') /\ (In (New, x) ls <-> In (Old, x) ls')).
Proof.
  intros esc alnum header footer choose order ca cb fuel c o given a b ta tb out back CO HT CF CU HE SA SB NA NB AL EA EB E E'. cbn [run] in EA, EB, E, E'.
  destruct (print_file o (compare_parameters a) fuel (load ca a)) as [pa|] eqn:PA; [|discriminate].
  destruct (print_file o (compare_parameters b) fuel (load cb b)) as [pb|] eqn:PB; [|discriminate].
  destruct (diff_file choose o _ _ (load_two a b ca cb)) as [d|] eqn:F; [|discriminate].
  destruct (diff_file choose o _ _ (load_two b a cb ca)) as [d'|] eqn:F'; [|discriminate].
  cbn [option_map] in EA, EB, E, E'. apply some_eq in EA, EB, E, E'. subst ta tb out back.
  assert (AL' : forall u v, In u (loaded_units cb b) -> In v (loaded_units ca a) -> same_unit given u v -> units_alike o (load_two b a cb ca) u v).
  { intros u v Iu Iv S. apply alike_swapped, AL; [exact Iv|exact Iu|]. destruct S as (n & P & Q). exists n. split; [exact Q|exact P]. }
  set (n := N.to_nat (o_inline_depth o)).
  pose proof (file_from choose o _ (compare_parameters a) (compare_parameters b) fuel (load_two a b ca cb) c given pa pb n d SA SB HT CF CU CO AL PA PB F) as FF.
  pose proof (file_from choose o _ (compare_parameters b) (compare_parameters a) fuel (load_two b a cb ca) c given pb pa n d' SB SA HT CF CU CO AL' PB PA F') as FF'.
  rewrite Forall_forall in FF, FF'.
  exists (lines n 0 pa), (lines n 0 pb), (fst (report n 0 d)), (fst (report n 0 d')).
  split; [unfold formatted, text_output; rewrite HT; exact (C46_printed _ n)|]. split; [unfold formatted, text_output; rewrite HT; exact (C46_printed _ n)|].
  split; [unfold formatted_diff, diff_output; rewrite HT; destruct (report_compare d n) as (s & EC); unfold n in EC; rewrite EC; reflexivity|].
  split; [unfold formatted_diff, diff_output; rewrite HT; destruct (report_compare d' n) as (s & EC); unfold n in EC; rewrite EC; reflexivity|].
  intros x HX NX.
  assert (Y1 : In x (lines n 0 pa) -> In (Old, x) (fst (report n 0 d)) /\ In (New, x) (fst (report n 0 d'))).
  { intros IX. split.
    - destruct (file_shown_old choose o _ (compare_parameters a) (compare_parameters b) fuel (load_two a b ca cb) c given pa pb n d x SA SB HT CF CU HE CO NA AL PA PB F IX) as [J|(m & M & J)]; [tauto|].
      destruct m; [|exact J|contradiction]. destruct (FF _ J) as [_ K]. destruct K as [K|K]; [discriminate|tauto|contradiction].
    - destruct (file_shown_new choose o _ (compare_parameters b) (compare_parameters a) fuel (load_two b a cb ca) c given pb pa n d' x SB SA HT CF CU HE CO NA AL' PB PA F' IX) as [J|(m & M & J)]; [tauto|].
      destruct m; [|contradiction|exact J]. destruct (FF' _ J) as [K _]. destruct K as [K|K]; [discriminate|tauto|contradiction]. }
  assert (Y2 : In x (lines n 0 pb) -> In (New, x) (fst (report n 0 d)) /\ In (Old, x) (fst (report n 0 d'))).
  { intros IX. split.
    - destruct (file_shown_new choose o _ (compare_parameters a) (compare_parameters b) fuel (load_two a b ca cb) c given pa pb n d x SA SB HT CF CU HE CO NB AL PA PB F IX) as [J|(m & M & J)]; [tauto|].
      destruct m; [|contradiction|exact J]. destruct (FF _ J) as [K _]. destruct K as [K|K]; [discriminate|tauto|contradiction].
    - destruct (file_shown_old choose o _ (compare_parameters b) (compare_parameters a) fuel (load_two b a cb ca) c given pb pa n d' x SB SA HT CF CU HE CO NB AL' PB PA F' IX) as [J|(m & M & J)]; [tauto|].
      destruct m; [|exact J|contradiction]. destruct (FF' _ J) as [_ K]. destruct K as [K|K]; [discriminate|tauto|contradiction]. }
  assert (Z1 : In (Old, x) (fst (report n 0 d)) -> In x (lines n 0 pa)).
  { intros J. destruct (FF _ J) as [K _]. destruct K as [K|K]; [discriminate|exact K|contradiction]. }
  assert (Z2 : In (New, x) (fst (report n 0 d)) -> In x (lines n 0 pb)).
  { intros J. destruct (FF _ J) as [_ K]. destruct K as [K|K]; [discriminate|exact K|contradiction]. }
  assert (Z3 : In (Old, x) (fst (report n 0 d')) -> In x (lines n 0 pb)).
  { intros J. destruct (FF' _ J) as [K _]. destruct K as [K|K]; [discriminate|exact K|contradiction]. }
  assert (Z4 : In (New, x) (fst (report n 0 d')) -> In x (lines n 0 pa)).
  { intros J. destruct (FF' _ J) as [_ K]. destruct K as [K|K]; [discriminate|exact K|contradiction]. }
  split; split; intros J; [apply Y1, Z1|apply Y1, Z4|apply Y2, Z2|apply Y2, Z3]; exact J.
Qed.
Print Assumptions C113_exchanged.

(** What a comparison says about a line that is not a title. *)
Lemma line_marks choose ca cb fuel c o given a b pa pb d n x :
  configured c o given -> o_html o = false -> c_file (o_category o) = false -> c_unit (o_category o) = false -> heeds_all o ->
  short_image (load ca a) -> short_image (load cb b) -> Forall no_closures (loaded_units ca a) -> Forall no_closures (loaded_units cb b) ->
  (forall u v, In u (loaded_units ca a) -> In v (loaded_units cb b) -> same_unit given u v -> units_alike o (load_two a b ca cb) u v) ->
  print_file o (compare_parameters a) fuel (load ca a) = Some pa -> print_file o (compare_parameters b) fuel (load cb b) = Some pb ->
  diff_file choose o (compare_parameters_in a b) fuel (load_two a b ca cb) = Some d -> ~ heading x ->
  (In (Old, x) (fst (report n 0 d)) -> In x (lines n 0 pa)) /\ (In (New, x) (fst (report n 0 d)) -> In x (lines n 0 pb)) /\
  (In x (lines n 0 pa) -> ~ In x (lines n 0 pb) -> In (Old, x) (fst (report n 0 d))) /\
  (In x (lines n 0 pb) -> ~ In x (lines n 0 pa) -> In (New, x) (fst (report n 0 d))).
Proof.
  intros CO HT CF CU HE SA SB NA NB AL PA PB F HX.
  pose proof (file_from choose o _ (compare_parameters a) (compare_parameters b) fuel (load_two a b ca cb) c given pa pb n d SA SB HT CF CU CO AL PA PB F) as FF.
  rewrite Forall_forall in FF. split; [|split; [|split]].
  - intros J. destruct (FF _ J) as [K _]. destruct K as [K|K]; [discriminate|exact K|contradiction].
  - intros J. destruct (FF _ J) as [_ K]. destruct K as [K|K]; [discriminate|exact K|contradiction].
  - intros IX NX. destruct (file_shown_old choose o _ (compare_parameters a) (compare_parameters b) fuel (load_two a b ca cb) c given pa pb n d x
      SA SB HT CF CU HE CO NA AL PA PB F IX) as [J|(m & M & J)]; [contradiction|].
    destruct m; [|exact J|contradiction]. destruct (FF _ J) as [_ K]. destruct K as [K|K]; [discriminate|contradiction|contradiction].
  - intros IX NX. destruct (file_shown_new choose o _ (compare_parameters a) (compare_parameters b) fuel (load_two a b ca cb) c given pa pb n d x
      SA SB HT CF CU HE CO NB AL PA PB F IX) as [J|(m & M & J)]; [contradiction|].
    destruct m; [|contradiction|exact J]. destruct (FF _ J) as [K _]. destruct K as [K|K]; [discriminate|contradiction|contradiction].
Qed.

Lemma line_dec (x y : line) : {x = y} + {x <> y}.
Proof. decide equality; [apply (list_eq_dec N.eq_dec)|apply Nat.eq_dec]. Qed.
(** No change between two files is missed by comparing both with a third: a line that was deleted is marked as deleted in one of the two
    comparisons, and a line that was added as added. *)
Theorem C113_between : forall esc alnum header footer choose order ca cm cb fuel c o given a m b ta tm tb out first second,
  configured c o given -> o_html o = false -> c_file (o_category o) = false -> c_unit (o_category o) = false -> heeds_all o ->
  short_image (load ca a) -> short_image (load cm m) -> short_image (load cb b) ->
  Forall no_closures (loaded_units ca a) -> Forall no_closures (loaded_units cm m) -> Forall no_closures (loaded_units cb b) ->
  (forall u v, In u (loaded_units ca a) -> In v (loaded_units cb b) -> same_unit given u v -> units_alike o (load_two a b ca cb) u v) ->
  (forall u v, In u (loaded_units ca a) -> In v (loaded_units cm m) -> same_unit given u v -> units_alike o (load_two a m ca cm) u v) ->
  (forall u v, In u (loaded_units cm m) -> In v (loaded_units cb b) -> same_unit given u v -> units_alike o (load_two m b cm cb) u v) ->
  run esc alnum header footer choose order ca cb fuel o (ToPrint a) = Some ta ->
  run esc alnum header footer choose order cm cb fuel o (ToPrint m) = Some tm ->
  run esc alnum header footer choose order cb ca fuel o (ToPrint b) = Some tb ->
  run esc alnum header footer choose order ca cb fuel o (ToCompare a b) = Some out ->
  run esc alnum header footer choose order ca cm fuel o (ToCompare a m) = Some first ->
  run esc alnum header footer choose order cm cb fuel o (ToCompare m b) = Some second ->
  exists la lb ls ls1 ls2, ta = write_lines la /\ tb = write_lines lb /\ out = write_marked ls /\ first = write_marked ls1 /\ second = write_marked ls2 /\
    (forall x, ~ heading x -> In (Old, x) ls -> ~ In x lb -> In (Old, x) ls1 \/ In (Old, x) ls2) /\
    (forall x, ~ heading x -> In (New, x) ls -> ~ In x la -> In (New, x) ls1 \/ In (New, x) ls2).
Proof.
  intros esc alnum header footer choose order ca cm cb fuel c o given a m b ta tm tb out first second CO HT CF CU HE SA SM SB NA NM NB AL AL1 AL2 EA EM EB E E1 E2.
  cbn [run] in EA, EM, EB, E, E1, E2.
  destruct (print_file o (compare_parameters a) fuel (load ca a)) as [pa|] eqn:PA; [|discriminate].
  destruct (print_file o (compare_parameters m) fuel (load cm m)) as [pm|] eqn:PM; [|discriminate].
  destruct (print_file o (compare_parameters b) fuel (load cb b)) as [pb|] eqn:PB; [|discriminate].
  destruct (diff_file choose o _ _ (load_two a b ca cb)) as [d|] eqn:F; [|discriminate].
  destruct (diff_file choose o _ _ (load_two a m ca cm)) as [d1|] eqn:F1; [|discriminate].
  destruct (diff_file choose o _ _ (load_two m b cm cb)) as [d2|] eqn:F2; [|discriminate].
  cbn [option_map] in EA, EB, E, E1, E2. apply some_eq in EA, EB, E, E1, E2. subst ta tb out first second.
  set (n := N.to_nat (o_inline_depth o)).
  assert (R : forall e, formatted_diff esc alnum header footer o e = write_marked (fst (report n 0 e))).
  { intros e. unfold formatted_diff, diff_output. rewrite HT. destruct (report_compare e n) as (s & EC). unfold n in EC. rewrite EC. reflexivity. }
  assert (IN : forall x, In x (lines n 0 pm) \/ ~ In x (lines n 0 pm)).
  { intros x. destruct (in_dec line_dec x (lines n 0 pm)); [now left|now right]. }
  exists (lines n 0 pa), (lines n 0 pb), (fst (report n 0 d)), (fst (report n 0 d1)), (fst (report n 0 d2)).
  split; [unfold formatted, text_output; rewrite HT; exact (C46_printed _ n)|]. split; [unfold formatted, text_output; rewrite HT; exact (C46_printed _ n)|].
  split; [apply R|]. split; [apply R|]. split; [apply R|].
  split; intros x HX J NX;
    pose proof (line_marks choose ca cb fuel c o given a b pa pb d n x CO HT CF CU HE SA SB NA NB AL PA PB F HX) as H;
    pose proof (line_marks choose ca cm fuel c o given a m pa pm d1 n x CO HT CF CU HE SA SM NA NM AL1 PA PM F1 HX) as H1;
    pose proof (line_marks choose cm cb fuel c o given m b pm pb d2 n x CO HT CF CU HE SM SB NM NB AL2 PM PB F2 HX) as H2;
    destruct (IN x); tauto.
Qed.
Print Assumptions C113_between.

(** ** Two files *)
Local Open Scope string_scope.
Local Open Scope list_scope.
Local Open Scope N_scope.

(** The files of [C112_example] meet all the conditions. *)
Example C113_example :
  let before := PropertiesOrigin.before in let after := PropertiesOrigin.after in let o := PropertiesOrigin.item_options in
  heeds_all o /\ Forall no_closures (loaded_units (fun _ => O) before) /\ Forall no_closures (loaded_units (fun _ => O) after) /\
  (exists out, PropertiesOrigin.result o (ToCompare before after) = Some out) /\
  PropertiesOrigin.result o (ToCompare after before) = Some (write_marked
    [(New, Line 0 (txt "fn alpha")); (New, Line 1 (txt "address: 0x1000-0x100f")); (New, Line 1 (txt "size: 16"));
     (New, Line 1 (txt "return type:")); (New, PropertiesOrigin.int_line); (Same, Blank);
     (Same, Line 0 (txt "fn beta")); (Old, Line 1 (txt "address: 0x1000-0x101f")); (New, Line 1 (txt "address: 0x1010-0x101f"));
     (Old, Line 1 (txt "size: 32")); (New, Line 1 (txt "size: 16")); (Same, Line 1 (txt "return type:")); (Same, PropertiesOrigin.int_line); (Same, Blank);
     (Old, Line 0 (txt "fn gamma")); (Old, Line 1 (txt "address: 0x1020-0x102f")); (Old, Line 1 (txt "size: 16"));
     (Old, Line 1 (txt "return type:")); (Old, PropertiesOrigin.int_line); (Same, Blank)]).
Proof.
  cbv zeta. split; [repeat split|]. split; [|split; [|split; [eexists; vm_compute; reflexivity|vm_compute; reflexivity]]]; apply Forall_forall; intros u Iu t x It K; vm_compute in Iu; repeat (destruct Iu as [<-|Iu]); try contradiction;
    cbn [un_types] in It; repeat (destruct It as [<-|It]); try contradiction; discriminate K.
Qed.

(** A file between the two, in which one of the functions is already gone and the other as before, meets the conditions of [C113_between]. *)
Local Definition between : object_input := PropertiesOrigin.file_with "m.out" [PropertiesOrigin.beta_entry].
Local Lemma between_formed : well_formed between.
Proof.
  apply PropertiesOrigin.well_formed_by; [vm_compute; repeat (constructor; [cbn; intuition discriminate|]); constructor|reflexivity].
Qed.
Local Lemma between_functions u f : In u (loaded_units PropertiesOrigin.first_choice between) -> In f (un_functions u) -> PropertiesOrigin.plain_function between f.
Proof.
  intros Iu If; vm_compute in Iu; repeat (destruct Iu as [<-|Iu]); try contradiction;
    cbn [un_functions] in If; repeat (destruct If as [<-|If]); try contradiction; (split; [|split]); vm_compute; reflexivity.
Qed.
Local Lemma plain_alike o a b t :
  flat_map un_types (loaded_units PropertiesOrigin.first_choice a) = [t] -> flat_map un_types (loaded_units PropertiesOrigin.first_choice b) = [t] ->
  (forall u f, In u (loaded_units PropertiesOrigin.first_choice a) -> In f (un_functions u) -> PropertiesOrigin.plain_function a f) ->
  (forall u f, In u (loaded_units PropertiesOrigin.first_choice b) -> In f (un_functions u) -> PropertiesOrigin.plain_function b f) ->
  bases_alike t t ->
  forall u v, In u (loaded_units PropertiesOrigin.first_choice a) -> In v (loaded_units PropertiesOrigin.first_choice b) ->
  units_alike o (load_two a b PropertiesOrigin.first_choice PropertiesOrigin.first_choice) u v.
Proof.
  intros L1 L2 D1 D2 T u v Iu Iv. split; [|split; [|split]].
  - intros x y Ix Iy _. assert (J : In x (flat_map un_types (loaded_units PropertiesOrigin.first_choice a))) by (apply in_flat_map; exists u; split; assumption).
    assert (K : In y (flat_map un_types (loaded_units PropertiesOrigin.first_choice b))) by (apply in_flat_map; exists v; split; assumption).
    rewrite L1 in J. rewrite L2 in K. destruct J as [<-|[]], K as [<-|[]]. exact T.
  - intros x y Ix Iy _. destruct (D1 u x Iu Ix) as (_ & _ & A). destruct (D2 v y Iv Iy) as (_ & _ & B).
    unfold ranges_alike. rewrite A, B. split; intros (_ & L); exact (Nat.lt_irrefl _ L).
  - intros x Ix. destruct (D1 u x Iu Ix) as (A & _). change (settled_details o (sc_details (file_scene PropertiesOrigin.first_choice a) x)). rewrite A. split; [constructor|]. split; constructor.
  - intros x Ix. destruct (D2 v x Iv Ix) as (A & _). change (settled_details o (sc_details (file_scene PropertiesOrigin.first_choice b) x)). rewrite A. split; [constructor|]. split; constructor.
Qed.
Example C113_between_example :
  let fc := PropertiesOrigin.first_choice in let before := PropertiesOrigin.before in let after := PropertiesOrigin.after in let o := PropertiesOrigin.item_options in
  short_image (load fc between) /\ Forall no_closures (loaded_units fc between) /\
  (forall u v, In u (loaded_units fc before) -> In v (loaded_units fc between) -> units_alike o (load_two before between fc fc) u v) /\
  (forall u v, In u (loaded_units fc between) -> In v (loaded_units fc after) -> units_alike o (load_two between after fc fc) u v) /\
  (exists tm, PropertiesOrigin.result o (ToPrint between) = Some tm) /\
  PropertiesOrigin.result o (ToCompare before between) = Some (write_marked
    [(Old, Line 0 (txt "fn alpha")); (Old, Line 1 (txt "address: 0x1000-0x100f")); (Old, Line 1 (txt "size: 16"));
     (Old, Line 1 (txt "return type:")); (Old, PropertiesOrigin.int_line); (Same, Blank)]) /\
  PropertiesOrigin.result o (ToCompare between after) = Some (write_marked
    [(Same, Line 0 (txt "fn beta")); (Old, Line 1 (txt "address: 0x1010-0x101f")); (New, Line 1 (txt "address: 0x1000-0x101f"));
     (Old, Line 1 (txt "size: 16")); (New, Line 1 (txt "size: 32")); (Same, Line 1 (txt "return type:")); (Same, PropertiesOrigin.int_line); (Same, Blank);
     (New, Line 0 (txt "fn gamma")); (New, Line 1 (txt "address: 0x1020-0x102f")); (New, Line 1 (txt "size: 16"));
     (New, Line 1 (txt "return type:")); (New, PropertiesOrigin.int_line); (Same, Blank)]).
Proof.
  cbv zeta. set (t := nth 1 PropertiesOrigin.pair_types void_type).
  assert (L1 : flat_map un_types (loaded_units PropertiesOrigin.first_choice PropertiesOrigin.before) = [t]) by (vm_compute; reflexivity).
  assert (L2 : flat_map un_types (loaded_units PropertiesOrigin.first_choice between) = [t]) by (vm_compute; reflexivity).
  assert (L3 : flat_map un_types (loaded_units PropertiesOrigin.first_choice PropertiesOrigin.after) = [t]) by (vm_compute; reflexivity).
  assert (T : bases_alike t t) by (repeat split).
  split. { apply PropertiesOrigin.short_by; [exact between_formed|vm_compute; reflexivity|vm_compute; reflexivity| |exact L2|].
    - intros x. unfold type_enumerators. destruct (t_kind x); now apply PropertiesOrigin.short_few.
    - intros u f Iu If. destruct (between_functions u f Iu If) as (A & B & _). split; [exact A|exact B]. }
  split. { apply Forall_forall; intros u Iu x y It K; vm_compute in Iu; repeat (destruct Iu as [<-|Iu]); try contradiction;
    cbn [un_types] in It; repeat (destruct It as [<-|It]); try contradiction; discriminate K. }
  split; [exact (plain_alike _ _ _ t L1 L2 PropertiesOrigin.before_functions between_functions T)|].
  split; [exact (plain_alike _ _ _ t L2 L3 between_functions PropertiesOrigin.after_functions T)|].
  split; [eexists; vm_compute; reflexivity|]. split; vm_compute; reflexivity.
Qed.

(** A type that is named like a closure is printed, but left out of every comparison. *)
Local Definition closure_entry : die := Die TagStructure 80 [AName (Some "closure"); AByteSize (Some 8)%Z] [].
Local Definition with_closure : object_input := PropertiesOrigin.file_with "a.out" [closure_entry].
Local Definition without_closure : object_input := PropertiesOrigin.file_with "b.out" [].
Local Definition type_cli : cli := mkCli None None (Some ["type"]) [] [] None [] [].
Local Definition type_options : options := Eval vm_compute in
  match parse_options type_cli as x return match x with Some _ => options | None => True end with Some o => o | None => I end.
Theorem C113_closure_refuted : exists la lb x,
  PropertiesOrigin.result type_options (ToPrint with_closure) = Some (write_lines la) /\
  PropertiesOrigin.result type_options (ToPrint without_closure) = Some (write_lines lb) /\
  In x la /\ ~ In x lb /\ ~ heading x /\ PropertiesOrigin.result type_options (ToCompare with_closure without_closure) = Some [].
Proof.
  exists [Line 0 (txt "base int"); Line 1 (txt "size: 4"); Line 1 (txt "encoding: signed"); Blank; Line 0 (txt "struct closure"); Line 1 (txt "size: 8"); Blank],
    [Line 0 (txt "base int"); Line 1 (txt "size: 4"); Line 1 (txt "encoding: signed"); Blank], (Line 0 (txt "struct closure")).
  split; [vm_compute; reflexivity|]. split; [vm_compute; reflexivity|]. split; [do 4 right; now left|].
  split; [intros I; vm_compute in I; repeat (destruct I as [I|I]; [discriminate I|]); destruct I|]. split; [|vm_compute; reflexivity].
  intros (i & t & T & E). injection E as _ E. cbv [titles] in T. repeat (destruct T as [<-|T]; [vm_compute in E; discriminate E|]). destruct T.
Qed.
Print Assumptions C113_closure_refuted.
