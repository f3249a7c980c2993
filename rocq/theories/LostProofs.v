(** Proofs that a comparison shows every line that only one of the files has. *)
From Coq Require Import List Arith NArith ZArith Bool String Ascii Lia Permutation.
From Verif Require Import CfiModel DieModel Base BaseProofs RangeModel NamespaceModel TypeModel TypeSpec LayoutModel FileModel
  DiffModel DiffSpec MergeProofs OptionsModel OptionsProofs FilterModel FilterSpec FilterProofs IdModel IdProofs PrintModel
  PrintSpec RefModel PrintProofs NameModel LocationModel CodeModel ItemModel ItemSpec ItemProofs ItemShown EntryModel
  EntrySpec EntryProofs EntryShown ReportModel ReportSpec ReportProofs PropertiesFilter ReportShown OriginSpec OriginProofs LostSpec.
Import ListNotations.
Local Open Scope list_scope.

(** ** The same lines in another order *)
Lemma headings_keep a b x : plus_headings a b -> In x a -> In x b.
Proof. induction 1 as [|i label a b _ IH|y a b _ IH]; intros I; [destruct I|right; auto|]. destruct I as [<-|I]; [now left|right; auto]. Qed.
Lemma forall2_one {T} (R : T -> T -> Prop) l l' x : Forall2 R l l' -> In x l -> exists y, In y l' /\ R x y.
Proof.
  induction 1 as [|a b l l' AB _ IH]; intros I; [destruct I|]. destruct I as [<-|I]; [exists b; split; [now left|exact AB]|].
  destruct (IH I) as (y & Y & XR). exists y. split; [now right|exact XR].
Qed.
Lemma inlined_kept o sc dir n : forall x x' p p', rearranged x x' -> print_inlined o n sc dir x = Some p -> print_inlined o n sc dir x' = Some p' -> within p p'.
Proof.
  induction n as [|n IH]; intros x x' p p' R E E'; [discriminate|]. rewrite print_inlined_S in E, E'.
  destruct R as [origin size src ps vs vs' inner inner' cs P F]. cbn [il_parameters il_variables il_calls il_inlined il_source] in E, E'.
  apply bind_some in E, E'. destruct E as (d1 & E1 & E), E' as (d1' & E1' & E'). rewrite E1 in E1'. apply some_eq in E1'. subst d1'.
  apply bind_some in E, E'. destruct E as (d2 & E2 & E), E' as (d2' & E2' & E').
  apply bind_some in E, E'. destruct E as (d3 & E3 & E), E' as (d3' & E3' & E'). rewrite E3 in E3'. apply some_eq in E3'. subst d3'.
  apply bind_some in E, E'. destruct E as (d4 & E4 & E), E' as (d4' & E4' & E').
  apply some_eq in E, E'. subst p p'. apply within_tree. unfold pseq. cbn [fold_right].
  repeat apply within_seq; try apply within_refl.
  - exact (variables_within o sc vs' vs d2 d2' (Permutation_sym P) E2 E2').
  - apply within_inline. eapply printed_within; [exact E4|exact E4'|]. intros z e Z G.
    destruct (forall2_one _ _ _ z F Z) as (y & Y & YZ). destruct (printed_one _ _ _ y E4' Y) as (e' & G' & _).
    exists y, e'. split; [exact Y|]. split; [exact G'|]. exact (IH z y e e' YZ G G').
Qed.
Lemma function_kept o sc dir fuel f p p' : print_function o fuel sc dir f = Some p -> printed_up_to_order o fuel sc dir f p' -> within p p'.
Proof.
  intros E (vars & inner & P & F & E'). unfold print_function, print_function_listed in E, E'.
  apply bind_some in E, E'. destruct E as (b & EB & E), E' as (b' & EB' & E'). apply some_eq in E, E'. subst p p'.
  apply within_seq; [|apply within_refl]. apply within_id. unfold print_function_body in EB, EB'. cbv zeta in EB, EB'.
  apply bind_some in EB, EB'. destruct EB as (d1 & E1 & E), EB' as (d1' & E1' & E'). rewrite E1 in E1'. apply some_eq in E1'. subst d1'.
  apply bind_some in E, E'. destruct E as (d2 & E2 & E), E' as (d2' & E2' & E'). rewrite E2 in E2'. apply some_eq in E2'. subst d2'.
  apply bind_some in E, E'. destruct E as (d3 & E3 & E), E' as (d3' & E3' & E').
  apply bind_some in E, E'. destruct E as (d4 & E4 & E), E' as (d4' & E4' & E'). rewrite E4 in E4'. apply some_eq in E4'. subst d4'.
  apply bind_some in E, E'. destruct E as (d5 & E5 & E), E' as (d5' & E5' & E').
  apply bind_some in E, E'. destruct E as (d6 & E6 & E), E' as (d6' & E6' & E'). rewrite E6 in E6'. apply some_eq in E6'. subst d6'.
  apply bind_some in E, E'. destruct E as (d7 & E7 & E), E' as (d7' & E7' & E'). rewrite E7 in E7'. apply some_eq in E7'. subst d7'.
  apply some_eq in E, E'. subst b b'. unfold pseq. cbn [fold_right]. repeat apply within_seq; try apply within_refl.
  - exact (variables_within o sc vars _ d3 d3' (Permutation_sym P) E3 E3').
  - apply within_inline. eapply collapsed_within; [exact E5|exact E5'|]. intros x y X Y. eapply printed_within; [exact X|exact Y|]. intros z e Z G.
    destruct (forall2_one _ _ _ z F Z) as (w & W & WZ). destruct (printed_one _ _ _ w Y W) as (e' & G' & _).
    exists w, e'. split; [exact W|]. split; [exact G'|]. exact (inlined_kept o sc dir fuel z w e e' WZ G G').
Qed.

(** A line of what is printed is one of an item. *)
Lemma printed_origin {T} (f : T -> option pdoc) l n i x : forall d, all_printed f l = Some d -> In x (lines n i d) ->
  exists y e, In y l /\ f y = Some e /\ In x (lines n i e).
Proof.
  induction l as [|y l IH]; intros d E I; cbn [all_printed] in E; [apply some_eq in E; subst d; destruct I|].
  apply bind_some in E. destruct E as (e & F & E). apply bind_some in E. destruct E as (k & K & E). apply some_eq in E. subst d.
  cbn [lines] in I. apply in_app_or in I. destruct I as [I|I]; [exists y, e; split; [now left|now split]|].
  destruct (IH k K I) as (z & e' & Z & G & J). exists z, e'. split; [now right|now split].
Qed.
Lemma types_listed o im u t : no_closures u -> In t (filter_types o (im_hash im) false u) -> In t (filter_types o (im_hash im) true u).
Proof.
  intros NC. unfold filter_types. rewrite !filter_In. intros [I F]. split; [exact I|]. unfold filter_type in *.
  rewrite !andb_true_iff in *. destruct F as [[[F1 F2] F3] F4]. split; [split; [split|]|]; try assumption. destruct (t_kind t) eqn:K; auto.
  apply negb_true_iff. cbn [andb]. specialize (NC t _ I K). destruct (s_name _) as [s|]; [|reflexivity]. cbn [opt_string_eqb].
  destruct (String.eqb_spec s "closure"); [subst; now destruct NC|reflexivity].
Qed.
Lemma diff_rows_keep {T} (f : hash -> T -> hash -> T -> comparison) o ha hb r rows :
  i_added (o_ignore o) = false -> i_deleted (o_ignore o) = false -> In r rows -> In r (diff_rows f o ha hb rows).
Proof.
  intros IA ID I. apply filter_In. split; [eapply Permutation_in; [apply Permutation_sym, stable_sort_perm|exact I]|]. now destruct r; rewrite ?IA, ?ID.
Qed.

(** What is compared is defined for each row. *)
Lemma all_rows_both {T} (pa pb : T -> option pdoc) (df : T -> T -> option ddoc) rows d a b :
  all_rows pa pb (fun a b => bind (df a b) (fun d => Some (DIfDiff d))) rows = Some d -> In (MBoth a b) rows -> exists e, df a b = Some e.
Proof.
  revert d. induction rows as [|r rows IH]; intros d E I; [destruct I|]. cbn [all_rows] in E. apply bind_some in E. destruct E as (e & R & E).
  apply bind_some in E. destruct E as (k & K & E). destruct I as [->|I]; [|now apply (IH k)]. cbn [row_doc] in R. apply bind_some in R. destruct R as (x & X & _). eauto.
Qed.
Lemma all_rows_lefts {T} (pa pb : T -> option pdoc) (df : T -> T -> option ddoc) rows d a :
  all_rows pa pb df rows = Some d -> In (MLeft a) rows -> exists e, pa a = Some e.
Proof.
  revert d. induction rows as [|r rows IH]; intros d E I; [destruct I|]. cbn [all_rows] in E. apply bind_some in E. destruct E as (e & R & E).
  apply bind_some in E. destruct E as (k & K & E). destruct I as [->|I]; [|now apply (IH k)]. cbn [row_doc] in R. apply bind_some in R. destruct R as (x & X & _). eauto.
Qed.
Lemma all_rows_rights {T} (pa pb : T -> option pdoc) (df : T -> T -> option ddoc) rows d a :
  all_rows pa pb df rows = Some d -> In (MRight a) rows -> exists e, pb a = Some e.
Proof.
  revert d. induction rows as [|r rows IH]; intros d E I; [destruct I|]. cbn [all_rows] in E. apply bind_some in E. destruct E as (e & R & E).
  apply bind_some in E. destruct E as (k & K & E). destruct I as [->|I]; [|now apply (IH k)]. cbn [row_doc] in R. apply bind_some in R. destruct R as (x & X & _). eauto.
Qed.

(** ** Lines of the first file *)
Definition shown_old (n : nat) (x : line) (d : ddoc) : Prop :=
  exists m, m <> New /\ In (m, x) (fst (report n 0 d)) /\ snd (report n 0 d) = true.
Lemma shown_old_left n x a b : shown_old n x a -> shown_old n x (DSeq a b).
Proof. intros (m & M & I & F). exists m. cbn [report fst snd]. rewrite F. split; [exact M|]. split; [apply in_or_app; now left|reflexivity]. Qed.
Lemma shown_old_right n x a b : shown_old n x b -> shown_old n x (DSeq a b).
Proof. intros (m & M & I & F). exists m. cbn [report fst snd]. rewrite F. split; [exact M|]. split; [apply in_or_app; now right|apply orb_true_r]. Qed.
Lemma reads_shown_old e p q n x : reads e p q -> unignored e -> In x (lines n 0 p) -> In x (lines n 0 q) \/ shown_old n x e.
Proof.
  intros R UI I. destruct (snd (report n 0 e)) eqn:F.
  - right. destruct R as (O & N & U). destruct (sides_headings e U n 0) as [HO HN]. rewrite (O n 0) in HO. rewrite (N n 0) in HN.
    apply (headings_keep _ _ x HO) in I. unfold old_lines in I. apply in_map_iff in I. destruct I as ((m & y) & <- & I). apply filter_In in I.
    destruct I as [I M]. exists m. rewrite (report_lines e U). split; [destruct m; [discriminate..|discriminate M] || (destruct m; discriminate)|]. split; [exact I|exact F].
  - left. rewrite (unreported_lines e p q n 0 R UI F) in I. exact I.
Qed.
Lemma rows_shown_old {T} (pa pb : T -> option pdoc) (df : T -> T -> option ddoc) rows n x : forall d,
  all_rows pa pb (fun a b => bind (df a b) (fun d => Some (DIfDiff d))) rows = Some d ->
  (forall a p, In (MLeft a) rows -> pa a = Some p -> In x (lines n 0 p) -> shown_old n x d) /\
  (forall a b e, In (MBoth a b) rows -> df a b = Some e -> shown_old n x e -> shown_old n x d).
Proof.
  induction rows as [|r rows IH]; intros d E; cbn [all_rows] in E; [split; intros; contradiction|].
  apply bind_some in E. destruct E as (e & R & E). apply bind_some in E. destruct E as (k & K & E). apply some_eq in E. subst d.
  destruct (IH k K) as [HL HB]. split.
  - intros a p [->|I] F J; [|now apply shown_old_right, (HL a p)]. cbn [row_doc] in R. rewrite F in R. cbn [bind] in R. apply some_eq in R. subst e.
    apply shown_old_left. exists Old. cbn [report fst snd]. split; [discriminate|]. split; [unfold with_mark; apply in_map_iff; now exists x|reflexivity].
  - intros a b d [->|I] F J; [|now apply shown_old_right, (HB a b d)]. cbn [row_doc] in R. rewrite F in R. cbn [bind] in R. apply some_eq in R. subst e.
    apply shown_old_left. destruct J as (m & M & J & G). exists m. cbn [report]. rewrite G. split; [exact M|]. split; [exact J|reflexivity].
Qed.

Section Units_shown_old.
  Variable choose : list N -> list N -> list (list N) -> nat -> nat.
  Variable o : options.
  Variables pc qa qb : param_cmp.
  Variable fuel : nat.
  Variable ii : images.
  Local Notation A := (is_a ii).
  Local Notation B := (is_b ii).
  Hypothesis SA : short_image A.
  Hypothesis SB : short_image B.
  Hypothesis HT : o_html o = false.
  Hypothesis CU : c_unit (o_category o) = false.
  Hypothesis HE : heeds_all o.
  Variables u v : unit.
  Variables pu pv : pdoc.
  Hypothesis IU : In u (im_units A).
  Hypothesis IV : In v (im_units B).
  Hypothesis EU : print_unit o qa fuel A u = Some pu.
  Hypothesis EV : print_unit o qb fuel B v = Some pv.
  Hypothesis AL : units_alike o ii u v.
  Hypothesis NC : no_closures u.
  Variable n : nat.
  Variable x : line.

  Lemma type_shown_old d t p : c_type (o_category o) = true -> diff_types choose o fuel ii u v = Some d ->
    In t (filter_types o (im_hash A) false u) -> print_type_in o fuel A u t = Some p -> In x (lines n 0 p) -> In x (lines n 0 pv) \/ shown_old n x d.
  Proof.
    intros CC E I ET IX. apply types_listed in I; [|exact NC]. unfold diff_types in E. rewrite CC in E.
    destruct (unit_printed o fuel HT CU qa A u pu EU) as [PA _]. destruct (unit_printed o fuel HT CU qb B v pv EV) as [PB _].
    unfold merged_types in E. set (rows := merge_all _ _ _) in E.
    assert (PL : forall x, In x (lefts rows) <-> In x (filter_types o (im_hash A) true u)).
    { intros z. unfold rows. rewrite merge_all_total, merge_lefts. split; apply Permutation_in; [|apply Permutation_sym]; apply stable_sort_perm. }
    assert (PR : forall x, In x (rights rows) <-> In x (filter_types o (im_hash B) true v)).
    { intros z. unfold rows. rewrite merge_all_total, merge_rights. split; apply Permutation_in; [|apply Permutation_sym]; apply stable_sort_perm. }
    destruct (rows_shown_old _ _ _ _ n x d E) as [HL HB]. apply PL in I. apply in_lefts in I. destruct I as [I|(y & I)].
    - right. apply (HL t p); [apply diff_rows_keep; [apply HE|apply HE|exact I]|exact ET|exact IX].
    - pose proof (diff_rows_keep (type_cmp_by o) o (im_hash A) (im_hash B) _ rows (proj1 HE) (proj1 (proj2 HE)) I) as K.
      pose proof (row_left _ _ I) as [I1 I2]. apply PL in I1. apply PR in I2. apply row_sides in I. destruct I as (_ & _ & EC).
      assert (S : same_type t y).
      { pose proof I1 as LX. pose proof I2 as LY. apply filter_In in LX, LY. destruct LX as [_ LX], LY as [_ LY]. apply filter_type_iff in LX, LY.
        apply listed_listable in LX, LY. rewrite type_cmp_id_key in EC by assumption. now apply same_type_iff. }
      destruct (all_rows_both _ _ _ _ _ _ _ E K) as (e & F).
      destruct (PA CC t (listed_twice A o u t I1)) as (p1 & EP & WP). destruct (PB CC y (listed_twice B o v y I2)) as (q1 & EQ & WQ).
      apply filter_In in I1, I2. destruct I1 as [I1 _], I2 as [I2 _].
      destruct (type_reads choose o fuel (ss_sides (is_scenes ii)) (im_dir A u) (im_dir B v) t y e) as (p' & q' & EP' & EQ' & RE);
        [apply SA|apply SB|now apply (type_short_a ii SA u IU)|now apply (type_short_b ii SB v IV)|now apply AL|exact F|].
      unfold print_type_in in EP, EQ, ET. change (sd_a (ss_sides (is_scenes ii))) with (im_view A) in EP'. change (sd_b (ss_sides (is_scenes ii))) with (im_view B) in EQ'.
      rewrite EP in EP'. rewrite EQ in EQ'. apply some_eq in EP', EQ'. subst p' q'. rewrite EP in ET. apply some_eq in ET. subst p.
      destruct (reads_shown_old e p1 q1 n x RE (type_unignored _ _ _ _ _ _ _ _ _ F) IX) as [J|J]; [left; now apply WQ|right; exact (HB _ _ e K F J)].
  Qed.
  Lemma variable_shown_old d t p : c_variable (o_category o) = true -> diff_variables o ii u v = Some d ->
    In t (filter_variables o u) -> print_variable_in o A u t = Some p -> In x (lines n 0 p) -> In x (lines n 0 pv) \/ shown_old n x d.
  Proof.
    intros CC E I ET IX. unfold diff_variables in E. rewrite CC in E.
    destruct (unit_printed o fuel HT CU qa A u pu EU) as (_ & _ & PA). destruct (unit_printed o fuel HT CU qb B v pv EV) as (_ & _ & PB).
    unfold merged_variables in E. set (rows := merge_all _ _ _) in E.
    assert (PL : forall x, In x (lefts rows) <-> In x (filter_variables o u)).
    { intros z. unfold rows. rewrite merge_all_total, merge_lefts. split; apply Permutation_in; [|apply Permutation_sym]; apply stable_sort_perm. }
    assert (PR : forall x, In x (rights rows) <-> In x (filter_variables o v)).
    { intros z. unfold rows. rewrite merge_all_total, merge_rights. split; apply Permutation_in; [|apply Permutation_sym]; apply stable_sort_perm. }
    destruct (rows_shown_old _ _ _ _ n x d E) as [HL HB]. apply PL in I. apply in_lefts in I. destruct I as [I|(y & I)].
    - right. apply (HL t p); [apply diff_rows_keep; [apply HE|apply HE|exact I]|exact ET|exact IX].
    - pose proof (diff_rows_keep (variable_cmp_by o) o (im_hash A) (im_hash B) _ rows (proj1 HE) (proj1 (proj2 HE)) I) as K.
      pose proof (row_left _ _ I) as [I1 I2]. apply PL in I1. apply PR in I2.
      destruct (PA CC t I1) as (p1 & EP & WP). destruct (PB CC y I2) as (q1 & EQ & WQ). rewrite EP in ET. apply some_eq in ET. subst p.
      apply some_eq in EP, EQ. subst p1 q1.
      destruct (reads_shown_old _ _ _ n x (variable_reads o (is_scenes ii) (im_dir A u) (im_dir B v) t y) (variable_unignored o (is_scenes ii) _ _ t y (proj2 (proj2 (proj2 HE)))) IX) as [J|J];
        [left; now apply WQ|right; exact (HB _ _ _ K eq_refl J)].
  Qed.
  Lemma function_shown_old d rows t p : c_function (o_category o) = true ->
    (forall r, In r rows -> In r (merge_all function_cmp_id
      (stable_sort (fun x y => function_cmp_for_sort pc (im_hash A) x (im_hash A) y) (filter_functions o u))
      (stable_sort (fun x y => function_cmp_for_sort pc (im_hash B) x (im_hash B) y) (filter_functions o v)))) ->
    diff_functions choose o pc fuel ii rows u v = Some d ->
    In t (lefts rows) -> print_function_in o fuel A u t = Some p -> In x (lines n 0 p) -> In x (lines n 0 pv) \/ shown_old n x d.
  Proof.
    intros CC HR E I ET IX. unfold diff_functions in E.
    destruct (unit_printed o fuel HT CU qa A u pu EU) as (_ & PA & _). destruct (unit_printed o fuel HT CU qb B v pv EV) as (_ & PB & _).
    destruct (rows_shown_old _ _ _ _ n x d E) as [HL HB]. apply in_lefts in I. destruct I as [I|(y & I)].
    - right. apply (HL t p); [apply diff_rows_keep; [apply HE|apply HE|exact I]|exact ET|exact IX].
    - pose proof (diff_rows_keep (function_cmp_by o pc) o (im_hash A) (im_hash B) _ rows (proj1 HE) (proj1 (proj2 HE)) I) as K.
      apply HR, row_sides in I. destruct I as (I1 & I2 & EC). apply same_function_iff in EC. apply sorted_in in I1, I2.
      destruct (PA CC t I1) as (p1 & EP & WP). destruct (PB CC y I2) as (q1 & EQ & WQ). rewrite EP in ET. apply some_eq in ET. subst p.
      apply filter_In in I1, I2. destruct I1 as [I1 _], I2 as [I2 _]. destruct AL as (_ & A2 & A3 & A4).
      destruct (function_fine choose o (is_scenes ii) (im_dir A u) (im_dir B v) True (im_unit_id A u) fuel t y p1 q1
                  (function_short_a ii SA u IU t I1) (function_short_b ii SB v IV y I2) (fun _ => A3 t I1) (fun _ => A4 y I2)
                  (fun _ => A2 t y I1 I2 EC) EP EQ) as (e & p' & q' & F & P1 & P2 & R & _ & UI).
      destruct (reads_shown_old e p' q' n x) as [J|J]; [apply R; now left|apply UI; apply HE|exact (function_kept o _ _ fuel t p1 p' EP P1 n 0 x IX)| |].
      + left. apply WQ. exact (function_within o _ _ fuel y q1 q' EQ P2 n 0 x J).
      + right. exact (HB _ _ e K F J).
  Qed.
  Lemma unit_shown_old d : diff_unit choose o pc fuel ii u v = Some d -> In x (lines n 0 pu) -> In x (lines n 0 pv) \/ shown_old n x d.
  Proof.
    unfold diff_unit, diff_unit_body. rewrite HT, CU. intros E IX. apply bind_some in E. destruct E as (b & EB & E). apply some_eq in E. subst b.
    apply bind_some in EB. destruct EB as (fs & _ & EB). apply bind_some in EB. destruct EB as (ts & ET & EB).
    apply bind_some in EB. destruct EB as (gs & EG & EB). apply bind_some in EB. destruct EB as (vs & EVS & EB). apply some_eq in EB. subst d.
    pose proof EU as EP. unfold print_unit, print_unit_body in EP. rewrite HT, CU in EP. apply bind_some in EP. destruct EP as (b & EB & EP). apply some_eq in EP. subst b.
    apply bind_some in EB. destruct EB as (fs' & _ & EB). apply bind_some in EB. destruct EB as (ts' & ET' & EB).
    apply bind_some in EB. destruct EB as (vs' & EV' & EB). apply bind_some in EB. destruct EB as (gs' & EG' & EB). apply some_eq in EB. rewrite <- EB in IX.
    unfold pseq in IX. cbn [fold_right lines app] in IX. rewrite app_nil_r in IX. unfold dseq. cbn [fold_right].
    apply in_app_or in IX. destruct IX as [IX|IX]; [|apply in_app_or in IX; destruct IX as [IX|IX]].
    - unfold print_types, printed_types in ET'. apply (printed_origin _ _ n 0 x _ ET') in IX. destruct IX as (t & p & IT & EP & IX).
      destruct (c_type (o_category o)) eqn:CC; [|destruct IT]. apply sorted_in in IT.
      destruct (type_shown_old ts t p CC ET IT EP IX) as [J|J]; [now left|right]. now apply shown_old_right, shown_old_left.
    - unfold print_functions, printed_functions in EG'. apply (printed_origin _ _ n 0 x _ EG') in IX. destruct IX as (t & p & IT & EP & IX).
      destruct (c_function (o_category o)) eqn:CC; [|destruct IT]. apply sorted_in in IT.
      apply bind_some in EG. destruct EG as (d1 & EX & EG). apply bind_some in EG. destruct EG as (d2 & EY & EG). apply some_eq in EG. subst gs.
      cbn [merged_functions fst snd] in EX, EY. set (rows := merge_all _ _ _) in EX, EY.
      assert (PL : In t (lefts rows)).
      { unfold rows. rewrite merge_all_total, merge_lefts. eapply Permutation_in; [apply Permutation_sym, stable_sort_perm|exact IT]. }
      assert (PD : In t (lefts (filter (fun r => negb (row_inlined r)) rows)) \/ In t (lefts (filter row_inlined rows))).
      { apply in_flat_map in PL. destruct PL as (r & IR & J). destruct (row_inlined r) eqn:RI; [right|left]; apply in_flat_map; exists r; (split; [|exact J]);
          apply filter_In; now rewrite ?RI. }
      destruct PD as [PD|PD].
      + destruct (function_shown_old d1 _ t p CC (fun r I => proj1 (proj1 (filter_In _ _ _) I)) EX PD EP IX) as [J|J]; [now left|right].
        now apply shown_old_right, shown_old_right, shown_old_left, shown_old_left.
      + destruct (function_shown_old d2 _ t p CC (fun r I => proj1 (proj1 (filter_In _ _ _) I)) EY PD EP IX) as [J|J]; [now left|right].
        now apply shown_old_right, shown_old_right, shown_old_left, shown_old_right.
    - unfold print_variables, printed_variables in EV'. apply (printed_origin _ _ n 0 x _ EV') in IX. destruct IX as (t & p & IT & EP & IX).
      destruct (c_variable (o_category o)) eqn:CC; [|destruct IT]. apply sorted_in in IT.
      destruct (variable_shown_old vs t p CC EVS IT EP IX) as [J|J]; [now left|right]. now apply shown_old_right, shown_old_right, shown_old_right, shown_old_left.
  Qed.
End Units_shown_old.

Lemma file_shown_old choose o pc qa qb fuel ii c given pa pb n d x :
  short_image (is_a ii) -> short_image (is_b ii) -> o_html o = false -> c_file (o_category o) = false -> c_unit (o_category o) = false ->
  heeds_all o -> configured c o given -> Forall no_closures (im_units (is_a ii)) ->
  (forall u v, In u (im_units (is_a ii)) -> In v (im_units (is_b ii)) -> same_unit given u v -> units_alike o ii u v) ->
  print_file o qa fuel (is_a ii) = Some pa -> print_file o qb fuel (is_b ii) = Some pb -> diff_file choose o pc fuel ii = Some d ->
  In x (lines n 0 pa) -> In x (lines n 0 pb) \/ exists m, m <> New /\ In (m, x) (fst (report n 0 d)).
Proof.
  intros SA SB HT CF CU HE CO NC AL EA EB E IX. unfold print_file in EA, EB. unfold diff_file in E. rewrite CF in EA, EB, E. cbn [bind] in EA, EB, E.
  apply bind_some in EA. destruct EA as (ua & EUA & EA). apply bind_some in EB. destruct EB as (ub & EUB & EB).
  apply bind_some in E. destruct E as (e & EE & E). apply some_eq in EA, EB, E. subst pa pb d. cbn [report fst lines app] in IX |- *.
  enough (X : In x (lines n 0 ub) \/ shown_old n x e) by (destruct X as [X|(m & M & J & _)]; [now left|right; exists m; now split]).
  pose proof (configured_maps c o given CO) as M. rewrite Forall_forall in NC.
  unfold merged_units in EE. set (rows := merge_all _ _ _) in EE.
  assert (PL : forall x, In x (lefts rows) <-> In x (filter_units o (im_units (is_a ii)))).
  { intros z. unfold rows. rewrite merge_all_total, merge_lefts. split; apply Permutation_in; [|apply Permutation_sym]; apply stable_sort_perm. }
  assert (PR : forall x, In x (rights rows) <-> In x (filter_units o (im_units (is_b ii)))).
  { intros z. unfold rows. rewrite merge_all_total, merge_rights. split; apply Permutation_in; [|apply Permutation_sym]; apply stable_sort_perm. }
  assert (UA : forall u, In u (filter_units o (im_units (is_a ii))) -> exists p, print_unit o qa fuel (is_a ii) u = Some p /\ within p ua).
  { intros u I. apply (printed_one _ _ _ u EUA). unfold printed_units. now apply print_list_perm. }
  assert (UB : forall u, In u (filter_units o (im_units (is_b ii))) -> exists p, print_unit o qb fuel (is_b ii) u = Some p /\ within p ub).
  { intros u I. apply (printed_one _ _ _ u EUB). unfold printed_units. now apply print_list_perm. }
  apply (printed_origin _ _ n 0 x _ EUA) in IX. destruct IX as (t & p & IT & EP & IX). unfold printed_units in IT. apply sorted_in in IT.
  destruct (rows_shown_old _ _ _ _ n x e EE) as [HL HB]. pose proof IT as I. apply PL in I. apply in_lefts in I. destruct I as [I|(y & I)].
  - right. pose proof (diff_rows_keep (unit_cmp_by o) o (im_hash (is_a ii)) (im_hash (is_b ii)) _ rows (proj1 HE) (proj1 (proj2 HE)) I) as K.
    destruct (all_rows_lefts _ _ _ _ _ _ EE K) as (p' & EP'). apply (HL t p' K EP'). exact (unit_within o fuel HT CU qa pc _ t p p' EP EP' n 0 x IX).
  - pose proof (diff_rows_keep (unit_cmp_by o) o (im_hash (is_a ii)) (im_hash (is_b ii)) _ rows (proj1 HE) (proj1 (proj2 HE)) I) as K.
    pose proof (row_left _ _ I) as [I1 I2]. apply PL in I1. apply PR in I2.
    apply row_sides in I. destruct I as (_ & _ & EC). apply (same_unit_iff given o) in EC; [|exact M].
    destruct (all_rows_both _ _ _ _ _ _ _ EE K) as (d & F).
    destruct (UA t I1) as (p1 & EP1 & WP). destruct (UB y I2) as (q1 & EQ1 & WQ). apply filter_In in I1, I2. destruct I1 as [I1 _], I2 as [I2 _].
    rewrite EP1 in EP. apply some_eq in EP. subst p.
    destruct (unit_shown_old choose o pc qa qb fuel ii SA SB HT CU HE t y p1 q1 I1 I2 EP1 EQ1 (AL t y I1 I2 EC) (NC t I1) n x d F IX) as [J|J];
      [left; now apply WQ|right; exact (HB _ _ d K F J)].
Qed.

(** ** Lines of the second file *)
Definition shown_new (n : nat) (x : line) (d : ddoc) : Prop :=
  exists m, m <> Old /\ In (m, x) (fst (report n 0 d)) /\ snd (report n 0 d) = true.
Lemma shown_new_left n x a b : shown_new n x a -> shown_new n x (DSeq a b).
Proof. intros (m & M & I & F). exists m. cbn [report fst snd]. rewrite F. split; [exact M|]. split; [apply in_or_app; now left|reflexivity]. Qed.
Lemma shown_new_right n x a b : shown_new n x b -> shown_new n x (DSeq a b).
Proof. intros (m & M & I & F). exists m. cbn [report fst snd]. rewrite F. split; [exact M|]. split; [apply in_or_app; now right|apply orb_true_r]. Qed.
Lemma reads_shown_new e p q n x : reads e p q -> unignored e -> In x (lines n 0 q) -> In x (lines n 0 p) \/ shown_new n x e.
Proof.
  intros R UI I. destruct (snd (report n 0 e)) eqn:F.
  - right. destruct R as (O & N & U). destruct (sides_headings e U n 0) as [HO HN]. rewrite (O n 0) in HO. rewrite (N n 0) in HN.
    apply (headings_keep _ _ x HN) in I. unfold new_lines in I. apply in_map_iff in I. destruct I as ((m & y) & <- & I). apply filter_In in I.
    destruct I as [I M]. exists m. rewrite (report_lines e U). split; [destruct m; [discriminate..|discriminate M] || (destruct m; discriminate)|]. split; [exact I|exact F].
  - left. rewrite (unreported_lines e p q n 0 R UI F). exact I.
Qed.
Lemma rows_shown_new {T} (pa pb : T -> option pdoc) (df : T -> T -> option ddoc) rows n x : forall d,
  all_rows pa pb (fun a b => bind (df a b) (fun d => Some (DIfDiff d))) rows = Some d ->
  (forall a p, In (MRight a) rows -> pb a = Some p -> In x (lines n 0 p) -> shown_new n x d) /\
  (forall a b e, In (MBoth a b) rows -> df a b = Some e -> shown_new n x e -> shown_new n x d).
Proof.
  induction rows as [|r rows IH]; intros d E; cbn [all_rows] in E; [split; intros; contradiction|].
  apply bind_some in E. destruct E as (e & R & E). apply bind_some in E. destruct E as (k & K & E). apply some_eq in E. subst d.
  destruct (IH k K) as [HL HB]. split.
  - intros a p [->|I] F J; [|now apply shown_new_right, (HL a p)]. cbn [row_doc] in R. rewrite F in R. cbn [bind] in R. apply some_eq in R. subst e.
    apply shown_new_left. exists New. cbn [report fst snd]. split; [discriminate|]. split; [unfold with_mark; apply in_map_iff; now exists x|reflexivity].
  - intros a b d [->|I] F J; [|now apply shown_new_right, (HB a b d)]. cbn [row_doc] in R. rewrite F in R. cbn [bind] in R. apply some_eq in R. subst e.
    apply shown_new_left. destruct J as (m & M & J & G). exists m. cbn [report]. rewrite G. split; [exact M|]. split; [exact J|reflexivity].
Qed.

Section Units_shown_new.
  Variable choose : list N -> list N -> list (list N) -> nat -> nat.
  Variable o : options.
  Variables pc qa qb : param_cmp.
  Variable fuel : nat.
  Variable ii : images.
  Local Notation A := (is_a ii).
  Local Notation B := (is_b ii).
  Hypothesis SA : short_image A.
  Hypothesis SB : short_image B.
  Hypothesis HT : o_html o = false.
  Hypothesis CU : c_unit (o_category o) = false.
  Hypothesis HE : heeds_all o.
  Variables u v : unit.
  Variables pu pv : pdoc.
  Hypothesis IU : In u (im_units A).
  Hypothesis IV : In v (im_units B).
  Hypothesis EU : print_unit o qa fuel A u = Some pu.
  Hypothesis EV : print_unit o qb fuel B v = Some pv.
  Hypothesis AL : units_alike o ii u v.
  Hypothesis NC : no_closures v.
  Variable n : nat.
  Variable x : line.

  Lemma type_shown_new d t p : c_type (o_category o) = true -> diff_types choose o fuel ii u v = Some d ->
    In t (filter_types o (im_hash B) false v) -> print_type_in o fuel B v t = Some p -> In x (lines n 0 p) -> In x (lines n 0 pu) \/ shown_new n x d.
  Proof.
    intros CC E I ET IX. apply types_listed in I; [|exact NC]. unfold diff_types in E. rewrite CC in E.
    destruct (unit_printed o fuel HT CU qa A u pu EU) as [PA _]. destruct (unit_printed o fuel HT CU qb B v pv EV) as [PB _].
    unfold merged_types in E. set (rows := merge_all _ _ _) in E.
    assert (PL : forall x, In x (lefts rows) <-> In x (filter_types o (im_hash A) true u)).
    { intros z. unfold rows. rewrite merge_all_total, merge_lefts. split; apply Permutation_in; [|apply Permutation_sym]; apply stable_sort_perm. }
    assert (PR : forall x, In x (rights rows) <-> In x (filter_types o (im_hash B) true v)).
    { intros z. unfold rows. rewrite merge_all_total, merge_rights. split; apply Permutation_in; [|apply Permutation_sym]; apply stable_sort_perm. }
    destruct (rows_shown_new _ _ _ _ n x d E) as [HL HB]. apply PR in I. apply in_rights in I. destruct I as [I|(y & I)].
    - right. apply (HL t p); [apply diff_rows_keep; [apply HE|apply HE|exact I]|exact ET|exact IX].
    - pose proof (diff_rows_keep (type_cmp_by o) o (im_hash A) (im_hash B) _ rows (proj1 HE) (proj1 (proj2 HE)) I) as K.
      pose proof (row_left _ _ I) as [I1 I2]. apply PL in I1. apply PR in I2. apply row_sides in I. destruct I as (_ & _ & EC).
      assert (S : same_type y t).
      { pose proof I1 as LX. pose proof I2 as LY. apply filter_In in LX, LY. destruct LX as [_ LX], LY as [_ LY]. apply filter_type_iff in LX, LY.
        apply listed_listable in LX, LY. rewrite type_cmp_id_key in EC by assumption. now apply same_type_iff. }
      destruct (all_rows_both _ _ _ _ _ _ _ E K) as (e & F).
      destruct (PA CC y (listed_twice A o u y I1)) as (p1 & EP & WP). destruct (PB CC t (listed_twice B o v t I2)) as (q1 & EQ & WQ).
      apply filter_In in I1, I2. destruct I1 as [I1 _], I2 as [I2 _].
      destruct (type_reads choose o fuel (ss_sides (is_scenes ii)) (im_dir A u) (im_dir B v) y t e) as (p' & q' & EP' & EQ' & RE);
        [apply SA|apply SB|now apply (type_short_a ii SA u IU)|now apply (type_short_b ii SB v IV)|now apply AL|exact F|].
      unfold print_type_in in EP, EQ, ET. change (sd_a (ss_sides (is_scenes ii))) with (im_view A) in EP'. change (sd_b (ss_sides (is_scenes ii))) with (im_view B) in EQ'.
      rewrite EP in EP'. rewrite EQ in EQ'. apply some_eq in EP', EQ'. subst p' q'. rewrite EQ in ET. apply some_eq in ET. subst p.
      destruct (reads_shown_new e p1 q1 n x RE (type_unignored _ _ _ _ _ _ _ _ _ F) IX) as [J|J]; [left; now apply WP|right; exact (HB _ _ e K F J)].
  Qed.
  Lemma variable_shown_new d t p : c_variable (o_category o) = true -> diff_variables o ii u v = Some d ->
    In t (filter_variables o v) -> print_variable_in o B v t = Some p -> In x (lines n 0 p) -> In x (lines n 0 pu) \/ shown_new n x d.
  Proof.
    intros CC E I ET IX. unfold diff_variables in E. rewrite CC in E.
    destruct (unit_printed o fuel HT CU qa A u pu EU) as (_ & _ & PA). destruct (unit_printed o fuel HT CU qb B v pv EV) as (_ & _ & PB).
    unfold merged_variables in E. set (rows := merge_all _ _ _) in E.
    assert (PL : forall x, In x (lefts rows) <-> In x (filter_variables o u)).
    { intros z. unfold rows. rewrite merge_all_total, merge_lefts. split; apply Permutation_in; [|apply Permutation_sym]; apply stable_sort_perm. }
    assert (PR : forall x, In x (rights rows) <-> In x (filter_variables o v)).
    { intros z. unfold rows. rewrite merge_all_total, merge_rights. split; apply Permutation_in; [|apply Permutation_sym]; apply stable_sort_perm. }
    destruct (rows_shown_new _ _ _ _ n x d E) as [HL HB]. apply PR in I. apply in_rights in I. destruct I as [I|(y & I)].
    - right. apply (HL t p); [apply diff_rows_keep; [apply HE|apply HE|exact I]|exact ET|exact IX].
    - pose proof (diff_rows_keep (variable_cmp_by o) o (im_hash A) (im_hash B) _ rows (proj1 HE) (proj1 (proj2 HE)) I) as K.
      pose proof (row_left _ _ I) as [I1 I2]. apply PL in I1. apply PR in I2.
      destruct (PA CC y I1) as (p1 & EP & WP). destruct (PB CC t I2) as (q1 & EQ & WQ). rewrite EQ in ET. apply some_eq in ET. subst p.
      apply some_eq in EP, EQ. subst p1 q1.
      destruct (reads_shown_new _ _ _ n x (variable_reads o (is_scenes ii) (im_dir A u) (im_dir B v) y t) (variable_unignored o (is_scenes ii) _ _ y t (proj2 (proj2 (proj2 HE)))) IX) as [J|J];
        [left; now apply WP|right; exact (HB _ _ _ K eq_refl J)].
  Qed.
  Lemma function_shown_new d rows t p : c_function (o_category o) = true ->
    (forall r, In r rows -> In r (merge_all function_cmp_id
      (stable_sort (fun x y => function_cmp_for_sort pc (im_hash A) x (im_hash A) y) (filter_functions o u))
      (stable_sort (fun x y => function_cmp_for_sort pc (im_hash B) x (im_hash B) y) (filter_functions o v)))) ->
    diff_functions choose o pc fuel ii rows u v = Some d ->
    In t (rights rows) -> print_function_in o fuel B v t = Some p -> In x (lines n 0 p) -> In x (lines n 0 pu) \/ shown_new n x d.
  Proof.
    intros CC HR E I ET IX. unfold diff_functions in E.
    destruct (unit_printed o fuel HT CU qa A u pu EU) as (_ & PA & _). destruct (unit_printed o fuel HT CU qb B v pv EV) as (_ & PB & _).
    destruct (rows_shown_new _ _ _ _ n x d E) as [HL HB]. apply in_rights in I. destruct I as [I|(y & I)].
    - right. apply (HL t p); [apply diff_rows_keep; [apply HE|apply HE|exact I]|exact ET|exact IX].
    - pose proof (diff_rows_keep (function_cmp_by o pc) o (im_hash A) (im_hash B) _ rows (proj1 HE) (proj1 (proj2 HE)) I) as K.
      apply HR, row_sides in I. destruct I as (I1 & I2 & EC). apply same_function_iff in EC. apply sorted_in in I1, I2.
      destruct (PA CC y I1) as (p1 & EP & WP). destruct (PB CC t I2) as (q1 & EQ & WQ). rewrite EQ in ET. apply some_eq in ET. subst p.
      apply filter_In in I1, I2. destruct I1 as [I1 _], I2 as [I2 _]. destruct AL as (_ & A2 & A3 & A4).
      destruct (function_fine choose o (is_scenes ii) (im_dir A u) (im_dir B v) True (im_unit_id A u) fuel y t p1 q1
                  (function_short_a ii SA u IU y I1) (function_short_b ii SB v IV t I2) (fun _ => A3 y I1) (fun _ => A4 t I2)
                  (fun _ => A2 y t I1 I2 EC) EP EQ) as (e & p' & q' & F & P1 & P2 & R & _ & UI).
      destruct (reads_shown_new e p' q' n x) as [J|J]; [apply R; now left|apply UI; apply HE|exact (function_kept o _ _ fuel t q1 q' EQ P2 n 0 x IX)| |].
      + left. apply WP. exact (function_within o _ _ fuel y p1 p' EP P1 n 0 x J).
      + right. exact (HB _ _ e K F J).
  Qed.
  Lemma unit_shown_new d : diff_unit choose o pc fuel ii u v = Some d -> In x (lines n 0 pv) -> In x (lines n 0 pu) \/ shown_new n x d.
  Proof.
    unfold diff_unit, diff_unit_body. rewrite HT, CU. intros E IX. apply bind_some in E. destruct E as (b & EB & E). apply some_eq in E. subst b.
    apply bind_some in EB. destruct EB as (fs & _ & EB). apply bind_some in EB. destruct EB as (ts & ET & EB).
    apply bind_some in EB. destruct EB as (gs & EG & EB). apply bind_some in EB. destruct EB as (vs & EVS & EB). apply some_eq in EB. subst d.
    pose proof EV as EP. unfold print_unit, print_unit_body in EP. rewrite HT, CU in EP. apply bind_some in EP. destruct EP as (b & EB & EP). apply some_eq in EP. subst b.
    apply bind_some in EB. destruct EB as (fs' & _ & EB). apply bind_some in EB. destruct EB as (ts' & ET' & EB).
    apply bind_some in EB. destruct EB as (vs' & EV' & EB). apply bind_some in EB. destruct EB as (gs' & EG' & EB). apply some_eq in EB. rewrite <- EB in IX.
    unfold pseq in IX. cbn [fold_right lines app] in IX. rewrite app_nil_r in IX. unfold dseq. cbn [fold_right].
    apply in_app_or in IX. destruct IX as [IX|IX]; [|apply in_app_or in IX; destruct IX as [IX|IX]].
    - unfold print_types, printed_types in ET'. apply (printed_origin _ _ n 0 x _ ET') in IX. destruct IX as (t & p & IT & EP & IX).
      destruct (c_type (o_category o)) eqn:CC; [|destruct IT]. apply sorted_in in IT.
      destruct (type_shown_new ts t p CC ET IT EP IX) as [J|J]; [now left|right]. now apply shown_new_right, shown_new_left.
    - unfold print_functions, printed_functions in EG'. apply (printed_origin _ _ n 0 x _ EG') in IX. destruct IX as (t & p & IT & EP & IX).
      destruct (c_function (o_category o)) eqn:CC; [|destruct IT]. apply sorted_in in IT.
      apply bind_some in EG. destruct EG as (d1 & EX & EG). apply bind_some in EG. destruct EG as (d2 & EY & EG). apply some_eq in EG. subst gs.
      cbn [merged_functions fst snd] in EX, EY. set (rows := merge_all _ _ _) in EX, EY.
      assert (PL : In t (rights rows)).
      { unfold rows. rewrite merge_all_total, merge_rights. eapply Permutation_in; [apply Permutation_sym, stable_sort_perm|exact IT]. }
      assert (PD : In t (rights (filter (fun r => negb (row_inlined r)) rows)) \/ In t (rights (filter row_inlined rows))).
      { apply in_flat_map in PL. destruct PL as (r & IR & J). destruct (row_inlined r) eqn:RI; [right|left]; apply in_flat_map; exists r; (split; [|exact J]);
          apply filter_In; now rewrite ?RI. }
      destruct PD as [PD|PD].
      + destruct (function_shown_new d1 _ t p CC (fun r I => proj1 (proj1 (filter_In _ _ _) I)) EX PD EP IX) as [J|J]; [now left|right].
        now apply shown_new_right, shown_new_right, shown_new_left, shown_new_left.
      + destruct (function_shown_new d2 _ t p CC (fun r I => proj1 (proj1 (filter_In _ _ _) I)) EY PD EP IX) as [J|J]; [now left|right].
        now apply shown_new_right, shown_new_right, shown_new_left, shown_new_right.
    - unfold print_variables, printed_variables in EV'. apply (printed_origin _ _ n 0 x _ EV') in IX. destruct IX as (t & p & IT & EP & IX).
      destruct (c_variable (o_category o)) eqn:CC; [|destruct IT]. apply sorted_in in IT.
      destruct (variable_shown_new vs t p CC EVS IT EP IX) as [J|J]; [now left|right]. now apply shown_new_right, shown_new_right, shown_new_right, shown_new_left.
  Qed.
End Units_shown_new.

Lemma file_shown_new choose o pc qa qb fuel ii c given pa pb n d x :
  short_image (is_a ii) -> short_image (is_b ii) -> o_html o = false -> c_file (o_category o) = false -> c_unit (o_category o) = false ->
  heeds_all o -> configured c o given -> Forall no_closures (im_units (is_b ii)) ->
  (forall u v, In u (im_units (is_a ii)) -> In v (im_units (is_b ii)) -> same_unit given u v -> units_alike o ii u v) ->
  print_file o qa fuel (is_a ii) = Some pa -> print_file o qb fuel (is_b ii) = Some pb -> diff_file choose o pc fuel ii = Some d ->
  In x (lines n 0 pb) -> In x (lines n 0 pa) \/ exists m, m <> Old /\ In (m, x) (fst (report n 0 d)).
Proof.
  intros SA SB HT CF CU HE CO NC AL EA EB E IX. unfold print_file in EA, EB. unfold diff_file in E. rewrite CF in EA, EB, E. cbn [bind] in EA, EB, E.
  apply bind_some in EA. destruct EA as (ua & EUA & EA). apply bind_some in EB. destruct EB as (ub & EUB & EB).
  apply bind_some in E. destruct E as (e & EE & E). apply some_eq in EA, EB, E. subst pa pb d. cbn [report fst lines app] in IX |- *.
  enough (X : In x (lines n 0 ua) \/ shown_new n x e) by (destruct X as [X|(m & M & J & _)]; [now left|right; exists m; now split]).
  pose proof (configured_maps c o given CO) as M. rewrite Forall_forall in NC.
  unfold merged_units in EE. set (rows := merge_all _ _ _) in EE.
  assert (PL : forall x, In x (lefts rows) <-> In x (filter_units o (im_units (is_a ii)))).
  { intros z. unfold rows. rewrite merge_all_total, merge_lefts. split; apply Permutation_in; [|apply Permutation_sym]; apply stable_sort_perm. }
  assert (PR : forall x, In x (rights rows) <-> In x (filter_units o (im_units (is_b ii)))).
  { intros z. unfold rows. rewrite merge_all_total, merge_rights. split; apply Permutation_in; [|apply Permutation_sym]; apply stable_sort_perm. }
  assert (UA : forall u, In u (filter_units o (im_units (is_a ii))) -> exists p, print_unit o qa fuel (is_a ii) u = Some p /\ within p ua).
  { intros u I. apply (printed_one _ _ _ u EUA). unfold printed_units. now apply print_list_perm. }
  assert (UB : forall u, In u (filter_units o (im_units (is_b ii))) -> exists p, print_unit o qb fuel (is_b ii) u = Some p /\ within p ub).
  { intros u I. apply (printed_one _ _ _ u EUB). unfold printed_units. now apply print_list_perm. }
  apply (printed_origin _ _ n 0 x _ EUB) in IX. destruct IX as (t & p & IT & EP & IX). unfold printed_units in IT. apply sorted_in in IT.
  destruct (rows_shown_new _ _ _ _ n x e EE) as [HL HB]. pose proof IT as I. apply PR in I. apply in_rights in I. destruct I as [I|(y & I)].
  - right. pose proof (diff_rows_keep (unit_cmp_by o) o (im_hash (is_a ii)) (im_hash (is_b ii)) _ rows (proj1 HE) (proj1 (proj2 HE)) I) as K.
    destruct (all_rows_rights _ _ _ _ _ _ EE K) as (p' & EP'). apply (HL t p' K EP'). exact (unit_within o fuel HT CU qb pc _ t p p' EP EP' n 0 x IX).
  - pose proof (diff_rows_keep (unit_cmp_by o) o (im_hash (is_a ii)) (im_hash (is_b ii)) _ rows (proj1 HE) (proj1 (proj2 HE)) I) as K.
    pose proof (row_left _ _ I) as [I1 I2]. apply PL in I1. apply PR in I2.
    apply row_sides in I. destruct I as (_ & _ & EC). apply (same_unit_iff given o) in EC; [|exact M].
    destruct (all_rows_both _ _ _ _ _ _ _ EE K) as (d & F).
    destruct (UA y I1) as (p1 & EP1 & WP). destruct (UB t I2) as (q1 & EQ1 & WQ). apply filter_In in I1, I2. destruct I1 as [I1 _], I2 as [I2 _].
    rewrite EQ1 in EP. apply some_eq in EP. subst p.
    destruct (unit_shown_new choose o pc qa qb fuel ii SA SB HT CU HE y t p1 q1 I1 I2 EP1 EQ1 (AL y t I1 I2 EC) (NC t I2) n x d F IX) as [J|J];
      [left; now apply WP|right; exact (HB _ _ d K F J)].
Qed.
