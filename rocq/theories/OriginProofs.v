(** Proofs that every line of a comparison is a line of one of the files. *)
From Coq Require Import List Arith NArith ZArith Bool String Ascii Lia Permutation.
From Verif Require Import CfiModel DieModel Base BaseProofs RangeModel NamespaceModel TypeModel TypeSpec LayoutModel FileModel
  DiffModel DiffSpec MergeProofs OptionsModel OptionsProofs FilterModel FilterSpec FilterProofs IdModel IdProofs PrintModel
  PrintSpec RefModel PrintProofs NameModel LocationModel CodeModel ItemModel ItemSpec ItemProofs ItemShown EntryModel
  EntrySpec EntryProofs EntryShown ReportModel ReportSpec ReportProofs PropertiesFilter ReportShown OriginSpec TitleProofs.
Import ListNotations.
Local Open Scope list_scope.

(** ** Documents *)
Lemma report_lines d : unhidden d -> forall n i, fst (report n i d) = diff_lines n i d.
Proof.
  induction d as [|a IHa b IHb|label a b|label| |c h IHh b IHb|c l b IHb|i0 h IHh b IHb|d IH|d|d|a b|d IH|fl d IH];
    cbn [unhidden report diff_lines]; intros U n i; try reflexivity.
  - destruct U as [UA UB]. cbn [fst]. now rewrite IHa, IHb.
  - destruct U as [UA UB]. cbn [fst]. now rewrite IHh, IHb.
  - rewrite <- (IHb U). destruct (report n (S i) b) as [[|x ls] f]; reflexivity.
  - destruct U as [UA UB]. cbn [fst]. now rewrite IHh, IHb.
  - destruct n; [reflexivity|]. now apply IH.
  - destruct U.
  - cbn [fst]. now apply IH.
Qed.
Lemma reads_from e p q la lb n i :
  reads e p q -> titled e -> incl (lines n i p) la -> incl (lines n i q) lb -> Forall (from_files la lb) (fst (report n i e)).
Proof.
  intros (O & N & U) T LA LB. rewrite (report_lines e U). pose proof (titled_sides e U T n i) as H. rewrite (O n i), (N n i) in H.
  apply Forall_forall. intros [m x] I. destruct (H x) as [HO HN]. split; cbn [fst snd]; intros M.
  - destruct HO as [K|K]; [|left; now apply LA|now right].
    unfold old_lines. apply in_map_iff. exists (m, x). split; [reflexivity|]. apply filter_In. split; [exact I|now destruct m].
  - destruct HN as [K|K]; [|left; now apply LB|now right].
    unfold new_lines. apply in_map_iff. exists (m, x). split; [reflexivity|]. apply filter_In. split; [exact I|now destruct m].
Qed.

(** ** The same lines in another order *)
Definition within (p q : pdoc) : Prop := forall n i, incl (lines n i p) (lines n i q).
Lemma within_refl p : within p p.
Proof. intros n i. apply incl_refl. Qed.
Lemma within_seq a b a' b' : within a a' -> within b b' -> within (PSeq a b) (PSeq a' b').
Proof. intros A B n i. cbn [lines]. apply incl_app; [apply incl_appl, A|apply incl_appr, B]. Qed.
Lemma within_tree c h b b' : within b b' -> within (PTree c h b) (PTree c h b').
Proof. intros B n i. cbn [lines]. apply incl_app; [apply incl_appl, incl_refl|apply incl_appr, B]. Qed.
Lemma within_id k h b b' : within b b' -> within (PId k h b) (PId k h b').
Proof. intros B n i. cbn [lines]. apply incl_app; [apply incl_appl, incl_refl|apply incl_appr, B]. Qed.
Lemma within_section c l b b' : within b b' -> within (PSection c l b) (PSection c l b').
Proof.
  intros B n i. cbn [lines]. pose proof (B n (S i)) as W. destruct (lines n (S i) b) as [|x ls]; [intros y []|].
  destruct (lines n (S i) b') as [|y ls']; [exfalso; apply (W x); now left|]. intros z [<-|Z]; [now left|right; now apply W].
Qed.
Lemma within_inline b b' : within b b' -> within (PInline b) (PInline b').
Proof. intros B [|n] i; cbn [lines]; [apply incl_refl|apply B]. Qed.
Lemma within_trans a b c : within a b -> within b c -> within a c.
Proof. intros A B n i. eapply incl_tran; [apply A|apply B]. Qed.
(** A list may be printed with other elements, each of which has the same lines as one of it. *)
Lemma printed_one {T} (f : T -> option pdoc) l : forall d x, all_printed f l = Some d -> In x l -> exists e, f x = Some e /\ within e d.
Proof.
  induction l as [|y l IH]; intros d x E I; [destruct I|]. cbn [all_printed] in E. destruct (f y) as [e|] eqn:F; [|discriminate]. cbn [bind] in E.
  destruct (all_printed f l) as [k|]; [|discriminate]. cbn [bind] in E. apply some_eq in E. subst d. destruct I as [<-|I].
  - exists e. split; [exact F|]. intros n i. cbn [lines]. apply incl_appl, incl_refl.
  - destruct (IH k x eq_refl I) as (e' & E' & W). exists e'. split; [exact E'|]. intros n i. cbn [lines]. apply incl_appr, W.
Qed.
Lemma printed_within {T} (f g : T -> option pdoc) l' l d d' : all_printed f l' = Some d' -> all_printed g l = Some d ->
  (forall x e, In x l' -> f x = Some e -> exists y e', In y l /\ g y = Some e' /\ within e e') -> within d' d.
Proof.
  intros E' E H. revert d' E'. induction l' as [|x l' IH]; intros d' E'; cbn [all_printed] in E'.
  - apply some_eq in E'. subst d'. intros n i y [].
  - destruct (f x) as [e|] eqn:F; [|discriminate]. cbn [bind] in E'. destruct (all_printed f l') as [k|]; [|discriminate]. cbn [bind] in E'.
    apply some_eq in E'. subst d'. destruct (H x e (or_introl eq_refl) F) as (y & e' & Y & G & W).
    destruct (printed_one g l d y E Y) as (e2 & G2 & W2). rewrite G in G2. apply some_eq in G2. subst e2.
    intros n i. cbn [lines]. apply incl_app; [eapply incl_tran; [apply W|apply W2]|]. apply IH; [intros z ez Z; apply H; now right|reflexivity].
Qed.
Lemma section_within l (a b : option pdoc) p q : section_of l a = Some p -> section_of l b = Some q ->
  (forall x y, a = Some x -> b = Some y -> within x y) -> within p q.
Proof.
  unfold section_of. destruct a as [x|]; [|discriminate]. destruct b as [y|]; [|discriminate]. cbn [bind]. intros E F H. apply some_eq in E, F. subst p q.
  apply within_section. now apply H.
Qed.
Lemma collapsed_within l (a b : option pdoc) p q : collapsed_of l a = Some p -> collapsed_of l b = Some q ->
  (forall x y, a = Some x -> b = Some y -> within x y) -> within p q.
Proof.
  unfold collapsed_of. destruct a as [x|]; [|discriminate]. destruct b as [y|]; [|discriminate]. cbn [bind]. intros E F H. apply some_eq in E, F. subst p q.
  apply within_section. now apply H.
Qed.

Section Order.
  Variables (o : options) (sc : scene) (dir : option string).
  Lemma variables_within vs vs' p q : Permutation vs vs' ->
    (if p_function_variables (o_print o) then collapsed_of "variables" (all_printed (print_slot o sc) vs') else Some PNil) = Some p ->
    (if p_function_variables (o_print o) then collapsed_of "variables" (all_printed (print_slot o sc) vs) else Some PNil) = Some q -> within p q.
  Proof.
    intros P E F. destruct (p_function_variables (o_print o)); [|apply some_eq in E, F; subst p q; apply within_refl].
    eapply collapsed_within; [exact E|exact F|]. intros x y X Y. eapply printed_within; [exact X|exact Y|].
    intros z e Z G. exists z, e. split; [now apply (Permutation_in _ (Permutation_sym P))|]. split; [exact G|apply within_refl].
  Qed.
  Lemma forall2_other {T} (R : T -> T -> Prop) l l' y : Forall2 R l l' -> In y l' -> exists x, In x l /\ R x y.
  Proof.
    induction 1 as [|a b l l' AB _ IH]; intros I; [destruct I|]. destruct I as [<-|I]; [exists a; split; [now left|exact AB]|].
    destruct (IH I) as (x & X & XR). exists x. split; [now right|exact XR].
  Qed.
  Lemma inlined_within n : forall x x' p p', rearranged x x' -> print_inlined o n sc dir x = Some p -> print_inlined o n sc dir x' = Some p' -> within p' p.
  Proof.
    induction n as [|n IH]; intros x x' p p' R E E'; [discriminate|]. rewrite print_inlined_S in E, E'.
    destruct R as [origin size src ps vs vs' inner inner' cs P F]. cbn [il_parameters il_variables il_calls il_inlined il_source] in E, E'.
    apply bind_some in E, E'. destruct E as (d1 & E1 & E), E' as (d1' & E1' & E'). rewrite E1 in E1'. apply some_eq in E1'. subst d1'.
    apply bind_some in E, E'. destruct E as (d2 & E2 & E), E' as (d2' & E2' & E').
    apply bind_some in E, E'. destruct E as (d3 & E3 & E), E' as (d3' & E3' & E'). rewrite E3 in E3'. apply some_eq in E3'. subst d3'.
    apply bind_some in E, E'. destruct E as (d4 & E4 & E), E' as (d4' & E4' & E').
    apply some_eq in E, E'. subst p p'. apply within_tree. unfold pseq. cbn [fold_right].
    repeat apply within_seq; try apply within_refl.
    - exact (variables_within vs vs' d2' d2 P E2' E2).
    - apply within_inline. eapply printed_within; [exact E4'|exact E4|]. intros z e Z G.
      destruct (forall2_other _ _ _ z F Z) as (y & Y & YZ). destruct (printed_one _ _ _ y E4 Y) as (e' & G' & _).
      exists y, e'. split; [exact Y|]. split; [exact G'|]. exact (IH y z e' e YZ G' G).
  Qed.
  Lemma function_within fuel f p p' : print_function o fuel sc dir f = Some p -> printed_up_to_order o fuel sc dir f p' -> within p' p.
  Proof.
    intros E (vars & inner & P & F & E'). unfold print_function, print_function_listed in E, E'.
    apply bind_some in E, E'. destruct E as (b & EB & E), E' as (b' & EB' & E'). apply some_eq in E, E'. subst p p'.
    apply within_seq; [|apply within_refl]. apply within_id. unfold print_function_body in EB, EB'. cbv zeta in EB, EB'.
    apply bind_some in EB, EB'. destruct EB as (d1 & E1 & E), EB' as (d1' & E1' & E'). rewrite E1 in E1'. apply some_eq in E1'. subst d1'.
    apply bind_some in E, E'. destruct E as (d2 & E2 & E), E' as (d2' & E2' & E'). rewrite E2 in E2'. apply some_eq in E2'. subst d2'.
    apply bind_some in E, E'. destruct E as (d3 & E3 & E), E' as (d3' & E3' & E').
    apply bind_some in E, E'. destruct E as (d4 & E4 & E), E' as (d4' & E4' & E'). rewrite E4 in E4'. apply some_eq in E4'. subst d4'.
    apply bind_some in E, E'. destruct E as (d5 & E5 & E), E' as (d5' & E5' & E').
    apply bind_some in E, E'. destruct E as (d6 & E6 & E), E' as (d6' & E6' & E'). rewrite E6 in E6'. apply some_eq in E6'. subst d6'.
    apply bind_some in E, E'. destruct E as (d7 & E7 & E), E' as (d7' & E7' & E'). rewrite E7 in E7'. apply some_eq in E7'. subst d7'.
    apply some_eq in E, E'. subst b b'. unfold pseq. cbn [fold_right]. repeat apply within_seq; try apply within_refl.
    - exact (variables_within _ vars d3' d3 P E3' E3).
    - apply within_inline. eapply collapsed_within; [exact E5'|exact E5|]. intros x y X Y. eapply printed_within; [exact X|exact Y|]. intros z e Z G.
      destruct (forall2_other _ _ _ z F Z) as (w & W & WZ). destruct (printed_one _ _ _ w Y W) as (e' & G' & _).
      exists w, e'. split; [exact W|]. split; [exact G'|]. exact (inlined_within fuel w z e' e WZ G' G).
  Qed.
End Order.

(** ** Rows *)
Lemma rows_from {T} (pa pb : T -> option pdoc) (df : T -> T -> option ddoc) rows la lb n : forall d,
  (forall a p, In (MLeft a) rows -> pa a = Some p -> incl (lines n 0 p) la) ->
  (forall b p, In (MRight b) rows -> pb b = Some p -> incl (lines n 0 p) lb) ->
  (forall a b e, In (MBoth a b) rows -> df a b = Some e -> Forall (from_files la lb) (fst (report n 0 e))) ->
  all_rows pa pb (fun a b => bind (df a b) (fun d => Some (DIfDiff d))) rows = Some d -> Forall (from_files la lb) (fst (report n 0 d)).
Proof.
  induction rows as [|r rows IH]; intros d HA HB HD E; cbn [all_rows] in E; [apply some_eq in E; subst d; constructor|].
  apply bind_some in E. destruct E as (e & R & E). apply bind_some in E. destruct E as (k & K & E). apply some_eq in E. subst d. cbn [report fst].
  apply Forall_app. split; [|apply IH; [intros a p I; apply HA; now right|intros b p I; apply HB; now right|intros a b x I; apply HD; now right|exact K]].
  destruct r as [a|b|a b]; cbn [row_doc] in R; apply bind_some in R; destruct R as (p & P & R); apply some_eq in R; subst e; cbn [report fst].
  - apply Forall_forall. intros [m x] I. unfold with_mark in I. apply in_map_iff in I. destruct I as (y & Y & I). injection Y as <- <-.
    split; cbn [fst snd]; intros M; [left; now apply (HA a p (or_introl eq_refl) P)|contradiction].
  - apply Forall_forall. intros [m x] I. unfold with_mark in I. apply in_map_iff in I. destruct I as (y & Y & I). injection Y as <- <-.
    split; cbn [fst snd]; intros M; [contradiction|left; now apply (HB b p (or_introl eq_refl) P)].
  - destruct (snd (report n 0 p)); [|constructor]. cbn [fst]. exact (HD a b p (or_introl eq_refl) P).
Qed.

(** ** Units *)
Section Units.
  Variable choose : list N -> list N -> list (list N) -> nat -> nat.
  Variable o : options.
  Variables pc qa qb : param_cmp.
  Variable fuel : nat.
  Variable ii : images.
  Local Notation A := (is_a ii).
  Local Notation B := (is_b ii).
  Hypothesis SA : short_image A.
  Hypothesis SB : short_image B.
  Hypothesis HT : o_html o = false.
  Hypothesis CU : c_unit (o_category o) = false.

  (** What is printed for a unit: the items in some order. *)
  Lemma unit_printed q im u p : print_unit o q fuel im u = Some p ->
    (c_type (o_category o) = true -> forall t, In t (filter_types o (im_hash im) false u) ->
       exists e, print_type_in o fuel im u t = Some e /\ within e p) /\
    (c_function (o_category o) = true -> forall f, In f (filter_functions o u) ->
       exists e, print_function_in o fuel im u f = Some e /\ within e p) /\
    (c_variable (o_category o) = true -> forall v, In v (filter_variables o u) ->
       exists e, print_variable_in o im u v = Some e /\ within e p).
  Proof.
    intros E. unfold print_unit, print_unit_body in E. rewrite HT, CU in E. apply bind_some in E. destruct E as (b & EB & E). apply some_eq in E. subst p.
    apply bind_some in EB. destruct EB as (fs & _ & EB). apply bind_some in EB. destruct EB as (ts & ET & EB).
    apply bind_some in EB. destruct EB as (vs & EV & EB). apply bind_some in EB. destruct EB as (gs & EG & EB). apply some_eq in EB. subst b.
    unfold print_types, printed_types in ET. unfold print_functions, printed_functions in EG. unfold print_variables, printed_variables in EV.
    split; [|split]; intros CC x I.
    - rewrite CC in ET. destruct (printed_one _ _ _ x ET (print_list_perm _ _ _ _ I)) as (e & P & W). exists e. split; [exact P|].
      intros n i. unfold pseq. cbn [fold_right lines app]. apply incl_appl, W.
    - rewrite CC in EG. destruct (printed_one _ _ _ x EG (print_list_perm _ _ _ _ I)) as (e & P & W). exists e. split; [exact P|].
      intros n i. unfold pseq. cbn [fold_right lines app]. apply incl_appr, incl_appl, W.
    - rewrite CC in EV. destruct (printed_one _ _ _ x EV (print_list_perm _ _ _ _ I)) as (e & P & W). exists e. split; [exact P|].
      intros n i. unfold pseq. cbn [fold_right lines app]. apply incl_appr, incl_appr, incl_appl, W.
  Qed.
  Lemma unit_within q q' im u p p' : print_unit o q fuel im u = Some p -> print_unit o q' fuel im u = Some p' -> within p p'.
  Proof.
    intros E E'. apply unit_printed in E'. destruct E' as (HTY & HF & HV).
    unfold print_unit, print_unit_body in E. rewrite HT, CU in E. apply bind_some in E. destruct E as (b & EB & E). apply some_eq in E. subst p.
    apply bind_some in EB. destruct EB as (fs & _ & EB). apply bind_some in EB. destruct EB as (ts & ET & EB).
    apply bind_some in EB. destruct EB as (vs & EV & EB). apply bind_some in EB. destruct EB as (gs & EG & EB). apply some_eq in EB. subst b.
    unfold print_types, printed_types in ET. unfold print_functions, printed_functions in EG. unfold print_variables, printed_variables in EV.
    assert (X : forall T (f : T -> option pdoc) l d, all_printed f l = Some d -> (forall x, In x l -> exists e, f x = Some e /\ within e p') -> within d p').
    { intros T f l. induction l as [|x l IH]; intros d E H; cbn [all_printed] in E; [apply some_eq in E; subst d; intros n i y []|].
      apply bind_some in E. destruct E as (e & F & E). apply bind_some in E. destruct E as (k & K & E). apply some_eq in E. subst d.
      destruct (H x (or_introl eq_refl)) as (e' & F' & W). rewrite F in F'. apply some_eq in F'. subst e'.
      intros n i. cbn [lines]. apply incl_app; [apply W|]. apply IH; [exact K|intros y Y; apply H; now right]. }
    intros n i. unfold pseq. cbn [fold_right lines app]. rewrite app_nil_r. repeat apply incl_app.
    - apply (X _ _ _ _ ET). intros x I. destruct (c_type (o_category o)); [|destruct I]. apply HTY; [reflexivity|]. exact (sorted_in _ _ _ I).
    - apply (X _ _ _ _ EG). intros x I. destruct (c_function (o_category o)); [|destruct I]. apply HF; [reflexivity|]. exact (sorted_in _ _ _ I).
    - apply (X _ _ _ _ EV). intros x I. destruct (c_variable (o_category o)); [|destruct I]. apply HV; [reflexivity|]. exact (sorted_in _ _ _ I).
  Qed.

  Variables u v : unit.
  Variables pu pv : pdoc.
  Hypothesis IU : In u (im_units A).
  Hypothesis IV : In v (im_units B).
  Hypothesis EU : print_unit o qa fuel A u = Some pu.
  Hypothesis EV : print_unit o qb fuel B v = Some pv.
  Hypothesis AL : units_alike o ii u v.

  Lemma types_from n d : diff_types choose o fuel ii u v = Some d -> Forall (from_files (lines n 0 pu) (lines n 0 pv)) (fst (report n 0 d)).
  Proof.
    unfold diff_types. destruct (c_type (o_category o)) eqn:CC; intros E; [|apply some_eq in E; subst d; constructor].
    destruct (unit_printed qa A u pu EU) as [PA _]. destruct (unit_printed qb B v pv EV) as [PB _].
    unfold merged_types in E.
    set (rows := merge_all _ _ _) in E.
    assert (PL : forall x, In x (lefts rows) -> In x (filter_types o (im_hash A) true u)).
    { intros x I. unfold rows in I. rewrite merge_all_total, merge_lefts in I. now apply sorted_in in I. }
    assert (PR : forall x, In x (rights rows) -> In x (filter_types o (im_hash B) true v)).
    { intros x I. unfold rows in I. rewrite merge_all_total, merge_rights in I. now apply sorted_in in I. }
    revert E. apply rows_from.
    - intros a p I F. apply diff_rows_in, row_left, PL, listed_twice in I. destruct (PA CC a I) as (e & F' & W). rewrite F in F'. apply some_eq in F'. subst e. apply W.
    - intros a p I F. apply diff_rows_in, row_left, PR, listed_twice in I. destruct (PB CC a I) as (e & F' & W). rewrite F in F'. apply some_eq in F'. subst e. apply W.
    - intros x y e I F. apply diff_rows_in in I. pose proof (row_left _ _ I) as [IX IY]. apply PL in IX. apply PR in IY.
      apply row_sides in I. destruct I as (_ & _ & E).
      assert (S : same_type x y).
      { pose proof IX as LX. pose proof IY as LY. apply filter_In in LX, LY. destruct LX as [_ LX], LY as [_ LY]. apply filter_type_iff in LX, LY.
        apply listed_listable in LX, LY. rewrite type_cmp_id_key in E by assumption. now apply same_type_iff. }
      destruct (PA CC x (listed_twice A o u x IX)) as (p & EP & WP). destruct (PB CC y (listed_twice B o v y IY)) as (q & EQ & WQ).
      apply filter_In in IX, IY. destruct IX as [IX _], IY as [IY _].
      destruct (type_reads choose o fuel (ss_sides (is_scenes ii)) (im_dir A u) (im_dir B v) x y e) as (p' & q' & EP' & EQ' & RE);
        [apply SA|apply SB|now apply (type_short_a ii SA u IU)|now apply (type_short_b ii SB v IV)|now apply AL|exact F|].
      unfold print_type_in in EP, EQ. change (sd_a (ss_sides (is_scenes ii))) with (im_view A) in EP'. change (sd_b (ss_sides (is_scenes ii))) with (im_view B) in EQ'.
      rewrite EP in EP'. rewrite EQ in EQ'. apply some_eq in EP', EQ'. subst p' q'.
      exact (reads_from e p q _ _ n 0 RE (type_titled _ _ _ _ _ _ _ _ _ F) (WP n 0) (WQ n 0)).
  Qed.
  Lemma variables_from n d : diff_variables o ii u v = Some d -> Forall (from_files (lines n 0 pu) (lines n 0 pv)) (fst (report n 0 d)).
  Proof.
    unfold diff_variables. destruct (c_variable (o_category o)) eqn:CC; intros E; [|apply some_eq in E; subst d; constructor].
    destruct (unit_printed qa A u pu EU) as (_ & _ & PA). destruct (unit_printed qb B v pv EV) as (_ & _ & PB).
    unfold merged_variables in E.
    set (rows := merge_all _ _ _) in E.
    assert (PL : forall x, In x (lefts rows) -> In x (filter_variables o u)).
    { intros x I. unfold rows in I. rewrite merge_all_total, merge_lefts in I. now apply sorted_in in I. }
    assert (PR : forall x, In x (rights rows) -> In x (filter_variables o v)).
    { intros x I. unfold rows in I. rewrite merge_all_total, merge_rights in I. now apply sorted_in in I. }
    revert E. apply rows_from.
    - intros a p I F. apply diff_rows_in, row_left, PL in I. destruct (PA CC a I) as (e & F' & W). rewrite F in F'. apply some_eq in F'. subst e. apply W.
    - intros a p I F. apply diff_rows_in, row_left, PR in I. destruct (PB CC a I) as (e & F' & W). rewrite F in F'. apply some_eq in F'. subst e. apply W.
    - intros x y e I F. apply diff_rows_in, row_left in I. destruct I as [IX IY]. apply PL in IX. apply PR in IY.
      destruct (PA CC x IX) as (p & EP & WP). destruct (PB CC y IY) as (q & EQ & WQ). apply some_eq in F, EP, EQ. subst e p q.
      exact (reads_from _ _ _ _ _ n 0 (variable_reads o (is_scenes ii) _ _ x y) (variable_titled o (is_scenes ii) _ _ x y) (WP n 0) (WQ n 0)).
  Qed.
  Lemma functions_from n d rows :
    (forall r, In r rows -> In r (merge_all function_cmp_id
      (stable_sort (fun x y => function_cmp_for_sort pc (im_hash A) x (im_hash A) y) (filter_functions o u))
      (stable_sort (fun x y => function_cmp_for_sort pc (im_hash B) x (im_hash B) y) (filter_functions o v)))) ->
    c_function (o_category o) = true ->
    diff_functions choose o pc fuel ii rows u v = Some d -> Forall (from_files (lines n 0 pu) (lines n 0 pv)) (fst (report n 0 d)).
  Proof.
    intros HR CC. unfold diff_functions.
    destruct (unit_printed qa A u pu EU) as (_ & PA & _). destruct (unit_printed qb B v pv EV) as (_ & PB & _).
    assert (SL : forall x, In x (lefts rows) -> In x (filter_functions o u)).
    { intros x I. apply in_lefts in I. destruct I as [I|(y & I)]; apply HR, row_sides in I; [|destruct I as [I _]]; now apply sorted_in in I. }
    assert (SR : forall x, In x (rights rows) -> In x (filter_functions o v)).
    { intros x I. apply in_rights in I. destruct I as [I|(y & I)]; apply HR, row_sides in I; [|destruct I as (_ & I & _)]; now apply sorted_in in I. }
    apply rows_from.
    - intros a p I F. apply diff_rows_in, row_left, SL in I. destruct (PA CC a I) as (e & F' & W). rewrite F in F'. apply some_eq in F'. subst e. apply W.
    - intros a p I F. apply diff_rows_in, row_left, SR in I. destruct (PB CC a I) as (e & F' & W). rewrite F in F'. apply some_eq in F'. subst e. apply W.
    - intros x y e I F. apply diff_rows_in in I. pose proof (row_left _ _ I) as [IX IY]. apply SL in IX. apply SR in IY.
      apply HR, row_sides in I. destruct I as (_ & _ & E). apply same_function_iff in E.
      destruct (PA CC x IX) as (p & EP & WP). destruct (PB CC y IY) as (q & EQ & WQ).
      apply filter_In in IX, IY. destruct IX as [IX _], IY as [IY _]. destruct AL as (_ & A2 & A3 & A4).
      destruct (function_fine choose o (is_scenes ii) (im_dir A u) (im_dir B v) True (im_unit_id A u) fuel x y p q
                  (function_short_a ii SA u IU x IX) (function_short_b ii SB v IV y IY) (fun _ => A3 x IX) (fun _ => A4 y IY)
                  (fun _ => A2 x y IX IY E) EP EQ) as (e' & p' & q' & ED & P1 & P2 & R & _).
      rewrite F in ED. apply some_eq in ED. subst e'. apply (reads_from e p' q'); [apply R; now left|exact (function_titled _ _ _ _ _ _ _ _ _ _ F)| |].
      + eapply incl_tran; [exact (function_within o _ _ fuel x p p' EP P1 n 0)|apply WP].
      + eapply incl_tran; [exact (function_within o _ _ fuel y q q' EQ P2 n 0)|apply WQ].
  Qed.
  Lemma unit_from n d : diff_unit choose o pc fuel ii u v = Some d -> Forall (from_files (lines n 0 pu) (lines n 0 pv)) (fst (report n 0 d)).
  Proof.
    unfold diff_unit, diff_unit_body. rewrite HT, CU. intros E. apply bind_some in E. destruct E as (b & EB & E). apply some_eq in E. subst b.
    apply bind_some in EB. destruct EB as (fs & _ & EB). apply bind_some in EB. destruct EB as (ts & ET & EB).
    apply bind_some in EB. destruct EB as (gs & EG & EB). apply bind_some in EB. destruct EB as (vs & EVS & EB). apply some_eq in EB. subst d.
    unfold dseq. cbn [fold_right report fst]. cbn [app]. rewrite app_nil_r. apply Forall_app. split; [now apply types_from|]. apply Forall_app. split; [|now apply variables_from].
    destruct (c_function (o_category o)) eqn:CC; [|apply some_eq in EG; subst gs; constructor].
    apply bind_some in EG. destruct EG as (x & EX & EG). apply bind_some in EG. destruct EG as (y & EY & EG). apply some_eq in EG. subst gs.
    cbn [report fst]. apply Forall_app. split.
    - eapply functions_from; [|exact CC|exact EX]. intros r I. cbn [merged_functions fst] in I. now apply filter_In in I.
    - eapply functions_from; [|exact CC|exact EY]. intros r I. cbn [merged_functions snd] in I. now apply filter_In in I.
  Qed.
End Units.

(** ** Files *)
Lemma from_more la lb la' lb' x : incl la la' -> incl lb lb' -> from_files la lb x -> from_files la' lb' x.
Proof. intros WA WB [HA HB]. split; intros M; [destruct (HA M) as [I|I]|destruct (HB M) as [I|I]]; auto. Qed.
Lemma file_from choose o pc qa qb fuel ii c given pa pb n d :
  short_image (is_a ii) -> short_image (is_b ii) -> o_html o = false -> c_file (o_category o) = false -> c_unit (o_category o) = false ->
  configured c o given ->
  (forall u v, In u (im_units (is_a ii)) -> In v (im_units (is_b ii)) -> same_unit given u v -> units_alike o ii u v) ->
  print_file o qa fuel (is_a ii) = Some pa -> print_file o qb fuel (is_b ii) = Some pb -> diff_file choose o pc fuel ii = Some d ->
  Forall (from_files (lines n 0 pa) (lines n 0 pb)) (fst (report n 0 d)).
Proof.
  intros SA SB HT CF CU CO AL EA EB E. unfold print_file in EA, EB. unfold diff_file in E. rewrite CF in EA, EB, E. cbn [bind] in EA, EB, E.
  apply bind_some in EA. destruct EA as (ua & EUA & EA). apply bind_some in EB. destruct EB as (ub & EUB & EB).
  apply bind_some in E. destruct E as (e & EE & E). apply some_eq in EA, EB, E. subst pa pb d. cbn [report fst lines app].
  pose proof (configured_maps c o given CO) as M.
  unfold merged_units in EE. set (rows := merge_all _ _ _) in EE.
  assert (PL : forall x, In x (lefts rows) -> In x (filter_units o (im_units (is_a ii)))).
  { intros x I. unfold rows in I. rewrite merge_all_total, merge_lefts in I. now apply sorted_in in I. }
  assert (PR : forall x, In x (rights rows) -> In x (filter_units o (im_units (is_b ii)))).
  { intros x I. unfold rows in I. rewrite merge_all_total, merge_rights in I. now apply sorted_in in I. }
  assert (UA : forall u, In u (filter_units o (im_units (is_a ii))) -> exists p, print_unit o qa fuel (is_a ii) u = Some p /\ within p ua).
  { intros u I. apply (printed_one _ _ _ u EUA). unfold printed_units. now apply print_list_perm. }
  assert (UB : forall u, In u (filter_units o (im_units (is_b ii))) -> exists p, print_unit o qb fuel (is_b ii) u = Some p /\ within p ub).
  { intros u I. apply (printed_one _ _ _ u EUB). unfold printed_units. now apply print_list_perm. }
  revert EE. apply rows_from.
  - intros u p I F. apply diff_rows_in, row_left, PL in I. destruct (UA u I) as (p' & F' & W).
    eapply incl_tran; [exact (unit_within o fuel HT CU pc qa _ u p p' F F' n 0)|apply W].
  - intros u p I F. apply diff_rows_in, row_left, PR in I. destruct (UB u I) as (p' & F' & W).
    eapply incl_tran; [exact (unit_within o fuel HT CU pc qb _ u p p' F F' n 0)|apply W].
  - intros u v d I F. apply diff_rows_in in I. pose proof (row_left _ _ I) as [IX IY]. apply PL in IX. apply PR in IY.
    apply row_sides in I. destruct I as (_ & _ & E). apply (same_unit_iff given o) in E; [|exact M].
    destruct (UA u IX) as (p & EP & WP). destruct (UB v IY) as (q & EQ & WQ). apply filter_In in IX, IY. destruct IX as [IX _], IY as [IY _].
    pose proof (unit_from choose o pc qa qb fuel ii SA SB HT CU u v p q IX IY EP EQ (AL u v IX IY E) n d F) as H.
    eapply Forall_impl; [|exact H]. intros x. apply from_more; [apply WP|apply WQ].
Qed.
