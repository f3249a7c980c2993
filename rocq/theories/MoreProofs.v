(** More details only add lines. *)
From Coq Require Import List Arith NArith Bool String Lia.
From Verif Require Import Base BaseProofs RangeModel TypeModel LayoutModel RefModel FileModel OptionsModel OptionsProofs CliProofs FilterModel FilterSpec
  DiffModel IdModel PrintModel PrintSpec NameModel CodeModel ItemModel EntryModel ReportModel ReportSpec ItemProofs ItemShown EntryProofs ReportProofs RunPlain
  PropertiesListing SelectSpec SelectProofs.
Import ListNotations.
Local Open Scope list_scope.

(** The second document is the first with parts added. *)
Inductive extends : pdoc -> pdoc -> Prop :=
| ex_same : forall d, extends d d
| ex_new : forall d, extends PNil d
| ex_seq : forall a b a' b', extends a a' -> extends b b' -> extends (PSeq a b) (PSeq a' b')
| ex_tree : forall c h b b', extends b b' -> extends (PTree c h b) (PTree c h b')
| ex_section : forall c l b b', extends b b' -> extends (PSection c l b) (PSection c l b')
| ex_id : forall x h b b', extends b b' -> extends (PId x h b) (PId x h b')
| ex_inline : forall d d', extends d d' -> extends (PInline d) (PInline d')
| ex_drop : forall a b b', extends b b' -> extends b (PSeq a b').

Lemma deeper_more d : forall n m i, (n <= m)%nat -> subsequence (lines n i d) (lines m i d).
Proof.
  induction d as [|a IHa b IHb|l v|l| |c h IHh b IHb|c l b IHb|x l b IHb|x h IHh b IHb|d IH|a k v]; intros n m i L; cbn [lines];
    try apply sub_refl.
  - apply sub_app; [now apply IHa|now apply IHb].
  - apply sub_app; [now apply IHh|now apply IHb].
  - specialize (IHb n m (S i) L). destruct (lines n (S i) b); [apply sub_none|]. destruct (lines m (S i) b); [inversion IHb|]. now constructor.
  - specialize (IHb n m (S i) L). destruct (lines n (S i) b); [apply sub_none|]. destruct (lines m (S i) b); [inversion IHb|]. now constructor.
  - apply sub_app; [now apply IHh|now apply IHb].
  - destruct n as [|n]; [apply sub_none|]. destruct m as [|m]; [lia|]. apply IH. lia.
Qed.
Lemma extends_more d e : extends d e -> forall n m i, (n <= m)%nat -> subsequence (lines n i d) (lines m i e).
Proof.
  induction 1 as [d|d|a b a' b' _ IHa _ IHb|c h b b' _ IH|c l b b' _ IH|x h b b' _ IH|d d' _ IH|a b b' _ IH]; intros n m i L; cbn [lines].
  - now apply deeper_more.
  - apply sub_none.
  - apply sub_app; [now apply IHa|now apply IHb].
  - apply sub_app; [now apply deeper_more|now apply IH].
  - specialize (IH n m (S i) L). destruct (lines n (S i) b); [apply sub_none|]. destruct (lines m (S i) b'); [inversion IH|]. now constructor.
  - apply sub_app; [now apply deeper_more|now apply IH].
  - destruct n as [|n]; [apply sub_none|]. destruct m as [|m]; [lia|]. apply IH. lia.
  - change (lines n i b) with ([] ++ lines n i b). apply sub_app; [apply sub_none|now apply IH].
Qed.

(** The second options ask for no less: all details, and no difference ignored that the first do not ignore. *)
Record fewer (o0 o1 : options) : Prop := {
  fw_source : p_source (o_print o0) = true -> p_source (o_print o1) = true;
  fw_file_address : p_file_address (o_print o0) = true -> p_file_address (o_print o1) = true;
  fw_unit_address : p_unit_address (o_print o0) = true -> p_unit_address (o_print o1) = true;
  fw_calls : p_function_calls (o_print o0) = true ->
    p_function_calls (o_print o1) = true /\ i_function_address (o_ignore o0) = i_function_address (o_ignore o1);
  fw_instructions : p_function_instructions (o_print o0) = true -> p_function_instructions (o_print o1) = true;
  fw_variables : p_function_variables (o_print o0) = true -> p_function_variables (o_print o1) = true;
  fw_frame : p_function_stack_frame (o_print o0) = true -> p_function_stack_frame (o_print o1) = true;
  fw_parameters : p_inlined_function_parameters (o_print o0) = true -> p_inlined_function_parameters (o_print o1) = true;
  fw_locations : p_variable_locations (o_print o0) = true -> p_variable_locations (o_print o1) = true;
  fw_ignored : forall g, In g [i_added; i_deleted; i_function_address; i_function_size; i_function_inline; i_function_linkage_name;
                               i_function_symbol_name; i_variable_address; i_variable_linkage_name; i_variable_symbol_name] ->
    g (o_ignore o1) = true -> g (o_ignore o0) = true;
  fw_category : forall g, In g [c_file; c_unit; c_type; c_function; c_variable] -> g (o_category o0) = true -> g (o_category o1) = true;
  fw_rest : o1 = mkOptions (o_print o1) (o_inline_depth o1) (o_html o0) (o_http o0) (o_category o1) (o_filter o1) (o_sort o0) (o_ignore o1) (o_prefix_map o0) }.

(** What the command line says. *)
Lemma one_more l l' ws : incl l l' -> one_of l ws -> one_of l' ws.
Proof. intros I (w & W & X). exists w. split; [now apply I|exact X]. Qed.
Lemma fewer_details c0 c1 o0 o1 : parse_options c0 = Some o0 -> parse_options c1 = Some o1 -> only_details c0 c1 -> fewer o0 o1 /\ o_filter o1 = o_filter o0.
Proof.
  intros P0 P1 [I M]. assert (H : http c0 -> http c1) by (rewrite M; exact (fun x => x)).
  pose proof (fun ws => one_more _ _ ws I) as O.
  pose proof (C43_print c0 o0 P0) as A. pose proof (C43_print c1 o1 P1) as B. cbv zeta in A, B.
  destruct A as (A1 & A2 & A3 & A4 & A5 & A6 & A7 & A8 & A9), B as (B1 & B2 & B3 & B4 & B5 & B6 & B7 & B8 & B9).
  assert (R : o1 = mkOptions (o_print o1) (o_inline_depth o1) (o_html o0) (o_http o0) (o_category o0) (o_filter o0) (o_sort o0) (o_ignore o0) (o_prefix_map o0)).
  { rewrite M in P1. apply parse_options_parts in P0, P1. clear - P0 P1. destruct P0 as (d & p & A1 & A2 & A3 & A4 & A5 & A6 & A7 & A8).
    destruct P1 as (d' & p' & B1 & B2 & B3 & B4 & B5 & B6 & B7 & B8). cbn [cl_output cl_inline_depth cl_category cl_print cl_filter cl_sort cl_ignore cl_prefix_map] in *.
    rewrite A1 in B1. injection B1 as E1 E2 <- <-. rewrite A6 in B6. injection B6 as E4.
    rewrite A3 in B3. injection B3 as E5. rewrite A5 in B5. injection B5 as E6. rewrite A7 in B7. injection B7 as E7. rewrite A8 in B8. injection B8 as E8.
    rewrite E1, E2, E4, E5, E6, E7, E8. now destruct o1. }
  assert (IG : o_ignore o1 = o_ignore o0) by (rewrite R; reflexivity).
  assert (CT : o_category o1 = o_category o0) by (rewrite R; reflexivity).
  assert (FI : o_filter o1 = o_filter o0) by (rewrite R; reflexivity). split; [|exact FI].
  split; rewrite ?IG, ?CT, ?FI; [..|intros g _ G; exact G|intros g _ G; exact G|exact R];
    rewrite ?A1, ?A2, ?A3, ?A4, ?A5, ?A6, ?A7, ?A8, ?A9, ?B1, ?B2, ?B3, ?B4, ?B5, ?B6, ?B7, ?B8, ?B9; clear - O H;
    first [intros [X|X]; try split; try reflexivity; first [left; now apply H|right; now apply O] | intros X; now apply O].
Qed.
Lemma fewer_ignored c0 c1 o0 o1 : parse_options c0 = Some o0 -> parse_options c1 = Some o1 -> only_ignores c1 c0 ->
  (p_function_calls (o_print o1) = true -> i_function_address (o_ignore o0) = i_function_address (o_ignore o1)) -> fewer o0 o1 /\ o_filter o1 = o_filter o0.
Proof.
  intros P0 P1 [I M] CA. pose proof (fun ws => one_more _ _ ws I) as O.
  pose proof (C43_ignore c0 o0 P0) as A. pose proof (C43_ignore c1 o1 P1) as B. cbv zeta in A, B.
  destruct A as (A1 & A2 & A3 & A4 & A5 & A6 & A7 & A8 & A9 & A10), B as (B1 & B2 & B3 & B4 & B5 & B6 & B7 & B8 & B9 & B10).
  assert (R : o1 = mkOptions (o_print o0) (o_inline_depth o0) (o_html o0) (o_http o0) (o_category o0) (o_filter o0) (o_sort o0) (o_ignore o1) (o_prefix_map o0)).
  { rewrite M in P0. apply parse_options_parts in P0, P1. clear - P0 P1. destruct P0 as (d & p & A1 & A2 & A3 & A4 & A5 & A6 & A7 & A8).
    destruct P1 as (d' & p' & B1 & B2 & B3 & B4 & B5 & B6 & B7 & B8). cbn [cl_output cl_inline_depth cl_category cl_print cl_filter cl_sort cl_ignore cl_prefix_map] in *.
    rewrite A1 in B1. injection B1 as E1 E2 E9 E10. subst d' p'. rewrite A6 in B6. injection B6 as E4. rewrite A2 in B2. injection B2 as E11. rewrite A4 in B4. injection B4 as E12.
    rewrite A3 in B3. injection B3 as E5. rewrite A5 in B5. injection B5 as E6. rewrite A8 in B8. injection B8 as E8.
    rewrite E1, E2, E4, E5, E6, E8, E11, E12. now destruct o1. }
  assert (PR : o_print o1 = o_print o0) by (rewrite R; reflexivity).
  assert (DE : o_inline_depth o1 = o_inline_depth o0) by (rewrite R; reflexivity).
  assert (CT : o_category o1 = o_category o0) by (rewrite R; reflexivity).
  assert (FI : o_filter o1 = o_filter o0) by (rewrite R; reflexivity). split; [|exact FI].
  split; rewrite ?PR, ?CT in *; try (intros X; exact X).
  - intros X. split; [exact X|exact (CA X)].
  - clear - O A1 A2 A3 A4 A5 A6 A7 A8 A9 A10 B1 B2 B3 B4 B5 B6 B7 B8 B9 B10. intros g G.
    cbn [In] in G. repeat (destruct G as [<-|G]; [rewrite ?A1, ?A2, ?A3, ?A4, ?A5, ?A6, ?A7, ?A8, ?A9, ?A10, ?B1, ?B2, ?B3, ?B4, ?B5, ?B6, ?B7, ?B8, ?B9, ?B10; apply O|]). destruct G.
  - intros g _ G. exact G.
  - rewrite DE, FI. exact R.
Qed.

Lemma fewer_categories c0 c1 o0 o1 : parse_options c0 = Some o0 -> parse_options c1 = Some o1 -> only_categories c1 c0 -> fewer o0 o1 /\ o_filter o1 = o_filter o0.
Proof.
  intros P0 P1 [I M]. pose proof (C43_categories c0 o0 P0) as (A1 & A2 & A3 & A4 & A5). pose proof (C43_categories c1 o1 P1) as (B1 & B2 & B3 & B4 & B5).
  assert (R : o1 = mkOptions (o_print o0) (o_inline_depth o0) (o_html o0) (o_http o0) (o_category o1) (o_filter o0) (o_sort o0) (o_ignore o0) (o_prefix_map o0)).
  { rewrite M in P0. apply parse_options_parts in P0, P1. clear - P0 P1. destruct P0 as (d & p & A1 & A2 & A3 & A4 & A5 & A6 & A7 & A8).
    destruct P1 as (d' & p' & B1 & B2 & B3 & B4 & B5 & B6 & B7 & B8). cbn [cl_output cl_inline_depth cl_category cl_print cl_filter cl_sort cl_ignore cl_prefix_map] in *.
    rewrite A1 in B1. injection B1 as E1 E2 E9 E10. subst d' p'. rewrite A6 in B6. injection B6 as E4. rewrite A2 in B2. injection B2 as E11. rewrite A4 in B4. injection B4 as E12.
    rewrite A7 in B7. injection B7 as E7. rewrite A5 in B5. injection B5 as E6. rewrite A8 in B8. injection B8 as E8.
    rewrite E1, E2, E4, E6, E7, E8, E11, E12. now destruct o1. }
  assert (PR : o_print o1 = o_print o0) by (rewrite R; reflexivity). assert (DE : o_inline_depth o1 = o_inline_depth o0) by (rewrite R; reflexivity).
  assert (IG : o_ignore o1 = o_ignore o0) by (rewrite R; reflexivity).
  assert (FI : o_filter o1 = o_filter o0) by (rewrite R; reflexivity). split; [|exact FI].
  split; rewrite ?PR, ?IG; try (intros X; exact X).
  - intros X. now split.
  - intros g _ X. exact X.
  - intros g G. cbn [In] in G. repeat (destruct G as [<-|G]; [rewrite ?A1, ?A2, ?A3, ?A4, ?A5, ?B1, ?B2, ?B3, ?B4, ?B5; apply I|]). destruct G.
  - rewrite DE, FI. exact R.
Qed.

(** The second comparison is the first with parts added, some of which differ, and with differences that count. *)
Inductive less : ddoc -> ddoc -> Prop :=
| le_same : forall d, less d d
| le_new : forall d, less DNil d
| le_seq : forall a b a' b', less a a' -> less b b' -> less (DSeq a b) (DSeq a' b')
| le_drop : forall a b b', less b b' -> less b (DSeq a b')
| le_tree : forall c h b b', less b b' -> less (DTree c h b) (DTree c h b')
| le_section : forall c l b b', less b b' -> less (DSection c l b) (DSection c l b')
| le_id : forall x h b b', less b b' -> less (DId x h b) (DId x h b')
| le_inline : forall d d', less d d' -> less (DInline d) (DInline d')
| le_delete : forall d d', extends d d' -> less (DDelete d) (DDelete d')
| le_add : forall d d', extends d d' -> less (DAdd d) (DAdd d')
| le_if : forall d d', less d d' -> less (DIfDiff d) (DIfDiff d')
| le_ignore : forall f f' d d', (f' = true -> f = true) -> less d d' -> less (DIgnore f d) (DIgnore f' d').

Lemma sub_mark m a b : subsequence a b -> subsequence (with_mark m a) (with_mark m b).
Proof. induction 1; cbn; constructor; assumption. Qed.
Lemma sub_nonempty {A} (a b : list A) : subsequence a b -> nonempty a = true -> nonempty b = true.
Proof. destruct 1; cbn; congruence. Qed.
Lemma deeper_report d : forall n m i, (n <= m)%nat ->
  subsequence (fst (report n i d)) (fst (report m i d)) /\ (snd (report n i d) = true -> snd (report m i d) = true).
Proof.
  induction d as [|a IHa b IHb|l v w|l| |c h IHh b IHb|c l b IHb|x h IHh b IHb|d IH|d|d|a b|d IH|f d IH]; intros n m i L; cbn [report];
    try (split; [apply sub_refl|exact (fun X => X)]).
  - destruct (IHa n m i L) as [A1 A2], (IHb n m i L) as [B1 B2]. cbn [fst snd]. split; [now apply sub_app|].
    intros X. apply orb_true_iff in X. apply orb_true_iff. destruct X; [left|right]; auto.
  - destruct (IHh n m i L) as [A1 A2], (IHb n m (S i) L) as [B1 B2]. cbn [fst snd]. split; [now apply sub_app|].
    intros X. apply orb_true_iff in X. apply orb_true_iff. destruct X as [X|X]; [left; auto|right]. apply andb_true_iff in X. apply andb_true_iff.
    split; [eapply sub_nonempty; [exact B1|]|]; tauto.
  - destruct (IHb n m (S i) L) as [B1 B2]. destruct (report n (S i) b) as [[|y l1] f1], (report m (S i) b) as [[|z l2] f2]; cbn [fst snd] in *;
      try (split; [apply sub_none|discriminate]); [inversion B1|]. split; [now constructor|exact B2].
  - destruct (IHh n m i L) as [A1 A2], (IHb n m (S i) L) as [B1 B2]. cbn [fst snd]. split; [now apply sub_app|].
    intros X. apply orb_true_iff in X. apply orb_true_iff. destruct X; [left|right]; auto.
  - destruct n as [|n]; [split; [apply sub_none|discriminate]|]. destruct m as [|m]; [lia|]. apply IH. lia.
  - cbn [fst snd]. split; [apply sub_mark; now apply deeper_more|trivial].
  - cbn [fst snd]. split; [apply sub_mark; now apply deeper_more|trivial].
  - cbn [fst snd]. pose proof (deeper_more a n m i L) as A. pose proof (deeper_more b n m i L) as B.
    split; [apply sub_app; now apply sub_mark|]. intros X. apply orb_true_iff in X. apply orb_true_iff.
    destruct X as [X|X]; [left|right]; (eapply sub_nonempty; [|exact X]); assumption.
  - destruct (IH n m i L) as [A B]. destruct (snd (report n i d)); [rewrite B by reflexivity; now split|split; [apply sub_none|discriminate]].
  - destruct (IH n m i L) as [A B]. cbn [fst snd]. split; [exact A|]. intros X. apply andb_true_iff in X. apply andb_true_iff. tauto.
Qed.
Lemma less_report d e : less d e -> forall n m i, (n <= m)%nat ->
  subsequence (fst (report n i d)) (fst (report m i e)) /\ (snd (report n i d) = true -> snd (report m i e) = true).
Proof.
  induction 1 as [d|d|a b a' b' _ IHa _ IHb|a b b' _ IHb|c h b b' _ IHb|c l b b' _ IHb|x h b b' _ IHb|d d' _ IH|d d' X|d d' X|d d' _ IH|f f' d d' F _ IH];
    intros n m i L; cbn [report].
  - now apply deeper_report.
  - split; [apply sub_none|discriminate].
  - destruct (IHa n m i L) as [A1 A2], (IHb n m i L) as [B1 B2]. cbn [fst snd]. split; [now apply sub_app|].
    intros X. apply orb_true_iff in X. apply orb_true_iff. destruct X; [left|right]; auto.
  - destruct (IHb n m i L) as [B1 B2]. cbn [fst snd]. split; [change (fst (report n i b)) with ([] ++ fst (report n i b)); apply sub_app; [apply sub_none|exact B1]|].
    intros X. apply orb_true_iff. right. auto.
  - destruct (deeper_report h n m i L) as [A1 A2], (IHb n m (S i) L) as [B1 B2]. cbn [fst snd]. split; [now apply sub_app|].
    intros X. apply orb_true_iff in X. apply orb_true_iff. destruct X as [X|X]; [left; auto|right]. apply andb_true_iff in X. apply andb_true_iff.
    split; [eapply sub_nonempty; [exact B1|]|]; tauto.
  - destruct (IHb n m (S i) L) as [B1 B2]. destruct (report n (S i) b) as [[|y l1] f1], (report m (S i) b') as [[|z l2] f2]; cbn [fst snd] in *;
      try (split; [apply sub_none|discriminate]); [inversion B1|]. split; [now constructor|exact B2].
  - destruct (deeper_report h n m i L) as [A1 A2], (IHb n m (S i) L) as [B1 B2]. cbn [fst snd]. split; [now apply sub_app|].
    intros X. apply orb_true_iff in X. apply orb_true_iff. destruct X; [left|right]; auto.
  - destruct n as [|n]; [split; [apply sub_none|discriminate]|]. destruct m as [|m]; [lia|]. apply IH. lia.
  - cbn [fst snd]. split; [apply sub_mark; now apply extends_more|trivial].
  - cbn [fst snd]. split; [apply sub_mark; now apply extends_more|trivial].
  - destruct (IH n m i L) as [A B]. destruct (snd (report n i d)); [rewrite B by reflexivity; now split|split; [apply sub_none|discriminate]].
  - destruct (IH n m i L) as [A B]. cbn [fst snd]. split; [exact A|]. intros X. apply andb_true_iff in X. apply andb_true_iff.
    destruct X as [X Y]. split; [destruct f'; [rewrite F in X by reflexivity; discriminate X|reflexivity]|auto].
Qed.

Section More.
  Variables (o0 o1 : options).
  Hypothesis FEWER : fewer o0 o1.
  Definition asked (f : print_opts -> bool) : Prop := f (o_print o0) = true -> f (o_print o1) = true.
  Lemma more_options : o1 = mkOptions (o_print o1) (o_inline_depth o1) (o_html o0) (o_http o0) (o_category o1) (o_filter o1) (o_sort o0) (o_ignore o1) (o_prefix_map o0).
  Proof. exact (fw_rest _ _ FEWER). Qed.
  Lemma all_asked : asked p_source /\ asked p_file_address /\ asked p_unit_address /\ asked p_function_calls /\ asked p_function_instructions /\
    asked p_function_variables /\ asked p_function_stack_frame /\ asked p_inlined_function_parameters /\ asked p_variable_locations.
  Proof. destruct FEWER as [A1 A2 A3 A4 A5 A6 A7 A8 A9 _ _ _]. unfold asked. repeat (split; [assumption|]). repeat split; try assumption. - intros X. now apply A4. Qed.

  Definition grows (a b : option pdoc) : Prop := forall e, b = Some e -> exists d, a = Some d /\ extends d e.
  Lemma grows_same x : grows x x.
  Proof. intros e ->. exists e. split; [reflexivity|apply ex_same]. Qed.
  Lemma grows_none a : grows a None.
  Proof. intros e E. discriminate E. Qed.
  Lemma grows_bind a a' k k' : grows a a' -> (forall d e, extends d e -> grows (k d) (k' e)) -> grows (bind a k) (bind a' k').
  Proof.
    intros G K e E'. apply bind_some in E'. destruct E' as (e1 & A' & E'). destruct (G e1 A') as (d1 & -> & X). exact (K d1 e1 X e E').
  Qed.
  Lemma grows_some d e : extends d e -> grows (Some d) (Some e).
  Proof. intros G x E. apply some_eq in E. subst x. now exists d. Qed.
  Lemma grows_if f a a' : asked f -> grows a a' ->
    grows (if f (o_print o0) then a else Some PNil) (if f (o_print o1) then a' else Some PNil).
  Proof.
    intros A G. unfold asked in A. destruct (f (o_print o0)); [rewrite A by reflexivity; exact G|].
    intros e E. exists PNil. split; [reflexivity|apply ex_new].
  Qed.
  Lemma grows_when f a a' : asked f -> (f (o_print o0) = true -> grows a a') ->
    grows (if f (o_print o0) then a else Some PNil) (if f (o_print o1) then a' else Some PNil).
  Proof.
    intros A G. unfold asked in A. destruct (f (o_print o0)) eqn:F; [rewrite A by reflexivity; now apply G|].
    intros e E. exists PNil. split; [reflexivity|apply ex_new].
  Qed.
  Lemma extends_if f d : asked f -> extends (if f (o_print o0) then d else PNil) (if f (o_print o1) then d else PNil).
  Proof. intros A. unfold asked in A. destruct (f (o_print o0)); [rewrite A by reflexivity; apply ex_same|apply ex_new]. Qed.
  Lemma grows_section l a a' : grows a a' -> grows (section_of l a) (section_of l a').
  Proof. intros G. apply grows_bind; [exact G|]. intros d e X. apply grows_some. now constructor. Qed.
  Lemma grows_collapsed l a a' : grows a a' -> grows (collapsed_of l a) (collapsed_of l a').
  Proof. intros G. apply grows_bind; [exact G|]. intros d e X. apply grows_some. now constructor. Qed.
  Lemma grows_all {A} (f g : A -> option pdoc) l : (forall x, In x l -> grows (f x) (g x)) -> grows (all_printed f l) (all_printed g l).
  Proof.
    induction l as [|x l IH]; intros H; cbn [all_printed]; [apply grows_same|]. apply grows_bind; [apply H; now left|]. intros d e X.
    apply grows_bind; [apply IH; intros y Y; apply H; now right|]. intros d' e' X'. apply grows_some. now constructor.
  Qed.
  Ltac parts := cbn [pseq fold_right]; repeat first [apply ex_seq | apply ex_tree | apply ex_id | apply ex_inline | apply extends_if | assumption | apply ex_same].

  Lemma grows_formal sc p : grows (print_formal o0 sc p) (print_formal o1 sc p).
  Proof.
    destruct all_asked as (A1 & A2 & A3 & A4 & A5 & A6 & A7 & A8 & A9). unfold print_formal. apply grows_bind.
    - apply grows_if; [exact A9|apply grows_same].
    - intros d e X. apply grows_some. parts.
  Qed.
  Lemma grows_slot sc v : grows (print_slot o0 sc v) (print_slot o1 sc v).
  Proof.
    destruct all_asked as (A1 & A2 & A3 & A4 & A5 & A6 & A7 & A8 & A9). unfold print_slot. apply grows_bind.
    - apply grows_if; [exact A9|apply grows_same].
    - intros d e X. apply grows_some. parts.
  Qed.
  Lemma grows_argument sc x : grows (print_argument o0 sc x) (print_argument o1 sc x).
  Proof.
    destruct all_asked as (A1 & A2 & A3 & A4 & A5 & A6 & A7 & A8 & A9). unfold print_argument. apply grows_bind.
    - apply grows_if; [exact A9|apply grows_same].
    - intros d e X. apply grows_some. parts.
  Qed.
  Lemma grows_site sc dir x : grows (print_site o0 sc dir x) (print_site o1 sc dir x).
  Proof.
    destruct all_asked as (A1 & A2 & A3 & A4 & A5 & A6 & A7 & A8 & A9). unfold print_site. apply grows_bind.
    - apply grows_if; [exact A9|apply grows_same].
    - intros d e X. apply grows_bind; [apply grows_section, grows_all; intros; apply grows_argument|]. intros d' e' X'. apply grows_some. parts.
  Qed.
  Lemma grows_inlined sc dir n : forall x, grows (print_inlined o0 n sc dir x) (print_inlined o1 n sc dir x).
  Proof.
    destruct all_asked as (A1 & A2 & A3 & A4 & A5 & A6 & A7 & A8 & A9).
    induction n as [|n IH]; intros x; [apply grows_none|]. rewrite !print_inlined_S.
    apply grows_bind; [apply grows_if; [exact A8|]; apply grows_section, grows_all; intros; apply grows_formal|]. intros d1 e1 X1.
    apply grows_bind; [apply grows_if; [exact A6|]; apply grows_collapsed, grows_all; intros; apply grows_slot|]. intros d2 e2 X2.
    apply grows_bind; [apply grows_if; [exact A4|]; apply grows_collapsed, grows_all; intros; apply grows_site|]. intros d3 e3 X3.
    apply grows_bind; [apply grows_all; intros; apply IH|]. intros d4 e4 X4. apply grows_some. parts.
  Qed.
  Lemma call_same sc c : p_function_calls (o_print o0) = true -> call_value o0 sc c = call_value o1 sc c.
  Proof. intros X. destruct (fw_calls _ _ FEWER X) as [_ Y]. unfold call_value. now rewrite Y. Qed.
  Lemma grows_function_body fuel sc dir f vars inner : grows (print_function_body o0 fuel sc dir f vars inner) (print_function_body o1 fuel sc dir f vars inner).
  Proof.
    destruct all_asked as (A1 & A2 & A3 & A4 & A5 & A6 & A7 & A8 & A9). unfold print_function_body.
    apply grows_bind; [apply grows_same|]. intros d1 e1 X1.
    apply grows_bind; [apply grows_section, grows_all; intros; apply grows_formal|]. intros d2 e2 X2.
    apply grows_bind; [apply grows_if; [exact A6|]; apply grows_collapsed, grows_all; intros; apply grows_slot|]. intros d3 e3 X3.
    apply grows_bind; [apply grows_if; [exact A7|]; apply grows_same|]. intros d4 e4 X4.
    apply grows_bind; [apply grows_collapsed, grows_all; intros; apply grows_inlined|]. intros d5 e5 X5.
    apply grows_bind.
    { apply grows_when; [exact A4|]. intros ON. apply grows_bind; [apply grows_collapsed, grows_all; intros; apply grows_site|]. intros d6 e6 X6.
      apply grows_bind; [|intros d7 e7 X7; apply grows_some; now constructor].
      destruct (calls sc f) as [l|]; cbn [bind]; [|apply grows_none]. apply grows_collapsed, grows_all. intros c _. rewrite call_same by exact ON. apply grows_same. }
    intros d6 e6 X6. apply grows_bind.
    { unfold asked in A5. destruct (p_function_instructions (o_print o0)); [rewrite A5 by reflexivity; apply grows_same|].
      intros e E. exists PNil. split; [reflexivity|apply ex_new]. }
    intros d7 e7 X7. apply grows_some. parts.
  Qed.
  Lemma grows_function fuel im u f : grows (print_function_in o0 fuel im u f) (print_function_in o1 fuel im u f).
  Proof.
    unfold print_function_in, print_function, print_function_listed. apply grows_bind; [apply grows_function_body|]. intros d e X. apply grows_some. parts.
  Qed.
  Lemma grows_type fuel im u t : grows (print_type_in o0 fuel im u t) (print_type_in o1 fuel im u t).
  Proof.
    destruct all_asked as (A1 & _). unfold print_type_in, print_type. destruct (header_value _ t) as [hv|]; cbn [bind]; [|apply grows_none].
    apply grows_bind; [|intros d e X; apply grows_some; parts].
    unfold print_type_body, source_field. destruct (t_kind t); try apply grows_none;
      repeat match goal with
      | |- grows (bind ?a _) (bind ?a _) => destruct a; cbn [bind]; [|apply grows_none]
      end; apply grows_some; parts; exact A1.
  Qed.
  Lemma grows_variable im u v : grows (print_variable_in o0 im u v) (print_variable_in o1 im u v).
  Proof.
    destruct all_asked as (A1 & _). unfold print_variable_in, print_variable. apply grows_some. parts; exact A1.
  Qed.
  Lemma grows_fields im u : grows (print_unit_fields o0 im u) (print_unit_fields o1 im u).
  Proof.
    destruct all_asked as (A1 & A2 & A3 & _). unfold print_unit_fields. apply grows_bind; [apply grows_if; [exact A3|apply grows_same]|].
    intros d e X. apply grows_some. parts.
  Qed.
  Hypothesis TEXT : o_html o0 = false.
  Lemma selected g : In g [c_file; c_unit; c_type; c_function; c_variable] -> g (o_category o0) = true -> g (o_category o1) = true.
  Proof. apply (fw_category _ _ FEWER). Qed.
  Lemma grows_selected {T} (b0 b1 : bool) (l : list T) (f g : T -> option pdoc) : (b0 = true -> b1 = true) -> (forall x, grows (f x) (g x)) ->
    grows (all_printed f (if b0 then l else [])) (all_printed g (if b1 then l else [])).
  Proof.
    intros B G. destruct b0; [rewrite B by reflexivity; now apply grows_all|]. intros e E. exists PNil. split; [reflexivity|apply ex_new].
  Qed.
  Section Same.
  Hypothesis FILTER : o_filter o1 = o_filter o0.
  Lemma grows_unit pc fuel im u : grows (print_unit o0 pc fuel im u) (print_unit o1 pc fuel im u).
  Proof.
    unfold print_unit. assert (T1 : o_html o1 = false) by (rewrite more_options; exact TEXT).
    apply grows_bind; [|intros d e X; rewrite TEXT, T1; now apply grows_some].
    unfold print_unit_body. rewrite TEXT, T1. apply grows_bind; [apply grows_fields|]. intros d1 e1 X1.
    assert (TY : print_list (type_cmp_by o1) (im_hash im) (filter_types o1 (im_hash im) false u) = print_list (type_cmp_by o0) (im_hash im) (filter_types o0 (im_hash im) false u))
      by (rewrite more_options, FILTER; reflexivity).
    assert (FU : print_list (function_cmp_by o1 pc) (im_hash im) (filter_functions o1 u) = print_list (function_cmp_by o0 pc) (im_hash im) (filter_functions o0 u))
      by (rewrite more_options, FILTER; reflexivity).
    assert (VA : print_list (variable_cmp_by o1) (im_hash im) (filter_variables o1 u) = print_list (variable_cmp_by o0) (im_hash im) (filter_variables o0 u))
      by (rewrite more_options, FILTER; reflexivity).
    unfold print_types, print_functions, print_variables, printed_types, printed_functions, printed_variables. rewrite TY, FU, VA.
    apply grows_bind; [apply grows_selected; [apply (selected c_type); cbn; tauto|intros; apply grows_type]|]. intros d2 e2 X2.
    apply grows_bind; [apply grows_selected; [apply (selected c_variable); cbn; tauto|intros; apply grows_variable]|]. intros d3 e3 X3.
    apply grows_bind; [apply grows_selected; [apply (selected c_function); cbn; tauto|intros; apply grows_function]|]. intros d4 e4 X4. apply grows_some.
    pose proof (selected c_unit ltac:(cbn; tauto)) as CU.
    destruct (c_unit (o_category o0)); [rewrite CU by reflexivity; parts|]. cbn [pseq fold_right]. apply ex_seq; [apply ex_new|parts].
  Qed.
  Lemma grows_file pc fuel im : grows (print_file o0 pc fuel im) (print_file o1 pc fuel im).
  Proof.
    destruct all_asked as (A1 & A2 & A3 & _). unfold print_file. pose proof (selected c_file ltac:(cbn; tauto)) as CF. apply grows_bind.
    { destruct (c_file (o_category o0)); [rewrite CF by reflexivity|intros e E; exists PNil; split; [reflexivity|apply ex_new]].
      unfold print_file_header. apply grows_bind; [apply grows_if; [exact A2|apply grows_same]|].
      intros d e X. apply grows_bind; [apply grows_same|]. intros d' e' X'. apply grows_some. parts. }
    intros d e X. assert (UN : printed_units o1 (im_hash im) (im_units im) = printed_units o0 (im_hash im) (im_units im)) by (rewrite more_options, FILTER; reflexivity).
    rewrite UN. apply grows_bind; [apply grows_all; intros; apply grows_unit|]. intros d' e' X'. apply grows_some. now constructor.
  Qed.
  End Same.

  (** Comparisons. *)
  Definition dgrows (a b : option ddoc) : Prop := forall e, b = Some e -> exists d, a = Some d /\ less d e.
  Lemma dgrows_same x : dgrows x x.
  Proof. intros e ->. exists e. split; [reflexivity|apply le_same]. Qed.
  Lemma dgrows_none a : dgrows a None.
  Proof. intros e E. discriminate E. Qed.
  Lemma dgrows_bind a a' k k' : dgrows a a' -> (forall d e, less d e -> dgrows (k d) (k' e)) -> dgrows (bind a k) (bind a' k').
  Proof.
    intros G K e E'. apply bind_some in E'. destruct E' as (e1 & A' & E'). destruct (G e1 A') as (d1 & -> & X). exact (K d1 e1 X e E').
  Qed.
  Lemma dgrows_some d e : less d e -> dgrows (Some d) (Some e).
  Proof. intros G x E. apply some_eq in E. subst x. now exists d. Qed.
  Lemma dgrows_when f a a' : asked f -> (f (o_print o0) = true -> dgrows a a') ->
    dgrows (if f (o_print o0) then a else Some DNil) (if f (o_print o1) then a' else Some DNil).
  Proof.
    intros A G. unfold asked in A. destruct (f (o_print o0)) eqn:F; [rewrite A by reflexivity; now apply G|].
    intros e E. exists DNil. split; [reflexivity|apply le_new].
  Qed.
  Lemma dgrows_if f a a' : asked f -> dgrows a a' ->
    dgrows (if f (o_print o0) then a else Some DNil) (if f (o_print o1) then a' else Some DNil).
  Proof. intros A G. now apply dgrows_when. Qed.
  Lemma less_if f d : asked f -> less (if f (o_print o0) then d else DNil) (if f (o_print o1) then d else DNil).
  Proof. intros A. unfold asked in A. destruct (f (o_print o0)); [rewrite A by reflexivity; apply le_same|apply le_new]. Qed.
  Lemma less_ignored g d e : In g [i_added; i_deleted; i_function_address; i_function_size; i_function_inline; i_function_linkage_name;
                               i_function_symbol_name; i_variable_address; i_variable_linkage_name; i_variable_symbol_name] ->
    less d e -> less (ignored (g (o_ignore o0)) d) (ignored (g (o_ignore o1)) e).
  Proof. intros G X. apply le_ignore; [exact (fw_ignored _ _ FEWER g G)|exact X]. Qed.
  Lemma dgrows_section l a a' : dgrows a a' -> dgrows (dsection_of l a) (dsection_of l a').
  Proof. intros G. apply dgrows_bind; [exact G|]. intros d e X. apply dgrows_some. now constructor. Qed.
  Lemma dgrows_collapsed l a a' : dgrows a a' -> dgrows (dcollapsed_of l a) (dcollapsed_of l a').
  Proof. intros G. apply dgrows_bind; [exact G|]. intros d e X. apply dgrows_some. now constructor. Qed.
  Lemma dgrows_rows {T} (pa pa' pb pb' : T -> option pdoc) (df df' : T -> T -> option ddoc) (f f' : merge_result T T -> bool) rows :
    (forall r, f r = true -> f' r = true) -> (forall x, grows (pa x) (pa' x)) -> (forall x, grows (pb x) (pb' x)) -> (forall x y, dgrows (df x y) (df' x y)) ->
    dgrows (all_rows pa pb df (filter f rows)) (all_rows pa' pb' df' (filter f' rows)).
  Proof.
    intros F GA GB GD. induction rows as [|r rows IH]; [apply dgrows_same|]. cbn [filter].
    assert (ROW : dgrows (row_doc pa pb df r) (row_doc pa' pb' df' r)).
    { destruct r as [a|b|a b]; cbn [row_doc]; [| |apply GD].
      - intros e E. apply bind_some in E. destruct E as (p & EP & E). apply some_eq in E. subst e. destruct (GA a p EP) as (q & -> & X).
        eexists. split; [reflexivity|now constructor].
      - intros e E. apply bind_some in E. destruct E as (p & EP & E). apply some_eq in E. subst e. destruct (GB b p EP) as (q & -> & X).
        eexists. split; [reflexivity|now constructor]. }
    destruct (f r) eqn:FR.
    - rewrite (F r FR). cbn [all_rows]. apply dgrows_bind; [exact ROW|]. intros d e X. apply dgrows_bind; [exact IH|]. intros d' e' X'.
      apply dgrows_some. now constructor.
    - destruct (f' r); [|exact IH]. cbn [all_rows]. intros e E. apply bind_some in E. destruct E as (e1 & _ & E).
      apply bind_some in E. destruct E as (e2 & E2 & E). apply some_eq in E. subst e. destruct (IH e2 E2) as (d & -> & X). exists d. split; [reflexivity|now apply le_drop].
  Qed.
  Lemma filter_all {T} (l : list T) : filter (fun _ => true) l = l.
  Proof. induction l as [|x l IH]; [reflexivity|]. cbn. now rewrite IH. Qed.
  Lemma dgrows_all_rows {T} (pa pa' pb pb' : T -> option pdoc) (df df' : T -> T -> option ddoc) rows :
    (forall x, grows (pa x) (pa' x)) -> (forall x, grows (pb x) (pb' x)) -> (forall x y, dgrows (df x y) (df' x y)) ->
    dgrows (all_rows pa pb df rows) (all_rows pa' pb' df' rows).
  Proof.
    intros GA GB GD. pose proof (dgrows_rows pa pa' pb pb' df df' (fun _ => true) (fun _ => true) rows (fun _ X => X) GA GB GD) as G.
    now rewrite filter_all in G.
  Qed.
  Variable choose : list N -> list N -> list (list N) -> nat -> nat.
  Lemma dgrows_list {T} step dc (pa pa' pb pb' : T -> option pdoc) (df df' : T -> T -> option ddoc) l1 l2 :
    (forall x, grows (pa x) (pa' x)) -> (forall x, grows (pb x) (pb' x)) -> (forall x y, dgrows (df x y) (df' x y)) ->
    dgrows (compared_list choose step dc pa pb df l1 l2) (compared_list choose step dc pa' pb' df' l1 l2).
  Proof.
    intros GA GB GD. unfold compared_list. destruct (edit_script choose step dc l1 l2) as [rows|]; cbn [bind]; [|apply dgrows_none].
    now apply dgrows_all_rows.
  Qed.
  Ltac dparts := cbn [dseq fold_right]; repeat first [assumption | apply le_same | apply le_seq | apply le_tree | apply le_id | apply le_inline | apply less_if
    | apply (less_ignored i_variable_address); [cbn; tauto|] | apply (less_ignored i_function_linkage_name); [cbn; tauto|] | apply (less_ignored i_function_symbol_name); [cbn; tauto|]
    | apply (less_ignored i_function_address); [cbn; tauto|] | apply (less_ignored i_function_size); [cbn; tauto|] | apply (less_ignored i_function_inline); [cbn; tauto|]
    | apply (less_ignored i_variable_linkage_name); [cbn; tauto|] | apply (less_ignored i_variable_symbol_name); [cbn; tauto|] ].
  Variable ii : images.
  Local Notation ss := (is_scenes ii).

  Lemma dgrows_formal a b : dgrows (diff_formal choose o0 ss a b) (diff_formal choose o1 ss a b).
  Proof.
    destruct all_asked as (A1 & A2 & A3 & A4 & A5 & A6 & A7 & A8 & A9). unfold diff_formal. apply dgrows_bind.
    - apply dgrows_if; [exact A9|apply dgrows_same].
    - intros d e X. apply dgrows_some. dparts.
  Qed.
  Lemma dgrows_slot a b : dgrows (diff_slot choose o0 ss a b) (diff_slot choose o1 ss a b).
  Proof.
    destruct all_asked as (A1 & A2 & A3 & A4 & A5 & A6 & A7 & A8 & A9). unfold diff_slot. apply dgrows_bind.
    - apply dgrows_if; [exact A9|]. apply dgrows_bind; [apply dgrows_same|]. intros d e X. apply dgrows_bind; [apply dgrows_same|]. intros d' e' X'.
      apply dgrows_some. dparts.
    - intros d e X. apply dgrows_some. dparts.
  Qed.
  Lemma dgrows_formals l1 l2 : dgrows (diff_formals choose o0 ss l1 l2) (diff_formals choose o1 ss l1 l2).
  Proof. apply dgrows_list; [intros; apply grows_formal|intros; apply grows_formal|apply dgrows_formal]. Qed.
  Lemma dgrows_slots l1 l2 : dgrows (diff_slots choose o0 ss l1 l2) (diff_slots choose o1 ss l1 l2).
  Proof. apply dgrows_list; [intros; apply grows_slot|intros; apply grows_slot|apply dgrows_slot]. Qed.
  Lemma dgrows_argument a b : dgrows (diff_argument choose o0 ss a b) (diff_argument choose o1 ss a b).
  Proof.
    destruct all_asked as (A1 & A2 & A3 & A4 & A5 & A6 & A7 & A8 & A9). unfold diff_argument. apply dgrows_bind.
    - apply dgrows_if; [exact A9|apply dgrows_same].
    - intros d e X. apply dgrows_some. dparts.
  Qed.
  Lemma dgrows_site da db a b : dgrows (diff_site choose o0 ss da db a b) (diff_site choose o1 ss da db a b).
  Proof.
    destruct all_asked as (A1 & A2 & A3 & A4 & A5 & A6 & A7 & A8 & A9). unfold diff_site. apply dgrows_bind.
    - apply dgrows_if; [exact A9|apply dgrows_same].
    - intros d e X. apply dgrows_bind.
      { destruct (_ || _); [|apply dgrows_same]. apply dgrows_section, dgrows_all_rows; [intros; apply grows_argument|intros; apply grows_argument|apply dgrows_argument]. }
      intros d' e' X'. apply dgrows_some. dparts; exact A1.
  Qed.
  Lemma dgrows_sites da db l1 l2 : dgrows (diff_sites choose o0 ss da db l1 l2) (diff_sites choose o1 ss da db l1 l2).
  Proof. apply dgrows_list; [intros; apply grows_site|intros; apply grows_site|apply dgrows_site]. Qed.
  Lemma dgrows_inlined da db n : forall a b, dgrows (diff_inlined choose o0 ss n da db a b) (diff_inlined choose o1 ss n da db a b).
  Proof.
    destruct all_asked as (A1 & A2 & A3 & A4 & A5 & A6 & A7 & A8 & A9).
    induction n as [|n IH]; intros a b; [apply dgrows_none|]. rewrite !diff_inlined_S.
    apply dgrows_bind; [apply dgrows_if; [exact A8|]; apply dgrows_section, dgrows_formals|]. intros d1 e1 X1.
    apply dgrows_bind; [apply dgrows_if; [exact A6|]; apply dgrows_collapsed, dgrows_slots|]. intros d2 e2 X2.
    apply dgrows_bind; [apply dgrows_if; [exact A4|]; apply dgrows_collapsed, dgrows_sites|]. intros d3 e3 X3.
    apply dgrows_bind; [apply dgrows_list; [intros; apply grows_inlined|intros; apply grows_inlined|exact IH]|]. intros d4 e4 X4.
    apply dgrows_some. dparts; exact A1.
  Qed.
  Lemma dgrows_function_body fuel da db a b : dgrows (diff_function_body choose o0 ss fuel da db a b) (diff_function_body choose o1 ss fuel da db a b).
  Proof.
    destruct all_asked as (A1 & A2 & A3 & A4 & A5 & A6 & A7 & A8 & A9). unfold diff_function_body.
    apply dgrows_bind; [apply dgrows_same|]. intros d1 e1 X1.
    apply dgrows_bind; [apply dgrows_section, dgrows_formals|]. intros d2 e2 X2.
    apply dgrows_bind; [apply dgrows_if; [exact A6|]; apply dgrows_collapsed, dgrows_slots|]. intros d3 e3 X3.
    apply dgrows_bind; [apply dgrows_if; [exact A7|]; apply dgrows_same|]. intros d4 e4 X4.
    apply dgrows_bind; [apply dgrows_collapsed, dgrows_list; [intros; apply grows_inlined|intros; apply grows_inlined|intros; apply dgrows_inlined]|]. intros d5 e5 X5.
    apply dgrows_bind.
    { apply dgrows_when; [exact A4|]. intros ON. apply dgrows_bind; [apply dgrows_collapsed, dgrows_sites|]. intros d6 e6 X6.
      apply dgrows_bind; [|intros d7 e7 X7; apply dgrows_some; now constructor].
      destruct (calls _ a) as [l1|]; cbn [bind]; [|apply dgrows_none]. destruct (calls _ b) as [l2|]; cbn [bind]; [|apply dgrows_none].
      apply dgrows_collapsed, dgrows_list; intros; rewrite !call_same by exact ON; [apply grows_same|apply grows_same|apply dgrows_same]. }
    intros d6 e6 X6. apply dgrows_bind; [apply dgrows_if; [exact A5|apply dgrows_same]|]. intros d7 e7 X7. cbv zeta. apply dgrows_some. dparts; exact A1.
  Qed.
  Lemma dgrows_function id fuel da db a b : dgrows (diff_function choose o0 ss id fuel da db a b) (diff_function choose o1 ss id fuel da db a b).
  Proof. unfold diff_function. apply dgrows_bind; [apply dgrows_function_body|]. intros d e X. apply dgrows_some. dparts. Qed.
  Lemma dgrows_variable da db a b : less (diff_variable o0 ss da db a b) (diff_variable o1 ss da db a b).
  Proof. destruct all_asked as (A1 & _). unfold diff_variable, diff_variable_body. cbv zeta. dparts; exact A1. Qed.
  Lemma dgrows_type fuel da db a b : dgrows (diff_type choose o0 fuel (ss_sides ss) da db a b) (diff_type choose o1 fuel (ss_sides ss) da db a b).
  Proof.
    destruct all_asked as (A1 & _). unfold diff_type. destruct (diff_type_header _ a b) as [h|]; cbn [bind]; [|apply dgrows_none].
    apply dgrows_bind; [|intros d e X; apply dgrows_some; dparts].
    unfold diff_type_body, source_field2. cbv zeta. destruct (t_kind a); try apply dgrows_none; destruct (t_kind b); try apply dgrows_none;
      repeat match goal with
      | |- dgrows (bind ?a _) (bind ?a _) => destruct a; cbn [bind]; [|apply dgrows_none]
      end; apply dgrows_some; dparts; try exact A1.
  Qed.
  Variable pc : param_cmp.
  Variable fuel : nat.
  Lemma dgrows_fields u v : dgrows (diff_unit_fields o0 ii u v) (diff_unit_fields o1 ii u v).
  Proof.
    destruct all_asked as (A1 & A2 & A3 & _). unfold diff_unit_fields. apply dgrows_bind; [apply dgrows_if; [exact A3|apply dgrows_same]|].
    intros d e X. apply dgrows_some. dparts.
  Qed.
  Lemma dgrows_listed {T} (cmp_by : hash -> T -> hash -> T -> comparison) (pa pa' pb pb' : T -> option pdoc) (df df' : T -> T -> option ddoc) rows :
    (forall x, grows (pa x) (pa' x)) -> (forall x, grows (pb x) (pb' x)) -> (forall x y, dgrows (df x y) (df' x y)) ->
    dgrows (listed_rows o0 ii cmp_by pa pb df rows) (listed_rows o1 ii cmp_by pa' pb' df' rows).
  Proof.
    intros GA GB GD. unfold listed_rows, diff_rows. apply dgrows_rows; [|exact GA|exact GB|].
    - intros [a|b|a b]; [| |trivial]; intros X; apply negb_true_iff in X; apply negb_true_iff.
      + destruct (i_deleted (o_ignore o1)) eqn:E; [|reflexivity]. rewrite (fw_ignored _ _ FEWER i_deleted) in X; [discriminate X|cbn; tauto|exact E].
      + destruct (i_added (o_ignore o1)) eqn:E; [|reflexivity]. rewrite (fw_ignored _ _ FEWER i_added) in X; [discriminate X|cbn; tauto|exact E].
    - intros x y. apply dgrows_bind; [apply GD|]. intros d e X. apply dgrows_some. now constructor.
  Qed.
  Lemma dgrows_selected g a a' : In g [c_file; c_unit; c_type; c_function; c_variable] -> dgrows a a' ->
    dgrows (if g (o_category o0) then a else Some DNil) (if g (o_category o1) then a' else Some DNil).
  Proof.
    intros I G. pose proof (selected g I) as S. destruct (g (o_category o0)); [rewrite S by reflexivity; exact G|].
    intros e E. exists DNil. split; [reflexivity|apply le_new].
  Qed.
  Hypothesis FILTER : o_filter o1 = o_filter o0.
  Lemma dgrows_unit u v : dgrows (diff_unit choose o0 pc fuel ii u v) (diff_unit choose o1 pc fuel ii u v).
  Proof.
    assert (T1 : o_html o1 = false) by (rewrite more_options; exact TEXT).
    unfold diff_unit. apply dgrows_bind; [|intros d e X; rewrite TEXT, T1; now apply dgrows_some].
    assert (TY : merged_types o1 (im_hash (is_a ii)) u (im_hash (is_b ii)) v = merged_types o0 (im_hash (is_a ii)) u (im_hash (is_b ii)) v) by (rewrite more_options, ?FILTER; reflexivity).
    assert (FU : merged_functions o1 pc (im_hash (is_a ii)) u (im_hash (is_b ii)) v = merged_functions o0 pc (im_hash (is_a ii)) u (im_hash (is_b ii)) v) by (rewrite more_options, ?FILTER; reflexivity).
    assert (VA : merged_variables o1 u v = merged_variables o0 u v) by (rewrite more_options, ?FILTER; reflexivity).
    assert (TS : type_cmp_by o1 = type_cmp_by o0) by (rewrite more_options, ?FILTER; reflexivity).
    assert (FS : function_cmp_by o1 pc = function_cmp_by o0 pc) by (rewrite more_options, ?FILTER; reflexivity).
    assert (VS : variable_cmp_by o1 = variable_cmp_by o0) by (rewrite more_options, ?FILTER; reflexivity).
    unfold diff_unit_body, diff_types, diff_functions, diff_variables. cbv zeta. rewrite TEXT, T1, TY, FU, VA, TS, FS, VS.
    apply dgrows_bind; [apply dgrows_fields|]. intros d1 e1 X1.
    apply dgrows_bind.
    { apply (dgrows_selected c_type); [cbn; tauto|]. apply dgrows_listed; [intros; apply grows_type|intros; apply grows_type|intros; apply dgrows_type]. }
    intros d2 e2 X2. apply dgrows_bind.
    { apply (dgrows_selected c_function); [cbn; tauto|].
      apply dgrows_bind; [apply dgrows_listed; [intros; apply grows_function|intros; apply grows_function|intros; apply dgrows_function]|]. intros d e X.
      apply dgrows_bind; [apply dgrows_listed; [intros; apply grows_function|intros; apply grows_function|intros; apply dgrows_function]|]. intros d' e' X'.
      apply dgrows_some. dparts. }
    intros d3 e3 X3. apply dgrows_bind.
    { apply (dgrows_selected c_variable); [cbn; tauto|].
      apply dgrows_listed; [intros; apply grows_variable|intros; apply grows_variable|intros; apply dgrows_some, dgrows_variable]. }
    intros d4 e4 X4. apply dgrows_some. pose proof (selected c_unit ltac:(cbn; tauto)) as CU.
    destruct (c_unit (o_category o0)); [rewrite CU by reflexivity; dparts|]. cbn [dseq fold_right]. apply le_seq; [apply le_new|dparts].
  Qed.
  Lemma dgrows_file : dgrows (diff_file choose o0 pc fuel ii) (diff_file choose o1 pc fuel ii).
  Proof.
    destruct all_asked as (A1 & A2 & A3 & _). unfold diff_file.
    assert (US : unit_cmp_by o1 = unit_cmp_by o0) by (rewrite more_options, ?FILTER; reflexivity).
    assert (MU : merged_units o1 (im_units (is_a ii)) (im_units (is_b ii)) = merged_units o0 (im_units (is_a ii)) (im_units (is_b ii))) by (rewrite more_options, ?FILTER; reflexivity).
    rewrite US, MU. apply dgrows_bind.
    { apply (dgrows_selected c_file); [cbn; tauto|]. unfold diff_file_header. cbv zeta. apply dgrows_bind; [apply dgrows_if; [exact A2|apply dgrows_same]|].
      intros d e X. apply dgrows_bind; [apply dgrows_same|]. intros d' e' X'. apply dgrows_some. dparts. }
    intros d e X. apply dgrows_bind; [apply dgrows_listed; [intros; now apply grows_unit|intros; now apply grows_unit|apply dgrows_unit]|].
    intros d' e' X'. apply dgrows_some. dparts.
  Qed.
End More.
