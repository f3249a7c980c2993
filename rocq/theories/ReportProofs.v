(** Proofs about printed files and reports on two files. *)
From Coq Require Import List Arith NArith ZArith Bool String Lia Permutation.
From Verif Require Import CfiModel DieModel Base BaseProofs RangeModel NamespaceModel TypeModel TypeSpec LayoutModel FileModel
  DiffModel DiffSpec MergeProofs OptionsModel FilterModel FilterSpec FilterProofs IdModel PrintModel PrintSpec RefModel
  PrintProofs NameModel LocationModel CodeModel ItemModel ItemSpec ItemProofs ItemShown EntryModel EntrySpec EntryProofs EntryShown
  ReportModel ReportSpec.
Import ListNotations.
Local Open Scope N_scope.

(** ** Any document *)

Ltac ddoc_ind d :=
  induction d as [|a IHa b IHb|label a b|label| |c h IHh b IHb|c l b IHb|i0 h IHh b IHb|d IH|d|d|a b|d IH|fl d IH].

Lemma report_text d : forall s f,
  exists s', diff_doc text_printer false false d s f =
    (write_marked (fst (report (ts_depth s) (ts_indent s) d)), s',
     f || snd (report (ts_depth s) (ts_indent s) d)) /\ same_place s s'.
Proof.
  ddoc_ind d; intros s f; cbn [diff_doc].
  - exists s. cbn. rewrite orb_false_r. split; [reflexivity|split; reflexivity].
  - destruct (IHa s f) as (s1 & E1 & I1 & D1). rewrite E1.
    match goal with |- context [diff_doc _ _ _ b s1 ?g] => destruct (IHb s1 g) as (s2 & E2 & I2 & D2) end.
    rewrite E2. exists s2. rewrite D1, I1. cbn [report fst snd].
    rewrite write_marked_app, orb_assoc. split; [reflexivity|]. split; congruence.
  - destruct (diff_line_text label a b s f) as (s' & E & P). exists s'. split; [exact E|exact P].
  - destruct (diff_doc_text (DLabel label) s f I) as (s' & E & P). exists s'. split; [exact E|exact P].
  - destruct (diff_doc_text DBreak s f I) as (s' & E & P). exists s'. split; [exact E|exact P].
  - unfold diff_indent, diff_body. cbn [p_prefix p_body text_printer].
    destruct (IHb (text_set_prefix XEqual (text_indented s)) false) as (s1 & E1 & I1 & D1).
    rewrite E1. cbn [ts_depth ts_indent text_set_prefix text_indented orb]. rewrite write_marked_empty.
    cbn [report fst snd]. destruct (report (ts_depth s) (S (ts_indent s)) b) as [ls fb] eqn:EL. cbn [fst snd].
    destruct ls as [|p ls].
    + cbn [is_empty negb nonempty andb]. destruct (IHh s f) as (s2 & E2 & P2). exists s2. rewrite E2.
      split; [|exact P2]. now rewrite app_nil_r, orb_false_r.
    + cbn [is_empty negb nonempty andb p_header text_printer]. unfold diff_header. cbn [p_prefix text_printer].
      match goal with |- context [diff_doc _ _ _ h ?s0 false] =>
        destruct (IHh s0 false) as (s2 & E2 & I2 & D2) end.
      rewrite E2. cbn [ts_depth ts_indent text_set_prefix orb] in *. exists s2.
      rewrite write_marked_app. split; [|split; assumption]. now rewrite (orb_comm fb).
  - unfold diff_indent, diff_body. cbn [p_prefix p_body text_printer].
    destruct (IHb (text_set_prefix XEqual (text_indented s)) false) as (s1 & E1 & I1 & D1).
    rewrite E1. cbn [ts_depth ts_indent text_set_prefix text_indented orb]. rewrite write_marked_empty.
    cbn [report]. destruct (report (ts_depth s) (S (ts_indent s)) b) as [ls fb] eqn:EL. cbn [fst snd].
    destruct ls as [|p ls].
    + cbn [is_empty negb fst snd]. exists s. rewrite orb_false_r. split; [reflexivity|split; reflexivity].
    + cbn [is_empty negb p_header text_printer]. unfold diff_header, diff_label. cbn [p_prefix text_printer p_line].
      match goal with |- context [keep_modify _ ?s0] => destruct (keep_before s0) as (B & I & D) end.
      eexists. split; [|split; [exact I|exact D]].
      rewrite PrintProofs.text_line_eq, B, I. rewrite orb_false_r. reflexivity.
  - unfold diff_body. cbn [p_prefix p_body text_printer].
    destruct (IHb (text_set_prefix XEqual (text_indented s)) false) as (s1 & E1 & I1 & D1).
    rewrite E1. cbn [ts_depth ts_indent text_set_prefix text_indented p_id text_printer orb].
    unfold diff_header. cbn [p_prefix text_printer].
    match goal with |- context [diff_doc _ _ _ h ?s0 false] =>
      destruct (IHh s0 false) as (s2 & E2 & I2 & D2) end.
    rewrite E2. cbn [ts_depth ts_indent text_set_prefix orb] in *. exists s2.
    cbn [report fst snd]. rewrite write_marked_app. split; [|split; assumption].
    f_equal. rewrite orb_false_r. now rewrite (orb_comm (snd (report (ts_depth s) (ts_indent s) h))).
  - cbn [p_inline_begin text_printer report]. destruct s as [i p n]. cbn [ts_depth ts_indent] in *.
    destruct n as [|n].
    + eexists. cbn [fst snd]. rewrite orb_false_r. split; [reflexivity|]. split; reflexivity.
    + destruct (IH (mkText i p n) f) as (s1 & E1 & I1 & D1). cbn [ts_prefix]. rewrite E1.
      eexists. split; [reflexivity|]. cbn in *. split; cbn; congruence.
  - cbn [p_prefix text_printer report fst snd]. rewrite print_doc_text. exists (text_set_prefix XDelete s).
    split; [|split; reflexivity]. rewrite orb_true_r. cbn [ts_prefix ts_depth ts_indent text_set_prefix].
    now rewrite (write_with_mark Old _ XDelete).
  - cbn [p_prefix text_printer report fst snd]. rewrite print_doc_text. exists (text_set_prefix XAdd s).
    split; [|split; reflexivity]. rewrite orb_true_r. cbn [ts_prefix ts_depth ts_indent text_set_prefix].
    now rewrite (write_with_mark New _ XAdd).
  - destruct (diff_doc_text (DBlock a b) s f I) as (s' & E & P). exists s'. split; [|exact P]. cbn [diff_doc] in E.
    rewrite E. cbn [report fst snd changed diff_lines].
    now rewrite (lines_nonempty a _ (ts_indent s)), (lines_nonempty b _ (ts_indent s)).
  - cbn [p_sub text_printer report]. destruct (IH s false) as (s1 & E1 & _). rewrite E1.
    exists s. split; [|split; reflexivity]. rewrite orb_false_r, orb_false_l.
    destruct (snd (report (ts_depth s) (ts_indent s) d)); reflexivity.
  - cbn [report fst snd]. destruct (IH s f) as (s1 & E1 & P1). rewrite E1. exists s1. split; [|exact P1].
    destruct fl; cbn [negb andb]; [now rewrite orb_false_r|reflexivity].
Qed.

Lemma report_compare e depth : exists s,
  diff_doc text_printer false false e (text_start depth) false =
    (write_marked (fst (report depth 0 e)), s, snd (report depth 0 e)).
Proof. destruct (report_text e (text_start depth) false) as (s & E & _). now exists s. Qed.

(** A visible difference is reported. *)
Lemma report_changed d : forall depth i, changed depth d = true ->
  snd (report depth i d) = true /\ fst (report depth i d) <> [].
Proof.
  assert (APP : forall A (x y : list A), x <> [] \/ y <> [] -> (x ++ y)%list <> []).
  { intros A [|? x] y [H|H]; cbn; try congruence; try discriminate. }
  ddoc_ind d; intros depth i C; cbn [changed] in C; cbn [report fst snd]; try discriminate.
  - apply orb_true_iff in C. destruct C as [C|C]; [apply (IHa depth i) in C|apply (IHb depth i) in C]; destruct C as [-> L];
      rewrite ?orb_true_r; (split; [reflexivity|apply APP; tauto]).
  - split; [exact C|]. apply (changed_lines (DLine label a b) depth i C I).
  - apply orb_true_iff in C. destruct C as [C|C].
    + apply (IHh depth i) in C. destruct C as [-> L]. split; [reflexivity|apply APP; tauto].
    + apply (IHb depth (S i)) in C. destruct C as [-> L]. rewrite (proj2 (nonempty_iff _) L), orb_true_r.
      split; [reflexivity|apply APP; tauto].
  - apply (IHb depth (S i)) in C. destruct (report depth (S i) b) as [[|p ls] f]; cbn [fst snd] in *; [tauto|].
    split; [tauto|discriminate].
  - apply orb_true_iff in C. destruct C as [C|C].
    + apply (IHh depth i) in C. destruct C as [-> L]. split; [reflexivity|apply APP; tauto].
    + apply (IHb depth (S i)) in C. destruct C as [-> L]. rewrite orb_true_r. split; [reflexivity|apply APP; tauto].
  - destruct depth; [discriminate|]. auto.
  - split; [reflexivity|]. intros E. apply map_eq_nil in E. rewrite (lines_empty d depth i 0%nat E) in C. discriminate.
  - split; [reflexivity|]. intros E. apply map_eq_nil in E. rewrite (lines_empty d depth i 0%nat E) in C. discriminate.
  - rewrite (lines_nonempty a depth i), (lines_nonempty b depth i). split; [exact C|]. apply APP. unfold with_mark.
    rewrite <- (lines_nonempty a depth i), <- (lines_nonempty b depth i) in C.
    destruct (lines depth i a), (lines depth i b); cbn in C |- *; try discriminate C;
      ((left; discriminate) || (right; discriminate)).
  - apply (IH depth i) in C. destruct C as [-> L]. cbn [fst snd]. tauto.
  - destruct fl; [discriminate|]. cbn [negb andb] in *. auto.
Qed.
Lemma report_unchanged d depth i : snd (report depth i d) = false -> changed depth d = false.
Proof.
  intros R. destruct (changed depth d) eqn:C; [|reflexivity]. apply (report_changed d depth i) in C. destruct C. congruence.
Qed.

(** Without differences other than those that are ignored, nothing is reported. *)
Lemma report_quiet d : forall depth i, identical depth (without_ignored d) -> snd (report depth i d) = false.
Proof.
  ddoc_ind d; intros depth i C; cbn [without_ignored identical] in C; cbn [report snd fst]; try reflexivity; try tauto.
  - destruct C. now rewrite IHa, IHb.
  - rewrite C, text_eqb_refl. reflexivity.
  - destruct C. now rewrite IHh, IHb, andb_false_r.
  - specialize (IHb depth (S i) C). destruct (report depth (S i) b) as [[|p ls] f]; cbn [snd] in *; auto.
  - destruct C. now rewrite IHh, IHb.
  - destruct depth; [reflexivity|]. auto.
  - destruct C as [CA CB]. rewrite (lines_empty a depth 0 i CA), (lines_empty b depth 0 i CB). reflexivity.
  - specialize (IH depth i C). now rewrite IH.
  - destruct fl; [reflexivity|]. cbn [negb andb]. auto.
Qed.
(** A comparison of the same lines shows them. *)
Lemma report_identical d : forall depth i, identical depth d -> unhidden d ->
  report depth i d = (with_mark Same (lines depth i (old_side d)), false).
Proof.
  intros depth i C U. rewrite (surjective_pairing (report depth i d)). f_equal.
  - revert depth i C U. ddoc_ind d; intros depth i C U; cbn [identical unhidden] in *; cbn [report fst old_side lines];
      try reflexivity; try tauto.
    + destruct C, U. rewrite with_mark_app. f_equal; auto.
    + cbn [diff_lines lines]. now rewrite C, text_eqb_refl.
    + destruct C, U. rewrite with_mark_app. f_equal; auto.
    + specialize (IHb depth (S i) C U). destruct (report depth (S i) b) as [ls f]. cbn [fst] in IHb. subst ls.
      destruct (lines depth (S i) (old_side b)); reflexivity.
    + destruct C, U. rewrite with_mark_app. f_equal; auto.
    + destruct depth; [reflexivity|]. auto.
    + destruct C as [CA CB]. now rewrite (lines_empty a depth 0 i CA), (lines_empty b depth 0 i CB).
    + auto.
  - apply report_quiet. now apply identical_without.
Qed.

(** ** Rows *)

Lemma diff_rows_in {A} (f : hash -> A -> hash -> A -> comparison) o ha hb l r : In r (diff_rows f o ha hb l) -> In r l.
Proof. intros I. apply filter_In in I. destruct I as [I _]. eapply Permutation_in; [apply stable_sort_perm|exact I]. Qed.
Lemma row_left {A} (r : merge_result A A) rows : In r rows ->
  match r with
  | MLeft a => In a (lefts rows) | MRight b => In b (rights rows) | MBoth a b => In a (lefts rows) /\ In b (rights rows)
  end.
Proof.
  intros I. destruct r; [| |split]; apply in_flat_map; eexists; (split; [exact I|now left]).
Qed.
Lemma in_lefts {A} (a : A) (rows : list (merge_result A A)) : In a (lefts rows) -> In (MLeft a) rows \/ exists b, In (MBoth a b) rows.
Proof.
  intros I. apply in_flat_map in I. destruct I as (r & IR & I). destruct r; cbn in I; try contradiction; destruct I as [<-|[]]; eauto.
Qed.
Lemma in_rights {A} (b : A) (rows : list (merge_result A A)) : In b (rights rows) -> In (MRight b) rows \/ exists a, In (MBoth a b) rows.
Proof.
  intros I. apply in_flat_map in I. destruct I as (r & IR & I). destruct r; cbn in I; try contradiction; destruct I as [<-|[]]; eauto.
Qed.

Section Listed.
  Context {A : Type}.
  Variable o : options.
  Variable ii : images.
  Variable cmp_by : hash -> A -> hash -> A -> comparison.
  Variables pa pb : A -> option pdoc.
  Variable df : A -> A -> option ddoc.
  Local Notation listed := (listed_rows o ii cmp_by pa pb df).

  Lemma listed_some rows :
    (forall a, In a (lefts rows) -> exists p, pa a = Some p) ->
    (forall b, In b (rights rows) -> exists p, pb b = Some p) ->
    (forall a b, In (MBoth a b) rows -> exists e, df a b = Some e) ->
    exists e, listed rows = Some e.
  Proof.
    intros HA HB HD. apply ItemShown.all_rows_some.
    - intros a I. apply HA. apply in_lefts in I. destruct I as [I|(b & I)]; apply diff_rows_in, row_left in I; tauto.
    - intros b I. apply HB. apply in_rights in I. destruct I as [I|(a & I)]; apply diff_rows_in, row_left in I; tauto.
    - intros a b I. apply diff_rows_in in I. destruct (HD a b I) as (e & ->). cbn [bind]. eauto.
  Qed.

  Lemma all_blocks depth : forall rows e,
    all_rows pa pb (fun a b => bind (df a b) (fun d => Some (DIfDiff d))) rows = Some e ->
    blocks depth pa pb df rows (fst (report depth 0 e)) (snd (report depth 0 e)).
  Proof.
    induction rows as [|r rows IH]; cbn [all_rows]; intros e E; [injection E as <-; constructor|].
    apply bind_some in E. destruct E as (d & ED & E). apply bind_some in E. destruct E as (rest & ER & E).
    apply some_eq in E. rewrite <- E. cbn [report fst snd]. constructor; [|now apply IH].
    destruct r as [a|b|a b]; cbn [row_doc] in ED; apply bind_some in ED; destruct ED as (x & EX & EY);
      apply some_eq in EY; rewrite <- EY; cbn [report fst snd].
    - now constructor.
    - now constructor.
    - destruct (report_compare x depth) as (s & RC). destruct (snd (report depth 0 x)) eqn:F; cbn [fst snd].
      + now apply (bl_changed depth pa pb df a b x _ s).
      + now apply (bl_unchanged depth pa pb df a b x _ s EX RC).
  Qed.
  Lemma listed_blocks depth rows e : listed rows = Some e ->
    blocks depth pa pb df (diff_rows cmp_by o (im_hash (is_a ii)) (im_hash (is_b ii)) rows)
      (fst (report depth 0 e)) (snd (report depth 0 e)).
  Proof. apply all_blocks. Qed.

  (** Rows with two entries between which there is no difference. *)
  Definition silent (e : ddoc) : Prop := forall n i, snd (report n i e) = false.
  Definition hidden (e : ddoc) : Prop := forall n i, report n i e = ([], false).
  Lemma listed_self rows :
    (forall r, In r rows -> exists a b e, r = MBoth a b /\ df a b = Some e /\ silent e) ->
    exists e, listed rows = Some e /\ hidden e.
  Proof.
    intros H. unfold listed_rows.
    assert (X : forall r, In r (diff_rows cmp_by o (im_hash (is_a ii)) (im_hash (is_b ii)) rows) ->
              exists a b e, r = MBoth a b /\ df a b = Some e /\ silent e).
    { intros r I. apply H. now apply diff_rows_in in I. }
    induction (diff_rows cmp_by o (im_hash (is_a ii)) (im_hash (is_b ii)) rows) as [|r l IH]; cbn [all_rows].
    - exists DNil. split; [reflexivity|]. intros n i. reflexivity.
    - destruct IH as (e & -> & HE); [intros; apply X; now right|].
      destruct (X r (or_introl eq_refl)) as (a & b & d & -> & D & SD). cbn [row_doc]. rewrite D. cbn [bind].
      eexists. split; [reflexivity|]. intros n i. cbn [report]. now rewrite SD, HE.
  Qed.
  (** If nothing is reported and nothing left out, then the entries pair up. *)
  Lemma listed_unreported depth i rows e :
    i_added (o_ignore o) = false -> i_deleted (o_ignore o) = false ->
    listed rows = Some e -> snd (report depth i e) = false ->
    exists l, Permutation (map fst l) (lefts rows) /\ Permutation (map snd l) (rights rows) /\
      forall a b, In (a, b) l -> In (MBoth a b) rows /\
        exists d, df a b = Some d /\ snd (report depth i d) = false.
  Proof.
    intros IA ID E R. unfold listed_rows in E.
    assert (P : Permutation (diff_rows cmp_by o (im_hash (is_a ii)) (im_hash (is_b ii)) rows) rows).
    { unfold diff_rows. rewrite IA, ID. cbn [negb].
      match goal with |- Permutation (filter ?f ?l) _ => assert (Y : filter f l = l) end.
      { match goal with |- filter _ ?k = _ => induction k as [|r k' IH]; [reflexivity|]; cbn [filter]; rewrite IH; now destruct r end. }
      rewrite Y. apply stable_sort_perm. }
    set (rs := diff_rows cmp_by o (im_hash (is_a ii)) (im_hash (is_b ii)) rows) in *.
    assert (Y : exists l, rs = map (fun p => MBoth (fst p) (snd p)) l /\ forall a b, In (a, b) l ->
              exists d, df a b = Some d /\ snd (report depth i d) = false).
    { clear P. revert e E R. induction rs as [|r l IH]; cbn [all_rows]; intros e E R.
      - exists []. split; [reflexivity|]. intros a b [].
      - apply bind_some in E. destruct E as (d & ED & E). apply bind_some in E. destruct E as (rest & ER & E).
        apply some_eq in E. rewrite <- E in R. cbn [report snd] in R. apply orb_false_iff in R. destruct R as [R1 R2].
        destruct (IH rest ER R2) as (l' & -> & H).
        destruct r as [a|b|a b]; cbn [row_doc] in ED; apply bind_some in ED; destruct ED as (x & EX & EY);
          apply some_eq in EY; rewrite <- EY in R1; cbn [report snd] in R1; try discriminate.
        exists ((a, b) :: l'). split; [reflexivity|]. intros a' b' [[= <- <-]|I]; [|auto].
        exists x. split; [exact EX|]. destruct (snd (report depth i x)) eqn:F; [discriminate|reflexivity]. }
    destruct Y as (l & EL & H). exists l.
    assert (LL : forall l : list (A * A), lefts (map (fun p => MBoth (fst p) (snd p)) l) = map fst l).
    { induction l0 as [|x l0 IH]; [reflexivity|]. cbn. now rewrite <- IH. }
    assert (RR : forall l : list (A * A), rights (map (fun p => MBoth (fst p) (snd p)) l) = map snd l).
    { induction l0 as [|x l0 IH]; [reflexivity|]. cbn. now rewrite <- IH. }
    rewrite <- LL, <- RR, <- EL. split; [now apply Permutation_flat_map|]. split; [now apply Permutation_flat_map|].
    intros a b I. split; [|now apply H]. eapply Permutation_in; [exact P|]. rewrite EL.
    apply in_map_iff. now exists (a, b).
  Qed.
End Listed.

(** ** A file compared with itself *)

Lemma silent_quiet e : (forall n, identical n (without_ignored e)) -> silent e.
Proof. intros H n i. apply report_quiet, H. Qed.
Lemma silent_same e : same_sides e -> silent e.
Proof. intros H. apply silent_quiet. intros n. apply identical_without, H. Qed.
Lemma hidden_silent e : hidden e -> silent e.
Proof. intros H n i. now rewrite H. Qed.
Lemma silent_seq a b : silent a -> silent b -> silent (DSeq a b).
Proof. intros H1 H2 n i. cbn [report snd]. now rewrite H1, H2. Qed.
Lemma silent_nil : silent DNil.
Proof. intros n i. reflexivity. Qed.

Lemma merge_all_self {A} (cmp : A -> A -> comparison) l r : (forall a, In a l -> cmp a a = Eq) ->
  In r (merge_all cmp l l) -> exists a, r = MBoth a a /\ In a l.
Proof.
  intros H. rewrite merge_all_total, merge_self by exact H. intros I. apply in_map_iff in I.
  destruct I as (a & <- & I). eauto.
Qed.

(** A comparison that shows what is printed, and no difference. *)
Definition mirror (e : ddoc) (p : pdoc) : Prop := same_sides e /\ reads e p p.
Lemma mirror_nil : mirror DNil PNil.
Proof. split; [intros n; exact I|apply reads_nil]. Qed.
Lemma mirror_break : mirror DBreak PBreak.
Proof. split; [intros n; exact I|]. split; [|split]; [apply same_refl..|exact I]. Qed.
Lemma mirror_line l v : mirror (DLine l v v) (PLine l v).
Proof. split; [apply same_line_self|apply reads_line]. Qed.
Lemma mirror_field l v : mirror (field2 l v v) (field l v).
Proof. split; [apply same_field_self|apply reads_field]. Qed.
Lemma mirror_seq a b p q : mirror a p -> mirror b q -> mirror (DSeq a b) (PSeq p q).
Proof. intros [A1 A2] [B1 B2]. split; [intros n; split; auto|now apply reads_seq]. Qed.
Lemma mirror_tree c c' a b p q : mirror a p -> mirror b q -> mirror (DTree c a b) (PTree c' p q).
Proof.
  intros [A1 (AO & AN & AU)] [B1 (BO & BN & BU)]. split; [intros n; split; auto|].
  split; [|split; [|split; assumption]]; intros d i; cbn [old_side new_side lines]; now rewrite ?AO, ?AN, ?BO, ?BN.
Qed.
Lemma mirror_section c l b q : mirror b q -> mirror (DSection c l b) (PSection c l q).
Proof.
  intros [B1 (BO & BN & BU)]. split; [intros n; apply B1|].
  split; [|split; [|assumption]]; intros d i; cbn [old_side new_side lines]; now rewrite ?BO, ?BN.
Qed.
Lemma mirror_report e p n i : mirror e p -> report n i e = (with_mark Same (lines n i p), false).
Proof.
  intros [S (O & _ & U)]. rewrite report_identical by auto. now rewrite O.
Qed.
Lemma mirror_rows {A} (pr : A -> option pdoc) df l :
  (forall a, In a l -> exists e p, df a a = Some e /\ pr a = Some p /\ mirror e p) ->
  exists e p, all_rows pr pr df (map (fun a => MBoth a a) l) = Some e /\ all_printed pr l = Some p /\ mirror e p.
Proof.
  induction l as [|a l IH]; intros H; cbn [map all_rows row_doc all_printed].
  - exists DNil, PNil. split; [reflexivity|]. split; [reflexivity|apply mirror_nil].
  - destruct (H a (or_introl eq_refl)) as (e & p & -> & -> & M).
    destruct IH as (e' & p' & -> & -> & M'); [intros; apply H; now right|]. cbn [bind].
    eexists _, _. split; [reflexivity|]. split; [reflexivity|]. now apply mirror_seq.
Qed.
Lemma range_cmp_self r : range_cmp r r = Eq.
Proof. unfold range_cmp. now rewrite !N.compare_refl. Qed.
Lemma mirror_ranges label l : exists e p,
  dcollapsed_of label (compared_ord_list range_cmp print_range print_range diff_range l l) = Some e /\
  collapsed_of label (all_printed print_range l) = Some p /\ mirror e p.
Proof.
  unfold compared_ord_list. rewrite merge_all_total, merge_self by (intros; apply range_cmp_self).
  destruct (mirror_rows print_range diff_range l) as (e & p & -> & -> & M).
  - intros r _. eexists _, _. split; [reflexivity|]. split; [reflexivity|]. apply mirror_line.
  - eexists _, _. split; [reflexivity|]. split; [reflexivity|]. now apply mirror_section.
Qed.
Lemma count_self a : count_with_change a a = dec a.
Proof. unfold count_with_change. rewrite N.eqb_refl. apply app_nil_r. Qed.
Lemma mirror_count l a : mirror (count_field2 l a a) (count_field l a).
Proof. unfold count_field2, count_field. rewrite count_self. apply mirror_field. Qed.
Lemma mirror_nonzero l a : mirror (nonzero_field2 l a a) (nonzero_field l a).
Proof.
  unfold nonzero_field2, nonzero_field. destruct (a =? 0); [apply mirror_nil|apply mirror_count].
Qed.
Lemma mirror_section_entry s : mirror (diff_section s s) (print_section s).
Proof.
  apply mirror_tree; [apply mirror_line|]. unfold dseq, pseq. cbn [fold_right].
  apply mirror_seq; [apply mirror_field|]. apply mirror_seq; [apply mirror_count|]. apply mirror_nil.
Qed.
Lemma section_cost_self s : section_cost s s = 0.
Proof.
  assert (X : forall n, opt_string_eqb n n = true) by (intros [n|]; cbn; [apply String.eqb_refl|reflexivity]).
  unfold section_cost. now rewrite !X.
Qed.
Lemma mirror_sections choose l : short l -> exists e p,
  dcollapsed_of "sections" (compared_list choose section_step section_cost (fun s => Some (print_section s))
    (fun s => Some (print_section s)) (fun a b => Some (diff_section a b)) l l) = Some e /\
  collapsed_of "sections" (all_printed (fun s => Some (print_section s)) l) = Some p /\ mirror e p.
Proof.
  intros S. unfold compared_list. rewrite script_self.
  2: { now apply short_cost. }
  2: { intros a _. split; [apply section_cost_self|reflexivity]. }
  cbn [bind].
  destruct (mirror_rows (fun s => Some (print_section s)) (fun a b => Some (diff_section a b)) l) as (e & p & -> & -> & M).
  - intros r _. eexists _, _. split; [reflexivity|]. split; [reflexivity|]. apply mirror_section_entry.
  - eexists _, _. split; [reflexivity|]. split; [reflexivity|]. now apply mirror_section.
Qed.

Lemma rl_size_bound l : rl_size l < 2 ^ 64.
Proof.
  unfold rl_size. assert (X : forall a, a < 2 ^ 64 -> fold_left (fun s r => add64 s (range_size r)) l a < 2 ^ 64); [|now apply X].
  induction l as [|r l IH]; intros a HA; cbn [fold_left]; [exact HA|]. apply IH. apply N.mod_lt. discriminate.
Qed.
Lemma sub64_le a b : b <= a -> a < 2 ^ 64 -> sub64 a b = a - b.
Proof.
  intros L B. unfold sub64, wrap64, two64. change 18446744073709551616 with (2 ^ 64) in *.
  rewrite (N.mod_small b) by lia. replace (a + 2 ^ 64 - b) with (a - b + 1 * 2 ^ 64) by lia.
  rewrite N.mod_add by discriminate. apply N.mod_small. lia.
Qed.

Section Self.
  Variable choose : list N -> list N -> list (list N) -> nat -> nat.
  Variable im : image.
  Variable cmp : type -> type -> comparison.
  Variable o : options.
  Variable pc : param_cmp.
  Variable fuel : nat.
  Local Notation ii := (mkImages im im cmp).
  Hypothesis SI : short_image im.
  Hypothesis AC : acyclic_view (im_view im).
  Hypothesis CT : compares_types (mkSides (im_view im) (im_view im) cmp).
  Hypothesis HT : o_html o = false.
  Hypothesis PF : (0 < fuel)%nat.

  Lemma unit_fields_self u : exists e p,
    diff_unit_fields o ii u u = Some e /\ print_unit_fields o im u = Some p /\ mirror e p.
  Proof.
    unfold diff_unit_fields, print_unit_fields. cbn [is_a is_b]. unfold diff_ranges.
    destruct (mirror_ranges "addresses" (unit_ranges (im_sizes im) u)) as (e1 & p1 & E1 & P1 & M1).
    unfold diff_range, print_range in E1. rewrite E1.
    destruct (mirror_ranges "unknown addresses" (unit_unknown_ranges (im_sizes im) u)) as (e2 & p2 & E2 & P2 & M2).
    rewrite E2, P1, P2, orb_diag. destruct (p_unit_address (o_print o)); [destruct (1 <? _)%nat|]; cbn [bind];
      (eexists _, _; split; [reflexivity|]; split; [reflexivity|]; unfold dseq, pseq; cbn [fold_right]);
      repeat (apply mirror_seq; [|]); auto using mirror_nil, mirror_nonzero, mirror_break, mirror_field.
  Qed.
  Lemma file_header_self : exists e p,
    diff_file_header choose o ii = Some e /\ print_file_header o im = Some p /\ (exists q, mirror e q) /\
      (file_function_size (im_file im) + file_variable_size (im_sizes im) (im_file im)
         <= rl_size (file_ranges (im_sizes im) (im_units im)) -> mirror e p).
  Proof.
    unfold diff_file_header, print_file_header. cbn [is_a is_b]. unfold diff_ranges.
    destruct (mirror_ranges "addresses" (file_ranges (im_sizes im) (im_units im))) as (e1 & p1 & E1 & P1 & M1).
    unfold diff_range, print_range in E1. rewrite E1, P1.
    destruct (mirror_sections choose (im_sections im)) as (e2 & p2 & E2 & P2 & M2); [apply SI|].
    rewrite E2, P2.
    set (fns := file_function_size (im_file im)). set (vars := file_variable_size (im_sizes im) (im_file im)).
    set (size := rl_size (file_ranges (im_sizes im) (im_units im))).
    assert (MA : exists e p, (if p_file_address (o_print o) then Some e1 else Some DNil) = Some e /\
                   (if p_file_address (o_print o) then Some p1 else Some PNil) = Some p /\ mirror e p).
    { destruct (p_file_address (o_print o)); eexists _, _; (split; [reflexivity|]; split; [reflexivity|]); auto using mirror_nil. }
    destruct MA as (e & p & -> & -> & MA). cbn [bind].
    eexists _, _. split; [reflexivity|]. split; [reflexivity|].
    set (other := sub64 (sub64 size fns) vars).
    assert (S : forall x, mirror (count_field2 "other size" other other) x ->
      mirror (DSeq (DTree true (DLine [] (VText (txt "file " ++ txt (im_path im))) (VText (txt "file " ++ txt (im_path im))))
                  (dseq [e; count_field2 "size" size size; count_field2 "fn size" fns fns; count_field2 "var size" vars vars;
                         count_field2 "other size" other other; e2])) DBreak)
        (PSeq (PTree true (PLine [] (VText (txt "file " ++ txt (im_path im))))
                  (pseq [p; count_field "size" size; count_field "fn size" fns; count_field "var size" vars; x; p2])) PBreak)).
    { intros x X. unfold dseq, pseq. cbn [fold_right]. apply mirror_seq; [|apply mirror_break].
      apply mirror_tree; [apply mirror_line|].
      repeat (apply mirror_seq; [|]); auto using mirror_nil, mirror_count. }
    split; [eexists; apply (S _ (mirror_count _ _))|].
    intros F. apply S.
    replace (other_size size fns vars) with other; [apply mirror_count|].
    assert (SB : size < 2 ^ 64).
    { subst size. apply rl_size_bound. }
    fold fns vars size in F. unfold other, other_size.
    rewrite !sub64_le by (rewrite ?sub64_le; lia).
    unfold add64, wrap64. rewrite N.mod_small by (unfold two64; lia).
    destruct (N.leb_spec (fns + vars) size); lia.
  Qed.

  (** Items that are listed in a comparison are printed. *)
  Lemma print_list_perm {A} (f : hash -> A -> hash -> A -> comparison) h l x : In x l -> In x (print_list f h l).
  Proof. intros I. eapply Permutation_in; [|exact I]. apply Permutation_sym, stable_sort_perm. Qed.
  Lemma listed_twice u t : In t (filter_types o (im_hash im) true u) -> In t (filter_types o (im_hash im) false u).
  Proof.
    unfold filter_types. rewrite !filter_In. intros [I F]. split; [exact I|]. unfold filter_type in *.
    rewrite !andb_true_iff in F. rewrite !andb_true_iff. cbn [andb negb] in *.
    destruct F as [[[F1 F2] F3] F4]. split; [split; [split|]|]; try assumption. destruct (t_kind t); auto.
  Qed.
  Lemma print_unit_parts u p : print_unit o pc fuel im u = Some p ->
    (c_type (o_category o) = true -> forall t, In t (filter_types o (im_hash im) true u) -> exists q, print_type_in o fuel im u t = Some q) /\
    (c_function (o_category o) = true -> forall f, In f (filter_functions o u) -> exists q, print_function_in o fuel im u f = Some q).
  Proof.
    intros E. unfold print_unit, print_unit_body in E. rewrite HT in E.
    repeat (apply bind_some in E; destruct E as (? & ? & E)).
    apply bind_some in H. destruct H as (? & _ & H). apply bind_some in H. destruct H as (t & ET & H).
    apply bind_some in H. destruct H as (? & _ & H). apply bind_some in H. destruct H as (f & EF & _).
    split; intros C z I.
    - apply (all_printed_some _ _ _ ET). unfold printed_types. rewrite C. now apply print_list_perm, listed_twice.
    - apply (all_printed_some _ _ _ EF). unfold printed_functions. rewrite C. now apply print_list_perm.
  Qed.

  Lemma sorted_in {A} (c : A -> A -> comparison) l x : In x (stable_sort c l) -> In x l.
  Proof. intros I. eapply Permutation_in; [apply stable_sort_perm|exact I]. Qed.
  Lemma types_self u p : In u (im_units im) -> print_unit o pc fuel im u = Some p ->
    exists e, diff_types choose o fuel ii u u = Some e /\ hidden e.
  Proof.
    intros IU EP. apply print_unit_parts in EP. destruct EP as [ET _].
    unfold diff_types. cbn [is_a is_b]. destruct (c_type (o_category o)).
    2: { exists DNil. split; [reflexivity|]. intros n i. reflexivity. }
    apply listed_self. intros r I. apply merge_all_self in I.
    - destruct I as (t & -> & I). apply sorted_in in I. destruct (ET eq_refl t I) as (q & EQ).
      assert (ST : short_type t).
      { destruct SI as (_ & _ & SU). rewrite Forall_forall in SU. destruct (SU u IU) as [ST _].
        rewrite Forall_forall in ST. apply ST. now apply filter_In in I. }
      destruct (type_self choose (im_view im) cmp (proj1 SI) CT AC o fuel (im_dir im u) t q ST PF EQ) as (e & EE & SE).
      exists t, t, e. split; [reflexivity|]. split; [exact EE|]. now apply silent_same.
    - intros t I'. apply sorted_in in I'. apply filter_In in I'. destruct I' as [_ I']. apply filter_type_iff in I'.
      apply listed_listable in I'. rewrite type_cmp_id_key by assumption. apply (tp_refl _ cmp_key_tp).
  Qed.
  Lemma functions_self u p rows : In u (im_units im) -> print_unit o pc fuel im u = Some p -> c_function (o_category o) = true ->
    (forall r, In r rows -> exists f, r = MBoth f f /\ In f (filter_functions o u)) ->
    exists e, diff_functions choose o pc fuel ii rows u u = Some e /\ hidden e.
  Proof.
    intros IU EP CF HR. apply print_unit_parts in EP. destruct EP as [_ ET].
    unfold diff_functions. cbn [is_a is_b]. apply listed_self. intros r I. destruct (HR r I) as (f & -> & IF).
    destruct (ET CF f IF) as (q & EQ).
    assert (SF : short_function (im_scene im) f).
    { destruct SI as (_ & _ & SU). rewrite Forall_forall in SU. destruct (SU u IU) as [_ ST].
      rewrite Forall_forall in ST. apply ST. now apply filter_In in IF. }
    destruct (function_fine choose o (is_scenes ii) (im_dir im u) (im_dir im u) False (im_unit_id im u) fuel f f q q SF SF
                ltac:(tauto) ltac:(tauto) ltac:(tauto) EQ EQ) as (e & p' & q' & ED & _ & _ & _ & Q & _).
    exists f, f, e. split; [reflexivity|]. split; [exact ED|]. apply silent_quiet. apply Q. split; [|reflexivity].
    split; [reflexivity|]. split; [reflexivity|]. split; assumption.
  Qed.
  Lemma function_rows_self u r : In r (fst (merged_functions o pc (im_hash im) u (im_hash im) u)) \/
      In r (snd (merged_functions o pc (im_hash im) u (im_hash im) u)) ->
    exists f, r = MBoth f f /\ In f (filter_functions o u).
  Proof.
    intros I. assert (J : In r (merge_all function_cmp_id
      (stable_sort (fun x y => function_cmp_for_sort pc (im_hash im) x (im_hash im) y) (filter_functions o u))
      (stable_sort (fun x y => function_cmp_for_sort pc (im_hash im) x (im_hash im) y) (filter_functions o u)))).
    { destruct I as [I|I]; cbn [merged_functions fst snd] in I; now apply filter_In in I. }
    apply merge_all_self in J; [|intros; apply function_cmp_self]. destruct J as (f & -> & J). exists f.
    split; [reflexivity|]. now apply sorted_in in J.
  Qed.
  Lemma variables_self u : exists e, diff_variables o ii u u = Some e /\ hidden e.
  Proof.
    unfold diff_variables. cbn [is_a is_b]. destruct (c_variable (o_category o)).
    2: { exists DNil. split; [reflexivity|]. intros n i. reflexivity. }
    apply listed_self. intros r I. apply merge_all_self in I.
    - destruct I as (v & -> & I). exists v, v. eexists. split; [reflexivity|]. split; [reflexivity|].
      apply silent_same. now apply variable_self.
    - intros v _. rewrite variable_cmp_id_key. apply (tp_refl _ NamespaceProofs.cmp_item_tp).
  Qed.
  Lemma unit_self u p : In u (im_units im) -> print_unit o pc fuel im u = Some p ->
    exists e, diff_unit choose o pc fuel ii u u = Some e /\ silent e.
  Proof.
    intros IU EP. unfold diff_unit, diff_unit_body.
    destruct (unit_fields_self u) as (ef & pf & -> & _ & MF).
    destruct (types_self u p IU EP) as (et & -> & HT').
    destruct (variables_self u) as (ev & -> & HV). cbn [is_a is_b]. rewrite HT. cbn [bind].
    assert (X : exists e, (if c_function (o_category o)
       then bind (diff_functions choose o pc fuel ii (fst (merged_functions o pc (im_hash im) u (im_hash im) u)) u u)
           (fun x => bind (diff_functions choose o pc fuel ii (snd (merged_functions o pc (im_hash im) u (im_hash im) u)) u u)
              (fun y => Some (DSeq x y))) else Some DNil) = Some e /\ silent e).
    { destruct (c_function (o_category o)) eqn:CF; [|eexists; split; [reflexivity|apply silent_nil]].
      destruct (functions_self u p (fst (merged_functions o pc (im_hash im) u (im_hash im) u)) IU EP CF) as (x & -> & HX).
      { intros r I. apply function_rows_self. now left. }
      destruct (functions_self u p (snd (merged_functions o pc (im_hash im) u (im_hash im) u)) IU EP CF) as (y & -> & HY).
      { intros r I. apply function_rows_self. now right. }
      cbn [bind]. eexists. split; [reflexivity|]. apply silent_seq; now apply hidden_silent. }
    destruct X as (ex & -> & HX). cbn [bind]. eexists. split; [reflexivity|].
    unfold dseq. cbn [fold_right]. apply hidden_silent in HT', HV.
    repeat (apply silent_seq; [|]); auto using silent_nil.
    destruct (c_unit (o_category o)); [|apply silent_nil].
    apply silent_same. apply same_tree_self; [apply same_line_self|]. apply MF.
  Qed.
  Lemma file_self p : print_file o pc fuel im = Some p ->
    exists e, diff_file choose o pc fuel ii = Some e /\
      forall n, exists ls, report n 0 e = (with_mark Same ls, false) /\
        (c_file (o_category o) = false -> ls = []) /\
        (c_file (o_category o) = true ->
         file_function_size (im_file im) + file_variable_size (im_sizes im) (im_file im)
           <= rl_size (file_ranges (im_sizes im) (im_units im)) ->
         exists h, print_file_header o im = Some h /\ ls = lines n 0 h).
  Proof.
    intros EP. unfold print_file in EP. apply bind_some in EP. destruct EP as (h & EH & EP).
    apply bind_some in EP. destruct EP as (us & EU & _).
    assert (X : exists e, listed_rows o ii (unit_cmp_by o) (print_unit o pc fuel im) (print_unit o pc fuel im)
                (diff_unit choose o pc fuel ii) (merged_units o (im_units im) (im_units im)) = Some e /\ hidden e).
    { apply listed_self. intros r I. apply merge_all_self in I.
      - destruct I as (u & -> & I). apply sorted_in in I.
        destruct (all_printed_some _ _ _ EU u) as (q & EQ).
        { unfold printed_units. now apply print_list_perm. }
        apply filter_In in I. destruct I as [I _].
        destruct (unit_self u q I EQ) as (e & E & S). exists u, u, e. auto.
      - intros u _. rewrite OptionsProofs.unit_cmp_id_path. apply (tp_refl _ cmp_string_tp). }
    destruct X as (e & E & HE). unfold diff_file. cbn [is_a is_b]. rewrite E.
    destruct (c_file (o_category o)).
    - destruct file_header_self as (eh & ph & -> & EPH & SH & MH). cbn [bind]. eexists. split; [reflexivity|].
      intros n. cbn [report]. rewrite HE. cbn [fst snd]. rewrite app_nil_r, orb_false_r.
      destruct SH as (q & SH). exists (lines n 0 q). rewrite (mirror_report eh q n 0 SH). cbn [fst snd].
      split; [reflexivity|]. split; [discriminate|]. intros _ F. exists ph. split; [exact EPH|].
      destruct (MH F) as [_ (O & _)]. destruct SH as [_ (O' & _)]. now rewrite <- O, <- O'.
    - cbn [bind]. eexists. split; [reflexivity|]. intros n. exists []. cbn [report]. rewrite HE. cbn [fst snd].
      repeat split. discriminate.
  Qed.
End Self.
