(** Proofs about the titles of the lists in a comparison. *)
From Coq Require Import List Arith NArith ZArith Bool String Ascii Lia Permutation.
From Verif Require Import CfiModel DieModel Base BaseProofs RangeModel NamespaceModel TypeModel TypeSpec LayoutModel FileModel
  DiffModel DiffSpec MergeProofs OptionsModel OptionsProofs FilterModel FilterSpec FilterProofs IdModel IdProofs PrintModel
  PrintSpec RefModel PrintProofs NameModel LocationModel CodeModel ItemModel ItemSpec ItemProofs ItemShown EntryModel
  EntrySpec EntryProofs OriginSpec.
Import ListNotations.
Local Open Scope list_scope.

(** All lists in a comparison have one of the titles. *)
Fixpoint titled (d : ddoc) : Prop :=
  match d with
  | DSeq a b | DTree _ a b | DId _ a b => titled a /\ titled b
  | DSection _ l b => (exists t, In t titles /\ l = txt t) /\ titled b
  | DInline d | DIfDiff d | DIgnore _ d => titled d
  | _ => True
  end.
Lemma title_shown i l : (exists t, In t titles /\ l = txt t) -> heading (Line i (labelled l [])).
Proof.
  intros (t & I & ->). exists i, t. split; [exact I|]. cbv [titles] in I. repeat (destruct I as [<-|I]; [reflexivity|]). destruct I.
Qed.
Lemma in_old_app x a b : In x (old_lines (a ++ b)) <-> In x (old_lines a) \/ In x (old_lines b).
Proof. rewrite old_lines_app. apply in_app_iff. Qed.
Lemma in_new_app x a b : In x (new_lines (a ++ b)) <-> In x (new_lines a) \/ In x (new_lines b).
Proof. rewrite new_lines_app. apply in_app_iff. Qed.
Lemma titled_sides d : unhidden d -> titled d -> forall n i x,
  (In x (old_lines (diff_lines n i d)) -> In x (lines n i (old_side d)) \/ heading x) /\
  (In x (new_lines (diff_lines n i d)) -> In x (lines n i (new_side d)) \/ heading x).
Proof.
  induction d as [|a IHa b IHb|label a b|label| |c h IHh b IHb|c l b IHb|i0 h IHh b IHb|d IH|d|d|a b|d IH|fl d IH];
    cbn [unhidden titled old_side new_side diff_lines]; intros U T n i x.
  - split; intros [].
  - destruct U as [UA UB], T as [TA TB]. destruct (IHa UA TA n i x) as [A1 A2], (IHb UB TB n i x) as [B1 B2].
    rewrite in_old_app, in_new_app. cbn [lines]. rewrite !in_app_iff. tauto.
  - destruct (text_eqb (text_value a) (text_value b)) eqn:E.
    + apply text_eqb_iff in E. rewrite old_with_mark, new_with_mark. cbn [lines]. rewrite E. tauto.
    + rewrite old_lines_app, new_lines_app, !old_with_mark, !new_with_mark, app_nil_r. cbn [app]. tauto.
  - split; intros I; left; exact I.
  - split; intros I; left; exact I.
  - destruct U as [UA UB], T as [TA TB]. destruct (IHh UA TA n i x) as [A1 A2], (IHb UB TB n (S i) x) as [B1 B2].
    rewrite in_old_app, in_new_app. cbn [lines]. rewrite !in_app_iff. tauto.
  - destruct T as [TL TB]. destruct (IHb U TB n (S i) x) as [B1 B2]. apply (title_shown i) in TL. cbn [lines].
    destruct (diff_lines n (S i) b) as [|p ls]; [split; intros []|].
    change (old_lines ((Same, Line i (labelled l [])) :: p :: ls)) with (Line i (labelled l []) :: old_lines (p :: ls)).
    change (new_lines ((Same, Line i (labelled l [])) :: p :: ls)) with (Line i (labelled l []) :: new_lines (p :: ls)).
    split; intros [<-|I]; try (right; exact TL).
    + destruct (B1 I) as [J|J]; [left|now right]. destruct (lines n (S i) (old_side b)); [destruct J|now right].
    + destruct (B2 I) as [J|J]; [left|now right]. destruct (lines n (S i) (new_side b)); [destruct J|now right].
  - destruct U as [UA UB], T as [TA TB]. destruct (IHh UA TA n i x) as [A1 A2], (IHb UB TB n (S i) x) as [B1 B2].
    rewrite in_old_app, in_new_app. cbn [lines]. rewrite !in_app_iff. tauto.
  - cbn [lines]. destruct n as [|n]; [split; intros []|]. now apply IH.
  - rewrite old_with_mark, new_with_mark. tauto.
  - rewrite old_with_mark, new_with_mark. tauto.
  - rewrite old_lines_app, new_lines_app, !old_with_mark, !new_with_mark, app_nil_r. cbn [app]. tauto.
  - destruct U.
  - now apply IH.
Qed.

(** ** Lists *)
Lemma rows_titled {T} (pa pb : T -> option pdoc) df rows : forall e,
  all_rows pa pb df rows = Some e -> (forall a b e, df a b = Some e -> titled e) -> titled e.
Proof.
  induction rows as [|r rows IH]; cbn [all_rows]; intros e E H.
  - injection E as <-. exact I.
  - apply bind_some in E. destruct E as (d & ED & E). apply bind_some in E. destruct E as (rest & ER & [= <-]).
    split; [|now apply IH]. destruct r; cbn [row_doc] in ED; [| |eauto]; apply bind_some in ED; destruct ED as (? & _ & [= <-]); exact I.
Qed.
Lemma list_titled {T} choose step dc (pa pb : T -> option pdoc) df l1 l2 e :
  compared_list choose step dc pa pb df l1 l2 = Some e -> (forall a b e, df a b = Some e -> titled e) -> titled e.
Proof. unfold compared_list. intros E H. apply bind_some in E. destruct E as (rows & _ & E). exact (rows_titled _ _ _ _ _ E H). Qed.
Lemma block_titled a b e : block a b = Some e -> titled e.
Proof. unfold block. intros E. apply bind_some in E. destruct E as (? & _ & E). apply bind_some in E. destruct E as (? & _ & [= <-]). exact I. Qed.
Local Ltac title := eexists; split; [|reflexivity]; cbv [titles]; repeat ((now left) || right).
Local Ltac lines_only := intros ? ? ? [= <-]; exact I.

(** ** Types *)
Lemma members_titled choose sd f :
  (forall a b e, diff_layout choose sd f a b = Some e -> titled e) /\ (forall a b e, diff_members choose sd f a b = Some e -> titled e).
Proof.
  induction f as [|f [IHL IHM]]; [split; discriminate|].
  assert (DM : forall a b e, diff_member sd (diff_members choose sd f) a b = Some e -> titled e).
  { intros a b e E. unfold diff_member in E. apply bind_some in E. destruct E as (d & E & [= <-]). split; [exact I|]. eauto. }
  split; intros a b e E.
  - rewrite diff_layout_S in E. destruct (l_item a), (l_item b); try (now apply block_titled in E); try (injection E as <-; exact I).
    + eauto.
    + apply bind_some in E. destruct E as (d & E & [= <-]). split; [exact I|].
      apply list_titled in E; [exact E|]. intros x y e' E'. unfold diff_variant in E'.
      apply bind_some in E'. destruct E' as (d' & E' & [= <-]). split; [exact I|]. apply list_titled in E'; [exact E'|exact IHL].
  - rewrite diff_members_S in E. destruct (option_map t_kind a) as [[]|], (option_map t_kind b) as [[]|]; try (now apply block_titled in E);
      apply list_titled in E; auto.
Qed.
Lemma type_titled choose o fuel sd da db a b e : diff_type choose o fuel sd da db a b = Some e -> titled e.
Proof.
  intros E. unfold diff_type in E. apply bind_some in E. destruct E as (h & EH & E).
  apply bind_some in E. destruct E as (body & EB & [= <-]). split; [|exact I]. split.
  - unfold diff_type_header in EH. destruct (N.eqb _ _); [|discriminate].
    apply bind_some in EH. destruct EH as (x & EX & EH). apply bind_some in EH. destruct EH as (y & EY & [= <-]). exact I.
  - assert (SRC : titled (source_field2 o sd da db a b)) by (unfold source_field2; now destruct (p_source _)).
    assert (TM : exists t, In t titles /\ txt "members" = txt t) by title.
    assert (TE : exists t, In t titles /\ txt "enumerators" = txt t) by title.
    unfold diff_type_body in EB. destruct (t_kind a), (t_kind b); try discriminate.
    + injection EB as <-. cbn. tauto.
    + apply bind_some in EB. destruct EB as (m & EM & [= <-]). apply bind_some in EM. destruct EM as (d & EM & [= <-]).
      apply members_titled in EM. unfold dseq. cbn [fold_right titled]. cbn [titled field2] in *. tauto.
    + apply bind_some in EB. destruct EB as (i & EI & EB). apply bind_some in EB. destruct EB as (m & EM & [= <-]).
      apply bind_some in EM. destruct EM as (d & EM & [= <-]). apply members_titled in EM.
      assert (titled i).
      { unfold diff_inherits in EI. destruct (_ || _); [|injection EI as <-; exact I].
        apply bind_some in EI. destruct EI as (? & EI & [= <-]). apply list_titled in EI; [|lines_only]. split; [title|exact EI]. }
      unfold dseq. cbn [fold_right titled]. cbn [titled field2] in *. tauto.
    + apply bind_some in EB. destruct EB as (m & EM & [= <-]). apply bind_some in EM. destruct EM as (d & EM & [= <-]).
      apply members_titled in EM. unfold dseq. cbn [fold_right titled]. cbn [titled field2] in *. tauto.
    + apply bind_some in EB. destruct EB as (m & EM & [= <-]).
      apply list_titled in EM; [|lines_only]. unfold dseq. cbn [fold_right titled]. cbn [titled field2] in *. tauto.
Qed.

(** ** Functions and variables *)
Lemma variable_titled o ss da db a b : titled (diff_variable o ss da db a b).
Proof.
  unfold diff_variable, diff_variable_body, dseq, ignored. cbn [fold_right titled]. destruct (p_source (o_print o)); cbn [titled field2]; now repeat split.
Qed.
Section Functions.
  Variable choose : list N -> list N -> list (list N) -> nat -> nat.
  Variable o : options.
  Variable ss : scenes.
  Lemma section_titled t d e : In t titles -> dsection_of t d = Some e -> (forall x, d = Some x -> titled x) -> titled e.
  Proof. unfold dsection_of. intros T E H. apply bind_some in E. destruct E as (x & -> & [= <-]). split; [now exists t|now apply H]. Qed.
  Lemma collapsed_titled t d e : In t titles -> dcollapsed_of t d = Some e -> (forall x, d = Some x -> titled x) -> titled e.
  Proof. unfold dcollapsed_of. intros T E H. apply bind_some in E. destruct E as (x & -> & [= <-]). split; [now exists t|now apply H]. Qed.
  Lemma frames_titled l1 l2 e : diff_frames l1 l2 = Some e -> titled e.
  Proof.
    unfold diff_frames. cbv zeta. destruct (_ || _); intros E; [|injection E as <-; exact I]. apply bind_some in E. destruct E as (d & E & [= <-]).
    split; [title|]. apply (rows_titled _ _ _ _ _ E). lines_only.
  Qed.
  Local Ltac named := cbv [titles]; repeat ((now left) || right).
  Lemma registers_titled l1 l2 e : diff_registers choose ss l1 l2 = Some e -> titled e.
  Proof. intros E. eapply section_titled; [|exact E|]; [named|]. intros x X. apply (list_titled _ _ _ _ _ _ _ _ _ X). lines_only. Qed.
  Lemma pieces_titled l1 l2 e : diff_pieces choose ss l1 l2 = Some e -> titled e.
  Proof. intros E. apply (list_titled _ _ _ _ _ _ _ _ _ E). lines_only. Qed.
  Lemma formal_titled a b e : diff_formal choose o ss a b = Some e -> titled e.
  Proof.
    unfold diff_formal. intros E. apply bind_some in E. destruct E as (d & E & [= <-]). split; [exact I|].
    destruct (p_variable_locations _); [|injection E as <-; exact I].
    apply bind_some in E. destruct E as (r & R & E). apply bind_some in E. destruct E as (f & F & [= <-]).
    apply registers_titled in R. apply frames_titled in F. repeat split; assumption.
  Qed.
  Lemma slot_titled a b e : diff_slot choose o ss a b = Some e -> titled e.
  Proof.
    unfold diff_slot. intros E. apply bind_some in E. destruct E as (d & E & [= <-]). split; [exact I|].
    destruct (p_variable_locations _); [|injection E as <-; exact I].
    apply bind_some in E. destruct E as (r & R & E). apply bind_some in E. destruct E as (f & F & [= <-]).
    apply registers_titled in R. apply frames_titled in F. repeat split; assumption.
  Qed.
  Lemma formals_titled l1 l2 e : diff_formals choose o ss l1 l2 = Some e -> titled e.
  Proof. intros E. apply (list_titled _ _ _ _ _ _ _ _ _ E). apply formal_titled. Qed.
  Lemma slots_titled l1 l2 e : diff_slots choose o ss l1 l2 = Some e -> titled e.
  Proof. intros E. apply (list_titled _ _ _ _ _ _ _ _ _ E). apply slot_titled. Qed.
  Lemma argument_titled a b e : diff_argument choose o ss a b = Some e -> titled e.
  Proof.
    unfold diff_argument. intros E. apply bind_some in E. destruct E as (d & E & [= <-]). split; [exact I|].
    destruct (p_variable_locations _); [|injection E as <-; exact I].
    apply bind_some in E. destruct E as (x & X & E). apply bind_some in E. destruct E as (y & Y & E).
    apply bind_some in E. destruct E as (z & Z & E). apply bind_some in E. destruct E as (w & W & [= <-]).
    apply section_titled in X; [|named|intros ?; apply pieces_titled]. apply section_titled in Y; [|named|intros ?; apply pieces_titled].
    apply section_titled in Z; [|named|intros ?; apply pieces_titled]. apply section_titled in W; [|named|intros ?; apply pieces_titled].
    repeat split; assumption.
  Qed.
  Lemma site_titled da db a b e : diff_site choose o ss da db a b = Some e -> titled e.
  Proof.
    unfold diff_site. intros E. apply bind_some in E. destruct E as (t & T & E). apply bind_some in E. destruct E as (p & P & [= <-]).
    split; [exact I|].
    assert (titled t).
    { destruct (p_variable_locations _); [|injection T as <-; exact I]. apply section_titled in T; [exact T|named|intros ?; apply pieces_titled]. }
    assert (titled p).
    { destruct (_ || _); [|injection P as <-; exact I]. apply section_titled in P; [exact P|named|]. intros x X.
      apply (rows_titled _ _ _ _ _ X). apply argument_titled. }
    unfold dseq. cbn [fold_right titled]. destruct (p_source _); cbn [titled field2]; repeat split; assumption.
  Qed.
  Lemma sites_titled da db l1 l2 e : diff_sites choose o ss da db l1 l2 = Some e -> titled e.
  Proof. intros E. apply (list_titled _ _ _ _ _ _ _ _ _ E). apply site_titled. Qed.
  Lemma inlined_titled n : forall da db a b e, diff_inlined choose o ss n da db a b = Some e -> titled e.
  Proof.
    induction n as [|n IH]; intros da db a b e E; [discriminate|]. cbn [diff_inlined] in E.
    apply bind_some in E. destruct E as (p & P & E). apply bind_some in E. destruct E as (v & V & E).
    apply bind_some in E. destruct E as (c & C & E). apply bind_some in E. destruct E as (i & J & [= <-]). split; [exact I|].
    assert (titled p) by (destruct (p_inlined_function_parameters _); [|injection P as <-; exact I]; apply section_titled in P; [exact P|named|intros ?; apply formals_titled]).
    assert (titled v) by (destruct (p_function_variables _); [|injection V as <-; exact I]; apply collapsed_titled in V; [exact V|named|intros ?; apply slots_titled]).
    assert (titled c) by (destruct (p_function_calls _); [|injection C as <-; exact I]; apply collapsed_titled in C; [exact C|named|intros ?; apply sites_titled]).
    assert (titled i) by (apply (list_titled _ _ _ _ _ _ _ _ _ J); apply IH).
    unfold dseq. cbn [fold_right titled]. destruct (p_source _); cbn [titled field2]; repeat split; assumption.
  Qed.
  Lemma function_titled id fuel da db a b e : diff_function choose o ss id fuel da db a b = Some e -> titled e.
  Proof.
    unfold diff_function. intros E. apply bind_some in E. destruct E as (d & E & [= <-]). split; [|exact I]. split; [exact I|].
    unfold diff_function_body in E. cbv zeta in E.
    apply bind_some in E. destruct E as (d1 & E1 & E). apply bind_some in E. destruct E as (d2 & E2 & E). apply bind_some in E. destruct E as (d3 & E3 & E).
    apply bind_some in E. destruct E as (d4 & E4 & E). apply bind_some in E. destruct E as (d5 & E5 & E). apply bind_some in E. destruct E as (d6 & E6 & E).
    apply bind_some in E. destruct E as (d7 & E7 & E). apply some_eq in E. subst d.
    assert (titled d1).
    { unfold diff_addresses in E1. destruct (_ || _); [|injection E1 as <-; exact I]. apply collapsed_titled in E1; [exact E1|named|].
      intros x X. apply (rows_titled _ _ _ _ _ X). lines_only. }
    assert (titled d2) by (apply section_titled in E2; [exact E2|named|intros ?; apply formals_titled]).
    assert (titled d3) by (destruct (p_function_variables _); [|injection E3 as <-; exact I]; apply collapsed_titled in E3; [exact E3|named|intros ?; apply slots_titled]).
    assert (titled d4).
    { destruct (p_function_stack_frame _); [|injection E4 as <-; exact I]. apply collapsed_titled in E4; [exact E4|named|].
      intros x X. apply (rows_titled _ _ _ _ _ X). intros ? ? ? [= <-]. split; exact I. }
    assert (titled d5).
    { apply collapsed_titled in E5; [exact E5|named|]. intros x X. apply (list_titled _ _ _ _ _ _ _ _ _ X). apply inlined_titled. }
    assert (titled d6).
    { destruct (p_function_calls _); [|injection E6 as <-; exact I]. apply bind_some in E6. destruct E6 as (x & X & E6). apply bind_some in E6. destruct E6 as (y & Y & [= <-]).
      split; [apply collapsed_titled in X; [exact X|named|intros ?; apply sites_titled]|].
      apply bind_some in Y. destruct Y as (l1 & _ & Y). apply bind_some in Y. destruct Y as (l2 & _ & Y).
      apply collapsed_titled in Y; [exact Y|named|]. intros z Z. apply (list_titled _ _ _ _ _ _ _ _ _ Z). lines_only. }
    assert (titled d7).
    { destruct (p_function_instructions _); [|injection E7 as <-; exact I]. apply bind_some in E7. destruct E7 as (x & X & E7). apply bind_some in E7. destruct E7 as (y & Y & [= <-]).
      split; [title|exact I]. }
    assert (R : exists t, In t titles /\ txt "return type" = txt t) by title.
    unfold dseq, ignored. cbn [fold_right titled]. destruct (p_source _); cbn [titled field2]; repeat split; assumption.
  Qed.
End Functions.
