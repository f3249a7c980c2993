(** Proofs about printed and compared types. *)
From Coq Require Import List Arith NArith ZArith Bool String Lia Permutation.
From Verif Require Import Base BaseProofs NamespaceModel TypeModel TypeSpec TypeProofs LayoutModel LayoutSpec LayoutProofs
  FilterModel FilterProofs DiffModel DiffSpec PropertiesDiff PrintModel PrintSpec PrintProofs NameModel
  RefModel ItemModel ItemSpec OptionsModel.
Import ListNotations.
Local Open Scope N_scope.

(** ** Text output without conditions on what is deleted *)

Lemma diff_text_unhidden d : unhidden d -> forall s f, exists s' f',
  diff_doc text_printer false false d s f =
    (write_marked (diff_lines (ts_depth s) (ts_indent s) d), s', f') /\ same_place s s'.
Proof.
  induction d as [|a IHa b IHb|label a b|label| |c h IHh b IHb|c l b IHb|i0 h IHh b IHb|d IH|d|d|a b|d IH|fl d IH];
    cbn [unhidden]; intros U s f;
    try (match goal with |- context [diff_doc _ _ _ ?d _ _] => destruct (diff_doc_text d s f I) as (s' & E & P) end;
         exists s'; eexists; split; [exact E|exact P]); cbn [diff_doc].
  - destruct U as [UA UB]. destruct (IHa UA s f) as (s1 & f1 & E1 & I1 & D1). rewrite E1.
    destruct (IHb UB s1 f1) as (s2 & f2 & E2 & I2 & D2).
    rewrite E2. exists s2, f2. rewrite D1, I1. cbn [diff_lines].
    rewrite write_marked_app. split; [reflexivity|]. split; congruence.
  - destruct U as [UH UB]. unfold diff_indent, diff_body. cbn [p_prefix p_body text_printer].
    destruct (IHb UB (text_set_prefix XEqual (text_indented s)) false) as (s1 & f1 & E1 & I1 & D1).
    rewrite E1. cbn [ts_depth ts_indent text_set_prefix text_indented]. rewrite write_marked_empty.
    cbn [diff_lines]. destruct (diff_lines (ts_depth s) (S (ts_indent s)) b) as [|p ls] eqn:EL.
    + cbn [is_empty negb]. destruct (IHh UH s f) as (s2 & f2 & E2 & P2). exists s2, f2. rewrite E2.
      split; [|exact P2]. now rewrite app_nil_r.
    + cbn [is_empty negb p_header text_printer]. unfold diff_header. cbn [p_prefix text_printer].
      match goal with |- context [diff_doc _ _ _ h ?s0 false] =>
        destruct (IHh UH s0 false) as (s2 & f2 & E2 & I2 & D2) end.
      rewrite E2. cbn [ts_depth ts_indent text_set_prefix] in *. exists s2. eexists.
      rewrite write_marked_app. split; [reflexivity|split; assumption].
  - unfold diff_indent, diff_body. cbn [p_prefix p_body text_printer].
    destruct (IHb U (text_set_prefix XEqual (text_indented s)) false) as (s1 & f1 & E1 & I1 & D1).
    rewrite E1. cbn [ts_depth ts_indent text_set_prefix text_indented]. rewrite write_marked_empty.
    cbn [diff_lines]. destruct (diff_lines (ts_depth s) (S (ts_indent s)) b) as [|p ls] eqn:EL.
    + cbn [is_empty negb]. exists s, f. split; [reflexivity|split; reflexivity].
    + cbn [is_empty negb p_header text_printer]. unfold diff_header, diff_label. cbn [p_prefix text_printer p_line].
      match goal with |- context [keep_modify _ ?s0] => destruct (keep_before s0) as (B & I & D) end.
      eexists. eexists. split; [|split; [exact I|exact D]].
      rewrite text_line_eq, B, I. reflexivity.
  - destruct U as [UH UB]. unfold diff_body. cbn [p_prefix p_body text_printer].
    destruct (IHb UB (text_set_prefix XEqual (text_indented s)) false) as (s1 & f1 & E1 & I1 & D1).
    rewrite E1. cbn [ts_depth ts_indent text_set_prefix text_indented p_id text_printer].
    unfold diff_header. cbn [p_prefix text_printer].
    match goal with |- context [diff_doc _ _ _ h ?s0 false] =>
      destruct (IHh UH s0 false) as (s2 & f2 & E2 & I2 & D2) end.
    rewrite E2. cbn [ts_depth ts_indent text_set_prefix] in *. exists s2. eexists.
    cbn [diff_lines]. rewrite write_marked_app. split; [reflexivity|split; assumption].
  - cbn [p_inline_begin text_printer diff_lines]. destruct s as [i p n]. cbn [ts_depth ts_indent] in *.
    destruct n as [|n].
    + eexists. eexists. split; [reflexivity|]. split; reflexivity.
    + destruct (IH U (mkText i p n) f) as (s1 & f1 & E1 & I1 & D1). cbn [ts_prefix]. rewrite E1.
      eexists. eexists. split; [reflexivity|]. cbn in *. split; cbn; congruence.
  - cbn [p_prefix text_printer diff_lines]. rewrite print_doc_text. exists (text_set_prefix XDelete s), true.
    split; [|split; reflexivity]. cbn [ts_prefix ts_depth ts_indent text_set_prefix].
    now rewrite (write_with_mark Old _ XDelete).
  - cbn [p_prefix text_printer diff_lines]. rewrite print_doc_text. exists (text_set_prefix XAdd s), true.
    split; [|split; reflexivity]. cbn [ts_prefix ts_depth ts_indent text_set_prefix].
    now rewrite (write_with_mark New _ XAdd).
  - destruct U.
  - cbn [diff_lines]. destruct (IH U s f) as (s1 & f1 & E1 & P1). rewrite E1. exists s1. eexists.
    split; [reflexivity|exact P1].
Qed.

(** Everything on each side is shown, in order, and otherwise headings only. *)
Lemma plus_app a b c d : plus_headings a b -> plus_headings c d -> plus_headings (a ++ c) (b ++ d).
Proof. induction 1; intros; cbn [app]; [assumption|apply ph_heading; auto|apply ph_line; auto]. Qed.
Lemma plus_refl a : plus_headings a a.
Proof. induction a; [apply ph_nil|apply ph_line; auto]. Qed.
Lemma plus_of_nil a : plus_headings a [] -> a = [].
Proof. now inversion 1. Qed.

Lemma sides_headings d : unhidden d -> forall depth i,
  plus_headings (lines depth i (old_side d)) (old_lines (diff_lines depth i d)) /\
  plus_headings (lines depth i (new_side d)) (new_lines (diff_lines depth i d)).
Proof.
  induction d as [|a IHa b IHb|label a b|label| |c h IHh b IHb|c l b IHb|i0 h IHh b IHb|d IH|d|d|a b|d IH|fl d IH];
    cbn [unhidden old_side new_side diff_lines]; intros U depth i.
  - split; constructor.
  - destruct U as [UA UB]. cbn [lines]. rewrite old_lines_app, new_lines_app.
    split; apply plus_app; try apply IHa; try apply IHb; assumption.
  - destruct (text_eqb (text_value a) (text_value b)) eqn:E.
    + apply text_eqb_iff in E. rewrite old_with_mark, new_with_mark. split; [apply plus_refl|].
      cbn [lines]. rewrite E. apply plus_refl.
    + rewrite old_lines_app, new_lines_app, !old_with_mark, !new_with_mark, app_nil_r.
      split; apply plus_refl.
  - split; apply plus_refl.
  - split; apply plus_refl.
  - destruct U as [UA UB]. cbn [lines]. rewrite old_lines_app, new_lines_app.
    split; apply plus_app; try apply IHh; try apply IHb; assumption.
  - destruct (IHb U depth (S i)) as [O N]. cbn [lines]. destruct (diff_lines depth (S i) b) as [|p ls].
    + apply plus_of_nil in O, N. rewrite O, N. split; constructor.
    + change (old_lines ((Same, Line i (labelled l [])) :: p :: ls)) with
        (Line i (labelled l []) :: old_lines (p :: ls)).
      change (new_lines ((Same, Line i (labelled l [])) :: p :: ls)) with
        (Line i (labelled l []) :: new_lines (p :: ls)).
      split; [destruct (lines depth (S i) (old_side b))|destruct (lines depth (S i) (new_side b))];
        first [apply ph_line; assumption|apply ph_heading; assumption].
  - destruct U as [UA UB]. cbn [lines]. rewrite old_lines_app, new_lines_app.
    split; apply plus_app; try apply IHh; try apply IHb; assumption.
  - cbn [lines]. destruct depth as [|n]; [split; constructor|]. now apply IH.
  - rewrite old_with_mark, new_with_mark. split; apply plus_refl.
  - rewrite old_with_mark, new_with_mark. split; apply plus_refl.
  - rewrite old_lines_app, new_lines_app, !old_with_mark, !new_with_mark, app_nil_r.
    split; apply plus_refl.
  - destruct U.
  - now apply IH.
Qed.

(** ** Lists *)

Lemma short_total {A} (c : A -> N) k l : (forall a, c a = k) ->
  total_cost c l = k * N.of_nat (List.length l).
Proof.
  intros C. induction l as [|x l IH]; cbn [total_cost fold_right List.length]; [lia|].
  change (fold_right (fun a s => c a + s) 0 l) with (total_cost c l). rewrite IH, C. lia.
Qed.


Definition room {A} (k : N) (l : list A) : Prop := 2 * k * N.of_nat (List.length l) < 2 ^ 64 - 1.

Lemma edit_script_rows {A} choose step dc (l1 l2 : list A) k :
  (forall a, step a = k) -> room k l1 -> room k l2 ->
  exists rows, edit_script choose step dc l1 l2 = Some rows /\ lefts rows = l1 /\ rights rows = l2.
Proof.
  intros C R1 R2. unfold edit_script.
  match goal with |- context [diff_list _ _ _ _ _ ?f ?p] =>
    destruct (C12_list_consumed A l1 l2 step step dc p f) as (rows & E & L & R & _) end.
  - rewrite !(short_total step k) by assumption. unfold room in *. lia.
  - lia.
  - exists rows. auto.
Qed.

Lemma edit_script_self {A} choose step dc (l : list A) k :
  (forall a, step a = k) -> 0 < k -> room k l -> (forall a, In a l -> dc a a = 0) ->
  edit_script choose step dc l l = Some (map (fun a => MBoth a a) l).
Proof.
  intros C P R D. unfold edit_script.
  apply (C14_self_diff A l step step dc).
  - rewrite !(short_total step k) by assumption. unfold room in *. lia.
  - lia.
  - intros a I. rewrite C. auto.
Qed.

Lemma same_refl p : same_lines p p.
Proof. intros ? ?. reflexivity. Qed.
Lemma same_seq a b p q : same_lines a p -> same_lines b q -> same_lines (PSeq a b) (PSeq p q).
Proof. intros H1 H2 depth i. cbn [lines]. now rewrite H1, H2. Qed.
Lemma same_nil_seq b q : same_lines b q -> same_lines (PSeq PNil b) q.
Proof. intros H depth i. cbn [lines app]. apply H. Qed.
Lemma same_tree c a b p q : same_lines a p -> same_lines b q -> same_lines (PTree c a b) (PTree c p q).
Proof. intros H1 H2 depth i. cbn [lines]. now rewrite H1, H2. Qed.
Lemma same_id n m a b p q : same_lines a p -> same_lines b q -> same_lines (PId n a b) (PId m p q).
Proof. intros H1 H2 depth i. cbn [lines]. now rewrite H1, H2. Qed.
Lemma same_section c c' l a p : same_lines a p -> same_lines (PSection c l a) (PSection c' l p).
Proof. intros H1 depth i. cbn [lines]. now rewrite H1. Qed.

Lemma bind_some {A B} (x : option A) (f : A -> option B) z :
  bind x f = Some z -> exists y, x = Some y /\ f y = Some z.
Proof. destruct x as [y|]; cbn; [eauto|discriminate]. Qed.
Ltac binds :=
  repeat match goal with
    | H : bind _ _ = Some _ |- _ =>
        let y := fresh "y" in let E := fresh "E" in let H' := fresh "H" in
        destruct (bind_some _ _ _ H) as (y & E & H'); clear H; rename H' into H; try rewrite E in *
    end.

Lemma all_rows_read {A} (pa pb : A -> option pdoc) df rows : forall e,
  all_rows pa pb df rows = Some e ->
  (forall a b e, In (MBoth a b) rows -> df a b = Some e ->
     exists p q, pa a = Some p /\ pb b = Some q /\ reads e p q) ->
  exists p q, all_printed pa (lefts rows) = Some p /\ all_printed pb (rights rows) = Some q /\ reads e p q.
Proof.
  induction rows as [|r rows IH]; cbn [all_rows]; intros e E H.
  - injection E as <-. exists PNil, PNil. repeat split; apply same_refl.
  - apply bind_some in E. destruct E as (d & ED & E). apply bind_some in E.
    destruct E as (rest & ER & E). injection E as <-.
    destruct (IH rest ER) as (p & q & EP & EQ & SO & SN & U).
    { intros a b e I. apply H. now right. }
    destruct r as [a|b|a b]; cbn [row_doc] in ED.
    + apply bind_some in ED. destruct ED as (d' & ED & [= <-]).
      exists (PSeq d' p), q. cbn [lefts rights flat_map app]. cbn [all_printed].
      fold (lefts rows). fold (rights rows). rewrite ED, EP. cbn [bind]. split; [reflexivity|]. split; [exact EQ|].
      split; [|split]; cbn [old_side new_side].
      * apply same_seq; [apply same_refl|assumption].
      * now apply same_nil_seq.
      * split; [exact I|exact U].
    + apply bind_some in ED. destruct ED as (d' & ED & [= <-]).
      exists p, (PSeq d' q). cbn [lefts rights flat_map app]. cbn [all_printed].
      fold (lefts rows). fold (rights rows). rewrite ED, EQ. cbn [bind]. split; [exact EP|]. split; [reflexivity|].
      split; [|split]; cbn [old_side new_side].
      * now apply same_nil_seq.
      * apply same_seq; [apply same_refl|assumption].
      * split; [exact I|exact U].
    + destruct (H a b d (or_introl eq_refl) ED) as (p' & q' & EP' & EQ' & SO' & SN' & U').
      exists (PSeq p' p), (PSeq q' q). cbn [lefts rights flat_map app]. cbn [all_printed].
      fold (lefts rows). fold (rights rows). rewrite EP', EP, EQ', EQ. cbn [bind].
      split; [reflexivity|]. split; [reflexivity|].
      split; [|split]; cbn [old_side new_side]; [now apply same_seq..|now split].
Qed.

Lemma compared_list_read {A} choose step dc (pa pb : A -> option pdoc) df l1 l2 k e :
  (forall a, step a = k) -> room k l1 -> room k l2 ->
  compared_list choose step dc pa pb df l1 l2 = Some e ->
  (forall a b e, In a l1 -> In b l2 -> df a b = Some e ->
     exists p q, pa a = Some p /\ pb b = Some q /\ reads e p q) ->
  exists p q, all_printed pa l1 = Some p /\ all_printed pb l2 = Some q /\ reads e p q.
Proof.
  intros C R1 R2 E H. unfold compared_list in E.
  destruct (edit_script_rows choose step dc l1 l2 k C R1 R2) as (rows & ER & L & R).
  rewrite ER in E. cbn [bind] in E. destruct (all_rows_read pa pb df rows e E) as (p & q & EP & EQ & RD).
  - intros a b e' I. apply H.
    + rewrite <- L. apply in_flat_map. eexists. split; [exact I|]. now left.
    + rewrite <- R. apply in_flat_map. eexists. split; [exact I|]. now left.
  - rewrite L in EP. rewrite R in EQ. eauto.
Qed.

(** The same for a list with itself. *)
Definition same_sides (e : ddoc) : Prop := forall depth, identical depth e.

Lemma all_rows_self {A} (pr : A -> option pdoc) df l : forall p,
  all_printed pr l = Some p ->
  (forall a p, In a l -> pr a = Some p -> exists e, df a a = Some e /\ same_sides e) ->
  exists e, all_rows pr pr df (map (fun a => MBoth a a) l) = Some e /\ same_sides e.
Proof.
  induction l as [|a l IH]; cbn [all_printed map all_rows row_doc]; intros p E H.
  - exists DNil. split; [reflexivity|]. intros n. exact I.
  - apply bind_some in E. destruct E as (d & ED & E). apply bind_some in E. destruct E as (rest & ER & _).
    destruct (H a d (or_introl eq_refl) ED) as (e & EE & SE). destruct (IH rest ER) as (e' & EE' & SE').
    { intros b q IN. apply H. now right. }
    rewrite EE, EE'. cbn [bind]. exists (DSeq e e'). split; [reflexivity|]. intros n. split; [apply SE|apply SE'].
Qed.

Lemma compared_list_self {A} choose step dc (pr : A -> option pdoc) df l k p :
  (forall a, step a = k) -> 0 < k -> room k l -> (forall a, In a l -> dc a a = 0) ->
  all_printed pr l = Some p ->
  (forall a p, In a l -> pr a = Some p -> exists e, df a a = Some e /\ same_sides e) ->
  exists e, compared_list choose step dc pr pr df l l = Some e /\ same_sides e.
Proof.
  intros C K R D E H. unfold compared_list. rewrite (edit_script_self choose step dc l k C K R D). cbn [bind].
  now apply (all_rows_self pr df l p).
Qed.

(** ** Layouts *)

Lemma forward_length ms t : (List.length (forward ms t) <= 2 * List.length ms)%nat.
Proof.
  induction ms as [|m r IH]; cbn [forward List.length]; [lia|]. rewrite app_length.
  enough (List.length (gap m (match r with [] => t | n :: _ => Some (l_offset n) end)) <= 1)%nat by lia.
  unfold gap. destruct (opt64_get _); cbn; [|lia]. destruct (match r with [] => t | _ => _ end); cbn; [|lia].
  destruct (_ <? _); cbn; lia.
Qed.
Lemma layout_length bs m i p base t :
  (List.length (layout bs m i p base t) <=
   2 * (List.length m + List.length i + List.length p) + 1)%nat.
Proof.
  rewrite layout_eq. cbn zeta. rewrite app_length.
  pose proof (forward_length (sorted_items bs m i p base) t) as F.
  assert (L : List.length (sorted_items bs m i p base) = (List.length m + List.length i + List.length p)%nat).
  { unfold sorted_items. rewrite (Permutation_length (stable_sort_perm lay_cmp _)), map_length.
    unfold contents. rewrite !app_length, !map_length. lia. }
  assert (List.length (lead (sorted_items bs m i p base)) <= 1)%nat.
  { unfold lead. destruct (sorted_items _ _ _ _ _); cbn; [lia|]. destruct (_ <? _); cbn; lia. }
  lia.
Qed.
Lemma layout_item_in bs m i p base t x : In x (layout bs m i p base t) ->
  l_item x = LPadding \/ In (l_item x) (contents m i p).
Proof.
  intros I. destruct (is_padding x) eqn:E.
  - left. unfold is_padding in E. now destruct (l_item x).
  - right. apply (Permutation_in _ (layout_items_perm bs m i p base t)). apply in_map.
    unfold real_items. apply filter_In. split; [exact I|]. now rewrite E.
Qed.

(** What a layout item can hold. *)
Definition short_lay (l : lay) : Prop :=
  match l_item l with LVariantPart p => short_part p | _ => True end.

Lemma struct_layout_short bs t s : t_kind t = TStruct s -> short_type t ->
  room 1 (struct_layout bs s) /\ forall l, In l (struct_layout bs s) -> short_lay l.
Proof.
  unfold short_type. intros -> (SM & SI & SP & SF). unfold struct_layout. split.
  - unfold room. match goal with |- context [layout ?a ?b ?c ?d ?e ?f] => pose proof (layout_length a b c d e f) end.
    unfold short in *. lia.
  - intros l I. apply layout_item_in in I. unfold short_lay. destruct I as [->|I]; [exact Logic.I|].
    unfold contents in I. rewrite !in_app_iff, !in_map_iff in I.
    destruct I as [(x & <- & _)|[(x & <- & _)|(x & <- & I)]]; try exact Logic.I.
    rewrite Forall_forall in SF. auto.
Qed.
Lemma variant_layout_short bs v off size : short_variant v ->
  room 1 (variant_layout bs v off size) /\ forall l, In l (variant_layout bs v off size) -> short_lay l.
Proof.
  unfold short_variant. intros SV. unfold variant_layout. split.
  - unfold room. match goal with |- context [layout ?a ?b ?c ?d ?e ?f] => pose proof (layout_length a b c d e f) end.
    unfold short in *. cbn [List.length] in *. lia.
  - intros l I. apply layout_item_in in I. unfold short_lay. destruct I as [->|I]; [exact Logic.I|].
    unfold contents in I. rewrite !in_app_iff, !in_map_iff in I.
    destruct I as [(x & <- & _)|[(x & <- & [])|(x & <- & [])]]; exact Logic.I.
Qed.
Lemma short_room {A} k (l : list A) : k <= 3 -> short l -> room k l.
Proof. unfold short, room. nia. Qed.

Definition short_opt (t : option type) : Prop := forall u, t = Some u -> short_type u.
Lemma inline_short vw m : short_view vw -> short_opt (inline_type vw m).
Proof.
  intros [H _] u E. unfold inline_type in E. destruct (member_is_inline _ _); [|discriminate]. eauto.
Qed.

Lemma print_layout_S f vw l : print_layout (S f) vw l =
  match l_item l with
  | LPadding => Some (PLine [] (padding_value l))
  | LMember m => print_member (print_members f vw) vw m
  | LVariantPart p =>
      bind (all_printed (print_variant (print_layout f vw) vw (l_offset l) (opt64_get (l_size l))) (vp_variants p))
        (fun body => Some (PTree false (PLine [] (variant_part_value l)) body))
  | LInherit i => Some (PLine [] (inherit_value vw l i))
  end.
Proof. reflexivity. Qed.
Lemma print_members_S f vw t : print_members (S f) vw t =
  match t with
  | Some t =>
      match t_kind t with
      | TStruct s => all_printed (print_layout f vw) (struct_layout (vw_sizes vw) s)
      | TUnion u => all_printed (print_member (print_members f vw) vw) (u_members u)
      | _ => Some PNil
      end
  | None => Some PNil
  end.
Proof. reflexivity. Qed.

Lemma reads_line l a b : reads (DLine l a b) (PLine l a) (PLine l b).
Proof. split; [|split]; [apply same_refl..|exact I]. Qed.
Lemma reads_tree c h b ph qh pb qb : reads h ph qh -> reads b pb qb ->
  reads (DTree c h b) (PTree c ph pb) (PTree c qh qb).
Proof.
  intros (O1 & N1 & U1) (O2 & N2 & U2). split; [|split]; cbn [old_side new_side];
    [now apply same_tree..|now split].
Qed.
Lemma reads_section c l b pb qb : reads b pb qb -> reads (DSection c l b) (PSection c l pb) (PSection c l qb).
Proof. intros (O & N & U). split; [|split]; cbn [old_side new_side]; [now apply same_section..|assumption]. Qed.
Lemma reads_seq a b p q p' q' : reads a p p' -> reads b q q' -> reads (DSeq a b) (PSeq p q) (PSeq p' q').
Proof.
  intros (O1 & N1 & U1) (O2 & N2 & U2). split; [|split]; cbn [old_side new_side];
    [now apply same_seq..|now split].
Qed.
Lemma reads_nil : reads DNil PNil PNil.
Proof. split; [|split]; [apply same_refl..|exact I]. Qed.
Lemma reads_block a b : reads (DBlock a b) a b.
Proof. split; [|split]; [apply same_refl..|exact I]. Qed.
Lemma block_reads a b e : block a b = Some e -> exists p q, a = Some p /\ b = Some q /\ reads e p q.
Proof.
  unfold block. intros E. apply bind_some in E. destruct E as (p & -> & E).
  apply bind_some in E. destruct E as (q & -> & [= <-]). exists p, q.
  split; [reflexivity|]. split; [reflexivity|]. apply reads_block.
Qed.

Section Compare.
  Variable choose : list N -> list N -> list (list N) -> nat -> nat.
  Variable sd : sides.
  Local Notation A := (sd_a sd).
  Local Notation B := (sd_b sd).
  Hypothesis SA : short_view A.
  Hypothesis SB : short_view B.

  Lemma diff_layout_S f a b : diff_layout choose sd (S f) a b =
    match l_item a, l_item b with
    | LPadding, LPadding => Some (DLine [] (padding_value a) (padding_value b))
    | LMember ma, LMember mb => diff_member sd (diff_members choose sd f) ma mb
    | LVariantPart p, LVariantPart q =>
        bind (compared_list choose variant_step variant_cost
                (print_variant (print_layout f A) A (l_offset a) (opt64_get (l_size a)))
                (print_variant (print_layout f B) B (l_offset b) (opt64_get (l_size b)))
                (diff_variant choose sd (print_layout f A) (print_layout f B)
                   (diff_layout choose sd f) (l_offset a) (opt64_get (l_size a)) (l_offset b)
                   (opt64_get (l_size b)))
                (vp_variants p) (vp_variants q)) (fun body =>
        Some (DTree false (DLine [] (variant_part_value a) (variant_part_value b)) body))
    | LInherit i, LInherit j => Some (DLine [] (inherit_value A a i) (inherit_value B b j))
    | _, _ => block (print_layout (S f) A a) (print_layout (S f) B b)
    end.
  Proof. reflexivity. Qed.
  Lemma diff_members_S f ta tb : diff_members choose sd (S f) ta tb =
    match option_map t_kind ta, option_map t_kind tb with
    | Some (TStruct a), Some (TStruct b) =>
        compared_list choose lay_step (lay_cost sd) (print_layout f A) (print_layout f B)
          (diff_layout choose sd f) (struct_layout (vw_sizes A) a) (struct_layout (vw_sizes B) b)
    | Some (TUnion a), Some (TUnion b) =>
        compared_list choose member_step (member_cost sd)
          (print_member (print_members f A) A) (print_member (print_members f B) B)
          (diff_member sd (diff_members choose sd f)) (u_members a) (u_members b)
    | _, _ => block (print_members (S f) A ta) (print_members (S f) B tb)
    end.
  Proof. reflexivity. Qed.

  Lemma diff_member_reads f a b e :
    (forall ta tb e, short_opt ta -> short_opt tb -> diff_members choose sd f ta tb = Some e ->
       exists p q, print_members f A ta = Some p /\ print_members f B tb = Some q /\ reads e p q) ->
    diff_member sd (diff_members choose sd f) a b = Some e ->
    exists p q, print_member (print_members f A) A a = Some p /\
      print_member (print_members f B) B b = Some q /\ reads e p q.
  Proof.
    intros IH E. unfold diff_member in E. apply bind_some in E. destruct E as (body & E & [= <-]).
    apply IH in E; try (apply inline_short; assumption). destruct E as (p & q & EP & EQ & R).
    unfold print_member. rewrite EP, EQ. cbn [bind]. eexists. eexists. split; [reflexivity|]. split; [reflexivity|].
    apply reads_tree; [apply reads_line|exact R].
  Qed.

  Lemma diff_members_reads f :
    (forall a b e, short_lay a -> short_lay b -> diff_layout choose sd f a b = Some e ->
       exists p q, print_layout f A a = Some p /\ print_layout f B b = Some q /\ reads e p q) /\
    (forall ta tb e, short_opt ta -> short_opt tb -> diff_members choose sd f ta tb = Some e ->
       exists p q, print_members f A ta = Some p /\ print_members f B tb = Some q /\ reads e p q).
  Proof.
    induction f as [|f [IHL IHM]]; [split; discriminate|]. split.
    - intros a b e HA HB E. rewrite diff_layout_S in E. rewrite !print_layout_S.
      unfold short_lay in HA, HB.
      destruct (l_item a) as [|ma|p|i] eqn:EA, (l_item b) as [|mb|q|j] eqn:EB;
        try (apply block_reads in E; rewrite !print_layout_S, EA, EB in E; exact E).
      + injection E as <-. eexists. eexists. split; [reflexivity|]. split; [reflexivity|]. apply reads_line.
      + now apply diff_member_reads.
      + apply bind_some in E. destruct E as (body & E & [= <-]).
        apply (compared_list_read choose variant_step variant_cost _ _ _ _ _ 1) in E;
          [|reflexivity|apply short_room; [lia|apply HA]|apply short_room; [lia|apply HB]|].
        * destruct E as (p' & q' & EP & EQ & R). rewrite EP, EQ. cbn [bind]. eexists. eexists.
          split; [reflexivity|]. split; [reflexivity|]. apply reads_tree; [apply reads_line|exact R].
        * clear E. intros va vb e IA IB E. unfold diff_variant in E.
          apply bind_some in E. destruct E as (vbody & E & [= <-]).
          destruct HA as [_ HA], HB as [_ HB]. rewrite Forall_forall in HA, HB.
          destruct (variant_layout_short (vw_sizes A) va (l_offset a) (opt64_get (l_size a)) (HA va IA)) as [RA LA].
          destruct (variant_layout_short (vw_sizes B) vb (l_offset b) (opt64_get (l_size b)) (HB vb IB)) as [RB LB].
          apply (compared_list_read choose lay_step (lay_cost sd) _ _ _ _ _ 1) in E; [|reflexivity|exact RA|exact RB|].
          -- destruct E as (p' & q' & EP & EQ & R). unfold print_variant. rewrite EP, EQ. cbn [bind].
             eexists. eexists. split; [reflexivity|]. split; [reflexivity|].
             apply reads_tree; [apply reads_line|exact R].
          -- intros x y e' IX IY. apply IHL; auto.
      + injection E as <-. eexists. eexists. split; [reflexivity|]. split; [reflexivity|]. apply reads_line.
    - intros ta tb e HA HB E. rewrite diff_members_S in E.
      destruct ta as [ta|]; cbn [option_map] in E; [|now apply block_reads].
      destruct tb as [tb|]; cbn [option_map] in E; [|destruct (t_kind ta); now apply block_reads].
      destruct (t_kind ta) eqn:KA, (t_kind tb) eqn:KB; try (now apply block_reads).
      + destruct (struct_layout_short (vw_sizes A) ta x KA (HA ta eq_refl)) as [RA LA].
        destruct (struct_layout_short (vw_sizes B) tb x0 KB (HB tb eq_refl)) as [RB LB].
        rewrite !print_members_S, KA, KB.
        apply (compared_list_read choose lay_step (lay_cost sd) _ _ _ _ _ 1) in E; [exact E|reflexivity|exact RA|exact RB|].
        intros a b e' IA IB. apply IHL; auto.
      + pose proof (HA ta eq_refl) as RA. unfold short_type in RA. rewrite KA in RA.
        pose proof (HB tb eq_refl) as RB. unfold short_type in RB. rewrite KB in RB.
        rewrite !print_members_S, KA, KB.
        apply (compared_list_read choose member_step (member_cost sd) _ _ _ _ _ 1) in E;
          [exact E|reflexivity|apply short_room; [lia|exact RA]|apply short_room; [lia|exact RB]|].
        intros a b e' IA IB. now apply diff_member_reads.
  Qed.
End Compare.

(** ** Types *)

Definition alike {A} (l1 l2 : list A) : Prop :=
  ~ (List.length l1 = 1 /\ 1 < List.length l2)%nat /\ ~ (List.length l2 = 1 /\ 1 < List.length l1)%nat.

Lemma all_lines_read {A} choose step dc (va vb : A -> value) l1 l2 k e :
  (forall a, step a = k) -> room k l1 -> room k l2 ->
  compared_list choose step dc (fun x => Some (PLine [] (va x))) (fun x => Some (PLine [] (vb x)))
    (fun x y => Some (DLine [] (va x) (vb y))) l1 l2 = Some e ->
  exists p q, all_printed (fun x => Some (PLine [] (va x))) l1 = Some p /\
    all_printed (fun x => Some (PLine [] (vb x))) l2 = Some q /\ reads e p q.
Proof.
  intros C R1 R2 E. eapply compared_list_read; try eassumption.
  intros a b e' _ _ [= <-]. eexists. eexists. split; [reflexivity|]. split; [reflexivity|]. apply reads_line.
Qed.

Lemma inherits_read choose sd l1 l2 e : short l1 -> short l2 -> alike l1 l2 ->
  diff_inherits choose sd l1 l2 = Some e ->
  exists p q, print_inherits (sd_a sd) l1 = Some p /\ print_inherits (sd_b sd) l2 = Some q /\ reads e p q.
Proof.
  intros S1 S2 [A1 A2] E. unfold diff_inherits in E.
  destruct ((1 <? List.length l1)%nat || (1 <? List.length l2)%nat) eqn:L.
  - apply bind_some in E. destruct E as (body & E & [= <-]).
    apply (all_lines_read choose inherit_step (inherit_cost sd) _ _ _ _ 1) in E;
      [|reflexivity|apply short_room; [lia|assumption]..].
    destruct E as (p & q & EP & EQ & R). apply orb_true_iff in L. rewrite !Nat.ltb_lt in L.
    pose proof (reads_section false (txt "inherits") _ _ _ R) as R'.
    assert (H1 : exists p', print_inherits (sd_a sd) l1 = Some p' /\
                  same_lines (PSection false (txt "inherits") p) p').
    { destruct l1 as [|x [|y l1]]; cbn [List.length] in *; [|exfalso; lia|].
      - cbn in EP. injection EP as <-. exists PNil. split; [reflexivity|]. intros d i. reflexivity.
      - unfold print_inherits. rewrite EP. cbn [bind]. eexists. split; [reflexivity|]. apply same_refl. }
    assert (H2 : exists q', print_inherits (sd_b sd) l2 = Some q' /\
                  same_lines (PSection false (txt "inherits") q) q').
    { destruct l2 as [|x [|y l2]]; cbn [List.length] in *; [|exfalso; lia|].
      - cbn in EQ. injection EQ as <-. exists PNil. split; [reflexivity|]. intros d i. reflexivity.
      - unfold print_inherits. rewrite EQ. cbn [bind]. eexists. split; [reflexivity|]. apply same_refl. }
    destruct H1 as (p' & -> & H1), H2 as (q' & -> & H2). exists p', q'. split; [reflexivity|]. split; [reflexivity|].
    destruct R' as (O & N & U). split; [|split; [|exact U]]; intros d i; rewrite ?O, ?N; auto.
  - injection E as <-. apply orb_false_iff in L. rewrite !Nat.ltb_ge in L. destruct L as [L1 L2].
    assert (H1 : exists p', print_inherits (sd_a sd) l1 = Some p' /\
                  same_lines (PLine (txt "inherits") (first_base (sd_a sd) l1)) p').
    { destruct l1 as [|x [|y l1]]; cbn [List.length] in *; [| |exfalso; lia]; eexists; (split; [reflexivity|]).
      - intros d i. reflexivity.
      - apply same_refl. }
    assert (H2 : exists p', print_inherits (sd_b sd) l2 = Some p' /\
                  same_lines (PLine (txt "inherits") (first_base (sd_b sd) l2)) p').
    { destruct l2 as [|x [|y l2]]; cbn [List.length] in *; [| |exfalso; lia]; eexists; (split; [reflexivity|]).
      - intros d i. reflexivity.
      - apply same_refl. }
    destruct H1 as (p' & -> & H1), H2 as (q' & -> & H2). exists p', q'. split; [reflexivity|]. split; [reflexivity|].
    split; [exact H1|]. split; [exact H2|exact I].
Qed.

Lemma reads_field l a b : reads (field2 l a b) (field l a) (field l b).
Proof. apply reads_line. Qed.
Lemma reads_source o sd da db a b :
  reads (source_field2 o sd da db a b) (source_field o (sd_a sd) da a) (source_field o (sd_b sd) db b).
Proof.
  unfold source_field2, source_field. destruct (p_source (o_print o)); [apply reads_field|apply reads_nil].
Qed.

Ltac read_fields :=
  unfold dseq, pseq; cbn [fold_right]; repeat (apply reads_seq; [|]); try apply reads_nil;
  try apply reads_field; try apply reads_source; try assumption.

Lemma type_body_reads choose o fuel sd da db a b e :
  short_view (sd_a sd) -> short_view (sd_b sd) -> short_type a -> short_type b -> bases_alike a b ->
  diff_type_body choose o fuel sd da db a b = Some e ->
  exists p q, print_type_body o fuel (sd_a sd) da a = Some p /\
    print_type_body o fuel (sd_b sd) db b = Some q /\ reads e p q.
Proof.
  intros SA SB HA HB AL E.
  pose proof (diff_members_reads choose sd SA SB fuel) as [_ M].
  unfold diff_type_body in E. unfold print_type_body. unfold bases_alike in AL.
  destruct (t_kind a) eqn:KA, (t_kind b) eqn:KB; try discriminate.
  - injection E as <-. eexists. eexists. split; [reflexivity|]. split; [reflexivity|]. read_fields.
  - apply bind_some in E. destruct E as (m & EM & [= <-]). apply bind_some in EM.
    destruct EM as (d & EM & [= <-]). apply M in EM.
    + destruct EM as (p & q & EP & EQ & R).
      assert (H1 : exists p', bind match defined_type (sd_a sd) x with
            | Some u => bind (print_members fuel (sd_a sd) (Some u)) (fun d0 => Some (PSection false (txt "members") d0))
            | None => Some PNil end (fun m => Some (pseq [source_field o (sd_a sd) da a; field "size" (size_text (sd_a sd) a); m]))
          = Some (pseq [source_field o (sd_a sd) da a; field "size" (size_text (sd_a sd) a); p']) /\
          same_lines (PSection false (txt "members") p) p').
      { destruct (defined_type (sd_a sd) x) as [u|].
        - rewrite EP. cbn [bind]. eexists. split; [reflexivity|]. apply same_refl.
        - destruct fuel; [discriminate|]. cbn in EP. injection EP as <-. cbn [bind]. eexists. split; [reflexivity|].
          intros ? ?. reflexivity. }
      assert (H2 : exists p', bind match defined_type (sd_b sd) x0 with
            | Some u => bind (print_members fuel (sd_b sd) (Some u)) (fun d0 => Some (PSection false (txt "members") d0))
            | None => Some PNil end (fun m => Some (pseq [source_field o (sd_b sd) db b; field "size" (size_text (sd_b sd) b); m]))
          = Some (pseq [source_field o (sd_b sd) db b; field "size" (size_text (sd_b sd) b); p']) /\
          same_lines (PSection false (txt "members") q) p').
      { destruct (defined_type (sd_b sd) x0) as [u|].
        - rewrite EQ. cbn [bind]. eexists. split; [reflexivity|]. apply same_refl.
        - destruct fuel; [discriminate|]. cbn in EQ. injection EQ as <-. cbn [bind]. eexists. split; [reflexivity|].
          intros ? ?. reflexivity. }
      destruct H1 as (p' & -> & H1), H2 as (q' & -> & H2). eexists. eexists. split; [reflexivity|]. split; [reflexivity|].
      read_fields. destruct (reads_section false (txt "members") _ _ _ R) as (O & N & U).
      split; [|split; [|exact U]]; intros ? ?; rewrite ?O, ?N; auto.
    + unfold defined_type. intros u E. destruct (vw_find (sd_a sd) (d_ty x)) eqn:F; [|discriminate].
      destruct (is_anon t); [|discriminate]. injection E as <-. now apply (proj1 SA) in F.
    + unfold defined_type. intros u E. destruct (vw_find (sd_b sd) (d_ty x0)) eqn:F; [|discriminate].
      destruct (is_anon t); [|discriminate]. injection E as <-. now apply (proj1 SB) in F.
  - apply bind_some in E. destruct E as (i & EI & E). apply bind_some in E. destruct E as (m & EM & [= <-]).
    apply bind_some in EM. destruct EM as (d & EM & [= <-]).
    apply M in EM; [|intros u [= <-]; assumption..]. destruct EM as (p & q & EP & EQ & R).
    pose proof HA as HA'. unfold short_type in HA'. rewrite KA in HA'.
    pose proof HB as HB'. unfold short_type in HB'. rewrite KB in HB'.
    apply inherits_read in EI; [|apply HA'|apply HB'|exact AL]. destruct EI as (pi & qi & EPI & EQI & RI).
    rewrite EP, EQ, EPI, EQI. cbn [bind]. eexists. eexists. split; [reflexivity|]. split; [reflexivity|].
    read_fields. now apply reads_section.
  - apply bind_some in E. destruct E as (m & EM & [= <-]).
    apply bind_some in EM. destruct EM as (d & EM & [= <-]).
    apply M in EM; [|intros u [= <-]; assumption..]. destruct EM as (p & q & EP & EQ & R).
    rewrite EP, EQ. cbn [bind]. eexists. eexists. split; [reflexivity|]. split; [reflexivity|].
    read_fields. now apply reads_section.
  - apply bind_some in E. destruct E as (m & EM & [= <-]).
    apply (all_lines_read choose enumerator_step enumerator_cost (fun e => VText (enumerator_text e))
             (fun e => VText (enumerator_text e)) _ _ 3) in EM;
      [|reflexivity|apply short_room; [lia|first [apply SA|apply SB]]..].
    destruct EM as (p & q & EP & EQ & R). rewrite EP, EQ. cbn [bind].
    eexists. eexists. split; [reflexivity|]. split; [reflexivity|]. read_fields. now apply reads_section.
Qed.

Lemma type_reads choose o fuel sd da db a b e :
  short_view (sd_a sd) -> short_view (sd_b sd) -> short_type a -> short_type b -> bases_alike a b ->
  diff_type choose o fuel sd da db a b = Some e ->
  exists p q, print_type o fuel (sd_a sd) da a = Some p /\
    print_type o fuel (sd_b sd) db b = Some q /\ reads e p q.
Proof.
  intros SA SB HA HB AL E. unfold diff_type in E. apply bind_some in E. destruct E as (h & EH & E).
  apply bind_some in E. destruct E as (body & EB & [= <-]).
  apply type_body_reads in EB; try assumption. destruct EB as (p & q & EP & EQ & R).
  unfold diff_type_header in EH. destruct (_ =? _); [|discriminate].
  apply bind_some in EH. destruct EH as (x & EX & EH). apply bind_some in EH. destruct EH as (y & EY & [= <-]).
  unfold print_type. rewrite EX, EY, EP, EQ. cbn [bind]. eexists. eexists. split; [reflexivity|]. split; [reflexivity|].
  apply reads_seq; [|split; [|split]; [apply same_refl..|exact I]].
  destruct R as (O & N & U). split; [|split]; cbn [old_side new_side]; [now apply same_id..|].
  split; [exact I|exact U].
Qed.

(** ** A type compared with itself *)

Lemma same_line_self l v : same_sides (DLine l v v).
Proof. intros n. reflexivity. Qed.
Lemma same_field_self l v : same_sides (field2 l v v).
Proof. intros n. reflexivity. Qed.
Lemma same_tree_self c h b : same_sides h -> same_sides b -> same_sides (DTree c h b).
Proof. intros H1 H2 n. split; auto. Qed.
Lemma same_section_self c l b : same_sides b -> same_sides (DSection c l b).
Proof. intros H1 n. apply H1. Qed.
Lemma same_dseq es : Forall same_sides es -> same_sides (dseq es).
Proof. induction 1; intros n; [exact I|]. split; auto. Qed.

Section Self.
  Variable choose : list N -> list N -> list (list N) -> nat -> nat.
  Variable vw : view.
  Variable cmp : type -> type -> comparison.
  Hypothesis SV : short_view vw.
  Hypothesis CT : compares_types (mkSides vw vw cmp).
  Hypothesis AC : acyclic_view vw.
  Local Notation sd := (mkSides vw vw cmp).

  Lemma cmp_self off t : vw_find vw off = Some t -> cmp t t = Eq.
  Proof.
    intros F. apply (CT t t Eq). cbn [sd_a sd_b]. apply compares_refl. exact (AC off t F).
  Qed.
  Lemma type_cost_self w off : type_cost sd w off off = 0.
  Proof.
    unfold type_cost. cbn [sd_a sd_b sd_cmp]. destruct (vw_find vw off) as [t|] eqn:F; [|reflexivity].
    now rewrite (cmp_self off t F).
  Qed.
  Lemma name_cost_self (n : option string) : swap_cost (cmp_name n n) 1 = 0.
  Proof.
    assert (E : cmp_name n n = Eq).
    { unfold cmp_name. destruct n as [s|]; [|reflexivity]. cbn. now apply cmp_string_eq. }
    now rewrite E.
  Qed.
  Lemma member_cost_self m : member_cost sd m m = 0.
  Proof. unfold member_cost. now rewrite name_cost_self, type_cost_self. Qed.
  Lemma variant_cost_self v : variant_cost v v = 0.
  Proof.
    unfold variant_cost. rewrite name_cost_self. destruct (v_discr_value v); cbn; [now rewrite N.eqb_refl|reflexivity].
  Qed.
  Lemma enumerator_cost_self e : enumerator_cost e e = 0.
  Proof.
    unfold enumerator_cost. rewrite (proj2 (opt_string_eqb_iff _ _) eq_refl).
    destruct (en_value e); cbn; [reflexivity|now rewrite Z.eqb_refl|now rewrite N.eqb_refl].
  Qed.
  Lemma lay_cost_self l : lay_cost sd l l = 0.
  Proof.
    unfold lay_cost. destruct (l_item l); [reflexivity|apply member_cost_self|reflexivity|].
    unfold inherit_cost. apply type_cost_self.
  Qed.

  Lemma diff_member_self f m p :
    (forall t p, short_opt t -> print_members f vw t = Some p ->
       exists e, diff_members choose sd f t t = Some e /\ same_sides e) ->
    print_member (print_members f vw) vw m = Some p ->
    exists e, diff_member sd (diff_members choose sd f) m m = Some e /\ same_sides e.
  Proof.
    intros IH E. unfold print_member in E. apply bind_some in E. destruct E as (body & E & _).
    apply IH in E; [|apply inline_short; exact SV]. destruct E as (e & E & S).
    unfold diff_member. cbn [sd_a sd_b]. rewrite E. cbn [bind]. eexists. split; [reflexivity|].
    apply same_tree_self; [apply same_line_self|exact S].
  Qed.

  Lemma diff_members_self f :
    (forall l p, short_lay l -> print_layout f vw l = Some p ->
       exists e, diff_layout choose sd f l l = Some e /\ same_sides e) /\
    (forall t p, short_opt t -> print_members f vw t = Some p ->
       exists e, diff_members choose sd f t t = Some e /\ same_sides e).
  Proof.
    induction f as [|f [IHL IHM]]; [split; discriminate|]. split.
    - intros l p H E. rewrite print_layout_S in E. rewrite diff_layout_S. unfold short_lay in H.
      cbn [sd_a sd_b]. destruct (l_item l) as [|m|vp|i].
      + eexists. split; [reflexivity|]. apply same_line_self.
      + now apply (diff_member_self f m p).
      + apply bind_some in E. destruct E as (body & E & _).
        apply (compared_list_self choose variant_step variant_cost _
                 (diff_variant choose sd (print_layout f vw) (print_layout f vw) (diff_layout choose sd f)
                    (l_offset l) (opt64_get (l_size l)) (l_offset l) (opt64_get (l_size l))) _ 1) in E;
          [|reflexivity|lia|apply short_room; [lia|apply H]|intros; apply variant_cost_self|].
        * destruct E as (e & E & S). rewrite E. cbn [bind]. eexists. split; [reflexivity|].
          apply same_tree_self; [apply same_line_self|exact S].
        * clear E. intros v q I E. unfold print_variant in E. apply bind_some in E. destruct E as (vb & E & _).
          destruct H as [_ H]. rewrite Forall_forall in H.
          destruct (variant_layout_short (vw_sizes vw) v (l_offset l) (opt64_get (l_size l)) (H v I)) as [R L].
          apply (compared_list_self choose lay_step (lay_cost sd) _ (diff_layout choose sd f) _ 1) in E;
            [|reflexivity|lia|exact R|intros; apply lay_cost_self|intros; eapply IHL; eauto].
          destruct E as (e & E & S). unfold diff_variant. cbn [sd_a sd_b]. rewrite E. cbn [bind].
          eexists. split; [reflexivity|]. apply same_tree_self; [apply same_line_self|exact S].
      + eexists. split; [reflexivity|]. apply same_line_self.
    - intros t p H E. rewrite diff_members_S. destruct t as [t|].
      2: { cbn [option_map]. unfold block. rewrite !print_members_S. cbn [bind]. eexists. split; [reflexivity|].
           intros n. now split. }
      cbn [option_map sd_a sd_b]. rewrite print_members_S in E.
      destruct (t_kind t) eqn:K;
        try (unfold block; rewrite !print_members_S, K; cbn [bind]; eexists; split; [reflexivity|]; intros n; now split).
      + destruct (struct_layout_short (vw_sizes vw) t x K (H t eq_refl)) as [R L].
        eapply compared_list_self with (k := 1); [reflexivity|lia|exact R|intros; apply lay_cost_self|exact E|].
        intros; eapply IHL; eauto.
      + pose proof (H t eq_refl) as R. unfold short_type in R. rewrite K in R.
        eapply compared_list_self with (k := 1); [reflexivity|lia|apply short_room; [lia|exact R]|intros; apply member_cost_self|exact E|].
        intros a q I. now apply diff_member_self.
  Qed.

  Lemma inherits_self l p : short l -> print_inherits vw l = Some p ->
    exists e, diff_inherits choose sd l l = Some e /\ same_sides e.
  Proof.
    intros S E. unfold diff_inherits. cbn [sd_a sd_b]. destruct (1 <? List.length l)%nat eqn:L; cbn [orb].
    - destruct l as [|x [|y l]]; try discriminate. unfold print_inherits in E. apply bind_some in E.
      destruct E as (body & E & _).
      apply (compared_list_self choose inherit_step (inherit_cost sd) _
               (fun i j => Some (DLine [] (base_class vw i) (base_class vw j))) _ 1) in E;
        [|reflexivity|lia|apply short_room; [lia|exact S]|intros; apply type_cost_self|].
      + destruct E as (e & E & SE). rewrite E. cbn [bind]. eexists. split; [reflexivity|].
        now apply same_section_self.
      + intros a q _ _. eexists. split; [reflexivity|]. apply same_line_self.
    - eexists. split; [reflexivity|]. apply same_line_self.
  Qed.

  Lemma same_seq_self a b : same_sides a -> same_sides b -> same_sides (DSeq a b).
  Proof. intros H1 H2 n. split; auto. Qed.
  Lemma same_nil_self : same_sides DNil.
  Proof. intros n. exact I. Qed.
  Ltac same_fields :=
    unfold dseq; cbn [fold_right]; repeat (apply same_seq_self; [|]); try apply same_nil_self;
    try apply same_field_self; try assumption.
  Lemma source_self o d t : same_sides (source_field2 o sd d d t t).
  Proof.
    unfold source_field2. destruct (p_source (o_print o)); [apply same_field_self|]. intros n. exact I.
  Qed.

  Lemma type_self o fuel dir t p : short_type t -> (0 < fuel)%nat ->
    print_type o fuel vw dir t = Some p ->
    exists e, diff_type choose o fuel sd dir dir t t = Some e /\ same_sides e.
  Proof.
    intros ST PF E. unfold print_type in E. apply bind_some in E. destruct E as (h & EH & E).
    apply bind_some in E. destruct E as (body & EB & _).
    unfold diff_type, diff_type_header. cbn [sd_a sd_b]. rewrite N.eqb_refl, EH. cbn [bind].
    enough (X : exists e, diff_type_body choose o fuel sd dir dir t t = Some e /\ same_sides e).
    { destruct X as (e & X & S). rewrite X. cbn [bind]. eexists. split; [reflexivity|].
      intros n. repeat split. apply S. }
    pose proof (proj2 (diff_members_self fuel)) as M.
    unfold diff_type_body. unfold print_type_body in EB. cbn [sd_a sd_b].
    pose proof (source_self o dir t) as SRC.
    destruct (t_kind t) eqn:K; try discriminate.
    - eexists. split; [reflexivity|]. same_fields.
    - apply bind_some in EB. destruct EB as (m & EM & _).
      assert (X : exists e, diff_members choose sd fuel (defined_type vw x) (defined_type vw x) = Some e /\ same_sides e).
      { destruct (defined_type vw x) as [u|] eqn:D.
        - apply bind_some in EM. destruct EM as (d & EM & _). apply (M _ d); [|exact EM].
          intros u' [= <-]. unfold defined_type in D. destruct (vw_find vw (d_ty x)) eqn:F; [|discriminate].
          destruct (is_anon t0); [|discriminate]. injection D as <-. now apply (proj1 SV) in F.
        - destruct fuel as [|f]; [lia|]. apply (M None PNil); [discriminate|reflexivity]. }
      destruct X as (e & X & S). rewrite X. cbn [bind]. eexists. split; [reflexivity|]. same_fields.
    - apply bind_some in EB. destruct EB as (i & EI & EB). apply bind_some in EB. destruct EB as (m & EM & _).
      apply bind_some in EM. destruct EM as (d & EM & _).
      apply M in EM; [|intros u [= <-]; assumption]. destruct EM as (e & EM & S).
      pose proof ST as ST'. unfold short_type in ST'. rewrite K in ST'.
      apply inherits_self in EI; [|apply ST']. destruct EI as (ei & EI & SI).
      rewrite EI, EM. cbn [bind]. eexists. split; [reflexivity|]. same_fields.
    - apply bind_some in EB. destruct EB as (m & EM & _). apply bind_some in EM. destruct EM as (d & EM & _).
      apply M in EM; [|intros u [= <-]; assumption]. destruct EM as (e & EM & S).
      rewrite EM. cbn [bind]. eexists. split; [reflexivity|]. same_fields.
    - apply bind_some in EB. destruct EB as (m & EM & _).
      apply (compared_list_self choose enumerator_step enumerator_cost _
               (fun e f => Some (DLine [] (VText (enumerator_text e)) (VText (enumerator_text f)))) _ 3) in EM;
        [|reflexivity|lia|apply short_room; [lia|apply SV]|intros; apply enumerator_cost_self|].
      + destruct EM as (e & EM & S). rewrite EM. cbn [bind]. eexists. split; [reflexivity|]. same_fields.
      + intros a q _ _. eexists. split; [reflexivity|]. apply same_line_self.
  Qed.
End Self.

(** ** The flag *)

Lemma changed_shown d : unhidden d -> forall depth i, changed depth d = true -> diff_lines depth i d <> [].
Proof.
  induction d as [|a IHa b IHb|label a b|label| |c h IHh b IHb|c l b IHb|i0 h IHh b IHb|d IH|d|d|a b|d IH|fl d IH];
    cbn [unhidden changed diff_lines]; intros U depth i C; try discriminate.
  - apply orb_true_iff in C. intros E. apply app_eq_nil in E. destruct U, E, C; [eapply IHa|eapply IHb]; eauto.
  - destruct (text_eqb _ _) eqn:E; [discriminate|]. intros X. apply app_eq_nil in X. destruct X as [X Y].
    cbn [lines] in X, Y. destruct (text_value a), (text_value b); try discriminate.
  - apply orb_true_iff in C. intros E. apply app_eq_nil in E. destruct U, E, C; [eapply IHh|eapply IHb]; eauto.
  - specialize (IHb U depth (S i) C). destruct (diff_lines depth (S i) b); [contradiction|discriminate].
  - apply orb_true_iff in C. intros E. apply app_eq_nil in E. destruct U, E, C; [eapply IHh|eapply IHb]; eauto.
  - destruct depth; [discriminate|]. now apply IH.
  - apply nonempty_iff in C. intros X. apply map_eq_nil in X. apply C. now apply (lines_empty _ _ i).
  - apply nonempty_iff in C. intros X. apply map_eq_nil in X. apply C. now apply (lines_empty _ _ i).
  - intros X. apply app_eq_nil in X. destruct X as [X Y]. apply map_eq_nil in X, Y.
    apply orb_true_iff in C. destruct C as [C|C]; apply nonempty_iff in C; apply C; now apply (lines_empty _ _ i).
  - destruct U.
  - destruct fl; [discriminate|]. now apply IH.
Qed.

(** A difference is never missed. *)
Lemma flag_complete d : unhidden d -> forall s f,
  f || changed (ts_depth s) d = true -> snd (diff_doc text_printer false false d s f) = true.
Proof.
  induction d as [|a IHa b IHb|label a b|label| |c h IHh b IHb|c l b IHb|i0 h IHh b IHb|d IH|d|d|a b|d IH|fl d IH];
    cbn [unhidden changed]; intros U s f C;
    try (match goal with |- context [diff_doc _ _ _ ?d _ _] => destruct (diff_doc_text d s f I) as (s' & E & P) end;
         rewrite E; exact C); cbn [diff_doc].
  - destruct U as [UA UB]. destruct (diff_text_unhidden a UA s f) as (s1 & f1 & E1 & I1 & D1).
    pose proof (IHa UA s f) as H. rewrite E1 in *. cbn [snd] in H.
    destruct (diff_text_unhidden b UB s1 f1) as (s2 & f2 & E2 & _).
    pose proof (IHb UB s1 f1) as H2. rewrite E2 in *. cbn [snd] in *. apply H2. rewrite D1.
    rewrite orb_assoc in C. apply orb_true_iff in C. apply orb_true_iff. destruct C as [C|C]; auto.
  - destruct U as [UH UB]. unfold diff_indent, diff_body. cbn [p_prefix p_body text_printer].
    pose proof (IHb UB (text_set_prefix XEqual (text_indented s)) false) as HB.
    destruct (diff_text_unhidden b UB (text_set_prefix XEqual (text_indented s)) false) as (s1 & f1 & E1 & _).
    rewrite E1 in *. cbn [ts_depth ts_indent text_set_prefix text_indented snd orb] in *. rewrite write_marked_empty.
    destruct (diff_lines (ts_depth s) (S (ts_indent s)) b) as [|p ls] eqn:EL; cbn [is_empty negb].
    + apply (IHh UH s f). destruct (changed (ts_depth s) b) eqn:CB; [|now rewrite orb_false_r in C].
      exfalso. revert EL. now apply changed_shown.
    + cbn [p_header text_printer]. unfold diff_header. cbn [p_prefix text_printer].
      match goal with |- context [diff_doc _ _ _ h ?s0 false] =>
        pose proof (IHh UH s0 false) as HH; destruct (diff_text_unhidden h UH s0 false) as (s2 & f2 & E2 & _) end.
      rewrite E2 in *. cbn [snd ts_depth text_set_prefix orb] in *.
      destruct f; [reflexivity|]. cbn [orb] in *. apply orb_true_iff in C. apply orb_true_iff.
      destruct C as [C|C]; auto.
  - unfold diff_indent, diff_body. cbn [p_prefix p_body text_printer].
    pose proof (IHb U (text_set_prefix XEqual (text_indented s)) false) as HB.
    destruct (diff_text_unhidden b U (text_set_prefix XEqual (text_indented s)) false) as (s1 & f1 & E1 & _).
    rewrite E1 in *. cbn [ts_depth ts_indent text_set_prefix text_indented snd orb] in *. rewrite write_marked_empty.
    destruct (diff_lines (ts_depth s) (S (ts_indent s)) b) as [|p ls] eqn:EL; cbn [is_empty negb].
    + cbn [snd]. destruct (changed (ts_depth s) b) eqn:CB; [|now rewrite orb_false_r in C].
      exfalso. revert EL. now apply changed_shown.
    + cbn [p_header text_printer]. unfold diff_header, diff_label. cbn [p_prefix text_printer p_line snd].
      apply orb_true_iff in C. apply orb_true_iff. destruct C as [C|C]; [now left|right].
      rewrite HB; [reflexivity|exact C].
  - destruct U as [UH UB]. unfold diff_body. cbn [p_prefix p_body text_printer].
    pose proof (IHb UB (text_set_prefix XEqual (text_indented s)) false) as HB.
    destruct (diff_text_unhidden b UB (text_set_prefix XEqual (text_indented s)) false) as (s1 & f1 & E1 & _).
    rewrite E1 in *. cbn [ts_depth ts_indent text_set_prefix text_indented p_id text_printer snd orb] in *.
    unfold diff_header. cbn [p_prefix text_printer].
    match goal with |- context [diff_doc _ _ _ h ?s0 false] =>
      pose proof (IHh UH s0 false) as HH; destruct (diff_text_unhidden h UH s0 false) as (s2 & f2 & E2 & _) end.
    rewrite E2 in *. cbn [snd ts_depth text_set_prefix orb] in *.
    destruct f; [reflexivity|]. cbn [orb] in *. apply orb_true_iff in C.
    destruct C as [C|C]; [rewrite (HH C)|rewrite (HB C)]; rewrite ?orb_true_r; reflexivity.
  - cbn [p_inline_begin text_printer]. destruct s as [i p n]. cbn [ts_depth ts_indent] in *.
    destruct n as [|n]; [now rewrite orb_false_r in C|]. cbn [ts_prefix].
    pose proof (IH U (mkText i p n) f C) as H.
    destruct (diff_text_unhidden d U (mkText i p n) f) as (s1 & f1 & E1 & _). rewrite E1 in *. exact H.
  - now rewrite print_doc_text.
  - now rewrite print_doc_text.
  - destruct U.
  - pose proof (IH U s f) as H. destruct (diff_text_unhidden d U s f) as (s1 & f1 & E1 & _). rewrite E1 in *.
    cbn [snd] in *. destruct fl; cbn [negb andb] in C; [now rewrite orb_false_r in C|]. now apply H.
Qed.

(** No ignore option applies inside types. *)
Lemma all_rows_unignored {A} (pa pb : A -> option pdoc) df rows : forall e,
  all_rows pa pb df rows = Some e ->
  (forall a b e, df a b = Some e -> unignored e) -> unignored e.
Proof.
  induction rows as [|r rows IH]; cbn [all_rows]; intros e E H.
  - injection E as <-. exact I.
  - apply bind_some in E. destruct E as (d & ED & E). apply bind_some in E. destruct E as (rest & ER & [= <-]).
    split; [|now apply IH]. destruct r; cbn [row_doc] in ED; [| |eauto];
      apply bind_some in ED; destruct ED as (? & _ & [= <-]); exact I.
Qed.
Lemma compared_list_unignored {A} choose step dc (pa pb : A -> option pdoc) df l1 l2 e :
  compared_list choose step dc pa pb df l1 l2 = Some e ->
  (forall a b e, df a b = Some e -> unignored e) -> unignored e.
Proof. unfold compared_list. intros E H. apply bind_some in E. destruct E as (rows & _ & E). exact (all_rows_unignored _ _ _ _ _ E H). Qed.
Lemma block_unignored a b e : block a b = Some e -> unignored e.
Proof.
  unfold block. intros E. apply bind_some in E. destruct E as (? & _ & E). apply bind_some in E.
  destruct E as (? & _ & [= <-]). exact I.
Qed.
Lemma members_unignored choose sd f :
  (forall a b e, diff_layout choose sd f a b = Some e -> unignored e) /\
  (forall a b e, diff_members choose sd f a b = Some e -> unignored e).
Proof.
  induction f as [|f [IHL IHM]]; [split; discriminate|].
  assert (DM : forall a b e, diff_member sd (diff_members choose sd f) a b = Some e -> unignored e).
  { intros a b e E. unfold diff_member in E. apply bind_some in E. destruct E as (d & E & [= <-]).
    split; [exact I|]. eauto. }
  split; intros a b e E.
  - rewrite diff_layout_S in E.
    destruct (l_item a), (l_item b); try (now apply block_unignored in E); try (injection E as <-; exact I).
    + eauto.
    + apply bind_some in E. destruct E as (d & E & [= <-]). split; [exact I|].
      apply compared_list_unignored in E; [exact E|]. intros x y e' E'. unfold diff_variant in E'.
      apply bind_some in E'. destruct E' as (d' & E' & [= <-]). split; [exact I|].
      apply compared_list_unignored in E'; [exact E'|exact IHL].
  - rewrite diff_members_S in E.
    destruct (option_map t_kind a) as [[]|], (option_map t_kind b) as [[]|]; try (now apply block_unignored in E);
      apply compared_list_unignored in E; auto.
Qed.
Lemma type_unignored choose o fuel sd da db a b e :
  diff_type choose o fuel sd da db a b = Some e -> unignored e.
Proof.
  intros E. unfold diff_type in E. apply bind_some in E. destruct E as (h & EH & E).
  apply bind_some in E. destruct E as (body & EB & [= <-]). split; [|exact I]. split.
  - unfold diff_type_header in EH. destruct (_ =? _); [|discriminate].
    apply bind_some in EH. destruct EH as (x & EX & EH). apply bind_some in EH. destruct EH as (y & EY & [= <-]). exact I.
  - assert (SRC : unignored (source_field2 o sd da db a b)) by (unfold source_field2; now destruct (p_source _)).
    unfold diff_type_body in EB.
    destruct (t_kind a), (t_kind b); try discriminate.
    + injection EB as <-. cbn. tauto.
    + apply bind_some in EB. destruct EB as (m & EM & [= <-]). apply bind_some in EM. destruct EM as (d & EM & [= <-]).
      apply members_unignored in EM. cbn. tauto.
    + apply bind_some in EB. destruct EB as (i & EI & EB). apply bind_some in EB. destruct EB as (m & EM & [= <-]).
      apply bind_some in EM. destruct EM as (d & EM & [= <-]). apply members_unignored in EM.
      assert (unignored i).
      { unfold diff_inherits in EI. destruct (_ || _); [|injection EI as <-; exact I].
        apply bind_some in EI. destruct EI as (? & EI & [= <-]). apply compared_list_unignored in EI; [exact EI|].
        intros ? ? ? [= <-]. exact I. }
      cbn. tauto.
    + apply bind_some in EB. destruct EB as (m & EM & [= <-]). apply bind_some in EM. destruct EM as (d & EM & [= <-]).
      apply members_unignored in EM. cbn. tauto.
    + apply bind_some in EB. destruct EB as (m & EM & [= <-]).
      apply compared_list_unignored in EM; [cbn; tauto|]. intros ? ? ? [= <-]. exact I.
Qed.
