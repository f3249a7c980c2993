(** Instructions on a page that loads them and on a page that shows them. *)
From Coq Require Import List NArith Bool String Lia.
From Verif Require Import Base BaseProofs TypeModel LayoutModel RefModel FileModel OptionsModel FilterModel IdModel PrintModel
  CodeModel ItemModel EntryModel ReportModel ItemProofs ItemShown EntryProofs ReportProofs ServeSpec ServeMore ServePage.
Import ListNotations.
Local Open Scope list_scope.

(** ** Linked pages *)
Section Linked.
  Variable code : nat -> option text.
  Lemma linked_refl t : linked code t t.
  Proof. rewrite <- (app_nil_r t). apply linked_same. constructor. Qed.
  Lemma linked_app a b c d : linked code a b -> linked code c d -> linked code (a ++ c) (b ++ d).
  Proof.
    induction 1 as [|x s t _ IH|n h x t s t' T N C _ IH]; intros H; [exact H| |]; rewrite <- !app_assoc; constructor; auto.
  Qed.
  Lemma linked_empty a b : linked code a b -> is_empty a = is_empty b.
  Proof. induction 1 as [|x s t _ IH|n h x t s t' T N C _ IH]; [reflexivity| |reflexivity]. destruct x; [exact IH|reflexivity]. Qed.
End Linked.

(** ** Documents without entries and details *)
Fixpoint flat (d : pdoc) : Prop :=
  match d with
  | PNil | PBreak | PLine _ _ | PLabel _ | PInstruction _ _ _ => True
  | PSeq a b | PTree _ a b => flat a /\ flat b
  | PSection _ _ b => flat b
  | PInline d => flat d
  | PDetail _ _ _ | PId _ _ _ => False
  end.
Lemma simple_flat d : simple d -> flat d.
Proof. induction d; cbn; intuition. Qed.
Lemma seq_flat l : Forall flat l -> flat (seq_docs l).
Proof. induction 1; cbn; auto. Qed.

(** Nothing but details depends on the second argument. *)
Fixpoint undetailed (d : pdoc) : Prop :=
  match d with
  | PNil | PBreak | PLine _ _ | PLabel _ | PInstruction _ _ _ => True
  | PSeq a b | PTree _ a b | PId _ a b => undetailed a /\ undetailed b
  | PSection _ _ b => undetailed b
  | PInline d => undetailed d
  | PDetail _ _ _ => False
  end.
Lemma flat_undetailed d : flat d -> undetailed d.
Proof. induction d; cbn; intuition. Qed.

Section Code.
  Variables (esc : N -> text) (alnum : N -> bool).
  Hypothesis SAFE : forall c x, In x (esc c) -> x <> 60%N.
  Variable code : nat -> option text.
  Variable depth : nat.

  Definition page_text (ids details : bool) (d : pdoc) : text :=
    fst (print_doc (html_printer esc alnum ids) details d (html_start depth)).
  Lemma page_start ids det d :
    print_doc (html_printer esc alnum ids) det d (html_start depth) = (page_text ids det d, html_start depth).
  Proof.
    pose proof (kept_start depth _ (doc_kept esc alnum ids det d (html_start depth))) as H. unfold page_text.
    destruct (print_doc (html_printer esc alnum ids) det d (html_start depth)) as [t s]. cbn in *. now rewrite H.
  Qed.

  Lemma flat_same d : flat d -> forall ids ids' det det' s,
    print_doc (html_printer esc alnum ids) det d s = print_doc (html_printer esc alnum ids') det' d s.
  Proof.
    intros F ids ids' det det'. induction d as [|a IA b IB|l v|l| |c h IH b IB|c l b IB|i l b IB|n h IH b IB|d IH|a m v];
      cbn [flat] in F; intros s; try contradiction; cbn [print_doc]; try reflexivity.
    - destruct F as [FA FB]. rewrite (IA FA). destruct (print_doc (html_printer esc alnum ids') det' a s) as [ta s1]. rewrite (IB FB). reflexivity.
    - destruct F as [SH SB]. unfold print_indent. change (p_body (html_printer esc alnum ids)) with (html_started false).
      change (p_body (html_printer esc alnum ids')) with (html_started false).
      rewrite (IB SB). destruct (print_doc (html_printer esc alnum ids') det' b _) as [tb sb]. destruct (negb (is_empty tb)); [|apply (IH SH)].
      cbn. unfold no_flag. rewrite (IH SH). reflexivity.
    - unfold print_indent. change (p_body (html_printer esc alnum ids)) with (html_started false).
      change (p_body (html_printer esc alnum ids')) with (html_started false).
      rewrite (IB F). reflexivity.
    - cbn. destruct (hs_depth s); [reflexivity|]. rewrite (IH F). reflexivity.
  Qed.
  Lemma flat_page d ids ids' det det' : flat d -> page_text ids det d = page_text ids' det' d.
  Proof. intros F. unfold page_text. now rewrite (flat_same d F ids ids' det det'). Qed.

  Lemma undetailed_same ids d : undetailed d -> forall det det' s,
    print_doc (html_printer esc alnum ids) det d s = print_doc (html_printer esc alnum ids) det' d s.
  Proof.
    intros F det det'. induction d as [|a IA b IB|l v|l| |c h IH b IB|c l b IB|i l b IB|n h IH b IB|d IH|a m v];
      cbn [undetailed] in F; intros s; try contradiction; cbn [print_doc]; try reflexivity.
    - destruct F as [FA FB]. rewrite (IA FA). destruct (print_doc (html_printer esc alnum ids) det' a s) as [ta s1]. rewrite (IB FB). reflexivity.
    - destruct F as [SH SB]. unfold print_indent.
      rewrite (IB SB). destruct (print_doc (html_printer esc alnum ids) det' b _) as [tb sb]. destruct (negb (is_empty tb)); [|apply (IH SH)].
      cbn. unfold no_flag. rewrite (IH SH). reflexivity.
    - unfold print_indent. rewrite (IB F). reflexivity.
    - destruct F as [SH SB]. cbn. unfold no_flag. rewrite (IH SH). destruct (print_doc (html_printer esc alnum ids) det' h _) as [th sh].
      rewrite (IB SB). reflexivity.
    - cbn. destruct (hs_depth s); [reflexivity|]. rewrite (IH F). reflexivity.
  Qed.
  Lemma undetailed_page ids d det det' : undetailed d -> page_text ids det d = page_text ids det' d.
  Proof. intros F. unfold page_text. now rewrite (undetailed_same ids d F det det'). Qed.

  Lemma page_seq ids det a b : page_text ids det (PSeq a b) = page_text ids det a ++ page_text ids det b.
  Proof. unfold page_text at 1. cbn [print_doc]. rewrite page_start, page_start. reflexivity. Qed.
  Lemma page_section ids det c l b : page_text ids det (PSection c l b) =
    if is_empty (page_text ids det b) then []
    else txt "<li class=""treebranch"">" ++ html_line (html_started true (html_start depth)) l [] ++
         (if c then txt "<ul style=""display:none"">" else txt "<ul>") ++ newline ++ page_text ids det b ++ txt "</ul></li>" ++ newline.
  Proof.
    unfold page_text at 1. cbn [print_doc]. unfold print_indent.
    change (p_body (html_printer esc alnum ids)) with (html_started false).
    change (html_started false (html_start depth)) with (html_start depth). rewrite page_start.
    destruct (is_empty (page_text ids det b)); reflexivity.
  Qed.
  Definition title (v : value) : text := fst (printed esc alnum false (PLine [] v) (html_started true (html_start depth))).
  Lemma page_id det n v b : page_text false det (PId n (PLine [] v) b) = loaded_entry n (title v) (page_text false det b).
  Proof.
    unfold title, page_text at 1, printed. cbn [print_doc p_id html_printer]. unfold no_flag. cbn [print_doc].
    pose proof (page_start false det b) as PB.
    destruct (is_empty (p_value (html_printer esc alnum false) v)) eqn:EV; cbn [p_value html_printer] in EV |- *; rewrite ?EV; cbn [fst];
      change (html_started false (html_started true (html_start depth))) with (html_start depth); rewrite PB;
      unfold loaded_entry, number; rewrite <- ?app_assoc; reflexivity.
  Qed.
  Lemma page_code_link c : page_text false true (PDetail (txt "code") (txt "instructions") c) = code_link.
  Proof. reflexivity. Qed.
  Lemma page_code_list c : page_text false false (PDetail (txt "code") (txt "instructions") c) = code_list (page_text false false c).
  Proof.
    change (page_text false false (PDetail (txt "code") (txt "instructions") c)) with
      (page_text false false (PSection true (txt "instructions") c)). rewrite page_section.
    unfold code_list. destruct (page_text false false c); reflexivity.
  Qed.
  Lemma page_pseq_end ids det l d : page_text ids det (pseq (l ++ [d])) = page_text ids det (pseq l) ++ page_text ids det d.
  Proof.
    induction l as [|x l IH].
    - change (pseq ([] ++ [d])) with (PSeq d PNil). rewrite page_seq. apply app_nil_r.
    - change (pseq ((x :: l) ++ [d])) with (PSeq x (pseq (l ++ [d]))). change (pseq (x :: l)) with (PSeq x (pseq l)).
      now rewrite !page_seq, IH, app_assoc.
  Qed.

  Inductive linkable : pdoc -> Prop :=
  | lk_flat : forall d, flat d -> linkable d
  | lk_seq : forall a b, linkable a -> linkable b -> linkable (PSeq a b)
  | lk_section : forall c l b, linkable b -> linkable (PSection c l b)
  | lk_id : forall n v b, linkable b -> linkable (PId n (PLine [] v) b)
  | lk_code : forall n v l c, Forall simple l -> flat c -> code n = Some (page_text true true c) ->
      linkable (PId n (PLine [] v) (pseq (l ++ [PDetail (txt "code") (txt "instructions") c]))).

  Lemma linkable_linked d : linkable d -> linked code (page_text false true d) (page_text false false d).
  Proof.
    induction 1 as [d F|a b _ IA _ IB|c l b _ IB|n v b _ IB|n v l c S F C].
    - rewrite (flat_page d false false true false F). apply linked_refl.
    - rewrite !page_seq. now apply linked_app.
    - rewrite !page_section, (linked_empty _ _ _ IB). destruct (is_empty (page_text false false b)); [apply linked_refl|].
      do 4 (apply linked_app; [apply linked_refl|]). apply linked_app; [exact IB|apply linked_refl].
    - rewrite !page_id. unfold loaded_entry.
      do 6 (apply linked_app; [apply linked_refl|]). apply linked_app; [exact IB|apply linked_refl].
    - rewrite !page_id, !page_pseq_end, page_code_link, page_code_list.
      assert (SL : simple (pseq l)) by (now apply simple_pseq).
      rewrite (flat_page (pseq l) false false true false (simple_flat _ SL)).
      rewrite (flat_page c true false true false F) in C.
      rewrite <- (app_nil_r (loaded_entry n (title v) (_ ++ code_link))), <- (app_nil_r (loaded_entry n (title v) (_ ++ code_list _))).
      apply linked_code; [| |exact C|constructor].
      + apply (title_ok code depth), title_tagged; [exact SAFE|reflexivity].
      + rewrite (flat_page (pseq l) false false false true (simple_flat _ SL)).
        apply (tagged_contains entry_tags _ (tl with_id)); [|right; now left|cbn; intuition discriminate].
        now apply simple_tagged.
  Qed.

  (** ** The documents of a file *)
  Variables (o : options) (pc : param_cmp) (fuel : nat) (im : image).
  Hypothesis HTML : o_html o = true.
  Hypothesis FUNCTIONS : forall u f c, In u (im_units im) -> In f (un_functions u) -> print_instructions (im_scene im) f = Some c ->
    code (sc_function_id (im_scene im) f) = Some (page_text true true c).

  Lemma linkable_all {A} (pr : A -> option pdoc) l d :
    (forall x p, In x l -> pr x = Some p -> linkable p) -> all_printed pr l = Some d -> linkable d.
  Proof.
    revert d. induction l as [|x l IH]; intros d H E; cbn [all_printed] in E; inv_bind; [apply lk_flat; exact I|].
    apply lk_seq; [eapply H; [now left|eassumption]|]. eapply IH; [|eassumption]. intros y p Y. apply H. now right.
  Qed.
  Lemma linkable_simple d : simple d -> linkable d.
  Proof. intros S. apply lk_flat. now apply simple_flat. Qed.
  Lemma linkable_pseq l : Forall linkable l -> linkable (pseq l).
  Proof. induction 1; cbn; [apply lk_flat; exact I|now apply lk_seq]. Qed.

  Lemma linkable_types u d : print_types o fuel im u = Some d -> linkable d.
  Proof.
    apply linkable_all. intros t p T E. unfold print_type_in, print_type in E. inv_bind.
    apply lk_seq; [|apply lk_flat; exact I]. apply lk_id. apply linkable_simple. eapply simple_type_body; eassumption.
  Qed.
  Lemma linkable_variables u d : print_variables o im u = Some d -> linkable d.
  Proof.
    apply linkable_all. intros t p T E. unfold print_variable_in, print_variable in E. inv_bind.
    apply lk_seq; [|apply lk_flat; exact I]. apply lk_id. apply linkable_simple. apply simple_variable_body.
  Qed.
  Lemma all_done_in {A} (l : list (outcome A)) r x : all_done l = Done r -> In x r -> In (Done x) l.
  Proof.
    revert r. induction l as [|[y|] l IH]; intros r E X; cbn in E; try discriminate.
    - injection E as <-. contradiction.
    - destruct (all_done l) as [t|]; [|discriminate]. injection E as <-. destruct X as [->|X]; [now left|right]. now apply (IH t).
  Qed.
  Lemma instructions_flat sc f c : print_instructions sc f = Some c -> flat c.
  Proof.
    unfold print_instructions. destruct (sc_program sc) as [p|]; [|intros E; inv_bind; exact I].
    unfold instructions_doc. destruct (listing _ _ _ _) as [l|]; [|discriminate].
    destruct (all_done (map _ l)) as [ds|] eqn:E; [|discriminate]. intros R. cbn [ok] in R. apply some_eq in R. subst c.
    apply seq_flat. apply Forall_forall. intros d D. apply (all_done_in _ _ _ E) in D. apply in_map_iff in D.
    destruct D as (x & X & _). destruct (all_done _) as [es|] eqn:E' in X; [|discriminate]. injection X as <-. split; [exact I|].
    apply seq_flat. apply Forall_forall. intros e D. apply (all_done_in _ _ _ E') in D. apply in_map_iff in D.
    destruct D as (y & Y & _). destruct y as [i|y]; cbn [entry_doc] in Y; [|injection Y as <-; exact I].
    unfold instruction_doc in Y. destruct (notes _ _ _) as [ns|]; [|discriminate]. injection Y as <-. split; [unfold instruction_line; repeat match goal with |- flat (match ?x with _ => _ end) => destruct x end; exact I|].
    apply seq_flat. apply Forall_forall. intros z Z. apply in_map_iff in Z. destruct Z as (w & <- & _). exact I.
  Qed.
  Lemma linkable_functions keep u d : In u (im_units im) -> print_some_functions o pc fuel im keep u = Some d -> linkable d.
  Proof.
    intros U. apply linkable_all. intros f p F E. unfold print_function_in, print_function, print_function_listed in E. inv_bind.
    apply lk_seq; [|apply lk_flat; exact I].
    apply sorted_in in F. apply filter_In in F. destruct F as [F _]. apply filter_In in F. destruct F as [F _].
    destruct (function_body_parts _ _ _ _ _ _ _ _ H) as (l & c & -> & L & [->|(c' & -> & C)]).
    - apply lk_id. apply linkable_pseq. apply Forall_app. split; [eapply Forall_impl; [|exact L]; apply linkable_simple|].
      constructor; [apply lk_flat; exact I|constructor].
    - apply lk_code; [exact L|eapply instructions_flat; eassumption|eapply FUNCTIONS; eassumption].
  Qed.
  Lemma linkable_collapsed_of label x d : collapsed_of label x = Some d -> (forall p, x = Some p -> linkable p) -> linkable d.
  Proof. unfold collapsed_of. intros E H. inv_bind. apply lk_section; auto. Qed.
  Lemma linkable_unit_body u d : In u (im_units im) -> print_unit_body o pc fuel im u = Some d -> linkable d.
  Proof.
    intros U. unfold print_unit_body. rewrite HTML. intros E. inv_bind. apply linkable_pseq.
    constructor; [apply linkable_simple; destruct (c_unit _); [eapply simple_unit_fields; eassumption|exact I]|].
    constructor; [apply lk_section; eapply linkable_types; eassumption|].
    constructor.
    { destruct (c_function _); inv_bind; [|apply lk_flat; exact I].
      apply lk_seq; (eapply linkable_collapsed_of; [eassumption|intros p; apply linkable_functions; exact U]). }
    constructor; [|constructor]. apply lk_section; eapply linkable_variables; eassumption.
  Qed.
  Lemma linkable_file d : print_file o pc fuel im = Some d -> linkable d.
  Proof.
    unfold print_file. intros E. inv_bind. apply lk_seq.
    - apply linkable_simple. destruct (c_file _); [eapply simple_file_header; eassumption|inv_bind; exact I].
    - eapply linkable_all; [|eassumption]. intros u p U F. apply sorted_in in U. apply filter_In in U. destruct U as [U _].
      unfold print_unit in F. rewrite HTML in F. inv_bind. apply lk_id. eapply linkable_unit_body; eassumption.
  Qed.
End Code.
