(** Everything that is printed has the same outline on a page as in the text output. *)
From Coq Require Import List Arith NArith Bool String.
From Verif Require Import Base BaseProofs RangeModel TypeModel LayoutModel RefModel FileModel OptionsModel FilterModel DiffModel IdModel
  PrintModel PrintSpec HtmlSpec MarkSpec CodeModel ItemModel EntryModel ReportModel ItemProofs ItemShown EntryProofs ReportProofs RunPlain
  OutlineSpec OutlineProofs.
Import ListNotations.
Local Open Scope list_scope.

Section Neat.
  Variable short : text -> text.
  Notation nn := (neat short).
  Notation tt := (tidy short).

  Lemma solid_text t : solid short (VText t).
  Proof. intros E. cbn in *. now rewrite E. Qed.
  Lemma solid_nil : solid short VNil.
  Proof. intros _. reflexivity. Qed.
  Lemma solid_full v : text_value v <> [] -> solid short v.
  Proof. intros N E. now destruct N. Qed.

  Lemma neat_all {A} (pr : A -> option pdoc) l d :
    (forall x p, In x l -> pr x = Some p -> nn p) -> all_printed pr l = Some d -> nn d.
  Proof.
    revert d. induction l as [|x l IH]; intros d H E; cbn [all_printed] in E; inv_bind; [exact I|].
    split; [eapply H; [now left|eassumption]|]. eapply IH; [|eassumption]. intros y p J. apply H. now right.
  Qed.

  Ltac full := let E := fresh in intros E; cbn [text_value vcat fold_right field] in E;
    repeat match goal with H : _ ++ _ = [] |- _ => apply app_eq_nil in H; destruct H end; discriminate.
  Ltac known := fail.
  Ltac step :=
    first
    [ progress inv_bind
    | match goal with
      | |- True => exact I
      | |- _ /\ _ => split
      | |- txt _ <> [] => discriminate
      | |- heads _ (PLine [] _) => eexists; split; [reflexivity|]
      | |- titles_with (PLine [] _) => eexists; split; [reflexivity|]
      | |- solid _ (VText _) => apply solid_text
      | |- solid _ VNil => apply solid_nil
      | |- solid _ _ => apply solid_full; full
      | |- nn (if ?b then _ else _) => destruct b
      | H : ?e = Some ?d |- ?g ?d =>
          match e with
          | (if ?b then _ else _) => destruct b
          | section_of _ _ => unfold section_of in H
          | collapsed_of _ _ => unfold collapsed_of in H
          | block _ _ => unfold block in H
          | print_lines _ _ => unfold print_lines in H
          end
      | |- forall _, _ => intro
      | H : all_printed _ _ = Some ?d |- nn ?d => refine (neat_all _ _ _ _ H)
      end
    | progress cbn [neat pseq fold_right field ignored count_field]
    ].
  Ltac go := repeat first [step | known].

  Lemma neat_frames l d : print_frames l = Some d -> nn d.
  Proof. unfold print_frames. destruct (sorted_frames l) as [|x [|y s]]; intros E; go. Qed.
  Lemma neat_registers sc l d : print_registers sc l = Some d -> nn d.
  Proof. unfold print_registers. intros E. go. Qed.
  Ltac known ::= match goal with
    | H : print_frames _ = Some ?d |- nn ?d => exact (neat_frames _ _ H)
    | H : print_registers _ _ = Some ?d |- nn ?d => exact (neat_registers _ _ _ H)
    end.
  Lemma neat_formal o sc x d : print_formal o sc x = Some d -> nn d.
  Proof. unfold print_formal. intros E. go. Qed.
  Lemma neat_slot o sc x d : print_slot o sc x = Some d -> nn d.
  Proof. unfold print_slot. intros E. go. Qed.
  Lemma solid_argument sc x : solid short (argument_value sc x).
  Proof.
    unfold argument_value, vtxt. destruct (argument_type sc x) as [t|]; [apply solid_full; full|].
    intros E. cbn [text_value vcat nothing] in *. rewrite !app_nil_r in E. now rewrite E.
  Qed.
  Ltac known ::= match goal with
    | H : print_frames _ = Some ?d |- nn ?d => exact (neat_frames _ _ H)
    | H : print_registers _ _ = Some ?d |- nn ?d => exact (neat_registers _ _ _ H)
    | |- solid _ (argument_value _ _) => apply solid_argument
    end.
  Lemma neat_argument o sc x d : print_argument o sc x = Some d -> nn d.
  Proof. unfold print_argument, print_pieces. intros E. go. Qed.
  Ltac known ::= match goal with
    | H : print_formal _ _ _ = Some ?d |- nn ?d => exact (neat_formal _ _ _ _ H)
    | H : print_slot _ _ _ = Some ?d |- nn ?d => exact (neat_slot _ _ _ _ H)
    | H : print_argument _ _ _ = Some ?d |- nn ?d => exact (neat_argument _ _ _ _ H)
    | |- solid _ (site_value _ _) => apply solid_full; unfold site_value; full
    end.
  Lemma neat_site o sc dir x d : print_site o sc dir x = Some d -> nn d.
  Proof. unfold print_site, print_pieces. intros E. go. Qed.
  Ltac known ::= match goal with
    | H : print_formal _ _ _ = Some ?d |- nn ?d => exact (neat_formal _ _ _ _ H)
    | H : print_slot _ _ _ = Some ?d |- nn ?d => exact (neat_slot _ _ _ _ H)
    | H : print_site _ _ _ _ = Some ?d |- nn ?d => exact (neat_site _ _ _ _ _ H)
    end.
  Lemma neat_inlined o fuel sc dir : forall x d, print_inlined o fuel sc dir x = Some d -> nn d.
  Proof. induction fuel as [|fuel IH]; intros x d E; [discriminate|]. rewrite print_inlined_S in E. go; eapply IH; eassumption. Qed.

  (** ** Instructions *)
  Lemma neat_seq l : Forall nn l -> nn (seq_docs l).
  Proof. induction 1; cbn; auto. Qed.
  Lemma done_neat {A} (f : A -> outcome pdoc) l ds : (forall x d, f x = Done d -> nn d) ->
    all_done (map f l) = Done ds -> Forall nn ds.
  Proof.
    revert ds. induction l as [|x l IH]; intros ds H E; cbn [map all_done] in E; [injection E as <-; constructor|].
    destruct (f x) as [d|] eqn:F; [|discriminate]. destruct (all_done _) as [r|] eqn:R; [|discriminate]. injection E as <-.
    constructor; [exact (H x d F)|]. now apply IH.
  Qed.
  Lemma neat_instructions sc f d : print_instructions sc f = Some d -> nn d.
  Proof.
    unfold print_instructions. destruct (sc_program sc) as [p|] eqn:P; [|intros E; go].
    set (nm := mkNames _ _ _ _ _ _ _). unfold instructions_doc.
    destruct (listing _ _ _ _) as [l|] eqn:L; [|discriminate]. cbn [ok].
    destruct (all_done _) as [ds|] eqn:D; [|discriminate]. cbn [ok]. intros E. apply some_eq in E. subst d. apply neat_seq.
    refine (done_neat _ _ _ _ D). intros [r es] e E. cbn [fst snd] in E.
    match type of E with context [all_done ?z] => destruct (all_done z) as [xs|] eqn:X end; [|discriminate]. injection E as <-. split; [exact I|]. apply neat_seq.
    refine (done_neat _ _ _ _ X). intros y e F.
    destruct y as [i|c]; cbn [entry_doc] in F; [|injection F as <-; exact I].
    unfold instruction_doc in F. destruct (notes nm r i) as [ns|]; [|discriminate]. injection F as <-. split.
    - unfold instruction_line. destruct (in_mnemonic i) as [m|] eqn:IM; exact I.
    - apply neat_seq. rewrite Forall_map. apply Forall_forall. intros; exact I.
  Qed.

  (** ** Items *)
  Lemma solid_return sc f : solid short (return_value sc f).
  Proof. unfold return_value. destruct (match vw_find _ _ with Some _ => _ | None => _ end); [apply solid_nil|apply solid_full; full]. Qed.
  Lemma neat_addresses l d : print_addresses l = Some d -> nn d.
  Proof. unfold print_addresses. intros E. go. Qed.
  Ltac known ::= match goal with
    | H : print_formal _ _ _ = Some ?d |- nn ?d => exact (neat_formal _ _ _ _ H)
    | H : print_slot _ _ _ = Some ?d |- nn ?d => exact (neat_slot _ _ _ _ H)
    | H : print_site _ _ _ _ = Some ?d |- nn ?d => exact (neat_site _ _ _ _ _ H)
    | H : print_inlined _ _ _ _ _ = Some ?d |- nn ?d => exact (neat_inlined _ _ _ _ _ _ H)
    | H : print_addresses _ = Some ?d |- nn ?d => exact (neat_addresses _ _ H)
    | H : print_frame_variable _ _ = Some ?d |- nn ?d => unfold print_frame_variable in H
    | H : print_instructions _ _ = Some ?d |- nn ?d => exact (neat_instructions _ _ _ H)
    | |- solid _ (call_value _ _ _) => auto
    | |- solid _ (return_value _ _) => apply solid_return
    | |- solid _ (frame_variable_value _ _) => apply solid_full; unfold frame_variable_value; full
    end.
  Lemma neat_function_body o fuel sc dir f vars inner d : (forall c, solid short (call_value o sc c)) ->
    print_function_body o fuel sc dir f vars inner = Some d -> nn d.
  Proof. intros C E. unfold print_function_body in E. go. Qed.
  Lemma neat_variable_body o sc dir v : nn (print_variable_body o sc dir v).
  Proof. unfold print_variable_body. go. Qed.

  (** The base classes of a type. *)
  Definition named_bases (vw : view) (t : type) : Prop :=
    match t_kind t with TStruct s => forall i, In i (s_inherits s) -> text_value (vw_ref_at vw (i_ty i)) <> [] | _ => True end.
  Ltac known ::= match goal with
    | |- solid _ (inherit_value _ _ _) => apply solid_full; unfold inherit_value; full
    | |- solid _ (member_value _ _) => apply solid_full; unfold member_value; full
    | |- solid _ (padding_value _) => apply solid_text
    | |- solid _ (variant_part_value _) => apply solid_text
    | |- solid _ (variant_value _) => apply solid_text
    end.
  Lemma neat_layout vw fuel : (forall l d, print_layout fuel vw l = Some d -> nn d) /\
    (forall t d, print_members fuel vw t = Some d -> nn d).
  Proof.
    induction fuel as [|fuel [IL IM]]; [split; intros ? ? E; discriminate|]. split.
    - intros l d E. cbn [print_layout] in E. destruct (l_item l); try (unfold print_member in E); go.
      + eapply IM; eassumption.
      + match goal with H : print_variant _ _ _ _ _ = Some _ |- _ => unfold print_variant in H end. go. eapply IL; eassumption.
    - intros t d E. cbn [print_members] in E. destruct t as [t|]; [|go]. destruct (t_kind t); go.
      + eapply IL; eassumption.
      + match goal with H : print_member _ _ _ = Some _ |- _ => unfold print_member in H end. go. eapply IM; eassumption.
  Qed.
  Lemma neat_inherits vw l d : (forall i, In i l -> text_value (vw_ref_at vw (i_ty i)) <> []) -> print_inherits vw l = Some d -> nn d.
  Proof.
    intros N. unfold print_inherits. destruct l as [|i [|j l]]; intros E; go; apply solid_full; apply N; [now left|assumption].
  Qed.
  Lemma neat_members vw fuel t d : print_members fuel vw t = Some d -> nn d.
  Proof. apply neat_layout. Qed.
  Ltac known ::= match goal with
    | H : print_inherits _ _ = Some ?d |- nn ?d => refine (neat_inherits _ _ _ _ H)
    | H : print_members _ _ _ = Some ?d |- nn ?d => exact (neat_members _ _ _ _ H)
    | H : match ?x with Some _ => _ | None => _ end = Some ?d |- nn ?d => destruct x
    | |- nn (source_field _ _ _ _) => unfold source_field
    end.
  Lemma neat_type_body o fuel vw dir t d : named_bases vw t -> print_type_body o fuel vw dir t = Some d -> nn d.
  Proof. unfold print_type_body, named_bases. destruct (t_kind t); intros N E; go. now apply N. Qed.

  (** ** Lists of items *)
  Definition fine (d : pdoc) : Prop := tt d /\ heavy d.
  Lemma fine_nil : fine PNil.
  Proof. split; [exact I|]. intros depth _. reflexivity. Qed.
  Lemma fine_item id h b : text_value h <> [] -> nn b -> fine (PSeq (PId id (PLine [] h) b) PBreak).
  Proof.
    intros T N. assert (H : titles_with (PLine [] h)) by (exists h; now split). split; [|now apply heavy_item].
    split; [|exact I]. split; [exact H|]. now apply neat_tidy.
  Qed.
  Lemma fine_all {A} (pr : A -> option pdoc) l d :
    (forall x p, In x l -> pr x = Some p -> fine p) -> all_printed pr l = Some d -> fine d.
  Proof.
    revert d. induction l as [|x l IH]; intros d H E; cbn [all_printed] in E; inv_bind; [apply fine_nil|].
    assert (X : fine x0) by (eapply H; [now left|eassumption]).
    assert (Y : fine x1) by (eapply IH; [|eassumption]; intros y p J; apply H; now right).
    destruct X, Y. split; [now split|now apply heavy_seq].
  Qed.
  Lemma fine_type o fuel vw dir t d : named_bases vw t -> print_type o fuel vw dir t = Some d -> fine d.
  Proof.
    intros N E. unfold print_type in E. inv_bind. apply fine_item; [|eapply neat_type_body; eassumption].
    unfold header_value in *. destruct (t_kind t); inv_bind; cbn; full.
  Qed.
  Lemma fine_function o fuel sc dir f d : (forall c, solid short (call_value o sc c)) -> print_function o fuel sc dir f = Some d -> fine d.
  Proof.
    intros C E. unfold print_function, print_function_listed in E. inv_bind. apply fine_item; [unfold function_value; full|]. eapply neat_function_body; eassumption.
  Qed.
  Lemma fine_variable o sc dir v : fine (print_variable o sc dir v).
  Proof. apply fine_item; [unfold variable_value; full|apply neat_variable_body]. Qed.

  (** ** Units and files *)
  Lemma neat_section s : nn (print_section s).
  Proof. unfold print_section. go. Qed.
  Lemma tidy_unit_fields o im u d : print_unit_fields o im u = Some d -> tt d.
  Proof.
    unfold print_unit_fields. intros E. inv_bind. cbn [pseq fold_right tidy].
    repeat split; try (apply neat_tidy); unfold nonzero_field, print_range in *; go.
  Qed.
  Lemma tidy_file_header o im d : print_file_header o im = Some d -> tt d.
  Proof.
    unfold print_file_header. intros E. inv_bind. split; [|exact I]. apply neat_tidy. unfold print_range in *. go. apply neat_section.
  Qed.
End Neat.
