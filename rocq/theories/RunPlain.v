(** The labels of everything that is printed or compared have only letters, spaces and a few other
    characters. *)
From Coq Require Import List Arith NArith Bool String.
From Verif Require Import Base BaseProofs RangeModel TypeModel LayoutModel RefModel FileModel OptionsModel FilterModel DiffModel IdModel
  PrintModel HtmlSpec CodeModel BloatModel ItemModel EntryModel ReportModel ItemProofs ItemShown EntryProofs ReportProofs RunSpec.
Import ListNotations.
Local Open Scope list_scope.

Ltac inv_bind :=
  repeat match goal with
  | H : bind _ _ = Some _ |- _ => apply bind_some in H; destruct H as (? & ? & H)
  | H : Some _ = Some _ |- _ => apply some_eq in H; subst
  | H : None = Some _ |- _ => discriminate H
  end.

Section Plain.
  Variable esc : N -> text.
  Hypothesis LETTERS : plain_letters esc.

  Notation pp := (plain_doc esc).
  Notation dd := (plain_diff esc).

  Definition lettered (t : text) : bool := forallb (fun c => existsb (N.eqb c) label_letters) t.
  Lemma plain_lettered t : lettered t = true -> plain esc t.
  Proof.
    unfold plain, lettered. induction t as [|c t IH]; intros H; [reflexivity|]. cbn [forallb flat_map] in *. apply andb_true_iff in H.
    destruct H as (C & H). apply existsb_exists in C. destruct C as (x & I & E). apply N.eqb_eq in E. subst x.
    now rewrite (LETTERS c I), (IH H).
  Qed.

  Lemma plain_all {A} (pr : A -> option pdoc) l d :
    (forall x p, pr x = Some p -> pp p) -> all_printed pr l = Some d -> pp d.
  Proof.
    revert d. induction l as [|x l IH]; intros d H E; cbn [all_printed] in E; inv_bind; [exact I|].
    split; [eapply H; eassumption|]. eapply IH; eassumption.
  Qed.
  Lemma plain_rows {A} (pa pb : A -> option pdoc) df rows d :
    (forall x p, pa x = Some p -> pp p) -> (forall x p, pb x = Some p -> pp p) ->
    (forall x y p, df x y = Some p -> dd p) -> all_rows pa pb df rows = Some d -> dd d.
  Proof.
    intros PA PB PD. revert d. induction rows as [|r rows IH]; intros d E; cbn [all_rows] in E; inv_bind; [exact I|].
    split; [|eapply IH; eassumption]. destruct r; cbn [row_doc] in *; inv_bind; cbn [plain_diff]; eauto.
  Qed.
  Lemma plain_compared choose {A} step dc (pa pb : A -> option pdoc) df l1 l2 d :
    (forall x p, pa x = Some p -> pp p) -> (forall x p, pb x = Some p -> pp p) ->
    (forall x y p, df x y = Some p -> dd p) -> compared_list choose step dc pa pb df l1 l2 = Some d -> dd d.
  Proof. intros PA PB PD E. unfold compared_list in E. inv_bind. exact (plain_rows pa pb df _ _ PA PB PD E). Qed.
  Lemma plain_compared_ord {A} cmp (pa pb : A -> option pdoc) df l1 l2 d :
    (forall x p, pa x = Some p -> pp p) -> (forall x p, pb x = Some p -> pp p) ->
    (forall x y p, df x y = Some p -> dd p) -> compared_ord_list cmp pa pb df l1 l2 = Some d -> dd d.
  Proof. intros PA PB PD E. unfold compared_ord_list in E. exact (plain_rows pa pb df _ _ PA PB PD E). Qed.

  Ltac known := fail.
  Ltac step :=
    first
    [ progress inv_bind
    | match goal with
      | |- True => exact I
      | |- _ /\ _ => split
      | |- plain esc [] => reflexivity
      | |- plain esc (txt _) => apply plain_lettered; reflexivity
      | |- pp (if ?b then _ else _) => destruct b
      | |- dd (if ?b then _ else _) => destruct b
      | H : ?e = Some ?d |- ?g ?d =>
          match e with
          | (if ?b then _ else _) => destruct b
          | section_of _ _ => unfold section_of in H
          | collapsed_of _ _ => unfold collapsed_of in H
          | dsection_of _ _ => unfold dsection_of in H
          | dcollapsed_of _ _ => unfold dcollapsed_of in H
          | block _ _ => unfold block in H
          | print_lines _ _ => unfold print_lines in H
          end
      | |- forall _, _ => intro
      | H : all_printed _ _ = Some ?d |- pp ?d => refine (plain_all _ _ _ _ H)
      | H : all_rows _ _ _ _ = Some ?d |- dd ?d => refine (plain_rows _ _ _ _ _ _ _ _ H)
      | H : compared_list _ _ _ _ _ _ _ _ = Some ?d |- dd ?d => refine (plain_compared _ _ _ _ _ _ _ _ _ _ _ _ H)
      | H : compared_ord_list _ _ _ _ _ _ = Some ?d |- dd ?d => refine (plain_compared_ord _ _ _ _ _ _ _ _ _ _ H)
      end
    | progress cbn [plain_doc plain_diff pseq dseq fold_right field field2 ignored count_field count_field2]
    ].
  Ltac go := repeat first [step | known].

  Lemma plain_frames l d : print_frames l = Some d -> pp d.
  Proof. unfold print_frames. destruct (sorted_frames l) as [|x [|y s]]; intros E; go. Qed.
  Lemma plain_diff_frames l m d : diff_frames l m = Some d -> dd d.
  Proof. unfold diff_frames. intros E. go. Qed.
  Lemma plain_registers sc l d : print_registers sc l = Some d -> pp d.
  Proof. unfold print_registers. intros E. go. Qed.
  Lemma plain_diff_registers choose ss l m d : diff_registers choose ss l m = Some d -> dd d.
  Proof. unfold diff_registers. intros E. go. Qed.
  Ltac known ::= match goal with
    | H : print_frames _ = Some ?d |- pp ?d => exact (plain_frames _ _ H)
    | H : diff_frames _ _ = Some ?d |- dd ?d => exact (plain_diff_frames _ _ _ H)
    | H : print_registers _ _ = Some ?d |- pp ?d => exact (plain_registers _ _ _ H)
    | H : diff_registers _ _ _ _ = Some ?d |- dd ?d => exact (plain_diff_registers _ _ _ _ _ H)
    end.
  Lemma plain_formal o sc x d : print_formal o sc x = Some d -> pp d.
  Proof. unfold print_formal. intros E. go. Qed.
  Lemma plain_slot o sc x d : print_slot o sc x = Some d -> pp d.
  Proof. unfold print_slot. intros E. go. Qed.
  Lemma plain_argument o sc x d : print_argument o sc x = Some d -> pp d.
  Proof. unfold print_argument, print_pieces. intros E. go. Qed.
  Lemma plain_diff_formal choose o ss x y d : diff_formal choose o ss x y = Some d -> dd d.
  Proof. unfold diff_formal. intros E. go. Qed.
  Lemma plain_diff_slot choose o ss x y d : diff_slot choose o ss x y = Some d -> dd d.
  Proof. unfold diff_slot. intros E. go. Qed.
  Lemma plain_diff_argument choose o ss x y d : diff_argument choose o ss x y = Some d -> dd d.
  Proof. unfold diff_argument, diff_pieces. intros E. go. Qed.
  Ltac known ::= match goal with
    | H : print_formal _ _ _ = Some ?d |- pp ?d => exact (plain_formal _ _ _ _ H)
    | H : print_slot _ _ _ = Some ?d |- pp ?d => exact (plain_slot _ _ _ _ H)
    | H : print_argument _ _ _ = Some ?d |- pp ?d => exact (plain_argument _ _ _ _ H)
    | H : diff_formal _ _ _ _ _ = Some ?d |- dd ?d => exact (plain_diff_formal _ _ _ _ _ _ H)
    | H : diff_slot _ _ _ _ _ = Some ?d |- dd ?d => exact (plain_diff_slot _ _ _ _ _ _ H)
    | H : diff_argument _ _ _ _ _ = Some ?d |- dd ?d => exact (plain_diff_argument _ _ _ _ _ _ H)
    end.
  Lemma plain_site o sc dir x d : print_site o sc dir x = Some d -> pp d.
  Proof. unfold print_site, print_pieces. intros E. go. Qed.
  Lemma plain_diff_site choose o ss da db x y d : diff_site choose o ss da db x y = Some d -> dd d.
  Proof. unfold diff_site, diff_pieces. intros E. go. Qed.
  Ltac known ::= match goal with
    | H : print_formal _ _ _ = Some ?d |- pp ?d => exact (plain_formal _ _ _ _ H)
    | H : print_slot _ _ _ = Some ?d |- pp ?d => exact (plain_slot _ _ _ _ H)
    | H : print_site _ _ _ _ = Some ?d |- pp ?d => exact (plain_site _ _ _ _ _ H)
    | H : diff_formal _ _ _ _ _ = Some ?d |- dd ?d => exact (plain_diff_formal _ _ _ _ _ _ H)
    | H : diff_slot _ _ _ _ _ = Some ?d |- dd ?d => exact (plain_diff_slot _ _ _ _ _ _ H)
    | H : diff_site _ _ _ _ _ _ _ = Some ?d |- dd ?d => exact (plain_diff_site _ _ _ _ _ _ _ _ H)
    | H : diff_formals _ _ _ _ _ = Some ?d |- dd ?d => unfold diff_formals in H
    | H : diff_slots _ _ _ _ _ = Some ?d |- dd ?d => unfold diff_slots in H
    | H : diff_sites _ _ _ _ _ _ _ = Some ?d |- dd ?d => unfold diff_sites in H
    end.
  Lemma plain_inlined o fuel sc dir : forall x d, print_inlined o fuel sc dir x = Some d -> pp d.
  Proof. induction fuel as [|fuel IH]; intros x d E; [discriminate|]. rewrite print_inlined_S in E. go; eapply IH; eassumption. Qed.
  Lemma plain_diff_inlined choose o ss fuel da db : forall x y d, diff_inlined choose o ss fuel da db x y = Some d -> dd d.
  Proof.
    induction fuel as [|fuel IH]; intros x y d E; [discriminate|]. cbn [diff_inlined] in E. go;
      [eapply plain_inlined; eassumption|eapply plain_inlined; eassumption|eapply IH; eassumption].
  Qed.

  (** ** Instructions *)
  Lemma plain_seq l : Forall pp l -> pp (seq_docs l).
  Proof. induction 1; cbn; auto. Qed.
  Lemma done_plain {A} (f : A -> outcome pdoc) l ds : (forall x d, In x l -> f x = Done d -> pp d) ->
    all_done (map f l) = Done ds -> Forall pp ds.
  Proof.
    revert ds. induction l as [|x l IH]; intros ds H E; cbn [map all_done] in E; [injection E as <-; constructor|].
    destruct (f x) as [d|] eqn:F; [|discriminate]. destruct (all_done _) as [r|] eqn:R; [|discriminate]. injection E as <-.
    constructor; [apply (H x); [now left|exact F]|]. apply IH; [|reflexivity]. intros y e I. apply H. now right.
  Qed.
  Lemma entries_insns insns : forall cfis i, In (EInsn i) (entries insns cfis) -> In i insns.
  Proof.
    induction insns as [|x insns IH]; induction cfis as [|c cfis IHc]; intros i; cbn [entries].
    - intros [].
    - intros [E|E]; [discriminate|]. exact (IHc i E).
    - intros [E|E]; [injection E as ->; now left|right; exact (IH [] i E)].
    - destruct (_ || _).
      + intros [E|E]; [discriminate|]. exact (IHc i E).
      + intros [E|E]; [injection E as ->; now left|right; exact (IH (c :: cfis) i E)].
  Qed.
  Lemma listing_insns disasm regions cfis : forall ranges l, listing disasm regions cfis ranges = Done l ->
    forall r es i, In (r, Some es) l -> In (EInsn i) es -> exists bytes a insns, disasm bytes a = Some insns /\ In i insns.
  Proof.
    induction ranges as [|x ranges IH]; intros l E r es i I J; cbn [listing] in E; [injection E as <-; destruct I|].
    destruct (code_range regions x) as [|bytes|]; [injection E as <-; destruct I as [I|[]]; discriminate| |discriminate].
    destruct (disasm bytes (rbegin x)) as [insns|] eqn:D; [|injection E as <-; destruct I as [I|[]]; discriminate].
    destruct (listing disasm regions cfis ranges) as [rest|]; [|discriminate]. injection E as <-.
    destruct I as [I|I]; [|eapply IH; eauto]. injection I as <- <-. exists bytes, (rbegin x), insns. split; [exact D|].
    eapply entries_insns; eassumption.
  Qed.
  Lemma plain_instructions sc f d : plain_mnemonics esc (sc_program sc) -> print_instructions sc f = Some d -> pp d.
  Proof.
    intros M. unfold print_instructions. destruct (sc_program sc) as [p|] eqn:P; [|intros E; go].
    set (nm := mkNames _ _ _ _ _ _ _). unfold instructions_doc.
    destruct (listing _ _ _ _) as [l|] eqn:L; [|discriminate]. cbn [ok].
    destruct (all_done _) as [ds|] eqn:D; [|discriminate]. cbn [ok]. intros E. apply some_eq in E. subst d. apply plain_seq.
    refine (done_plain _ _ _ _ D). intros [r es] e I E. cbn [fst snd] in E.
    match type of E with context [all_done ?z] => destruct (all_done z) as [xs|] eqn:X end; [|discriminate]. injection E as <-. split; [reflexivity|]. apply plain_seq.
    refine (done_plain _ _ _ _ X). intros y e J F.
    destruct y as [i|c]; cbn [entry_doc] in F; [|injection F as <-; reflexivity].
    unfold instruction_doc in F. destruct (notes nm r i) as [ns|]; [|discriminate]. injection F as <-. split.
    - unfold instruction_line. destruct (in_mnemonic i) as [m|] eqn:IM; cbn [plain_doc]; [|apply plain_lettered; reflexivity].
      destruct es as [es|]; [|destruct J]. destruct (listing_insns _ _ _ _ _ L r es i I J) as (bytes & a & insns & DA & II).
      eapply M; eauto.
    - apply plain_seq. rewrite Forall_map. apply Forall_forall. reflexivity.
  Qed.

  (** ** Items *)
  Lemma plain_addresses l d : print_addresses l = Some d -> pp d.
  Proof. unfold print_addresses. intros E. go. Qed.
  Lemma plain_diff_ranges l m d : diff_ranges l m = Some d -> dd d.
  Proof. unfold diff_ranges. intros E. go. Qed.
  Lemma plain_diff_addresses l m d : diff_addresses l m = Some d -> dd d.
  Proof. unfold diff_addresses, diff_ranges. intros E. go. Qed.
  Ltac known ::= match goal with
    | H : print_formal _ _ _ = Some ?d |- pp ?d => exact (plain_formal _ _ _ _ H)
    | H : print_slot _ _ _ = Some ?d |- pp ?d => exact (plain_slot _ _ _ _ H)
    | H : print_site _ _ _ _ = Some ?d |- pp ?d => exact (plain_site _ _ _ _ _ H)
    | H : print_inlined _ _ _ _ _ = Some ?d |- pp ?d => exact (plain_inlined _ _ _ _ _ _ H)
    | H : print_addresses _ = Some ?d |- pp ?d => exact (plain_addresses _ _ H)
    | H : print_frame_variable _ _ = Some ?d |- pp ?d => unfold print_frame_variable in H
    | H : print_instructions _ _ = Some ?d |- pp ?d => refine (plain_instructions _ _ _ _ H); assumption
    | H : diff_formals _ _ _ _ _ = Some ?d |- dd ?d => unfold diff_formals in H
    | H : diff_slots _ _ _ _ _ = Some ?d |- dd ?d => unfold diff_slots in H
    | H : diff_sites _ _ _ _ _ _ _ = Some ?d |- dd ?d => unfold diff_sites in H
    | H : diff_formal _ _ _ _ _ = Some ?d |- dd ?d => exact (plain_diff_formal _ _ _ _ _ _ H)
    | H : diff_slot _ _ _ _ _ = Some ?d |- dd ?d => exact (plain_diff_slot _ _ _ _ _ _ H)
    | H : diff_site _ _ _ _ _ _ _ = Some ?d |- dd ?d => exact (plain_diff_site _ _ _ _ _ _ _ _ H)
    | H : diff_inlined _ _ _ _ _ _ _ _ = Some ?d |- dd ?d => exact (plain_diff_inlined _ _ _ _ _ _ _ _ _ H)
    | H : diff_addresses _ _ = Some ?d |- dd ?d => exact (plain_diff_addresses _ _ _ H)
    | H : diff_frame_variable _ _ _ = Some ?d |- dd ?d => unfold diff_frame_variable in H
    end.
  Lemma plain_function_body o fuel sc dir f vars inner d : plain_mnemonics esc (sc_program sc) ->
    print_function_body o fuel sc dir f vars inner = Some d -> pp d.
  Proof. intros M E. unfold print_function_body in E. go. Qed.
  Lemma plain_diff_function_body choose o ss fuel da db a b d :
    plain_mnemonics esc (sc_program (ss_a ss)) -> plain_mnemonics esc (sc_program (ss_b ss)) ->
    diff_function_body choose o ss fuel da db a b = Some d -> dd d.
  Proof. intros M M' E. unfold diff_function_body in E. go. Qed.
  Lemma plain_variable_body o sc dir v : pp (print_variable_body o sc dir v).
  Proof. unfold print_variable_body. go. Qed.
  Lemma plain_diff_variable_body o ss da db a b : dd (diff_variable_body o ss da db a b).
  Proof. unfold diff_variable_body. go. Qed.

  Lemma plain_layout vw fuel : (forall l d, print_layout fuel vw l = Some d -> pp d) /\
    (forall t d, print_members fuel vw t = Some d -> pp d).
  Proof.
    induction fuel as [|fuel [IL IM]]; [split; intros ? ? E; discriminate|]. split.
    - intros l d E. cbn [print_layout] in E. destruct (l_item l); try (unfold print_member in E); go.
      + eapply IM; eassumption.
      + match goal with H : print_variant _ _ _ _ _ = Some _ |- _ => unfold print_variant in H end. go. eapply IL; eassumption.
    - intros t d E. cbn [print_members] in E. destruct t as [t|]; [|go]. destruct (t_kind t); go.
      + eapply IL; eassumption.
      + match goal with H : print_member _ _ _ = Some _ |- _ => unfold print_member in H end. go. eapply IM; eassumption.
  Qed.
  Lemma plain_diff_layout choose sd fuel : (forall l m d, diff_layout choose sd fuel l m = Some d -> dd d) /\
    (forall t s d, diff_members choose sd fuel t s = Some d -> dd d).
  Proof.
    induction fuel as [|fuel [IL IM]]; [split; intros ? ? ? E; discriminate|].
    assert (PL : forall vw n l d, print_layout n vw l = Some d -> pp d) by (intros vw n; apply plain_layout).
    assert (PM : forall vw n l d, print_members n vw l = Some d -> pp d) by (intros vw n; apply plain_layout).
    split.
    - intros l m d E. cbn [diff_layout] in E.
      destruct (l_item l); destruct (l_item m); try (unfold diff_member in E); go; try (eapply PL; eassumption); try (eapply IM; eassumption);
        match goal with
        | H : print_variant _ _ _ _ _ = Some _ |- _ => unfold print_variant in H
        | H : diff_variant _ _ _ _ _ _ _ _ _ _ _ = Some _ |- _ => unfold diff_variant in H
        | _ => idtac
        end; go; try (eapply PL; eassumption); try (eapply IL; eassumption).
    - intros t s d E. cbn [diff_members] in E.
      destruct (option_map t_kind t) as [[]|]; destruct (option_map t_kind s) as [[]|]; go; try (eapply PM; eassumption); try (eapply PL; eassumption);
        try (eapply IL; eassumption);
        match goal with
        | H : print_member _ _ _ = Some _ |- _ => unfold print_member in H
        | H : diff_member _ _ _ _ = Some _ |- _ => unfold diff_member in H
        | _ => idtac
        end; go; try (eapply PM; eassumption); try (eapply IM; eassumption).
  Qed.
  Lemma plain_inherits vw l d : print_inherits vw l = Some d -> pp d.
  Proof. unfold print_inherits. destruct l as [|i [|j l]]; intros E; go. Qed.
  Lemma plain_diff_inherits choose sd l m d : diff_inherits choose sd l m = Some d -> dd d.
  Proof. unfold diff_inherits. intros E. go. Qed.
  Lemma plain_members vw fuel t d : print_members fuel vw t = Some d -> pp d.
  Proof. apply plain_layout. Qed.
  Lemma plain_diff_members choose sd fuel t s d : diff_members choose sd fuel t s = Some d -> dd d.
  Proof. apply plain_diff_layout. Qed.
  Ltac known ::= match goal with
    | H : print_inherits _ _ = Some ?d |- pp ?d => exact (plain_inherits _ _ _ H)
    | H : diff_inherits _ _ _ _ = Some ?d |- dd ?d => exact (plain_diff_inherits _ _ _ _ _ H)
    | H : print_members _ _ _ = Some ?d |- pp ?d => exact (plain_members _ _ _ _ H)
    | H : diff_members _ _ _ _ _ = Some ?d |- dd ?d => exact (plain_diff_members _ _ _ _ _ _ H)
    | H : match ?x with Some _ => _ | None => _ end = Some ?d |- pp ?d => destruct x
    | |- pp (source_field _ _ _ _) => unfold source_field
    | |- dd (source_field2 _ _ _ _ _ _) => unfold source_field2
    end.
  Lemma plain_type_body o fuel vw dir t d : print_type_body o fuel vw dir t = Some d -> pp d.
  Proof. unfold print_type_body. destruct (t_kind t); intros E; go. Qed.
  Lemma plain_diff_type_body choose o fuel sd da db a b d : diff_type_body choose o fuel sd da db a b = Some d -> dd d.
  Proof. unfold diff_type_body. destruct (t_kind a); destruct (t_kind b); intros E; go. Qed.
  Lemma plain_type o fuel vw dir t d : print_type o fuel vw dir t = Some d -> pp d.
  Proof. unfold print_type. intros E. go. eapply plain_type_body; eassumption. Qed.
  Lemma plain_diff_type choose o fuel sd da db a b d : diff_type choose o fuel sd da db a b = Some d -> dd d.
  Proof.
    unfold diff_type, diff_type_header. intros E. go; repeat match goal with H : (if ?b then _ else _) = Some _ |- _ => destruct b end; go;
      eapply plain_diff_type_body; eassumption.
  Qed.
  Lemma plain_section s : pp (print_section s).
  Proof. unfold print_section. go. Qed.
  Lemma plain_diff_section a b : dd (diff_section a b).
  Proof. unfold diff_section. go. Qed.
  Ltac known ::= match goal with
    | H : print_range _ = Some ?d |- pp ?d => unfold print_range in H
    | H : diff_range _ _ = Some ?d |- dd ?d => unfold diff_range in H
    | H : diff_ranges _ _ = Some ?d |- dd ?d => exact (plain_diff_ranges _ _ _ H)
    | |- pp (nonzero_field _ _) => unfold nonzero_field
    | |- dd (nonzero_field2 _ _ _) => unfold nonzero_field2
    | |- pp (print_section _) => apply plain_section
    | |- dd (diff_section _ _) => apply plain_diff_section
    end.
  Lemma plain_unit_fields o im u d : print_unit_fields o im u = Some d -> pp d.
  Proof. unfold print_unit_fields. intros E. go. Qed.
  Lemma plain_diff_unit_fields o ii u v d : diff_unit_fields o ii u v = Some d -> dd d.
  Proof. unfold diff_unit_fields. intros E. go. Qed.
  Lemma plain_file_header o im d : print_file_header o im = Some d -> pp d.
  Proof. unfold print_file_header. intros E. go. Qed.
  Lemma plain_diff_file_header choose o ii d : diff_file_header choose o ii = Some d -> dd d.
  Proof. unfold diff_file_header. intros E. go. Qed.

  (** ** Files *)
  Definition calm (im : image) : Prop := plain_mnemonics esc (sc_program (im_scene im)).
  Ltac known ::= match goal with
    | H : print_types _ _ _ _ = Some ?d |- pp ?d => unfold print_types in H
    | H : print_functions _ _ _ _ _ = Some ?d |- pp ?d => unfold print_functions in H
    | H : print_some_functions _ _ _ _ _ _ = Some ?d |- pp ?d => unfold print_some_functions in H
    | H : print_variables _ _ _ = Some ?d |- pp ?d => unfold print_variables in H
    | H : print_type_in _ _ _ _ _ = Some ?d |- pp ?d => exact (plain_type _ _ _ _ _ _ H)
    | H : print_function_in _ _ _ _ _ = Some ?d |- pp ?d => unfold print_function_in, print_function, print_function_listed in H
    | H : print_function_body _ _ _ _ _ _ _ = Some ?d |- pp ?d => refine (plain_function_body _ _ _ _ _ _ _ _ _ H); assumption
    | H : print_variable_in _ _ _ _ = Some ?d |- pp ?d => unfold print_variable_in, print_variable in H
    | |- pp (print_variable_body _ _ _ _) => apply plain_variable_body
    | H : print_unit_fields _ _ _ = Some ?d |- pp ?d => exact (plain_unit_fields _ _ _ _ H)
    | H : print_file_header _ _ = Some ?d |- pp ?d => exact (plain_file_header _ _ _ H)
    end.
  Lemma plain_unit_body o pc fuel im u d : calm im -> print_unit_body o pc fuel im u = Some d -> pp d.
  Proof.
    intros C. unfold print_unit_body. intros E. do 3 (apply bind_some in E; destruct E as (? & ? & E)). destruct (o_html o); go.
  Qed.
  Lemma plain_unit o pc fuel im u d : calm im -> print_unit o pc fuel im u = Some d -> pp d.
  Proof. intros C. unfold print_unit. intros E. go; eapply plain_unit_body; eassumption. Qed.
  Lemma plain_file o pc fuel im d : calm im -> print_file o pc fuel im = Some d -> pp d.
  Proof. intros C. unfold print_file. intros E. go. eapply plain_unit; eassumption. Qed.
  Lemma plain_part o pc fuel im detail x d : calm im -> print_part o pc fuel im detail x = Some d -> pp d.
  Proof.
    intros C. unfold print_part. destruct x as [u|u t|u f|u v]; intros E.
    - eapply plain_unit_body; eassumption.
    - eapply plain_type_body; eassumption.
    - destruct detail as [s|]; [|go]. destruct (String.eqb s "code"); [|discriminate]. eapply plain_instructions; eassumption.
    - go.
  Qed.

  Ltac known ::= match goal with
    | H : listed_rows _ _ _ _ _ _ _ = Some ?d |- dd ?d => unfold listed_rows in H
    | H : print_type_in _ _ _ _ _ = Some ?d |- pp ?d => exact (plain_type _ _ _ _ _ _ H)
    | H : print_function_in _ _ _ _ _ = Some ?d |- pp ?d => unfold print_function_in, print_function, print_function_listed in H
    | H : print_function_body _ _ _ _ _ _ _ = Some ?d |- pp ?d => refine (plain_function_body _ _ _ _ _ _ _ _ _ H); assumption
    | H : print_variable_in _ _ _ _ = Some ?d |- pp ?d => unfold print_variable_in, print_variable in H
    | |- pp (print_variable_body _ _ _ _) => apply plain_variable_body
    | H : diff_types _ _ _ _ _ _ = Some ?d |- dd ?d => unfold diff_types in H
    | H : diff_functions _ _ _ _ _ _ _ _ = Some ?d |- dd ?d => unfold diff_functions in H
    | H : diff_variables _ _ _ _ = Some ?d |- dd ?d => unfold diff_variables in H
    | H : diff_type _ _ _ _ _ _ _ _ = Some ?d |- dd ?d => exact (plain_diff_type _ _ _ _ _ _ _ _ _ H)
    | H : diff_function _ _ _ _ _ _ _ _ _ = Some ?d |- dd ?d => unfold diff_function in H
    | H : diff_function_body _ _ _ _ _ _ _ _ = Some ?d |- dd ?d => refine (plain_diff_function_body _ _ _ _ _ _ _ _ _ _ _ H); assumption
    | |- dd (diff_variable _ _ _ _ _ _) => unfold diff_variable
    | |- dd (diff_variable_body _ _ _ _ _ _) => apply plain_diff_variable_body
    | H : diff_unit_fields _ _ _ _ = Some ?d |- dd ?d => exact (plain_diff_unit_fields _ _ _ _ _ H)
    | H : diff_file_header _ _ _ = Some ?d |- dd ?d => exact (plain_diff_file_header _ _ _ _ H)
    end.
  Lemma plain_diff_unit_body choose o pc fuel ii u v d : calm (is_a ii) -> calm (is_b ii) ->
    diff_unit_body choose o pc fuel ii u v = Some d -> dd d.
  Proof. intros C C'. unfold diff_unit_body. intros E. go. Qed.
  Lemma plain_diff_unit choose o pc fuel ii u v d : calm (is_a ii) -> calm (is_b ii) ->
    diff_unit choose o pc fuel ii u v = Some d -> dd d.
  Proof. intros C C'. unfold diff_unit. intros E. go; (eapply plain_diff_unit_body; [exact C|exact C'|eassumption]). Qed.
  Lemma plain_diff_file choose o pc fuel ii d : calm (is_a ii) -> calm (is_b ii) -> diff_file choose o pc fuel ii = Some d -> dd d.
  Proof.
    intros C C'. unfold diff_file. intros E. go; first [eapply plain_unit; [exact C|eassumption] | eapply plain_unit; [exact C'|eassumption] | eapply plain_diff_unit; [exact C|exact C'|eassumption]].
  Qed.
  Lemma plain_diff_part choose o pc fuel ii x p : calm (is_a ii) -> calm (is_b ii) -> diff_part choose o pc fuel ii x = Some p ->
    match p with Printed d => pp d | Compared d => dd d end.
  Proof.
    intros C C'. unfold diff_part. destruct x as [i|j|i j| |]; try discriminate; intros E.
    - go. eapply plain_part; [exact C|eassumption].
    - go. eapply plain_part; [exact C'|eassumption].
    - destruct i; destruct j; go; first [eapply plain_diff_unit_body; [exact C|exact C'|eassumption] | eapply plain_diff_type_body; eassumption].
  Qed.

  (** ** Sizes *)
  Lemma plain_callers units m a d : bloat_callers units m a = Done d -> pp d.
  Proof.
    unfold bloat_callers. intros BC. match type of BC with context [all_done ?z] => destruct (all_done z) as [ys|] eqn:Y end; [|discriminate]. injection BC as <-.
    apply plain_seq. refine (done_plain _ _ _ _ Y). intros q e _ F. unfold caller_line in F.
    destruct (at_position units q) as [[u' f']|]; [|discriminate]. injection F as <-. reflexivity.
  Qed.
  Lemma plain_sizes units totals m d : bloat_doc units totals m = Done d -> pp d.
  Proof.
    unfold bloat_doc. intros E. destruct (all_done _) as [l|] eqn:D; [|discriminate]. injection E as <-. apply plain_seq.
    refine (done_plain _ _ _ _ D). intros t e _ F. unfold total_doc in F.
    match type of F with context [all_done ?z] => destruct (all_done z) as [xs|] eqn:X end; [|discriminate]. injection F as <-.
    split; [reflexivity|]. apply plain_seq. refine (done_plain _ _ _ _ X). intros p e _ F. unfold copy_doc in F.
    destruct (at_position units p) as [[u f]|]; [|discriminate].
    destruct (opt64_get (sf_address f)); [|discriminate]. destruct (opt64_get (sf_size f)); [|discriminate].
    destruct (bloat_callers _ _ _) as [c|] eqn:BC; [|discriminate]. injection F as <-. split; [reflexivity|].
    exact (plain_callers _ _ _ _ BC).
  Qed.
End Plain.
