(** The entries of a page are sent for their ids. *)
From Coq Require Import List NArith Bool String.
From Verif Require Import Base BaseProofs TypeModel LayoutModel RefModel FileModel OptionsModel FilterModel IdModel PrintModel
  ItemModel EntryModel ReportModel ItemProofs ItemShown EntryProofs ReportProofs ServeSpec ServeMore.
Import ListNotations.
Local Open Scope list_scope.

Lemma clean_const s : cleanb (txt s) = true -> clean (txt s).
Proof. apply cleanb_clean. Qed.
Ltac lab := first [apply clean_const; reflexivity | exact (fun x => x)].
Ltac inv_bind :=
  repeat match goal with
  | H : bind _ _ = Some _ |- _ => apply bind_some in H; destruct H as (? & ? & H)
  | H : Some _ = Some _ |- _ => apply some_eq in H; subst
  end.

Lemma simple_all {A} (pr : A -> option pdoc) l d :
  (forall x p, In x l -> pr x = Some p -> simple p) -> all_printed pr l = Some d -> simple d.
Proof.
  revert d. induction l as [|x l IH]; intros d H E; cbn [all_printed] in E; inv_bind; [exact I|].
  split; [eapply H; [now left|eassumption]|]. eapply IH; [|eassumption]. intros y p Y. apply H. now right.
Qed.
Lemma simple_line v : simple (PLine [] v).
Proof. intros []. Qed.
Lemma simple_lines {A} (f : A -> text) l d : print_lines f l = Some d -> simple d.
Proof. apply simple_all. intros x p _ E. inv_bind. apply simple_line. Qed.
Lemma simple_section c (label : string) d : cleanb (txt label) = true -> simple d -> simple (PSection c (txt label) d).
Proof. intros C D. split; [now apply clean_const|exact D]. Qed.
Lemma simple_tree c v d : simple d -> simple (PTree c (PLine [] v) d).
Proof. intros D. split; [apply simple_line|exact D]. Qed.
Lemma simple_field (label : string) t : cleanb (txt label) = true -> simple (field label t).
Proof. apply clean_const. Qed.
Lemma simple_pseq l : Forall simple l -> simple (pseq l).
Proof. induction 1; cbn; auto. Qed.

Lemma simple_frames l d : print_frames l = Some d -> simple d.
Proof.
  unfold print_frames. destruct (sorted_frames l) as [|x [|y s]]; intros E; inv_bind; [exact I|now apply simple_field|].
  apply simple_section; [reflexivity|]. eapply simple_lines; eassumption.
Qed.
Lemma simple_registers sc l d : print_registers sc l = Some d -> simple d.
Proof. unfold print_registers. intros E. inv_bind. apply simple_section; [reflexivity|]. eapply simple_lines; eassumption. Qed.
Lemma simple_formal o sc x d : print_formal o sc x = Some d -> simple d.
Proof.
  unfold print_formal. intros E. inv_bind. apply simple_tree. destruct (p_variable_locations _); inv_bind; [|exact I].
  apply simple_pseq. repeat constructor; [eapply simple_registers|eapply simple_frames]; eassumption.
Qed.
Lemma simple_slot o sc x d : print_slot o sc x = Some d -> simple d.
Proof.
  unfold print_slot. intros E. inv_bind. apply simple_tree. destruct (p_variable_locations _); inv_bind; [|exact I].
  apply simple_pseq. constructor; [now apply simple_field|]. repeat constructor; [eapply simple_registers|eapply simple_frames]; eassumption.
Qed.
Lemma simple_pieces sc l d : print_pieces sc l = Some d -> simple d.
Proof. apply simple_lines. Qed.
Lemma simple_section_of label x d : cleanb (txt label) = true -> section_of label x = Some d ->
  (forall p, x = Some p -> simple p) -> simple d.
Proof. unfold section_of. intros C E H. inv_bind. apply simple_section; auto. Qed.
Lemma simple_collapsed_of label x d : cleanb (txt label) = true -> collapsed_of label x = Some d ->
  (forall p, x = Some p -> simple p) -> simple d.
Proof. unfold collapsed_of. intros C E H. inv_bind. apply simple_section; auto. Qed.
Lemma simple_argument o sc x d : print_argument o sc x = Some d -> simple d.
Proof.
  unfold print_argument. intros E. inv_bind. apply simple_tree. destruct (p_variable_locations _); inv_bind; [|exact I].
  apply simple_pseq. repeat constructor; (eapply simple_section_of; [|eassumption|intros p; apply simple_pieces]; reflexivity).
Qed.
Lemma simple_source (b : bool) label t : cleanb (txt label) = true -> simple (if b then field label t else PNil).
Proof. intros C. destruct b; [now apply simple_field|exact I]. Qed.
Lemma simple_site o sc dir x d : print_site o sc dir x = Some d -> simple d.
Proof.
  unfold print_site. intros E. inv_bind. apply simple_tree. apply simple_pseq.
  constructor; [now apply simple_field|]. constructor.
  { destruct (p_variable_locations _); inv_bind; [|exact I]. eapply simple_section_of; [|eassumption|intros p; apply simple_pieces]; reflexivity. }
  constructor; [now apply simple_source|]. constructor; [|constructor].
  eapply simple_section_of; [|eassumption|]; [reflexivity|]. intros p P. eapply simple_all; [|exact P]. intros y q _. apply simple_argument.
Qed.
Lemma simple_inlined o fuel sc dir : forall x d, print_inlined o fuel sc dir x = Some d -> simple d.
Proof.
  induction fuel as [|fuel IH]; intros x d E; [discriminate|]. rewrite print_inlined_S in E. inv_bind. apply simple_tree. apply simple_pseq.
  constructor; [now apply simple_source|].
  constructor.
  { destruct (p_inlined_function_parameters _); inv_bind; [|exact I]. eapply simple_section_of; [|eassumption|]; [reflexivity|].
    intros p P. eapply simple_all; [|exact P]. intros y q _. apply simple_formal. }
  constructor.
  { destruct (p_function_variables _); inv_bind; [|exact I]. eapply simple_collapsed_of; [|eassumption|]; [reflexivity|].
    intros p P. eapply simple_all; [|exact P]. intros y q _. apply simple_slot. }
  constructor.
  { destruct (p_function_calls _); inv_bind; [|exact I]. eapply simple_collapsed_of; [|eassumption|]; [reflexivity|].
    intros p P. eapply simple_all; [|exact P]. intros y q _. apply simple_site. }
  constructor; [|constructor]. cbn [simple]. eapply simple_all; [|eassumption]. intros y q _. apply IH.
Qed.

Lemma simple_addresses l d : print_addresses l = Some d -> simple d.
Proof.
  unfold print_addresses. destruct (Nat.ltb _ _); intros E; inv_bind; [|now apply simple_field].
  eapply simple_collapsed_of; [|exact E|intros p; apply simple_lines]. reflexivity.
Qed.
(** The body of a function: simple parts, and its instructions. *)
Definition code_doc (sc : scene) (f : func) (d : pdoc) : Prop :=
  d = PNil \/ exists c, d = PDetail (txt "code") (txt "instructions") c /\ print_instructions sc f = Some c.
Lemma function_body_parts o fuel sc dir f vars inner d :
  print_function_body o fuel sc dir f vars inner = Some d ->
  exists l code, d = pseq (l ++ [code]) /\ Forall simple l /\ code_doc sc f code.
Proof.
  unfold print_function_body. intros E.
  do 6 (apply bind_some in E; destruct E as (? & ? & E)).
  apply bind_some in E. destruct E as (code & C & E). apply some_eq in E.
  match type of E with pseq [?a1; ?a2; ?a3; ?a4; ?a5; ?a6; ?a7; ?a8; ?a9; ?a10; ?a11; ?a12; ?a13; _] = _ =>
    exists [a1; a2; a3; a4; a5; a6; a7; a8; a9; a10; a11; a12; a13], code end.
  split; [symmetry; exact E|]. split.
  2:{ destruct (_ && _) in C; [|left; now inv_bind]. apply bind_some in C. destruct C as (c & IC & C). apply some_eq in C. subst code. right. now exists c. }
  clear E C.
  constructor; [now apply simple_field|]. constructor; [now apply simple_field|]. constructor; [now apply simple_source|].
  constructor; [eapply simple_addresses; eassumption|]. do 3 (constructor; [now apply simple_field|]).
  constructor; [apply (simple_section false "return type"); [reflexivity|apply simple_line]|].
  constructor.
  { eapply simple_section_of; [|eassumption|]; [reflexivity|]. intros p P. eapply simple_all; [|exact P]. intros y q _. apply simple_formal. }
  constructor.
  { destruct (p_function_variables _); inv_bind; [|exact I]. eapply simple_collapsed_of; [|eassumption|]; [reflexivity|].
    intros p P. eapply simple_all; [|exact P]. intros y q _. apply simple_slot. }
  constructor.
  { destruct (p_function_stack_frame _); inv_bind; [|exact I]. eapply simple_collapsed_of; [|eassumption|]; [reflexivity|].
    intros p P. eapply simple_all; [|exact P]. intros y q _ F. unfold print_frame_variable in F. inv_bind. split; apply simple_line. }
  constructor.
  { cbn [simple]. eapply simple_collapsed_of; [|eassumption|]; [reflexivity|]. intros p P. eapply simple_all; [|exact P]. intros y q _. apply simple_inlined. }
  constructor; [|constructor].
  destruct (p_function_calls _); inv_bind; [|exact I]. split.
  - eapply simple_collapsed_of; [|eassumption|]; [reflexivity|]. intros p P. eapply simple_all; [|exact P]. intros y q _. apply simple_site.
  - eapply simple_collapsed_of; [|eassumption|]; [reflexivity|]. intros p P. eapply simple_all; [|exact P]. intros y q _ F. apply some_eq in F; subst. apply simple_line.
Qed.
Lemma simple_variable_body o sc dir v : simple (print_variable_body o sc dir v).
Proof.
  unfold print_variable_body. apply simple_pseq. do 2 (constructor; [now apply simple_field|]). constructor; [now apply simple_source|].
  repeat (constructor; [now apply simple_field|]). constructor.
Qed.

Lemma simple_layout vw fuel : (forall l d, print_layout fuel vw l = Some d -> simple d) /\
  (forall t d, print_members fuel vw t = Some d -> simple d).
Proof.
  induction fuel as [|fuel [IL IM]]; [split; intros ? ? E; discriminate|]. split.
  - intros l d E. cbn [print_layout] in E. destruct (l_item l).
    all: try (unfold print_member in E); inv_bind; try apply simple_line; try (apply simple_tree).
    + eapply IM; eassumption.
    + eapply simple_all; [|eassumption]. intros v q _ F. unfold print_variant in F. inv_bind. apply simple_tree.
      eapply simple_all; [|eassumption]. intros y r _. apply IL.
  - intros t d E. cbn [print_members] in E. destruct t as [t|]; [|inv_bind; exact I].
    destruct (t_kind t); inv_bind; try exact I.
    + eapply simple_all; [|exact E]. intros y q _. apply IL.
    + eapply simple_all; [|exact E]. intros y q _ F. unfold print_member in F. inv_bind. apply simple_tree. eapply IM; eassumption.
Qed.
Lemma simple_inherits vw l d : print_inherits vw l = Some d -> simple d.
Proof.
  unfold print_inherits. destruct l as [|i [|j l]]; intros E; inv_bind; [exact I|now apply (clean_const "inherits")|].
  apply simple_section; [reflexivity|]. eapply simple_all; [|eassumption]. intros y q _ F. apply some_eq in F; subst. apply simple_line.
Qed.
Lemma simple_members fuel vw t d :
  bind (print_members fuel vw t) (fun d => Some (PSection false (txt "members") d)) = Some d -> simple d.
Proof. intros E. inv_bind. apply simple_section; [reflexivity|]. eapply simple_layout; eassumption. Qed.
Lemma simple_type_body o fuel vw dir t d : print_type_body o fuel vw dir t = Some d -> simple d.
Proof.
  unfold print_type_body. destruct (t_kind t); intros E; try discriminate;
    repeat match goal with H : bind (bind (print_members _ _ _) _) _ = Some _ |- _ => apply bind_some in H; destruct H as (? & ? & H) end.
  all: inv_bind; apply simple_pseq; unfold source_field.
  all: repeat first [apply Forall_nil | apply Forall_cons; [first [now apply simple_field | now apply simple_source]|]].
  all: try (apply Forall_cons; [|apply Forall_nil]).
  all: try (apply simple_section; [reflexivity|]).
  all: try (eapply simple_layout; eassumption).
  all: try (eapply simple_all; [|eassumption]; intros y q _ F; apply some_eq in F; subst; apply simple_line).
  - match goal with H : match ?x with Some _ => _ | None => _ end = Some _ |- _ => destruct x end; inv_bind; [|exact I]. apply simple_section; [reflexivity|]. eapply simple_layout; eassumption.
  - apply Forall_cons; [eapply simple_inherits; eassumption|]. apply Forall_cons; [|apply Forall_nil].
    apply simple_section; [reflexivity|]. eapply simple_layout; eassumption.
Qed.

Lemma simple_ranges l d : all_printed print_range l = Some d -> simple d.
Proof. apply simple_all. intros x p _ E. unfold print_range in E. inv_bind. apply simple_line. Qed.
Lemma simple_nonzero label n : cleanb (txt label) = true -> simple (nonzero_field label n).
Proof. intros C. unfold nonzero_field. destruct (_ =? _)%N; [exact I|now apply simple_field]. Qed.
Lemma simple_unit_fields o im u d : print_unit_fields o im u = Some d -> simple d.
Proof.
  unfold print_unit_fields. intros E. inv_bind. apply simple_pseq. constructor; [|repeat (constructor; [now apply simple_nonzero|]); repeat constructor].
  destruct (p_unit_address _); inv_bind; [|exact I]. split.
  - destruct (Nat.ltb _ _); inv_bind; [|now apply simple_field].
    eapply simple_collapsed_of; [|eassumption|intros p; apply simple_ranges]. reflexivity.
  - eapply simple_collapsed_of; [|eassumption|intros p; apply simple_ranges]. reflexivity.
Qed.
Lemma simple_file_header o im d : print_file_header o im = Some d -> simple d.
Proof.
  unfold print_file_header. intros E. inv_bind. split; [|exact I]. apply simple_tree. apply simple_pseq.
  constructor.
  { destruct (p_file_address _); inv_bind; [|exact I]. eapply simple_collapsed_of; [|eassumption|intros p; apply simple_ranges]. reflexivity. }
  do 4 (constructor; [now apply (simple_field _ _)|]). constructor; [|constructor].
  eapply simple_collapsed_of; [|eassumption|]; [reflexivity|]. intros p P. eapply simple_all; [|exact P]. intros y q _ F. apply some_eq in F; subst.
  unfold print_section. apply simple_tree. apply simple_pseq. repeat (constructor; [now apply simple_field|]). constructor.
Qed.

Section Page.
  Variables (esc : N -> text) (alnum : N -> bool) (o : options) (pc : param_cmp) (fuel : nat) (im : image).
  Variables (response : nat -> option text) (depth : nat).
  Notation loads_ := (loadable esc alnum response depth).
  Hypothesis HTML : o_html o = true.

  (** The items of the file, and the ids they carry. *)
  Definition sent (id : nat) (body : pdoc) : Prop := response id = Some (body_text esc alnum depth true body).
  Hypothesis UNITS : forall u b, In u (im_units im) -> print_unit_body o pc fuel im u = Some b -> sent (im_unit_id im u) b.
  Hypothesis TYPES : forall u t b, In u (im_units im) -> In t (un_types u) ->
    print_type_body o fuel (im_view im) (im_dir im u) t = Some b -> sent (vw_id (im_view im) t) b.
  Hypothesis FUNCTIONS : forall u f b, In u (im_units im) -> In f (un_functions u) ->
    print_function_body o fuel (im_scene im) (im_dir im u) f (de_variables (sc_details (im_scene im) f))
      (de_inlined (sc_details (im_scene im) f)) = Some b -> sent (sc_function_id (im_scene im) f) b.
  Hypothesis VARIABLES : forall u v, In u (im_units im) -> In v (un_variables u) ->
    sent (sc_variable_id (im_scene im) v) (print_variable_body o (im_scene im) (im_dir im u) v).

  Lemma loadable_all {A} (pr : A -> option pdoc) l d :
    (forall x p, In x l -> pr x = Some p -> loads_ p) -> all_printed pr l = Some d -> loads_ d.
  Proof.
    revert d. induction l as [|x l IH]; intros d H E; cbn [all_printed] in E; inv_bind; [exact I|].
    split; [eapply H; [now left|eassumption]|]. eapply IH; [|eassumption]. intros y p Y. apply H. now right.
  Qed.
  Lemma loadable_section c (label : string) d : cleanb (txt label) = true -> loads_ d -> loads_ (PSection c (txt label) d).
  Proof. intros C D. split; [now apply clean_const|exact D]. Qed.
  Lemma loadable_collapsed_of label x d : cleanb (txt label) = true -> collapsed_of label x = Some d ->
    (forall p, x = Some p -> loads_ p) -> loads_ d.
  Proof. unfold collapsed_of. intros C E H. inv_bind. apply loadable_section; auto. Qed.
  Lemma loadable_pseq l : Forall loads_ l -> loads_ (pseq l).
  Proof. induction 1; cbn; auto. Qed.

  Lemma sorted_in {A} (c : hash -> A -> hash -> A -> comparison) h l x : In x (print_list c h l) -> In x l.
  Proof. unfold print_list. intros H. eapply Permutation.Permutation_in; [apply stable_sort_perm|exact H]. Qed.

  Lemma loadable_types u d : In u (im_units im) -> print_types o fuel im u = Some d -> loads_ d.
  Proof.
    intros U. apply loadable_all. intros t p T E. unfold print_type_in, print_type in E. inv_bind.
    split; [|exact I]. split; [now eexists|].
    assert (IN : In t (un_types u)).
    { unfold printed_types in T. destruct (c_type _); [|destruct T]. apply sorted_in in T. apply filter_In in T. apply T. }
    split; [eapply TYPES; eassumption|]. apply simple_loadable. eapply simple_type_body; eassumption.
  Qed.
  Lemma loadable_functions keep u d : In u (im_units im) -> print_some_functions o pc fuel im keep u = Some d -> loads_ d.
  Proof.
    intros U. apply loadable_all. intros f p F E. unfold print_function_in, print_function, print_function_listed in E. inv_bind.
    split; [|exact I]. split; [now eexists|]. apply sorted_in in F. apply filter_In in F. destruct F as [F _]. apply filter_In in F. destruct F as [F _].
    split; [eapply FUNCTIONS; eassumption|].
    destruct (function_body_parts _ _ _ _ _ _ _ _ H) as (l & code & -> & L & C).
    apply loadable_pseq. apply Forall_app. split; [eapply Forall_impl; [|exact L]; apply simple_loadable|]. constructor; [|constructor].
    destruct C as [->|(c & -> & _)]; [exact I|]. split; [apply (clean_const "code")|apply (clean_const "instructions")]; reflexivity.
  Qed.
  Lemma loadable_variables u d : In u (im_units im) -> print_variables o im u = Some d -> loads_ d.
  Proof.
    intros U. apply loadable_all. intros v p V E. unfold print_variable_in, print_variable in E. inv_bind.
    split; [|exact I]. split; [now eexists|].
    assert (IN : In v (un_variables u)).
    { unfold printed_variables in V. destruct (c_variable _); [|destruct V]. apply sorted_in in V. apply filter_In in V. apply V. }
    split; [now apply VARIABLES|]. apply simple_loadable. apply simple_variable_body.
  Qed.
  Lemma loadable_unit_body u d : In u (im_units im) -> print_unit_body o pc fuel im u = Some d -> loads_ d.
  Proof.
    intros U. unfold print_unit_body. rewrite HTML. intros E. inv_bind. apply loadable_pseq.
    constructor; [apply simple_loadable; destruct (c_unit _); [eapply simple_unit_fields; eassumption|exact I]|].
    constructor; [apply loadable_section; [reflexivity|eapply loadable_types; eassumption]|].
    constructor.
    { destruct (c_function _); inv_bind; [|exact I].
      split; (eapply loadable_collapsed_of; [|eassumption|intros p; apply loadable_functions; exact U]); reflexivity. }
    constructor; [|constructor]. apply loadable_section; [reflexivity|eapply loadable_variables; eassumption].
  Qed.
  Lemma loadable_file d : print_file o pc fuel im = Some d -> loads_ d.
  Proof.
    unfold print_file. intros E. inv_bind. split.
    - apply simple_loadable. destruct (c_file _); [eapply simple_file_header; eassumption|inv_bind; exact I].
    - eapply loadable_all; [|eassumption]. intros u p U F. apply sorted_in in U. apply filter_In in U. destruct U as [U _].
      unfold print_unit in F. rewrite HTML in F. inv_bind. split; [now eexists|]. split; [now apply UNITS|]. eapply loadable_unit_body; eassumption.
  Qed.
End Page.

(** The file is printed in the same way with and without loading. *)
Definition without_http (o : options) : options :=
  mkOptions (o_print o) (o_inline_depth o) (o_html o) false (o_category o) (o_filter o) (o_sort o) (o_ignore o) (o_prefix_map o).
Lemma all_printed_ext {A} (f g : A -> option pdoc) l : (forall x, f x = g x) -> all_printed f l = all_printed g l.
Proof. intros H. induction l as [|x l IH]; [reflexivity|]. cbn [all_printed]. now rewrite H, IH. Qed.
Lemma same_inlined o fuel sc dir : forall x, print_inlined (without_http o) fuel sc dir x = print_inlined o fuel sc dir x.
Proof.
  induction fuel as [|fuel IH]; intros x; [reflexivity|]. rewrite !print_inlined_S. rewrite (all_printed_ext _ _ _ IH). reflexivity.
Qed.
Lemma same_function o fuel im u f : print_function_in (without_http o) fuel im u f = print_function_in o fuel im u f.
Proof.
  unfold print_function_in, print_function, print_function_listed, print_function_body.
  rewrite (all_printed_ext _ _ _ (same_inlined o fuel (im_scene im) (im_dir im u))). reflexivity.
Qed.
Lemma same_unit_body o pc fuel im u : print_unit_body (without_http o) pc fuel im u = print_unit_body o pc fuel im u.
Proof.
  unfold print_unit_body, print_functions, print_some_functions. rewrite !(all_printed_ext _ _ _ (same_function o fuel im u)). reflexivity.
Qed.
Lemma same_unit o pc fuel im u : print_unit (without_http o) pc fuel im u = print_unit o pc fuel im u.
Proof. unfold print_unit. now rewrite same_unit_body. Qed.
Lemma same_file o pc fuel im : print_file (without_http o) pc fuel im = print_file o pc fuel im.
Proof. unfold print_file. rewrite (all_printed_ext _ _ _ (same_unit o pc fuel im)). reflexivity. Qed.
