(** Proofs about what is printed for functions and variables, and when. *)
From Coq Require Import List Arith NArith ZArith Bool String Lia Permutation Sorting.Sorted.
From Verif Require Import Base BaseProofs RangeModel NamespaceModel TypeModel LayoutModel CfiModel FileModel DieModel
  OptionsModel FilterModel PrintModel PrintSpec PrintProofs NameModel RefModel LocationModel CodeModel ItemModel
  ItemSpec ItemProofs ItemShown EntryModel EntrySpec EntryProofs.
Import ListNotations.
Local Open Scope N_scope.

(** ** Texts *)

Lemma text_line_eq t d i : lines d i (PLine [] (VText t)) = text_line i t.
Proof. unfold text_line. cbn [lines text_value]. now destruct t. Qed.
Lemma text_line_value v d i : lines d i (PLine [] v) = text_line i (text_value v).
Proof. unfold text_line. cbn [lines]. now destruct (text_value v). Qed.
Lemma collapsed_under c label b d i : label <> ""%string ->
  lines d i (PSection c (txt label) b) = under i label (lines d (S i) b).
Proof. intros NE. rewrite <- section_under by exact NE. reflexivity. Qed.
Lemma known_eq n : opt64_get n = known n.
Proof. reflexivity. Qed.

Lemma offset_text z : plus_offset z = offset_shown z.
Proof.
  unfold plus_offset, offset_shown, hex_i64, as_u64, hex0x.
  destruct (z <? 0)%Z eqn:L, (z =? 0)%Z eqn:E, (0 <? z)%Z eqn:G;
    rewrite ?Z.ltb_lt, ?Z.ltb_ge, ?Z.eqb_eq, ?Z.eqb_neq in *; try lia; try reflexivity.
  - replace (Z.to_N (- z mod 2 ^ 64)) with (Z.abs_N z mod 2 ^ 64); [reflexivity|].
    rewrite <- (N2Z.id (Z.abs_N z mod 2 ^ 64)), N2Z.inj_mod, N2Z.inj_abs_N. f_equal. f_equal. lia.
  - replace (Z.to_N (z mod 2 ^ 64)) with (Z.abs_N z mod 2 ^ 64); [reflexivity|].
    rewrite <- (N2Z.id (Z.abs_N z mod 2 ^ 64)), N2Z.inj_mod, N2Z.inj_abs_N. f_equal. f_equal. lia.
Qed.
Lemma register_lines sc r : register_text (sc_register sc) r = register_shown sc r.
Proof. reflexivity. Qed.
Lemma location_lines sc l : location_text sc l = location_shown sc l.
Proof.
  destruct l; cbn [location_text location_shown]; rewrite ?offset_text, ?register_lines; try reflexivity.
  unfold hex0x, unwrap_or_0, opt64_get, opt64_is_none. now destruct (_ =? _).
Qed.
Lemma flat_map_map {A B C} (f : A -> B) (g : B -> list C) l : flat_map g (map f l) = flat_map (fun x => g (f x)) l.
Proof. induction l; cbn; congruence. Qed.
Lemma values_shown {A} (f : A -> value) l d i p : all_printed (fun x => Some (PLine [] (f x))) l = Some p ->
  lines d i p = flat_map (fun x => text_line i (text_value (f x))) l.
Proof.
  intros E. rewrite (all_lines f _ d i p E). apply flat_map_ext. intros x. unfold text_line.
  now destruct (text_value (f x)).
Qed.
Lemma texts_shown {A} (f : A -> text) l d i p : print_lines f l = Some p ->
  lines d i p = flat_map (fun x => text_line i (f x)) l.
Proof. apply values_shown. Qed.
Lemma pieces_lines sc label l p d i : section_of label (print_pieces sc l) = Some p -> label <> ""%string ->
  lines d i p = pieces_shown sc i label l.
Proof.
  intros E NE. unfold section_of in E. apply bind_some in E. destruct E as (q & EQ & [= <-]).
  rewrite section_under by exact NE. unfold pieces_shown. f_equal.
  rewrite (texts_shown _ _ d (S i) q EQ), flat_map_map. apply flat_map_ext. intros x. now rewrite location_lines.
Qed.
Lemma frame_lines x : frame_text x = frame_shown x.
Proof.
  unfold frame_text, frame_shown, signed. rewrite sdec_text, known_eq. unfold opt_text, bytes_of, div_ceil.
  now destruct (known (fl_bit_size x)).
Qed.
Lemma frame_shown_nonempty x : frame_shown x <> [].
Proof. rewrite <- frame_lines. apply frame_text_nonempty. Qed.
Lemma frame_before_iff a b : frame_cmp a b = Lt <-> frame_before a b.
Proof.
  unfold frame_cmp, frame_before, then_with.
  destruct (Z.compare_spec (fl_offset a) (fl_offset b)); rewrite ?N.compare_lt_iff; split; try tauto; try discriminate; lia.
Qed.
Lemma sorted_impl {A} (P Q : A -> A -> Prop) l : (forall a b, P a b -> Q a b) -> StronglySorted P l -> StronglySorted Q l.
Proof.
  intros I. induction 1; constructor; [assumption|]. eapply Forall_impl; [|eassumption]. auto.
Qed.
Lemma distinct_impl {A} (P Q : A -> A -> Prop) l l' : (forall a b, P a b -> Q a b) ->
  distinct_in_order P l l' -> distinct_in_order Q l l'.
Proof. intros I [S X]. split; [eapply sorted_impl; eauto|exact X]. Qed.

Lemma places_lines o sc l r f d i : p_variable_locations (o_print o) = true ->
  print_registers sc (registers_of l) = Some r -> print_frames (frames_of l) = Some f ->
  places_shown o sc i l (lines d i (pseq [r; f])).
Proof.
  intros V ER EF. rewrite pseq_lines. cbn [flat_map]. rewrite app_nil_r.
  unfold print_registers in ER. apply bind_some in ER. destruct ER as (q & EQ & [= <-]).
  rewrite section_under by discriminate.
  rewrite (texts_shown _ _ d (S i) q EQ).
  assert (F : lines d i f = match sorted_frames (frames_of l) with
       | [] => []
       | [x] => labelled_line i "stack frame" (frame_shown x)
       | _ => under i "stack frame" (map (fun x => Line (S i) (frame_shown x)) (sorted_frames (frames_of l)))
       end).
  { unfold print_frames in EF. destruct (sorted_frames (frames_of l)) as [|x [|y s]] eqn:E.
    - now injection EF as <-.
    - injection EF as <-. rewrite field_line by discriminate. now rewrite frame_lines.
    - apply bind_some in EF. destruct EF as (q' & EQ' & [= <-]). rewrite section_under by discriminate. f_equal.
      rewrite (texts_shown _ _ d (S i) q' EQ').
      clear. induction (x :: y :: s) as [|z t IH]; [reflexivity|]. cbn [flat_map map]. rewrite <- IH, frame_lines.
      pose proof (frame_shown_nonempty z). unfold text_line. destruct (frame_shown z); [contradiction|reflexivity]. }
  rewrite F.
  apply (places_listed o sc i l (sorted_registers (registers_of l)) (sorted_frames (frames_of l))); [exact V|..].
  - eapply distinct_impl; [|apply sorted_registers_distinct]. intros a b. apply N.compare_lt_iff.
  - eapply distinct_impl; [|apply sorted_frames_distinct]. intros a b. apply frame_before_iff.
Qed.

Lemma header_text n a v : text_value (VSeq (VText (size_or_unknown n)) (VSeq (VText a) (VSeq v VNil))) =
  size_shown n ++ a ++ text_value v.
Proof. unfold size_or_unknown, size_shown. cbn [text_value]. now rewrite app_nil_r. Qed.
Lemma text_line_some i a b c : text_line i (a ++ b :: c) = [Line i (a ++ b :: c)].
Proof. unfold text_line. now destruct a. Qed.

Lemma formal_lines_shown o sc x p d i : print_formal o sc x = Some p -> formal_shown o sc i x (lines d i p).
Proof.
  unfold print_formal. intros E. apply bind_some in E. destruct E as (b & EB & [= <-]).
  cbn [lines]. fold (lines d i (PLine [] (formal_value sc x))). rewrite text_line_value.
  unfold formal_value, formal_decl, vcat. cbn [fold_right]. rewrite header_text.
  change (text_line i (size_shown ?n ++ ?a)) with [Line i (size_shown n ++ a)]. cbn [app].
  apply (formal_lines o sc i x).
  destruct (p_variable_locations (o_print o)) eqn:V.
  - apply bind_some in EB. destruct EB as (r & ER & EB). apply bind_some in EB. destruct EB as (f & EF & EB).
    apply some_eq in EB. rewrite <- EB. now apply places_lines.
  - injection EB as <-. now apply places_hidden.
Qed.
Lemma slot_size_eq sc v : slot_size sc v = slot_bytes sc v.
Proof.
  unfold slot_size, slot_bytes, opt64_is_some, opt64_is_none, opt64_get, opt64_is_none, opt64_none, sc_size.
  now destruct (sl_size v =? u64_max).
Qed.
Lemma slot_lines_shown o sc x p d i : print_slot o sc x = Some p -> slot_shown o sc i x (lines d i p).
Proof.
  unfold print_slot. intros E. apply bind_some in E. destruct E as (b & EB & [= <-]).
  cbn [lines]. fold (lines d i (PLine [] (slot_value sc x))). rewrite text_line_value.
  unfold slot_value, slot_decl, vcat. cbn [fold_right]. rewrite header_text, slot_size_eq.
  change (text_line i (size_shown ?n ++ ?a)) with [Line i (size_shown n ++ a)]. cbn [app].
  pose proof (slot_lines o sc i x) as SL.
  destruct (p_variable_locations (o_print o)) eqn:V.
  - apply bind_some in EB. destruct EB as (r & ER & EB). apply bind_some in EB. destruct EB as (f & EF & EB).
    apply some_eq in EB. rewrite <- EB, pseq_lines. cbn [flat_map]. rewrite field_line by discriminate.
    specialize (SL _ (places_lines o sc _ r f d (S i) V ER EF)). rewrite pseq_lines in SL. cbn [flat_map] in SL. exact SL.
  - injection EB as <-. apply (SL []). now apply places_hidden.
Qed.

Lemma each_lines {A} (pr : A -> option pdoc) (shown : A -> list line -> Prop) d i l : forall p,
  (forall x q, In x l -> pr x = Some q -> shown x (lines d i q)) ->
  all_printed pr l = Some p -> each shown l (lines d i p).
Proof.
  induction l as [|a l IH]; cbn [all_printed]; intros p H E.
  - injection E as <-. constructor.
  - apply bind_some in E. destruct E as (q & EQ & E). apply bind_some in E. destruct E as (r & ER & [= <-]).
    cbn [lines]. constructor; [apply H; [now left|exact EQ]|]. apply IH; [|exact ER]. intros; apply H; [now right|assumption].
Qed.
Lemma all_shown {A} (pr : A -> option pdoc) (shown : A -> list line) d i l : forall p,
  (forall x q, In x l -> pr x = Some q -> lines d i q = shown x) ->
  all_printed pr l = Some p -> lines d i p = flat_map shown l.
Proof.
  induction l as [|a l IH]; cbn [all_printed]; intros p H E.
  - now injection E as <-.
  - apply bind_some in E. destruct E as (q & EQ & E). apply bind_some in E. destruct E as (r & ER & [= <-]).
    cbn [lines flat_map]. rewrite (H a q (or_introl eq_refl) EQ), (IH r); [reflexivity| |exact ER].
    intros; apply H; [now right|assumption].
Qed.

(** ** Call sites *)

Lemma argument_lines o sc x p d i : print_argument o sc x = Some p -> lines d i p = argument_shown o sc i x.
Proof.
  unfold print_argument. intros E. apply bind_some in E. destruct E as (b & EB & [= <-]).
  cbn [lines]. fold (lines d i (PLine [] (argument_value sc x))). rewrite text_line_value.
  unfold argument_shown. f_equal.
  - unfold argument_value, argument_type, vcat, vtxt. cbn [fold_right text_value]. rewrite app_nil_r.
    destruct (ar_ty x) as [off|]; cbn [bind text_value]; [|reflexivity].
    destruct (vw_find (sc_view sc) off); reflexivity.
  - destruct (p_variable_locations (o_print o)).
    + apply bind_some in EB. destruct EB as (r1 & E1 & EB). apply bind_some in EB. destruct EB as (r2 & E2 & EB).
      apply bind_some in EB. destruct EB as (r3 & E3 & EB). apply bind_some in EB. destruct EB as (r4 & E4 & EB).
      apply some_eq in EB. rewrite <- EB, pseq_lines. cbn [flat_map].
      rewrite (pieces_lines _ _ _ _ _ _ E1 ltac:(discriminate)), (pieces_lines _ _ _ _ _ _ E2 ltac:(discriminate)),
        (pieces_lines _ _ _ _ _ _ E3 ltac:(discriminate)), (pieces_lines _ _ _ _ _ _ E4 ltac:(discriminate)), app_nil_r.
      reflexivity.
    + now injection EB as <-.
Qed.
Lemma function_name_eq id f : text_value (ref_value id (fn_namespace f) (fn_name f)) = function_name f.
Proof.
  unfold ref_value, qualified, function_name, path_and_name, name_or, or_else. cbn [text_value]. now destruct (fn_namespace f).
Qed.
Lemma site_lines o sc dir x p d i : print_site o sc dir x = Some p -> lines d i p = site_shown o sc dir i x.
Proof.
  unfold print_site. intros E. apply bind_some in E. destruct E as (t & ET & E).
  apply bind_some in E. destruct E as (a & EA & E). apply some_eq in E. rewrite <- E.
  cbn [lines]. fold (lines d i (PLine [] (site_value sc x))). rewrite text_line_value.
  unfold site_shown. match goal with |- ?h ++ _ = ?l :: ?b => change (l :: b) with ([l] ++ b) end. f_equal.
  - unfold site_value, vcat, vtxt, kind_text, hex0x. cbn [fold_right text_value]. rewrite app_nil_r.
    assert (O : text_value (origin_value sc (si_origin x)) =
          match si_origin x with
          | None => []
          | Some (Direct f) => txt " -> " ++ function_name f
          | Some (ByVariable v) => txt " -> indirect(global:" ++ name_or "<unknown>" (va_name v) ++ txt ")"
          | Some (ByLocal _) => txt " -> indirect(local variable)"
          | Some (ByParameter _) => txt " -> indirect(parameter)"
          | Some (ByMember _) => txt " -> indirect(member)"
          end).
    { destruct (si_origin x) as [[]|]; cbn [origin_value text_value vtxt]; rewrite ?function_name_eq; try reflexivity. }
    rewrite O. destruct (si_kind x), (si_call_address x), (si_return_address x); cbn [text_value]; rewrite <- ?app_assoc;
      reflexivity.
  - rewrite pseq_lines. cbn [flat_map]. rewrite app_nil_r, field_line by discriminate. f_equal. f_equal; [|f_equal].
    + destruct (p_variable_locations (o_print o)); [|now injection ET as <-].
      now apply (pieces_lines _ _ _ _ _ _ ET ltac:(discriminate)).
    + destruct (p_source (o_print o)); [now apply field_line|reflexivity].
    + unfold section_of in EA. apply bind_some in EA. destruct EA as (q & EQ & [= <-]).
      rewrite section_under by discriminate. f_equal. eapply all_shown; [|exact EQ].
      intros y r _ EY. now apply argument_lines.
Qed.

(** ** Inlined functions *)

Lemma optional_each (b : bool) {A} (pr : A -> option pdoc) (shown : A -> list line -> Prop) sec c label d i l p :
  (forall x, sec x = PSection c (txt label) x) -> label <> ""%string ->
  (forall x q, pr x = Some q -> shown x (lines d (S i) q)) ->
  (if b then bind (all_printed pr l) (fun q => Some (sec q)) else Some PNil) = Some p ->
  exists ls, optional b (each shown l) ls /\ lines d i p = under i label ls.
Proof.
  intros SE NE H E. destruct b.
  - apply bind_some in E. destruct E as (q & EQ & [= <-]). exists (lines d (S i) q). split.
    + apply optional_on; [reflexivity|]. eapply each_lines; [|exact EQ]. auto.
    + rewrite SE. now apply collapsed_under.
  - injection E as <-. exists []. split; [now apply optional_off|reflexivity].
Qed.
Lemma sites_lines o sc dir (b : bool) l p d i :
  (if b then collapsed_of "call sites" (all_printed (print_site o sc dir) l) else Some PNil) = Some p ->
  lines d i p = if b then under i "call sites" (flat_map (site_shown o sc dir (S i)) l) else [].
Proof.
  destruct b; intros E; [|now injection E as <-]. unfold collapsed_of in E. apply bind_some in E.
  destruct E as (q & EQ & [= <-]). rewrite collapsed_under by discriminate. f_equal. eapply all_shown; [|exact EQ].
  intros x r _ EX. now apply site_lines.
Qed.

Lemma inlined_lines_shown o sc dir f : forall x p, print_inlined o f sc dir x = Some p ->
  forall d i, inlined_shown o sc dir d i x (lines d i p).
Proof.
  induction f as [|f IH]; [discriminate|]. intros x p E d i. rewrite print_inlined_S in E.
  apply bind_some in E. destruct E as (ps & EP & E). apply bind_some in E. destruct E as (vs & EV & E).
  apply bind_some in E. destruct E as (cs & EC & E). apply bind_some in E. destruct E as (inner & EI & E).
  apply some_eq in E. rewrite <- E. cbn [lines]. fold (lines d i (PLine [] (inlined_value sc x))).
  rewrite text_line_value, pseq_lines. cbn [flat_map].
  destruct (optional_each _ (print_formal o sc) (formal_shown o sc (S (S i))) (PSection false (txt "parameters")) false "parameters"
              d (S i) (il_parameters x) ps ltac:(reflexivity) ltac:(discriminate)
              (fun x q => formal_lines_shown o sc x q d (S (S i))) EP) as (lp & OP & ->).
  destruct (optional_each _ (print_slot o sc) (slot_shown o sc (S (S i))) (PSection true (txt "variables")) true "variables"
              d (S i) (il_variables x) vs ltac:(reflexivity) ltac:(discriminate)
              (fun x q => slot_lines_shown o sc x q d (S (S i))) EV) as (lv & OV & ->).
  rewrite (sites_lines o sc dir _ _ _ _ _ EC).
  assert (IN : inner_shown o sc dir d (S i) (il_inlined x) (lines d (S i) (PInline inner))).
  { cbn [lines]. destruct d as [|d]; [constructor|]. clear E.
    revert inner EI. generalize (il_inlined x) as l. induction l as [|y l IHl]; cbn [all_printed]; intros inner EI.
    - injection EI as <-. constructor.
    - apply bind_some in EI. destruct EI as (q & EQ & EI). apply bind_some in EI. destruct EI as (r & ER & [= <-]).
      cbn [lines]. constructor; auto. }
  pose proof (inlined_lines o sc dir d i x lp lv _ OP OV IN) as T. cbn [lines] in *. rewrite app_nil_r.
  assert (HD : text_line i (text_value (inlined_value sc x)) =
     [Line i (size_shown (known (il_size x)) ++
               match sc_function sc (il_origin x) with Some f => function_name f | None => txt "<anon>" end)]).
  { unfold inlined_value. cbn [text_value]. change (size_or_unknown (opt64_get (il_size x))) with (size_shown (known (il_size x))).
    destruct (sc_function sc (il_origin x)); [rewrite function_name_eq|]; reflexivity. }
  rewrite HD. cbn [app].
  destruct (p_source (o_print o)); [rewrite field_line by discriminate|]; exact T.
Qed.

(** ** Recursion *)

Lemma inlined_nested (P : inlined -> Prop) :
  (forall x, (forall y, In y (il_inlined x) -> P y) -> P x) -> forall x, P x.
Proof.
  intros H. fix IH 1. intros [origin size src ps vs inner cs]. apply H. cbn [il_inlined].
  induction inner as [|y inner IHI]; intros z; [intros []|]. intros [<-|I]; [apply IH|now apply IHI].
Qed.
Lemma print_inlined_mono o sc dir f : forall x p,
  print_inlined o f sc dir x = Some p -> print_inlined o (S f) sc dir x = Some p.
Proof.
  induction f as [|f IH]; [discriminate|]. intros x p E. rewrite print_inlined_S in E. rewrite print_inlined_S.
  apply bind_some in E. destruct E as (ps & EP & E). apply bind_some in E. destruct E as (vs & EV & E).
  apply bind_some in E. destruct E as (cs & EC & E). apply bind_some in E. destruct E as (inner & EI & E).
  rewrite EP, EV, EC. cbn [bind].
  apply (all_printed_mono _ (print_inlined o (S f) sc dir)) in EI; [|intros y q _; apply IH]. rewrite EI. exact E.
Qed.
Lemma print_inlined_le o sc dir x p f g : (f <= g)%nat ->
  print_inlined o f sc dir x = Some p -> print_inlined o g sc dir x = Some p.
Proof. induction 1; auto. intros E. apply print_inlined_mono. auto. Qed.
Lemma print_inlined_ex o sc dir : forall x, exists n p, print_inlined o n sc dir x = Some p.
Proof.
  apply inlined_nested. intros x IH.
  destruct (common_bound (fun y n => exists p, print_inlined o n sc dir y = Some p) (il_inlined x)) as (n & B); [|exact IH|].
  { intros y n m L (p & E). exists p. now apply (print_inlined_le o sc dir y p n). }
  exists (S n). rewrite print_inlined_S.
  destruct (all_printed_ex (print_formal o sc) (il_parameters x)) as (ps & EP); [intros; apply print_formal_some|].
  destruct (all_printed_ex (print_slot o sc) (il_variables x)) as (vs & EV); [intros; apply print_slot_some|].
  destruct (all_printed_ex (print_site o sc dir) (il_calls x)) as (cs & EC); [intros; apply print_site_some|].
  destruct (all_printed_ex (print_inlined o n sc dir) (il_inlined x)) as (inner & EI); [exact B|].
  unfold section_of, collapsed_of. rewrite EP, EV, EC, EI.
  destruct (p_inlined_function_parameters (o_print o)), (p_function_variables (o_print o)),
    (p_function_calls (o_print o)); cbn [bind]; eauto.
Qed.

(** A function is printed unless its code makes the disassembler fail. *)
Lemma print_function_ex o sc dir f :
  (p_function_calls (o_print o) = true -> exists l, calls sc f = Some l) ->
  (p_function_instructions (o_print o) = true -> exists p, print_instructions sc f = Some p) ->
  exists n p, print_function o n sc dir f = Some p.
Proof.
  intros HC HI.
  destruct (common_bound (fun y n => exists p, print_inlined o n sc dir y = Some p) (de_inlined (sc_details sc f))) as (n & B);
    [|intros; apply print_inlined_ex|].
  { intros y n m L (p & E). exists p. now apply (print_inlined_le o sc dir y p n). }
  exists n. unfold print_function, print_function_listed, print_function_body, section_of, collapsed_of. cbv zeta.
  destruct (print_addresses_some (fn_ranges f)) as (ad & ->). cbn [bind].
  destruct (all_printed_ex (print_formal o sc) (de_parameters (sc_details sc f))) as (ps & ->);
    [intros; apply print_formal_some|]. cbn [bind].
  destruct (all_printed_ex (print_slot o sc) (de_variables (sc_details sc f))) as (vs & ->);
    [intros; apply print_slot_some|].
  destruct (all_printed_ex (print_site o sc dir) (de_calls (sc_details sc f))) as (ss & ->);
    [intros; apply print_site_some|].
  destruct (all_printed_ex (print_frame_variable sc) (frame_variables sc (sc_details sc f))) as (fs & ->);
    [intros; unfold print_frame_variable; eauto|].
  destruct (all_printed_ex (print_inlined o n sc dir) (de_inlined (sc_details sc f))) as (inner & ->); [exact B|].
  assert (X : exists c, (if p_function_calls (o_print o)
     then bind (bind (Some ss) (fun d => Some (PSection true (txt "call sites") d))) (fun sites =>
          bind (bind (calls sc f) (fun l =>
                bind (all_printed (fun c => Some (PLine [] (call_value o sc c))) l)
                  (fun d => Some (PSection true (txt "calls") d)))) (fun cs => Some (PSeq sites cs)))
     else Some PNil) = Some c).
  { destruct (p_function_calls (o_print o)); [|eauto]. destruct (HC eq_refl) as (l & ->). cbn [bind].
    destruct (all_printed_ex (fun c => Some (PLine [] (call_value o sc c))) l) as (q & ->); cbn [bind]; eauto. }
  destruct X as (c & ->).
  assert (X : exists c, (if p_function_instructions (o_print o) && negb (is_empty (fn_ranges f)) then
          bind (print_instructions sc f) (fun d => Some (PDetail (txt "code") (txt "instructions") d))
        else Some PNil) = Some c).
  { destruct (p_function_instructions (o_print o)); [|cbn [andb]; eauto]. destruct (HI eq_refl) as (q & ->).
    destruct (negb _); cbn [andb bind]; eauto. }
  destruct X as (c' & ->).
  destruct (p_function_variables (o_print o)), (p_function_stack_frame (o_print o)); cbn [bind]; eauto.
Qed.

(** ** The stack frame *)

Lemma as_i64_plus a b : as_i64 (a + as_i64 b) = as_i64 (a + b).
Proof.
  unfold as_i64. f_equal.
  replace (a + ((b + 2 ^ 63) mod 2 ^ 64 - 2 ^ 63) + 2 ^ 63)%Z with (a + (b + 2 ^ 63) mod 2 ^ 64)%Z by ring.
  rewrite Zplus_mod_idemp_r. f_equal. ring.
Qed.
Lemma entries_lines sc d i l : forall prev p,
  all_printed (print_frame_variable sc) (set_prev prev l) = Some p -> lines d i p = entries_shown sc i prev l.
Proof.
  induction l as [|v l IH]; cbn [set_prev all_printed]; intros prev p E; [now injection E as <-|].
  apply bind_some in E. destruct E as (q & EQ & E). apply bind_some in E. destruct E as (r & ER & [= <-]).
  injection EQ as <-. cbn [entries_shown].
  change (lines d i (PSeq (PLine [] (VText ?a)) ?b)) with (lines d i (PLine [] (VText a)) ++ lines d i b).
  cbn [lines]. rewrite <- app_assoc.
  match goal with |- ?a ++ ?b ++ ?c = ?a' ++ ?b' :: ?c' => change (a' ++ b' :: c') with (a' ++ [b'] ++ c') end.
  f_equal; [|f_equal].
  - cbn [text_value]. unfold unknown_text, gap_shown. cbn [fv_prev fv_offset]. destruct prev as [z|]; [|reflexivity].
    rewrite !sdec_text. unfold signed. destruct (z <? fv_offset v)%Z; [|reflexivity].
    match goal with |- match ?t with _ => _ end = _ => assert (NE : t <> []) by
      (intros H; apply app_eq_nil in H; destruct H as [_ H]; discriminate); destruct t; [contradiction|reflexivity] end.
  - assert (X : text_value (frame_variable_value sc (mkFrameVariable prev (fv_offset v) (fv_size v) (fv_name v) (fv_ty v))) =
      signed (fv_offset v) ++ size_shown (fv_size v) ++
      name_and_type sc (name_or "<anon>" (fv_name v) ++ txt ": ") (fv_ty v)).
    { unfold frame_variable_value, vcat. cbn [fold_right text_value fv_offset fv_size fv_name fv_ty].
      rewrite app_nil_r, sdec_text. unfold size_or_unknown, size_shown, name_and_type, signed, name_or, or_else.
      rewrite <- !app_assoc. reflexivity. }
    rewrite X. unfold size_shown. change (txt "[") with [91]. destruct (signed (fv_offset v)); reflexivity.
  - rewrite (IH _ _ ER). f_equal. destruct (fv_size v) as [n|]; cbn [option_map]; [|reflexivity]. now rewrite as_i64_plus.
Qed.

Lemma place_iff size name ty l e :
  In e (frame_entries size name ty (frames_of l)) <-> place_of size name ty l e.
Proof.
  unfold frame_entries, place_of. rewrite in_map_iff. split; intros (x & H1 & H2); exists x.
  - subst. split; auto.
  - subst. split; auto.
Qed.
Lemma formal_place sc p e : In e (formal_entries sc p) <-> place_of_formal sc p e.
Proof. apply place_iff. Qed.
Lemma slot_place sc v e : In e (slot_entries sc v) <-> place_of_slot sc v e.
Proof. unfold slot_entries, place_of_slot. rewrite place_iff, slot_size_eq. reflexivity. Qed.
Lemma inlined_place sc e : forall x, In e (inlined_entries sc x) <-> in_inlined sc x e.
Proof.
  apply inlined_nested. intros x IH.
  assert (E : inlined_entries sc x = flat_map (formal_entries sc) (il_parameters x) ++
    flat_map (slot_entries sc) (il_variables x) ++ flat_map (inlined_entries sc) (il_inlined x)) by now destruct x.
  rewrite E, !in_app_iff, !in_flat_map. split.
  - intros [(p & I & H)|[(p & I & H)|(p & I & H)]].
    + apply formal_place in H. eapply in_inlined_formal; eassumption.
    + apply slot_place in H. eapply in_inlined_slot; eassumption.
    + apply IH in H; [|exact I]. eapply in_inlined_inner; eassumption.
  - intros [p I H|p I H|p I H].
    + left. exists p. now rewrite formal_place.
    + right; left. exists p. now rewrite slot_place.
    + right; right. exists p. split; [exact I|]. now apply IH.
Qed.
Lemma cmp_option_before {A} (c : A -> A -> comparison) a b :
  cmp_option c a b = Lt <-> option_before (fun x y => c x y = Lt) a b.
Proof. destruct a, b; cbn; split; try tauto; discriminate. Qed.
Lemma then_lt a b : then_with a b = Lt <-> a = Lt \/ a = Eq /\ b = Lt.
Proof. destruct a; cbn; split; try tauto; intros [|[]]; congruence. Qed.
Lemma cmp_option_eq_N a b : cmp_option N.compare a b = Eq <-> a = b.
Proof. destruct a, b; cbn; rewrite ?N.compare_eq_iff; split; congruence. Qed.
Lemma entry_before_iff a b : fv_cmp a b = Lt <-> entry_before a b.
Proof.
  unfold fv_cmp, entry_before. rewrite !then_lt, Z.compare_lt_iff, Z.compare_eq_iff, cmp_option_eq_N, cmp_name_eq, N.compare_lt_iff.
  assert (X : cmp_option N.compare (fv_size a) (fv_size b) = Lt <-> option_before N.lt (fv_size a) (fv_size b)).
  { destruct (fv_size a), (fv_size b); cbn; rewrite ?N.compare_lt_iff; split; try tauto; discriminate. }
  rewrite X. unfold cmp_name at 1. rewrite cmp_option_before. tauto.
Qed.
Lemma in_inlined_prev sc e : forall x, in_inlined sc x e -> fv_prev e = None.
Proof.
  apply (inlined_nested (fun x => in_inlined sc x e -> fv_prev e = None)). intros x IH [p I H|p I H|y I H].
  - destruct H as (? & _ & H). now rewrite H.
  - destruct H as (? & _ & H). now rewrite H.
  - exact (IH y I H).
Qed.
Lemma frame_distinct sc d : exists es, frame_variables sc d = set_prev None es /\
  StronglySorted entry_before es /\ forall e, In e es <-> in_frame sc d e.
Proof.
  unfold frame_variables. eexists. split; [reflexivity|].
  match goal with |- context [stable_sort fv_cmp ?l] => set (all := l);
    assert (PN : forall x, In x all -> fv_prev x = None) end.
  { intros x. unfold all. rewrite !in_app_iff, !in_flat_map.
    assert (G : forall s n t l, In x (frame_entries s n t l) -> fv_prev x = None).
    { intros s n t l H. unfold frame_entries in H. apply in_map_iff in H. now destruct H as (? & <- & _). }
    assert (GI : forall y, In x (inlined_entries sc y) -> fv_prev x = None).
    { intros y H. apply inlined_place in H. now apply in_inlined_prev in H. }
    intros [(p & _ & H)|[(p & _ & H)|(p & _ & H)]]; [eapply G, H|eapply G, H|eapply GI, H]. }
  destruct (distinct_sort fv_cmp fv_eqb all fv_cmp_tp) as [SS I].
  - intros x y _ _ E. unfold fv_eqb. now rewrite E.
  - intros x y IX IY. apply fv_eqb_iff. now rewrite (PN x), (PN y).
  - split; [eapply sorted_impl; [|exact SS]; intros a b; apply entry_before_iff|].
    intros e. rewrite <- I. unfold all. rewrite !in_app_iff, !in_flat_map. split.
    + intros [(p & IP & H)|[(p & IP & H)|(p & IP & H)]].
      * apply formal_place in H. eapply in_frame_formal; eassumption.
      * apply slot_place in H. eapply in_frame_slot; eassumption.
      * apply inlined_place in H. eapply in_frame_inlined; eassumption.
    + intros [p IP H|p IP H|p IP H].
      * left. exists p. now rewrite formal_place.
      * right; left. exists p. now rewrite slot_place.
      * right; right. exists p. now rewrite inlined_place.
Qed.

(** ** Functions and variables *)

Lemma range_text_eq r : range_text r = range_shown r.
Proof. unfold range_text, range_shown, hex0x. destruct (_ <? _); rewrite <- ?app_assoc, ?app_nil_r; reflexivity. Qed.
Lemma range_size_eq r : range_size_text r =
  range_shown r ++ (if rbegin r <? rend r then txt " (" ++ dec (rend r - rbegin r) ++ txt ")" else []).
Proof. unfold range_size_text, range_shown, hex0x. destruct (_ <? _); rewrite <- ?app_assoc, ?app_nil_r; reflexivity. Qed.
Lemma addresses_lines l p d i : print_addresses l = Some p -> lines d i p = ranges_shown i l.
Proof.
  unfold print_addresses, ranges_shown. destruct l as [|r [|r' l]]; cbn [List.length Nat.ltb Nat.leb]; intros E.
  - now injection E as <-.
  - injection E as <-. rewrite field_line by discriminate. cbn [first_range]. now rewrite range_text_eq.
  - unfold collapsed_of in E. apply bind_some in E. destruct E as (q & EQ & [= <-]). rewrite collapsed_under by discriminate.
    f_equal. rewrite (texts_shown _ _ d (S i) q EQ). clear. induction (r :: r' :: l) as [|x t IH]; [reflexivity|].
    cbn [flat_map map]. rewrite IH, range_size_eq. reflexivity.
Qed.
Lemma return_text sc f : text_value (return_value sc f) = returns_shown sc f.
Proof.
  unfold return_value, returns_shown. destruct (vw_find (sc_view sc) (sc_return sc f)) as [t|]; [|reflexivity].
  destruct (t_kind t); reflexivity.
Qed.
Lemma call_text o sc c : text_value (call_value o sc c) = call_shown o sc c.
Proof.
  unfold call_value, call_shown. cbn [text_value]. f_equal.
  - destruct (i_function_address (o_ignore o)); [reflexivity|]. cbn [text_value]. unfold hex0x. rewrite <- !app_assoc. reflexivity.
  - destruct (sc_function_at sc (ca_to c)); [apply function_name_eq|]. destruct (sc_program sc) as [p|]; cbn [bind].
    + destruct (pg_plt p (ca_to c)); [reflexivity|]. now destruct (i_function_address (o_ignore o)).
    + now destruct (i_function_address (o_ignore o)).
Qed.

Lemma inner_lines_shown o sc dir f : forall l p, all_printed (print_inlined o f sc dir) l = Some p ->
  forall d i, inner_shown o sc dir (S d) i l (lines d i p).
Proof.
  induction l as [|y l IHl]; cbn [all_printed]; intros inner EI d i.
  - injection EI as <-. constructor.
  - apply bind_some in EI. destruct EI as (q & EQ & EI). apply bind_some in EI. destruct EI as (r & ER & [= <-]).
    cbn [lines]. constructor; [now apply (inlined_lines_shown o sc dir f)|now apply IHl].
Qed.

Theorem function_printed o fuel sc dir f p depth : print_function o fuel sc dir f = Some p ->
  function_shown o sc dir depth f (lines depth 0 p).
Proof.
  unfold print_function, print_function_listed, print_function_body. cbv zeta. intros E.
  apply bind_some in E. destruct E as (body & E & EP). apply some_eq in EP. rewrite <- EP. clear EP p.
  apply bind_some in E. destruct E as (ad & EA & E). apply bind_some in E. destruct E as (ps & EPS & E).
  apply bind_some in E. destruct E as (vs & EV & E). apply bind_some in E. destruct E as (fs & EF & E).
  apply bind_some in E. destruct E as (inner & EI & E). apply bind_some in E. destruct E as (cs & EC & E).
  apply bind_some in E. destruct E as (code & ECO & E). apply some_eq in E. rewrite <- E. clear E body.
  cbn [lines]. rewrite pseq_lines. cbn [flat_map].
  rewrite !field_line by discriminate. rewrite (addresses_lines _ _ _ _ EA).
  unfold section_of in EPS. apply bind_some in EPS. destruct EPS as (ps' & EPS & [= <-]).
  destruct (optional_each _ (print_slot o sc) (slot_shown o sc 2) (PSection true (txt "variables")) true "variables"
              depth 1 (de_variables (sc_details sc f)) vs ltac:(reflexivity) ltac:(discriminate)
              (fun x q => slot_lines_shown o sc x q depth 2) EV) as (lv & OV & ->).
  assert (XF : exists ls, optional (p_function_stack_frame (o_print o))
      (fun ls => exists es, StronglySorted entry_before es /\ (forall e, In e es <-> in_frame sc (sc_details sc f) e) /\
         ls = entries_shown sc 2 None es) ls /\ lines depth 1 fs = under 1 "stack frame" ls).
  { destruct (p_function_stack_frame (o_print o)).
    - unfold collapsed_of in EF. apply bind_some in EF. destruct EF as (q & EQ & [= <-]).
      destruct (frame_distinct sc (sc_details sc f)) as (es & EE & SS & I). rewrite EE in EQ.
      exists (lines depth 2 q). split; [|now apply collapsed_under].
      apply optional_on; [reflexivity|]. exists es. split; [exact SS|split; [exact I|]]. now apply entries_lines.
    - injection EF as <-. exists []. split; [now apply optional_off|reflexivity]. }
  destruct XF as (lf & OF & ->).
  unfold collapsed_of in EI. apply bind_some in EI. destruct EI as (inner' & EI & [= <-]).
  assert (XI : exists ls, inner_shown o sc dir depth 2 (de_inlined (sc_details sc f)) ls /\
    lines depth 1 (PInline (PSection true (txt "inlined functions") inner')) = under 1 "inlined functions" ls).
  { destruct depth as [|depth]; cbn [lines]; [exists []; split; [constructor|reflexivity]|].
    exists (lines depth 2 inner'). split; [now apply (inner_lines_shown o sc dir fuel)|].
    change (lines depth 1 (PSection true (txt "inlined functions") inner') = under 1 "inlined functions" (lines depth 2 inner')).
    now apply collapsed_under. }
  destruct XI as (li & OI & XI). rewrite XI.
  assert (XC : exists ls, optional (p_function_calls (o_print o))
      (fun ls => exists l, calls sc f = Some l /\ ls = flat_map (fun c => text_line 2 (call_shown o sc c)) l) ls /\
      lines depth 1 cs =
        (if p_function_calls (o_print o)
         then under 1 "call sites" (flat_map (site_shown o sc dir 2) (de_calls (sc_details sc f))) else []) ++
        under 1 "calls" ls).
  { destruct (p_function_calls (o_print o)).
    - apply bind_some in EC. destruct EC as (q & EQ & EC). apply bind_some in EC. destruct EC as (r & ER & [= <-]).
      apply bind_some in ER. destruct ER as (l & EL & ER). unfold collapsed_of in ER. apply bind_some in ER.
      destruct ER as (t & ET & [= <-]). exists (lines depth 2 t). split.
      + apply optional_on; [reflexivity|]. exists l. split; [exact EL|].
        rewrite (values_shown _ _ depth 2 t ET). apply flat_map_ext. intros c. now rewrite call_text.
      + cbn [lines]. change (lines depth 1 q ++ lines depth 1 (PSection true (txt "calls") t) =
          under 1 "call sites" (flat_map (site_shown o sc dir 2) (de_calls (sc_details sc f))) ++
          under 1 "calls" (lines depth 2 t)).
        rewrite (collapsed_under true "calls") by discriminate. f_equal.
        exact (sites_lines o sc dir true _ q depth 1 EQ).
    - injection EC as <-. exists []. split; [now apply optional_off|reflexivity]. }
  destruct XC as (lc & OC & ->).
  assert (XO : exists ls, optional (p_function_instructions (o_print o))
      (fun ls => exists p, print_instructions sc f = Some p /\ ls = lines depth 2 p) ls /\
      lines depth 1 code = under 1 "instructions" ls).
  { destruct (p_function_instructions (o_print o)); cbn [andb] in ECO.
    - destruct (fn_ranges f) eqn:ER; cbn [is_empty negb] in ECO.
      + injection ECO as <-. destruct (no_instructions sc f ER) as (q & EQ & L). exists []. split; [|reflexivity].
        apply optional_on; [reflexivity|]. exists q. split; [exact EQ|now rewrite L].
      + apply bind_some in ECO. destruct ECO as (q & EQ & [= <-]). exists (lines depth 2 q). split.
        * apply optional_on; [reflexivity|]. eauto.
        * change (lines depth 1 (PSection false (txt "instructions") q) = under 1 "instructions" (lines depth 2 q)).
          now apply section_under.
    - injection ECO as <-. exists []. split; [now apply optional_off|reflexivity]. }
  destruct XO as (lo & OO & ->).
  pose proof (function_lines o sc dir depth f (lines depth 2 ps') lv lf li lc lo) as T. cbv zeta in T.
  specialize (T (each_lines _ _ _ _ _ _ (fun x q _ => formal_lines_shown o sc x q depth 2) EPS) OV OF OI OC OO).
  rewrite !section_under by discriminate. fold (lines depth 2 (PLine [] (return_value sc f))).
  rewrite text_line_value, return_text, !app_nil_r.
  assert (HD : text_value (function_value f) = txt "fn " ++ function_name f).
  { unfold function_value, function_name. cbn [text_value vtxt]. f_equal.
    exact (function_name_eq 0 f). }
  rewrite HD. cbn [app]. rewrite <- !app_assoc.
  destruct (p_source (o_print o)); [rewrite field_line by discriminate|]; exact T.
Qed.

Theorem variable_printed o sc dir v depth : lines depth 0 (print_variable o sc dir v) = variable_shown o sc dir v.
Proof.
  unfold print_variable, print_variable_body, variable_shown. cbn [lines]. rewrite pseq_lines. cbn [flat_map]. rewrite !field_line by discriminate.
  assert (HD : text_value (variable_value sc v) = txt "var " ++ path_and_name (va_namespace v) (va_name v) ++ txt ": " ++
          written_type (sc_view sc) (va_ty v)).
  { unfold variable_value, vcat, qualified, path_and_name, name_or, or_else. cbn [fold_right text_value vtxt].
    rewrite <- ?app_assoc, ?app_nil_r. now destruct (va_namespace v). }
  assert (SZ : variable_size sc v =
    match (if va_size v =? u64_max then vw_sizes (sc_view sc) (va_ty v) else Some (va_size v)) with
    | Some n => dec n | None => [] end).
  { unfold variable_size, var_byte_size, opt64_is_some, opt64_is_none, opt64_get, opt64_is_none, opt64_none.
    now destruct (va_size v =? u64_max). }
  rewrite HD, SZ. cbn [app]. rewrite app_nil_r.
  destruct (p_source (o_print o)); [rewrite field_line by discriminate|]; rewrite <- ?app_assoc; reflexivity.
Qed.

(** ** The flag *)

(** What does not differ except where differences are ignored is not reported as a difference. *)
Lemma flag_silent d : unhidden d -> forall s f,
  identical (ts_depth s) (without_ignored d) -> snd (diff_doc text_printer false false d s f) = f.
Proof.
  induction d as [|a IHa b IHb|label a b|label| |c h IHh b IHb|c l b IHb|i0 h IHh b IHb|d IH|d|d|a b|d IH|fl d IH];
    cbn [unhidden without_ignored identical]; intros U s f C;
    try (match goal with |- context [diff_doc _ _ _ ?d _ _] => destruct (diff_doc_text d s f I) as (s' & E & P) end;
         rewrite E; cbn [snd changed]; rewrite ?C, ?text_eqb_refl, ?orb_false_r; reflexivity); cbn [diff_doc].
  - destruct U as [UA UB], C as [CA CB]. destruct (diff_text_unhidden a UA s f) as (s1 & f1 & E1 & I1 & D1).
    pose proof (IHa UA s f CA) as H. rewrite E1 in *. cbn [snd] in H. subst f1.
    destruct (diff_text_unhidden b UB s1 f) as (s2 & f2 & E2 & _).
    rewrite <- D1 in CB. pose proof (IHb UB s1 f CB) as H2. rewrite E2 in *. exact H2.
  - destruct U as [UH UB], C as [CH CB]. unfold diff_indent, diff_body. cbn [p_prefix p_body text_printer].
    pose proof (IHb UB (text_set_prefix XEqual (text_indented s)) false CB) as HB.
    destruct (diff_text_unhidden b UB (text_set_prefix XEqual (text_indented s)) false) as (s1 & f1 & E1 & _).
    rewrite E1 in *. cbn [snd] in HB. subst f1. destruct (is_empty _); cbn [negb].
    + now apply (IHh UH s f).
    + cbn [p_header text_printer]. unfold diff_header. cbn [p_prefix text_printer].
      match goal with |- context [diff_doc _ _ _ h ?s0 false] =>
        pose proof (IHh UH s0 false CH) as HH; destruct (diff_text_unhidden h UH s0 false) as (s2 & f2 & E2 & _) end.
      rewrite E2 in *. cbn [snd] in *. subst f2. apply orb_false_r.
  - unfold diff_indent, diff_body. cbn [p_prefix p_body text_printer].
    pose proof (IHb U (text_set_prefix XEqual (text_indented s)) false C) as HB.
    destruct (diff_text_unhidden b U (text_set_prefix XEqual (text_indented s)) false) as (s1 & f1 & E1 & _).
    rewrite E1 in *. cbn [snd] in HB. subst f1. destruct (is_empty _); cbn [negb]; [reflexivity|].
    cbn [p_header text_printer]. unfold diff_header, diff_label. cbn [p_prefix text_printer p_line snd]. apply orb_false_r.
  - destruct U as [UH UB], C as [CH CB]. unfold diff_body. cbn [p_prefix p_body text_printer].
    pose proof (IHb UB (text_set_prefix XEqual (text_indented s)) false CB) as HB.
    destruct (diff_text_unhidden b UB (text_set_prefix XEqual (text_indented s)) false) as (s1 & f1 & E1 & _).
    rewrite E1 in *. cbn [snd] in HB. subst f1. cbn [p_id text_printer snd orb] in *.
    unfold diff_header. cbn [p_prefix text_printer].
    match goal with |- context [diff_doc _ _ _ h ?s0 false] =>
      pose proof (IHh UH s0 false CH) as HH; destruct (diff_text_unhidden h UH s0 false) as (s2 & f2 & E2 & _) end.
    rewrite E2 in *. cbn [snd] in HH. subst f2. apply orb_false_r.
  - cbn [p_inline_begin text_printer]. destruct s as [i p n]. cbn [ts_depth ts_indent] in *.
    destruct n as [|n]; [reflexivity|]. cbn [ts_prefix].
    pose proof (IH U (mkText i p n) f C) as H.
    destruct (diff_text_unhidden d U (mkText i p n) f) as (s1 & f1 & E1 & _). rewrite E1 in *. exact H.
  - destruct C.
  - destruct C.
  - destruct C as [CA CB]. destruct (diff_doc_text (DBlock a b) s f I) as (s' & E & P).
    change (snd (diff_doc text_printer false false (DBlock a b) s f) = f). rewrite E. cbn [snd changed].
    rewrite CA, CB. apply orb_false_r.
  - destruct U.
  - pose proof (IH U s f) as H. destruct (diff_text_unhidden d U s f) as (s1 & f1 & E1 & _). rewrite E1 in *.
    cbn [snd] in *. destruct fl; [reflexivity|]. now apply H.
Qed.

(** ** Depth *)

Lemma print_function_le o sc dir f p n m : (n <= m)%nat ->
  print_function o n sc dir f = Some p -> print_function o m sc dir f = Some p.
Proof.
  intros L. unfold print_function, print_function_listed, print_function_body, collapsed_of. cbv zeta. intros E.
  destruct (print_addresses (fn_ranges f)) as [ad|]; [|discriminate]. cbn [bind] in *.
  destruct (section_of "parameters" _) as [ps|]; [|discriminate]. cbn [bind] in *.
  match goal with |- context [bind (if p_function_variables _ then ?x else _) _] =>
    destruct (if p_function_variables (o_print o) then x else Some PNil) as [vs|]; [|discriminate] end. cbn [bind] in *.
  match goal with |- context [bind (if p_function_stack_frame _ then ?x else _) _] =>
    destruct (if p_function_stack_frame (o_print o) then x else Some PNil) as [fs|]; [|discriminate] end. cbn [bind] in *.
  destruct (all_printed (print_inlined o n sc dir) (de_inlined (sc_details sc f))) as [inner|] eqn:EI; [|discriminate].
  apply (all_printed_mono _ (print_inlined o m sc dir)) in EI.
  - rewrite EI. exact E.
  - intros x q _. now apply print_inlined_le.
Qed.

(** ** Variables *)

Lemma variable_self o ss dir v : ss_a ss = ss_b ss -> same_sides (diff_variable o ss dir dir v v).
Proof.
  intros E n. unfold diff_variable, diff_variable_body, dseq, ignored. rewrite E. cbn [fold_right].
  destruct (p_source (o_print o)); repeat (split; [reflexivity|]); repeat split.
Qed.
Lemma variable_unignored o ss da db a b : heeds_variables o -> unignored (diff_variable o ss da db a b).
Proof.
  intros (H1 & H2 & H3). unfold diff_variable, diff_variable_body, dseq, ignored. cbn [fold_right unignored].
  destruct (p_source (o_print o)); cbn [unignored]; repeat split; assumption.
Qed.

(** ** Places in the stack frame *)

Lemma frames_shown l1 l2 depth : (several l2 -> several l1) ->
  exists e, diff_frames l1 l2 = Some e /\ unhidden e /\
    (changed depth e = false -> map frame_shown (sorted_frames l1) = map frame_shown (sorted_frames l2)).
Proof.
  intros AL. unfold diff_frames. rewrite orb_diag. rewrite !several_sorted in AL.
  destruct (1 <? List.length (sorted_frames l1))%nat eqn:L.
  - set (pl := fun x : frame_location => Some (PLine [] (VText (frame_text x)))).
    destruct (ord_fine True True False True frame_cmp pl pl
      (fun x y => Some (DLine [] (VText (frame_text x)) (VText (frame_text y)))) True (sorted_frames l1) (sorted_frames l2))
      as (e & p & q & E & EP & EQ & R & _ & U).
    + unfold pl. eauto.
    + unfold pl. eauto.
    + intros a b _ _. apply fine_some, good_line. tauto.
    + tauto.
    + specialize (R (or_introl I)). specialize (U I). destruct R as (RO & RN & RU). fold pl. rewrite E. cbn [bind].
      eexists. split; [reflexivity|]. split; [exact RU|]. cbn [changed]. intros CH.
      pose proof (unchanged_sides e U depth CH 0%nat) as X. rewrite (RO depth 0%nat), (RN depth 0%nat) in X.
      rewrite (texts_shown frame_text _ depth 0 p EP), (texts_shown frame_text _ depth 0 q EQ) in X.
      assert (M : forall l, flat_map (fun x => text_line 0 (frame_text x)) l = map (Line 0) (map frame_shown l)).
      { intros l. induction l as [|x l IH]; [reflexivity|]. cbn [flat_map map]. rewrite <- IH, frame_lines.
        pose proof (frame_shown_nonempty x). unfold text_line. destruct (frame_shown x); [contradiction|reflexivity]. }
      rewrite !M in X. revert X. generalize (map frame_shown (sorted_frames l1)) (map frame_shown (sorted_frames l2)).
      intros m1. induction m1 as [|x m1 IH]; intros [|y m2]; try discriminate; [reflexivity|].
      cbn [map]. intros [= -> X]. f_equal. now apply IH.
  - assert (L2 : (1 <? List.length (sorted_frames l2))%nat = false).
    { rewrite Nat.ltb_ge in *. lia. }
    eexists. split; [reflexivity|]. split; [exact I|]. unfold field2. cbn [changed text_value].
    rewrite negb_false_iff, text_eqb_iff.
    destruct (sorted_frames l1) as [|a [|? ?]], (sorted_frames l2) as [|b [|? ?]]; try discriminate; cbn [first_frame map];
      rewrite ?frame_lines; intros X; try reflexivity.
    + symmetry in X. now apply frame_shown_nonempty in X.
    + now apply frame_shown_nonempty in X.
    + now rewrite X.
Qed.
