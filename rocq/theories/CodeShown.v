(** Proofs about the calls and instructions listed for a function. *)
From Coq Require Import List Arith NArith ZArith Bool String Lia.
From Verif Require Import Base BaseProofs RangeModel RangeSpec NamespaceModel TypeModel CfiModel FileModel FileSpec FileProofs PrintModel PrintSpec PrintProofs NameModel LocationModel
  RefModel ItemModel ItemSpec CodeModel CodeSpec CodeProofs PropertiesCode EntryModel EntrySpec EntryProofs EntryShown CodeShownSpec.
Import ListNotations.
Local Open Scope N_scope.

Section Function.
  Variables (sc : scene) (p : program) (f : func).
  Hypothesis PF : program_fits p f.
  Hypothesis LF : local_sizes_fit sc f.

  Let n : names := mkNames (sc_function_at sc) (sc_variable_at sc) (pg_relocation p) (pg_plt p) (pg_regions p)
    (map (formal_local sc) (de_parameters (sc_details sc f))) (map (slot_local sc) (de_variables (sc_details sc f))).

  Lemma local_named x : In x (nm_parameters n) \/ In x (nm_variables n) ->
    local_in sc f (text_value (lo_decl x)) (lo_size x) (lo_locations x).
  Proof.
    cbn [n nm_parameters nm_variables]. rewrite !in_map_iff. intros [(q & <- & I)|(q & <- & I)].
    - pose proof (lin_parameter sc f q I) as L. unfold formal_local, formal_decl, vcat. cbn [lo_decl lo_size lo_locations fold_right text_value].
      rewrite app_nil_r. unfold opt_text, sc_size. exact L.
    - pose proof (lin_variable sc f q I) as L. unfold slot_local, slot_decl, vcat. cbn [lo_decl lo_size lo_locations fold_right text_value].
      rewrite app_nil_r, slot_size_eq, <- app_assoc. unfold or_else. destruct (sl_name q); exact L.
  Qed.
  Lemma named_local t size places : local_in sc f t size places -> exists x, (In x (nm_parameters n) \/ In x (nm_variables n)) /\
    text_value (lo_decl x) = t /\ lo_size x = size /\ lo_locations x = places.
  Proof.
    intros [q I|q I]; cbn [n nm_parameters nm_variables].
    - exists (formal_local sc q). split; [left; now apply in_map|]. unfold formal_local, formal_decl, vcat.
      cbn [lo_decl lo_size lo_locations fold_right text_value]. now rewrite app_nil_r.
    - exists (slot_local sc q). split; [right; now apply in_map|]. unfold slot_local, slot_decl, vcat.
      cbn [lo_decl lo_size lo_locations fold_right text_value]. rewrite app_nil_r, slot_size_eq, <- app_assoc. unfold or_else. now destruct (sl_name q).
  Qed.
  Lemma bytes_in_eq s : Z.of_N (unwrap_or_0 s) = bytes_in s.
  Proof. now destruct s. Qed.
  Lemma locals_fit : Forall local_fits (nm_parameters n) /\ Forall local_fits (nm_variables n).
  Proof.
    assert (H : forall x, In x (nm_parameters n) \/ In x (nm_variables n) -> local_fits x).
    { intros x I. destruct (LF _ _ _ (local_named x I)) as [A B]. rewrite <- bytes_in_eq in A. split; [lia|].
      intros a r z L. specialize (B a r z L). rewrite bytes_in_eq. lia. }
    split; apply Forall_forall; intros x I; apply H; tauto.
  Qed.
  Lemma spaced_eq x a reg z : In x (nm_parameters n) \/ In x (nm_variables n) -> located x a (LRegisterOffset reg z) -> signed_offset z = spaced_offset z.
  Proof.
    intros I L. destruct (LF _ _ _ (local_named x I)) as [A B]. specialize (B a reg z L).
    assert (0 <= bytes_in (lo_size x))%Z by (destruct (lo_size x); cbn; lia).
    unfold signed_offset, spaced_offset, hex_i64. destruct (Z.ltb_spec z 0), (Z.eqb_spec z 0), (Z.ltb_spec 0 z); try lia; try reflexivity.
    - rewrite (proj2 (as_u64_spec (- z) (Z.abs_N z))); [reflexivity|]. rewrite Z.mod_small; lia.
    - rewrite (proj2 (as_u64_spec z (Z.abs_N z))); [reflexivity|]. rewrite Z.mod_small; lia.
  Qed.
  Lemma variable_name_eq id v : text_value (ref_value id (va_namespace v) (va_name v)) = path_and_name (va_namespace v) (va_name v).
  Proof. unfold ref_value, qualified, path_and_name, name_or, or_else. cbn [text_value]. now destruct (va_namespace v). Qed.

  Let shown (x : note) : text := text_value (note_value (sc_function_id sc) (sc_variable_id sc) (sc_register sc) x).
  Lemma noted_remark r i a op t : (exists x, noted n r i a op x /\ shown x = t) <-> remark sc p f r i a op t.
  Proof.
    unfold shown. split.
    - intros (x & N & <-). destruct N as [imm g P F|imm s P F G|imm s P F G H|reg x U I L|base disp reg z x E B I L Z|d t size g R F|d t size v R F G|d t size s R F G H|d t size v R F G H S];
        cbn [note_value text_value]; unfold function_ref, variable_ref; rewrite ?function_name_eq, ?variable_name_eq, <- ?app_assoc.
      + now apply rm_function.
      + now apply rm_plt.
      + now apply rm_relocation.
      + exact (rm_register sc p f r i a op reg _ _ _ U (local_named x I) L).
      + rewrite (spaced_eq x a reg z I L). apply (rm_memory sc p f r i a op base disp reg z _ _ _ E B (local_named x I) L). now rewrite <- bytes_in_eq.
      + exact (rm_code sc p f r i a op d t size g R F).
      + exact (rm_data sc p f r i a op d t size v R F G).
      + exact (rm_relocated sc p f r i a op d t size s R F G H).
      + pose proof (rm_value sc p f r i a op d t size v R F G H S) as M. cbn [n nm_function]. destruct (sc_function_at sc v) as [g|]; cbn [text_value].
        * rewrite function_name_eq. exact M.
        * exact M.
    - intros [m g P F|m s P F G|m s P F G H|reg t' size places U I L|base disp reg z t' size places E B I L Z|d t' size g R F|d t' size v R F G|d t' size s R F G H|d t' size v R F G H S].
      + exists (NFunction m g). split; [now apply no_function|]. cbn [note_value text_value]. unfold function_ref. rewrite function_name_eq, <- ?app_assoc. reflexivity.
      + exists (NPlt m s). split; [now apply no_plt|reflexivity].
      + exists (NRelocation m s). split; [now apply no_relocation|reflexivity].
      + destruct (named_local _ _ _ I) as (x & Ix & <- & <- & <-). exists (NRegister reg x). split; [now apply no_register|].
        cbn [note_value text_value]. now rewrite <- app_assoc.
      + destruct (named_local _ _ _ I) as (x & Ix & <- & <- & <-). exists (NRegisterOffset reg z x).
        split; [apply (no_register_offset n r i a op base disp); rewrite ?bytes_in_eq; assumption|].
        cbn [note_value text_value]. rewrite (spaced_eq x a reg z Ix L), <- ?app_assoc. reflexivity.
      + exists (NIpFunction d g). split; [exact (no_ip_function n r i a op d t' size g R F)|]. cbn [note_value text_value]. unfold function_ref. rewrite function_name_eq, <- ?app_assoc. reflexivity.
      + exists (NIpVariable d v). split; [exact (no_ip_variable n r i a op d t' size v R F G)|]. cbn [note_value text_value]. unfold variable_ref. rewrite variable_name_eq, <- ?app_assoc. reflexivity.
      + exists (NIpRelocation d s). split; [exact (no_ip_relocation n r i a op d t' size s R F G H)|reflexivity].
      + exists (NIpValue d v (sc_function_at sc v)). split; [exact (no_ip_value n r i a op d t' size v R F G H S)|].
        cbn [note_value]. destruct (sc_function_at sc v) as [g|]; cbn [text_value]; unfold function_ref; rewrite ?function_name_eq, <- ?app_assoc; reflexivity.
  Qed.

  Lemma seq_lines depth k l : lines depth k (seq_docs l) = flat_map (lines depth k) l.
  Proof. induction l as [|d l IH]; [reflexivity|]. cbn [seq_docs fold_right lines flat_map]. now rewrite <- IH. Qed.
  Lemma note_lines depth k l : lines depth k (seq_docs (map (fun x => PInstruction None [] (note_value (sc_function_id sc) (sc_variable_id sc) (sc_register sc) x)) l)) =
    map (fun t => Line k (instruction_text None [] t)) (map shown l).
  Proof. rewrite seq_lines. induction l as [|x l IH]; [reflexivity|]. cbn [map flat_map lines app]. now rewrite IH. Qed.

  Lemma notes_remarks k r i : reads_fit i -> forall ops first, incl ops (in_operands i) -> forall l, operand_notes n r i first ops = Done l ->
    remarks sc p f k r i first ops (map (fun t => Line k (instruction_text None [] t)) (map shown l)).
  Proof.
    intros RF ops. destruct PF as (F & _). destruct locals_fit as (F1 & F2).
    induction ops as [|op ops IH]; intros first IN l E.
    { injection E as <-. constructor. }
    cbn [operand_notes] in E. set (a := if first then in_end i else in_address i) in *.
    destruct (ip_notes_spec n r i a op F (fun d t size => RF op d t size (IN op (or_introl eq_refl)))) as (l1 & E1 & S1).
    rewrite E1 in E. destruct (operand_notes n r i false ops) as [rest|] eqn:E2; [|discriminate]. injection E as <-.
    replace (imm_notes n r i op ++ reg_notes n a op ++ reg_offset_notes n a op ++ l1 ++ rest)%list
      with ((imm_notes n r i op ++ reg_notes n a op ++ reg_offset_notes n a op ++ l1) ++ rest)%list by (rewrite <- !app_assoc; reflexivity).
    set (own := (imm_notes n r i op ++ reg_notes n a op ++ reg_offset_notes n a op ++ l1)%list) in *.
    rewrite map_app, map_app. apply rms_operand; [|apply IH; [intros x Ix; apply IN; now right|exact E2]].
    intros t. assert (EA : (if first then (in_address i + N.of_nat (List.length (in_bytes i))) mod 2 ^ 64 else in_address i) = a) by (unfold a; now destruct first).
    rewrite EA, <- noted_remark, in_map_iff. apply iff_trans with (exists x, In x own /\ shown x = t).
    { split; intros (x & A & B); exists x; tauto. }
    assert (EQ : forall x, In x own <-> noted n r i a op x).
    { intros x. unfold own. rewrite !in_app_iff, (imm_notes_spec n r i a op x), (reg_notes_spec n r i a op x), (reg_offset_notes_spec n r i a op x F1 F2), S1. destruct x; tauto. }
    split; intros (x & A & B); exists x; (split; [now apply EQ|exact B]).
  Qed.

  Lemma into_eq r a : range_ok r -> sub64 a (rbegin r) = into r a.
  Proof. intros [A B]. unfold sub64, into, wrap64, two64. rewrite (N.mod_small (rbegin r)); [reflexivity|]. change 18446744073709551616 with (2 ^ 64) in *. lia. Qed.
  Lemma join_eq l : join (txt ", ") l = comma_separated l.
  Proof. induction l as [|s [|s' l] IH]; [reflexivity|reflexivity|]. cbn [join comma_separated] in *. now rewrite IH. Qed.
  Lemma texts_length r i : forall l ops, List.length (operand_texts r i ops l) = List.length l.
  Proof. induction l as [|s l IH]; intros ops; [reflexivity|]. cbn [operand_texts List.length]. now rewrite IH. Qed.

  Lemma operand_is_shown r i s op : operand_shown r i s op (operand_text r i op s).
  Proof.
    assert (H : (exists z a, op = Some (PImm z) /\ Z.of_N a = (z mod 2 ^ 64)%Z /\ in_jump i = true /\ rbegin r <= a < rend r) \/
      ~ (exists z a, op = Some (PImm z) /\ Z.of_N a = (z mod 2 ^ 64)%Z /\ in_jump i = true /\ rbegin r <= a < rend r)).
    { destruct op as [[|z| |]|]; try (right; intros (? & ? & ? & _); discriminate).
      destruct (in_jump i) eqn:J; [|right; intros (? & ? & _ & _ & ? & _); congruence].
      destruct (range_contains r (as_u64 z)) eqn:C.
      - left. exists z, (as_u64 z). rewrite <- range_contains_spec, C. repeat split. symmetry. now rewrite (proj1 (as_u64_spec z (as_u64 z)) eq_refl).
      - right. intros (z' & a & [= <-] & A & _ & B). apply (proj2 (as_u64_spec z a)) in A. subst a. apply range_contains_spec in B. congruence. }
    unfold operand_text. destruct H as [(z & a & -> & A & J & B)|N].
    - cbn [is_imm]. rewrite (proj2 (as_u64_spec z a) A), J, (proj2 (range_contains_spec r a) B). cbn [andb].
      pose proof (Z.mod_pos_bound z (2 ^ 64) ltac:(lia)). rewrite sub64_le by lia. now apply (os_jump r i s z a).
    - destruct op as [op|]; [|now apply os_other]. destruct (is_imm op) as [a|] eqn:I; [|now apply os_other].
      destruct (in_jump i && range_contains r a) eqn:X; [|now apply os_other]. exfalso. apply N.
      apply imm_spec in I as (z & -> & A). apply andb_true_iff in X as [J R]. exists z, a. apply range_contains_spec in R. auto.
  Qed.

  Lemma insn_is_shown depth k r i : range_ok r -> exists l, lines depth k (instruction_line r i) = [l] /\ insn_shown k r i l.
  Proof.
    intros RO. unfold instruction_line. destruct (in_mnemonic i) as [m|] eqn:M; (eexists; split; [reflexivity|]); cbn [text_value]; rewrite (into_eq r _ RO).
    - set (ts := operand_texts r i (in_operands i) (in_ops i)).
      match goal with |- context [instruction_text _ _ ?x] => replace x with (match ts with [] => [] | _ => txt " " ++ comma_separated ts end)
        by (destruct ts as [|t0 l0]; [reflexivity|now rewrite <- (join_eq (t0 :: l0))]) end.
      apply (ish_known k r i m ts M); [apply texts_length|]. intros j s t Es Et. pose proof (operand_texts_spec r i _ (in_operands i) j s Es) as X.
      fold ts in X. rewrite X in Et. injection Et as <-. apply operand_is_shown.
    - assert (EQ : flat_map byte_text (in_bytes i) = flat_map (fun b => match hex b with [] | [_] => txt "0" ++ hex b | _ => hex b end ++ txt " ") (in_bytes i)).
      { apply flat_map_ext. intros b. unfold byte_text. destruct (hex b) as [|x [|y l]]; reflexivity. }
      rewrite EQ. now apply ish_unknown.
  Qed.

  Lemma entry_is_shown depth k r e d : range_ok r -> (forall i, e = EInsn i -> reads_fit i) -> (forall c, e = ECfi c -> offset_fits (snd c)) ->
    entry_doc (sc_function_id sc) (sc_variable_id sc) (sc_register sc) n r e = Done d -> entry_shown sc p f k r e (lines depth k d).
  Proof.
    intros RO RF OF E. destruct e as [i|c]; cbn [entry_doc] in E.
    - unfold instruction_doc, notes in E. destruct (operand_notes n r i true (in_operands i)) as [l|] eqn:ON; [|discriminate]. injection E as <-.
      cbn [lines]. destruct (insn_is_shown depth k r i RO) as (x & -> & X). rewrite note_lines. cbn [app]. apply esh_insn; [exact X|].
      exact (notes_remarks k r i (RF i eq_refl) (in_operands i) true (incl_refl _) l ON).
    - injection E as <-. unfold cfi_doc. cbn [lines text_value].
      assert (EA : match opt64_get (fst c) with Some a => sub64 a (rbegin r) | None => 0 end = if fst c =? u64_max then 0 else into r (fst c)).
      { unfold opt64_get, opt64_is_none, opt64_none. destruct (fst c =? u64_max); [reflexivity|now apply into_eq]. }
      rewrite EA. apply esh_directive. specialize (OF c eq_refl).
      assert (AD : forall a, unwrap_or_0 (opt64_get a) = if a =? u64_max then 0 else a).
      { intros a. unfold opt64_get, opt64_is_none, opt64_none. now destruct (a =? u64_max). }
      pose proof (fun m l I => C54_directives (sc_register sc) (snd c) m l I OF) as DI.
      destruct (snd c) as [| |a|a| |r0 o|r0|o|r0 o|r0 o|d s|r0|r0|r0| | |];
        try (erewrite DI by constructor; apply dsh_assembler; constructor); cbn [directive_text]; rewrite ?AD; constructor.
  Qed.

  Lemma all_done_each {A} (g : A -> outcome pdoc) (sh : A -> list line -> Prop) depth k l : forall ds,
    (forall x d, In x l -> g x = Done d -> sh x (lines depth k d)) -> all_done (map g l) = Done ds -> each sh l (flat_map (lines depth k) ds).
  Proof.
    induction l as [|x l IH]; intros ds H E; cbn [map all_done] in E.
    - injection E as <-. constructor.
    - destruct (g x) as [d|] eqn:G; [|discriminate]. destruct (all_done (map g l)) as [r|] eqn:R; [|discriminate]. injection E as <-.
      cbn [flat_map]. constructor; [now apply H; [left|]|]. apply IH; [|reflexivity]. intros y e I. apply H. now right.
  Qed.

  Lemma ranges_shown_ok depth k : forall ranges l ds, Forall range_ok ranges -> incl ranges (fn_ranges f) ->
    listing (pg_disasm p) (pg_regions p) (pg_cfis p) ranges = Done l ->
    all_done (map (fun x => match all_done (map (entry_doc (sc_function_id sc) (sc_variable_id sc) (sc_register sc) n (fst x))
                                  (match snd x with Some es => es | None => [] end)) with
                            | Done ds => Done (PSeq (org_doc (fst x)) (seq_docs ds)) | Panic => Panic end) l) = Done ds ->
    listing_shown sc p f k ranges (flat_map (lines depth k) ds).
  Proof.
    destruct PF as (GS & _ & RF & CF).
    induction ranges as [|r ranges IH]; intros l ds RO IN L E.
    { injection L as <-. injection E as <-. constructor. }
    inversion RO as [|? ? [Hr Hb] RO']; subst. cbn [listing] in L.
    pose proof (range_loaded (pg_regions p) (rbegin r) (rend r - rbegin r) (fits_of _ GS) ltac:(lia)) as X.
    rewrite add64_small in X by lia. replace (rbegin r + (rend r - rbegin r)) with (rend r) in X by lia.
    replace (mkRange (rbegin r) (rend r)) with r in X by now destruct r.
    assert (ORG : lines depth k (org_doc r) = [Line k (instruction_text None [] (txt ".org 0x" ++ hex (rbegin r)))]) by reflexivity.
    destruct X as [[Y N]|(bytes & Y & Lb)]; rewrite Y in L.
    { injection L as <-. cbn [map all_done fst snd] in E. injection E as <-. cbn [flat_map lines]. rewrite ORG. cbn [seq_docs fold_right lines app].
      apply lsh_unknown. intros b (l1 & s & l2 & ES & _ & H & _). exfalso. apply (N s); [rewrite ES; apply in_or_app; right; now left|].
      replace (rbegin r + (rend r - rbegin r)) with (rend r) in H by lia. now destruct r. }
    destruct (pg_disasm p bytes (rbegin r)) as [insns|] eqn:D.
    2: { injection L as <-. cbn [map all_done fst snd] in E. injection E as <-. cbn [flat_map lines]. rewrite ORG. cbn [seq_docs fold_right lines app].
      apply lsh_unknown. intros b Lb'. now rewrite (loaded_unique _ _ _ _ _ Lb' Lb). }
    destruct (listing (pg_disasm p) (pg_regions p) (pg_cfis p) ranges) as [rest|] eqn:LR; [|discriminate]. injection L as <-.
    cbn [map all_done fst snd] in E.
    destruct (all_done (map (entry_doc (sc_function_id sc) (sc_variable_id sc) (sc_register sc) n r) (entries insns (pg_cfis p r)))) as [es|] eqn:ES; [|discriminate].
    match type of E with context [match ?m with Done _ => _ | Panic => _ end] => destruct m as [ds'|] eqn:ED; [|discriminate] end.
    injection E as <-. cbn [flat_map lines]. rewrite ORG, seq_lines.
    apply (lsh_range sc p f k r ranges bytes insns (entries insns (pg_cfis p r))); [exact Lb|exact D| | |].
    - split; [apply entries_insns|split; [apply entries_cfis|]]. intros A B x0 x b y c Q. pose proof (entries_order insns (pg_cfis p r) A B x0 x b y c Q) as O.
      destruct x as [i|d], y as [j|d']; try exact I; intros NE; apply O; unfold opt64_get, opt64_is_none, opt64_none; now rewrite (proj2 (N.eqb_neq _ _) NE).
    - apply (all_done_each (entry_doc (sc_function_id sc) (sc_variable_id sc) (sc_register sc) n r)); [|exact ES].
      intros e d Ie. apply entry_is_shown; [now split| |].
      + intros i ->. apply in_insns_of in Ie. rewrite entries_insns in Ie. pose proof (RF _ _ _ D) as G. rewrite Forall_forall in G. now apply G.
      + intros c ->. apply in_cfis_of in Ie. rewrite entries_cfis in Ie. exact (CF r c Ie).
    - apply (IH rest ds' RO'); [intros x Ix; apply IN; now right|reflexivity|exact ED].
  Qed.

  Hypothesis HP : sc_program sc = Some p.

  Lemma instructions_shown depth k d : print_instructions sc f = Some d -> listing_shown sc p f k (fn_ranges f) (lines depth k d).
  Proof.
    unfold print_instructions. rewrite HP. fold n. unfold instructions_doc. cbn [n nm_regions]. fold n.
    destruct (listing (pg_disasm p) (pg_regions p) (pg_cfis p) (fn_ranges f)) as [l|] eqn:L; [|discriminate].
    match goal with |- context [all_done ?m] => destruct (all_done m) as [ds|] eqn:E; [|discriminate] end.
    cbn [ok]. intros [= <-]. rewrite seq_lines. exact (ranges_shown_ok depth k _ l ds (proj1 (proj2 PF)) (incl_refl _) L E).
  Qed.
  Lemma calls_found l : calls sc f = Some l -> range_calls (pg_disasm p) (pg_regions p) (fn_ranges f) l.
  Proof.
    unfold calls. rewrite HP. destruct PF as (GS & RO & RF & _). destruct (function_calls _ _ _) as [x|] eqn:E; [|discriminate]. intros [= <-].
    now apply C50_calls.
  Qed.
End Function.
