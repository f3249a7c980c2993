(** The lines about a file as a whole (property C85). *)
From Coq Require Import List Arith NArith ZArith Bool String Lia Permutation Sorting.Sorted.
From Verif Require Import Base BaseProofs RangeModel RangeSpec RangeProofs NamespaceModel TypeModel TypeSpec FileModel FileSpec FileProofs
  FilterModel FilterSpec FilterProofs PrintModel PrintSpec PrintProofs LocationModel RefModel CodeModel ItemModel ItemSpec OptionsModel EntryModel EntrySpec
  ReportModel ReportSpec PropertiesListing PropertiesFile PropertiesRange ItemShown EntryShown ReportLines PropertiesReport PropertiesDie
  NameModel MemberSpec DieModel DieSpec DieProofs WholeModel WholeSpec WholeProofs WholeDepth WholeShown WholeMore WholeSymbols TotalSpec.
Import ListNotations.
Local Open Scope N_scope.

Local Notation inline_depth o := (N.to_nat (o_inline_depth o)).

(** C85: the output starts with the lines for the file if they are requested. *)
Theorem C85_file : forall c o given fuel choice ob out,
  configured c o given -> print_output fuel choice o ob = Some out -> c_file (o_category o) = true ->
  file_function_size (im_file (load choice ob)) + file_variable_size (im_sizes (load choice ob)) (im_file (load choice ob)) < 2 ^ 64 ->
  exists rest, out = write_lines (file_lines o (load choice ob) ++ rest).
Proof.
  intros c o given fuel choice ob out C E CF F.
  unfold print_output in E. destruct (print_file _ _ _ _) as [p|] eqn:EP; [|discriminate]. cbn in E. injection E as <-.
  destruct (C67_file_printed c o given _ fuel _ p (inline_depth o) C EP) as (hs & us & H & _ & EQ).
  rewrite CF in H. destruct H as (h & EH & ->). exists us. unfold text_output. rewrite EQ. f_equal. f_equal.
  destruct (file_header_printed o (load choice ob) F (inline_depth o)) as (p' & E' & L). rewrite EH in E'. injection E' as <-. exact L.
Qed.
Print Assumptions C85_file.

(** C85: it shows the path and the sections that are not empty. *)
Theorem C85_sections : forall choice ob,
  im_path (load choice ob) = ob_path ob /\
  exists sel, selects (fun s => ob_section_size s <> 0) (ob_sections ob) sel /\
    Forall2 section_for sel (im_sections (load choice ob)).
Proof.
  intros choice ob. split; [reflexivity|]. exists (filter (fun s => negb (ob_section_size s =? 0)) (ob_sections ob)). split.
  - induction (ob_sections ob) as [|s l IH]; [constructor|]. cbn [filter]. destruct (N.eqb_spec (ob_section_size s) 0) as [E|E]; cbn [negb];
      constructor; auto.
  - cbn [load im_sections]. unfold kept_sections. induction (filter _ _) as [|s l IH]; [constructor|]. cbn [map]. constructor; [|exact IH].
    repeat split; intros E; cbn [ns_section se_address].
    + now rewrite E.
    + apply N.eqb_neq in E. now rewrite E.
Qed.
Print Assumptions C85_sections.

Local Notation sizes ob := (h_sizes (file_hash ob)).
Section Totals.
  Variable choice : N -> nat.
  Variable ob : object_input.
  Hypothesis WF : well_formed ob.
  Hypothesis AF : addresses_fit ob.
  Lemma loaded_bounds : Forall (unit_in_bounds (sizes ob)) (loaded_units choice ob).
  Proof.
    unfold loaded_units, loaded. rewrite normalized_eq. cbn [fl_units].
    apply (all_in_bounds (sizes ob) (file_read ob)). now apply file_in_bounds_ok.
  Qed.
  Lemma loaded_covers w a : In w (loaded_units choice ob) -> unit_covers (sizes ob) w a ->
    covers (file_ranges (sizes ob) (loaded_units choice ob)) a.
  Proof.
    intros I C. apply (ci_lower _ _ (file_ranges_inv _ _ loaded_bounds)). apply pushed_covers. eauto.
  Qed.
  Lemma items_cover w a : In w (loaded_units choice ob) -> covers (item_ranges (sizes ob) w) a ->
    covers (file_ranges (sizes ob) (loaded_units choice ob)) a.
  Proof.
    intros I C. apply (loaded_covers w); [exact I|]. apply unit_covers_items; [|exact C].
    pose proof loaded_bounds as B. rewrite Forall_forall in B. now apply B.
  Qed.

  Lemma unit_bounds u : In u (ob_units ob) ->
    Forall in_bounds (var_spans (sizes ob) (un_variables (unit_of ob u))).
  Proof.
    intros I. destruct AF as (_ & _ & H). apply (H (unit_of ob u)). cbn [file_read fl_units]. unfold parsed_units. now apply in_map.
  Qed.
  Lemma variable_span v b n : opt64_get (va_address v) = Some b -> var_byte_size (sizes ob) v = Some n -> n <> 0 -> b + n < 2 ^ 64 ->
    var_range (sizes ob) v = Some (mkRange b (b + n)).
  Proof.
    intros A S NZ L. unfold var_range. rewrite A, S. apply N.eqb_neq in NZ. rewrite NZ. unfold add64. rewrite wrap64_small; [reflexivity|].
    rewrite two64_eq. lia.
  Qed.
  Lemma variable_covers w v b n a : In w (loaded_units choice ob) -> In v (un_variables w) ->
    opt64_get (va_address v) = Some b -> var_byte_size (sizes ob) v = Some n -> b + n < 2 ^ 64 -> b <= a < b + n ->
    covers (file_ranges (sizes ob) (loaded_units choice ob)) a.
  Proof.
    intros Iw Iv A S L H. apply (items_cover w); [exact Iw|]. exists (mkRange b (b + n)). split; [|exact H].
    unfold item_ranges. apply in_app_iff. right. unfold var_ranges. apply in_flat_map. exists v. split; [exact Iv|].
    rewrite (variable_span v b n); [now left|auto|auto|lia|auto].
  Qed.
End Totals.

(** C85: the address ranges of the file, which are listed and counted, have every address that a section, a unit,
    a function, a variable or a symbol without debug info is at. *)
Theorem C85_ranges : forall choice ob a, well_formed ob -> addresses_fit ob -> address_of ob a ->
  covers (file_ranges (im_sizes (load choice ob)) (im_units (load choice ob))) a.
Proof.
  intros choice ob a WF AF H. change (covers (file_ranges (sizes ob) (loaded_units choice ob)) a).
  assert (UN : forall u, In u (ob_units ob) -> exists w, In w (loaded_units choice ob) /\
    loaded_unit (parse_symbols (ob_symbols ob)) (unit_of ob u) w).
  { intros u I. apply In_nth_error in I. destruct I as (i & E). destruct (loaded_at choice ob i u E) as (w & Ew & L).
    exists w. split; [now apply nth_error_In in Ew|exact L]. }
  destruct H as [s I A S H|u r I J H|u d g r I D J H|u d g b n I NR D A S H|s I ND H].
  - apply (C06_sections_covered choice (sizes ob) (file_read ob) a AF).
    exists (mkRange (ob_section_address s) (ob_section_address s + ob_section_size s)). split; [|exact H].
    unfold section_spans. apply in_flat_map. cbn [file_read fl_sections]. unfold kept_sections.
    exists (mkSection (Some (ob_section_address s)) (ob_section_size s)). split; [|now left].
    rewrite map_map. apply in_map_iff. exists s. split.
    + cbn [ns_section]. apply N.eqb_neq in A. now rewrite A.
    + apply filter_In. split; [exact I|]. apply N.eqb_neq in S. now rewrite S.
  - destruct (UN u I) as (w & Iw & (_ & R & _)). apply (loaded_covers choice ob AF w); [exact Iw|].
    apply unit_covers_own.
    + pose proof (loaded_bounds choice ob AF) as B. rewrite Forall_forall in B. now apply B.
    + rewrite R. cbn [unit_of un_ranges]. exists r. auto.
  - destruct (UN u I) as (w & Iw & (_ & _ & _ & F & _)). apply (items_cover choice ob AF w); [exact Iw|].
    assert (Ig : In g (ws_functions (unit_items ob u))).
    { exact (C35_resolved (unit_context ob u) (ui_children u) _ d g (unit_distinct ob WF u I) (items_read ob u) D). }
    destruct (Forall2_in_l _ _ _ (func_of g) F) as (f & If & LF); [cbn [unit_of un_functions]; now apply in_map|].
    apply function_for_loaded in LF. destruct LF as (_ & _ & _ & _ & _ & _ & R & _).
    exists r. split; [|exact H]. unfold item_ranges. apply in_app_iff. left. apply in_flat_map. exists f. split; [exact If|]. now rewrite R.
  - destruct (UN u I) as (w & Iw & (_ & _ & _ & _ & F)).
    assert (Ig : In g (ws_variables (unit_items ob u))).
    { exact (C36_resolved (unit_context ob u) (ui_children u) _ d g (unit_distinct ob WF u I) NR (items_read ob u) D). }
    assert (Jg : In (var_of g) (un_variables (unit_of ob u))) by (cbn [unit_of un_variables]; now apply in_map).
    destruct (Forall2_in_l _ _ _ (var_of g) F Jg) as (v & Iv & LF).
    apply variable_for_loaded in LF. destruct LF as (_ & _ & _ & _ & T & VA & VS & _).
    assert (B : in_bounds (mkRange b (b + n))).
    { pose proof (unit_bounds ob AF u I) as B. rewrite Forall_forall in B. apply B. unfold var_spans. apply in_flat_map.
      exists (var_of g). split; [exact Jg|]. cbn [var_of va_address va_size va_ty]. rewrite A.
      unfold variable_extent in S. unfold h_sizes. cbn [file_hash h_env h_size]. rewrite S.
      destruct (N.eqb_spec n 0); [lia|now left]. }
    unfold in_bounds in B. cbn [rend] in B.
    apply (variable_covers choice ob AF w v b n); [exact Iw|exact Iv|congruence| |lia|exact H].
    unfold var_byte_size, h_sizes. cbn [file_hash h_env h_size]. rewrite VS, T. unfold variable_extent in S.
    unfold opt64_is_some, opt64_get, opt64_is_none in *. destruct (vr_size g =? opt64_none); exact S.
  - destruct (symtab_loaded choice ob) as (claimed & unclaimed & st & Ist & _ & PS & CL & UC & _ & FS & VS).
    assert (SB : symbol_in_bounds s). { destruct AF as (_ & B & _). rewrite Forall_forall in B. now apply B. }
    assert (J : In s unclaimed).
    { apply (Permutation_in _ PS) in I. apply in_app_iff in I. destruct I as [I|I]; [|exact I]. destruct (ND (CL s I)). }
    unfold symbol_in_bounds, in_bounds in SB. cbn [rend] in SB.
    destruct (is_function_symbol s) eqn:K.
    + apply (items_cover choice ob AF st); [exact Ist|]. exists (mkRange (sy_address s) (sy_address s + sy_size s)). split; [|exact H].
      unfold item_ranges. apply in_app_iff. left. apply in_flat_map. exists (symbol_function s). split.
      * rewrite FS. apply in_map. apply filter_In. auto.
      * cbn [symbol_function fn_ranges]. destruct (N.ltb_spec 0 (sy_size s)); [|lia]. left. unfold symbol_range.
        f_equal. unfold add64. rewrite wrap64_small; [reflexivity|]. rewrite two64_eq. lia.
    + apply (variable_covers choice ob AF st (symbol_variable s) (sy_address s) (sy_size s)); [exact Ist| | | |lia|exact H].
      * rewrite VS. apply in_map. apply filter_In. rewrite K. auto.
      * cbn [symbol_variable va_address]. unfold opt64_get, opt64_is_none. destruct (N.eqb_spec (sy_address s) opt64_none) as [E|]; [|reflexivity].
        exfalso. assert (M : opt64_none + 1 = 2 ^ 64) by reflexivity. lia.
      * unfold var_byte_size, opt64_is_some, opt64_get, opt64_is_none. cbn [symbol_variable va_size].
        destruct (N.eqb_spec (sy_size s) opt64_none) as [E|]; [|reflexivity].
        exfalso. assert (M : opt64_none + 1 = 2 ^ 64) by reflexivity. lia.
Qed.
Print Assumptions C85_ranges.

(** C85: they are in order and apart from each other, and the size of the file is the number of their addresses. *)
Theorem C85_size : forall choice ob addresses, addresses_fit ob -> NoDup addresses ->
  (forall a, In a addresses <-> covers (file_ranges (im_sizes (load choice ob)) (im_units (load choice ob))) a) ->
  canonical (file_ranges (im_sizes (load choice ob)) (im_units (load choice ob))) /\
  rl_size (file_ranges (im_sizes (load choice ob)) (im_units (load choice ob))) = N.of_nat (List.length addresses).
Proof.
  intros choice ob l AF ND H. change (im_sizes (load choice ob)) with (sizes ob) in *. change (im_units (load choice ob)) with (loaded_units choice ob) in *.
  split; [apply file_ranges_canonical, loaded_bounds, AF|].
  rewrite file_ranges_eq in *. apply C03_size_counts_addresses; auto. apply pushed_in_bounds, loaded_bounds, AF.
Qed.
Print Assumptions C85_size.

(** C85: each address of them is accounted for by a unit that is loaded, or fills a gap between what units account for
    that is too small to be anything but alignment. *)
Theorem C85_only : forall choice ob a, addresses_fit ob ->
  covers (file_ranges (im_sizes (load choice ob)) (im_units (load choice ob))) a ->
  attributed (im_sizes (load choice ob)) (im_units (load choice ob)) a \/
  alignment_padding (reported (im_sizes (load choice ob)) (im_units (load choice ob))) a.
Proof.
  intros choice ob a AF C. apply (ci_upper _ _ (file_ranges_inv _ _ (loaded_bounds choice ob AF))) in C as [C|C]; [left|right; exact C].
  apply pushed_covers in C. exact C.
Qed.
Print Assumptions C85_only.

(** ** Totals of units *)
Definition addresses_in (l : list range) : list N :=
  nodup N.eq_dec (flat_map (fun r => map N.of_nat (seq (N.to_nat (rbegin r)) (N.to_nat (rend r - rbegin r)))) l).
Lemma addresses_covered l a : In a (addresses_in l) <-> covers l a.
Proof.
  unfold addresses_in, covers. rewrite nodup_In, in_flat_map. split; intros (r & I & H); exists r; (split; [exact I|]).
  - apply in_map_iff in H. destruct H as (k & <- & K). apply in_seq in K. lia.
  - apply in_map_iff. exists (N.to_nat a). split; [apply N2Nat.id|]. apply in_seq. lia.
Qed.
Lemma measured rs (P : N -> Prop) : Forall in_bounds rs -> (forall a, covers rs a <-> P a) -> measures P (rl_size (rl_sort (push_all [] rs))).
Proof.
  intros B H. exists (addresses_in (rl_sort (push_all [] rs))).
  split; [apply NoDup_nodup|]. split; [apply C03_size_counts_addresses; [exact B|apply NoDup_nodup|intros a; apply addresses_covered]|]. split.
  - intros a PA. apply addresses_covered, C02_no_address_lost; [exact B|]. now apply H.
  - intros a I. apply addresses_covered, C02_only_alignment_padding_added in I; [|exact B]. destruct I as [C|(p & q & IP & IQ & NP & NQ & R & Q & M)]; [left; now apply H|right].
    unfold RangeSpec.nonempty in NP, NQ. exists (rend p - 1), (rbegin q). split; [apply H; exists p; split; [exact IP|lia]|].
    split; [apply H; exists q; split; [exact IQ|lia]|]. split; [lia|]. split; [lia|exact M].
Qed.
(** C85: the totals of a unit are the numbers of addresses of its functions and of its variables. *)
Theorem C85_units : forall choice ob u, addresses_fit ob -> In u (im_units (load choice ob)) ->
  measures (function_at u) (unit_function_size u) /\
  measures (variable_at (im_sizes (load choice ob)) u) (unit_variable_size (im_sizes (load choice ob)) u).
Proof.
  intros choice ob u AF IU. change (In u (loaded_units choice ob)) in IU. change (im_sizes (load choice ob)) with (sizes ob).
  pose proof (loaded_bounds choice ob AF) as LB. rewrite Forall_forall in LB. destruct (LB u IU) as (_ & BF & BV). split; apply measured.
  - exact BF.
  - intros a. unfold covers, function_at. split.
    + intros (r & I & H). apply in_flat_map in I. destruct I as (f & IF & IR). now exists f, r.
    + intros (f & r & IF & IR & H). exists r. split; [apply in_flat_map; now exists f|exact H].
  - exact BV.
  - intros a. unfold covers, variable_at. split.
    + intros (r & I & H). unfold var_ranges in I. apply in_flat_map in I. destruct I as (v & IV & IR). unfold var_range in IR. rewrite var_byte_size_eq in IR.
      destruct (opt64_get (va_address v)) as [b|] eqn:EB; [|destruct IR].
      destruct (match opt64_get (va_size v) with Some n => Some n | None => _ end) as [n|] eqn:EN; [|destruct IR].
      destruct (N.eqb_spec n 0) as [|NZ]; [destruct IR|]. destruct IR as [<-|[]]. now exists v, b, n.
    + intros (v & b & n & IV & EB & EN & NZ & H). exists (mkRange b (add64 b n)). split; [|exact H]. unfold var_ranges. apply in_flat_map. exists v.
      split; [exact IV|]. unfold var_range. rewrite var_byte_size_eq, EB, EN. apply N.eqb_neq in NZ. rewrite NZ. now left.
Qed.
Print Assumptions C85_units.

(** C85: the totals of a file are the sums of those of its units. *)
Theorem C85_sums : forall choice ob,
  file_function_size (im_file (load choice ob)) = fold_right N.add 0 (map unit_function_size (im_units (load choice ob))) mod 2 ^ 64 /\
  file_variable_size (im_sizes (load choice ob)) (im_file (load choice ob)) =
    fold_right N.add 0 (map (unit_variable_size (im_sizes (load choice ob))) (im_units (load choice ob))) mod 2 ^ 64.
Proof.
  assert (S : forall (g : unit -> N) l s, fold_left (fun n u => add64 n (g u)) l (s mod 2 ^ 64) = (s + fold_right N.add 0 (map g l)) mod 2 ^ 64).
  { intros g l. induction l as [|u l IH]; intros s; cbn [fold_left map fold_right]; [now rewrite N.add_0_r|].
    change (add64 (s mod 2 ^ 64) (g u)) with ((s mod 2 ^ 64 + g u) mod 2 ^ 64). rewrite N.add_mod_idemp_l by discriminate. rewrite IH, N.add_assoc. reflexivity. }
  intros choice ob. split; [exact (S unit_function_size _ 0)|exact (S (unit_variable_size _) _ 0)].
Qed.
Print Assumptions C85_sums.

(** ** An example: a section of code, one of data, a function, a variable and a symbol of which no debug info is there. *)
Local Open Scope string_scope.
Local Open Scope list_scope.
Local Open Scope N_scope.
Local Definition sample_unit : unit_input :=
  mkUnitInput [AName (Some "a.c"); ALowPc (Some 4096); AHighPcSize 64]
    [ Die TagBase 20 [AName (Some "int"); AByteSize (Some 4)%Z] [];
      Die TagSubprogram 90 [AName (Some "main"); ALowPc (Some 4096); AHighPcSize 32] [];
      Die TagVariable 110 [AName (Some "count"); AType (Some 20);
         ALocation (PExpression [(GAddress 8192, None)] [OAddress 8192])] [] ]
    None None false 4 8 (fun _ => None).
Local Definition sample : object_input :=
  mkObjectInput "a.out" false [] [mkObjectSection (Some ".text") None 4096 64; mkObjectSection (Some ".comment") None 0 9;
      mkObjectSection (Some ".empty") None 9000 0]
    [mkObjectSymbol "main" OText 4096 32; mkObjectSymbol "start" OText 12288 16]
    [sample_unit] (fun _ => EncSigned) (fun _ => EndDefault) (fun _ => []) (fun _ => None) None.
Local Definition first_choice (n : N) : nat := O.
Local Definition sample_options : options := Eval vm_compute in
  match parse_options (mkCli None None (Some ["file"]) ["file-address"] [] None [] []) as x
    return match x with Some _ => options | None => True end with Some o => o | None => I end.

Local Lemma sample_well_formed : well_formed sample.
Proof.
  split.
  - vm_compute. repeat (constructor; [cbn; intuition discriminate|]). constructor.
  - apply Forall_forall. intros d I. assert (C : forallb (fun d => negb (die_offset d =? u64_max)) (all_entries sample) = true) by reflexivity.
    rewrite forallb_forall in C. specialize (C d I). now apply negb_true_iff, N.eqb_neq in C.
Qed.
Local Lemma sample_fits : addresses_fit sample.
Proof.
  unfold addresses_fit, file_in_bounds. split; [|split].
  - assert (E : section_spans (fl_sections (file_read sample)) = [mkRange 4096 4160]) by (vm_compute; reflexivity).
    rewrite E. repeat constructor.
  - assert (E : forallb (fun s => sy_address s + sy_size s + 15 <? 2 ^ 64) (fl_symbols (file_read sample)) = true) by (vm_compute; reflexivity).
    apply Forall_forall. intros s I. rewrite forallb_forall in E. apply N.ltb_lt. now apply E.
  - intros u [<-|[]].
    assert (E1 : un_ranges (unit_of sample sample_unit) = [mkRange 4096 4160]) by (vm_compute; reflexivity).
    assert (E2 : flat_map fn_ranges (un_functions (unit_of sample sample_unit)) = [mkRange 4096 4128]) by (vm_compute; reflexivity).
    assert (E3 : var_spans (sizes sample) (un_variables (unit_of sample sample_unit)) = [mkRange 8192 8196]) by (vm_compute; reflexivity).
    rewrite E1, E2, E3. repeat constructor.
Qed.

Example C85_example :
  address_of sample 4159 /\ address_of sample 8195 /\ address_of sample 12288 /\ well_formed sample /\ addresses_fit sample /\
  file_lines sample_options (load first_choice sample) =
    [Line 0 (txt "file a.out"); Line 1 (txt "addresses:"); Line 2 (txt "0x1000-0x103f (64)"); Line 2 (txt "0x2000-0x2003 (4)"); Line 2 (txt "0x3000-0x300f (16)");
     Line 1 (txt "size: 84"); Line 1 (txt "fn size: 48"); Line 1 (txt "var size: 4"); Line 1 (txt "other size: 32"); Line 1 (txt "sections:");
     Line 2 (txt ".text"); Line 3 (txt "address: 0x1000-0x103f"); Line 3 (txt "size: 64");
     Line 2 (txt ".comment"); Line 3 (txt "size: 9"); Blank] /\
  print_output 9 first_choice sample_options sample = Some (write_lines (file_lines sample_options (load first_choice sample))).
Proof.
  split.
  { apply (ao_section _ _ (mkObjectSection (Some ".text") None 4096 64)); [now left|discriminate|discriminate|cbn; lia]. }
  split.
  { pose (d := Die TagVariable 110 [AName (Some "count"); AType (Some 20); ALocation (PExpression [(GAddress 8192, None)] [OAddress 8192])] []).
    pose proof (dvar_own (unit_base sample_unit) (ui_children sample_unit) TagNamespace None d (die_attrs d)) as H.
    refine (ao_variable _ _ sample_unit d _ 8192 4 _ _ (H _ eq_refl _) _ _ _).
    - now left.
    - intros E. discriminate.
    - apply loc_top. right; right; now left.
    - left. repeat split.
    - vm_compute. reflexivity.
    - vm_compute. reflexivity.
    - lia. }
  split.
  { apply (ao_symbol _ _ (mkSymbol (Some "start") SymFunction 12288 16)); [vm_compute; tauto| |cbn; lia].
    intros [(f & I & _ & H)|(v & I & H)]; vm_compute in I.
    + repeat (destruct I as [<-|I]); try contradiction; vm_compute in H; destruct H as [H|(r & [] & _)]; discriminate.
    + repeat (destruct I as [<-|I]); try contradiction. discriminate. }
  split; [exact sample_well_formed|]. split; [exact sample_fits|]. split; vm_compute; reflexivity.
Qed.

(** The unit of the example has a function of 32 bytes and a variable of 4. *)
Example C85_units_example :
  addresses_fit sample /\ map unit_function_size (im_units (load first_choice sample)) = [32; 16; 0] /\
  map (unit_variable_size (im_sizes (load first_choice sample))) (im_units (load first_choice sample)) = [4; 0; 0].
Proof. split; [exact sample_fits|]. split; vm_compute; reflexivity. Qed.
