(** From the values of attributes to the lines that are printed (properties C95 to C97). *)
From Coq Require Import List Arith NArith ZArith Bool String Lia.
From Verif Require Import DescribeProofs MemberProofs DetailSpec PropertiesMember Base BaseProofs RangeModel NamespaceModel NamespaceSpec TypeModel TypeSpec TypeProofs TypeSizeProofs LayoutModel FileModel FileSpec FilterModel FilterSpec
  FilterProofs DiffModel PrintModel PrintSpec PrintProofs LocationModel RefModel RefSpec RefProofs ReadModel ReadSpec CodeModel ItemModel ItemSpec OptionsModel EntryModel EntrySpec EntryProofs
  IdModel ReportModel ReportSpec DetailModel NameModel MemberSpec WholeModel WholeSpec WholeProofs WholeDepth PropertiesWhole RawModel RawSpec RawProofs PropertiesRaw
  EndSpec EndProofs EndTypes EndSample EndReferSample.
From Verif Require Import DieModel DieSpec.
Import ListNotations.
Local Open Scope N_scope.

(** ** C95: types *)

(** C95: if no type is written with itself then a type is written as the values of its entry, and of those that it refers to, say. *)
Theorem C95_text : forall choice rf ob u d t, raw_well_formed rf -> raw_acyclic rf -> read_file rf = Some ob ->
  In u (rf_units rf) -> In d (raw_below u) -> entry_text rf u d t ->
  exists ty, from_offset (type_at ob) (ud_begin (ru_place u) + rd_offset d) = Some ty /\
    text_value (vw_ref (file_view choice ob) (Some ty)) = t.
Proof.
  intros choice rf ob u d t WF AC RD I J T. destruct (texts rf ob WF RD) as (_ & H & _).
  destruct (H u d t T I J) as (ty & E & _ & S). exists ty. split; [exact E|].
  destruct (C83_references choice ob (Some ty)) as (S' & _).
  - now apply (C88_well_formed rf).
  - now apply (acyclic_raw rf).
  - exact (spelled_same _ _ _ _ _ S' S).
Qed.
Print Assumptions C95_text.

(** C95: its size is the one given, or the one that the types that it refers to have together. *)
Theorem C95_size : forall rf ob u d s, raw_well_formed rf -> read_file rf = Some ob ->
  In u (rf_units rf) -> In d (raw_below u) -> entry_bytes rf u d s ->
  exists ty, from_offset (type_at ob) (ud_begin (ru_place u) + rd_offset d) = Some ty /\ type_size ob ty = Some s.
Proof.
  intros rf ob u d s WF RD I J B. destruct (bytes rf ob WF RD) as (_ & H).
  destruct (H u d s B I J) as (ty & E & W & S & LT). exists ty. split; [exact E|].
  apply (reports_size_fun (type_at ob) ty).
  - exact (C83_sizes ob _ ty (C88_well_formed rf ob WF RD) E W).
  - exact S.
Qed.
Print Assumptions C95_size.

(** C95: that no type is written with itself is seen from the references in the file. *)
Theorem C95_acyclic : forall rf ob, raw_well_formed rf -> read_file rf = Some ob -> raw_acyclic rf -> acyclic_types ob.
Proof. intros rf ob WF RD. exact (acyclic_raw rf ob WF RD). Qed.
Print Assumptions C95_acyclic.

(** What is written for an attribute that refers to a type. *)
Lemma written_text choice rf ob u attrs t : raw_well_formed rf -> raw_acyclic rf -> read_file rf = Some ob -> In u (rf_units rf) ->
  type_text rf u 0x49 attrs t -> written_type (file_view choice ob) (given_type (map (read_attr rf u) attrs)) = t.
Proof.
  intros WF AC RD I T. destruct (texts rf ob WF RD) as (H & _). destruct (H u 0x49 attrs t T I (or_introl eq_refl)) as (S & _).
  unfold refers_to in S. change (0x49 =? 0x1d) with false in S. cbv iota in S. unfold written_type.
  destruct (C83_references choice ob (from_offset (type_at ob) (given_type (map (read_attr rf u) attrs)))) as (S' & _).
  - now apply (C88_well_formed rf).
  - now apply (acyclic_raw rf).
  - exact (spelled_same _ _ _ _ _ S' S).
Qed.
Lemma found_bytes rf ob u attrs s : raw_well_formed rf -> read_file rf = Some ob -> In u (rf_units rf) -> type_bytes rf u attrs s ->
  exists ty, from_offset (type_at ob) (given_type (map (read_attr rf u) attrs)) = Some ty /\ type_size ob ty = Some s.
Proof.
  intros WF RD I B. destruct (bytes rf ob WF RD) as (H & _).
  destruct (H u attrs s B I) as (ty & E & W & S & LT). exists ty. split; [exact E|].
  apply (reports_size_fun (type_at ob) ty).
  - exact (C83_sizes ob _ ty (C88_well_formed rf ob WF RD) E W).
  - exact S.
Qed.
Lemma sizes_bytes choice rf ob u attrs s : raw_well_formed rf -> read_file rf = Some ob -> In u (rf_units rf) -> type_bytes rf u attrs s ->
  vw_sizes (file_view choice ob) (given_type (map (read_attr rf u) attrs)) = Some s.
Proof.
  intros WF RD I B. destruct (found_bytes rf ob u attrs s WF RD I B) as (ty & E & S).
  unfold vw_sizes, h_sizes. cbn [file_view vw_hash file_hash h_env h_size]. rewrite E. exact S.
Qed.

(** ** C96: functions *)

Lemma wanted_path o ns path : path_opt ns path -> namespace_matches (f_namespace (o_filter o)) ns -> path_matches (f_namespace (o_filter o)) path.
Proof.
  intros P [->|(n & l & r & -> & Q & ->)]; [exists path; reflexivity|]. exists r.
  inversion P as [|? ? P' X]; subst. apply NamespaceProofs.path_of_ns_path in P', Q. congruence.
Qed.
Lemma path_wanted o ns path : path_opt ns path -> path_matches (f_namespace (o_filter o)) path -> namespace_matches (f_namespace (o_filter o)) ns.
Proof.
  intros P (rest & E). destruct P as [|n l PO].
  - left. symmetry in E. apply app_eq_nil in E. destruct E as (E & _). now apply map_eq_nil in E.
  - right. exists n, l, rest. split; [reflexivity|]. now split.
Qed.
Lemma unit_read_wanted rf given o u : raw_unit_wanted rf given o u -> unit_wanted given o (read_unit rf u).
Proof.
  intros (name & N & L). unfold unit_wanted. destruct (C91_root rf u) as (N' & _).
  now rewrite (named_same rf u _ _ _ _ N' N).
Qed.

Lemma raw_symbols rf ob : read_file rf = Some ob -> ob_symbols ob = rf_symbols rf.
Proof. intros RD. destruct (C91_units rf) as (_ & H). now destruct (H ob RD) as (_ & _ & _ & _ & _ & H' & _). Qed.
Lemma raw_dir rf u dir : named rf u is_comp_dir (rd_attrs (ru_root u)) dir -> ui_dir (read_unit rf u) = dir.
Proof. intros ND. destruct (C91_root rf u) as (_ & N' & _). exact (named_same rf u _ _ _ _ N' ND). Qed.
Lemma dec_line n : labelled_line 1 "size" (dec n) = [Line 1 (txt "size: " ++ dec n)].
Proof. unfold labelled_line. destruct (dec n) eqn:Z; [|reflexivity]. destruct (dec_nonempty n Z). Qed.

Section Described.
  Variable rf : raw_file.
  Variable ob : object_input.
  Hypothesis WF : raw_well_formed rf.
  Hypothesis AC : raw_acyclic rf.
  Hypothesis RD : read_file rf = Some ob.
  Variable u : raw_unit.
  Hypothesis I : In u (rf_units rf).
  Local Notation begin := (ud_begin (ru_place u)).

  Lemma referred_type attrs v x e : gives 0x49 attrs v -> refers rf u v x e -> In e (raw_below x) -> given_type (map (read_attr rf u) attrs) <> type_offset_none.
  Proof.
    intros G R J. rewrite (type_is rf u attrs v x e G R). assert (Ix : In x (rf_units rf)) by (destruct R; [exact I|assumption]).
    destruct (C88_well_formed rf ob WF RD) as [_ F]. rewrite Forall_forall in F. rewrite <- (read_offset rf x e). apply F.
    unfold all_entries. apply in_flat_map. exists (read_unit rf x). split; [now apply (unit_in rf ob RD)|]. rewrite read_below. now apply in_map.
  Qed.
  Lemma own_type attrs v s : gives 0x49 attrs v -> type_bytes rf u attrs s -> given_type (map (read_attr rf u) attrs) <> type_offset_none.
  Proof.
    intros G B. inversion B as [? ? L|? ? w x e ? G' R J _]; subst; [now destruct (gives_lacks 0x49 attrs v)|].
    now apply (referred_type attrs w x e).
  Qed.
  Lemma name_else d base n : name_or_else rf u is_name (rd_attrs d) base n -> or_else (given_name (die_attrs (read_die rf u d))) base = n.
  Proof. intros (own & N & ->). apply named_is in N. rewrite N. now destruct own. Qed.
  Lemma linkage_else d base n : name_or_else rf u is_linkage_name (rd_attrs d) base n -> or_else (given_linkage_name (die_attrs (read_die rf u d))) base = n.
  Proof. intros (own & N & ->). apply linkage_is in N. rewrite N. now destruct own. Qed.
  Lemma source_else d base s : source_or_else rf u (rd_attrs d) base s ->
    (if is_none (so_file (given_source (die_attrs (read_die rf u d)))) then base else given_source (die_attrs (read_die rf u d))) = s.
  Proof. intros (own & N & ->). apply source_is in N. rewrite N. now destruct (so_file own). Qed.
  Definition writes (ty : type_offset) (t : text) (s : N) : Prop :=
    forall choice, written_type (file_view choice ob) ty = t /\ vw_sizes (file_view choice ob) ty = Some s.
  Lemma writes_given attrs t s : type_text rf u 0x49 attrs t -> type_bytes rf u attrs s -> writes (given_type (map (read_attr rf u) attrs)) t s.
  Proof. intros T B choice. split; [now apply written_text|now apply (sizes_bytes choice rf)]. Qed.
  Lemma type_else d ty t0 s0 t s : writes ty t0 s0 -> type_or_else rf u (rd_attrs d) t0 s0 t s ->
    writes (if given_type (die_attrs (read_die rf u d)) =? type_offset_none then ty else given_type (die_attrs (read_die rf u d))) t s.
  Proof.
    intros W T. rewrite read_attrs. destruct T as [L|v t s G TT TB].
    - now rewrite (type_none rf u _ L).
    - destruct (N.eqb_spec (given_type (map (read_attr rf u) (rd_attrs d))) type_offset_none) as [E|_].
      + destruct (own_type _ v s G TB E).
      + now apply writes_given.
  Qed.

  Definition holds_parameter (p : parameter_type) (q : raw_parameter) : Prop :=
    pt_offset p = begin + rp_offset q /\ pt_name p = rp_name q /\ writes (pt_ty p) (rp_type q) (rp_size q).
  Lemma parameters_given l : forall ps qs ms, parameters_of rf u ps (filter (fun c => rd_tag c =? 0x05) l) qs -> Forall2 holds_parameter ms ps ->
    exists ns, extends ms (map (read_die rf u) l) ns /\ Forall2 holds_parameter ns qs.
  Proof.
    induction l as [|c l IH]; intros ps qs ms P F; cbn [map filter] in *.
    - inversion P; subst. exists ms. split; [constructor|exact F].
    - destruct (N.eqb_spec (rd_tag c) 0x05) as [E|NE].
      + destruct c as [t o a ch]. cbn [rd_tag] in E. subst t. cbn [read_die]. change (read_tag 5) with TagParameter.
        inversion P as [|? ? n t s ? ? L N TT TB P' E1|ps1 p ps2 ? v e n t s ? ? G R EO NI N T P' E1]; subst.
        * pose proof (named_is rf u _ n N) as EN. cbn [read_die die_attrs rd_attrs rd_offset] in *.
          destruct (IH _ _ (ms ++ [mkParameterType (begin + o) (given_name (map (read_attr rf u) a)) (given_type (map (read_attr rf u) a))]) P') as (ns & X & Y).
          { apply Forall2_app; [exact F|]. constructor; [|constructor]. split; [reflexivity|]. split; [exact EN|]. now apply writes_given. }
          exists ns. split; [|exact Y]. apply ext_new; [|exact X]. intros or O. rewrite origin_none in O by exact L. discriminate.
        * apply Forall2_app_inv_r in F. destruct F as (m1 & m' & F1 & F2 & ->). inversion F2 as [|m ? m2 ? (H1 & H2 & H3) F3]; subst. clear F2.
          pose proof (name_else _ _ _ N) as EN. pose proof (type_else _ _ _ _ _ _ H3 T) as ET. cbn [read_die die_attrs rd_attrs] in *.
          destruct (IH _ _ (m1 ++ mkParameterType (pt_offset m) (or_else (given_name (map (read_attr rf u) a)) (pt_name m))
                  (if given_type (map (read_attr rf u) a) =? type_offset_none then pt_ty m else given_type (map (read_attr rf u) a)) :: m2) P') as (ns & X & Y).
          { apply Forall2_app; [exact F1|]. constructor; [|exact F3]. split; [exact H1|]. cbn [pt_name pt_ty rp_name rp_type rp_size]. split; [|exact ET]. now rewrite H2. }
          exists ns. split; [|exact Y]. apply (ext_amend m1 m m2 _ _ _ _ (begin + rd_offset e)); [now apply (origin_is rf u a v u e)|now rewrite EO| |exact X].
          clear - F1 NI EO. induction F1 as [|x y xs ys (H & _) _ IH]; constructor; inversion NI as [|? ? N1 N2]; subst; [lia|now apply IH].
      + destruct (IH ps qs ms P F) as (ns & X & Y). exists ns. split; [|exact Y]. apply ext_skip; [|exact X]. rewrite read_tag_of. intros T. apply NE.
        destruct (C91_numbers) as (_ & _ & H & _). specialize (H (rd_tag c)). rewrite T in H. cbn in H. destruct H as [<-|[]]. reflexivity.
  Qed.

  Definition returns (ty : type_offset) (ls : list line) : Prop := forall choice, text_line 2 (return_shown (file_view choice ob) ty) = ls.
  Lemma returns_given d ls : result_shown rf u (rd_attrs d) ls -> returns (given_type (die_attrs (read_die rf u d))) ls.
  Proof.
    intros RS choice. rewrite read_attrs. destruct RS as [LT|v t s G TT TB].
    - rewrite type_none by exact LT. reflexivity.
    - destruct (found_bytes rf ob u _ s WF RD I TB) as (ty & E & S). pose proof (written_text choice rf ob u _ t WF AC RD I TT) as W.
      unfold return_shown. change (vw_find (file_view choice ob)) with (from_offset (type_at ob)).
      unfold written_type in W. change (vw_find (file_view choice ob)) with (from_offset (type_at ob)) in W. rewrite E in *.
      destruct (texts rf ob WF RD) as (H & _). destruct (H u 0x49 _ t TT I (or_introl eq_refl)) as (_ & NV).
      destruct NV as (ty' & E' & NV); [now exists v|]. unfold refers_to in E'. change (0x49 =? 0x1d) with false in E'. cbv iota in E'.
      rewrite E in E'. injection E' as <-. change (h_size (vw_hash (file_view choice ob)) ty) with (type_size ob ty). rewrite S, W.
      destruct (t_kind ty); try reflexivity. now destruct NV.
  Qed.
  Lemma returns_else d ty base ls : returns ty base -> result_or_else rf u (rd_attrs d) base ls ->
    returns (if given_type (die_attrs (read_die rf u d)) =? type_offset_none then ty else given_type (die_attrs (read_die rf u d))) ls.
  Proof.
    intros W R. destruct R as [L|v ls G RS].
    - rewrite read_attrs. now rewrite (type_none rf u _ L).
    - destruct (N.eqb_spec (given_type (die_attrs (read_die rf u d))) type_offset_none) as [E|_].
      + exfalso. rewrite read_attrs in E. inversion RS as [L|w t s G' TT TB]; subst; [now destruct (gives_lacks 0x49 _ v G)|]. destruct (own_type _ v s G TB E).
      + now apply returns_given.
  Qed.

  (** The function of a description is what the values say. *)
  Definition function_holds (x : raw_function) (d : raw_die) (g : dw_function) : Prop :=
    fu_offset g = begin + rd_offset d /\ path_opt (fu_namespace g) (rn_path x) /\ namespace_text (fu_namespace g) = path_text (rn_path x) /\
    fu_name g = rn_name x /\ fu_linkage_name g = rn_linkage x /\ ui_dir (read_unit rf u) = rn_dir x /\ fu_source g = rn_source x /\
    fu_address g = opt64_from (rn_address x) /\ fu_size g = opt64_from (rn_size x) /\
    (rn_address x = None /\ rn_size x = None \/ exists a n, rn_address x = Some a /\ a < u64_max /\ rn_size x = Some n /\ n < u64_max) /\
    fu_ranges g = rn_ranges x /\ fu_inline g = rn_inline x /\ fu_declaration g = rn_declared x /\ returns (fu_return g) (rn_result x) /\
    Forall2 holds_parameter (fu_parameters g) (rn_parameters x).
  Lemma function_given d x : gives_function rf u d x ->
    exists g, describes (unit_base (read_unit rf u)) (ui_children (read_unit rf u)) (read_die rf u d) g /\ function_holds x d g.
  Proof.
    induction 1 as [d b path name linkage dir source address size ranges inline declared result parameters T P L1 L2 CG ND NN NL SA IN DE RS PS
                   |d b path code v e y name linkage source address size ranges inline declared result parameters T P CD G R _ IH CG NN NL SA IN DE RS PS].
    - destruct (placed_located rf u b path d P) as (outer & ns & L & PO & TX & _).
      destruct (code_given_is rf u d (unit_base (read_unit rf u)) _ _ _ CG) as (OC & B).
      apply named_is in NN. apply linkage_is in NL. apply source_is in SA. apply (inlined_is rf u) in IN. apply (declared_is rf u) in DE.
      apply returns_given in RS. apply raw_dir in ND.
      destruct d as [t o a l]. cbn [rd_tag rd_attrs] in *. subst t. unfold with_raw_tag in PS. cbn [rd_children] in PS.
      destruct (parameters_given l [] parameters [] PS) as (ps & X & Y); [constructor|].
      cbn [read_die die_attrs] in *. change (read_tag 46) with TagSubprogram in *.
      eexists. split; [eapply desc_own; [exact L|now apply specification_none|exact OC|exact X]|].
      unfold function_holds. cbn [fu_offset fu_namespace fu_name fu_linkage_name fu_source fu_address fu_size fu_ranges fu_inline fu_declaration fu_parameters fu_return
        rn_path rn_name rn_linkage rn_dir rn_source rn_address rn_size rn_ranges rn_inline rn_declared rn_result rn_parameters rd_offset].
      repeat (split; [first [assumption|reflexivity]|]). exact Y.
    - destruct IH as (g & D & H). unfold function_holds in H. destruct H as (H0 & H1 & H2 & H3 & H4 & H5 & H6 & _ & _ & _ & _ & _ & _ & H7 & H8).
      destruct (placed_located rf u b path d P) as (outer & ns & L & _).
      destruct (code_given_is rf u d (unit_base (read_unit rf u)) _ _ _ CG) as (OC & B).
      apply name_else in NN. apply linkage_else in NL. apply source_else in SA. apply (inlined_is rf u) in IN. apply (declared_is rf u) in DE.
      apply (returns_else d _ _ _ H7) in RS. rewrite <- H3 in NN. rewrite <- H4 in NL. rewrite <- H6 in SA.
      assert (SP := fun H => specification_is rf u (rd_attrs d) code v u e H G R).
      destruct d as [t o a l]. cbn [rd_tag rd_attrs] in *. subst t. unfold with_raw_tag in PS. cbn [rd_children] in PS.
      destruct (parameters_given l _ parameters (if code =? 0x31 then fu_parameters g else []) PS) as (ps & X & Y).
      { destruct (code =? 0x31); [exact H8|constructor]. }
      cbn [read_die die_attrs] in *. change (read_tag 46) with TagSubprogram in *.
      eexists. split.
      { eapply desc_refer; [exact L|apply SP; tauto|exact D|now rewrite read_offset|exact OC|exact X]. }
      unfold function_holds. cbn [fu_offset fu_namespace fu_name fu_linkage_name fu_source fu_address fu_size fu_ranges fu_inline fu_declaration fu_parameters fu_return
        rn_path rn_name rn_linkage rn_dir rn_source rn_address rn_size rn_ranges rn_inline rn_declared rn_result rn_parameters rd_offset].
      repeat (split; [first [assumption|reflexivity]|]). exact Y.
  Qed.
  (** Its entry refers to at most one copy. *)
  Lemma function_origin d x : gives_function rf u d x ->
    (forall o, given_specification (die_attrs (read_die rf u d)) = Some (o, false) -> given_origin (die_attrs (read_die rf u d)) = None) /\
    (forall o, given_origin (die_attrs (read_die rf u d)) = Some o ->
       o <> u64_max /\ forall e, In e (all_entries ob) -> die_offset e = o -> given_origin (die_attrs e) = None).
  Proof.
    rewrite read_attrs. pose proof (C88_well_formed rf ob WF RD) as OW.
    intros [? b path name linkage dir source address size ranges inline declared result parameters T P L1 L2 CG ND NN NL SA IN DE RS PS
           |? b path code v e y name linkage source address size ranges inline declared result parameters T P CD G R GE CG NN NL SA IN DE RS PS].
    - rewrite origin_none by exact L2. split; [reflexivity|discriminate].
    - destruct CD as [(-> & L)|(-> & L & L')].
      + rewrite origin_none by exact L. split; [reflexivity|discriminate].
      + rewrite (origin_is rf u _ v u e G R).
        rewrite (specification_is rf u _ 0x31 v u e (or_intror (conj eq_refl L)) G R). split; [discriminate|].
        intros o [= <-].
        assert (J : In (read_die rf u e) (all_entries ob)).
        { destruct (function_given e y GE) as (g & D & _). destruct (located_entry (unit_base (read_unit rf u)) (ui_children (read_unit rf u))) as (_ & EN).
          unfold all_entries. apply in_flat_map. exists (read_unit rf u). split; [now apply (unit_in rf ob RD)|]. exact (proj1 (EN _ _ D)). }
        split.
        * destruct OW as [_ F]. rewrite Forall_forall in F. rewrite <- (read_offset rf u e). now apply F.
        * intros e' J' E'. rewrite <- (read_offset rf u e) in E'. assert (X : e' = read_die rf u e) by (destruct OW as (ND & _); eapply NoDup_map_eq; eauto). subst e'.
          rewrite read_attrs. now apply origin_none.
  Qed.
End Described.

(** The function that an entry describes, and its lines. *)
Lemma function_described rf ob u d x : raw_well_formed rf -> raw_acyclic rf -> read_file rf = Some ob -> In u (rf_units rf) ->
  gives_function rf u d x ->
  exists g, describes (unit_base (read_unit rf u)) (ui_children (read_unit rf u)) (read_die rf u d) g /\
    fu_offset g = ud_begin (ru_place u) + rd_offset d /\
    path_opt (fu_namespace g) (rn_path x) /\ fu_name g = rn_name x /\ fu_ranges g = rn_ranges x /\
    (forall o, raw_function_wanted o x <-> function_wanted o g) /\
    forall choice o f symbol lines more,
      function_for (parse_symbols (ob_symbols ob)) g f ->
      symbol_shown (parse_symbols (ob_symbols ob)) (fu_address g) (own_name (fu_linkage_name g) (fu_name g)) symbol ->
      each (formal_shown o (file_scene choice ob) 2) (de_parameters (sc_details (file_scene choice ob) f)) lines ->
      function_lines rf o x (function_head o (file_view choice ob) (ui_dir (read_unit rf u)) g symbol lines ++ more ++ [Blank]).
Proof.
  intros WF AC RD I G. pose proof (C88_well_formed rf ob WF RD) as OW.
  destruct (function_given rf ob WF AC RD u I d x G) as (g & D & H). destruct (function_origin rf ob WF AC RD u I d x G) as (NS & NO).
  unfold function_holds in H. destruct H as (HO & PO & TX & HN & HL & HD & HS & HA & HZ & B & HR & HI & HDe & HT & HP).
  exists g. split; [exact D|]. split; [exact HO|]. split; [exact PO|]. split; [exact HN|]. split; [exact HR|]. split.
  { intros o. split.
    2: { intros (AD & NM & NS' & IM). rewrite HA, HZ, HN, HI in *. split; [|split; [|exact IM]].
         - destruct AD as [AD|(AD & _)]; [now left|right]. intros X. rewrite X in AD. now apply AD.
         - split; [exact NM|]. exact (wanted_path o _ _ PO NS'). }
    intros (AD & RW & IM). unfold function_wanted. rewrite HA, HZ, HN, HI.
    split; [|split; [apply RW|split; [|exact IM]]]; [|apply (path_wanted o _ _ PO); apply RW].
    destruct AD as [AD|AD]; [now left|right]. destruct B as [(B & _)|(a & n & Ea & La & En & Ln)]; [contradiction|]. rewrite Ea, En. cbn [opt64_from].
    rewrite !explicit_get by (unfold explicit; lia). split; discriminate. }
  intros choice o f symbol lines more FF SY FO. exists symbol, lines, more.
  assert (SYM := raw_symbols rf ob RD).
  split; [|split].
  - rewrite SYM in SY. now rewrite HA, HL, HN in SY.
  - assert (SG : map (fun p => (fo_name p, fo_ty p)) (de_parameters (sc_details (file_scene choice ob) f)) =
                 map (fun p => (pt_name p, pt_ty p)) (fu_parameters g)).
    { apply (C81_signature choice ob (read_unit rf u) (read_die rf u d) g f); auto; [now apply (unit_in rf ob RD)|apply FF]. }
    clear - HP FO SG. revert lines FO SG.
    generalize (de_parameters (sc_details (file_scene choice ob) f)) as fs.
    induction HP as [|m q ms qs H _ IH]; intros fs lines FO SG.
    + destruct fs; [|discriminate]. inversion FO; subst. constructor.
    + destruct fs as [|p fs]; [discriminate|]. cbn [map] in SG. injection SG as E1 E2 SG.
      inversion FO as [|? ? ls ls' S FO']; subst. constructor; [|now apply (IH fs)].
      destruct S as [places PL]. exists places. destruct H as (_ & H1 & H2). destruct (H2 choice) as (H3 & H4). split.
      * f_equal. unfold shown_parameter. f_equal. rewrite E1, E2, H1. cbn [file_scene sc_view]. rewrite H4.
        unfold name_and_type. cbn [file_scene sc_view]. now rewrite H3.
      * intros NP. inversion PL; [reflexivity|congruence].
  - unfold function_head. rewrite HN, HL, HS, HI, HDe, HD, HR, HZ.
    assert (PN : forall m, path_and_name (fu_namespace g) m = path_text (rn_path x) ++ name_or "<anon>" m) by (intros m; rewrite <- TX; reflexivity). rewrite PN.
    assert (K : labelled_line 1 "size" (match known (opt64_from (rn_size x)) with Some n => dec n | None => [] end) =
      match rn_size x with Some n => [Line 1 (txt "size: " ++ dec n)] | None => [] end).
    { destruct B as [(_ & ->)|(a & n & _ & _ & -> & Ln)]; [reflexivity|]. cbn [opt64_from]. unfold known. destruct (N.eqb_spec n u64_max); [lia|]. apply dec_line. }
    rewrite K, (HT choice). repeat (cbn [app]; rewrite <- ?app_assoc). reflexivity.
Qed.

(** C101: the lines for a function, whether its entry has all of it or refers to another. *)
Theorem C101_function : forall c o given fuel choice rf ob out u d x,
  configured c o given -> o_html o = false -> raw_well_formed rf -> raw_acyclic rf -> read_file rf = Some ob ->
  print_output fuel choice o ob = Some out ->
  In u (rf_units rf) -> raw_unit_wanted rf given o u -> c_function (o_category o) = true ->
  gives_function rf u d x -> raw_function_wanted o x ->
  exists before ls after, function_lines rf o x ls /\ out = write_lines (before ++ ls ++ after).
Proof.
  intros c o given fuel choice rf ob out u d x C HT WF AC RD OUT I UW CF G W.
  destruct (In_nth_error _ _ (unit_in rf ob RD u I)) as (i & Ei).
  destruct (function_described rf ob u d x WF AC RD I G) as (g & D & _ & _ & _ & _ & FW & FL).
  destruct (C80_function c o given fuel choice ob i (read_unit rf u) _ g out C HT (C88_well_formed rf ob WF RD) (acyclic_raw rf ob WF RD AC) OUT Ei
    (unit_read_wanted rf given o u UW) CF D (proj1 (FW o) W)) as (before & after & f & symbol & lines & more & FF & SY & FO & ->).
  eexists before, _, after. split; [exact (FL choice o f symbol lines more FF SY FO)|]. repeat (cbn [app]; rewrite <- ?app_assoc). reflexivity.
Qed.
Print Assumptions C101_function.

(** C96: the lines for a function whose entry has its code, and the values of its attributes, without reference to another entry. *)
Theorem C96_function : forall c o given fuel choice rf ob out u d b path name linkage dir source low n inline declared result parameters,
  configured c o given -> o_html o = false -> raw_well_formed rf -> raw_acyclic rf -> read_file rf = Some ob ->
  print_output fuel choice o ob = Some out ->
  In u (rf_units rf) -> raw_unit_wanted rf given o u -> c_function (o_category o) = true ->
  rd_tag d = 0x2e -> placed rf u b path d ->
  lacks 0x47 (rd_attrs d) -> lacks 0x31 (rd_attrs d) -> lacks 0x55 (rd_attrs d) -> code_at u (rd_attrs d) low n ->
  named rf u is_comp_dir (rd_attrs (ru_root u)) dir ->
  named rf u is_name (rd_attrs d) name -> named rf u is_linkage_name (rd_attrs d) linkage ->
  source_at rf u (rd_attrs d) source -> is_inlined (rd_attrs d) inline -> is_declared (rd_attrs d) declared ->
  result_shown rf u (rd_attrs d) result -> Forall2 (parameter_text rf u) (with_raw_tag 0x05 d) parameters ->
  raw_wanted o path name -> inline_matches (f_function_inline (o_filter o)) inline ->
  exists before symbol lines more after,
    symbol_shown (parse_symbols (rf_symbols rf)) low (own_name linkage name) symbol /\
    each (fun t ls => exists places, ls = Line 2 t :: places /\ (p_variable_locations (o_print o) = false -> places = [])) parameters lines /\
    out = write_lines (before ++
      Line 0 (txt "fn " ++ path_text path ++ name_or "<anon>" name) ::
      labelled_line 1 "linkage name" (optional_name linkage) ++ labelled_line 1 "symbol name" (optional_name symbol) ++
      (if p_source (o_print o) then labelled_line 1 "source" (source_text dir source) else []) ++
      [Line 1 (txt "address: 0x" ++ hex low ++ txt "-0x" ++ hex (low + n - 1)); Line 1 (txt "size: " ++ dec n)] ++
      labelled_line 1 "inline" (yes inline) ++ labelled_line 1 "declaration" (yes declared) ++
      under 1 "return type" result ++ under 1 "parameters" lines ++ more ++ [Blank] ++ after).
Proof.
  intros c o given fuel choice rf ob out u d b path name linkage dir source low n inline declared result parameters
    C HT WF AC RD OUT I UW CF T P L1 L2 L3 CA ND NN NL SA IN DE RS PS RW IM.
  assert (PG : exists qs, parameters_of rf u [] (with_raw_tag 0x05 d) qs /\ map shown_parameter qs = parameters).
  { assert (H : forall ds ts, Forall2 (parameter_text rf u) ds ts -> forall ps, exists qs, parameters_of rf u ps ds (ps ++ qs) /\ map shown_parameter qs = ts).
    { induction 1 as [|e t es ts [m t' s N L TT TB] _ IH]; intros ps; [exists []; rewrite app_nil_r; split; constructor|].
      destruct (IH (ps ++ [mkRawParameter (rd_offset e) m t' s])) as (qs & A & B). rewrite <- app_assoc in A.
      exists (mkRawParameter (rd_offset e) m t' s :: qs). split; [|cbn [map]; now rewrite B]. now apply (po_new rf u ps e m t' s). }
    exact (H _ _ PS []). }
  destruct PG as (qs & PG & EQ).
  destruct (C101_function c o given fuel choice rf ob out u d
    (mkRawFunction path name linkage dir source (Some low) (Some n) [mkRange low (low + n)] inline declared result qs) C HT WF AC RD OUT I UW CF)
    as (before & ls & after & (symbol & lines & more & SY & FO & E) & EO).
  { eapply gf_own; eauto. now apply cg_one. }
  { split; [right; discriminate|]. now split. }
  cbn [rn_path rn_name rn_linkage rn_dir rn_source rn_address rn_size rn_ranges rn_inline rn_declared rn_result rn_parameters opt64_from] in *.
  exists before, symbol, lines, more, after. split; [exact SY|]. split.
  { rewrite <- EQ. clear - FO. induction FO as [|q qs ls lss H _ IH]; constructor; [exact H|exact IH]. }
  assert (RG : ranges_shown 1 [mkRange low (low + n)] = [Line 1 (txt "address: 0x" ++ hex low ++ txt "-0x" ++ hex (low + n - 1))]).
  { destruct (code_is rf u d None low n L3 CA) as (_ & _ & _ & _ & NZ).
    unfold ranges_shown, range_shown. cbn [rbegin rend]. destruct (N.ltb_spec low (low + n)); [|lia]. reflexivity. }
  rewrite RG in E. rewrite EO, E. f_equal. repeat (cbn [app]; rewrite <- ?app_assoc). reflexivity.
Qed.
Print Assumptions C96_function.

(** ** C97: variables *)

Lemma raw_entries_trans a b c : In b (raw_entries a) -> In c (raw_entries b) -> In c (raw_entries a).
Proof.
  revert b c. induction a as [t o l cs IH] using raw_die_ind'. intros b c Ib Ic. rewrite entries_root in Ib |- *. cbn [rd_children] in *.
  destruct Ib as [<-|Ib]; [now rewrite entries_root in Ic|]. right. apply in_flat_map in Ib. destruct Ib as (x & Ix & Ib).
  apply in_flat_map. exists x. split; [exact Ix|]. now apply (IH x Ix b).
Qed.

Lemma statics_none rf ob u : read_file rf = Some ob -> no_raw_statics u -> no_rust_statics (unit_context ob (read_unit rf u)).
Proof.
  intros RD NS R o s d F I (T & DO). cbn [unit_context cx_rust cx_tree] in *.
  destruct (C91_root rf u) as (_ & _ & LG & _). apply LG in R. specialize (NS R).
  apply find_dies_sound in F. destruct F as (F & _). fold (unit_entries (read_unit rf u)) in F. rewrite read_below in F.
  apply in_map_iff in F. destruct F as (x & <- & Ix). rewrite read_children in I. apply in_map_iff in I. destruct I as (e & <- & Ie).
  rewrite read_tag_of in T. pose proof (tag_number (rd_tag e)) as TN. rewrite T in TN. cbn [tag_codes In] in TN. destruct TN as [TN|[]].
  assert (Je : In e (raw_below u)).
  { unfold raw_below in *. apply in_flat_map in Ix. destruct Ix as (y & Iy & Ix). apply in_flat_map. exists y. split; [exact Iy|].
    apply (raw_entries_trans y x e Ix). rewrite entries_root. right. apply in_flat_map. exists e. split; [exact Ie|]. rewrite entries_root. now left. }
  specialize (NS e Je (eq_sym TN)). unfold declared_only in DO. apply existsb_exists in DO. destruct DO as (a & Ia & A).
  rewrite read_attrs in Ia. apply in_map_iff in Ia. destruct Ia as ((c, v) & <- & Iv).
  destruct (N.eq_dec c 0x3c) as [->|NE]; [apply NS; apply (in_map fst) in Iv; exact Iv|].
  pose proof (read_attr_other rf u (fun a => match a with ADeclaration _ => Some tt | _ => None end) [0x3c] (c, v)) as H.
  destruct (read_attr rf u (c, v)); try discriminate A. discriminate H; [attribute_table|reflexivity|]. intros [X|[]]. now apply NE.
Qed.

Lemma statics_are rf u d : rd_tag d = 0x0d -> ~ lacks 0x3c (rd_attrs d) -> static_member (read_die rf u d).
Proof.
  intros T L. split; [now rewrite read_tag_of, T|]. unfold declared_only. apply existsb_exists.
  destruct (in_dec N.eq_dec 0x3c (map fst (rd_attrs d))) as [J|N]; [|now destruct (L N)].
  apply in_map_iff in J. destruct J as ((c, v) & E & J). cbn [fst] in E. subst c. exists (read_attr rf u (0x3c, v)).
  split; [rewrite read_attrs; now apply in_map|]. now rewrite (read_attr_at rf u 0x3c (fun v => ADeclaration (raw_flag v)) v) by (cbn; tauto).
Qed.

(** The variable of a description is what the values say. *)
Definition variable_holds (rf : raw_file) (ob : object_input) (u : raw_unit) (x : raw_variable) (d : raw_die) (g : dw_variable) : Prop :=
  vr_offset g = ud_begin (ru_place u) + rd_offset d /\ path_opt (vr_namespace g) (rv_path x) /\ namespace_text (vr_namespace g) = path_text (rv_path x) /\
  vr_name g = rv_name x /\ vr_linkage_name g = rv_linkage x /\ ui_dir (read_unit rf u) = rv_dir x /\ vr_source g = rv_source x /\
  vr_address g = opt64_from (rv_address x) /\ (forall a, rv_address x = Some a -> a < u64_max) /\ vr_size g = opt64_none /\
  vr_declaration g = rv_declared x /\ writes ob (vr_ty g) (rv_type x) (rv_size x).
Lemma variable_given rf ob u d x : raw_well_formed rf -> raw_acyclic rf -> read_file rf = Some ob -> In u (rf_units rf) ->
  gives_variable rf u d x ->
  exists g, describes_variable (unit_base (read_unit rf u)) (ui_children (read_unit rf u)) (read_die rf u d) g /\ variable_holds rf ob u x d g.
Proof.
  intros WF AC RD I. induction 1 as [d b path name linkage dir source address t s declared K P ND NN NL SA AA DE TT TB
                                    |d path v e y name linkage source address t s declared T P G R _ IH NN NL SA AA DE TY].
  - destruct (placed_located rf u b path d P) as (outer & ns & L & PO & TX & _ & NB & YB & _).
    assert (AB : forall a, address = Some a -> a < u64_max) by (intros a ->; now inversion AA).
    assert (ST := statics_are rf u d).
    apply named_is in NN. apply linkage_is in NL. apply source_is in SA. apply (address_is rf u) in AA. rewrite <- read_attrs in AA. destruct AA as (A1 & A2).
    apply (declared_is rf u) in DE. rewrite <- read_attrs in DE. apply raw_dir in ND.
    pose proof (writes_given rf ob WF AC RD u I _ _ _ TT TB) as W. rewrite <- read_attrs in W.
    eexists. split.
    { eapply dvar_own; [exact L|reflexivity|]. destruct K as [(T & -> & L1)|(T & -> & L1)].
      - left. split; [now apply NB|]. rewrite read_tag_of, T. split; [reflexivity|]. rewrite read_attrs. now apply variable_specification_none.
      - right. split; [now apply YB|]. now apply ST. }
    unfold variable_holds. cbn [vr_offset vr_namespace vr_name vr_linkage_name vr_ty vr_source vr_address vr_size vr_declaration
      rv_path rv_name rv_linkage rv_dir rv_source rv_address rv_type rv_size rv_declared].
    rewrite read_offset. repeat (split; [first [assumption|reflexivity]|]). exact W.
  - destruct IH as (g & D & H). unfold variable_holds in H. destruct H as (H0 & H1 & H2 & H3 & H4 & H5 & _ & _ & _ & _ & _ & H6).
    destruct (placed_located rf u false path d P) as (outer & ns & L & _ & _ & _ & NB & _). rewrite (NB eq_refl) in L.
    assert (AB : forall a, address = Some a -> a < u64_max) by (intros a ->; now inversion AA).
    apply name_else in NN. apply linkage_else in NL. apply source_is in SA. apply (address_is rf u) in AA. rewrite <- read_attrs in AA. destruct AA as (A1 & A2).
    apply (declared_is rf u) in DE. rewrite <- read_attrs in DE. rewrite <- H3 in NN. rewrite <- H4 in NL.
    apply (type_else rf ob WF AC RD u I d _ _ _ _ _ H6) in TY.
    eexists. split.
    { eapply dvar_refer; [exact L|reflexivity|now rewrite read_tag_of, T| |exact D|now rewrite read_offset].
      rewrite read_attrs. exact (variable_specification_is rf u _ v u e G R). }
    unfold variable_holds. cbn [vr_offset vr_namespace vr_name vr_linkage_name vr_ty vr_source vr_address vr_size vr_declaration
      rv_path rv_name rv_linkage rv_dir rv_source rv_address rv_type rv_size rv_declared].
    rewrite read_offset. repeat (split; [first [assumption|reflexivity]|]). exact TY.
Qed.

(** The variable that an entry describes, and its lines. *)
Lemma variable_described rf ob u d x : raw_well_formed rf -> raw_acyclic rf -> read_file rf = Some ob -> In u (rf_units rf) ->
  gives_variable rf u d x ->
  exists g, describes_variable (unit_base (read_unit rf u)) (ui_children (read_unit rf u)) (read_die rf u d) g /\
    vr_offset g = ud_begin (ru_place u) + rd_offset d /\
    path_opt (vr_namespace g) (rv_path x) /\ vr_name g = rv_name x /\
    (forall o, raw_variable_wanted o x <-> variable_wanted o g) /\
    forall choice o symbol,
      symbol_shown (parse_symbols (ob_symbols ob)) (vr_address g) (own_name (vr_linkage_name g) (vr_name g)) symbol ->
      variable_lines rf o x (variable_piece o (file_view choice ob) (ui_dir (read_unit rf u)) g symbol).
Proof.
  intros WF AC RD I G. destruct (variable_given rf ob u d x WF AC RD I G) as (g & D & H).
  unfold variable_holds in H. destruct H as (HO & PO & TX & HN & HL & HD & HS & HA & AB & HZ & HDe & HW).
  exists g. split; [exact D|]. split; [exact HO|]. split; [exact PO|]. split; [exact HN|]. split.
  - intros o. split.
    2: { intros (AD & NM & NS'). rewrite HDe, HA, HN in *. split; [split; [exact NM|]|].
         - exact (wanted_path o _ _ PO NS').
         - destruct AD as [AD|AD]; [now left|right]. intros X. rewrite X in AD. now apply AD. }
    intros (RW & SH).
    unfold variable_wanted. rewrite HDe, HA, HN. split; [|split; [apply RW|]].
    + destruct SH as [SH|SH]; [now left|right]. destruct (rv_address x) as [a|]; [|now destruct SH]. specialize (AB a eq_refl).
      cbn [opt64_from]. rewrite explicit_get; [discriminate|]. unfold explicit. lia.
    + apply (path_wanted o _ _ PO). apply RW.
  - intros choice o symbol SY. exists symbol. rewrite HA, HL, HN in SY.
    rewrite (raw_symbols rf ob RD) in SY. split; [exact SY|]. unfold variable_piece. rewrite HN, HL, HS, HA, HZ, HDe, HD.
    assert (PN : forall m, path_and_name (vr_namespace g) m = path_text (rv_path x) ++ name_or "<anon>" m) by (intros m; rewrite <- TX; reflexivity). rewrite PN. change (opt64_none =? u64_max) with true. cbv iota.
    destruct (HW choice) as (W1 & W2). rewrite W1, W2, dec_line.
    assert (LA : labelled_line 1 "address" (match known (opt64_from (rv_address x)) with Some a => hex0x a | None => [] end) =
      match rv_address x with Some a => [Line 1 (txt "address: 0x" ++ hex a)] | None => [] end).
    { destruct (rv_address x) as [a|]; [|reflexivity]. specialize (AB a eq_refl). cbn [opt64_from]. unfold known.
      destruct (N.eqb_spec a u64_max); [lia|reflexivity]. }
    rewrite LA. repeat (cbn [app]; rewrite <- ?app_assoc). reflexivity.
Qed.

(** C101: all lines for a variable: one outside of types, a static member, or one that refers to another. *)
Theorem C101_variable : forall c o given fuel choice rf ob out u d x,
  configured c o given -> o_html o = false -> raw_well_formed rf -> raw_acyclic rf -> read_file rf = Some ob ->
  print_output fuel choice o ob = Some out ->
  In u (rf_units rf) -> raw_unit_wanted rf given o u -> c_variable (o_category o) = true -> no_raw_statics u ->
  gives_variable rf u d x -> raw_variable_wanted o x ->
  exists before ls after, variable_lines rf o x ls /\ out = write_lines (before ++ ls ++ after).
Proof.
  intros c o given fuel choice rf ob out u d x C HT WF AC RD OUT I UW CV NS G W.
  destruct (In_nth_error _ _ (unit_in rf ob RD u I)) as (i & Ei).
  destruct (variable_described rf ob u d x WF AC RD I G) as (g & D & _ & _ & _ & FW & FL).
  destruct (C80_variable c o given fuel choice ob i (read_unit rf u) _ g out C HT (C88_well_formed rf ob WF RD) (acyclic_raw rf ob WF RD AC) OUT Ei
    (unit_read_wanted rf given o u UW) CV (statics_none rf ob u RD NS) D (proj1 (FW o) W)) as (before & after & symbol & SY & ->).
  eexists before, _, after. split; [exact (FL choice o symbol SY)|reflexivity].
Qed.
Print Assumptions C101_variable.

(** C97: all lines for a variable, with the type, the address and the size that the values of its attributes say. *)
Theorem C97_variable : forall c o given fuel choice rf ob out u d path name linkage dir source address t s declared,
  configured c o given -> o_html o = false -> raw_well_formed rf -> raw_acyclic rf -> read_file rf = Some ob ->
  print_output fuel choice o ob = Some out ->
  In u (rf_units rf) -> raw_unit_wanted rf given o u -> c_variable (o_category o) = true -> no_raw_statics u ->
  rd_tag d = 0x34 -> placed rf u false path d -> lacks 0x47 (rd_attrs d) ->
  named rf u is_comp_dir (rd_attrs (ru_root u)) dir ->
  named rf u is_name (rd_attrs d) name -> named rf u is_linkage_name (rd_attrs d) linkage ->
  source_at rf u (rd_attrs d) source -> address_at (rd_attrs d) address -> is_declared (rd_attrs d) declared ->
  type_text rf u 0x49 (rd_attrs d) t -> type_bytes rf u (rd_attrs d) s ->
  raw_wanted o path name -> declared = true \/ address <> None ->
  exists before symbol after,
    symbol_shown (parse_symbols (rf_symbols rf)) (opt64_from address) (own_name linkage name) symbol /\
    out = write_lines (before ++
      Line 0 (txt "var " ++ path_text path ++ name_or "<anon>" name ++ txt ": " ++ t) ::
      labelled_line 1 "linkage name" (optional_name linkage) ++ labelled_line 1 "symbol name" (optional_name symbol) ++
      (if p_source (o_print o) then labelled_line 1 "source" (source_text dir source) else []) ++
      match address with Some a => [Line 1 (txt "address: 0x" ++ hex a)] | None => [] end ++
      [Line 1 (txt "size: " ++ dec s)] ++ labelled_line 1 "declaration" (yes declared) ++ [Blank] ++ after).
Proof.
  intros c o given fuel choice rf ob out u d path name linkage dir source address t s declared
    C HT WF AC RD OUT I UW CV NS T P L1 ND NN NL SA AA DE TT TB RW SH.
  destruct (C101_variable c o given fuel choice rf ob out u d (mkRawVariable path name linkage dir source address t s declared) C HT WF AC RD OUT I UW CV NS)
    as (before & ls & after & (symbol & SY & E) & EO).
  { eapply (gv_own rf u d false); eauto. }
  { now split. }
  cbn [rv_path rv_name rv_linkage rv_dir rv_source rv_address rv_type rv_size rv_declared] in *.
  exists before, symbol, after. split; [exact SY|]. rewrite EO, E. f_equal. repeat (cbn [app]; rewrite <- ?app_assoc). reflexivity.
Qed.
Print Assumptions C97_variable.

(** ** Examples *)

Local Open Scope string_scope.
Local Open Scope list_scope.
Local Open Scope N_scope.
Local Notation rf := sample_raw.
Local Notation u := sample_raw_unit.
Local Lemma sample_below d : In d [int_die; geo_die; point_die; const_die; pointer_die; array_die; table_die; word_die; either_die; norm_die; colour_die; derived_die; struct_die; union_die; packet_die] -> In d (raw_below u).
Proof. intros I. cbn in I. repeat (destruct I as [<-|I]); try contradiction; cbn; tauto. Qed.
Local Lemma point_placed d : In d [point_die; colour_die; norm_die] -> placed rf u false [Some "geo"] d.
Proof.
  intros I. apply (pl_namespace rf u [] geo_die (Some "geo") d); [|reflexivity|named_now O|exact I].
  apply pl_top. right. now left.
Qed.
Local Lemma int_text code attrs : gives code attrs (RwUnitRef 20) -> type_text rf u code attrs (txt "int").
Proof.
  intros G. eapply tt_entry; [exact G|apply (rfs_unit rf u int_die)| |]; [cbn; tauto|apply sample_below; now left|].
  eapply (et_base rf u int_die false [] (Some "int")); [reflexivity|apply pl_top; now left|named_now O].
Qed.
Local Lemma int_bytes attrs : gives 0x49 attrs (RwUnitRef 20) -> type_bytes rf u attrs 4.
Proof.
  intros G. eapply tb_entry; [exact G|apply (rfs_unit rf u int_die)| |]; [cbn; tauto|apply sample_below; now left|].
  eapply (eb_given rf u int_die false []); [now left|apply pl_top; now left|number_now 1%nat].
Qed.
Local Lemma point_text attrs : gives 0x49 attrs (RwUnitRef 40) -> type_text rf u 0x49 attrs (txt "struct geo::Point").
Proof.
  intros G. eapply tt_entry; [exact G|apply (rfs_unit rf u point_die)| |]; [cbn; tauto|apply sample_below; cbn; tauto|].
  eapply (et_named rf u point_die false [Some "geo"] (Some "Point") "struct " "<anon>"); [right; now left|apply point_placed; now left|named_now O].
Qed.
Local Lemma pointer_text attrs : gives 0x49 attrs (RwUnitRef 110) -> type_text rf u 0x49 attrs (txt "* const struct geo::Point").
Proof.
  intros G. eapply tt_entry; [exact G|apply (rfs_unit rf u pointer_die)| |]; [cbn; tauto|apply sample_below; cbn; tauto|].
  eapply (et_modifier rf u pointer_die "* " (txt "const struct geo::Point")); [now left|unnamed_now|].
  eapply tt_entry; [gives_now O|apply (rfs_unit rf u const_die)| |]; [cbn; tauto|apply sample_below; cbn; tauto|].
  eapply (et_modifier rf u const_die "const " (txt "struct geo::Point")); [cbn; tauto|unnamed_now|].
  apply point_text. gives_now O.
Qed.
Local Lemma array_text attrs : gives 0x49 attrs (RwUnitRef 120) -> type_text rf u 0x49 attrs (txt "[struct geo::Point; 3]").
Proof.
  intros G. eapply tt_entry; [exact G|apply (rfs_unit rf u array_die)| |]; [cbn; tauto|apply sample_below; cbn; tauto|].
  eapply (et_array rf u array_die (txt "struct geo::Point") [3]); [reflexivity|apply point_text; gives_now O|].
  split; [discriminate|]. constructor; [|constructor]. apply ex_count. number_now O.
Qed.
Local Lemma array_bytes attrs : gives 0x49 attrs (RwUnitRef 120) -> type_bytes rf u attrs 48.
Proof.
  intros G. eapply tb_entry; [exact G|apply (rfs_unit rf u array_die)| |]; [cbn; tauto|apply sample_below; cbn; tauto|].
  eapply (eb_array rf u array_die 16 [3]); [reflexivity|lacks_now| | |reflexivity].
  - eapply tb_entry; [gives_now O|apply (rfs_unit rf u point_die)| |]; [cbn; tauto|apply sample_below; cbn; tauto|].
    eapply (eb_given rf u point_die false [Some "geo"]); [right; now left|apply point_placed; now left|number_now 1%nat].
  - split; [discriminate|]. constructor; [|constructor]. apply ex_count. number_now O.
Qed.
Local Definition sample_printed : text := write_lines
  ([Line 0 (txt "file a.out"); Line 1 (txt "size: 80"); Line 1 (txt "fn size: 32"); Line 1 (txt "var size: 48"); Line 1 (txt "other size: 0"); Blank;
   Line 0 (txt "unit /src/a.cpp"); Line 1 (txt "fn size: 32"); Line 1 (txt "var size: 48"); Blank;
   Line 0 (txt "base int"); Line 1 (txt "size: 4"); Line 1 (txt "encoding: signed"); Blank;
   Line 0 (txt "struct geo::Point"); Line 1 (txt "size: 16"); Line 1 (txt "members:"); Line 2 (txt "0[4]" ++ [9] ++ txt "x: int");
   Line 2 (txt "4[4]" ++ [9] ++ txt "<padding>"); Line 2 (txt "8[4]" ++ [9] ++ txt "y: int"); Line 2 (txt "12[4]" ++ [9] ++ txt "<padding>"); Blank;
   Line 0 (txt "enum geo::Colour"); Line 1 (txt "size: 4"); Line 1 (txt "enumerators:"); Line 2 (txt "Red(0)"); Line 2 (txt "Blue(7)"); Blank;
   Line 0 (txt "type word = int"); Line 1 (txt "size: 4"); Blank;
   Line 0 (txt "union Either"); Line 1 (txt "size: 4"); Line 1 (txt "members:"); Line 2 (txt "0[4]" ++ [9] ++ txt "a: int");
   Line 2 (txt "0[4]" ++ [9] ++ txt "b: word"); Blank;
   Line 0 (txt "struct Derived"); Line 1 (txt "size: 24"); Line 1 (txt "inherits: struct geo::Point"); Line 1 (txt "members:");
   Line 2 (txt "0[16]" ++ [9] ++ txt "<inherit>: struct geo::Point"); Line 2 (txt "16[0.3]" ++ [9] ++ txt "<padding>");
   Line 2 (txt "16.3[0.5]" ++ [9] ++ txt "z: int"); Line 2 (txt "17[7]" ++ [9] ++ txt "<padding>"); Blank;
   Line 0 (txt "type packet = struct <anon>"); Line 1 (txt "size: 8"); Line 1 (txt "members:"); Line 2 (txt "0[4]" ++ [9] ++ txt "n: int");
   Line 2 (txt "4[4]" ++ [9] ++ txt "<anon>: union <anon>"); Line 3 (txt "0[4]" ++ [9] ++ txt "i: int"); Line 3 (txt "0[4]" ++ [9] ++ txt "w: word"); Blank;
   Line 0 (txt "fn geo::norm"); Line 1 (txt "linkage name: _ZN3geo4normEPKNS_5PointEi"); Line 1 (txt "address: 0x1000-0x101f");
   Line 1 (txt "size: 32"); Line 1 (txt "return type:"); Line 2 (txt "[4]" ++ [9] ++ txt "int"); Line 1 (txt "parameters:");
   Line 2 (txt "[8]" ++ [9] ++ txt "p: * const struct geo::Point"); Line 2 (txt "[4]" ++ [9] ++ txt "int"); Blank;
   Line 0 (txt "var table: [struct geo::Point; 3]"); Line 1 (txt "address: 0x2000"); Line 1 (txt "size: 48"); Blank;
   Line 0 (txt "unit <symtab>"); Blank; Line 0 (txt "unit <unknown>"); Blank]).

Example C95_example :
  raw_well_formed rf /\ raw_acyclic rf /\ read_file rf = Some sample_read /\
  entry_text rf u array_die (txt "[struct geo::Point; 3]") /\ entry_bytes rf u array_die 48 /\
  option_map (fun ty => (text_value (vw_ref (file_view sample_first sample_read) (Some ty)), type_size sample_read ty))
    (from_offset (type_at sample_read) 120) = Some (txt "[struct geo::Point; 3]", Some 48).
Proof.
  split; [exact sample_raw_well_formed|]. split; [exact sample_raw_acyclic|]. split; [reflexivity|].
  split; [|split; [|vm_compute; reflexivity]].
  - eapply (et_array rf u array_die (txt "struct geo::Point") [3]); [reflexivity|apply point_text; gives_now O|].
    split; [discriminate|]. constructor; [|constructor]. apply ex_count. number_now O.
  - eapply (eb_array rf u array_die 16 [3]); [reflexivity|lacks_now| | |reflexivity].
    + eapply tb_entry; [gives_now O|apply (rfs_unit rf u point_die)| |]; [cbn; tauto|apply sample_below; cbn; tauto|].
      eapply (eb_given rf u point_die false [Some "geo"]); [right; now left|apply point_placed; now left|number_now 1%nat].
    + split; [discriminate|]. constructor; [|constructor]. apply ex_count. number_now O.
Qed.

Example C96_example :
  configured sample_arguments sample_settings [] /\ o_html sample_settings = false /\
  print_output 9 sample_first sample_settings sample_read = Some sample_printed /\
  In u (rf_units rf) /\ raw_unit_wanted rf [] sample_settings u /\ c_function (o_category sample_settings) = true /\
  placed rf u false [Some "geo"] norm_die /\ lacks 0x47 (rd_attrs norm_die) /\ lacks 0x31 (rd_attrs norm_die) /\ lacks 0x55 (rd_attrs norm_die) /\
  code_at u (rd_attrs norm_die) 0x1000 32 /\ named rf u is_comp_dir (rd_attrs (ru_root u)) (Some "/src") /\
  named rf u is_name (rd_attrs norm_die) (Some "norm") /\
  named rf u is_linkage_name (rd_attrs norm_die) (Some "_ZN3geo4normEPKNS_5PointEi") /\
  source_at rf u (rd_attrs norm_die) (mkSource (Some "inc") (Some "a.h") 9 0) /\
  is_inlined (rd_attrs norm_die) false /\ is_declared (rd_attrs norm_die) false /\
  result_shown rf u (rd_attrs norm_die) [Line 2 (txt "[4]" ++ [9] ++ txt "int")] /\
  Forall2 (parameter_text rf u) (with_raw_tag 0x05 norm_die) [txt "[8]" ++ [9] ++ txt "p: * const struct geo::Point"; txt "[4]" ++ [9] ++ txt "int"] /\
  raw_wanted sample_settings [Some "geo"] (Some "norm") /\ inline_matches (f_function_inline (o_filter sample_settings)) false.
Proof.
  split; [exact sample_settings_from|]. split; [reflexivity|]. split; [vm_compute; reflexivity|]. split; [now left|].
  split; [exists (Some "a.cpp"); split; [named_now O|]; intros f E; discriminate E|]. split; [reflexivity|].
  split; [apply point_placed; cbn; tauto|]. do 3 (split; [lacks_now|]).
  split; [eapply ca_length; [gives_now 5%nat|apply ads_given|discriminate|gives_now 6%nat|discriminate|reflexivity]|].
  split; [named_now 1%nat|]. split; [named_now O|]. split; [named_now 1%nat|].
  split.
  { apply sa_intro.
    - apply (fa_file rf u _ (RwFileIndex 1) (RwString (chars "a.h")) (RwString (chars "inc"))); [gives_now 3%nat| | | |].
      + split; [reflexivity|]. do 3 eexists. do 3 (split; [first [reflexivity|discriminate]|]). exists [], [(RwString (chars "a.cpp"), 0)]. now split.
      + split; [reflexivity|]. do 4 eexists. do 3 (split; [first [reflexivity|discriminate]|]).
        split; [exists [], [(RwString (chars "a.cpp"), 0)]; now split|]. left. exists [], []. now split.
      + apply (sym_string rf u _ (text_of (chars "a.h"))), sys_inline.
      + apply (sym_string rf u _ (text_of (chars "inc"))), sys_inline.
    - apply na_number; [gives_now 4%nat|split; reflexivity].
    - apply na_none. lacks_now. }
  split; [apply isi_none; lacks_now|]. split; [apply isd_none; lacks_now|].
  split.
  { apply (rsh_type rf u _ (RwUnitRef 20) (txt "int") 4); [gives_now 2%nat|apply int_text; gives_now 2%nat|apply int_bytes; gives_now 2%nat]. }
  split.
  { constructor; [|constructor; [|constructor]].
    - apply (pmt_intro rf u p_die (Some "p") (txt "* const struct geo::Point") 8); [named_now O|lacks_now|apply pointer_text; gives_now 1%nat|].
      eapply tb_entry; [gives_now 1%nat|apply (rfs_unit rf u pointer_die)| |]; [cbn; tauto|apply sample_below; cbn; tauto|].
      apply (eb_pointer rf u pointer_die); [now left|lacks_now|reflexivity].
    - apply (pmt_intro rf u second_die None (txt "int") 4); [unnamed_now|lacks_now|apply int_text; gives_now O|apply int_bytes; gives_now O]. }
  split; [split; [intros n E; discriminate E|exists [Some "geo"]; reflexivity]|]. intros n E; discriminate E.
Qed.

Example C97_example :
  c_variable (o_category sample_settings) = true /\ no_raw_statics u /\ placed rf u false [] table_die /\ lacks 0x47 (rd_attrs table_die) /\
  named rf u is_name (rd_attrs table_die) (Some "table") /\ named rf u is_linkage_name (rd_attrs table_die) None /\
  source_at rf u (rd_attrs table_die) (mkSource None None 0 0) /\ address_at (rd_attrs table_die) (Some 0x2000) /\
  is_declared (rd_attrs table_die) false /\ type_text rf u 0x49 (rd_attrs table_die) (txt "[struct geo::Point; 3]") /\
  type_bytes rf u (rd_attrs table_die) 48 /\ raw_wanted sample_settings [] (Some "table").
Proof.
  split; [reflexivity|].
  split.
  { intros (a & (b & e & E & _) & L). exfalso. assert (I : In a (rd_attrs (ru_root u))) by (rewrite E; apply in_app_iff; right; now left).
    cbn in I. repeat (destruct I as [<-|I]; [discriminate L|]). destruct I. }
  split; [apply pl_top; cbn; tauto|]. split; [lacks_now|]. split; [named_now O|]. split; [unnamed_now|].
  split; [apply sa_intro; [apply fa_none|apply na_none|apply na_none]; lacks_now|].
  split; [eapply aa_address; [gives_now 2%nat|reflexivity]|]. split; [apply isd_none; lacks_now|].
  split; [apply array_text; gives_now 1%nat|]. split; [apply array_bytes; gives_now 1%nat|].
  split; [intros n E; discriminate E|exists []; reflexivity].
Qed.

(** C101: methods, static members and copies. *)
Local Lemma refer_placed later d : In d [int_die; stack_die; counter_die; pusher_die; twice_die; copy_die] -> placed (refer_raw later) (refer_raw_unit later) false [] d.
Proof. intros I. apply pl_top. exact I. Qed.
Local Lemma stack_placed later d : In d [count_die; push_die] -> placed (refer_raw later) (refer_raw_unit later) true [Some "Stack"] d.
Proof.
  intros I. apply (pl_type (refer_raw later) (refer_raw_unit later) false [] stack_die (Some "Stack") d); [apply refer_placed; cbn; tauto|now left|named_now O|exact I].
Qed.
Local Lemma refer_int later attrs : gives 0x49 attrs (RwUnitRef 20) ->
  type_text (refer_raw later) (refer_raw_unit later) 0x49 attrs (txt "int") /\ type_bytes (refer_raw later) (refer_raw_unit later) attrs 4.
Proof.
  intros G. split.
  - eapply tt_entry; [exact G|apply (rfs_unit _ (refer_raw_unit later) int_die)| |]; [cbn; tauto|cbn; tauto|].
    eapply (et_base _ _ int_die false [] (Some "int")); [reflexivity|apply refer_placed; now left|named_now O].
  - eapply tb_entry; [exact G|apply (rfs_unit _ (refer_raw_unit later) int_die)| |]; [cbn; tauto|cbn; tauto|].
    eapply (eb_given _ _ int_die false []); [now left|apply refer_placed; now left|number_now 1%nat].
Qed.
Local Ltac refer_result n := apply (rsh_type _ _ _ (RwUnitRef 20) (txt "int") 4); [gives_now n|apply refer_int; gives_now n|apply refer_int; gives_now n].
Local Ltac refer_source := apply sa_intro; [apply fa_none|apply na_none|apply na_none]; lacks_now.
Local Ltac refer_base := eexists; split; [unnamed_now|reflexivity].
Local Definition int_result : list line := [Line 2 (txt "[4]" ++ [9] ++ txt "int")].
Definition push_declared : raw_function :=
  mkRawFunction [Some "Stack"] (Some "push") (Some "_ZN5Stack4pushEi") (Some "/src") (mkSource None None 0 0) None None [] false true
    [Line 2 (txt "[4]" ++ [9] ++ txt "int")] [mkRawParameter 52 None (txt "int") 4].
Definition push_defined (size : N) (ranges : list range) : raw_function :=
  mkRawFunction [Some "Stack"] (Some "push") (Some "_ZN5Stack4pushEi") (Some "/src") (mkSource None None 0 0) (Some 0x1000) (Some size) ranges false false
    [Line 2 (txt "[4]" ++ [9] ++ txt "int")] [mkRawParameter 72 (Some "v") (txt "int") 4].
Local Definition twice_inlined : raw_function :=
  mkRawFunction [] (Some "twice") None (Some "/src") (mkSource None None 0 0) None None [] true false int_result [mkRawParameter 82 (Some "n") (txt "int") 4].
Local Definition twice_copied : raw_function :=
  mkRawFunction [] (Some "twice") None (Some "/src") (mkSource None None 0 0) (Some 0x1040) (Some 16) [mkRange 0x1040 0x1050] false false int_result
    [mkRawParameter 82 (Some "n") (txt "int") 4].
Lemma push_declares later : gives_function (refer_raw later) (refer_raw_unit later) push_die push_declared.
Proof.
  apply (gf_own _ _ _ true).
  - reflexivity.
  - apply stack_placed. cbn. tauto.
  - lacks_now.
  - lacks_now.
  - apply cg_none; lacks_now.
  - named_now 1%nat.
  - named_now O.
  - named_now 1%nat.
  - refer_source.
  - apply isi_none. lacks_now.
  - apply isd_flag. gives_now 3%nat.
  - refer_result 2%nat.
  - change (with_raw_tag 0x05 push_die) with [push_given_die].
    eapply po_new; [lacks_now|unnamed_now|apply refer_int; gives_now O|apply refer_int; gives_now O|]. apply po_none.
Qed.
Lemma push_defines later : gives_function (refer_raw later) (refer_raw_unit later) pusher_die
  (if later then push_defined 48 [mkRange 0x1000 0x1028; mkRange 0x1030 0x1038] else push_defined 40 [mkRange 0x1000 0x1020; mkRange 0x1030 0x1038]).
Proof.
  assert (H : forall size rs, code_given (refer_raw_unit later) (rd_attrs pusher_die) (Some 0x1000) (Some size) rs ->
    gives_function (refer_raw later) (refer_raw_unit later) pusher_die (push_defined size rs)).
  { intros size rs C. apply (gf_refer _ _ _ false [] 0x47 (RwUnitRef 50) push_die push_declared).
    - reflexivity.
    - apply refer_placed. cbn. tauto.
    - left. split; [reflexivity|lacks_now].
    - gives_now O.
    - apply (rfs_unit _ _ push_die). cbn. tauto.
    - apply push_declares.
    - exact C.
    - refer_base.
    - refer_base.
    - eexists. split; [refer_source|reflexivity].
    - apply isi_none. lacks_now.
    - apply isd_none. lacks_now.
    - apply roe_base. lacks_now.
    - change (with_raw_tag 0x05 pusher_die) with [pushed_die].
      eapply po_new; [lacks_now|named_now O|apply refer_int; gives_now 1%nat|apply refer_int; gives_now 1%nat|]. apply po_none. }
  destruct later; apply H; [apply (cg_list _ _ (RwRanges 0) (push_ranges true) [mkRange 0x1000 0x1028; mkRange 0x1030 0x1038] 48)
    |apply (cg_list _ _ (RwRanges 0) (push_ranges false) [mkRange 0x1000 0x1020; mkRange 0x1030 0x1038] 40)];
    [gives_now 1%nat|apply lst_offset; reflexivity|repeat constructor|reflexivity|reflexivity|reflexivity
    |gives_now 1%nat|apply lst_offset; reflexivity|repeat constructor|reflexivity|reflexivity|reflexivity].
Qed.
Local Lemma twice_is later : gives_function (refer_raw later) (refer_raw_unit later) twice_die twice_inlined.
Proof.
  apply (gf_own _ _ _ false).
  - reflexivity.
  - apply refer_placed. cbn. tauto.
  - lacks_now.
  - lacks_now.
  - apply cg_none; lacks_now.
  - named_now 1%nat.
  - named_now O.
  - unnamed_now.
  - refer_source.
  - apply (isi_yes _ 1); [gives_now 2%nat|now left].
  - apply isd_none. lacks_now.
  - refer_result 1%nat.
  - change (with_raw_tag 0x05 twice_die) with [n_given_die].
    eapply po_new; [lacks_now|named_now O|apply refer_int; gives_now 1%nat|apply refer_int; gives_now 1%nat|]. apply po_none.
Qed.
Local Lemma copy_is later : gives_function (refer_raw later) (refer_raw_unit later) copy_die twice_copied.
Proof.
  apply (gf_refer _ _ _ false [] 0x31 (RwUnitRef 80) twice_die twice_inlined).
  - reflexivity.
  - apply refer_placed. cbn. tauto.
  - right. split; [reflexivity|split; lacks_now].
  - gives_now O.
  - apply (rfs_unit _ _ twice_die). cbn. tauto.
  - apply twice_is.
  - apply cg_one; [lacks_now|]. eapply ca_length; [gives_now 1%nat|apply ads_given|discriminate|gives_now 2%nat|discriminate|reflexivity].
  - refer_base.
  - refer_base.
  - eexists. split; [refer_source|reflexivity].
  - apply isi_none. lacks_now.
  - apply isd_none. lacks_now.
  - apply roe_base. lacks_now.
  - change (with_raw_tag 0x05 copy_die) with [copied_die]. cbn [N.eqb Pos.eqb rn_parameters twice_inlined].
    apply (po_known _ _ [] (mkRawParameter 82 (Some "n") (txt "int") 4) [] copied_die (RwUnitRef 82) n_given_die (Some "n") (txt "int") 4).
    + gives_now O.
    + apply (rfs_unit _ _ n_given_die). cbn. tauto.
    + reflexivity.
    + constructor.
    + refer_base.
    + apply toe_base. lacks_now.
    + apply po_none.
Qed.
Local Definition refer_printed : text := write_lines
  ([Line 0 (txt "file before"); Line 1 (txt "size: 84"); Line 1 (txt "fn size: 64"); Line 1 (txt "var size: 4"); Line 1 (txt "other size: 16"); Blank;
    Line 0 (txt "unit /src/s.cpp"); Line 1 (txt "fn size: 64"); Line 1 (txt "var size: 4"); Line 1 (txt "unknown size: 16"); Blank;
    Line 0 (txt "base int"); Line 1 (txt "size: 4"); Line 1 (txt "encoding: signed"); Blank;
    Line 0 (txt "struct Stack"); Line 1 (txt "size: 1"); Blank;
    Line 0 (txt "fn twice"); Line 1 (txt "inline: yes"); Line 1 (txt "return type:"); Line 2 (txt "[4]" ++ [9] ++ txt "int");
    Line 1 (txt "parameters:"); Line 2 (txt "[4]" ++ [9] ++ txt "n: int"); Blank;
    Line 0 (txt "fn Stack::push"); Line 1 (txt "linkage name: _ZN5Stack4pushEi"); Line 1 (txt "addresses:"); Line 2 (txt "0x1000-0x101f (32)");
    Line 2 (txt "0x1030-0x1037 (8)"); Line 1 (txt "size: 40"); Line 1 (txt "return type:"); Line 2 (txt "[4]" ++ [9] ++ txt "int");
    Line 1 (txt "parameters:"); Line 2 (txt "[4]" ++ [9] ++ txt "v: int"); Blank;
    Line 0 (txt "fn twice"); Line 1 (txt "address: 0x1040-0x104f"); Line 1 (txt "size: 16"); Line 1 (txt "return type:"); Line 2 (txt "[4]" ++ [9] ++ txt "int");
    Line 1 (txt "parameters:"); Line 2 (txt "[4]" ++ [9] ++ txt "n: int"); Blank;
    Line 0 (txt "var Stack::count: int"); Line 1 (txt "size: 4"); Line 1 (txt "declaration: yes"); Blank;
    Line 0 (txt "var Stack::count: int"); Line 1 (txt "linkage name: _ZN5Stack5countE"); Line 1 (txt "address: 0x2000"); Line 1 (txt "size: 4"); Blank;
    Line 0 (txt "unit <symtab>"); Blank; Line 0 (txt "unit <unknown>"); Blank]).

Example C101_example :
  raw_well_formed (refer_raw false) /\ raw_acyclic (refer_raw false) /\ read_file (refer_raw false) = Some (refer_read false) /\
  print_output 9 sample_first sample_settings (refer_read false) = Some refer_printed /\ raw_unit_wanted (refer_raw false) [] sample_settings (refer_raw_unit false) /\
  gives_function (refer_raw false) (refer_raw_unit false) push_die push_declared /\ ~ raw_function_wanted sample_settings push_declared /\
  gives_function (refer_raw false) (refer_raw_unit false) pusher_die (push_defined 40 [mkRange 0x1000 0x1020; mkRange 0x1030 0x1038]) /\
  (forall size rs, raw_function_wanted sample_settings (push_defined size rs)) /\
  gives_function (refer_raw false) (refer_raw_unit false) twice_die twice_inlined /\ raw_function_wanted sample_settings twice_inlined /\
  gives_function (refer_raw false) (refer_raw_unit false) copy_die twice_copied /\ raw_function_wanted sample_settings twice_copied.
Proof.
  assert (AN : forall path n, raw_wanted sample_settings path n) by (intros path n; split; [intros m E; discriminate E|exists path; reflexivity]).
  split; [apply refer_well_formed|]. split; [apply refer_acyclic|]. split; [reflexivity|]. split; [vm_compute; reflexivity|].
  split; [exists (Some "s.cpp"); split; [named_now O|]; intros f E; discriminate E|].
  split; [apply push_declares|]. split; [intros ([E|E] & _); [discriminate E|now apply E]|]. split; [exact (push_defines false)|].
  split; [intros size rs; split; [right; discriminate|split; [apply AN|intros n E; discriminate E]]|].
  split; [apply twice_is|]. split; [split; [now left|split; [apply AN|intros n E; discriminate E]]|].
  split; [|split; [right; discriminate|split; [apply AN|intros n E; discriminate E]]].
  apply copy_is.
Qed.
Local Definition count_declared : raw_variable := mkRawVariable [Some "Stack"] (Some "count") None (Some "/src") (mkSource None None 0 0) None (txt "int") 4 true.
Local Definition count_defined : raw_variable :=
  mkRawVariable [Some "Stack"] (Some "count") (Some "_ZN5Stack5countE") (Some "/src") (mkSource None None 0 0) (Some 0x2000) (txt "int") 4 false.
Example C101_example_variable :
  no_raw_statics (refer_raw_unit false) /\
  gives_variable (refer_raw false) (refer_raw_unit false) count_die count_declared /\ raw_variable_wanted sample_settings count_declared /\
  gives_variable (refer_raw false) (refer_raw_unit false) counter_die count_defined /\ raw_variable_wanted sample_settings count_defined.
Proof.
  assert (AN : forall path n, raw_wanted sample_settings path n) by (intros path n; split; [intros m E; discriminate E|exists path; reflexivity]).
  assert (G : gives_variable (refer_raw false) (refer_raw_unit false) count_die count_declared).
  { apply (gv_own _ _ _ true).
    - right. split; [reflexivity|split; [reflexivity|]]. intros L. apply L. cbn. tauto.
    - apply stack_placed. cbn. tauto.
    - named_now 1%nat.
    - named_now O.
    - unnamed_now.
    - refer_source.
    - apply aa_none. lacks_now.
    - apply isd_flag. gives_now 2%nat.
    - apply refer_int. gives_now 1%nat.
    - apply refer_int. gives_now 1%nat. }
  split.
  { intros (a & (b & e & E & _) & L). exfalso. assert (I : In a (rd_attrs (ru_root (refer_raw_unit false)))) by (rewrite E; apply in_app_iff; right; now left).
    cbn in I. repeat (destruct I as [<-|I]; [discriminate L|]). destruct I. }
  split; [exact G|]. split; [split; [apply AN|now left]|]. split; [|split; [apply AN|right; discriminate]].
  apply (gv_refer _ _ _ [] (RwUnitRef 40) count_die count_declared).
  - reflexivity.
  - apply refer_placed. cbn. tauto.
  - gives_now O.
  - apply (rfs_unit _ _ count_die). cbn. tauto.
  - exact G.
  - refer_base.
  - eexists. split; [named_now 1%nat|reflexivity].
  - refer_source.
  - eapply aa_address; [gives_now 2%nat|reflexivity].
  - apply isd_none. lacks_now.
  - apply toe_base. lacks_now.
Qed.
