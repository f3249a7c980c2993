(** From the values of attributes of two files to the lines of their comparison (properties C99 and C100). *)
From Coq Require Import List Arith NArith ZArith Bool String Lia.
From Verif Require Import IgnoreSpec MemberProofs DetailSpec Base BaseProofs RangeModel NamespaceModel NamespaceSpec NamespaceProofs TypeModel TypeSpec TypeProofs LayoutModel FileModel FileSpec FilterModel FilterSpec
  FilterProofs DiffModel PrintModel PrintSpec PrintProofs LocationModel RefModel RefSpec RefProofs ReadModel ReadSpec CodeModel ItemModel ItemSpec OptionsModel EntryModel EntrySpec EntryProofs EntryListed
  IdModel ReportModel ReportSpec DetailModel NameModel MemberSpec WholeModel WholeSpec WholeProofs WholeDepth PropertiesWhole RawModel RawSpec RawProofs PropertiesRaw
  PairModel PairSpec KeptVariables PairItems PropertiesPair EndSpec EndProofs EndTypes PropertiesEnd EndItemSpec EndItems PropertiesEndItems EndPairSpec EndPair EndShort OptionsProofs PropertiesFilter EndSample EndPairSample EndReferSample.
From Verif Require Import DieModel DieSpec PropertiesDie.
Import ListNotations.
Local Open Scope N_scope.

(** ** C99: what is in only one of the files *)

Section Lines.
  Variable choice : N -> nat.
  Variable rf : raw_file.
  Variable ob : object_input.
  Hypothesis WF : raw_well_formed rf.
  Hypothesis AC : raw_acyclic rf.
  Hypothesis RD : read_file rf = Some ob.
  Variable o : options.
  Variable u : raw_unit.
  Hypothesis I : In u (rf_units rf).

  Lemma function_text_lines d x g ls :
    (forall choice o f symbol lines more, function_for (parse_symbols (ob_symbols ob)) g f ->
      symbol_shown (parse_symbols (ob_symbols ob)) (fu_address g) (own_name (fu_linkage_name g) (fu_name g)) symbol ->
      each (formal_shown o (file_scene choice ob) 2) (de_parameters (sc_details (file_scene choice ob) f)) lines ->
      function_lines rf o x (function_head o (file_view choice ob) (ui_dir (read_unit rf u)) g symbol lines ++ more ++ [Blank])) ->
    describes (unit_base (read_unit rf u)) (ui_children (read_unit rf u)) (read_die rf u d) g ->
    function_text choice ob o (read_unit rf u) g ls -> function_lines rf o x ls.
  Proof.
    intros FL _ T. destruct (C86_function_text choice ob o (read_unit rf u) g ls T) as (f & symbol & ps & more & FF & SY & FO & ->).
    exact (FL choice o f symbol ps more FF SY FO).
  Qed.
  Lemma variable_text_lines x g ls :
    (forall choice o symbol, symbol_shown (parse_symbols (ob_symbols ob)) (vr_address g) (own_name (vr_linkage_name g) (vr_name g)) symbol ->
      variable_lines rf o x (variable_piece o (file_view choice ob) (ui_dir (read_unit rf u)) g symbol)) ->
    variable_text choice ob o (read_unit rf u) g ls -> variable_lines rf o x ls.
  Proof. intros FL (symbol & SY & ->). exact (FL choice o symbol SY). Qed.
End Lines.

(** C99: a function, variable or type of the old file, with the values of its attributes, if the new one has no such thing: its lines are marked as gone. *)
Theorem C99_function_gone : forall c o given choose fuel ca cb ra rb a b out seen u d x,
  configured c o given -> o_html o = false ->
  raw_well_formed ra -> raw_acyclic ra -> read_file ra = Some a -> raw_well_formed rb -> raw_acyclic rb -> read_file rb = Some b ->
  compare_output a b choose fuel ca cb o = Some (out, seen) -> i_deleted (o_ignore o) = false ->
  In u (rf_units ra) -> raw_unit_wanted ra given o u -> c_function (o_category o) = true ->
  gives_function ra u d x -> raw_function_wanted o x ->
  raw_nowhere given ra u rb (fun v => raw_no_function o rb v None (rn_path x) (rn_name x)) ->
  seen = true /\ exists ls, function_lines ra o x ls /\ within (with_mark Old ls) out.
Proof.
  intros c o given choose fuel ca cb ra rb a b out seen u d x CO HT WA AA RA WB AB RB E IG I UW CF G W NW.
  destruct (In_nth_error _ _ (unit_in ra a RA u I)) as (i & Ei).
  destruct (function_described ra a u d x WA AA RA I G) as (g & D & _ & PO & NM & _ & FW & FL).
  destruct (C86_function_gone c o given choose fuel ca cb a b out seen i (read_unit ra u) _ g CO HT (C88_well_formed ra a WA RA) (acyclic_raw ra a WA RA AA)
    (C88_well_formed rb b WB RB) (acyclic_raw rb b WB RB AB) E IG Ei (unit_read_wanted ra given o u UW) CF D (proj1 (FW o) W)) as (S & ls & T & WI).
  { apply (nowhere_read given ra u rb b _ _ RB NW). intros v Iv N. rewrite <- NM in N. exact (no_function_read rb b WB AB RB v Iv o None _ g N PO). }
  split; [exact S|]. exists ls. split; [|exact WI]. exact (function_text_lines ca ra a o u d x g ls FL D T).
Qed.
Print Assumptions C99_function_gone.

Theorem C99_variable_gone : forall c o given choose fuel ca cb ra rb a b out seen u d x,
  configured c o given -> o_html o = false ->
  raw_well_formed ra -> raw_acyclic ra -> read_file ra = Some a -> raw_well_formed rb -> raw_acyclic rb -> read_file rb = Some b ->
  compare_output a b choose fuel ca cb o = Some (out, seen) -> i_deleted (o_ignore o) = false ->
  In u (rf_units ra) -> raw_unit_wanted ra given o u -> c_variable (o_category o) = true -> no_raw_statics u ->
  gives_variable ra u d x -> raw_variable_wanted o x ->
  raw_nowhere given ra u rb (fun v => raw_no_variable o rb v None (rv_path x) (rv_name x)) ->
  seen = true /\ exists ls, variable_lines ra o x ls /\ within (with_mark Old ls) out.
Proof.
  intros c o given choose fuel ca cb ra rb a b out seen u d x CO HT WA AA RA WB AB RB E IG I UW CF NS G W NW.
  destruct (In_nth_error _ _ (unit_in ra a RA u I)) as (i & Ei).
  destruct (variable_described ra a u d x WA AA RA I G) as (g & D & _ & PO & NM & FW & FL).
  destruct (C86_variable_gone c o given choose fuel ca cb a b out seen i (read_unit ra u) _ g CO HT (C88_well_formed ra a WA RA) (acyclic_raw ra a WA RA AA)
    (C88_well_formed rb b WB RB) (acyclic_raw rb b WB RB AB) E IG Ei (unit_read_wanted ra given o u UW) CF (statics_none ra a u RA NS) D (proj1 (FW o) W)) as (S & ls & T & WI).
  { apply (nowhere_read given ra u rb b _ _ RB NW). intros v Iv N. rewrite <- NM in N. exact (no_variable_read rb b WB AB RB v Iv o None _ g N PO). }
  split; [exact S|]. exists ls. split; [|exact WI]. exact (variable_text_lines ca ra a o u x g ls FL T).
Qed.
Print Assumptions C99_variable_gone.

(** The type of an entry. *)
Lemma kinds_type rf u d : In (rd_tag d) [0x24; 0x16; 0x13; 0x02; 0x17; 0x04] -> is_type_tag (die_tag (read_die rf u d)) = true.
Proof. intros T. rewrite read_tag_of. cbn [In] in T. repeat (destruct T as [<-|T]; [reflexivity|]). destruct T. Qed.
Lemma kinds_rank d : In (rd_tag d) [0x24; 0x16; 0x13; 0x02; 0x17; 0x04] -> exists k, type_rank (rd_tag d) = Some k.
Proof. intros T. cbn [In] in T. repeat (destruct T as [<-|T]; [eexists; reflexivity|]). destruct T. Qed.
Lemma type_prepared choice rf ob o u d path name ls : raw_well_formed rf -> raw_acyclic rf -> read_file rf = Some ob -> In u (rf_units rf) ->
  gives_type rf o u d path name ls -> shown_alone rf u d -> raw_wanted o (type_path d path) name ->
  (In (rd_tag d) [0x13; 0x02] -> name <> Some "closure"%string) ->
  exists outer ns k, located (unit_base (read_unit rf u)) (ui_children (read_unit rf u)) outer ns (read_die rf u d) /\ outer <> TagEnumeration /\
    is_type_tag (die_tag (read_die rf u d)) = true /\ type_rank (rd_tag d) = Some k /\
    forall t kept, t_offset t = die_offset (read_die rf u d) -> describes_type (unit_context ob (read_unit rf u)) ns (read_die rf u d) (t_kind t) ->
      types_kept ob (read_unit rf u) kept -> type_at ob (t_offset t) = Some t ->
      type_listed o (type_at ob) true (FileModel.mkUnit None [] kept [] []) t /\ type_identity t k (type_path d path, name) /\
      (raw_small rf -> short_type t) /\
      (forall x, t_kind t = TStruct x -> List.length (s_inherits x) = List.length (with_raw_tag 0x1c d)) /\
      forall ls', type_shown o (file_view choice ob) (ui_dir (read_unit rf u)) t ls' -> ls' = ls.
Proof.
  intros WF AC RD I G SA W NC. destruct (gives_kinds choice rf o u d path name ls G) as ((x & P) & T & NN & CN).
  pose proof (kinds_type rf u d T) as TT. destruct (kinds_rank d T) as (k & K). pose proof (placed_below rf u x path d P) as J.
  destruct (placed_located rf u x path d P) as (outer & ns & L & PO & TX & NE & _). exists outer, ns, k. do 4 (split; [assumption|]).
  intros t kept O D KO A. rewrite read_offset in O. pose proof (place_known rf WF u d I J) as PK.
  assert (F : from_offset (type_at ob) (ud_begin (ru_place u) + rd_offset d) = Some t).
  { rewrite O in A. unfold from_offset. destruct (N.eqb_spec (ud_begin (ru_place u) + rd_offset d) type_offset_none) as [X|X]; [contradiction|exact A]. }
  split; [|split; [|split; [|split]]].
  - now apply (type_is_listed choice rf ob WF RD o true u d x path name t ns kept).
  - exact (identity_given rf ob u ns d t path name D PO NN T k K).
  - intros SM. exact (found_short rf ob WF RD SM _ t F).
  - intros y E. rewrite E in D. inversion D as [| |ms ps bs T1 M V B| | |]. subst y. cbn [s_inherits].
    apply Forall2_length_eq in B. rewrite B, read_children, bases_read, map_length. reflexivity.
  - intros ls' SH. destruct (C91_root rf u) as (_ & ND & _). exact (given_lines choice rf ob WF AC RD o u d path name ls I G t ns _ ls' F O D TX ND SH).
Qed.

Theorem C99_type_gone : forall c o given choose fuel ca cb ra rb a b out seen u d path name ls,
  configured c o given -> o_html o = false ->
  raw_well_formed ra -> raw_acyclic ra -> read_file ra = Some a -> raw_well_formed rb -> raw_acyclic rb -> read_file rb = Some b ->
  compare_output a b choose fuel ca cb o = Some (out, seen) -> i_deleted (o_ignore o) = false ->
  In u (rf_units ra) -> raw_unit_wanted ra given o u -> c_type (o_category o) = true ->
  gives_type ra o u d path name ls -> shown_alone ra u d -> raw_wanted o (type_path d path) name ->
  (In (rd_tag d) [0x13; 0x02] -> name <> Some "closure"%string) ->
  raw_nowhere given ra u rb (fun v => raw_no_type rb v None (type_rank (rd_tag d)) (type_path d path) name) ->
  seen = true /\ within (with_mark Old ls) out.
Proof.
  intros c o given choose fuel ca cb ra rb a b out seen u d path name ls CO HT WA AA RA WB AB RB E IG I UW CF G SA W NC NW.
  destruct (In_nth_error _ _ (unit_in ra a RA u I)) as (i & Ei).
  destruct (type_prepared ca ra a o u d path name ls WA AA RA I G SA W NC) as (outer & ns & k & L & NE & TT & K & TP).
  destruct (C86_type_gone c o given choose fuel ca cb a b out seen i (read_unit ra u) outer ns _ CO HT (C88_well_formed ra a WA RA) (acyclic_raw ra a WA RA AA)
    (C88_well_formed rb b WB RB) (acyclic_raw rb b WB RB AB) E IG Ei (unit_read_wanted ra given o u UW) CF L NE TT) as (t & kept & O & D & KO & A & SH).
  destruct (TP t kept O D KO A) as (TL & TI & _ & _ & LN). destruct (SH TL) as (S & ls' & T & WI).
  { apply (nowhere_read given ra u rb b _ _ RB NW). intros v Iv N. rewrite K in N. exact (no_type_read rb b v None t k _ name TI N). }
  split; [exact S|]. now rewrite (LN ls' T) in WI.
Qed.
Print Assumptions C99_type_gone.

(** C99: what is only in the new file is marked as new. *)
Theorem C99_function_new : forall c o given choose fuel ca cb ra rb a b out seen u d x,
  configured c o given -> o_html o = false ->
  raw_well_formed ra -> raw_acyclic ra -> read_file ra = Some a -> raw_well_formed rb -> raw_acyclic rb -> read_file rb = Some b ->
  compare_output a b choose fuel ca cb o = Some (out, seen) -> i_added (o_ignore o) = false ->
  In u (rf_units rb) -> raw_unit_wanted rb given o u -> c_function (o_category o) = true ->
  gives_function rb u d x -> raw_function_wanted o x ->
  raw_nowhere given rb u ra (fun v => raw_no_function o ra v None (rn_path x) (rn_name x)) ->
  seen = true /\ exists ls, function_lines rb o x ls /\ within (with_mark New ls) out.
Proof.
  intros c o given choose fuel ca cb ra rb a b out seen u d x CO HT WA AA RA WB AB RB E IG I UW CF G W NW.
  destruct (In_nth_error _ _ (unit_in rb b RB u I)) as (i & Ei).
  destruct (function_described rb b u d x WB AB RB I G) as (g & D & _ & PO & NM & _ & FW & FL).
  destruct (C86_function_new c o given choose fuel ca cb a b out seen i (read_unit rb u) _ g CO HT (C88_well_formed ra a WA RA) (acyclic_raw ra a WA RA AA)
    (C88_well_formed rb b WB RB) (acyclic_raw rb b WB RB AB) E IG Ei (unit_read_wanted rb given o u UW) CF D (proj1 (FW o) W)) as (S & ls & T & WI).
  { apply (nowhere_read given rb u ra a _ _ RA NW). intros v Iv N. rewrite <- NM in N. exact (no_function_read ra a WA AA RA v Iv o None _ g N PO). }
  split; [exact S|]. exists ls. split; [|exact WI]. exact (function_text_lines cb rb b o u d x g ls FL D T).
Qed.
Print Assumptions C99_function_new.

Theorem C99_variable_new : forall c o given choose fuel ca cb ra rb a b out seen u d x,
  configured c o given -> o_html o = false ->
  raw_well_formed ra -> raw_acyclic ra -> read_file ra = Some a -> raw_well_formed rb -> raw_acyclic rb -> read_file rb = Some b ->
  compare_output a b choose fuel ca cb o = Some (out, seen) -> i_added (o_ignore o) = false ->
  In u (rf_units rb) -> raw_unit_wanted rb given o u -> c_variable (o_category o) = true -> no_raw_statics u ->
  gives_variable rb u d x -> raw_variable_wanted o x ->
  raw_nowhere given rb u ra (fun v => raw_no_variable o ra v None (rv_path x) (rv_name x)) ->
  seen = true /\ exists ls, variable_lines rb o x ls /\ within (with_mark New ls) out.
Proof.
  intros c o given choose fuel ca cb ra rb a b out seen u d x CO HT WA AA RA WB AB RB E IG I UW CF NS G W NW.
  destruct (In_nth_error _ _ (unit_in rb b RB u I)) as (i & Ei).
  destruct (variable_described rb b u d x WB AB RB I G) as (g & D & _ & PO & NM & FW & FL).
  destruct (C86_variable_new c o given choose fuel ca cb a b out seen i (read_unit rb u) _ g CO HT (C88_well_formed ra a WA RA) (acyclic_raw ra a WA RA AA)
    (C88_well_formed rb b WB RB) (acyclic_raw rb b WB RB AB) E IG Ei (unit_read_wanted rb given o u UW) CF (statics_none rb b u RB NS) D (proj1 (FW o) W)) as (S & ls & T & WI).
  { apply (nowhere_read given rb u ra a _ _ RA NW). intros v Iv N. rewrite <- NM in N. exact (no_variable_read ra a WA AA RA v Iv o None _ g N PO). }
  split; [exact S|]. exists ls. split; [|exact WI]. exact (variable_text_lines cb rb b o u x g ls FL T).
Qed.
Print Assumptions C99_variable_new.

Theorem C99_type_new : forall c o given choose fuel ca cb ra rb a b out seen u d path name ls,
  configured c o given -> o_html o = false ->
  raw_well_formed ra -> raw_acyclic ra -> read_file ra = Some a -> raw_well_formed rb -> raw_acyclic rb -> read_file rb = Some b ->
  compare_output a b choose fuel ca cb o = Some (out, seen) -> i_added (o_ignore o) = false ->
  In u (rf_units rb) -> raw_unit_wanted rb given o u -> c_type (o_category o) = true ->
  gives_type rb o u d path name ls -> shown_alone rb u d -> raw_wanted o (type_path d path) name ->
  (In (rd_tag d) [0x13; 0x02] -> name <> Some "closure"%string) ->
  raw_nowhere given rb u ra (fun v => raw_no_type ra v None (type_rank (rd_tag d)) (type_path d path) name) ->
  seen = true /\ within (with_mark New ls) out.
Proof.
  intros c o given choose fuel ca cb ra rb a b out seen u d path name ls CO HT WA AA RA WB AB RB E IG I UW CF G SA W NC NW.
  destruct (In_nth_error _ _ (unit_in rb b RB u I)) as (i & Ei).
  destruct (type_prepared cb rb b o u d path name ls WB AB RB I G SA W NC) as (outer & ns & k & L & NE & TT & K & TP).
  destruct (C86_type_new c o given choose fuel ca cb a b out seen i (read_unit rb u) outer ns _ CO HT (C88_well_formed ra a WA RA) (acyclic_raw ra a WA RA AA)
    (C88_well_formed rb b WB RB) (acyclic_raw rb b WB RB AB) E IG Ei (unit_read_wanted rb given o u UW) CF L NE TT) as (t & kept & O & D & KO & A & SH).
  destruct (TP t kept O D KO A) as (TL & TI & _ & _ & LN). destruct (SH TL) as (S & ls' & T & WI).
  { apply (nowhere_read given rb u ra a _ _ RA NW). intros v Iv N. rewrite K in N. exact (no_type_read ra a v None t k _ name TI N). }
  split; [exact S|]. now rewrite (LN ls' T) in WI.
Qed.
Print Assumptions C99_type_new.

(** ** C100: what is in both files *)

(** C100: a variable or type that is in both files, and matches nothing else: the lines that are not marked as new are those of the old file, up to headings,
    and those not marked as old those of the new file. They are in the report, and the run has seen a difference, if they differ. *)
Theorem C100_variable : forall c o given choose fuel ca cb ra rb a b out seen u v d x e y,
  configured c o given -> o_html o = false ->
  raw_well_formed ra -> raw_acyclic ra -> read_file ra = Some a -> raw_well_formed rb -> raw_acyclic rb -> read_file rb = Some b ->
  compare_output a b choose fuel ca cb o = Some (out, seen) ->
  raw_only_unit given ra u rb v -> raw_only_unit given rb v ra u -> raw_unit_wanted ra given o u -> raw_unit_wanted rb given o v ->
  c_variable (o_category o) = true -> no_raw_statics u -> no_raw_statics v ->
  gives_variable ra u d x -> raw_variable_wanted o x -> gives_variable rb v e y -> raw_variable_wanted o y ->
  rv_path x = rv_path y -> rv_name x = rv_name y ->
  raw_no_variable o ra u (Some (rd_offset d)) (rv_path y) (rv_name y) -> raw_no_variable o rb v (Some (rd_offset e)) (rv_path x) (rv_name x) ->
  exists old new ls, variable_lines ra o x old /\ variable_lines rb o y new /\
    plus_headings old (old_lines ls) /\ plus_headings new (new_lines ls) /\
    (within ls out /\ seen = true \/
     heeded (ignored_of_variable (o_ignore o)) old = heeded (ignored_of_variable (o_ignore o)) new).
Proof.
  intros c o given choose fuel ca cb ra rb a b out seen u v d x e y CO HT WA AA RA WB AB RB E OU OV UW VW CF NSu NSv G W H V EP EN NA NB.
  pose proof (only_in _ _ _ _ _ OU) as I. pose proof (only_in _ _ _ _ _ OV) as J.
  destruct (variable_described ra a u d x WA AA RA I G) as (g & D & O & PO & NM & FW & FL).
  destruct (variable_described rb b v e y WB AB RB J H) as (h & D' & O' & PO' & NM' & FW' & FL').
  destruct (C86_variable_compared c o given choose fuel ca cb a b out seen (read_unit ra u) (read_unit rb v) _ g _ h CO HT
    (C88_well_formed ra a WA RA) (acyclic_raw ra a WA RA AA) (C88_well_formed rb b WB RB) (acyclic_raw rb b WB RB AB) E
    (only_read given ra a u rb v RA OU) (only_read given rb b v ra u RB OV) (unit_read_wanted ra given o u UW) (unit_read_wanted rb given o v VW) CF
    (statics_none ra a u RA NSu) (statics_none rb b v RB NSv) D D' (proj1 (FW o) W) (proj1 (FW' o) V)) as (old & new & ls & T & T' & P1 & P2 & R).
  - split; [|congruence]. exists (rv_path x). split; [exact PO|now rewrite EP].
  - rewrite O. rewrite <- NM' in NA. exact (no_variable_read ra a WA AA RA u I o (Some (rd_offset d)) _ h NA PO').
  - rewrite O'. rewrite <- NM in NB. exact (no_variable_read rb b WB AB RB v J o (Some (rd_offset e)) _ g NB PO).
  - exists old, new, ls. split; [exact (variable_text_lines ca ra a o u x g old FL T)|]. split; [exact (variable_text_lines cb rb b o v y h new FL' T')|]. auto.
Qed.
Print Assumptions C100_variable.

Theorem C100_type : forall c o given choose fuel ca cb ra rb a b out seen u v d path name old e new,
  configured c o given -> o_html o = false ->
  raw_well_formed ra -> raw_acyclic ra -> read_file ra = Some a -> raw_well_formed rb -> raw_acyclic rb -> read_file rb = Some b ->
  raw_small ra -> raw_small rb -> compare_output a b choose fuel ca cb o = Some (out, seen) ->
  raw_only_unit given ra u rb v -> raw_only_unit given rb v ra u -> raw_unit_wanted ra given o u -> raw_unit_wanted rb given o v ->
  c_type (o_category o) = true ->
  gives_type ra o u d path name old -> shown_alone ra u d -> gives_type rb o v e path name new -> shown_alone rb v e ->
  type_rank (rd_tag d) = type_rank (rd_tag e) -> raw_wanted o (type_path d path) name ->
  (In (rd_tag d) [0x13; 0x02] -> name <> Some "closure"%string /\ raw_bases_alike d e) ->
  raw_no_type ra u (Some (rd_offset d)) (type_rank (rd_tag d)) (type_path d path) name ->
  raw_no_type rb v (Some (rd_offset e)) (type_rank (rd_tag d)) (type_path d path) name ->
  exists ls, plus_headings old (old_lines ls) /\ plus_headings new (new_lines ls) /\ (within ls out /\ seen = true \/ old = new).
Proof.
  intros c o given choose fuel ca cb ra rb a b out seen u v d path name old e new CO HT WA AA RA WB AB RB SMa SMb E OU OV UW VW CF G SA H SB RK W NC NA NB.
  pose proof (only_in _ _ _ _ _ OU) as I. pose proof (only_in _ _ _ _ _ OV) as J.
  destruct (gives_kinds ca ra o u d path name old G) as (_ & T & _). destruct (gives_kinds cb rb o v e path name new H) as (_ & T' & _).
  assert (TP' : type_path e path = type_path d path).
  { unfold type_path. cbn [In] in T, T'. destruct T as [T|[T|[T|[T|[T|[T|[]]]]]]], T' as [T'|[T'|[T'|[T'|[T'|[T'|[]]]]]]];
      rewrite <- T, <- T' in *; try reflexivity; discriminate RK. }
  assert (ST : In (rd_tag e) [0x13; 0x02] -> In (rd_tag d) [0x13; 0x02]).
  { clear - T T' RK. intros X. cbn [In] in *. destruct T as [T|[T|[T|[T|[T|[T|[]]]]]]]; rewrite <- T in *; auto; destruct X as [X|[X|[]]]; rewrite <- X in RK; discriminate RK. }
  destruct (type_prepared ca ra a o u d path name old WA AA RA I G SA W (fun X => proj1 (NC X))) as (outer & ns & k & L & NE & TT & K & TP).
  rewrite <- TP' in W.
  destruct (type_prepared cb rb b o v e path name new WB AB RB J H SB W (fun X => proj1 (NC (ST X)))) as (outer' & ns' & k' & L' & NE' & TT' & K' & TQ).
  assert (k' = k) by congruence. subst k'.
  destruct (C86_type_compared c o given choose fuel ca cb a b out seen (read_unit ra u) (read_unit rb v) outer ns _ outer' ns' _ CO HT
    (C88_well_formed ra a WA RA) (acyclic_raw ra a WA RA AA) (C88_well_formed rb b WB RB) (acyclic_raw rb b WB RB AB) E
    (only_read given ra a u rb v RA OU) (only_read given rb b v ra u RB OV) (unit_read_wanted ra given o u UW) (unit_read_wanted rb given o v VW) CF
    L NE TT L' NE' TT' (view_short ca ra a WA RA SMa) (view_short cb rb b WB RB SMb)) as (t & kept & s & kept' & O & D & KO & A & O' & D' & KO' & A' & SH).
  destruct (TP t kept O D KO A) as (TL & TI & SHa & BA & LN). destruct (TQ s kept' O' D' KO' A') as (TL' & TI' & SHb & BB & LN').
  rewrite TP' in TI'.
  destruct (SH TL TL') as (old' & new' & ls & S1 & S2 & P1 & P2 & R).
  - exists k, (type_path d path, name). now split.
  - rewrite O, read_offset. rewrite K in NA. exact (no_type_read ra a u (Some (rd_offset d)) s k _ name TI' NA).
  - rewrite O', read_offset. rewrite K in NB. exact (no_type_read rb b v (Some (rd_offset e)) t k _ name TI NB).
  - unfold bases_alike. destruct (t_kind t) as [| | |x| | | | | | | |] eqn:Kt; try exact Logic.I. destruct (t_kind s) as [| | |y| | | | | | | |] eqn:Ks; try exact Logic.I.
    rewrite (BA x eq_refl), (BB y eq_refl). apply NC. inversion D as [| |ms ps bs T1 M V B KK| | |]. rewrite read_tag_of in T1.
    destruct T1 as [T1|T1]; [left; symmetry; exact (proj1 (tag_iff 0x13 TagStructure eq_refl eq_refl _) T1)|right; left; symmetry; exact (proj1 (tag_iff 0x02 TagClass eq_refl eq_refl _) T1)].
  - exact (SHa SMa).
  - exact (SHb SMb).
  - rewrite (LN old' S1) in *. rewrite (LN' new' S2) in *. exists ls. auto.
Qed.
Print Assumptions C100_type.

Lemma ordered_lines choice rf ob o fuel u d x g f p : raw_well_formed rf -> read_file rf = Some ob -> In u (rf_units rf) ->
  describes (unit_base (read_unit rf u)) (ui_children (read_unit rf u)) (read_die rf u d) g ->
  (forall choice o f symbol lines more, function_for (parse_symbols (ob_symbols ob)) g f ->
    symbol_shown (parse_symbols (ob_symbols ob)) (fu_address g) (own_name (fu_linkage_name g) (fu_name g)) symbol ->
    each (formal_shown o (file_scene choice ob) 2) (de_parameters (sc_details (file_scene choice ob) f)) lines ->
    function_lines rf o x (function_head o (file_view choice ob) (ui_dir (read_unit rf u)) g symbol lines ++ more ++ [Blank])) ->
  function_for (parse_symbols (ob_symbols ob)) g f ->
  printed_up_to_order o fuel (file_scene choice ob) (ui_dir (read_unit rf u)) f p ->
  function_lines rf o x (PrintSpec.lines (N.to_nat (o_inline_depth o)) 0 p).
Proof.
  intros WF RD I D FL FF (vars & inner & _ & _ & E).
  destruct (listed_printed o fuel (file_scene choice ob) (ui_dir (read_unit rf u)) f vars inner p (N.to_nat (o_inline_depth o)) E) as (ps & more & FO & EL).
  pose proof (C88_well_formed rf ob WF RD) as OW. pose proof (unit_in rf ob RD u I) as Iu.
  pose proof (C35_resolved _ _ _ _ g (unit_distinct ob OW _ Iu) (items_read ob (read_unit rf u)) D) as Ig.
  pose proof FF as (F0 & F1 & F2 & F3 & F4 & F5 & F6 & F7 & F8 & F9).
  specialize (FL choice o f (fn_symbol_name f) ps more FF F9 FO).
  assert (X : PrintSpec.lines (N.to_nat (o_inline_depth o)) 0 p =
    function_head o (file_view choice ob) (ui_dir (read_unit rf u)) g (fn_symbol_name f) ps ++ more ++ [Blank]); [|now rewrite X].
  rewrite EL. unfold function_head, function_name, returns_shown, return_shown, yes, optional_name.
  assert (R : sc_return (file_scene choice ob) f = fu_return g).
  { cbn [file_scene sc_return]. now rewrite F0, (read_function_in ob OW _ g Iu Ig). }
  assert (S : sc_function_source (file_scene choice ob) f = fu_source g).
  { cbn [file_scene sc_function_source]. now rewrite F0, (read_function_in ob OW _ g Iu Ig). }
  rewrite R, S, F1, F2, F3, F5, F6, F7, F8. cbn [file_scene sc_view]. repeat (cbn [app]; rewrite <- ?app_assoc). reflexivity.
Qed.

(** C100: a function that is in both files; as C86 has it, the lists of a function have fewer than 2^60 items, and no variable has several places if they are shown. *)
Theorem C100_function : forall c o given choose fuel ca cb ra rb a b out seen ta tb u v d x e y,
  configured c o given -> o_html o = false ->
  raw_well_formed ra -> raw_acyclic ra -> read_file ra = Some a -> raw_well_formed rb -> raw_acyclic rb -> read_file rb = Some b ->
  compare_output a b choose fuel ca cb o = Some (out, seen) ->
  print_output fuel ca o a = Some ta -> print_output fuel cb o b = Some tb ->
  raw_only_unit given ra u rb v -> raw_only_unit given rb v ra u -> raw_unit_wanted ra given o u -> raw_unit_wanted rb given o v ->
  c_function (o_category o) = true ->
  gives_function ra u d x -> raw_function_wanted o x -> gives_function rb v e y -> raw_function_wanted o y ->
  rn_path x = rn_path y -> rn_name x = rn_name y ->
  raw_no_function o ra u (Some (rd_offset d)) (rn_path y) (rn_name y) -> raw_no_function o rb v (Some (rd_offset e)) (rn_path x) (rn_name x) ->
  ranges_alike (rn_ranges x) (rn_ranges y) ->
  (forall f, fn_offset f = ud_begin (ru_place u) + rd_offset d ->
    short_function (file_scene ca a) f /\ settled_details o (sc_details (file_scene ca a) f)) ->
  (forall f, fn_offset f = ud_begin (ru_place v) + rd_offset e ->
    short_function (file_scene cb b) f /\ settled_details o (sc_details (file_scene cb b) f)) ->
  exists old new ls, function_lines ra o x old /\ function_lines rb o y new /\
    plus_headings old (old_lines ls) /\ plus_headings new (new_lines ls) /\
    (within ls out /\ seen = true \/
     (heeds_functions o -> old = new) /\
     forall label, In label function_fields -> ~ In label (ignored_of_function (o_ignore o)) -> with_label label old = with_label label new).
Proof.
  intros c o given choose fuel ca cb ra rb a b out seen ta tb u v d x e y CO HT WA AA RA WB AB RB E PA PB OU OV UW VW CF G W H V EP EN NA NB RL SA SB.
  pose proof (only_in _ _ _ _ _ OU) as I. pose proof (only_in _ _ _ _ _ OV) as J.
  destruct (function_described ra a u d x WA AA RA I G) as (g & D & O & PO & NM & RG & FW & FL).
  destruct (function_described rb b v e y WB AB RB J H) as (h & D' & O' & PO' & NM' & RG' & FW' & FL').
  destruct (C86_function_compared c o given choose fuel ca cb a b out seen ta tb (read_unit ra u) (read_unit rb v) _ g _ h CO HT
    (C88_well_formed ra a WA RA) (acyclic_raw ra a WA RA AA) (C88_well_formed rb b WB RB) (acyclic_raw rb b WB RB AB) E PA PB
    (only_read given ra a u rb v RA OU) (only_read given rb b v ra u RB OV) (unit_read_wanted ra given o u UW) (unit_read_wanted rb given o v VW) CF
    D D' (proj1 (FW o) W) (proj1 (FW' o) V)) as (f & k & Ff & Fk & CM).
  - split; [|congruence]. exists (rn_path x). split; [exact PO|now rewrite EP].
  - rewrite O. rewrite <- NM' in NA. exact (no_function_read ra a WA AA RA u I o (Some (rd_offset d)) _ h NA PO').
  - rewrite O'. rewrite <- NM in NB. exact (no_function_read rb b WB AB RB v J o (Some (rd_offset e)) _ g NB PO).
  - assert (Of : fn_offset f = ud_begin (ru_place u) + rd_offset d) by (rewrite <- O; apply Ff).
    assert (Ok : fn_offset k = ud_begin (ru_place v) + rd_offset e) by (rewrite <- O'; apply Fk).
    destruct (SA f Of) as (SA1 & SA2). destruct (SB k Ok) as (SB1 & SB2).
    destruct (CM SA1 SB1 SA2 SB2) as (p & q & ls & P1 & P2 & H1 & H2 & R).
    { now rewrite RG, RG'. }
    eexists _, _, ls. split; [exact (ordered_lines ca ra a o fuel u d x g f p WA RA I D FL Ff P1)|].
    split; [exact (ordered_lines cb rb b o fuel v e y h k q WB RB J D' FL' Fk P2)|]. split; [exact H1|]. split; [exact H2|exact R].
Qed.
Print Assumptions C100_function.

(** ** Examples *)

Local Open Scope string_scope.
Local Open Scope list_scope.
Local Open Scope N_scope.

Local Definition pair_lines : list (mark * line) :=
  [(Old, Line 0 (txt "file before")); (New, Line 0 (txt "file after")); (Old, Line 1 (txt "size: 72")); (New, Line 1 (txt "size: 76 (+4)"));
   (Old, Line 1 (txt "fn size: 48")); (New, Line 1 (txt "fn size: 64 (+16)")); (Old, Line 1 (txt "var size: 8")); (New, Line 1 (txt "var size: 12 (+4)"));
   (Old, Line 1 (txt "other size: 16")); (New, Line 1 (txt "other size: 0 (-16)")); (Same, Blank);
   (Same, Line 0 (txt "unit /src/a.c")); (Old, Line 1 (txt "fn size: 48")); (New, Line 1 (txt "fn size: 64 (+16)"));
   (Old, Line 1 (txt "var size: 8")); (New, Line 1 (txt "var size: 12 (+4)")); (Old, Line 1 (txt "unknown size: 16"));
   (New, Line 1 (txt "unknown size: 0 (-16)")); (Same, Blank);
   (Same, Line 0 (txt "struct Pair")); (Old, Line 1 (txt "size: 4")); (New, Line 1 (txt "size: 8")); (Same, Line 1 (txt "members:"));
   (Same, Line 2 (txt "0[4]" ++ [9] ++ txt "x: int")); (New, Line 2 (txt "4[4]" ++ [9] ++ txt "y: int")); (Same, Blank);
   (New, Line 0 (txt "type fresh = int")); (New, Line 1 (txt "size: 4")); (Same, Blank);
   (Old, Line 0 (txt "type old = int")); (Old, Line 1 (txt "size: 4")); (Same, Blank);
   (Same, Line 0 (txt "fn sum")); (Old, Line 1 (txt "address: 0x1000-0x101f")); (New, Line 1 (txt "address: 0x1000-0x102f"));
   (Old, Line 1 (txt "size: 32")); (New, Line 1 (txt "size: 48")); (Same, Line 1 (txt "return type:")); (Same, Line 2 (txt "[4]" ++ [9] ++ txt "int")); (Same, Blank);
   (New, Line 0 (txt "fn next")); (New, Line 1 (txt "address: 0x1030-0x103f")); (New, Line 1 (txt "size: 16")); (New, Line 1 (txt "return type:"));
   (New, Line 2 (txt "[4]" ++ [9] ++ txt "int")); (Same, Blank);
   (Old, Line 0 (txt "fn past")); (Old, Line 1 (txt "address: 0x1030-0x103f")); (Old, Line 1 (txt "size: 16")); (Old, Line 1 (txt "return type:"));
   (Old, Line 2 (txt "[4]" ++ [9] ++ txt "int")); (Same, Blank);
   (New, Line 0 (txt "var extra: int")); (New, Line 1 (txt "address: 0x2000")); (New, Line 1 (txt "size: 4")); (Same, Blank);
   (Old, Line 0 (txt "var lost: int")); (Old, Line 1 (txt "address: 0x2000")); (Old, Line 1 (txt "size: 4")); (Same, Blank);
   (Old, Line 0 (txt "var kept: int")); (New, Line 0 (txt "var kept: struct Pair")); (Same, Line 1 (txt "address: 0x2008"));
   (Old, Line 1 (txt "size: 4")); (New, Line 1 (txt "size: 8")); (Same, Blank)].

Local Notation rf := pair_raw.
Local Notation u := pair_raw_unit.
Local Definition at_once (l1 l2 : list N) (m : list (list N)) (n : nat) : nat := O.
Local Lemma top later d : In d [int_die; pair_die later; gone_die later; kept_die later; sum_die later; past_die later; old_die later] ->
  placed (rf later) (u later) false [] d /\ In d (raw_below (u later)).
Proof.
  intros I. split; [now apply pl_top|]. destruct later; cbn in I; repeat (destruct I as [<-|I]); try contradiction; cbn; tauto.
Qed.
Local Lemma pair_int_text later code attrs : gives code attrs (RwUnitRef 20) -> type_text (rf later) (u later) code attrs (txt "int").
Proof.
  intros G. destruct (top later int_die) as (P & B); [now left|]. eapply tt_entry; [exact G|apply (rfs_unit (rf later) (u later) int_die)|exact B|]; [cbn; tauto|].
  eapply (et_base (rf later) (u later) int_die false [] (Some "int")); [reflexivity|exact P|named_now O].
Qed.
Local Lemma pair_int_bytes later attrs : gives 0x49 attrs (RwUnitRef 20) -> type_bytes (rf later) (u later) attrs 4.
Proof.
  intros G. destruct (top later int_die) as (P & B); [now left|]. eapply tb_entry; [exact G|apply (rfs_unit (rf later) (u later) int_die)|exact B|]; [cbn; tauto|].
  eapply (eb_given (rf later) (u later) int_die false []); [now left|exact P|number_now 1%nat].
Qed.
Local Lemma pair_text attrs : gives 0x49 attrs (RwUnitRef 30) -> type_text (rf true) (u true) 0x49 attrs (txt "struct Pair").
Proof.
  intros G. destruct (top true (pair_die true)) as (P & B); [right; now left|].
  eapply tt_entry; [exact G|apply (rfs_unit (rf true) (u true) (pair_die true))|exact B|]; [cbn; tauto|].
  eapply (et_named (rf true) (u true) (pair_die true) false [] (Some "Pair") "struct " "<anon>"); [right; now left|exact P|named_now O].
Qed.
Local Lemma pair_bytes attrs : gives 0x49 attrs (RwUnitRef 30) -> type_bytes (rf true) (u true) attrs 8.
Proof.
  intros G. destruct (top true (pair_die true)) as (P & B); [right; now left|].
  eapply tb_entry; [exact G|apply (rfs_unit (rf true) (u true) (pair_die true))|exact B|]; [cbn; tauto|].
  eapply (eb_given (rf true) (u true) (pair_die true) false []); [right; now left|exact P|number_now 1%nat].
Qed.
Local Lemma no_place later d : existsb (N.eqb 0x3a) (map fst (rd_attrs d)) = false -> existsb (N.eqb 0x3b) (map fst (rd_attrs d)) = false ->
  existsb (N.eqb 0x39) (map fst (rd_attrs d)) = false -> source_at (rf later) (u later) (rd_attrs d) (mkSource None None 0 0).
Proof. intros A B C. apply sa_intro; [apply fa_none|apply na_none|apply na_none]; now apply lacks_all. Qed.
Local Lemma any_path n : raw_wanted sample_settings [] n.
Proof. split; [intros m E; discriminate E|exists []; reflexivity]. Qed.
Local Lemma unit_kept later : raw_unit_wanted (rf later) [] sample_settings (u later).
Proof. exists (Some "a.c"). split; [named_now O|]. intros f E. discriminate E. Qed.
Local Lemma plain_statics later : no_raw_statics (u later).
Proof.
  intros (a & (b & e & E & _) & L). exfalso. assert (I : In a (rd_attrs (ru_root (u later)))) by (rewrite E; apply in_app_iff; right; now left).
  cbn in I. repeat (destruct I as [<-|I]; [discriminate L|]). destruct I.
Qed.
Local Lemma same_paths v w : same_unit [] v w <-> unit_path sample_settings v = unit_path sample_settings w.
Proof.
  assert (M : maps [] sample_settings) by exact (configured_maps _ _ _ sample_settings_from). split.
  - intros (p & A & B). apply (match_path_iff _ _ _ _ M) in A, B. congruence.
  - intros E. exists (unit_path sample_settings v). split; apply (match_path_iff _ _ _ _ M); congruence.
Qed.
Local Lemma elsewhere (from to : bool) (without : raw_unit -> Prop) : without (u to) -> raw_nowhere [] (rf from) (u from) (rf to) without.
Proof.
  intros W. exists (Some "a.c"). split; [named_now O|]. split; [rewrite same_paths; discriminate|]. intros v n [<-|[]] _ _. exact W.
Qed.
Local Lemma only_one from to : raw_only_unit [] (rf from) (u from) (rf to) (u to).
Proof.
  exists (Some "a.c"), (Some "a.c"). split; [named_now O|]. split; [named_now O|]. split; [now apply same_paths|].
  do 2 (split; [rewrite same_paths; discriminate|]). exists [], []. split; [reflexivity|intros z k []].
Qed.
Local Lemma below_listed later e : In e (raw_below (u later)) ->
  In e ([int_die; pair_die later; pair_x] ++ (if later then [pair_y] else []) ++ [gone_die later; kept_die later; sum_die later; past_die later; old_die later]).
Proof. destruct later; exact (fun I => I). Qed.
Local Ltac others :=
  intros e I T N; apply below_listed in I; cbn [app] in I;
  repeat (destruct I as [<-|I]; [first [discriminate T|now destruct N|left; eexists; split; [named_now O|let E := fresh in intros E; vm_compute in E; discriminate E]]|]);
  destruct I.
Local Ltac other_variables :=
  intros e I T N; apply below_listed in I; cbn [app] in I;
  repeat (destruct I as [<-|I]; [first [now destruct N|destruct T as [(_ & T)|(T & L)]; [discriminate T|first [discriminate T|exfalso; apply L; lacks_now]]
    |left; eexists; split; [named_now O|let E := fresh in intros E; vm_compute in E; discriminate E]]|]);
  destruct I.

(** What the comparison of the files prints. *)
Example C99_example :
  configured sample_arguments sample_settings [] /\ (forall later, raw_well_formed (rf later) /\ raw_acyclic (rf later) /\ read_file (rf later) = Some (pair_read later)) /\
  compare_output (pair_read false) (pair_read true) at_once 9 sample_first sample_first sample_settings = Some (write_marked pair_lines, true).
Proof.
  split; [exact sample_settings_from|]. split; [|vm_compute; reflexivity].
  intros later. split; [apply pair_well_formed|]. split; [apply pair_acyclic|]. destruct later; reflexivity.
Qed.

Local Definition plain_function (name : string) (low size : N) : raw_function :=
  mkRawFunction [] (Some name) None (Some "/src") (mkSource None None 0 0) (Some low) (Some size) [mkRange low (low + size)] false false [Line 2 (txt "[4]" ++ [9] ++ txt "int")] [].
Local Ltac a_function :=
  eapply (gf_own _ _ _ false);
  [reflexivity|apply top; cbn; tauto|lacks_now|lacks_now
  |apply cg_one; [lacks_now|eapply ca_length; [gives_now 2%nat|apply ads_given|discriminate|gives_now 3%nat|discriminate|reflexivity]]
  |named_now 1%nat|named_now O|unnamed_now|apply no_place; reflexivity|apply isi_none; lacks_now|apply isd_none; lacks_now
  |apply (rsh_type _ _ _ (RwUnitRef 20) (txt "int") 4); [gives_now 1%nat|apply pair_int_text; gives_now 1%nat|apply pair_int_bytes; gives_now 1%nat]|apply po_none].
Example C99_function_example :
  gives_function (rf false) (u false) (past_die false) (plain_function "past" 0x1030 16) /\
  raw_nowhere [] (rf false) (u false) (rf true) (fun v => raw_no_function sample_settings (rf true) v None [] (Some "past")) /\
  gives_function (rf true) (u true) (past_die true) (plain_function "next" 0x1030 16) /\
  raw_nowhere [] (rf true) (u true) (rf false) (fun v => raw_no_function sample_settings (rf false) v None [] (Some "next")) /\
  (forall later, raw_unit_wanted (rf later) [] sample_settings (u later)) /\ (forall name low size, raw_function_wanted sample_settings (plain_function name low size)).
Proof.
  split; [a_function|]. split; [apply elsewhere; others|]. split; [a_function|]. split; [apply elsewhere; others|]. split; [apply unit_kept|].
  intros name low size. split; [right; discriminate|]. split; [apply any_path|intros n E; discriminate E].
Qed.
Local Definition plain_variable (name : string) (address : N) (t : string) (size : N) : raw_variable :=
  mkRawVariable [] (Some name) None (Some "/src") (mkSource None None 0 0) (Some address) (txt t) size false.
Local Ltac a_variable text bytes :=
  eapply (gv_own _ _ _ false);
  [left; split; [reflexivity|split; [reflexivity|lacks_now]]|apply top; cbn; tauto|named_now 1%nat|named_now O|unnamed_now|apply no_place; reflexivity
  |eapply aa_address; [gives_now 2%nat|reflexivity]|apply isd_none; lacks_now|apply text; gives_now 1%nat|apply bytes; gives_now 1%nat].
Example C99_variable_example :
  gives_variable (rf false) (u false) (gone_die false) (plain_variable "lost" 0x2000 "int" 4) /\
  raw_nowhere [] (rf false) (u false) (rf true) (fun v => raw_no_variable sample_settings (rf true) v None [] (Some "lost")) /\
  gives_variable (rf true) (u true) (gone_die true) (plain_variable "extra" 0x2000 "int" 4) /\
  raw_nowhere [] (rf true) (u true) (rf false) (fun v => raw_no_variable sample_settings (rf false) v None [] (Some "extra")) /\
  (forall later, no_raw_statics (u later)) /\ (forall name address t size, raw_variable_wanted sample_settings (plain_variable name address t size)).
Proof.
  split; [a_variable pair_int_text pair_int_bytes|]. split; [apply elsewhere; other_variables|]. split; [a_variable pair_int_text pair_int_bytes|].
  split; [apply elsewhere; other_variables|]. split; [apply plain_statics|]. intros name address t size. split; [apply any_path|]. right. discriminate.
Qed.

Local Lemma pair_alone later d : (forall e v, In e (raw_below (u later)) -> is_field e = true -> In (0x49, v) (rd_attrs e) -> v <> RwUnitRef (rd_offset d)) ->
  shown_alone (rf later) (u later) d.
Proof.
  intros H e v I F A P. exfalso. specialize (H e v I F A). inversion P as [o x y J K E|x y J K]; subst.
  - apply H. f_equal. cbn [pair_raw_unit ru_place ud_begin] in E. lia.
  - apply below_listed in I. destruct later; cbn [app] in I; repeat (destruct I as [<-|I]; [first [discriminate F|cbn in A; intuition discriminate]|]); destruct I.
Qed.
Local Ltac no_field :=
  apply pair_alone; intros e v I F A E; apply below_listed in I; cbn [app] in I;
  repeat (destruct I as [<-|I]; [first [discriminate F|subst v; cbn in A; intuition discriminate]|]); destruct I.
Local Lemma pair_int_named later attrs : gives 0x49 attrs (RwUnitRef 20) -> type_named (rf later) (u later) attrs.
Proof.
  intros G v x e G' R T. rewrite (gives_only _ _ _ _ G (gives_in _ _ _ G')) in *. exfalso.
  inversion R as [d I E|]; subst. assert (X : e = int_die).
  { destruct later; cbn in I; repeat (destruct I as [<-|I]; [first [reflexivity|discriminate E]|]); destruct I. }
  subst e. cbn in T. intuition discriminate.
Qed.
Local Lemma a_typedef (later : bool) name : (if later then "fresh" else "old") = name ->
  gives_type (rf later) sample_settings (u later) (old_die later) [] (Some name) [Line 0 (txt "type " ++ txt name ++ txt " = int"); Line 1 (txt "size: 4"); Blank].
Proof.
  intros <-. 
  apply (gt_typedef (rf later) sample_settings (u later) (old_die later) [] false (Some (if later then "fresh" else "old")) (Some "/src") (mkSource None None 0 0) (txt "int") 4 []).
  - reflexivity.
  - apply top. cbn. tauto.
  - named_now 1%nat.
  - destruct later; named_now O.
  - apply no_place; reflexivity.
  - apply pair_int_text. gives_now 1%nat.
  - apply pair_int_bytes. gives_now 1%nat.
  - apply tdl_none. apply pair_int_named. gives_now 1%nat.
Qed.
Example C99_type_example :
  gives_type (rf false) sample_settings (u false) (old_die false) [] (Some "old") [Line 0 (txt "type old = int"); Line 1 (txt "size: 4"); Blank] /\
  shown_alone (rf false) (u false) (old_die false) /\
  raw_nowhere [] (rf false) (u false) (rf true) (fun v => raw_no_type (rf true) v None (Some 2%nat) [] (Some "old")) /\
  gives_type (rf true) sample_settings (u true) (old_die true) [] (Some "fresh") [Line 0 (txt "type fresh = int"); Line 1 (txt "size: 4"); Blank] /\
  shown_alone (rf true) (u true) (old_die true) /\
  raw_nowhere [] (rf true) (u true) (rf false) (fun v => raw_no_type (rf false) v None (Some 2%nat) [] (Some "fresh")).
Proof.
  split; [exact (a_typedef false "old" eq_refl)|]. split; [no_field|]. split; [apply elsewhere; others|].
  split; [exact (a_typedef true "fresh" eq_refl)|]. split; [no_field|apply elsewhere; others].
Qed.

Example C100_variable_example :
  (forall from to, raw_only_unit [] (rf from) (u from) (rf to) (u to)) /\
  gives_variable (rf false) (u false) (kept_die false) (plain_variable "kept" 0x2008 "int" 4) /\
  gives_variable (rf true) (u true) (kept_die true) (plain_variable "kept" 0x2008 "struct Pair" 8) /\
  (forall later, raw_no_variable sample_settings (rf later) (u later) (Some 60) [] (Some "kept")).
Proof.
  split; [apply only_one|]. split; [a_variable pair_int_text pair_int_bytes|]. split; [a_variable pair_text pair_bytes|].
  intros [|]; other_variables.
Qed.
Local Ltac plain_now := split; [repeat (constructor; [cbn; intuition discriminate|]); constructor|repeat constructor].
Local Ltac an_int part n :=
  apply part; [reflexivity|plain_now|named_now O|now apply PropertiesEndItems.not_encoded|apply pair_int_named; gives_now 1%nat
  |apply sts_bytes; [lacks_now|lacks_now|apply (ba_number _ _ (RwConst (UnsignedData n)) n); [gives_now 2%nat|constructor|discriminate|reflexivity]]
  |apply (hw_bytes _ _ _ 4); [lacks_now|apply pair_int_bytes; gives_now 1%nat|reflexivity]
  |apply pair_int_text; gives_now 1%nat].
Local Definition pair_before : list line :=
  [Line 0 (txt "struct Pair"); Line 1 (txt "size: 4"); Line 1 (txt "members:"); Line 2 (txt "0[4]" ++ [9] ++ txt "x: int"); Blank].
Local Definition pair_after : list line :=
  [Line 0 (txt "struct Pair"); Line 1 (txt "size: 8"); Line 1 (txt "members:"); Line 2 (txt "0[4]" ++ [9] ++ txt "x: int");
   Line 2 (txt "4[4]" ++ [9] ++ txt "y: int"); Blank].
Example C100_type_example :
  (forall later, raw_small (rf later)) /\
  gives_type (rf false) sample_settings (u false) (pair_die false) [] (Some "Pair") pair_before /\
  gives_type (rf true) sample_settings (u true) (pair_die true) [] (Some "Pair") pair_after /\
  (forall later, shown_alone (rf later) (u later) (pair_die later)) /\ raw_bases_alike (pair_die false) (pair_die true) /\
  (forall later, raw_no_type (rf later) (u later) (Some 30) (Some 3%nat) [] (Some "Pair")).
Proof.
  split; [intros later x [<-|[]]; destruct later; reflexivity|]. split; [|split; [|split; [|split]]].
  - apply (gt_structure (rf false) sample_settings (u false) (pair_die false) [] false "Pair" (Some "/src") (mkSource None None 0 0) false (Some 4) []
      [Line 2 (txt "0[4]" ++ [9] ++ txt "x: int")]);
      [now left|apply top; right; now left|constructor|named_now 1%nat|named_now O|apply no_place; reflexivity|apply isd_none; lacks_now|number_now 1%nat|constructor|].
    apply (ml_struct (rf false) 2 (u false) (pair_die false) false [] (Some 4) [(0, 32, [Line 2 (txt "0[4]" ++ [9] ++ txt "x: int")])] [(0, 32, [Line 2 (txt "0[4]" ++ [9] ++ txt "x: int")])]).
    + now left.
    + apply top. right. now left.
    + split; [number_now 1%nat|reflexivity].
    + constructor; [|constructor]. an_int (ptl_named (rf false) 2 (u false) pair_x "x" 0 32 (txt "int")) 0.
    + apply strict_order; [reflexivity|]. repeat constructor; cbn; lia.
    + repeat constructor; cbn; lia.
  - apply (gt_structure (rf true) sample_settings (u true) (pair_die true) [] false "Pair" (Some "/src") (mkSource None None 0 0) false (Some 8) []
      [Line 2 (txt "0[4]" ++ [9] ++ txt "x: int"); Line 2 (txt "4[4]" ++ [9] ++ txt "y: int")]);
      [now left|apply top; right; now left|constructor|named_now 1%nat|named_now O|apply no_place; reflexivity|apply isd_none; lacks_now|number_now 1%nat|constructor|].
    apply (ml_struct (rf true) 2 (u true) (pair_die true) false [] (Some 8)
      [(0, 32, [Line 2 (txt "0[4]" ++ [9] ++ txt "x: int")]); (32, 32, [Line 2 (txt "4[4]" ++ [9] ++ txt "y: int")])]
      [(0, 32, [Line 2 (txt "0[4]" ++ [9] ++ txt "x: int")]); (32, 32, [Line 2 (txt "4[4]" ++ [9] ++ txt "y: int")])]).
    + now left.
    + apply top. right. now left.
    + split; [number_now 1%nat|reflexivity].
    + constructor; [|constructor; [|constructor]].
      * an_int (ptl_named (rf true) 2 (u true) pair_x "x" 0 32 (txt "int")) 0.
      * an_int (ptl_named (rf true) 2 (u true) pair_y "y" 32 32 (txt "int")) 4.
    + apply strict_order; [reflexivity|]. repeat constructor; cbn; lia.
    + repeat constructor; cbn; lia.
  - intros [|]; no_field.
  - split; cbn; lia.
  - intros [|]; others.
Qed.
Example C100_function_example :
  gives_function (rf false) (u false) (sum_die false) (plain_function "sum" 0x1000 32) /\
  gives_function (rf true) (u true) (sum_die true) (plain_function "sum" 0x1000 48) /\
  (forall later, raw_no_function sample_settings (rf later) (u later) (Some 70) [] (Some "sum")) /\
  ranges_alike [mkRange 0x1000 0x1020] [mkRange 0x1000 0x1030] /\
  (forall later, print_output 9 sample_first sample_settings (pair_read later) <> None) /\
  (forall later f, fn_offset f = 70 ->
    short_function (file_scene sample_first (pair_read later)) f /\ settled_details sample_settings (sc_details (file_scene sample_first (pair_read later)) f)).
Proof.
  split; [a_function|]. split; [a_function|]. split; [intros [|]; others|]. split; [split; cbn; lia|]. split; [intros [|]; vm_compute; discriminate|].
  intros later f E. assert (D : sc_details (file_scene sample_first (pair_read later)) f = mkDetails [] [] [] []).
  { cbn [file_scene sc_details]. unfold function_details_of. rewrite E. destruct later; vm_compute; reflexivity. }
  assert (C : EntryModel.calls (file_scene sample_first (pair_read later)) f = Some []) by (destruct later; reflexivity).
  split; [split|]; rewrite ?D.
  - repeat split; try constructor; now apply PropertiesPair.short_few.
  - intros l E'. rewrite C in E'. injection E' as <-. now apply PropertiesPair.short_few.
  - repeat split; constructor.
Qed.

(** A method, which its type declares as well. *)
Local Definition method_lines : list (mark * line) :=
  [(Old, Line 0 (txt "file before")); (New, Line 0 (txt "file after")); (Same, Line 1 (txt "size: 84"));
   (Old, Line 1 (txt "fn size: 64")); (New, Line 1 (txt "fn size: 80 (+16)")); (Same, Line 1 (txt "var size: 4"));
   (Old, Line 1 (txt "other size: 16")); (New, Line 1 (txt "other size: 0 (-16)")); (Same, Blank);
   (Same, Line 0 (txt "unit /src/s.cpp")); (Old, Line 1 (txt "fn size: 64")); (New, Line 1 (txt "fn size: 80 (+16)")); (Same, Line 1 (txt "var size: 4"));
   (Old, Line 1 (txt "unknown size: 16")); (New, Line 1 (txt "unknown size: 0 (-16)")); (Same, Blank);
   (Same, Line 0 (txt "fn Stack::push")); (Same, Line 1 (txt "linkage name: _ZN5Stack4pushEi")); (Same, Line 1 (txt "addresses:"));
   (Old, Line 2 (txt "0x1000-0x101f (32)")); (New, Line 2 (txt "0x1000-0x1027 (40)")); (Same, Line 2 (txt "0x1030-0x1037 (8)"));
   (Old, Line 1 (txt "size: 40")); (New, Line 1 (txt "size: 48")); (Same, Line 1 (txt "return type:")); (Same, Line 2 (txt "[4]" ++ [9] ++ txt "int"));
   (Same, Line 1 (txt "parameters:")); (Same, Line 2 (txt "[4]" ++ [9] ++ txt "v: int")); (Same, Blank)].
Example C100_method_example :
  compare_output (refer_read false) (refer_read true) at_once 9 sample_first sample_first sample_settings = Some (write_marked method_lines, true) /\
  (forall later, read_file (refer_raw later) = Some (refer_read later)) /\
  (forall from to, raw_only_unit [] (refer_raw from) (refer_raw_unit from) (refer_raw to) (refer_raw_unit to)) /\
  gives_function (refer_raw false) (refer_raw_unit false) pusher_die (push_defined 40 [mkRange 0x1000 0x1020; mkRange 0x1030 0x1038]) /\
  gives_function (refer_raw true) (refer_raw_unit true) pusher_die (push_defined 48 [mkRange 0x1000 0x1028; mkRange 0x1030 0x1038]) /\
  (forall later, raw_no_function sample_settings (refer_raw later) (refer_raw_unit later) (Some 70) [Some "Stack"] (Some "push")) /\
  (forall later, print_output 9 sample_first sample_settings (refer_read later) <> None) /\
  (forall later f, fn_offset f = 70 ->
    short_function (file_scene sample_first (refer_read later)) f /\ settled_details sample_settings (sc_details (file_scene sample_first (refer_read later)) f)).
Proof.
  split; [vm_compute; reflexivity|]. split; [intros [|]; reflexivity|].
  split.
  { intros from to. exists (Some "s.cpp"), (Some "s.cpp"). split; [named_now O|]. split; [named_now O|]. split; [now apply same_paths|].
    do 2 (split; [rewrite same_paths; discriminate|]). exists [], []. split; [reflexivity|intros z k []]. }
  split; [exact (push_defines false)|]. split; [exact (push_defines true)|]. split.
  { intros later e I T N. cbn in I.
    repeat (destruct I as [<-|I]; [first [discriminate T|now destruct N|idtac]|]); [| | |destruct I].
    - right. exists push_declared. split; [apply push_declares|]. right. right. intros ([E|E] & _); [discriminate E|now apply E].
    - left. eexists. split; [named_now O|]. discriminate.
    - right. eexists. split; [apply PropertiesEnd.copy_is|]. right. left. discriminate. }
  split; [intros [|]; vm_compute; discriminate|].
  intros later f E. assert (C : EntryModel.calls (file_scene sample_first (refer_read later)) f = Some []) by (destruct later; reflexivity).
  assert (D : exists n t, sc_details (file_scene sample_first (refer_read later)) f = mkDetails [EntryModel.mkFormal n t []] [] [] []).
  { cbn [file_scene sc_details]. unfold function_details_of. rewrite E. do 2 eexists. destruct later; vm_compute; reflexivity. }
  destruct D as (n & t & D). split; [split|]; rewrite ?D.
  - repeat split; repeat constructor; now apply PropertiesPair.short_few.
  - intros l E'. rewrite C in E'. injection E' as <-. now apply PropertiesPair.short_few.
  - repeat split; repeat constructor. intros _ (x & y & [] & _).
Qed.
