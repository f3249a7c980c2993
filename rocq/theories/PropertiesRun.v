(** Whole runs: pages (C92), ids and what is loaded for them (C93), and the report of sizes (C94). *)
From Coq Require Import List Arith NArith ZArith Bool String Ascii Lia.
From Coq Require Import Permutation Sorted.
From Verif Require Import Base RangeModel TypeModel FileModel FileSpec OptionsModel IdModel IdSpec PropertiesIds PrintModel PrintSpec HtmlSpec
  NameModel CodeModel CodeSpec CodeProofs BloatModel BloatSpec BloatProofs PropertiesBloat ItemModel ItemSpec ItemShown EntryModel EntrySpec FilterModel ReportModel
  PropertiesPrint PropertiesHtml PropertiesReport ServeModel ServeSpec ServeProofs ServePage PropertiesServe WholeModel WholeSpec WholeProofs WholeShown WholeSymbols
  PairModel RunModel RunSpec RunPlain RunNumbers RunSized DieModel DieSpec PropertiesDie.
Import ListNotations.
Local Open Scope list_scope.

(** ** C92: Pages *)

Lemma calm_load esc choice ob : plain_mnemonics esc (ob_program ob) -> calm esc (load choice ob).
Proof. exact (fun H => H). Qed.
Lemma calm_two esc a b ca cb : plain_mnemonics esc (ob_program a) -> plain_mnemonics esc (ob_program b) ->
  calm esc (is_a (load_two a b ca cb)) /\ calm esc (is_b (load_two a b ca cb)).
Proof. exact (fun H K => conj H K). Qed.

Section Pages.
  Variable esc : N -> text.
  Variable unescape : text -> text.
  Variable alnum : N -> bool.
  Variables header footer : text.
  Variable choose : list N -> list N -> list (list N) -> nat -> nat.
  Variable order : list (function_key * total) -> list (function_key * total).
  Variables ca cb : N -> nat.
  Variable fuel : nat.
  Variable o : options.
  Hypothesis OK : escape_ok esc unescape.
  Hypothesis LETTERS : plain_letters esc.
  Hypothesis HTML : o_html o = true.
  Let depth := N.to_nat (o_inline_depth o).

  Lemma web_reads d : plain_doc esc d ->
    reads_as unescape (print_web esc alnum o d) (words (short_name alnum) (o_http o) depth d)
      (full_names (short_name alnum) (o_http o) depth d).
  Proof.
    intros P. destruct (PropertiesHtml.print_page esc unescape alnum (o_http o) d depth OK P) as (es & R & N & K & C & T & _).
    exists es. auto.
  Qed.
  Lemma web_reads_diff d : plain_diff esc d ->
    reads_as unescape (diff_web esc alnum o d)
      (words_diff (short_name alnum) (o_http o) (fun a b => text_eqb (html_value esc alnum a) (html_value esc alnum b)) depth d)
      (full_names_diff (short_name alnum) (o_http o) (fun a b => text_eqb (html_value esc alnum a) (html_value esc alnum b)) depth d).
  Proof.
    intros P. destruct (PropertiesHtml.compare_page esc unescape alnum (o_http o) d depth true OK P) as (es & R & N & K & C & T & _); [discriminate|].
    exists es. unfold diff_web. rewrite HTML. auto.
  Qed.
  Lemma well t ws ns : reads_as unescape t ws ns -> reads_well unescape t.
  Proof. intros (es & R & N & K & _). exists es. auto. Qed.
  Lemma empty_well : reads_well unescape [].
  Proof. exists []. repeat split. constructor. Qed.
  Lemma page_response t ws ns : reads_as unescape t ws ns -> response unescape header footer (header ++ t ++ footer).
  Proof. intros H. apply rp_page. exact (well _ _ _ H). Qed.
  Lemma part_response t ws ns : reads_as unescape t ws ns -> response unescape header footer t.
  Proof. intros H. apply rp_part. exact (well _ _ _ H). Qed.
  Lemma empty_response : response unescape header footer [].
  Proof. apply rp_part, empty_well. Qed.

  Lemma served f path r : serve f path = Some r ->
    (forall p r, f p = Some r -> response unescape header footer r) -> response unescape header footer r.
  Proof.
    intros E H. unfold serve in E. destruct (match path with EmptyString => "/"%string | _ => path end) as [|c s].
    - injection E as <-. apply empty_response.
    - destruct c as [[] [] [] [] [] [] [] []]; try (injection E as <-; apply empty_response). exact (H _ _ E).
  Qed.
  Lemma served_print ob path r : plain_mnemonics esc (ob_program ob) ->
    serve_print_file esc alnum header footer o (compare_parameters ob) fuel (load ca ob) path = Some r -> response unescape header footer r.
  Proof.
    intros C. apply (calm_load esc ca ob) in C. unfold serve_print_file.
    destruct path as [|part path']; [intros E; injection E as <-; apply empty_response|].
    destruct (String.eqb part "").
    { unfold ServeModel.print_page, whole_page. destruct (print_file _ _ _ _) as [d|] eqn:F; [|discriminate]. cbn [option_map].
      intros E. apply some_eq in E. subst r. exact (page_response _ _ _ (web_reads d (plain_file esc LETTERS o _ _ _ _ C F))). }
    destruct (String.eqb part "id"); [|intros E; injection E as <-; apply empty_response].
    destruct path' as [|id path'']; [intros E; injection E as <-; apply empty_response|].
    destruct (parse_usize id) as [n|]; [|intros E; injection E as <-; apply empty_response].
    assert (I : forall k detail, print_id_response esc alnum o (compare_parameters ob) fuel (load ca ob) k detail = Some r -> response unescape header footer r).
    { intros k detail. unfold print_id_response. destruct (print_id_item _ _ _) as [it|]; [|intros E; injection E as <-; apply empty_response].
      assert (J : forall x de, option_map (print_web esc alnum o) (print_part o (compare_parameters ob) fuel (load ca ob) de x) = Some r ->
        response unescape header footer r).
      { intros x de E. destruct (print_part _ _ _ _ _ _) as [d|] eqn:F; [|discriminate]. cbn [option_map] in E. apply some_eq in E. subst r.
        exact (part_response _ _ _ (web_reads d (plain_part esc LETTERS o _ _ _ _ _ _ C F))). }
      destruct it; [| |destruct detail as [de|]; [destruct (String.eqb de "code"); [|intros E; injection E as <-; apply empty_response]|]|]; apply J. }
    destruct path'' as [|de path'']; [apply I|]. destruct (String.eqb de "parent"); [|apply I].
    unfold print_parent_response. intros E. apply some_eq in E. subst r. destruct (print_parent _ _ _ _); [apply rp_number|apply empty_response].
  Qed.
  Lemma served_diff a b path r : plain_mnemonics esc (ob_program a) -> plain_mnemonics esc (ob_program b) ->
    serve_diff_file esc alnum header footer o choose (compare_parameters_in a b) fuel (load_two a b ca cb) path = Some r -> response unescape header footer r.
  Proof.
    intros C C'. destruct (calm_two esc a b ca cb C C') as (K & K'). unfold serve_diff_file.
    destruct path as [|part path']; [intros E; injection E as <-; apply empty_response|].
    destruct (String.eqb part "").
    { unfold ServeModel.diff_page, whole_page. destruct (diff_file _ _ _ _ _) as [d|] eqn:F; [|discriminate]. cbn [option_map].
      intros E. apply some_eq in E. subst r. exact (page_response _ _ _ (web_reads_diff d (plain_diff_file esc LETTERS _ o _ _ _ _ K K' F))). }
    destruct (String.eqb part "id"); [|intros E; injection E as <-; apply empty_response].
    destruct path' as [|id path'']; [intros E; injection E as <-; apply empty_response|].
    destruct (parse_usize id) as [n|]; [|intros E; injection E as <-; apply empty_response].
    destruct path'' as [|de path'']; [|intros E; injection E as <-; apply empty_response].
    unfold diff_id_response.
    assert (J : forall x, option_map (part_web esc alnum o) (diff_part choose o (compare_parameters_in a b) fuel (load_two a b ca cb) x) = Some r ->
      response unescape header footer r).
    { intros x E. destruct (diff_part _ _ _ _ _ _) as [p|] eqn:F; [|discriminate]. cbn [option_map] in E. apply some_eq in E. subst r.
      pose proof (plain_diff_part esc LETTERS _ o _ _ _ _ _ K K' F) as P. destruct p as [d|d]; cbn [part_web].
      - exact (part_response _ _ _ (web_reads d P)).
      - exact (part_response _ _ _ (web_reads_diff d P)). }
    destruct (diff_id_target _ _ _ _); first [apply J | discriminate | (intros E; injection E as <-; apply empty_response)].
  Qed.
  Lemma served_sizes units totals m ids path r :
    serve_bloat_file esc alnum header footer o units totals m ids path = Some r -> response unescape header footer r.
  Proof.
    unfold serve_bloat_file.
    destruct path as [|part path']; [intros E; injection E as <-; apply empty_response|].
    destruct (String.eqb part "").
    { unfold bloat_page, whole_page. destruct (bloat_doc units totals m) as [d|] eqn:F; [|discriminate]. cbn [ok_web option_map].
      intros E. apply some_eq in E. subst r. exact (page_response _ _ _ (web_reads d (plain_sizes esc _ _ _ _ F))). }
    destruct (String.eqb part "id"); [|intros E; injection E as <-; apply empty_response].
    destruct path' as [|id path'']; [intros E; injection E as <-; apply empty_response|].
    destruct (parse_usize id) as [n|]; [|intros E; injection E as <-; apply empty_response].
    unfold bloat_id_response. destruct (nth_error ids _) as [[]|]; try (intros E; injection E as <-; apply empty_response).
    unfold bloat_id. destruct (nth_error units _) as [u|]; [|intros E; injection E as <-; apply empty_response].
    destruct (nth_error (su_functions u) _) as [f|]; [|intros E; injection E as <-; apply empty_response].
    destruct (opt64_get (sf_address f)) as [a|]; [|discriminate]. destruct (bloat_callers units m a) as [d|] eqn:F; [|discriminate].
    cbn [ok_web]. intros E. apply some_eq in E. subst r. exact (part_response _ _ _ (web_reads d (plain_callers esc _ _ _ _ F))).
  Qed.
End Pages.

(** The page that is written has the header, the footer, and between them HTML that a browser can read, whose text, and whose
    full names of what is shortened, are those of what is printed. *)
Theorem C92_print : forall esc unescape alnum header footer choose order ca cb fuel o ob page,
  escape_ok esc unescape -> plain_letters esc -> plain_mnemonics esc (ob_program ob) -> o_html o = true ->
  run esc alnum header footer choose order ca cb fuel o (ToPrint ob) = Some page ->
  exists d body, print_file o (compare_parameters ob) fuel (load ca ob) = Some d /\ page = header ++ body ++ footer /\
    reads_as unescape body (words (short_name alnum) (o_http o) (N.to_nat (o_inline_depth o)) d)
      (full_names (short_name alnum) (o_http o) (N.to_nat (o_inline_depth o)) d).
Proof.
  intros esc unescape alnum header footer choose order ca cb fuel o ob page OK L C HTML E. cbn [run] in E.
  destruct (print_file _ _ _ _) as [d|] eqn:F; [|discriminate]. cbn [option_map] in E. apply some_eq in E. subst page.
  unfold formatted. rewrite HTML. exists d, (print_web esc alnum o d). split; [reflexivity|]. split; [reflexivity|].
  apply web_reads; [exact OK|]. exact (plain_file esc L o _ _ _ _ (calm_load esc ca ob C) F).
Qed.
Print Assumptions C92_print.

Theorem C92_sizes : forall esc unescape alnum header footer choose order ca cb fuel o ob page,
  escape_ok esc unescape -> o_html o = true ->
  run esc alnum header footer choose order ca cb fuel o (ToSize ob) = Some page ->
  exists d body, size_report ca ob order = Done d /\ page = header ++ body ++ footer /\
    reads_as unescape body (words (short_name alnum) (o_http o) (N.to_nat (o_inline_depth o)) d)
      (full_names (short_name alnum) (o_http o) (N.to_nat (o_inline_depth o)) d).
Proof.
  intros esc unescape alnum header footer choose order ca cb fuel o ob page OK HTML E. cbn [run] in E.
  destruct (size_report ca ob order) as [d|] eqn:F; [|discriminate]. cbn [option_map ok] in E. apply some_eq in E. subst page.
  unfold formatted. rewrite HTML. exists d, (print_web esc alnum o d). split; [reflexivity|]. split; [reflexivity|].
  apply web_reads; [exact OK|]. unfold size_report in F. destruct (size_callers ca ob) as [m|]; [|discriminate]. exact (plain_sizes esc _ _ _ _ F).
Qed.
Print Assumptions C92_sizes.

Theorem C92_compare : forall esc unescape alnum header footer choose order ca cb fuel o a b page,
  escape_ok esc unescape -> plain_letters esc -> plain_mnemonics esc (ob_program a) -> plain_mnemonics esc (ob_program b) ->
  o_html o = true ->
  run esc alnum header footer choose order ca cb fuel o (ToCompare a b) = Some page ->
  let same := fun v w => text_eqb (html_value esc alnum v) (html_value esc alnum w) in
  exists d body, diff_file choose o (compare_parameters_in a b) fuel (load_two a b ca cb) = Some d /\ page = header ++ body ++ footer /\
    reads_as unescape body (words_diff (short_name alnum) (o_http o) same (N.to_nat (o_inline_depth o)) d)
      (full_names_diff (short_name alnum) (o_http o) same (N.to_nat (o_inline_depth o)) d).
Proof.
  intros esc unescape alnum header footer choose order ca cb fuel o a b page OK L C C' HTML E same. cbn [run] in E.
  destruct (diff_file _ _ _ _ _) as [d|] eqn:F; [|discriminate]. cbn [option_map] in E. apply some_eq in E. subst page.
  unfold formatted_diff. rewrite HTML. exists d, (diff_web esc alnum o d). split; [reflexivity|]. split; [reflexivity|].
  apply web_reads_diff; [exact OK|exact HTML|]. destruct (calm_two esc a b ca cb C C') as (K & K'). exact (plain_diff_file esc L _ o _ _ _ _ K K' F).
Qed.
Print Assumptions C92_compare.

(** C92: without [--html], what is written is the text that C80 to C87 are about. *)
Theorem C92_text : forall esc alnum header footer choose order ca cb fuel o,
  o_html o = false ->
  (forall ob, run esc alnum header footer choose order ca cb fuel o (ToPrint ob) = print_output fuel ca o ob) /\
  (forall a b, run esc alnum header footer choose order ca cb fuel o (ToCompare a b) =
     option_map fst (compare_output a b choose fuel ca cb o)).
Proof.
  intros esc alnum header footer choose order ca cb fuel o HTML. split.
  - intros ob. cbn [run]. unfold print_output, formatted. rewrite HTML. reflexivity.
  - intros a b. cbn [run]. unfold compare_output, formatted_diff. rewrite HTML.
    destruct (diff_file _ _ _ _ _); reflexivity.
Qed.
Print Assumptions C92_text.

(** Whatever the server is asked for, what it sends is such a page, HTML that can be read by itself, or a number. *)
Theorem C92_served : forall esc unescape alnum header footer choose order ca cb fuel o t path r,
  escape_ok esc unescape -> plain_letters esc -> o_html o = true ->
  match t with
  | ToPrint ob => plain_mnemonics esc (ob_program ob)
  | ToSize _ => True
  | ToCompare a b => plain_mnemonics esc (ob_program a) /\ plain_mnemonics esc (ob_program b)
  end ->
  run_server esc alnum header footer choose order ca cb fuel o t path = Some r -> response unescape header footer r.
Proof.
  intros esc unescape alnum header footer choose order ca cb fuel o t path r OK L HTML M E. destruct t as [ob|ob|a b]; cbn [run_server] in E.
  - apply (served unescape header footer _ _ _ E). intros p r'. apply (served_print esc); assumption.
  - destruct (size_callers ca ob); [|discriminate].
    apply (served unescape header footer _ _ _ E). intros p r'. apply (served_sizes esc); assumption.
  - destruct M. apply (served unescape header footer _ _ _ E). intros p r'. apply (served_diff esc); assumption.
Qed.
Print Assumptions C92_served.

(** ** C93: Ids, and what is loaded for them *)

(** Every unit, type, function and variable of a file carries, in what is printed, the id under which it is found, and no two
    carry the same. *)
Theorem C93_numbered : forall choice ob ids log x it,
  well_formed ob -> told_apart ob -> assign_ids (loaded_units choice ob) = (ids, log) ->
  IdSpec.names (loaded_units choice ob) x it ->
  print_id_item (loaded_units choice ob) ids (carried_id (load choice ob) it) = Some it /\
  (forall y jt, IdSpec.names (loaded_units choice ob) y jt -> carried_id (load choice ob) it = carried_id (load choice ob) jt -> x = y).
Proof.
  intros choice ob ids log x it WF TA A N. destruct (C23_bijection _ _ _ A) as (X & _ & _ & U).
  rewrite (carried choice ob WF TA x it ids log A N). split; [apply (X x it N)|].
  intros y jt M E. rewrite (carried choice ob WF TA y jt ids log A M) in E. exact (U x y it jt N M E).
Qed.
Print Assumptions C93_numbered.

(** Loading the entries of the page that the server sends gives a page on which nothing is left to load, and which is what
    [-o html] writes, except that it has a link instead of every list of instructions; the instructions are sent for that
    link. *)
Theorem C93_loading : forall esc alnum header footer choose order ca cb fuel o ob page,
  well_formed ob -> told_apart ob ->
  (forall c x, In x (esc c) -> x <> 60%N) -> o_html o = true -> o_http o = true ->
  (N.of_nat (List.length (fst (assign_ids (loaded_units ca ob)))) <= 2 ^ 64)%N ->
  let send := run_server esc alnum header footer choose order ca cb fuel o (ToPrint ob) in
  send "/"%string = Some page ->
  exists opened body,
    completes (fun n => send ("/id/" ++ written n)%string) page (header ++ opened ++ footer) /\
    complete opened /\
    linked (fun n => send ("/id/" ++ written n ++ "/code")%string) opened body /\
    run esc alnum header footer choose order ca cb fuel (without_http o) (ToPrint ob) = Some (header ++ body ++ footer).
Proof.
  intros esc alnum header footer choose order ca cb fuel o ob page WF TA SAFE HTML HTTP FIT send W.
  destruct (assign_ids (loaded_units ca ob)) as [ids log] eqn:A. cbn [fst] in FIT.
  destruct (C79_loading esc alnum header footer o (compare_parameters ob) fuel (load ca ob) ids log page SAFE HTML HTTP A FIT
    (fun x it N => carried ca ob WF TA x it ids log A N) W) as (opened & body & C1 & C2 & C3 & C4).
  exists opened, body. split; [exact C1|]. split; [exact C2|]. split; [exact C3|]. cbn [run].
  unfold ServeModel.print_page, whole_page in C4. destruct (print_file _ _ _ _) as [d|]; [|discriminate].
  cbn [option_map] in *. unfold formatted. cbn [without_http o_html]. rewrite HTML. exact C4.
Qed.
Print Assumptions C93_loading.

(** The same for the report of sizes. *)
Theorem C93_loading_sizes : forall esc alnum header footer choose order ca cb fuel o ob page,
  well_formed ob -> told_apart ob ->
  (forall c x, In x (esc c) -> x <> 60%N) -> o_html o = true -> o_http o = true ->
  (N.of_nat (List.length (fst (assign_ids (loaded_units ca ob)))) <= 2 ^ 64)%N ->
  let send := run_server esc alnum header footer choose order ca cb fuel o (ToSize ob) in
  send "/"%string = Some page ->
  exists body,
    completes (fun n => send ("/id/" ++ written n)%string) page (header ++ body ++ footer) /\
    complete body /\
    run esc alnum header footer choose order ca cb fuel (without_http o) (ToSize ob) = Some (header ++ body ++ footer).
Proof.
  intros esc alnum header footer choose order ca cb fuel o ob page WF TA SAFE HTML HTTP FIT send W.
  destruct (size_callers ca ob) as [m|] eqn:EM; [|subst send; cbn [run_server] in W; rewrite EM in W; discriminate].
  destruct (assign_ids (loaded_units ca ob)) as [ids log] eqn:A. cbn [fst] in FIT.
  assert (IDS : forall i k u f, nth_error (sized_units ca ob) i = Some u -> nth_error (su_functions u) k = Some f ->
    nth_error ids (sf_id f) = Some (IdFunction i k)).
  { intros i k u f U F. unfold sized_units in U. rewrite nth_error_map in U. destruct (nth_error (loaded_units ca ob) i) as [w|] eqn:EW; [|discriminate].
    injection U as <-. cbn [sized_unit_of su_functions] in F. rewrite nth_error_map in F. destruct (nth_error (un_functions w) k) as [g|] eqn:EG; [|discriminate].
    injection F as <-. cbn [sized_function_of sf_id].
    pose proof (carried ca ob WF TA _ _ ids log A (IdSpec.nm_function _ _ _ _ _ EW EG)) as C. cbn [carried_id load im_scene file_scene sc_function_id] in C.
    rewrite C. exact (named_at _ _ _ _ _ A (IdSpec.nm_function _ _ _ _ _ EW EG)). }
  assert (SE : forall p, send p = serve (serve_bloat_file esc alnum header footer o (sized_units ca ob) (size_totals ca ob order) m ids) p).
  { intros p. subst send. cbn [run_server]. rewrite EM, A. reflexivity. }
  destruct (C79_loading_sizes esc alnum header footer o (sized_units ca ob) (size_totals ca ob order) m ids page SAFE HTTP FIT IDS)
    as (body & body' & E & C1 & C2 & C3); [rewrite <- SE; exact W|].
  exists body'. split; [|split; [exact C3|]].
  - assert (EQ : forall n, serve (serve_bloat_file esc alnum header footer o (sized_units ca ob) (size_totals ca ob order) m ids) ("/id/" ++ written n)%string
      = send ("/id/" ++ written n)%string) by (intros n; symmetry; apply SE).
    clear - C2 EQ. induction C2 as [|p q r L C IH]; [constructor|]. apply (Relations.Relation_Operators.rt1n_trans _ _ p q r); [|exact IH].
    destruct L; econstructor; rewrite <- ?EQ; eassumption.
  - cbn [run]. unfold size_report. rewrite EM. unfold bloat_page, whole_page in C1. destruct (bloat_doc _ _ _) as [d|]; [|discriminate].
    cbn [ok_web option_map ok] in *. unfold formatted. cbn [without_http o_html]. rewrite HTML. exact C1.
Qed.
Print Assumptions C93_loading_sizes.

(** ** C94: The report of sizes *)

(** What is written accounts for every function that has a size, described by an entry or known only as a symbol, exactly
    once: in one line for those of the same name and source, which gives the sum of their sizes, largest first; under it in
    one line for each with its size and unit; under that is one line for each call to it, by the functions in this order. *)
Theorem C94_report : forall esc alnum header footer choose order ca cb fuel o ob out,
  well_formed ob -> Forall symbol_in_bounds (parse_symbols (ob_symbols ob)) -> (forall l, Permutation (order l) l) ->
  o_html o = false ->
  run esc alnum header footer choose order ca cb fuel o (ToSize ob) = Some out ->
  exists all rows who ls,
    out = write_lines ls /\ sized_functions ob all /\ Permutation (List.concat rows) all /\
    (forall i j a b x y, nth_error rows i = Some a -> nth_error rows j = Some b -> In x a -> In y b -> (alike x y <-> i = j)) /\
    StronglySorted (fun a b => forall n n', row_total a n -> row_total b n' -> (n' <= n)%N) rows /\
    calling ob all who /\ each (row_shown who) rows ls.
Proof.
  intros esc alnum header footer choose order ca cb fuel o ob out WF SB ORDER HTML E. cbn [run] in E.
  destruct (size_report ca ob order) as [d|] eqn:F; [|discriminate]. cbn [option_map ok] in E. apply some_eq in E. subst out.
  destruct (report_shown ca ob WF SB order ORDER d (N.to_nat (o_inline_depth o)) F) as (all & rows & who & H).
  exists all, rows, who, (lines (N.to_nat (o_inline_depth o)) 0 d). split; [|exact H]. unfold formatted. rewrite HTML. apply C46_printed.
Qed.
Print Assumptions C94_report.

Lemma no_code units : callers None units <> Panic.
Proof.
  unfold callers. generalize (fun _ : N => @nil caller). induction (positions units) as [|[[[i k] u] f] l IH]; intros m; [discriminate|].
  cbn [add_callers]. destruct (opt64_get (sf_size f)); apply IH.
Qed.

(** It is written if every function that has a size has an address. *)
Theorem C94_written : forall esc alnum header footer choose order ca cb fuel o ob,
  well_formed ob -> Forall symbol_in_bounds (parse_symbols (ob_symbols ob)) -> (forall l, Permutation (order l) l) ->
  (forall u t d, In u (ob_units ob) -> found (ui_children u) t d -> die_tag d = TagSubprogram ->
     exists a n r, occupies (unit_base u) (die_attrs d) a n r /\ Forall (fun x => rbegin x <= rend x /\ rend x < 2 ^ 64)%N r) ->
  (forall p, ob_program ob = Some p -> Forall good_segment (pg_regions p) /\
     forall l a insns, pg_disasm p l a = Some insns -> Forall reads_fit insns) ->
  exists out, run esc alnum header footer choose order ca cb fuel o (ToSize ob) = Some out.
Proof.
  intros esc alnum header footer choose order ca cb fuel o ob WF SB ORDER OCC PROG.
  set (units := sized_units ca ob).
  assert (AT : forall p u f, function_at units p u f -> Forall range_ok (sf_ranges f) /\
    (opt64_get (sf_size f) <> None -> opt64_get (sf_address f) <> None)).
  { intros p u f FA. destruct (functions_shown ca ob WF SB) as (claimed & unclaimed & F2 & PS & _ & _).
    assert (SYM : forall s, In s unclaimed -> In s (parse_symbols (ob_symbols ob))).
    { intros s I. apply (Permutation_in _ (Permutation_sym PS)), in_app_iff. now right. }
    assert (P : exists q, In q (positions units) /\ pl_pos q = p /\ pl_unit q = u /\ pl_fun q = f).
    { exists (p, u, f). split; [|repeat split]. apply in_positions. exact FA. }
    destruct P as (q & Iq & _ & EU & EF).
    assert (Q : exists x, In x (flat_map (fun u => map (Described u) (ws_functions (unit_items ob u))) (ob_units ob) ++
       map Unclaimed (filter is_function_symbol unclaimed)) /\ shown_as x u f).
    { rewrite <- EU, <- EF. clear EU EF. revert Iq. clear - F2. fold units in F2. induction F2 as [|x y l m R F2 IH]; intros Iq; [destruct Iq|]. destruct Iq as [<-|Iq].
      - exists x. split; [now left|exact R].
      - destruct (IH Iq) as (z & Iz & S). exists z. split; [now right|exact S]. }
    destruct Q as (x & Ix & S). destruct S as (_ & _ & S3 & S4 & S5 & _). rewrite S3, S4, S5. apply in_app_iff in Ix. destruct Ix as [Ix|Ix].
    - apply in_flat_map in Ix. destruct Ix as (v & Iv & Ix). apply in_map_iff in Ix. destruct Ix as (g & <- & Ig). cbn [si_ranges si_size si_address].
      pose proof (unit_distinct ob WF v Iv) as D. pose proof (items_read ob v) as IR.
      destruct (C35_own _ _ _ g D IR Ig) as (t & d & Fd & Td & _ & O & _).
      destruct (OCC v t d Iv Fd Td) as (a & n & r & Oc & Fr). destruct (O a n r Oc) as (_ & _ & ->). split; [exact Fr|].
      apply (C41_dwarf _ _ _ g D IR Ig). intros t' d' F' T'. destruct (OCC v t' d' Iv F' T') as (a' & n' & r' & O' & _). eauto.
    - apply in_map_iff in Ix. destruct Ix as (s & <- & Is). cbn [si_ranges si_size si_address]. split; [|discriminate].
      assert (B : symbol_in_bounds s). { rewrite Forall_forall in SB. apply SB, SYM. apply filter_In in Is. tauto. }
      unfold symbol_in_bounds in B. repeat constructor; cbn [rbegin rend]; lia. }
  assert (RO : ranges_ok units) by (intros p u f FA; apply (AT p u f FA)).
  assert (CD : size_callers ca ob <> Panic).
  { unfold size_callers. fold units. destruct (ob_program ob) as [p|] eqn:EP; cbn [option_map].
    - destruct (PROG p eq_refl) as (GS & RF). apply callers_done; [exact RO|]. intros r Hr.
      destruct (code_calls_spec (pg_disasm p) (pg_regions p) r GS (proj1 Hr) (proj2 Hr) (fun l insns => RF l _ insns)) as (i & cs & -> & _). discriminate.
    - apply no_code. }
  destruct (size_callers ca ob) as [m|] eqn:EM; [|congruence].
  cbn [run]. unfold size_report. rewrite EM. destruct (bloat_doc (sized_units ca ob) (size_totals ca ob order) m) as [d|] eqn:EB.
  - cbn [ok option_map]. eauto.
  - exfalso. unfold size_totals in EB. unfold size_callers in EM.
    apply (C41_panics _ (order (groups (sized_units ca ob))) _ m (ORDER _) EM) in EB. destruct EB as (p & u & f & n & FA & HS & NA).
    destruct (AT p u f FA) as (_ & H). apply H; [|exact NA]. unfold has_size in HS. congruence.
Qed.
Print Assumptions C94_written.

(** ** Examples *)
Local Open Scope string_scope.
Local Open Scope list_scope.
Local Open Scope N_scope.

(** Two units with a copy each of a function in a header, one of which is called by a function that is known only as a
    symbol. *)
Local Definition header_function (at_ address size : N) : die :=
  Die TagSubprogram at_ [AName (Some "get<int>"); ADeclFile (Some (Some "a.h", None)); ADeclLine (Some 3);
    ALowPc (Some address); AHighPcSize size] [].
Local Definition first_unit : unit_input :=
  mkUnitInput [AName (Some "a.cpp"); ALowPc (Some 4096); AHighPcSize 32]
    [ Die TagBase 20 [AName (Some "int"); AByteSize (Some 4)%Z] []; header_function 30 4096 10;
      Die TagSubprogram 40 [AName (Some "one"); ALowPc (Some 4112); AHighPcSize 16] [] ]
    None (Some "/src") false 4 8 (fun _ => None).
Local Definition second_unit : unit_input :=
  mkUnitInput [AName (Some "b.cpp"); ALowPc (Some 8192); AHighPcSize 32]
    [ header_function 130 8192 12; Die TagSubprogram 140 [AName (Some "declared"); ADeclaration (Some true)] [];
      Die TagVariable 150 [AName (Some "v"); AType (Some 20)] [] ]
    None (Some "/src") false 4 8 (fun _ => None).
Local Definition sample_program : program :=
  mkProgram (fun l a => if a =? 12288 then Some [mkInsn 12288 [232; 1] (Some (txt "call")) [txt "0x2000"] true false [PImm 8192]] else Some [])
    [mkSegment 12288 (repeat 0 16)] (fun _ => None) (fun a => None) (fun _ => []).
Local Definition sample : object_input :=
  mkObjectInput "a.out" false [] [mkObjectSection (Some ".text") None 4096 64]
    [mkObjectSymbol "get" OText 4096 10; mkObjectSymbol "start" OText 12288 16]
    [first_unit; second_unit] (fun _ => EncSigned) (fun _ => EndDefault) (fun _ => []) (fun _ => None) (Some sample_program).

Local Definition first_choice (n : N) : nat := O.
Local Definition lowest (l1 l2 : list N) (m : list (list N)) (n : nat) : nat := O.
Local Definition as_found (l : list (function_key * total)) : list (function_key * total) := l.
Local Definition letters (c : N) : bool := (N.leb 97 c && N.leb c 122)%N.
Local Definition sample_options (output : option string) : options :=
  match parse_options (mkCli output None None [] [] None [] []) with
  | Some o => o
  | None => mkOptions (mkPrintOpts false false false false false false false false false) 0 false false
      (mkCategoryOpts false false false false false) (mkFilterOpts None None [] None) SortNone
      (mkIgnoreOpts false false false false false false false false false false) []
  end.
Local Notation sample_run output t :=
  (run esc5 letters (txt "<html>") (txt "</html>") lowest as_found first_choice first_choice 5 (sample_options output) t).
Local Notation sample_send t :=
  (run_server esc5 letters (txt "<html>") (txt "</html>") lowest as_found first_choice first_choice 5 (sample_options (Some "http")) t).

Local Lemma sample_well_formed : well_formed sample.
Proof.
  split.
  - vm_compute. repeat (constructor; [cbn; intuition discriminate|]). constructor.
  - apply Forall_forall. intros d I. assert (C : forallb (fun d => negb (die_offset d =? u64_max)) (all_entries sample) = true) by reflexivity.
    rewrite forallb_forall in C. specialize (C d I). now apply negb_true_iff, N.eqb_neq in C.
Qed.
Local Lemma sample_told_apart : told_apart sample.
Proof.
  assert (H : forall u, In u (ob_units sample) -> has_items sample u).
  { intros u [<-|[<-|[]]]; right; left; vm_compute; discriminate. }
  split.
  - vm_compute. repeat (constructor; [cbn; intuition discriminate|]). constructor.
  - intros i j u v Eu Ev _. left. apply H. now apply nth_error_In in Eu.
  - intros u I. left. now apply H.
Qed.
Local Lemma sample_letters : plain_letters esc5.
Proof.
  intros c I. assert (C : forallb (fun c => text_eqb (esc5 c) [c]) label_letters = true) by (vm_compute; reflexivity).
  rewrite forallb_forall in C. now apply text_eqb_spec, C.
Qed.
Local Lemma sample_mnemonics : plain_mnemonics esc5 (ob_program sample).
Proof.
  intros q bytes a insns i m E D I M. injection E as <-. cbn [sample_program pg_disasm] in D.
  destruct (a =? 12288); injection D as <-; [destruct I as [<-|[]]; injection M as <-; reflexivity|destruct I].
Qed.

(** The pages of all ways to run the program; a name with [<] in it is part of the text of each. *)
Example C92_example :
  escape_ok esc5 unescape5 /\ plain_letters esc5 /\ plain_mnemonics esc5 (ob_program sample) /\
  o_html (sample_options (Some "html")) = true /\ o_html (sample_options (Some "http")) = true /\
  (forall t, In t [ToPrint sample; ToSize sample; ToCompare sample sample] ->
     exists page es, sample_run (Some "html") t = Some (txt "<html>" ++ page ++ txt "</html>") /\
       read_html unescape5 page = Some es /\ contains page (txt "get&lt;int&gt;") /\ contains (content es []) (txt "get<int>")) /\
  (forall p, In p ["/id/2"; "/id/2/code"; "/id/2/parent"; "/"; "/nothing"; "/id/70"] -> sample_send (ToPrint sample) p <> None) /\
  sample_send (ToPrint sample) "/id/5/parent" = Some (txt "4") /\
  (exists page es, sample_send (ToSize sample) "/id/5" = Some page /\ read_html unescape5 page = Some es /\
     contains (content es []) (txt "start")).
Proof.
  split; [exact C28_escape_ok|]. split; [exact sample_letters|]. split; [exact sample_mnemonics|]. split; [reflexivity|]. split; [reflexivity|].
  split; [|split; [|split]].
  - assert (H : forall t, In t [ToPrint sample; ToSize sample; ToCompare sample sample] ->
      match sample_run (Some "html") t with
      | Some r => 
          let page := firstn (List.length r - 13) (skipn 6 r) in
          text_eqb r (txt "<html>" ++ page ++ txt "</html>") &&
          match read_html unescape5 page with
          | Some es => holds (txt "get&lt;int&gt;") page && holds (txt "get<int>") (content es [])
          | None => false
          end
      | None => false
      end = true).
    { intros t [<-|[<-|[<-|[]]]]; vm_compute; reflexivity. }
    intros t I. specialize (H t I). destruct (sample_run (Some "html") t) as [r|]; [|discriminate]. cbv zeta in H.
    set (page := firstn (List.length r - 13) (skipn 6 r)) in *. apply andb_prop in H. destruct H as (R & H). apply text_eqb_spec in R.
    destruct (read_html unescape5 page) as [es|] eqn:ES; [|discriminate]. apply andb_prop in H. destruct H as (H1 & H2).
    exists page, es. rewrite R at 1. split; [reflexivity|]. split; [exact ES|]. split; now apply holds_spec.
  - intros p I. repeat (destruct I as [<-|I]); try contradiction; vm_compute; discriminate.
  - vm_compute. reflexivity.
  - assert (H : match sample_send (ToSize sample) "/id/5" with
      | Some page => match read_html unescape5 page with Some es => holds (txt "start") (content es []) | None => false end
      | None => false end = true) by (vm_compute; reflexivity).
    destruct (sample_send (ToSize sample) "/id/5") as [page|]; [|discriminate]. destruct (read_html unescape5 page) as [es|] eqn:E; [|discriminate].
    exists page, es. split; [reflexivity|]. split; [exact E|]. now apply holds_spec.
Qed.

(** The symbol [start] is function 0 of the unit after those of the file. *)
Example C93_example :
  well_formed sample /\ told_apart sample /\ (forall c x, In x (esc5 c) -> x <> 60) /\
  o_html (sample_options (Some "http")) = true /\ o_http (sample_options (Some "http")) = true /\
  (N.of_nat (List.length (fst (assign_ids (loaded_units first_choice sample)))) = 11) /\
  (exists u f, IdSpec.names (loaded_units first_choice sample) (IdFunction 2 0) (ItFunction u f) /\ fn_name f = Some "start" /\
     carried_id (load first_choice sample) (ItFunction u f) = 9%nat) /\
  (exists page, sample_send (ToPrint sample) "/" = Some page) /\ (exists page, sample_send (ToSize sample) "/" = Some page).
Proof.
  split; [exact sample_well_formed|]. split; [exact sample_told_apart|].
  split; [intros c x I; destruct (esc_safe _ _ C28_escape_ok c x I) as (H & _); exact H|].
  split; [reflexivity|]. split; [reflexivity|]. split; [vm_compute; reflexivity|].
  split; [|split; (eexists; vm_compute; reflexivity)].
  do 2 eexists. split; [econstructor; vm_compute; reflexivity|]. split; vm_compute; reflexivity.
Qed.

Example C94_example :
  Forall symbol_in_bounds (parse_symbols (ob_symbols sample)) /\ (forall l, Permutation (as_found l) l) /\
  o_html (sample_options None) = false /\
  sample_run None (ToSize sample) = Some (write_lines
    [Line 0 (txt "22 get<int> a.h:3"); Line 1 (txt "10 /src/a.cpp"); Line 1 (txt "12 /src/b.cpp"); Line 2 (txt "start");
     Line 0 (txt "16 one"); Line 1 (txt "16 /src/a.cpp"); Line 0 (txt "16 start"); Line 1 (txt "16 <symtab>")]).
Proof.
  split; [repeat constructor|]. split; [intros l; reflexivity|]. split; [reflexivity|]. vm_compute. reflexivity.
Qed.
Example C94_example_written :
  (forall u t d, In u (ob_units sample) -> found (ui_children u) t d -> die_tag d = TagSubprogram ->
     exists a n r, occupies (unit_base u) (die_attrs d) a n r /\ Forall (fun x => rbegin x <= rend x /\ rend x < 2 ^ 64)%N r) /\
  (forall p, ob_program sample = Some p -> Forall good_segment (pg_regions p) /\
     forall l a insns, pg_disasm p l a = Some insns -> Forall reads_fit insns).
Proof.
  split.
  - intros u t d Iu F T. apply found_entry in F.
    assert (C : In d [header_function 30 4096 10; nth 2 (ui_children first_unit) (header_function 0 0 0); header_function 130 8192 12;
      nth 1 (ui_children second_unit) (header_function 0 0 0)] /\ unit_base u <> None).
    { destruct Iu as [<-|[<-|[]]]; cbn in F; repeat (destruct F as [<-|F]); try discriminate T; try contradiction; cbn; (split; [tauto|discriminate]). }
    destruct C as (C & _). repeat (destruct C as [<-|C]); try contradiction.
    + exists 4096, 10, [mkRange 4096 4106]. split; [apply (occ_length _ _ 4096 10); try reflexivity; discriminate|]. repeat constructor; cbn [rbegin rend]; lia.
    + exists 4112, 16, [mkRange 4112 4128]. split; [apply (occ_length _ _ 4112 16); try reflexivity; discriminate|]. repeat constructor; cbn [rbegin rend]; lia.
    + exists 8192, 12, [mkRange 8192 8204]. split; [apply (occ_length _ _ 8192 12); try reflexivity; discriminate|]. repeat constructor; cbn [rbegin rend]; lia.
    + exists opt64_none, opt64_none, []. split; [apply occ_nowhere; reflexivity|constructor].
  - intros p E. injection E as <-. split.
    + repeat constructor; vm_compute; intuition discriminate.
    + intros l a insns D. cbn [sample_program pg_disasm] in D. destruct (a =? 12288); injection D as <-; repeat constructor.
      intros op x y size I R. destruct I as [<-|[]]. inversion R.
Qed.

(** The report fails for a function that ends before it starts, as one of negative length does. *)
Local Definition backwards : object_input :=
  mkObjectInput "a.out" false [] [] []
    [mkUnitInput [] [Die TagSubprogram 30 [AName (Some "f"); ALowPc (Some 4100); AHighPcSize (2 ^ 64 - 4)] []] None None false 4 8 (fun _ => None)]
    (fun _ => EncSigned) (fun _ => EndDefault) (fun _ => []) (fun _ => None)
    (Some (mkProgram (fun _ _ => Some []) [mkSegment 4096 (repeat 0 16)] (fun _ => None) (fun _ => None) (fun _ => []))).
Local Definition backwards_unit : unit_input := nth 0 (ob_units backwards) first_unit.
Local Definition backwards_function : dw_function :=
  mkFunction 30 None (Some "f") None no_source 4100 (2 ^ 64 - 4) [mkRange 4100 4096] false false [] type_offset_none.
Theorem C94_written_refuted : exists ob,
  well_formed ob /\ Forall symbol_in_bounds (parse_symbols (ob_symbols ob)) /\
  (forall u t d, In u (ob_units ob) -> found (ui_children u) t d -> die_tag d = TagSubprogram ->
     exists a n r, occupies (unit_base u) (die_attrs d) a n r) /\
  (forall p, ob_program ob = Some p -> Forall good_segment (pg_regions p) /\
     forall l a insns, pg_disasm p l a = Some insns -> Forall reads_fit insns) /\
  forall esc alnum header footer choose order ca cb fuel o, (forall l, Permutation (order l) l) ->
    run esc alnum header footer choose order ca cb fuel o (ToSize ob) = None.
Proof.
  assert (WF : well_formed backwards).
  { split.
    - vm_compute. repeat (constructor; [cbn; intuition discriminate|]). constructor.
    - repeat constructor; vm_compute; discriminate. }
  assert (SB : Forall symbol_in_bounds (parse_symbols (ob_symbols backwards))).
  { assert (E : parse_symbols (ob_symbols backwards) = []) by (vm_compute; reflexivity). rewrite E. constructor. }
  assert (OC : occupies (unit_base backwards_unit) [AName (Some "f"); ALowPc (Some 4100); AHighPcSize (2 ^ 64 - 4)] 4100 (2 ^ 64 - 4) [mkRange 4100 4096]).
  { apply (occ_length _ _ 4100 (2 ^ 64 - 4)); try reflexivity; discriminate. }
  exists backwards. split; [exact WF|]. split; [exact SB|]. split; [|split].
  - intros u t d [<-|[]] F T. apply found_entry in F. destruct F as [<-|[]]. eauto.
  - intros p E. injection E as <-. split.
    + repeat constructor; vm_compute; intuition discriminate.
    + intros l a insns D. injection D as <-. constructor.
  - intros esc alnum header footer choose order ca cb fuel o ORDER. cbn [run].
    destruct (size_report ca backwards order) as [d|] eqn:E; [exfalso|reflexivity].
    destruct (report_shown ca backwards WF SB order ORDER d 0 E) as (all & rows & who & SF & _ & _ & _ & CA & _).
    destruct SF as (gs & claimed & unclaimed & EA & _ & _ & ALL & _).
    assert (I : In (backwards_unit, backwards_function) gs).
    { apply (ALL _ (nth 0 (ui_children backwards_unit) (header_function 0 0 0))); [now left| |discriminate].
      refine (desc_own _ _ _ _ 30 _ _ 4100 (2 ^ 64 - 4) [mkRange 4100 4096] [] (loc_top _ _ _ _) _ OC _); [now left|reflexivity|constructor]. }
    assert (J : In (Described backwards_unit backwards_function) all).
    { rewrite EA. apply in_app_iff. left. apply in_map_iff. now exists (backwards_unit, backwards_function). }
    specialize (CA 0). cbn [backwards ob_program pg_disasm pg_regions] in CA. revert J. clear - CA.
    induction CA as [|x cs l k B CA IH]; [intros []|]. intros [->|J]; [|now apply IH].
    cbn [si_ranges backwards_function fu_ranges] in B. inversion B as [|r rs c cs' P Q]; subst. vm_compute in P. discriminate.
Qed.
Print Assumptions C94_written_refuted.
