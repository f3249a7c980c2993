(** What the web server sends, and the pages that a browser completes from it (property C79). *)
From Coq Require Import List Arith NArith Bool String Lia.
From Verif Require Import DieModel Base BaseProofs RangeModel TypeModel FileModel OptionsModel FilterModel FilterSpec
  PropertiesFilter PropertiesListing IdModel IdSpec IdProofs PropertiesIds HtmlSpec NameModel PrintModel RefModel LayoutModel ItemModel ItemProofs ItemShown
  CodeModel BloatModel EntryModel EntryProofs ReportModel ReportProofs PropertiesReport PropertiesHtml
  ServeModel ServeSpec ServeProofs ServeMore ServePage ServeCode.
Import ListNotations.
Local Open Scope string_scope.

(** ** Paths *)

(** The page for one file: every path that asks for something is answered by it, and the response
    to any other path is empty. *)
Theorem C79_paths : forall esc alnum header footer o pc fuel im path,
  let send := serve (serve_print_file esc alnum header footer o pc fuel im) in
  (forall r, asks path r -> send path =
     match r with
     | Whole => print_page esc alnum header footer o pc fuel im
     | Item n => print_id_response esc alnum o pc fuel im (N.to_nat n) None
     | Detail n d => print_id_response esc alnum o pc fuel im (N.to_nat n) (Some d)
     | Parent n => print_parent_response im (N.to_nat n)
     end) /\
  ((forall r, ~ asks path r) -> send path = Some []).
Proof.
  intros. split.
  - intros r A. subst send.
    exact (print_asks (print_page esc alnum header footer o pc fuel im)
             (fun n => print_id_response esc alnum o pc fuel im (N.to_nat n) None)
             (fun n => print_parent_response im (N.to_nat n))
             (fun n d => print_id_response esc alnum o pc fuel im (N.to_nat n) (Some d)) path r A).
  - intros A. subst send.
    exact (print_asks_not (print_page esc alnum header footer o pc fuel im)
             (fun n => print_id_response esc alnum o pc fuel im (N.to_nat n) None)
             (fun n => print_parent_response im (N.to_nat n))
             (fun n d => print_id_response esc alnum o pc fuel im (N.to_nat n) (Some d)) path A).
Qed.
Print Assumptions C79_paths.

(** A comparison, and the report of sizes. *)
Theorem C79_paths_diff : forall esc alnum header footer o choose pc fuel ii path,
  let send := serve (serve_diff_file esc alnum header footer o choose pc fuel ii) in
  (asks_diff path Whole -> send path = diff_page esc alnum header footer o choose pc fuel ii) /\
  (forall n, asks_diff path (Item n) -> send path = diff_id_response esc alnum o choose pc fuel ii (N.to_nat n)) /\
  ((forall r, ~ asks_diff path r) -> send path = Some []).
Proof.
  intros. subst send.
  set (whole := diff_page esc alnum header footer o choose pc fuel ii).
  set (item := fun n => diff_id_response esc alnum o choose pc fuel ii (N.to_nat n)).
  repeat split.
  - exact (diff_asks whole item item (fun n _ => item n) path Whole).
  - intros n. exact (diff_asks whole item item (fun n _ => item n) path (Item n)).
  - exact (diff_asks_not whole item path).
Qed.
Print Assumptions C79_paths_diff.

Theorem C79_paths_sizes : forall esc alnum header footer o units totals m ids path,
  let send := serve (serve_bloat_file esc alnum header footer o units totals m ids) in
  (asks_sizes path Whole -> send path = bloat_page esc alnum header footer o units totals m) /\
  (forall n, asks_sizes path (Item n) -> send path = bloat_id_response esc alnum o units m ids (N.to_nat n)) /\
  ((forall r, ~ asks_sizes path r) -> send path = Some []).
Proof.
  intros. subst send.
  set (whole := bloat_page esc alnum header footer o units totals m).
  set (item := fun n => bloat_id_response esc alnum o units m ids (N.to_nat n)).
  repeat split.
  - exact (sizes_asks whole item item (fun n _ => item n) path Whole).
  - intros n. exact (sizes_asks whole item item (fun n _ => item n) path (Item n)).
  - exact (sizes_asks_not whole item path).
Qed.
Print Assumptions C79_paths_sizes.

(** ** What is sent for an id *)

Lemma asked_id n : (N.of_nat n < two64)%N -> id_text (written n) (N.of_nat n).
Proof. intros H. split; [apply written_numeral|unfold two64, u64_max in *; lia]. Qed.

(** Every item is sent for its id, as long as ids fit into 64 bits; the unit of an item is found from
    its id; the response for an id that was not given is empty. *)
Theorem C79_entry : forall esc alnum header footer o pc fuel im ids log,
  assign_ids (im_units im) = (ids, log) -> (N.of_nat (List.length ids) <= two64)%N ->
  let send := serve (serve_print_file esc alnum header footer o pc fuel im) in
  let html d := fst (print_doc (html_printer esc alnum (o_http o)) (o_http o) d (html_start (N.to_nat (o_inline_depth o)))) in
  (forall x i s, IdSpec.names (im_units im) x i -> numeral s (N.of_nat (id_of log x)) ->
     send ("/id/" ++ s) = option_map html (print_part o pc fuel im None i)) /\
  (forall x u f s, IdSpec.names (im_units im) x (ItFunction u f) -> numeral s (N.of_nat (id_of log x)) ->
     send ("/id/" ++ s ++ "/code") = option_map html (print_instructions (im_scene im) f) /\
     (forall d, one_part d -> d <> "parent" -> d <> "code" -> send ("/id/" ++ s ++ "/" ++ d) = Some [])) /\
  (forall x i a s, IdSpec.names (im_units im) x i -> in_unit x a -> numeral s (N.of_nat (id_of log x)) ->
     (x <> IdUnit a -> send ("/id/" ++ s ++ "/parent") = Some (number (id_of log (IdUnit a)))) /\
     (x = IdUnit a -> send ("/id/" ++ s ++ "/parent") = Some [])) /\
  (forall n s rest, (N.of_nat (List.length ids) <= n)%N -> id_text s n -> ends rest ->
     send ("/id/" ++ s ++ rest) = Some []).
Proof.
  intros esc alnum header footer o pc fuel im ids log A FIT send html.
  destruct (C23_bijection _ _ _ A) as (X & _ & Y & _). destruct (C23_parent _ _ _ A) as (P & Q).
  assert (ID : forall x i s, IdSpec.names (im_units im) x i -> numeral s (N.of_nat (id_of log x)) -> id_text s (N.of_nat (id_of log x))).
  { intros x i s N S. split; [exact S|]. destruct (X x i N) as [L _]. unfold two64, u64_max in *. lia. }
  assert (E1 : ends "") by now left.
  assert (one_code : one_part "code") by (intros a b E; do 5 (destruct a as [|? a]; try discriminate)).
  pose proof (C79_paths esc alnum header footer o pc fuel im) as PATHS. cbv zeta in PATHS. fold send in PATHS.
  split; [|split; [|split]].
  - intros x i s N S. rewrite (proj1 (PATHS _) (Item (N.of_nat (id_of log x)))) by (constructor; eauto).
    rewrite Nat2N.id. unfold print_id_response, print_index. rewrite A. cbn [fst]. destruct (X x i N) as [_ ->].
    destruct i; reflexivity.
  - intros x u f s N S. split.
    + pose proof (asks_detail s _ "code" "" (ID _ _ _ N S) one_code ltac:(discriminate) E1) as D. rewrite app_nil in D.
      etransitivity; [exact (proj1 (PATHS _) _ D)|]. cbn beta iota. rewrite Nat2N.id. unfold print_id_response, print_index. rewrite A. cbn [fst].
      destruct (X x _ N) as [_ ->]. reflexivity.
    + intros d O NP NC. pose proof (asks_detail s _ d "" (ID _ _ _ N S) O NP E1) as D. rewrite app_nil in D.
      etransitivity; [exact (proj1 (PATHS _) _ D)|]. cbn beta iota. rewrite Nat2N.id. unfold print_id_response, print_index. rewrite A. cbn [fst].
      destruct (X x _ N) as [_ ->]. apply String.eqb_neq in NC. now rewrite NC.
  - intros x i a s N U S.
    assert (E : send ("/id/" ++ s ++ "/parent") = print_parent_response im (id_of log x)).
    { pose proof (asks_parent s _ "" (ID _ _ _ N S) E1) as D. cbn [append] in D. etransitivity; [exact (proj1 (PATHS _) _ D)|]. cbn beta iota. now rewrite Nat2N.id. }
    rewrite E. unfold print_parent_response, print_index. rewrite A. cbn [fst snd]. split.
    + intros D. rewrite (P x i a N U D). reflexivity.
    + intros ->. destruct i as [u| | |]; try (inversion N; fail). now rewrite (Q a u N).
  - intros n s rest L S E.
    assert (U : forall d, print_id_response esc alnum o pc fuel im (N.to_nat n) d = Some []).
    { intros d. unfold print_id_response, print_index. rewrite A. cbn [fst]. rewrite Y by lia. reflexivity. }
    assert (V : print_parent_response im (N.to_nat n) = Some []).
    { unfold print_parent_response, print_index, print_parent. rewrite A. cbn [fst snd].
      rewrite (proj2 (nth_error_None ids (N.to_nat n))) by lia. reflexivity. }
    set (whole := print_page esc alnum header footer o pc fuel im).
    set (by_id := print_by_id (fun n => print_id_response esc alnum o pc fuel im (N.to_nat n) None)
                    (fun n => print_parent_response im (N.to_nat n))
                    (fun n d => print_id_response esc alnum o pc fuel im (N.to_nat n) (Some d))).
    change send with (serve (handler whole by_id)).
    destruct E as [->|(r & ->)].
    + rewrite app_nil, (handler_id whole by_id s n S). apply U.
    + rewrite (handler_more whole by_id s n r S). destruct (split_nonempty r) as (h & t & ->).
      cbn [by_id print_by_id]. destruct (String.eqb h "parent"); [exact V|apply U].
Qed.
Print Assumptions C79_entry.

(** ** Completing a page *)

(** If every item carries the id that it was given, then loading the entries of the page that is sent
    gives a page on which nothing is left to load, and which is the page that [-o html] writes,
    except that it has a link instead of every list of instructions; the instructions are sent for
    the path of that link. *)
Theorem C79_loading : forall esc alnum header footer o pc fuel im ids log page,
  (forall c x, In x (esc c) -> x <> 60%N) ->
  o_html o = true -> o_http o = true ->
  assign_ids (im_units im) = (ids, log) -> (N.of_nat (List.length ids) <= two64)%N ->
  (forall x i, IdSpec.names (im_units im) x i -> carried_id im i = id_of log x) ->
  let send := serve (serve_print_file esc alnum header footer o pc fuel im) in
  send "/" = Some page ->
  exists opened body,
    completes (fun n => send ("/id/" ++ written n)) page (header ++ opened ++ footer)%list /\
    complete opened /\
    linked (fun n => send ("/id/" ++ written n ++ "/code")) opened body /\
    print_page esc alnum header footer (without_http o) pc fuel im = Some (header ++ body ++ footer)%list.
Proof.
  intros esc alnum header footer o pc fuel im ids log page SAFE HTML HTTP A FIT CARRY send W.
  destruct (C79_entry esc alnum header footer o pc fuel im ids log A FIT) as (SENT & CODE & _).
  fold send in SENT, CODE. rewrite HTTP in SENT, CODE. cbv zeta in SENT, CODE.
  rewrite (proj1 (C79_paths esc alnum header footer o pc fuel im "/") Whole (asks_whole "" (or_introl eq_refl)) : send _ = _) in W.
  unfold print_page, whole_page in *. unfold print_page, whole_page in W.
  destruct (print_file o pc fuel im) as [d|] eqn:F; [|discriminate]. apply some_eq in W. subst page.
  rewrite same_file, F. cbn [option_map]. unfold print_web, web_printer, web_start. rewrite HTTP. cbn [without_http o_http o_inline_depth].
  set (depth := N.to_nat (o_inline_depth o)).
  assert (L : loadable esc alnum (fun n => send ("/id/" ++ written n)) depth d).
  { apply (loadable_file esc alnum o pc fuel im (fun n => send ("/id/" ++ written n)) depth HTML); [| | | |exact F].
    - intros u b U B. unfold sent. apply In_nth_error in U. destruct U as (k & U). pose proof (IdSpec.nm_unit _ _ _ U) as N.
      pose proof (CARRY _ _ N) as C. cbn [carried_id] in C. rewrite C, (SENT _ _ _ N (written_numeral _)). cbn [print_part]. rewrite B. reflexivity.
    - intros u t b U T B. unfold sent. apply In_nth_error in U, T. destruct U as (k & U), T as (j & T). pose proof (IdSpec.nm_type _ _ _ _ _ U T) as N.
      pose proof (CARRY _ _ N) as C. cbn [carried_id] in C. rewrite C, (SENT _ _ _ N (written_numeral _)). cbn [print_part]. rewrite B. reflexivity.
    - intros u t b U T B. unfold sent. apply In_nth_error in U, T. destruct U as (k & U), T as (j & T). pose proof (IdSpec.nm_function _ _ _ _ _ U T) as N.
      pose proof (CARRY _ _ N) as C. cbn [carried_id] in C. rewrite C, (SENT _ _ _ N (written_numeral _)). cbn [print_part]. rewrite B. reflexivity.
    - intros u t U T. unfold sent. apply In_nth_error in U, T. destruct U as (k & U), T as (j & T). pose proof (IdSpec.nm_variable _ _ _ _ _ U T) as N.
      pose proof (CARRY _ _ N) as C. cbn [carried_id] in C. rewrite C, (SENT _ _ _ N (written_numeral _)). reflexivity. }
  assert (K : linkable esc alnum (fun n => send ("/id/" ++ written n ++ "/code")) depth d).
  { apply (linkable_file esc alnum _ depth o pc fuel im HTML); [|exact F].
    intros u f c U T C. apply In_nth_error in U, T. destruct U as (k & U), T as (j & T). pose proof (IdSpec.nm_function _ _ _ _ _ U T) as N.
    pose proof (CARRY _ _ N) as E. cbn [carried_id] in E. rewrite E.
    rewrite (proj1 (CODE _ _ _ _ N (written_numeral _))), C. reflexivity. }
  destruct (load_page esc alnum SAFE _ depth d header footer L) as [LP LC].
  do 2 eexists. split; [exact LP|]. split; [exact LC|].
  split; [exact (linkable_linked esc alnum SAFE _ depth d K)|reflexivity].
Qed.
Print Assumptions C79_loading.

Lemma seq_docs_both esc alnum response depth l :
  (forall d, In d l -> loadable esc alnum response depth d /\ undetailed d) ->
  loadable esc alnum response depth (seq_docs l) /\ undetailed (seq_docs l).
Proof.
  intros H. induction l as [|d l IH]; [split; exact I|]. destruct (H d (or_introl eq_refl)) as [A B].
  destruct IH as [C D]; [intros x X; apply H; now right|]. split; split; assumption.
Qed.
Lemma tree_both esc alnum response depth c v d : loadable esc alnum response depth d /\ undetailed d ->
  loadable esc alnum response depth (PTree c (PLine [] v) d) /\ undetailed (PTree c (PLine [] v) d).
Proof. intros [A B]. split; split; [intros []|exact A|exact I|exact B]. Qed.
Lemma seq_docs_simple l : Forall simple l -> simple (seq_docs l).
Proof. induction 1; cbn; auto. Qed.
Lemma callers_simple units m a d : bloat_callers units m a = Done d -> simple d.
Proof.
  unfold bloat_callers. destruct (all_done _) as [l|] eqn:E; [|discriminate]. intros F. injection F as <-.
  apply seq_docs_simple. apply Forall_forall. intros x I. apply (all_done_in _ _ _ E) in I. apply in_map_iff in I.
  destruct I as (p & C & _). unfold caller_line in C. destruct (at_position units p) as [[u f]|]; [|discriminate].
  injection C as <-. apply simple_line.
Qed.

(** The same for the report of sizes, of which every copy of a function is loaded separately. *)
Theorem C79_loading_sizes : forall esc alnum header footer o units totals m ids page,
  (forall c x, In x (esc c) -> x <> 60%N) ->
  o_http o = true -> (N.of_nat (List.length ids) <= two64)%N ->
  (forall i k u f, nth_error units i = Some u -> nth_error (su_functions u) k = Some f ->
     nth_error ids (sf_id f) = Some (IdFunction i k)) ->
  let send := serve (serve_bloat_file esc alnum header footer o units totals m ids) in
  send "/" = Some page ->
  exists body body', page = (header ++ body ++ footer)%list /\
    bloat_page esc alnum header footer (without_http o) units totals m = Some (header ++ body' ++ footer)%list /\
    completes (fun n => send ("/id/" ++ written n)) page (header ++ body' ++ footer)%list /\
    complete body'.
Proof.
  intros esc alnum header footer o units totals m ids page SAFE HTTP FIT IDS send W.
  pose proof (C79_paths_sizes esc alnum header footer o units totals m ids) as PATHS. cbv zeta in PATHS. fold send in PATHS.
  rewrite (proj1 (PATHS "/") (asks_sizes_whole "" (or_introl eq_refl))) in W.
  unfold bloat_page, whole_page in *. unfold bloat_page, whole_page in W.
  destruct (bloat_doc units totals m) as [d|] eqn:F; [|discriminate]. cbn [ok_web option_map] in W. apply some_eq in W. subst page.
  cbn [option_map ok_web]. unfold print_web, web_printer, web_start. rewrite HTTP. cbn [without_http o_http o_inline_depth].
  set (depth := N.to_nat (o_inline_depth o)).
  assert (L : loadable esc alnum (fun n => send ("/id/" ++ written n)) depth d /\ undetailed d).
  { unfold bloat_doc in F. destruct (all_done _) as [l|] eqn:E; [|discriminate]. injection F as <-.
    apply seq_docs_both. intros x I. apply (all_done_in _ _ _ E) in I. apply in_map_iff in I.
    destruct I as (t & T & _). unfold total_doc in T. destruct (all_done (map (copy_doc _ _) _)) as [l'|] eqn:E'; [|discriminate].
    injection T as <-. apply tree_both. apply seq_docs_both. intros y J.
    apply (all_done_in _ _ _ E') in J. apply in_map_iff in J. destruct J as ([i k] & T & _).
    unfold copy_doc in T. destruct (at_position units (i, k)) as [[u f]|] eqn:P; [|discriminate].
    destruct (opt64_get (sf_address f)) as [a|] eqn:EA; [|discriminate].
    destruct (opt64_get (sf_size f)) as [z|]; [|discriminate].
    destruct (bloat_callers units m a) as [c|] eqn:EC; [|discriminate]. injection T as <-.
    unfold at_position in P. cbn [fst snd] in P. destruct (nth_error units i) as [u'|] eqn:EU; [|discriminate].
    destruct (nth_error (su_functions u') k) as [f'|] eqn:EF; [|discriminate]. injection P as <- <-.
    pose proof (IDS i k u' f' EU EF) as ID.
    pose proof (callers_simple _ _ _ _ EC) as SC.
    split; [|split; [exact Logic.I|apply flat_undetailed, simple_flat; exact SC]].
    split; [eexists; reflexivity|]. split; [|now apply simple_loadable].
    assert (IT : id_text (written (sf_id f')) (N.of_nat (sf_id f'))).
    { apply asked_id. assert (sf_id f' < List.length ids)%nat by (apply nth_error_Some; congruence). lia. }
    pose proof (asks_sizes_item _ _ "" IT (or_introl eq_refl)) as Q. rewrite app_nil in Q.
    rewrite (proj1 (proj2 (PATHS _)) _ Q), Nat2N.id. unfold bloat_id_response. rewrite ID. unfold bloat_id. cbn [fst snd].
    rewrite EU, EF, EA, EC. cbn [ok_web]. unfold print_web, web_printer, web_start. now rewrite HTTP. }
  destruct L as [L U].
  pose proof (undetailed_page esc alnum depth false d true false U) as E. unfold page_text in E. rewrite <- E.
  do 2 eexists. split; [reflexivity|]. split; [reflexivity|].
  exact (load_page esc alnum SAFE _ depth d header footer L).
Qed.
Print Assumptions C79_loading_sizes.

(** ** Examples *)

Fixpoint starts (p t : text) : bool :=
  match p, t with
  | [], _ => true
  | x :: p, y :: t => N.eqb x y && starts p t
  | _, [] => false
  end.
Fixpoint holds (p t : text) : bool := starts p t || match t with [] => false | _ :: t => holds p t end.
Lemma starts_spec p : forall t, starts p t = true <-> exists b, t = (p ++ b)%list.
Proof.
  induction p as [|x p IH]; intros t; [split; [now exists t|reflexivity]|]. destruct t as [|y t]; cbn.
  - split; [discriminate|]. intros (b & E). discriminate.
  - rewrite andb_true_iff, N.eqb_eq, IH. split.
    + intros (-> & b & ->). now exists b.
    + intros (b & E). injection E as -> ->. split; [reflexivity|now exists b].
Qed.
Lemma holds_spec p : forall t, holds p t = true <-> contains t p.
Proof.
  induction t as [|y t IH]; cbn [holds]; rewrite orb_true_iff, starts_spec.
  - split.
    + intros [(b & E)|E]; [|discriminate]. now exists [], b.
    + intros (a & b & E). left. destruct a; [now exists b|discriminate].
  - rewrite IH. split.
    + intros [(b & E)|(a & b & E)]; [now exists [], b|]. exists (y :: a), b. now rewrite E.
    + intros (a & b & E). destruct a as [|z a]; [left; now exists b|]. injection E as -> ->. right. now exists a, b.
Qed.

Local Open Scope N_scope.
Local Definition sample_types : list type := [mkType 1 (TBase (mkBase (Some "int") 4))].
Local Definition sample_env : type_env := fun off => find (fun t => N.eqb (t_offset t) off) sample_types.
Local Definition sample_size (t : type) : option N :=
  match byte_size 9 sample_env t with TypeModel.Done s => s | NoFuel => None end.
Local Definition sample_view : view :=
  mkView (mkHash sample_env sample_size "a.out")
    (fun t => match type_ref sample_env (fun _ => O) (fun _ => []) 9 t with Some v => v | None => VNil end)
    (fun _ => 1%nat) (fun _ => no_source) (fun _ => EncSigned) (fun _ => EndDefault) (fun _ => []).
Local Definition lowest (l1 l2 : list N) (m : list (list N)) (n : nat) : nat := O.
Local Definition one_function : func := mkFunc 20 None (Some "f") None None 4096 8 [mkRange 4096 4104] false false.
Local Definition one_variable : var := mkVar 40 None (Some "v<1>") None None 1 12288 u64_max false.
Local Definition the_program : program :=
  mkProgram (fun _ a => Some [mkInsn 4096 [232; 1] (Some (txt "call")) [txt "0x2000"] true false []])
    [mkSegment 4096 [232; 1; 0; 0; 0; 0; 0; 0]] (fun _ => None) (fun a => None) (fun _ => []).
Local Definition sample_scene : scene :=
  mkScene sample_view (fun _ => None) (fun _ => None) (fun _ => None) (fun _ => None)
    (fun f => 2%nat) (fun v => 3%nat) (fun f => u64_max)
    (fun _ => mkSource None (Some "a.c") 1 2) (fun _ => no_source)
    (fun f => mkDetails [] [] [] []) (Some the_program).
Local Definition sample_image (functions : list func) : image :=
  mkImage sample_scene "prog" [mkUnit (Some "a.c") [] sample_types functions [one_variable]]
    [] (fun _ => Some "/src") (fun _ => Some 4096%N) (fun _ => O).
Local Definition default_options : options :=
  mkOptions (mkPrintOpts false false false false false false false false false) 0 false false
    (mkCategoryOpts false false false false false) (mkFilterOpts None None [] None) SortNone
    (mkIgnoreOpts false false false false false false false false false false) [].
Local Definition web_options (what : list string) : options :=
  match parse_options (ex_cli (Some "http") None what [] None [] []) with Some o => o | None => default_options end.
Local Definition letters (c : N) : bool := (N.leb 97 c && N.leb c 122)%N.
Local Definition sample_send : string -> option text :=
  serve (serve_print_file esc5 letters (txt "<html>") (txt "</html>") (web_options ["source"]) ex_pc 3 (sample_image [one_function])).

Lemma asks_something path r : asks path r ->
  serve (handler (Some [1]) (print_by_id (fun _ => Some [1]) (fun _ => Some [1]) (fun _ _ => Some [1]))) path <> Some [].
Proof. intros A. rewrite (print_asks _ _ _ _ path r A). destruct r; discriminate. Qed.
Example C79_example :
  (asks "/id/2/code" (Detail 2 "code") /\ asks "/id/+2" (Item 2) /\ asks "//" Whole /\
   (forall r, ~ asks "/id/x" r) /\ (forall r, ~ asks "/id/18446744073709551616" r)) /\
  (sample_send "/id/2/parent" = Some (txt "0") /\ sample_send "/id/0/parent" = Some [] /\
   sample_send "/id/4" = Some [] /\ sample_send "/id/x" = Some [] /\ sample_send "/id/2" = sample_send "/id/+2" /\
   option_map (@List.length N) (sample_send "/id/2") <> Some O).
Proof.
  split.
  - split; [|split; [|split; [|split]]].
    + change "/id/2/code" with ("/id/" ++ "2" ++ "/" ++ "code" ++ ""). constructor.
      * apply numeral_parsed. reflexivity.
      * intros a b E. do 5 (destruct a as [|? a]; try discriminate).
      * discriminate.
      * now left.
    + apply (asks_item "+2" 2). apply numeral_parsed. reflexivity.
    + apply (asks_whole "/"). right. now exists "".
    + intros r A. apply asks_something in A. now vm_compute in A.
    + intros r A. apply asks_something in A. now vm_compute in A.
  - repeat split; try (vm_compute; reflexivity). vm_compute. discriminate.
Qed.

(** The page of a file with a type, a function and a variable: there are entries to load, and
    instructions. *)
Example C79_loading_example :
  let o := web_options ["source"] in
  let im := sample_image [one_function] in
  o_html o = true /\ o_http o = true /\
  fst (assign_ids (im_units im)) = [IdUnit 0; IdType 0 0; IdFunction 0 0; IdVariable 0 0] /\
  (forall x i, IdSpec.names (im_units im) x i -> carried_id im i = id_of (snd (assign_ids (im_units im))) x) /\
  (forall c x, In x (esc5 c) -> x <> 60) /\
  exists page page' code, sample_send "/" = Some page /\
    print_page esc5 letters (txt "<html>") (txt "</html>") (without_http o) ex_pc 3 im = Some page' /\
    contains page lazy_mark /\ ~ contains page (txt "v&lt;1&gt;") /\ contains page' (txt "v&lt;1&gt;") /\
    sample_send "/id/2/code" = Some code /\ contains code (txt "call") /\ contains page' (code_list code).
Proof.
  cbv zeta. split; [reflexivity|]. split; [reflexivity|]. split; [reflexivity|].
  split.
  { intros x i N. destruct N as [i u U|i k u t U T|i k u t U T|i k u t U T].
    all: destruct i as [|i]; [|destruct i; discriminate]; injection U as <-; try (vm_compute; reflexivity).
    all: destruct k as [|k]; [injection T as <-; vm_compute; reflexivity|destruct k; discriminate]. }
  split.
  { intros c x I. exact (proj1 (esc_safe _ _ C28_escape_ok c x I)). }
  do 3 eexists. split; [vm_compute; reflexivity|]. split; [vm_compute; reflexivity|].
  split; [apply holds_spec; vm_compute; reflexivity|].
  split; [rewrite <- holds_spec; vm_compute; discriminate|].
  split; [apply holds_spec; vm_compute; reflexivity|].
  split; [vm_compute; reflexivity|].
  split; apply holds_spec; vm_compute; reflexivity.
Qed.

(** Two copies of a function, each of which is called. *)
Local Definition copied (id : nat) (address : N) : sized_function :=
  mkSized id None (Some "f") (mkSource None (Some "f.h") 3 0) address 10 [mkRange address (address + 10)].
Local Definition copies : list sized_unit :=
  [mkSizedUnit (Some "a.c") None [copied 1 4096]; mkSizedUnit (Some "b.c") None [copied 3 8192]].
Local Definition copy_callers (a : N) : list caller := if a =? 4096 then [(1, 0)%nat] else [(0, 0)%nat; (0, 0)%nat].
Local Definition copy_ids : list item_id := [IdUnit 0; IdFunction 0 0; IdUnit 1; IdFunction 1 0].
Example C79_sizes_example :
  (forall i k u f, nth_error copies i = Some u -> nth_error (su_functions u) k = Some f ->
     nth_error copy_ids (sf_id f) = Some (IdFunction i k)) /\
  let send := serve (serve_bloat_file esc5 letters [] [] (web_options []) copies (bloat_totals (groups copies)) copy_callers copy_ids) in
  exists page one two, send "/" = Some page /\ send "/id/1" = Some one /\ send "/id/3/x" = Some two /\
    contains page (txt "20 f f.h:3") /\ contains page lazy_mark /\ one <> [] /\ List.length two = (2 * List.length one)%nat /\
    send "/id/2" = Some [] /\ send "/id/4" = Some [].
Proof.
  split.
  { intros i k u f U F. destruct i as [|[|i]]; [| |destruct i; discriminate]; injection U as <-;
      (destruct k as [|k]; [injection F as <-; reflexivity|destruct k; discriminate]). }
  cbv zeta. do 3 eexists. split; [vm_compute; reflexivity|]. split; [vm_compute; reflexivity|]. split; [vm_compute; reflexivity|].
  split; [apply holds_spec; vm_compute; reflexivity|]. split; [apply holds_spec; vm_compute; reflexivity|].
  split; [discriminate|]. split; [reflexivity|]. split; vm_compute; reflexivity.
Qed.

(** ** Comparisons *)

(** What is loaded for an item of one of the files is not marked as deleted or added, although it is
    on the page that [-o html] writes. *)
Theorem C79_deleted_refuted : exists esc alnum header footer o choose pc fuel ii n parent page' content line,
  let send := serve (serve_diff_file esc alnum header footer o choose pc fuel ii) in
  o_http o = true /\ o_html o = true /\
  send "/id/0" = Some parent /\ contains parent (lazy_mark ++ txt " id=""" ++ number n ++ txt """><span class=""field del"">")%list /\
  send ("/id/" ++ written n) = Some content /\
  diff_page esc alnum header footer (without_http o) choose pc fuel ii = Some page' /\
  contains page' (txt "<span class=""field del"">" ++ line)%list /\
  contains content (txt "<span class=""field"">" ++ line)%list /\
  ~ contains content (txt "field del") /\ ~ contains page' (txt "<span class=""field"">" ++ line)%list.
Proof.
  exists esc5, letters, [], [], (web_options []), lowest, ex_pc, 3%nat,
    (mkImages (sample_image [one_function]) (sample_image []) (fun a b => Eq)), 2%nat.
  do 3 eexists. exists (txt "a.c:1:2"). cbv zeta.
  split; [reflexivity|]. split; [reflexivity|]. split; [vm_compute; reflexivity|].
  split; [apply holds_spec; vm_compute; reflexivity|]. split; [vm_compute; reflexivity|]. split; [vm_compute; reflexivity|].
  split; [apply holds_spec; vm_compute; reflexivity|]. split; [apply holds_spec; vm_compute; reflexivity|].
  split; rewrite <- holds_spec; vm_compute; discriminate.
Qed.
Print Assumptions C79_deleted_refuted.

(** Every row of a comparison is sent for its id: the comparison of its items, or the item of one of
    the files.  For any other id the server fails. *)
Theorem C79_rows : forall c given esc alnum header footer o choose pc fuel ii,
  configured c o given ->
  let fa := im_units (is_a ii) in
  let fb := im_units (is_b ii) in
  let s := assign_merged_ids o pc (im_hash (is_a ii)) fa (im_hash (is_b ii)) fb in
  let send := serve (serve_diff_file esc alnum header footer o choose pc fuel ii) in
  let P := html_printer esc alnum (o_http o) in
  let start := html_start (N.to_nat (o_inline_depth o)) in
  (N.of_nat (List.length (ms_ids s)) <= two64)%N ->
  (forall n x y w, nth_error (ms_ids s) n = Some (x, y) -> numeral w (N.of_nat n) ->
     (forall i, IdSpec.names fa x i -> y = IdNone -> send ("/id/" ++ w) =
        option_map (fun d => fst (print_doc P (o_http o) d start)) (print_part o pc fuel (is_a ii) None i)) /\
     (forall j, x = IdNone -> IdSpec.names fb y j -> send ("/id/" ++ w) =
        option_map (fun d => fst (print_doc P (o_http o) d start)) (print_part o pc fuel (is_b ii) None j)) /\
     (forall i j, IdSpec.names fa x i -> IdSpec.names fb y j ->
        same_item given i j /\
        forall d, diff_part choose o pc fuel ii (DTwo i j) = Some (Compared d) ->
          send ("/id/" ++ w) = Some (fst (fst (diff_doc P (o_html o) (o_http o) d start false))))) /\
  (forall n w, id_text w n -> (N.of_nat (List.length (ms_ids s)) <= n)%N -> send ("/id/" ++ w) = None).
Proof.
  intros c given esc alnum header footer o choose pc fuel ii CF fa fb s send P start FIT.
  assert (ASK : forall n w, id_text w n -> send ("/id/" ++ w) = diff_id_response esc alnum o choose pc fuel ii (N.to_nat n)).
  { intros n w W. exact (proj1 (proj2 (C79_paths_diff esc alnum header footer o choose pc fuel ii ("/id/" ++ w))) n (asks_diff_item w n W)). }
  split.
  - intros n x y w E W.
    assert (T : id_text w (N.of_nat n)).
    { split; [exact W|]. assert (n < List.length (ms_ids s))%nat by (apply nth_error_Some; congruence). unfold two64, u64_max in *. lia. }
    rewrite (ASK _ _ T), Nat2N.id. unfold diff_id_response, diff_index. fold fa fb s.
    pose proof (C24_rows c o given pc (im_hash (is_a ii)) fa (im_hash (is_b ii)) fb n x y CF E) as R. fold s in R.
    assert (NN : forall f i, ~ IdSpec.names f IdNone i) by (intros f i H; inversion H).
    assert (ONE : forall f z i j, IdSpec.names f z i -> IdSpec.names f z j -> i = j).
    { intros f z i j A B. destruct A; inversion B; subst; congruence. }
    destruct R as [(i & j & A & B & S & _ & _ & ->)|[(i & A & -> & _ & ->)|(j & -> & B & _ & ->)]].
    + split; [intros i' A' ->; exfalso; exact (NN _ _ B)|]. split; [intros j' -> _; exfalso; exact (NN _ _ A)|].
      intros i' j' A' B'. rewrite (ONE _ _ _ _ A' A), (ONE _ _ _ _ B' B). split; [exact S|]. intros d D. rewrite D. reflexivity.
    + split; [|split; [intros j' -> _; exfalso; exact (NN _ _ A)|intros i' j' _ B'; exfalso; exact (NN _ _ B')]].
      intros i' A' _. rewrite (ONE _ _ _ _ A' A). cbn [diff_part]. destruct (print_part o pc fuel (is_a ii) None i); reflexivity.
    + split; [intros i' A'; exfalso; exact (NN _ _ A')|]. split; [|intros i' j' A'; exfalso; exact (NN _ _ A')].
      intros j' _ B'. rewrite (ONE _ _ _ _ B' B). cbn [diff_part]. destruct (print_part o pc fuel (is_b ii) None j); reflexivity.
  - intros n w W L. rewrite (ASK _ _ W). unfold diff_id_response, diff_index. fold fa fb s.
    rewrite C24_unknown_id_panics by lia. reflexivity.
Qed.
Print Assumptions C79_rows.

Example C79_rows_example :
  let ii := mkImages (sample_image [one_function]) (sample_image []) (fun a b => Eq) in
  let s := assign_merged_ids (web_options []) ex_pc (im_hash (is_a ii)) (im_units (is_a ii)) (im_hash (is_b ii)) (im_units (is_b ii)) in
  let send := serve (serve_diff_file esc5 letters [] [] (web_options []) lowest ex_pc 3 ii) in
  configured (ex_cli (Some "http") None [] [] None [] []) (web_options []) [] /\
  ms_ids s = [(IdUnit 0, IdUnit 0); (IdType 0 0, IdType 0 0); (IdFunction 0 0, IdNone); (IdVariable 0 0, IdVariable 0 0)] /\
  map (fun w => match send w with Some t => Some (negb (is_empty t)) | None => None end) ["/id/0"; "/id/2"; "/id/4"; "/id/2/x"]
    = [Some true; Some true; None; Some false].
Proof.
  cbv zeta. split; [split; [reflexivity|constructor]|]. split; vm_compute; reflexivity.
Qed.
