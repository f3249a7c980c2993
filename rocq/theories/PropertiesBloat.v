(** Properties of the report of function sizes. *)
From Coq Require Import List NArith ZArith Bool Lia String Permutation Sorted.
From Verif Require Import Base BaseProofs RangeModel TypeModel NamespaceModel DieModel FileModel
  CfiModel LocationModel PrintModel PrintSpec PrintProofs NameModel CodeModel CodeSpec CodeProofs BloatModel BloatSpec BloatProofs.
From Verif Require EntryProofs.
From Verif Require DieSpec PropertiesDie.
Import ListNotations.
Local Open Scope N_scope.

(** ** C41: the report of function sizes *)

(** Each line of the report stands for all copies of one function, and its size is the sum of
    their sizes; there are no two lines for the same name and source.  In whatever order the
    groups come out of the map. *)
Theorem C41_groups units order k t :
  Permutation order (groups units) -> In (k, t) (bloat_totals order) ->
  copies units (fst k) (snd k) (to_functions t) /\ to_functions t <> [] /\
  (forall ns, sizes units (to_functions t) ns -> to_size t = sum ns mod 2 ^ 64) /\
  forall t', In (k, t') (bloat_totals order) -> t' = t.
Proof.
  intros P H.
  assert (P' : Permutation (bloat_totals order) (groups units)) by (unfold bloat_totals; now rewrite stable_sort_perm).
  pose proof (Permutation_in _ P' H) as G. destruct (groups_ok units k t G) as (A & B & C).
  split; [exact A|]. split; [exact B|]. split; [exact C|]. intros t' H'. apply (Permutation_in _ P') in H'.
  pose proof (groups_keys units) as D. clear - G H' D. induction (groups units) as [|[k0 t0] g IH]; [destruct G|].
  cbn in D. inversion D as [|? ? D1 D2]; subst. destruct G as [G|G], H' as [H'|H']; try (injection G as -> ->); try (injection H' as -> ->).
  - congruence.
  - exfalso. apply D1. exact (in_map fst _ _ H').
  - exfalso. apply D1. exact (in_map fst _ _ G).
  - now apply IH.
Qed.
Print Assumptions C41_groups.

(** Every function with a size is in the report. *)
Theorem C41_covered units order p u f n :
  Permutation order (groups units) -> function_at units p u f -> has_size f n ->
  exists t, In (key_of u f, t) (bloat_totals order) /\ In p (to_functions t).
Proof.
  intros P F S. destruct (groups_cover units p u f n F S) as (t & H & I). exists t. split; [|exact I].
  unfold bloat_totals. apply (Permutation_in _ (Permutation_sym (stable_sort_perm by_size order))).
  exact (Permutation_in _ (Permutation_sym P) H).
Qed.
Print Assumptions C41_covered.

(** The sizes of the lines add up to the sizes of all functions. *)
Theorem C41_total units order ps ns :
  Permutation order (groups units) -> all_sized units ps -> sizes units ps ns ->
  sum (map (fun e => to_size (snd e)) (bloat_totals order)) mod 2 ^ 64 = sum ns mod 2 ^ 64 /\
  (sum ns < 2 ^ 64 -> sum (map (fun e => to_size (snd e)) (bloat_totals order)) = sum ns).
Proof.
  intros P A S. destruct (groups_sum units ps ns A S) as (ex & E & M).
  assert (P' : Permutation (bloat_totals order) (groups units)) by (unfold bloat_totals; now rewrite stable_sort_perm).
  rewrite (sum_perm _ _ (Permutation_map (fun e => to_size (snd e)) P')), M, <- E. split; [exact (sum_mod ex)|].
  intros B. f_equal. transitivity (map (fun x : N => x) ex); [|apply map_id]. apply map_ext_in. intros x Hx.
  apply N.mod_small. pose proof (sum_le x ex Hx). change two64 with (2 ^ 64). lia.
Qed.
Print Assumptions C41_total.

(** The largest come first. *)
Theorem C41_order order :
  StronglySorted (fun a b => to_size (snd b) <= to_size (snd a)) (bloat_totals order).
Proof.
  pose proof (stable_sort_sorted by_size by_size_preorder order) as S. unfold bloat_totals.
  induction S as [|x l S IH H]; constructor; [exact IH|]. eapply Forall_impl; [|exact H].
  intros y. unfold le_cmp, by_size. now rewrite N.compare_le_iff.
Qed.
Print Assumptions C41_order.

(** Below each copy are listed the functions that call its address, once for each call, in the
    order of the file. *)
Theorem C41_callers disasm segments units ps :
  Forall good_segment segments -> ranges_ok units ->
  (forall l a insns, disasm l a = Some insns -> Forall reads_fit insns) -> all_sized units ps ->
  exists m, callers (Some (code_calls disasm segments)) units = Done m /\ forall a,
    called_from (fun r cs => exists insns, code_of disasm segments r insns /\ all_calls segments insns cs)
      units a ps (m a).
Proof.
  intros F R D A.
  assert (X : forall r, range_ok r -> exists insns cs, code_calls disasm segments r = Done cs /\
                code_of disasm segments r insns /\ all_calls segments insns cs).
  { intros r [H1 H2]. apply code_calls_spec; [exact F|exact H1|exact H2|]. intros l insns. apply D. }
  pose proof (callers_done (code_calls disasm segments) units R) as Y.
  assert (Z : forall r, range_ok r -> code_calls disasm segments r <> Panic).
  { intros r Hr. destruct (X r Hr) as (i & cs & -> & _). discriminate. }
  specialize (Y Z). destruct (callers _ units) as [m|] eqn:E; [|congruence]. exists m. split; [reflexivity|].
  intros a. refine (called_impl _ _ units a ps (m a) R _ (callers_spec _ units m ps a E A)).
  intros r cs Hr Ec. destruct (X r Hr) as (insns & ds & Ed & C & L). rewrite Ec in Ed. injection Ed as ->.
  now exists insns.
Qed.
Print Assumptions C41_callers.

(** The report is printed unless a function with a size has no address. *)
Theorem C41_panics units order code m :
  Permutation order (groups units) -> callers code units = Done m ->
  (bloat_doc units (bloat_totals order) m = Panic <->
   exists p u f n, function_at units p u f /\ has_size f n /\ opt64_get (sf_address f) = None).
Proof. apply bloat_done. Qed.
Print Assumptions C41_panics.

(** What is written: the groups in their order, and below each its copies and their callers. *)
Local Lemma seq_lines depth i l : lines depth i (seq_docs l) = List.concat (map (lines depth i) l).
Proof. induction l as [|d l IH]; [reflexivity|]. cbn [map List.concat]. rewrite <- IH. reflexivity. Qed.
Local Lemma all_done_lines {A} (f : A -> outcome pdoc) (R : A -> list line -> Prop) depth i l ds :
  (forall x d, f x = Done d -> R x (lines depth i d)) -> all_done (map f l) = Done ds ->
  Forall2 R l (map (lines depth i) ds).
Proof.
  intros H. revert ds. induction l as [|x l IH]; intros ds; cbn [map all_done].
  - intros [= <-]. constructor.
  - destruct (f x) as [d|] eqn:E; [|discriminate]. destruct (all_done (map f l)) as [ds'|]; [|discriminate].
    intros [= <-]. constructor; auto.
Qed.
Local Lemma at_position_in units p u f : at_position units p = Done (u, f) -> function_at units p u f.
Proof.
  unfold at_position, function_at. destruct (nth_error units (fst p)) as [v|]; [|discriminate].
  destruct (nth_error (su_functions v) (snd p)) as [g|] eqn:E; [|discriminate]. intros [= <- <-]. now split.
Qed.
Local Lemma line_unless indent v t : text_value v = t -> forall depth, lines depth indent (PLine [] v) = line_unless_empty indent t.
Proof. intros <- depth. cbn [lines]. destruct (text_value v); reflexivity. Qed.
Theorem C41_lines units totals m d depth :
  bloat_doc units totals m = Done d ->
  exists ls, Forall2 (total_lines units m) totals ls /\
    fst (print_doc text_printer false d (text_start depth)) = write_lines (List.concat ls).
Proof.
  unfold bloat_doc. destruct (all_done _) as [ds|] eqn:E; [|discriminate]. intros [= <-].
  exists (map (lines depth 0) ds). split; [|rewrite text_printed, write_lines_out; cbn [ts_depth ts_indent text_start]; now rewrite seq_lines]. revert E. apply all_done_lines. clear.
  intros t d. unfold total_doc. destruct (all_done _) as [ds|] eqn:E; [|discriminate]. intros [= <-].
  exists (map (lines depth 1) ds). split.
  - revert E. apply all_done_lines. clear. intros p d. unfold copy_doc.
    destruct (at_position units p) as [[u f]|] eqn:AP; [|discriminate].
    destruct (opt64_get (sf_address f)) as [a|] eqn:EA; [|discriminate].
    destruct (opt64_get (sf_size f)) as [n|] eqn:ES; [|discriminate].
    unfold bloat_callers. destruct (all_done _) as [ds|] eqn:E; [|discriminate]. intros [= <-].
    exists u, f, a, n, (map (lines depth 2) ds). split; [now apply at_position_in|]. split; [exact EA|]. split; [exact ES|]. split.
    + revert E. apply all_done_lines. clear. intros q d. unfold caller_line.
      destruct (at_position units q) as [[u f]|] eqn:AP; [|discriminate]. intros [= <-]. exists u, f.
      split; [now apply at_position_in|]. apply line_unless. cbn [text_value ref_value]. unfold with_source.
      destruct (source_text _ _); reflexivity.
    + cbn [lines]. rewrite seq_lines. cbn [text_value labelled].
      pose proof (EntryProofs.dec_nonempty n) as N. destruct (dec n); [congruence|reflexivity].
  - cbn [lines]. rewrite seq_lines. cbn [text_value labelled]. unfold key_text, with_source.
    pose proof (EntryProofs.dec_nonempty (to_size (snd t))) as N. destruct (dec (to_size (snd t))); [congruence|]. cbn [app].
    destruct t as [[name source] t]. cbn [fst snd]. destruct source; reflexivity.
Qed.
Print Assumptions C41_lines.

(** Functions read from DWARF that have a size have an address. *)
Theorem C41_dwarf cx top s f :
  DieSpec.distinct_offsets top -> parse_items cx top = Some s -> In f (ws_functions s) ->
  (forall t d, DieSpec.found top t d -> die_tag d = TagSubprogram ->
     exists a n r, DieSpec.occupies (cx_low_pc cx) (die_attrs d) a n r) ->
  opt64_get (fu_size f) <> None -> opt64_get (fu_address f) <> None.
Proof.
  intros D E I O. destruct (PropertiesDie.C35_own cx top s f D E I) as (t & d & F & T & _ & A & _).
  destruct (O t d F T) as (a & n & r & Oc). destruct (A a n r Oc) as (-> & -> & _).
  unfold opt64_get, opt64_is_none. inversion Oc as [rs kept size G B K S| | a' h _ _ N _ _ _| |a' n' _ _ N _ _|]; subst;
    try (rewrite N.eqb_refl; congruence).
  - intros _. set (kept := filter _ rs) in *.
    destruct kept as [|[x y] l] eqn:Ek; cbn; [discriminate|].
    assert (Hin : In (x, y) (filter (fun p => fst p <? snd p) rs)) by (fold kept; rewrite Ek; now left).
    apply filter_In in Hin as [Hin Hlt]. apply N.ltb_lt in Hlt. rewrite Forall_forall in B.
    specialize (B _ Hin). cbn [fst snd] in *. unfold opt64_none, u64_max, two64 in *.
    destruct (N.eqb_spec x 18446744073709551615); [lia|discriminate].
  - intros _. destruct (N.eqb_spec a opt64_none); [contradiction|discriminate].
  - intros _. destruct (N.eqb_spec a opt64_none); [contradiction|discriminate].
Qed.
Print Assumptions C41_dwarf.

(** Two copies of [f], a function called [g] that calls it twice, and a function without a size. *)
Definition ex_at (file : string) : source := mkSource None (Some file) 3 0.
Definition ex_units : list sized_unit :=
  [ mkSizedUnit (Some "a.c"%string) None
      [ mkSized 1 None (Some "f"%string) (ex_at "f.h") 8192 10 [mkRange 8192 8202];
        mkSized 2 None (Some "g"%string) (ex_at "a.c") 4096 8 [mkRange 4096 4104] ];
    mkSizedUnit (Some "b.c"%string) None
      [ mkSized 4 None (Some "f"%string) (ex_at "f.h") 8208 12 [mkRange 8208 8220];
        mkSized 5 None (Some "h"%string) (ex_at "b.c") opt64_none opt64_none [] ] ].
Definition ex_calls (r : range) : outcome (list call) :=
  Done (if rbegin r =? 4096 then [mkCall 4096 8192; mkCall 4098 8192; mkCall 4100 8208] else []).
Example C41_example :
  bloat_totals (groups ex_units) =
    [ ((txt "f", txt "f.h:3"), mkTotal 22 [(0, 0); (1, 0)]%nat);
      ((txt "g", txt "a.c:3"), mkTotal 8 [(0, 1)]%nat) ] /\
  exists m, callers (Some ex_calls) ex_units = Done m /\ m 8192 = [(0, 1); (0, 1)]%nat /\ m 8208 = [(0, 1)]%nat.
Proof. split; [vm_compute; reflexivity|]. eexists. split; [reflexivity|]. now split. Qed.
Example C41_example_text : exists m d, callers (Some ex_calls) ex_units = Done m /\
  bloat_doc ex_units (bloat_totals (groups ex_units)) m = Done d /\
  fst (print_doc text_printer false d (text_start 1)) =
    txt "22 f f.h:3" ++ newline ++ [9] ++ txt "10 a.c" ++ newline ++ [9; 9] ++ txt "g a.c:3" ++ newline ++
    [9; 9] ++ txt "g a.c:3" ++ newline ++ [9] ++ txt "12 b.c" ++ newline ++ [9; 9] ++ txt "g a.c:3" ++ newline ++
    txt "8 g a.c:3" ++ newline ++ [9] ++ txt "8 a.c" ++ newline.
Proof. eexists _, _. split; [reflexivity|]. split; [vm_compute; reflexivity|]. vm_compute. reflexivity. Qed.

(** Such a function makes the tool panic. *)
Theorem C41_no_address_refuted : exists units m, callers None units = Done m /\
  bloat_doc units (bloat_totals (groups units)) m = Panic.
Proof.
  exists [mkSizedUnit None None [mkSized 1 None None (ex_at "a") opt64_none 4 []]]. eexists.
  split; reflexivity.
Qed.
Print Assumptions C41_no_address_refuted.

(** Sizes that add up to more than a 64-bit number are shown wrapped. *)
Theorem C41_wraps_refuted : exists units k t ns,
  In (k, t) (bloat_totals (groups units)) /\ sizes units (to_functions t) ns /\ to_size t <> sum ns.
Proof.
  pose (f := mkSized 1 None None (ex_at "a") 1 (2 ^ 63) []).
  exists [mkSizedUnit None None [f; f]]. eexists _, _, [2 ^ 63; 2 ^ 63]. split; [left; reflexivity|].
  split; [|vm_compute; discriminate].
  do 2 (eapply sz_cons; [split; reflexivity|reflexivity|]). constructor.
Qed.
Print Assumptions C41_wraps_refuted.
