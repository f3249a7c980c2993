(** Text output and comparisons (properties C25, C26, C27 and C46). *)
From Coq Require Import List Arith NArith Bool String Lia.
From Verif Require Import PrintModel PrintSpec PrintProofs DepthProofs.
Import ListNotations.

Local Notation show := (print_doc text_printer false).
Local Notation compare_docs := (diff_doc text_printer false false).

(** ** C25: A diff of identical content is silent *)

(** The output has only lines that are common to both sides, the two sides have the same
    lines, and no difference is reported. *)
Theorem C25_silent : forall d s diff,
  identical (ts_depth s) d ->
  exists ls s',
    compare_docs d s diff = (write_marked ls, s', diff) /\
    (forall m l, In (m, l) ls -> m = Same) /\
    lines (ts_depth s) (ts_indent s) (old_side d) = lines (ts_depth s) (ts_indent s) (new_side d) /\
    (unhidden d -> ls = with_mark Same (lines (ts_depth s) (ts_indent s) (old_side d))).
Proof.
  intros d s f I. destruct (diff_doc_text d s f (identical_visible d _ I)) as (s' & E & _).
  rewrite (identical_changed d _ I), orb_false_r in E.
  exists (diff_lines (ts_depth s) (ts_indent s) d), s'. split; [exact E|]. split; [|split].
  - intros m l IN. pose proof (identical_marks d _ (ts_indent s) I) as M.
    destruct m; [reflexivity| |]; exfalso; apply eq_true_false_abs with (2 := M), existsb_exists;
      (eexists; split; [exact IN|reflexivity]).
  - now apply identical_sides.
  - now apply identical_lines.
Qed.
Print Assumptions C25_silent.

(** What is shown only if different prints nothing. *)
Theorem C25_hidden : forall d s diff,
  identical (ts_depth s) d -> compare_docs (DIfDiff d) s diff = ([], s, diff).
Proof.
  intros d s f I. cbn [diff_doc p_sub text_printer].
  destruct (diff_doc_text d s false (identical_visible d _ I)) as (s' & E & _). rewrite E.
  rewrite (identical_changed d _ I). cbn [orb]. now rewrite orb_false_r.
Qed.
Print Assumptions C25_hidden.

Local Definition t := txt.
Local Definition v (s : string) := VText (txt s).

Local Definition sample : ddoc :=
  DId 7 (DLine [] (VSeq (v "struct ") (VLink 3 (VName (t "S")))) (VSeq (v "struct ") (VName (t "S"))))
    (DSeq (DLine (t "size") (v "8") (v "8"))
    (DSeq (DSection true (t "members") (DInline (DLine [] (v "0[4] x") (v "0[4] x"))))
    (DIfDiff (DLine (t "line") (v "3") (v "3"))))).
Example C25_example :
  identical 1 sample /\
  fst (fst (compare_docs sample (text_start 1) false)) =
    txt "  struct S" ++ newline ++ txt "  " ++ [9%N] ++ txt "size: 8" ++ newline ++
    txt "  " ++ [9%N] ++ txt "members:" ++ newline ++
    txt "  " ++ [9%N; 9%N] ++ txt "0[4] x" ++ newline.
Proof. split; [cbn; repeat split|vm_compute; reflexivity]. Qed.

(** ** C26: Difference flag is exact for suppressible sections *)

(** A section shown only if different is shown exactly if there is a deleted or added
    line in it that is not under an ignore option; and then this counts as a difference
    for what it is in. *)
Theorem C26_shown_iff : forall d s diff,
  visible (ts_depth s) d ->
  exists differs : bool,
    compare_docs (DIfDiff d) s diff =
      (if differs then write_marked (diff_lines (ts_depth s) (ts_indent s) d) else [], s, diff || differs) /\
    (differs = true <->
     exists m l, In (m, l) (diff_lines (ts_depth s) (ts_indent s) (without_ignored d)) /\ m <> Same).
Proof.
  intros d s f V. exists (changed (ts_depth s) d). split.
  - cbn [diff_doc p_sub text_printer]. destruct (diff_doc_text d s false V) as (s' & E & _). rewrite E.
    now rewrite orb_false_r.
  - rewrite (proj1 (changed_without_ignored d (ts_depth s) (ts_indent s))), existsb_exists. split.
    + intros ([m l] & IN & M). exists m, l. split; [exact IN|]. intros ->. discriminate.
    + intros (m & l & IN & M). exists (m, l). split; [exact IN|]. now destruct m.
Qed.
Print Assumptions C26_shown_iff.

(** So nothing is lost: a section that is not shown, without ignore options, has the
    same lines on both sides. *)
Theorem C26_hidden_same : forall d s diff,
  visible (ts_depth s) d -> unignored d ->
  fst (fst (compare_docs (DIfDiff d) s diff)) = [] ->
  lines (ts_depth s) (ts_indent s) (old_side d) = lines (ts_depth s) (ts_indent s) (new_side d).
Proof.
  intros d s f V U E. apply unchanged_sides; [exact U|].
  destruct (changed (ts_depth s) d) eqn:C; [|reflexivity]. exfalso.
  cbn [diff_doc p_sub text_printer] in E. destruct (diff_doc_text d s false V) as (s' & E' & _).
  rewrite E', C in E. cbn [orb fst] in E.
  assert (H : is_empty (write_marked (diff_lines (ts_depth s) (ts_indent s) d)) = true) by (now rewrite E).
  rewrite write_marked_empty in H. apply is_empty_iff in H. revert H. now apply changed_lines.
Qed.
Print Assumptions C26_hidden_same.

(** The flag at the end of any comparison is exact. *)
Theorem C26_flag : forall d s diff,
  visible (ts_depth s) d ->
  snd (compare_docs d s diff) =
    diff || existsb is_marked (diff_lines (ts_depth s) (ts_indent s) (without_ignored d)).
Proof.
  intros d s f V. destruct (diff_doc_text d s f V) as (s' & E & _). rewrite E. cbn [snd].
  now rewrite (proj1 (changed_without_ignored d (ts_depth s) (ts_indent s))).
Qed.
Print Assumptions C26_flag.

(** Without the condition that what is deleted or added has output, this is false. *)
Theorem C26_invisible_refuted : exists d s,
  fst (fst (compare_docs (DIfDiff d) s false)) <> [] /\
  forall m l, In (m, l) (diff_lines (ts_depth s) (ts_indent s) d) -> m = Same.
Proof.
  exists (DSeq (DLine (t "size") (v "8") (v "8")) (DDelete (PLine [] (v "")))), (text_start 1).
  split; [vm_compute; discriminate|].
  cbn. intros m l [E|[]]. congruence.
Qed.
Print Assumptions C26_invisible_refuted.

Local Definition sample2 : ddoc :=
  DTree false (DLine [] (v "fn f") (v "fn f"))
    (DSeq (DIgnore true (DLine (t "size") (v "8") (v "9")))
    (DSeq (DLine (t "inline") (v "") (v "yes")) (DDelete (PLine [] (v "call"))))).
Example C26_example :
  visible 0 sample2 /\
  fst (fst (compare_docs (DIfDiff sample2) (text_start 0) false)) =
    txt "  fn f" ++ newline ++ txt "- " ++ [9%N] ++ txt "size: 8" ++ newline ++
    txt "+ " ++ [9%N] ++ txt "size: 9" ++ newline ++ txt "+ " ++ [9%N] ++ txt "inline: yes" ++ newline ++
    txt "- " ++ [9%N] ++ txt "call" ++ newline /\
  compare_docs (DIfDiff (DIgnore true (DLine (t "size") (v "8") (v "9")))) (text_start 0) false =
    ([], text_start 0, false).
Proof. split; [cbn; repeat split; discriminate|]. split; vm_compute; reflexivity. Qed.

(** ** C27: Inline depth limits nesting and is restored *)

(** The output, and whether there are differences, are those of the document without what
    is nested too deep; for text and for HTML. *)
Theorem C27_depth : forall d n m,
  fst (show d (text_start n)) = fst (show (cut n d) (text_start m)).
Proof.
  intros. pose proof (print_cut _ _ _ text_depth_ok false d n m (text_start n) eq_refl) as [_ R].
  change (text_redepth m (text_start n)) with (text_start m) in R. now rewrite R.
Qed.
Print Assumptions C27_depth.
Theorem C27_depth_diff : forall d n m diff,
  fst (fst (compare_docs d (text_start n) diff)) = fst (fst (compare_docs (cut_diff n d) (text_start m) diff)) /\
  snd (compare_docs d (text_start n) diff) = snd (compare_docs (cut_diff n d) (text_start m) diff).
Proof.
  intros. pose proof (diff_cut _ _ _ text_depth_ok false false d n m diff (text_start n) eq_refl) as [_ R].
  change (text_redepth m (text_start n)) with (text_start m) in R. now rewrite R.
Qed.
Print Assumptions C27_depth_diff.
Theorem C27_depth_html : forall esc alphanumeric http d n m,
  let P := html_printer esc alphanumeric http in
  fst (print_doc P http d (html_start n)) = fst (print_doc P http (cut n d) (html_start m)).
Proof.
  intros. pose proof (print_cut _ _ _ (html_depth_ok esc alphanumeric http) http d n m (html_start n) eq_refl) as [_ R].
  change (html_redepth m (html_start n)) with (html_start m) in R. subst P. now rewrite R.
Qed.
Print Assumptions C27_depth_html.
Theorem C27_depth_diff_html : forall esc alphanumeric http d n m diff,
  let P := html_printer esc alphanumeric http in
  fst (fst (diff_doc P true http d (html_start n) diff)) =
    fst (fst (diff_doc P true http (cut_diff n d) (html_start m) diff)) /\
  snd (diff_doc P true http d (html_start n) diff) = snd (diff_doc P true http (cut_diff n d) (html_start m) diff).
Proof.
  intros. pose proof (diff_cut _ _ _ (html_depth_ok esc alphanumeric http) true http d n m diff (html_start n) eq_refl) as [_ R].
  change (html_redepth m (html_start n)) with (html_start m) in R. subst P. now rewrite R.
Qed.
Print Assumptions C27_depth_diff_html.

(** Depth and indentation are restored, whatever is printed and whatever is skipped. *)
Theorem C27_restored : forall d s, snd (show d s) = s.
Proof. intros. now rewrite print_doc_text. Qed.
Print Assumptions C27_restored.
Theorem C27_restored_diff : forall d s diff,
  ts_depth (snd (fst (compare_docs d s diff))) = ts_depth s /\
  ts_indent (snd (fst (compare_docs d s diff))) = ts_indent s.
Proof.
  intros d s f. split; [|apply diff_indent_kept].
  apply (diff_cut _ _ _ text_depth_ok false false d (ts_depth s) 0 f s eq_refl).
Qed.
Print Assumptions C27_restored_diff.
Theorem C27_restored_html : forall esc alphanumeric http d e s diff,
  let P := html_printer esc alphanumeric http in
  hs_depth (snd (print_doc P http d s)) = hs_depth s /\
  hs_depth (snd (fst (diff_doc P true http e s diff))) = hs_depth s.
Proof.
  intros. split.
  - apply (print_cut _ _ _ (html_depth_ok esc alphanumeric http) http d (hs_depth s) 0 s eq_refl).
  - apply (diff_cut _ _ _ (html_depth_ok esc alphanumeric http) true http e (hs_depth s) 0 diff s eq_refl).
Qed.
Print Assumptions C27_restored_html.

Local Definition nest (name : string) (d : pdoc) : pdoc :=
  PTree true (PLine [] (v name)) (PInline d).
Local Definition nested : pdoc := PSeq (nest "a" (PSeq (nest "b" (nest "c" PNil)) (nest "d" PNil))) (nest "e" (PLine [] (v "f"))).
Example C27_example :
  fst (show nested (text_start 1)) =
    txt "a" ++ newline ++ [9%N] ++ txt "b" ++ newline ++ [9%N] ++ txt "d" ++ newline ++
    txt "e" ++ newline ++ [9%N] ++ txt "f" ++ newline /\
  fst (show nested (text_start 0)) = txt "a" ++ newline ++ txt "e" ++ newline.
Proof. split; vm_compute; reflexivity. Qed.

(** ** C46: Both sides can be read off a comparison *)

(** Printing writes the lines of the document, indented by its nesting. *)
Theorem C46_printed : forall d n, fst (show d (text_start n)) = write_lines (lines n 0 d).
Proof. intros. now rewrite print_doc_text. Qed.
Print Assumptions C46_printed.

(** The lines of a comparison that are not marked as new are those printed for the old
    side, and those not marked as old are those printed for the new side. *)
Theorem C46_both_sides : forall d n,
  unhidden d -> sections_agree n d -> visible n d ->
  exists ls,
    fst (fst (compare_docs d (text_start n) false)) = write_marked ls /\
    fst (show (old_side d) (text_start n)) = write_lines (old_lines ls) /\
    fst (show (new_side d) (text_start n)) = write_lines (new_lines ls).
Proof.
  intros d n U A V. destruct (diff_doc_text d (text_start n) false V) as (s' & E & _). rewrite E.
  exists (diff_lines n 0 d). destruct (sides_shown d n 0 U A) as [O N]. rewrite O, N, !print_doc_text.
  repeat split.
Qed.
Print Assumptions C46_both_sides.

(** Without the condition on sections this is false: the label of a section that has
    something on one side only is shown as if it were common to both. *)
Theorem C46_section_refuted : exists d n ls,
  unhidden d /\ visible n d /\
  fst (fst (compare_docs d (text_start n) false)) = write_marked ls /\
  ls = [(Same, Line 0 (t "members:")); (New, Line 1 (t "x"))] /\
  fst (show (old_side d) (text_start n)) = [].
Proof.
  exists (DSection true (t "members") (DLine [] VNil (v "x"))), 1, [(Same, Line 0 (t "members:")); (New, Line 1 (t "x"))].
  repeat split; vm_compute; reflexivity.
Qed.
Print Assumptions C46_section_refuted.

Local Definition sample3 : ddoc :=
  DTree true (DLine [] (v "struct A") (v "struct B"))
    (DSeq (DLine (t "size") (v "8") (v "8"))
    (DSection true (t "members")
      (DSeq (DDelete (PLine [] (v "0 x")))
      (DSeq (DLine [] (v "4 y") (v "0 y")) (DAdd (PTree true (PLine [] (v "4 z")) (PLine [] (v "bits")))))))).
Example C46_example :
  unhidden sample3 /\ sections_agree 0 sample3 /\ visible 0 sample3 /\
  fst (fst (compare_docs sample3 (text_start 0) false)) = write_marked
    [(Old, Line 0 (t "struct A")); (New, Line 0 (t "struct B")); (Same, Line 1 (t "size: 8"));
     (Same, Line 1 (t "members:")); (Old, Line 2 (t "0 x")); (Old, Line 2 (t "4 y")); (New, Line 2 (t "0 y"));
     (New, Line 2 (t "4 z")); (New, Line 3 (t "bits"))].
Proof.
  split; [cbn; tauto|]. split; [cbn; repeat split; discriminate|]. split; [cbn; repeat split; discriminate|].
  vm_compute. reflexivity.
Qed.
