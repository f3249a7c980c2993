(** The text printer writes the lines of a document. *)
From Coq Require Import List Arith NArith Bool String Lia.
From Verif Require Import PrintModel PrintSpec.
Import ListNotations.

Lemma text_eqb_iff a b : text_eqb a b = true <-> a = b.
Proof.
  revert b. induction a as [|x a IH]; intros [|y b]; cbn; try (split; [discriminate|discriminate]).
  - tauto.
  - rewrite andb_true_iff, N.eqb_eq, IH. split; [intros [-> ->]; reflexivity|].
    intros H. injection H. auto.
Qed.
Lemma text_eqb_refl a : text_eqb a a = true.
Proof. now apply text_eqb_iff. Qed.
Lemma is_empty_iff {A} (l : list A) : is_empty l = true <-> l = [].
Proof. destruct l; cbn; split; congruence. Qed.
Lemma nonempty_iff {A} (l : list A) : nonempty l = true <-> l <> [].
Proof. destruct l; cbn; split; congruence. Qed.

Definition before (p : prefix) : text :=
  match p with XNone => [] | XEqual | XModify => txt "  " | XDelete => txt "- " | XAdd => txt "+ " end.

Lemma text_line_eq s label buf :
  text_line s label buf = write_line (before (ts_prefix s)) (Line (ts_indent s) (labelled label buf)).
Proof.
  unfold text_line, text_indent, write_line, labelled, before.
  rewrite <- app_assoc. destruct (ts_prefix s), label, buf; cbn; rewrite <- ?app_assoc; cbn; reflexivity.
Qed.
Lemma text_instruction_eq s a m buf :
  text_instruction s a m buf =
  write_line (before (ts_prefix s)) (Line (ts_indent s) (instruction_text a m buf)).
Proof.
  unfold text_instruction, text_indent, write_line, instruction_text, before, pad_left, pad_right.
  destruct (ts_prefix s), a, m, buf; cbn [is_empty List.length]; repeat (rewrite <- ?app_assoc; cbn [app]); reflexivity.
Qed.

Definition out (p : prefix) (ls : list line) : text := flat_map (write_line (before p)) ls.
Lemma out_app p a b : out p (a ++ b) = out p a ++ out p b.
Proof. apply flat_map_app. Qed.
Lemma write_line_nonempty b l : write_line b l <> [].
Proof.
  destruct l; cbn; [discriminate|]. intros E. repeat (apply app_eq_nil in E; destruct E as [? E]).
  discriminate.
Qed.
Lemma out_empty p ls : is_empty (out p ls) = is_empty ls.
Proof.
  destruct ls as [|l ls]; [reflexivity|]. cbn. destruct (write_line (before p) l) eqn:E; [|reflexivity].
  now apply write_line_nonempty in E.
Qed.

Lemma print_doc_text d : forall s,
  print_doc text_printer false d s = (out (ts_prefix s) (lines (ts_depth s) (ts_indent s) d), s).
Proof.
  assert (SEC : forall d,
    (forall s, print_doc text_printer false d s = (out (ts_prefix s) (lines (ts_depth s) (ts_indent s) d), s)) ->
    forall collapsed label s,
    print_indent text_printer true collapsed (print_label text_printer label)
      (print_doc text_printer false d) s =
    (out (ts_prefix s) (match lines (ts_depth s) (S (ts_indent s)) d with
                        | [] => [] | ls => Line (ts_indent s) (labelled label []) :: ls end), s)).
  { clear d. intros d IH collapsed label s. unfold print_indent.
    change (p_body text_printer s) with (text_indented s). rewrite IH. cbn [ts_prefix ts_depth ts_indent text_indented].
    rewrite out_empty. destruct (lines (ts_depth s) (S (ts_indent s)) d) as [|l ls] eqn:E; [reflexivity|].
    cbn [is_empty negb p_header text_printer no_flag print_label p_line]. unfold no_flag, print_label.
    cbn [p_line text_printer]. rewrite text_line_eq. reflexivity. }
  induction d as [|a IHa b IHb|label v|label| |c h IHh b IHb|c l b IHb|i l b IHb|i h IHh b IHb|d IH|a m v];
    intros s; cbn [print_doc lines].
  - reflexivity.
  - rewrite IHa, IHb, out_app. reflexivity.
  - change (p_value text_printer v) with (text_value v). destruct (text_value v) as [|x t]; [reflexivity|].
    cbn [is_empty p_line text_printer]. rewrite text_line_eq. cbn. now rewrite app_nil_r.
  - unfold print_label. cbn [p_line text_printer]. rewrite text_line_eq. unfold out, flat_map.
    now rewrite app_nil_r.
  - reflexivity.
  - unfold print_indent. change (p_body text_printer s) with (text_indented s). rewrite IHb.
    cbn [ts_prefix ts_depth ts_indent text_indented]. rewrite out_empty.
    destruct (lines (ts_depth s) (S (ts_indent s)) b) as [|x ls] eqn:E.
    + cbn [is_empty negb]. rewrite IHh, app_nil_r. reflexivity.
    + cbn [is_empty negb p_header text_printer]. unfold no_flag. rewrite IHh, out_app. reflexivity.
  - now apply SEC.
  - now apply SEC.
  - cbn [p_id text_printer]. unfold no_flag. rewrite IHh. rewrite IHb.
    cbn [ts_prefix ts_depth ts_indent text_indented]. now rewrite out_app.
  - cbn [p_inline_begin text_printer]. destruct s as [i p n]. cbn [ts_depth]. destruct n as [|n]; [reflexivity|].
    cbn [ts_prefix ts_depth ts_indent]. rewrite IH. reflexivity.
  - cbn [p_instruction text_printer]. rewrite text_instruction_eq. cbn. now rewrite app_nil_r.
Qed.

(** Emptiness does not depend on the indentation. *)
Definition line_shift (k : nat) (l : line) : line :=
  match l with Blank => Blank | Line i c => Line (k + i) c end.
Lemma lines_indent d : forall depth i, lines depth i d = map (line_shift i) (lines depth 0 d).
Proof.
  assert (SH : forall k i l, line_shift k (line_shift i l) = line_shift (k + i) l).
  { intros k i [|j c]; cbn; [reflexivity|]. now rewrite Nat.add_assoc. }
  assert (SHS : forall k i ls, map (line_shift k) (map (line_shift i) ls) = map (line_shift (k + i)) ls).
  { intros k i ls. rewrite map_map. apply map_ext. intros l. apply SH. }
  induction d as [|a IHa b IHb|label v|label| |c h IHh b IHb|c l b IHb|i0 l b IHb|i0 h IHh b IHb|d IH|a m v];
    intros depth i; cbn [lines map].
  - reflexivity.
  - now rewrite (IHa depth i), (IHb depth i), map_app.
  - destruct (text_value v); cbn; rewrite ?Nat.add_0_r; reflexivity.
  - cbn. now rewrite Nat.add_0_r.
  - reflexivity.
  - rewrite map_app, (IHh depth i), (IHb depth (S i)), (IHb depth 1), SHS. now rewrite Nat.add_1_r.
  - rewrite (IHb depth (S i)), (IHb depth 1). destruct (lines depth 0 b) as [|x ls]; [reflexivity|].
    cbn [map]. rewrite SH, SHS. cbn. now rewrite Nat.add_0_r, Nat.add_1_r.
  - rewrite (IHb depth (S i)), (IHb depth 1). destruct (lines depth 0 b) as [|x ls]; [reflexivity|].
    cbn [map]. rewrite SH, SHS. cbn. now rewrite Nat.add_0_r, Nat.add_1_r.
  - rewrite map_app, (IHh depth i), (IHb depth (S i)), (IHb depth 1), SHS. now rewrite Nat.add_1_r.
  - destruct depth; [reflexivity|]. apply IH.
  - cbn. now rewrite Nat.add_0_r.
Qed.
Lemma lines_empty d depth i j : lines depth i d = [] -> lines depth j d = [].
Proof.
  rewrite (lines_indent d depth i), (lines_indent d depth j). destruct (lines depth 0 d); [auto|discriminate].
Qed.
Lemma lines_nonempty d depth i : nonempty (lines depth i d) = nonempty (lines depth 0 d).
Proof. rewrite lines_indent. now destruct (lines depth 0 d). Qed.

(** ** Comparisons *)

Definition out_marked (ls : list (mark * line)) : text := write_marked ls.
Lemma write_marked_app a b : write_marked (a ++ b) = write_marked a ++ write_marked b.
Proof. apply flat_map_app. Qed.
Lemma write_with_mark m ls p : before p = mark_text m -> write_marked (with_mark m ls) = out p ls.
Proof.
  intros E. unfold write_marked, with_mark, out. rewrite flat_map_concat_map, map_map, flat_map_concat_map.
  cbn [fst snd]. now rewrite E.
Qed.
Lemma write_marked_empty ls : is_empty (write_marked ls) = is_empty ls.
Proof.
  destruct ls as [|[m l] ls]; [reflexivity|]. cbn.
  destruct (write_line (mark_text m) l) eqn:E; [|reflexivity]. now apply write_line_nonempty in E.
Qed.

Lemma changed_lines d : forall depth i, changed depth d = true -> visible depth d -> diff_lines depth i d <> [].
Proof.
  assert (AP : forall A (a b : list A), a <> [] \/ b <> [] -> a ++ b <> []).
  { intros A a b [H|H] E; apply app_eq_nil in E; tauto. }
  assert (WM : forall m i depth d, lines depth 0 d <> [] -> with_mark m (lines depth i d) <> []).
  { intros m i depth d0 H E. apply map_eq_nil in E. now apply (lines_empty _ _ _ 0) in E. }
  induction d as [|a IHa b IHb|label a b|label| |c h IHh b IHb|c l b IHb|i0 h IHh b IHb|d IH|d|d|a b|d IH|f d IH];
    intros depth i; cbn [changed visible diff_lines]; try discriminate.
  - rewrite orb_true_iff. intros [C|C] [V W]; apply AP; [left; now apply IHa|right; now apply IHb].
  - intros C _. rewrite negb_true_iff in C. rewrite C. cbn [lines].
    destruct (text_value a), (text_value b); try discriminate; cbn; discriminate.
  - rewrite orb_true_iff. intros [C|C] [V W]; apply AP; [left; now apply IHh|right; now apply IHb].
  - intros C V. specialize (IHb depth (S i) C V). now destruct (diff_lines depth (S i) b).
  - rewrite orb_true_iff. intros [C|C] [V W]; apply AP; [left; now apply IHh|right; now apply IHb].
  - destruct depth; [discriminate|]. apply IH.
  - intros C _. apply nonempty_iff in C. now apply WM.
  - intros C _. apply nonempty_iff in C. now apply WM.
  - intros C _. apply orb_true_iff in C. rewrite !nonempty_iff in C.
    apply AP. destruct C; [left|right]; now apply WM.
  - intros C V. rewrite C. now apply IH.
  - rewrite andb_true_iff. intros [_ C] V. now apply IH.
Qed.

Lemma keep_before s : before (ts_prefix (keep_modify text_printer s)) = mark_text Same /\
  ts_indent (keep_modify text_printer s) = ts_indent s /\ ts_depth (keep_modify text_printer s) = ts_depth s.
Proof. destruct s as [i p n]. destruct p; repeat split. Qed.

Definition same_place (s s' : text_state) : Prop := ts_indent s' = ts_indent s /\ ts_depth s' = ts_depth s.

Lemma diff_line_text label a b s f :
  exists s', diff_line text_printer label a b s f =
    (write_marked (diff_lines (ts_depth s) (ts_indent s) (DLine label a b)), s',
     f || changed (ts_depth s) (DLine label a b)) /\ same_place s s'.
Proof.
  unfold diff_line. cbn [p_value text_printer p_line p_line_diff p_prefix changed diff_lines lines].
  destruct (text_eqb (text_value a) (text_value b)) eqn:E.
  - rewrite orb_false_r. destruct (text_value a) as [|x t]; [exists s; split; [reflexivity|split; reflexivity]|].
    cbn [is_empty]. eexists. split; [|apply keep_before].
    rewrite text_line_eq. destruct (keep_before s) as (B & I & _). rewrite B, I.
    unfold write_marked. cbn [with_mark map flat_map fst snd]. now rewrite app_nil_r.
  - rewrite orb_true_r. destruct (text_value a) as [|x t] eqn:EA; cbn [is_empty].
    + destruct (text_value b) as [|y u]; [discriminate|].
      exists (text_set_prefix XAdd s). split; [|split; reflexivity]. rewrite text_line_eq.
      unfold write_marked. cbn [with_mark map flat_map fst snd app ts_prefix text_set_prefix ts_indent before].
      now rewrite app_nil_r.
    + destruct (text_value b) as [|y u]; cbn [is_empty].
      * exists (text_set_prefix XDelete s). split; [|split; reflexivity]. rewrite text_line_eq.
        unfold write_marked. cbn [with_mark map flat_map fst snd app ts_prefix text_set_prefix ts_indent before].
        now rewrite app_nil_r.
      * exists (text_set_prefix XAdd (text_set_prefix XDelete s)). split; [|split; reflexivity]. rewrite !text_line_eq.
        unfold write_marked. cbn [with_mark map flat_map fst snd app ts_prefix text_set_prefix ts_indent before].
        now rewrite app_nil_r.
Qed.

Lemma diff_doc_text d : forall s f, visible (ts_depth s) d ->
  exists s', diff_doc text_printer false false d s f =
    (write_marked (diff_lines (ts_depth s) (ts_indent s) d), s', f || changed (ts_depth s) d) /\
    same_place s s'.
Proof.
  induction d as [|a IHa b IHb|label a b|label| |c h IHh b IHb|c l b IHb|i0 h IHh b IHb|d IH|d|d|a b|d IH|fl d IH];
    intros s f V; cbn [visible] in V; cbn [diff_doc].
  - exists s. cbn. rewrite orb_false_r. split; [reflexivity|split; reflexivity].
  - destruct V as [VA VB]. destruct (IHa s f VA) as (s1 & E1 & I1 & D1). rewrite E1.
    destruct (IHb s1 (f || changed (ts_depth s) a)) as (s2 & E2 & I2 & D2); [now rewrite D1|].
    rewrite E2. exists s2. rewrite D1, I1. cbn [diff_lines changed].
    rewrite write_marked_app, orb_assoc. split; [reflexivity|]. split; congruence.
  - apply diff_line_text.
  - unfold diff_label. cbn [p_line text_printer]. eexists. split; [|apply keep_before].
    rewrite text_line_eq. destruct (keep_before s) as (B & I & _). rewrite B, I. cbn [changed].
    rewrite orb_false_r. unfold write_marked. cbn [diff_lines flat_map fst snd]. now rewrite app_nil_r.
  - exists s. cbn [changed]. rewrite orb_false_r. split; [reflexivity|split; reflexivity].
  - destruct V as [VH VB]. unfold diff_indent, diff_body. cbn [p_prefix p_body text_printer].
    destruct (IHb (text_set_prefix XEqual (text_indented s)) false VB) as (s1 & E1 & I1 & D1).
    rewrite E1. cbn [ts_depth ts_indent text_set_prefix text_indented]. rewrite write_marked_empty.
    cbn [changed diff_lines]. destruct (diff_lines (ts_depth s) (S (ts_indent s)) b) as [|p ls] eqn:EL.
    + cbn [is_empty negb]. destruct (IHh s f VH) as (s2 & E2 & P2). exists s2. rewrite E2.
      split; [|exact P2]. rewrite app_nil_r.
      assert (C : changed (ts_depth s) b = false).
      { destruct (changed (ts_depth s) b) eqn:C; [|reflexivity].
        now apply (changed_lines b _ (S (ts_indent s))) in C. }
      now rewrite C, orb_false_r.
    + cbn [is_empty negb p_header text_printer]. unfold diff_header. cbn [p_prefix text_printer].
      match goal with |- context [diff_doc _ _ _ h ?s0 false] =>
        destruct (IHh s0 false) as (s2 & E2 & I2 & D2); [exact VH|] end.
      rewrite E2. cbn [ts_depth ts_indent text_set_prefix] in *. exists s2.
      rewrite write_marked_app. split; [|split; assumption].
      f_equal. rewrite !orb_false_l. rewrite (orb_comm (changed (ts_depth s) h)). reflexivity.
  - unfold diff_indent, diff_body. cbn [p_prefix p_body text_printer].
    destruct (IHb (text_set_prefix XEqual (text_indented s)) false V) as (s1 & E1 & I1 & D1).
    rewrite E1. cbn [ts_depth ts_indent text_set_prefix text_indented]. rewrite write_marked_empty.
    cbn [changed diff_lines]. destruct (diff_lines (ts_depth s) (S (ts_indent s)) b) as [|p ls] eqn:EL.
    + cbn [is_empty negb]. exists s. split; [|split; reflexivity].
      assert (C : changed (ts_depth s) b = false).
      { destruct (changed (ts_depth s) b) eqn:C; [|reflexivity].
        now apply (changed_lines b _ (S (ts_indent s))) in C. }
      rewrite C, orb_false_r. reflexivity.
    + cbn [is_empty negb p_header text_printer]. unfold diff_header, diff_label. cbn [p_prefix text_printer p_line].
      match goal with |- context [keep_modify _ ?s0] => destruct (keep_before s0) as (B & I & D) end.
      eexists. split; [|split; [exact I|exact D]].
      rewrite text_line_eq, B, I. rewrite orb_false_l, orb_false_r. reflexivity.
  - destruct V as [VH VB]. unfold diff_body. cbn [p_prefix p_body text_printer].
    destruct (IHb (text_set_prefix XEqual (text_indented s)) false VB) as (s1 & E1 & I1 & D1).
    rewrite E1. cbn [ts_depth ts_indent text_set_prefix text_indented p_id text_printer].
    unfold diff_header. cbn [p_prefix text_printer].
    match goal with |- context [diff_doc _ _ _ h ?s0 false] =>
      destruct (IHh s0 false) as (s2 & E2 & I2 & D2); [exact VH|] end.
    rewrite E2. cbn [ts_depth ts_indent text_set_prefix] in *. exists s2.
    cbn [changed diff_lines]. rewrite write_marked_app. split; [|split; assumption].
    f_equal. rewrite !orb_false_l, orb_false_r. now rewrite (orb_comm (changed (ts_depth s) h)).
  - cbn [p_inline_begin text_printer changed diff_lines]. destruct s as [i p n]. cbn [ts_depth ts_indent] in *.
    destruct n as [|n].
    + eexists. rewrite orb_false_r. split; [reflexivity|]. split; reflexivity.
    + destruct (IH (mkText i p n) f V) as (s1 & E1 & I1 & D1). cbn [ts_prefix]. rewrite E1.
      eexists. split; [reflexivity|]. cbn in *. split; cbn; congruence.
  - cbn [p_prefix text_printer changed diff_lines]. rewrite print_doc_text. exists (text_set_prefix XDelete s). split; [|split; reflexivity].
    apply nonempty_iff in V. rewrite V, orb_true_r. cbn [ts_prefix ts_depth ts_indent text_set_prefix].
    now rewrite (write_with_mark Old _ XDelete).
  - cbn [p_prefix text_printer changed diff_lines]. rewrite print_doc_text. exists (text_set_prefix XAdd s). split; [|split; reflexivity].
    apply nonempty_iff in V. rewrite V, orb_true_r. cbn [ts_prefix ts_depth ts_indent text_set_prefix].
    now rewrite (write_with_mark New _ XAdd).
  - cbn [p_prefix p_sub text_printer changed diff_lines]. rewrite !print_doc_text.
    cbn [ts_prefix ts_depth ts_indent text_set_prefix]. exists s.
    rewrite <- (write_with_mark Old _ XDelete), <- (write_with_mark New _ XAdd) by reflexivity.
    rewrite <- write_marked_app, write_marked_empty.
    rewrite <- (lines_nonempty a _ (ts_indent s)), <- (lines_nonempty b _ (ts_indent s)).
    split; [|split; reflexivity].
    destruct (lines (ts_depth s) (ts_indent s) a), (lines (ts_depth s) (ts_indent s) b); cbn [nonempty with_mark map app is_empty negb orb];
      rewrite ?orb_true_r, ?orb_false_r; reflexivity.
  - cbn [p_sub text_printer changed diff_lines]. destruct (IH s false V) as (s1 & E1 & _). rewrite E1.
    exists s. split; [|split; reflexivity]. rewrite orb_false_r, orb_false_l.
    destruct (changed (ts_depth s) d); reflexivity.
  - cbn [changed diff_lines]. destruct (IH s f V) as (s1 & E1 & P1). rewrite E1. exists s1. split; [|exact P1].
    destruct fl; cbn [negb andb]; [now rewrite orb_false_r|reflexivity].
Qed.

(** ** Consequences *)

Lemma text_printed d s :
  print_doc text_printer false d s = (flat_map (write_line (before (ts_prefix s))) (lines (ts_depth s) (ts_indent s) d), s).
Proof. apply print_doc_text. Qed.

Lemma write_lines_out ls : write_lines ls = out XNone ls.
Proof. reflexivity. Qed.

Ltac ddoc_ind d :=
  induction d as [|a IHa b IHb|label a b|label| |c h IHh b IHb|c l b IHb|i0 h IHh b IHb|d IH|d|d|a b|d IH|fl d IH].

Lemma existsb_app_marked a b : existsb is_marked (a ++ b) = existsb is_marked a || existsb is_marked b.
Proof. apply existsb_app. Qed.
Lemma existsb_with_mark m ls :
  existsb is_marked (with_mark m ls) = match m with Same => false | _ => nonempty ls end.
Proof.
  destruct m; [|now destruct ls|now destruct ls]. induction ls as [|l ls IH]; [reflexivity|]. exact IH.
Qed.

Lemma changed_without_ignored d : forall depth i,
  changed depth d = existsb is_marked (diff_lines depth i (without_ignored d)) /\
  changed depth (without_ignored d) = changed depth d.
Proof.
  ddoc_ind d; intros depth i; cbn [changed without_ignored diff_lines].
  - split; reflexivity.
  - destruct (IHa depth i) as [A1 A2], (IHb depth i) as [B1 B2]. rewrite existsb_app_marked, <- A1, <- B1, A2, B2.
    split; reflexivity.
  - split; [|reflexivity].
    destruct (text_eqb (text_value a) (text_value b)) eqn:E; [now rewrite existsb_with_mark|].
    rewrite existsb_app_marked, !existsb_with_mark. cbn [lines].
    destruct (text_value a), (text_value b); try reflexivity; discriminate.
  - split; reflexivity.
  - split; reflexivity.
  - destruct (IHh depth i) as [A1 A2], (IHb depth (S i)) as [B1 B2].
    rewrite existsb_app_marked, <- A1, <- B1, A2, B2. split; reflexivity.
  - destruct (IHb depth (S i)) as [B1 B2]. rewrite B2. split; [|reflexivity]. rewrite B1.
    destruct (diff_lines depth (S i) (without_ignored b)); reflexivity.
  - destruct (IHh depth i) as [A1 A2], (IHb depth (S i)) as [B1 B2].
    rewrite existsb_app_marked, <- A1, <- B1, A2, B2. split; reflexivity.
  - destruct depth; [split; reflexivity|]. apply IH.
  - rewrite existsb_with_mark, (lines_nonempty d depth i). split; reflexivity.
  - rewrite existsb_with_mark, (lines_nonempty d depth i). split; reflexivity.
  - rewrite existsb_app_marked, !existsb_with_mark, (lines_nonempty a depth i), (lines_nonempty b depth i). split; reflexivity.
  - destruct (IH depth i) as [A1 A2]. rewrite A2. split; [|reflexivity].
    destruct (changed depth d) eqn:E; [exact A1|reflexivity].
  - destruct fl; cbn [negb andb]; [split; reflexivity|]. apply IH.
Qed.

Lemma unignored_without d : unignored d -> forall depth i,
  diff_lines depth i (without_ignored d) = diff_lines depth i d.
Proof.
  ddoc_ind d; cbn [unignored]; intros U depth i; cbn [without_ignored diff_lines]; try reflexivity.
  - destruct U. now rewrite IHa, IHb.
  - destruct U. now rewrite IHh, IHb.
  - now rewrite IHb.
  - destruct U. now rewrite IHh, IHb.
  - destruct depth; [reflexivity|]. now apply IH.
  - rewrite IH by exact U. now rewrite (proj2 (changed_without_ignored d depth i)).
  - destruct U as [-> U]. now apply IH.
Qed.

Lemma unchanged_sides d : unignored d -> forall depth, changed depth d = false ->
  forall i, lines depth i (old_side d) = lines depth i (new_side d).
Proof.
  ddoc_ind d; cbn [unignored]; intros U depth C i; cbn [changed] in C; cbn [old_side new_side lines]; try reflexivity.
  - apply orb_false_iff in C. destruct U, C. now rewrite IHa, IHb.
  - apply negb_false_iff in C. apply text_eqb_iff in C. now rewrite C.
  - apply orb_false_iff in C. destruct U, C. now rewrite IHh, IHb.
  - now rewrite IHb.
  - apply orb_false_iff in C. destruct U, C. now rewrite IHh, IHb.
  - destruct depth; [reflexivity|]. now apply IH.
  - destruct (lines depth 0 d) eqn:E; [|discriminate]. now apply lines_empty with 0.
  - destruct (lines depth 0 d) eqn:E; [|discriminate]. symmetry. now apply lines_empty with 0.
  - apply orb_false_iff in C. destruct C as [CA CB].
    destruct (lines depth 0 a) eqn:EA; [|discriminate]. destruct (lines depth 0 b) eqn:EB; [|discriminate].
    now rewrite (lines_empty a depth 0 i EA), (lines_empty b depth 0 i EB).
  - now apply IH.
  - destruct U as [-> U]. now apply IH.
Qed.

Lemma with_mark_app m a b : with_mark m (a ++ b) = with_mark m a ++ with_mark m b.
Proof. apply map_app. Qed.

Lemma identical_changed d : forall depth, identical depth d -> changed depth d = false.
Proof.
  ddoc_ind d; intros depth I; cbn [identical] in I; cbn [changed]; try reflexivity; try contradiction.
  - destruct I. now rewrite IHa, IHb.
  - now rewrite I, text_eqb_refl.
  - destruct I. now rewrite IHh, IHb.
  - auto.
  - destruct I. now rewrite IHh, IHb.
  - destruct depth; auto.
  - destruct I as [-> ->]. reflexivity.
  - auto.
  - rewrite IH by exact I. apply andb_false_r.
Qed.
Lemma identical_visible d : forall depth, identical depth d -> visible depth d.
Proof.
  ddoc_ind d; intros depth I; cbn [identical] in I; cbn [visible]; try tauto; try (destruct I; split; auto; fail); auto.
  destruct depth; auto.
Qed.
Lemma identical_marks d : forall depth i, identical depth d ->
  existsb is_marked (diff_lines depth i d) = false.
Proof.
  ddoc_ind d; intros depth i I; cbn [identical] in I; cbn [diff_lines]; try reflexivity; try contradiction.
  - destruct I. now rewrite existsb_app_marked, IHa, IHb.
  - rewrite I, text_eqb_refl. apply existsb_with_mark.
  - destruct I. now rewrite existsb_app_marked, IHh, IHb.
  - specialize (IHb depth (S i) I). destruct (diff_lines depth (S i) b); [reflexivity|exact IHb].
  - destruct I. now rewrite existsb_app_marked, IHh, IHb.
  - destruct depth; [reflexivity|]. auto.
  - destruct I as [A B]. rewrite (lines_empty _ _ _ i A), (lines_empty _ _ _ i B). reflexivity.
  - rewrite identical_changed by exact I. reflexivity.
  - auto.
Qed.
Lemma identical_lines d : forall depth i, identical depth d -> unhidden d ->
  diff_lines depth i d = with_mark Same (lines depth i (old_side d)).
Proof.
  ddoc_ind d; intros depth i I U; cbn [identical] in I; cbn [unhidden] in U; cbn [diff_lines old_side lines];
    try reflexivity; try contradiction.
  - destruct I, U. rewrite with_mark_app. now rewrite IHa, IHb.
  - rewrite I, text_eqb_refl. now rewrite <- I.
  - destruct I, U. rewrite with_mark_app. now rewrite IHh, IHb.
  - rewrite (IHb depth (S i)) by assumption. destruct (lines depth (S i) (old_side b)); reflexivity.
  - destruct I, U. rewrite with_mark_app. now rewrite IHh, IHb.
  - destruct depth; [reflexivity|]. now apply IH.
  - destruct I as [A B]. rewrite (lines_empty _ _ _ i A), (lines_empty _ _ _ i B). reflexivity.
  - now apply IH.
Qed.
Lemma identical_sides d : forall depth i, identical depth d ->
  lines depth i (old_side d) = lines depth i (new_side d).
Proof.
  ddoc_ind d; intros depth i I; cbn [identical] in I; cbn [old_side new_side lines]; try reflexivity; try contradiction.
  - destruct I. now rewrite IHa, IHb.
  - now rewrite I.
  - destruct I. now rewrite IHh, IHb.
  - now rewrite IHb.
  - destruct I. now rewrite IHh, IHb.
  - destruct depth; [reflexivity|]. now apply IH.
  - destruct I as [A B]. now rewrite (lines_empty _ _ _ i A), (lines_empty _ _ _ i B).
  - now apply IH.
  - now apply IH.
Qed.

(** Both sides are in the output. *)
Lemma old_lines_app a b : old_lines (a ++ b) = old_lines a ++ old_lines b.
Proof. unfold old_lines. now rewrite filter_app, map_app. Qed.
Lemma new_lines_app a b : new_lines (a ++ b) = new_lines a ++ new_lines b.
Proof. unfold new_lines. now rewrite filter_app, map_app. Qed.
Lemma old_with_mark m ls : old_lines (with_mark m ls) = match m with New => [] | _ => ls end.
Proof.
  unfold old_lines, with_mark. induction ls as [|l ls IH]; [now destruct m|].
  destruct m; cbn in *; rewrite ?IH; reflexivity.
Qed.
Lemma new_with_mark m ls : new_lines (with_mark m ls) = match m with Old => [] | _ => ls end.
Proof.
  unfold new_lines, with_mark. induction ls as [|l ls IH]; [now destruct m|].
  destruct m; cbn in *; rewrite ?IH; reflexivity.
Qed.
Lemma both_empty ls : old_lines ls = [] -> new_lines ls = [] -> ls = [].
Proof. destruct ls as [|[[] l] ls]; cbn; try discriminate. reflexivity. Qed.

Lemma sides_shown d : forall depth i, unhidden d -> sections_agree depth d ->
  old_lines (diff_lines depth i d) = lines depth i (old_side d) /\
  new_lines (diff_lines depth i d) = lines depth i (new_side d).
Proof.
  ddoc_ind d; intros depth i U A; cbn [unhidden] in U; cbn [sections_agree] in A;
    cbn [diff_lines old_side new_side lines]; try contradiction.
  - split; reflexivity.
  - destruct U, A. rewrite old_lines_app, new_lines_app.
    destruct (IHa depth i), (IHb depth i); try assumption. split; congruence.
  - destruct (text_eqb (text_value a) (text_value b)) eqn:E.
    + apply text_eqb_iff in E. rewrite old_with_mark, new_with_mark, E. split; reflexivity.
    + rewrite old_lines_app, new_lines_app, !old_with_mark, !new_with_mark, app_nil_r. split; reflexivity.
  - split; reflexivity.
  - split; reflexivity.
  - destruct U, A. rewrite old_lines_app, new_lines_app.
    destruct (IHh depth i), (IHb depth (S i)); try assumption. split; congruence.
  - destruct A as [A B]. destruct (IHb depth (S i) U A) as [O N]. rewrite <- O, <- N.
    destruct (diff_lines depth (S i) b) as [|p ls] eqn:E; [split; reflexivity|].
    assert (EO : old_lines (p :: ls) = [] <-> new_lines (p :: ls) = []).
    { rewrite O, N. split; intros H; apply lines_empty with 0; apply B; now apply lines_empty with (S i). }
    change (old_lines ((Same, Line i (labelled l [])) :: p :: ls)) with
      (Line i (labelled l []) :: old_lines (p :: ls)).
    change (new_lines ((Same, Line i (labelled l [])) :: p :: ls)) with
      (Line i (labelled l []) :: new_lines (p :: ls)).
    destruct (old_lines (p :: ls)) eqn:E1.
    + now pose proof (both_empty _ E1 (proj1 EO eq_refl)).
    + destruct (new_lines (p :: ls)) eqn:E2; [now discriminate (proj2 EO eq_refl)|]. split; reflexivity.
  - destruct U, A. rewrite old_lines_app, new_lines_app.
    destruct (IHh depth i), (IHb depth (S i)); try assumption. split; congruence.
  - destruct depth; [split; reflexivity|]. now apply IH.
  - rewrite old_with_mark, new_with_mark. split; reflexivity.
  - rewrite old_with_mark, new_with_mark. split; reflexivity.
  - rewrite old_lines_app, new_lines_app, !old_with_mark, !new_with_mark, app_nil_r. split; reflexivity.
  - now apply IH.
Qed.

(** Inlined parts. *)
Lemma lines_cut d : forall n m i, lines m i (cut n d) = lines n i d.
Proof.
  induction d as [|a IHa b IHb|label v|label| |c h IHh b IHb|c l b IHb|i0 l b IHb|i0 h IHh b IHb|d IH|a m0 v];
    intros n m i; cbn [cut lines]; try reflexivity.
  - now rewrite IHa, IHb.
  - now rewrite IHh, IHb.
  - now rewrite IHb.
  - now rewrite IHb.
  - now rewrite IHh, IHb.
  - destruct n; [reflexivity|]. apply IH.
Qed.
Lemma changed_cut d : forall n m, changed m (cut_diff n d) = changed n d.
Proof.
  ddoc_ind d; intros n m; cbn [cut_diff changed]; try reflexivity.
  - now rewrite (IHa n m), (IHb n m).
  - now rewrite (IHh n m), (IHb n m).
  - apply IHb.
  - now rewrite (IHh n m), (IHb n m).
  - destruct n; [reflexivity|]. apply IH.
  - now rewrite (lines_cut d n m).
  - now rewrite (lines_cut d n m).
  - now rewrite (lines_cut a n m), (lines_cut b n m).
  - apply IH.
  - now rewrite (IH n m).
Qed.
Lemma diff_lines_cut d : forall n m i, diff_lines m i (cut_diff n d) = diff_lines n i d.
Proof.
  ddoc_ind d; intros n m i; cbn [cut_diff diff_lines]; try reflexivity.
  - now rewrite (IHa n m), (IHb n m).
  - now rewrite (IHh n m), (IHb n m).
  - now rewrite (IHb n m).
  - now rewrite (IHh n m), (IHb n m).
  - destruct n; [reflexivity|]. apply IH.
  - now rewrite (lines_cut d n m).
  - now rewrite (lines_cut d n m).
  - now rewrite (lines_cut a n m), (lines_cut b n m).
  - rewrite (changed_cut d n m), (IH n m). reflexivity.
  - apply IH.
Qed.
