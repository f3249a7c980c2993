(** Inlined parts nested too deep do not matter, for every printer that keeps its depth. *)
From Coq Require Import List Arith NArith Bool Lia.
From Verif Require Import PrintModel PrintSpec PrintProofs.
Import ListNotations.

Section Depth.
  Variable P : printer.
  Local Notation St := (p_st P).
  Variable depth : St -> nat.
  Variable redepth : nat -> St -> St.

  (** [f'] does from [redepth m s] what [f] does from [s] if that has depth [n]. *)
  Definition sim3 (n m : nat) (f f' : St -> text * St * bool) : Prop :=
    forall s, depth s = n ->
      depth (snd (fst (f s))) = n /\
      f' (redepth m s) = (fst (fst (f s)), redepth m (snd (fst (f s))), snd (f s)).
  Definition sim2 (n m : nat) (f f' : St -> text * St) : Prop :=
    forall s, depth s = n ->
      depth (snd (f s)) = n /\ f' (redepth m s) = (fst (f s), redepth m (snd (f s))).
  Definition sim1 (f : St -> St) : Prop :=
    forall s m, depth (f s) = depth s /\ f (redepth m s) = redepth m (f s).

  Record depth_ok : Prop := {
    ok_sub : sim1 (p_sub P);
    ok_body : sim1 (p_body P);
    ok_prefix : forall x, sim1 (p_prefix P x);
    ok_get : forall s m, p_get_prefix P (redepth m s) = p_get_prefix P s;
    ok_line : forall s m l b, p_line P (redepth m s) l b = p_line P s l b;
    ok_line_diff : forall n m l a b, sim2 n m (fun s => p_line_diff P s l a b) (fun s => p_line_diff P s l a b);
    ok_instruction : forall s m a i b, p_instruction P (redepth m s) a i b = p_instruction P s a i b;
    ok_detail : forall n m i l, sim2 n m (p_detail P i l) (p_detail P i l);
    ok_header : forall n m c t h h', sim3 n m h h' -> sim3 n m (p_header P c t h) (p_header P c t h');
    ok_id : forall n m i h h' b b', sim3 n m h h' -> sim3 n m b b' -> sim3 n m (p_id P i h b) (p_id P i h' b');
    ok_none : forall s, depth s = 0 -> p_inline_begin P s = None;
    ok_some : forall s k, depth s = S k -> exists s1, p_inline_begin P s = Some s1 /\ depth s1 = k /\
      (forall m, redepth m s1 = redepth m s);
    ok_end : forall s m, depth (p_inline_end P s) = S (depth s) /\ redepth m (p_inline_end P s) = redepth m s }.

  Hypothesis OK : depth_ok.
  Variables html http : bool.

  Lemma sim_no_flag n m f f' : sim2 n m f f' -> sim3 n m (no_flag P f) (no_flag P f').
  Proof.
    intros H s E. destruct (H s E) as [D R]. unfold no_flag. destruct (f s) as [t0 s0] eqn:F. cbn in *.
    rewrite R. split; [exact D|reflexivity].
  Qed.
  Lemma sim_indent n m o c h h' b b' : sim2 n m h h' -> sim2 n m b b' ->
    sim2 n m (print_indent P o c h b) (print_indent P o c h' b').
  Proof.
    intros H B s E. unfold print_indent. destruct (ok_body OK s m) as [D1 R1]. rewrite R1.
    destruct (B (p_body P s)) as [D2 R2]; [congruence|]. rewrite R2. destruct (b (p_body P s)) as [tb sb].
    cbn [fst snd] in *. destruct (negb (is_empty tb)).
    - destruct (ok_header OK n m c tb _ _ (sim_no_flag _ _ _ _ H) s E) as [D3 R3]. rewrite R3.
      destruct (p_header P c tb (no_flag P h) s) as [[th sh] fh]. cbn in *. split; [exact D3|reflexivity].
    - destruct (negb o); [apply H; exact E|]. cbn. split; [exact E|reflexivity].
  Qed.
  Lemma sim_label n m l : sim2 n m (print_label P l) (print_label P l).
  Proof. intros s E. unfold print_label. cbn. rewrite (ok_line OK). split; [exact E|reflexivity]. Qed.

  Lemma print_cut d : forall n m, sim2 n m (print_doc P http d) (print_doc P http (cut n d)).
  Proof.
    induction d as [|a IHa b IHb|label v|label| |c h IHh b IHb|c l b IHb|i0 l b IHb|i0 h IHh b IHb|d IH|a m0 v];
      intros n m; cbn [cut print_doc].
    - intros s E. split; [exact E|reflexivity].
    - intros s E. cbn [print_doc]. destruct (IHa n m s E) as [D1 R1]. rewrite R1.
      destruct (print_doc P http a s) as [ta s1]. cbn [fst snd] in *.
      destruct (IHb n m s1 D1) as [D2 R2]. rewrite R2. destruct (print_doc P http b s1) as [tb s2].
      split; [exact D2|reflexivity].
    - intros s E. cbn [print_doc]. destruct (is_empty (p_value P v)); cbn; rewrite ?(ok_line OK); split; auto.
    - apply sim_label.
    - intros s E. split; [exact E|reflexivity].
    - now apply sim_indent.
    - apply sim_indent; [apply sim_label|apply IHb].
    - cbn [print_doc]. destruct http; [apply (ok_detail OK)|].
      apply sim_indent; [apply sim_label|apply IHb].
    - intros s E. cbn [print_doc].
      destruct (ok_id OK n m i0 _ _ _ _ (sim_no_flag _ _ _ _ (IHh n m)) (sim_no_flag _ _ _ _ (IHb n m)) s E) as [D R].
      rewrite R. destruct (p_id P i0 (no_flag P (print_doc P http h)) (no_flag P (print_doc P http b)) s) as [[t0 s0] f0].
      split; [exact D|reflexivity].
    - intros s E. cbn [print_doc]. destruct n as [|k].
      + rewrite (ok_none OK s E). cbn. split; [exact E|reflexivity].
      + destruct (ok_some OK s k E) as (s1 & -> & D1 & R1). destruct (IH k m s1 D1) as [D2 R2].
        rewrite R1 in R2. rewrite R2. destruct (print_doc P http d s1) as [t0 s2]. cbn [fst snd] in *.
        destruct (ok_end OK s2 m) as [D3 R3]. rewrite R3, D3. split; [congruence|reflexivity].
    - intros s E. cbn. rewrite (ok_instruction OK). split; [exact E|reflexivity].
  Qed.

  Definition dsim (n m : nat) (f f' : St -> bool -> text * St * bool) : Prop :=
    forall diff, sim3 n m (fun s => f s diff) (fun s => f' s diff).

  Lemma sim_header n m h h' diff : dsim n m h h' -> sim3 n m (diff_header P h diff) (diff_header P h' diff).
  Proof.
    intros H s E. unfold diff_header. destruct (ok_prefix OK (if diff then XModify else XEqual) s m) as [D R].
    rewrite R. apply (H false). congruence.
  Qed.
  Lemma sim_body n m b b' s : dsim n m b b' -> depth s = n ->
    diff_body P b' (redepth m s) = diff_body P b s.
  Proof.
    intros B E. unfold diff_body. destruct (ok_body OK s m) as [D1 R1]. rewrite R1.
    destruct (ok_prefix OK XEqual (p_body P s) m) as [D2 R2]. rewrite R2.
    destruct (B false (p_prefix P XEqual (p_body P s))) as [D3 R3]; [congruence|]. rewrite R3.
    destruct (b (p_prefix P XEqual (p_body P s)) false) as [[t0 s0] f0]. reflexivity.
  Qed.
  Lemma sim_diff_indent n m o c h h' b b' : dsim n m h h' -> dsim n m b b' ->
    dsim n m (diff_indent P o c h b) (diff_indent P o c h' b').
  Proof.
    intros H B diff s E. unfold diff_indent. rewrite (sim_body n m b b' s B E).
    destruct (diff_body P b s) as [tb fb]. destruct (negb (is_empty tb)).
    - destruct (ok_header OK n m c tb _ _ (sim_header _ _ _ _ fb H) s E) as [D R]. rewrite R.
      destruct (p_header P c tb (diff_header P h fb) s) as [[t0 s0] f0]. split; [exact D|reflexivity].
    - destruct (negb o); [apply H; exact E|]. split; [exact E|reflexivity].
  Qed.
  Lemma sim_keep s m : keep_modify P (redepth m s) = redepth m (keep_modify P s) /\
    depth (keep_modify P s) = depth s.
  Proof.
    unfold keep_modify. rewrite (ok_get OK). destruct (prefix_is_modify (p_get_prefix P s)); [split; reflexivity|].
    destruct (ok_prefix OK XEqual s m) as [D R]. split; assumption.
  Qed.
  Lemma sim_diff_label n m l : dsim n m (diff_label P l) (diff_label P l).
  Proof.
    intros diff s E. unfold diff_label. destruct (sim_keep s m) as [R D]. rewrite R, (ok_line OK). cbn.
    split; [congruence|reflexivity].
  Qed.
  Lemma sim_diff_line n m l a b : dsim n m (diff_line P l a b) (diff_line P l a b).
  Proof.
    intros diff s E. unfold diff_line. destruct (sim_keep s m) as [R D].
    destruct (text_eqb (p_value P a) (p_value P b)).
    - destruct (is_empty (p_value P a)); [split; [exact E|reflexivity]|].
      rewrite R, (ok_line OK). cbn. split; [congruence|reflexivity].
    - destruct (is_empty (p_value P a)); [|destruct (is_empty (p_value P b))].
      + destruct (ok_prefix OK XAdd s m) as [D1 R1]. rewrite R1, (ok_line OK). cbn. split; [congruence|reflexivity].
      + destruct (ok_prefix OK XDelete s m) as [D1 R1]. rewrite R1, (ok_line OK). cbn. split; [congruence|reflexivity].
      + destruct (ok_line_diff OK n m l (p_value P a) (p_value P b) s E) as [D1 R1]. rewrite R1.
        destruct (p_line_diff P s l (p_value P a) (p_value P b)) as [t0 s0]. split; [exact D1|reflexivity].
  Qed.

  Lemma sim_printed n m x d : sim2 n m (fun s => print_doc P http d (p_prefix P x s))
    (fun s => print_doc P http (cut n d) (p_prefix P x s)).
  Proof.
    intros s E. destruct (ok_prefix OK x s m) as [D R]. rewrite R. apply print_cut. congruence.
  Qed.

  Lemma diff_cut d : forall n m, dsim n m (diff_doc P html http d) (diff_doc P html http (cut_diff n d)).
  Proof.
    ddoc_ind d; intros n m; cbn [cut_diff diff_doc].
    - intros diff s E. split; [exact E|reflexivity].
    - intros diff s E. cbn [diff_doc]. destruct (IHa n m diff s E) as [D1 R1]. rewrite R1.
      destruct (diff_doc P html http a s diff) as [[ta s1] f1]. cbn [fst snd] in *.
      destruct (IHb n m f1 s1 D1) as [D2 R2]. rewrite R2. destruct (diff_doc P html http b s1 f1) as [[tb s2] f2].
      split; [exact D2|reflexivity].
    - apply sim_diff_line.
    - apply sim_diff_label.
    - intros diff s E. split; [exact E|reflexivity].
    - now apply sim_diff_indent.
    - apply sim_diff_indent; [apply sim_diff_label|apply IHb].
    - intros diff s E. cbn [diff_doc]. rewrite (sim_body n m _ _ s (IHb n m) E).
      destruct (diff_body P (diff_doc P html http b) s) as [tb fb].
      assert (SB : sim3 n m (fun s0 : St => (tb, s0, false)) (fun s0 : St => (tb, s0, false))).
      { intros s0 E0. split; [exact E0|reflexivity]. }
      destruct (ok_id OK n m i0 _ _ _ _ (sim_header _ _ _ _ fb (IHh n m)) SB s E) as [D R]. rewrite R.
      destruct (p_id P i0 (diff_header P (diff_doc P html http h) fb) (fun s0 : St => (tb, s0, false)) s) as [[t0 s0] f0].
      split; [exact D|reflexivity].
    - intros diff s E. cbn [diff_doc]. destruct n as [|k].
      + rewrite (ok_none OK s E). cbn. split; [exact E|reflexivity].
      + destruct (ok_some OK s k E) as (s1 & -> & D1 & R1). destruct (IH k m diff s1 D1) as [D2 R2].
        rewrite R1 in R2. rewrite R2. destruct (diff_doc P html http d s1 diff) as [[t0 s2] f2]. cbn [fst snd] in *.
        destruct (ok_end OK s2 m) as [D3 R3]. rewrite R3, D3. split; [congruence|reflexivity].
    - intros diff s E. cbn [diff_doc]. destruct (sim_printed n m XDelete d s E) as [D R]. rewrite R.
      destruct (print_doc P http d (p_prefix P XDelete s)) as [t0 s0]. split; [exact D|reflexivity].
    - intros diff s E. cbn [diff_doc]. destruct (sim_printed n m XAdd d s E) as [D R]. rewrite R.
      destruct (print_doc P http d (p_prefix P XAdd s)) as [t0 s0]. split; [exact D|reflexivity].
    - intros diff s E. cbn [diff_doc]. destruct (ok_sub OK s m) as [D0 R0]. rewrite R0.
      destruct (sim_printed n m XDelete a (p_sub P s)) as [D R]; [congruence|]. rewrite R.
      destruct (print_doc P http a (p_prefix P XDelete (p_sub P s))) as [ta s1]. cbn [fst snd] in *.
      destruct (sim_printed n m XAdd b s1 D) as [D' R']. rewrite R'.
      destruct (print_doc P http b (p_prefix P XAdd s1)) as [tb s2]. cbn [fst snd] in *.
      destruct (negb (is_empty (ta ++ tb))); split; auto.
    - intros diff s E. cbn [diff_doc]. destruct (ok_sub OK s m) as [D0 R0]. rewrite R0.
      destruct (IH n m false (p_sub P s)) as [D R]; [congruence|]. rewrite R.
      destruct (diff_doc P html http d (p_sub P s) false) as [[t0 s0] f0]. cbn in *. split; auto.
    - intros diff s E. cbn [diff_doc]. destruct (IH n m diff s E) as [D R]. rewrite R.
      destruct (diff_doc P html http d s diff) as [[t0 s0] f0]. cbn in *. split; auto.
  Qed.
End Depth.

Definition text_redepth (m : nat) (s : text_state) : text_state := mkText (ts_indent s) (ts_prefix s) m.
Definition html_redepth (m : nat) (s : html_state) : html_state := mkHtml (hs_prefix s) m (hs_line_started s).

Lemma text_depth_ok : depth_ok text_printer ts_depth text_redepth.
Proof.
  split.
  - intros s m. split; reflexivity.
  - intros s m. split; reflexivity.
  - intros x s m. split; reflexivity.
  - reflexivity.
  - reflexivity.
  - intros n m l a b s E. split; [exact E|reflexivity].
  - reflexivity.
  - intros n m i l s E. split; [exact E|reflexivity].
  - intros n m c t h h' H s E. cbn [p_header text_printer]. destruct (H s E) as [D R]. rewrite R.
    destruct (h s) as [[t0 s0] f0]. split; [exact D|reflexivity].
  - intros n m i h h' b b' H B s E. cbn [p_id text_printer]. destruct (H s E) as [D R]. rewrite R.
    destruct (h s) as [[t0 s0] f0]. cbn [fst snd] in *. destruct (B (text_indented s0) D) as [D' R'].
    change (text_indented (text_redepth m s0)) with (text_redepth m (text_indented s0)). rewrite R'.
    destruct (b (text_indented s0)) as [[t1 s1] f1]. split; [exact D|reflexivity].
  - intros [i p n] E. cbn in *. now rewrite E.
  - intros [i p n] k E. cbn in E. subst n. eexists. repeat split.
  - intros s m. split; reflexivity.
Qed.

Lemma html_depth_ok esc alphanumeric http :
  depth_ok (html_printer esc alphanumeric http) hs_depth html_redepth.
Proof.
  split.
  - intros s m. split; reflexivity.
  - intros s m. split; reflexivity.
  - intros x s m. split; reflexivity.
  - reflexivity.
  - reflexivity.
  - intros n m l a b s E. split; [exact E|reflexivity].
  - reflexivity.
  - intros n m i l s E. split; [exact E|reflexivity].
  - intros n m c t h h' H s E. cbn [p_header html_printer]. destruct (H (html_started true s) E) as [D R].
    change (html_started true (html_redepth m s)) with (html_redepth m (html_started true s)). rewrite R.
    destruct (h (html_started true s)) as [[t0 s0] f0]. split; [exact D|reflexivity].
  - intros n m i h h' b b' H B s E. cbn [p_id html_printer]. destruct (H (html_started true s) E) as [D R].
    change (html_started true (html_redepth m s)) with (html_redepth m (html_started true s)). rewrite R.
    destruct (h (html_started true s)) as [[t0 s0] f0]. cbn [fst snd] in *.
    change (html_started false (html_redepth m s0)) with (html_redepth m (html_started false s0)).
    destruct http; [split; [exact D|reflexivity]|].
    destruct (B (html_started false s0) D) as [D' R']. rewrite R'.
    destruct (b (html_started false s0)) as [[t1 s1] f1]. split; [exact D'|reflexivity].
  - intros [p n l] E. cbn in *. now rewrite E.
  - intros [p n l] k E. cbn in E. subst n. eexists. repeat split.
  - intros s m. split; reflexivity.
Qed.

(** The indentation of the text printer. *)
Lemma diff_indent_kept d : forall s diff,
  ts_indent (snd (fst (diff_doc text_printer false false d s diff))) = ts_indent s.
Proof.
  assert (KM : forall s, ts_indent (keep_modify text_printer s) = ts_indent s).
  { intros s. apply (keep_before s). }
  assert (LB : forall l s diff, ts_indent (snd (fst (diff_label text_printer l s diff))) = ts_indent s).
  { intros. apply KM. }
  assert (DI : forall o c h b, (forall s diff, ts_indent (snd (fst (h s diff))) = ts_indent s) ->
    forall s diff, ts_indent (snd (fst (diff_indent text_printer o c h b s diff))) = ts_indent s).
  { intros o c h b H s diff. unfold diff_indent. destruct (diff_body text_printer b s) as [tb fb].
    destruct (negb (is_empty tb)).
    - cbn [p_header text_printer]. unfold diff_header.
      specialize (H (p_prefix text_printer (if fb then XModify else XEqual) s) false).
      destruct (h (p_prefix text_printer (if fb then XModify else XEqual) s) false) as [[t0 s0] f0].
      cbn [fst snd] in *. now rewrite H.
    - destruct (negb o); [apply H|reflexivity]. }
  ddoc_ind d; intros s diff; cbn [diff_doc].
  - reflexivity.
  - specialize (IHa s diff). destruct (diff_doc text_printer false false a s diff) as [[ta s1] f1]. cbn [fst snd] in *.
    specialize (IHb s1 f1). destruct (diff_doc text_printer false false b s1 f1) as [[tb s2] f2]. cbn in *. congruence.
  - destruct (diff_line_text label a b s diff) as (s' & E & I & _). rewrite E. exact I.
  - apply LB.
  - reflexivity.
  - now apply DI.
  - apply DI. apply LB.
  - destruct (diff_body text_printer (diff_doc text_printer false false b) s) as [tb fb].
    cbn [p_id text_printer]. unfold diff_header.
    specialize (IHh (p_prefix text_printer (if fb then XModify else XEqual) s) false).
    destruct (diff_doc text_printer false false h (p_prefix text_printer (if fb then XModify else XEqual) s) false) as [[t0 s0] f0].
    cbn in *. exact IHh.
  - cbn [p_inline_begin text_printer]. destruct (ts_depth s); [reflexivity|].
    specialize (IH (mkText (ts_indent s) (ts_prefix s) n) diff).
    destruct (diff_doc text_printer false false d (mkText (ts_indent s) (ts_prefix s) n) diff) as [[t0 s0] f0].
    exact IH.
  - rewrite print_doc_text. reflexivity.
  - rewrite print_doc_text. reflexivity.
  - rewrite !print_doc_text. cbn [fst snd]. destruct (negb (is_empty _)); reflexivity.
  - destruct (diff_doc text_printer false false d (p_sub text_printer s) false) as [[t0 s0] f0]. reflexivity.
  - specialize (IH s diff). destruct (diff_doc text_printer false false d s diff) as [[t0 s0] f0]. exact IH.
Qed.
