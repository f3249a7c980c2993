(** The outline of a printed page is that of the text output. *)
From Coq Require Import List Arith NArith Bool String Ascii Lia.
From Verif Require Import PrintModel PrintSpec PrintProofs HtmlSpec HtmlProofs MarkSpec OutlineSpec.
Import ListNotations.
Local Open Scope list_scope.

(** ** Lines *)
Lemma filled_app a b : filled (a ++ b) = filled a ++ filled b.
Proof. apply filter_app. Qed.
Lemma deeper_app n a b : deeper n (a ++ b) = deeper n a ++ deeper n b.
Proof. apply map_app. Qed.
Lemma filled_deeper n ls : filled (deeper n ls) = deeper n (filled ls).
Proof. induction ls as [|[|i t] ls IH]; cbn; [reflexivity|exact IH|]. unfold filled, deeper in *. now rewrite IH. Qed.
Lemma deeper_nil n ls : deeper n ls = [] -> ls = [].
Proof. now destruct ls. Qed.
Lemma deeper_deeper a b ls : deeper a (deeper b ls) = deeper (a + b) ls.
Proof. unfold deeper. rewrite map_map. apply map_ext. intros [|i t]; [reflexivity|]. now rewrite Nat.add_assoc. Qed.
Lemma lines_deeper n d : forall depth i, lines depth (n + i) d = deeper n (lines depth i d).
Proof.
  induction d as [|a IHa b IHb|l v|l| |c h IHh b IHb|c l b IHb|x l b IHb|x h IHh b IHb|d IH|a m v]; intros depth i; cbn [lines].
  - reflexivity.
  - now rewrite deeper_app, IHa, IHb.
  - now destruct (text_value v).
  - reflexivity.
  - reflexivity.
  - rewrite deeper_app, IHh. rewrite <- IHb. now replace (S (n + i)) with (n + S i) by lia.
  - replace (S (n + i)) with (n + S i) by lia. rewrite IHb. now destruct (lines depth (S i) b).
  - replace (S (n + i)) with (n + S i) by lia. rewrite IHb. now destruct (lines depth (S i) b).
  - rewrite deeper_app, IHh. rewrite <- IHb. now replace (S (n + i)) with (n + S i) by lia.
  - destruct depth as [|depth]; [reflexivity|apply IH].
  - reflexivity.
Qed.
Lemma lines_at i d depth : lines depth i d = deeper i (lines depth 0 d).
Proof. rewrite <- lines_deeper. now rewrite Nat.add_0_r. Qed.

Lemma hex_nonempty n : hex n <> [].
Proof. unfold hex. now destruct (N.to_hex_uint n). Qed.

(** ** Documents whose outline is the same on a page *)

(** A value without text has no empty link. *)
Definition solid (short : text -> text) (v : value) : Prop := text_value v = [] -> nothing short v = true.
(** What is in a section is not only blank lines. *)
Definition heavy (d : pdoc) : Prop := forall depth, filled (lines depth 0 d) = [] -> lines depth 0 d = [].
Definition titles_with (h : pdoc) : Prop := exists v, h = PLine [] v /\ text_value v <> [].
Definition heads (short : text -> text) (h : pdoc) : Prop := exists v, h = PLine [] v /\ solid short v.
Fixpoint tidy (short : text -> text) (d : pdoc) : Prop :=
  match d with
  | PNil | PBreak | PInstruction _ _ _ => True
  | PSeq a b => tidy short a /\ tidy short b
  | PLine _ v => solid short v
  | PLabel l => l <> []
  | PTree _ h b => heads short h /\ tidy short b
  | PId _ h b => titles_with h /\ tidy short b
  | PSection _ l b | PDetail _ l b => l <> [] /\ tidy short b /\ heavy b
  | PInline d => tidy short d
  end.
(** Documents without blank lines. *)
Fixpoint neat (short : text -> text) (d : pdoc) : Prop :=
  match d with
  | PNil | PInstruction _ _ _ => True
  | PBreak => False
  | PSeq a b => neat short a /\ neat short b
  | PLine _ v => solid short v
  | PLabel l => l <> []
  | PTree _ h b => heads short h /\ neat short b
  | PId _ h b => titles_with h /\ neat short b
  | PSection _ l b | PDetail _ l b => l <> [] /\ neat short b
  | PInline d => neat short d
  end.
Lemma neat_filled short d : neat short d -> forall depth i, filled (lines depth i d) = lines depth i d.
Proof.
  induction d as [|a IHa b IHb|l v|l| |c h IHh b IHb|c l b IHb|x l b IHb|x h IHh b IHb|d IH|a m v]; cbn [neat]; intros N depth i; cbn [lines].
  - reflexivity.
  - destruct N. now rewrite filled_app, IHa, IHb.
  - now destruct (text_value v).
  - reflexivity.
  - destruct N.
  - destruct N as ((v & -> & _) & N). rewrite filled_app, IHb by exact N. cbn [lines]. now destruct (text_value v).
  - destruct N as (_ & N). specialize (IHb N depth (S i)). destruct (lines depth (S i) b); [reflexivity|].
    cbn [filled filter is_filled]. unfold filled in IHb. f_equal. exact IHb.
  - destruct N as (_ & N). specialize (IHb N depth (S i)). destruct (lines depth (S i) b); [reflexivity|].
    cbn [filled filter is_filled]. unfold filled in IHb. f_equal. exact IHb.
  - destruct N as ((v & -> & _) & N). rewrite filled_app, IHb by exact N. cbn [lines]. now destruct (text_value v).
  - destruct depth as [|depth]; [reflexivity|now apply IH].
  - reflexivity.
Qed.
Lemma neat_heavy short d : neat short d -> heavy d.
Proof. intros N depth E. now rewrite (neat_filled short d N) in E. Qed.
Lemma neat_tidy short d : neat short d -> tidy short d.
Proof.
  induction d; cbn [neat tidy]; try tauto; intuition; eapply neat_heavy; eassumption.
Qed.
(** An item with a title and a blank line after it is not only blank. *)
Lemma heavy_item id h b : titles_with h -> heavy (PSeq (PId id h b) PBreak).
Proof.
  intros (v & -> & N) depth. cbn [lines]. destruct (text_value v); [now destruct N|]. discriminate.
Qed.
Lemma heavy_seq a b : heavy a -> heavy b -> heavy (PSeq a b).
Proof.
  intros A B depth. cbn [lines]. rewrite filled_app. intros E. apply app_eq_nil in E. destruct E as [EA EB].
  now rewrite (A depth EA), (B depth EB).
Qed.

Section Outline.
  Variables (esc : N -> text) (unescape : text -> text) (alphanumeric : N -> bool).
  Hypothesis OK : escape_ok esc unescape.

  Local Notation esct := (escaped esc).
  Local Notation HP := (html_printer esc alphanumeric false).
  Local Notation short := (short_name alphanumeric).
  Local Notation html_value := (html_value esc alphanumeric).
  Local Notation reads := (reads esc unescape).
  Local Notation read_event := (read_event unescape).
  Local Notation read_events := (read_events unescape).

  (** ** Reading pieces of a page *)
  Definition trip (t : text) (s : spot) (ls : list line) (s' : spot) : Prop :=
    exists es, reads t es /\ read_events es s = (ls, s').
  Lemma read_events_app a b : forall s, read_events (a ++ b) s =
    (fst (read_events a s) ++ fst (read_events b (snd (read_events a s))), snd (read_events b (snd (read_events a s)))).
  Proof.
    induction a as [|e a IH]; intros s; cbn [OutlineSpec.read_events app]; [cbn [fst snd app]; now destruct (read_events b s)|].
    destruct (read_event e s) as [x s1]. rewrite IH. destruct (read_events a s1) as [y s2]. cbn [fst snd].
    now rewrite app_assoc.
  Qed.
  Lemma trip_nil s : trip [] s [] s.
  Proof. exists []. split; [apply (reads_nil esc)|reflexivity]. Qed.
  Lemma trip_app t1 t2 s1 s2 s3 l1 l2 : trip t1 s1 l1 s2 -> trip t2 s2 l2 s3 -> trip (t1 ++ t2) s1 (l1 ++ l2) s3.
  Proof.
    intros (e1 & R1 & E1) (e2 & R2 & E2). exists (e1 ++ e2). split; [now apply reads_app|].
    rewrite read_events_app, E1. cbn [fst snd]. now rewrite E2.
  Qed.
  Lemma trip_then t1 t2 s1 s2 s3 l : trip t1 s1 [] s2 -> trip t2 s2 l s3 -> trip (t1 ++ t2) s1 l s3.
  Proof. apply (trip_app t1 t2 s1 s2 s3 [] l). Qed.
  Lemma trip_event t e s ls s' : reads t [e] -> read_event e s = (ls, s') -> trip t s ls s'.
  Proof. intros R E. exists [e]. split; [exact R|]. cbn [OutlineSpec.read_events]. rewrite E. now rewrite app_nil_r. Qed.
  Definition tag_fine (n : text) (l : list (text * text)) : bool :=
    forallb (fun c => negb (N.eqb c 62) && negb (N.eqb c 32)) n &&
    forallb (fun p => forallb (fun c => negb (N.eqb c 61)) (fst p) &&
                      forallb (fun c => negb (N.eqb c 60) && negb (N.eqb c 62) && negb (N.eqb c 34)) (snd p)) l.
  Lemma fine_name n l : tag_fine n l = true -> name_ok n /\ Forall attr_ok l.
  Proof.
    unfold tag_fine. rewrite andb_true_iff, !forallb_forall. intros [A B]. split.
    - intros x X. specialize (A x X). apply andb_true_iff in A. rewrite !negb_true_iff, !N.eqb_neq in A. exact A.
    - apply Forall_forall. intros p P. specialize (B p P). rewrite andb_true_iff, !forallb_forall in B. destruct B as [B C]. split.
      + intros x X. specialize (B x X). rewrite negb_true_iff, N.eqb_neq in B. exact B.
      + intros x X. specialize (C x X). rewrite !andb_true_iff, !negb_true_iff, !N.eqb_neq in C. tauto.
  Qed.
  Lemma trip_tag n l t s ls s' : t = tag_text n l -> tag_fine n l = true -> read_event (tag n l) s = (ls, s') -> trip t s ls s'.
  Proof.
    intros -> F E. destruct (fine_name n l F) as [A B]. eapply trip_event; [|exact E]. now apply (reads_tag esc unescape OK).
  Qed.
  Lemma trip_chars t i b c : trip (esct t) (mkSpot i (Some b) false c) [] (mkSpot i (Some (b ++ t)) false c).
  Proof. eapply trip_event; [now apply reads_text|reflexivity]. Qed.
  Lemma trip_plain t i b c : plain esc t -> trip t (mkSpot i (Some b) false c) [] (mkSpot i (Some (b ++ t)) false c).
  Proof. intros P. pose proof (trip_chars t i b c) as Q. unfold escaped in Q. now rewrite P in Q. Qed.
  Lemma trip_between t i c : plain esc t -> trip t (mkSpot i None false c) [] (mkSpot i None false c).
  Proof. intros P. eapply trip_event; [now apply reads_plain|reflexivity]. Qed.
  Lemma trip_newline i c : trip newline (mkSpot i None false c) [] (mkSpot i None false c).
  Proof. apply trip_between, (plain_newline esc unescape OK). Qed.

  Ltac no_chars := let x := fresh in let X := fresh in intros x X; cbn in X;
    repeat (destruct X as [<-|X]; [repeat split; discriminate|]); contradiction.
  (** Values. *)
  Lemma trip_value v : forall i b c, trip (html_value v) (mkSpot i (Some b) false c) [] (mkSpot i (Some (b ++ text_value v)) false c).
  Proof.
    induction v as [|v1 IH1 v2 IH2|s|s|id v IH]; intros i b c; cbn [PrintModel.html_value text_value].
    - rewrite app_nil_r. apply trip_nil.
    - rewrite app_assoc. eapply trip_then; [apply IH1|apply IH2].
    - apply trip_chars.
    - destruct (negb (text_eqb s (short s))) eqn:E; [|apply trip_chars].
      replace (txt "<span title=""" ++ esct s ++ txt """>" ++ esct (short s) ++ txt "</span>") with
        (tag_text (txt "span") [(txt "title", esct s)] ++ esct (short s) ++ tag_text (47%N :: txt "span") [])
        by (unfold tag_text; cbn [flat_map fst snd txt list_ascii_of_string map app]; rewrite <- !app_assoc; reflexivity).
      eapply trip_then; [|eapply trip_then].
      + eapply trip_event.
        * apply (reads_tag esc unescape OK); [now apply (fine_name (txt "span") [])|]. constructor; [|constructor].
          split; [intros x X; cbn in X; repeat (destruct X as [<-|X]; [discriminate|]); contradiction|].
          intros x X. now apply (esct_safe esc unescape OK) in X.
        * cbn. rewrite (esc_inverse _ _ OK). reflexivity.
      + eapply trip_event; [now apply reads_text|reflexivity].
      + eapply trip_tag; reflexivity.
    - destruct (id =? 0); [apply IH|].
      set (l := [(txt "class", txt "link"); (txt "data-link", dec (N.of_nat id)); (txt "href", txt "#" ++ dec (N.of_nat id))]).
      match goal with |- trip ?t _ _ _ => replace t with (tag_text (txt "a") l ++ html_value v ++ tag_text (47%N :: txt "a") []) end.
      2: { unfold tag_text, l. cbn [flat_map fst snd txt list_ascii_of_string map app]. rewrite <- !app_assoc.
           cbn [app]. rewrite <- !app_assoc. reflexivity. }
      eapply trip_then; [|eapply trip_then; [apply IH|eapply trip_tag; reflexivity]].
      apply (trip_event _ (tag (txt "a") l)); [|reflexivity]. apply (reads_tag esc unescape OK); [now apply (fine_name (txt "a") [])|].
      assert (D := id_text_safe alphanumeric id).
      constructor; [|constructor; [|constructor; [|constructor]]]; (split; cbn [fst snd]).
      + no_chars.
      + no_chars.
      + no_chars.
      + exact D.
      + no_chars.
      + intros x [<-|X]; [repeat split; discriminate|]. now apply D.
  Qed.

  (** Lines. *)
  Lemma line_split p n label buf : html_line (mkHtml p n false) label buf =
    txt "<li>" ++ html_line (mkHtml p n true) label buf ++ txt "</li>" ++ newline.
  Proof. unfold html_line. cbn [html_li html_li_end hs_line_started hs_prefix]. cbn [app]. rewrite app_nil_r. now rewrite <- ?app_assoc. Qed.
  Lemma trip_label label n i b c : plain esc label -> label <> [] ->
    trip (html_line (mkHtml XNone n true) label []) (mkSpot i (Some b) false c) [] (mkSpot i (Some (b ++ labelled label [])) false c).
  Proof.
    intros P NE. unfold html_line. cbn [html_li html_li_end hs_line_started hs_prefix is_empty prefix_is_modify]. cbn [app]. rewrite app_nil_r.
    replace (labelled label []) with (label ++ txt ":") by (now destruct label).
    replace (txt "<span" ++ txt ">" ++ label ++ txt ":</span>") with
      (tag_text (txt "span") [] ++ (label ++ txt ":") ++ tag_text (47%N :: txt "span") [])
      by (unfold tag_text; cbn [flat_map app]; rewrite <- !app_assoc; reflexivity).
    eapply trip_then; [eapply trip_tag; reflexivity|]. eapply trip_then; [|eapply (trip_tag (47%N :: txt "span") [] _ (mkSpot i (Some (b ++ label ++ txt ":")) false c)); reflexivity].
    apply trip_plain, plain_app; [exact P|apply (plain_colon esc unescape OK)].
  Qed.
  Lemma trip_line label v n i b c : plain esc label -> text_value v <> [] ->
    is_empty (html_value v) = false ->
    trip (html_line (mkHtml XNone n true) label (html_value v)) (mkSpot i (Some b) false c) []
      (mkSpot i (Some (b ++ labelled label (text_value v))) false c).
  Proof.
    intros P NE NB. unfold html_line. cbn [html_li html_li_end hs_line_started hs_prefix]. rewrite NB. cbn [app]. rewrite app_nil_r.
    assert (V : forall b, trip (txt "<span" ++ txt " class=""field""" ++ txt ">" ++ html_value v ++ txt "</span>")
                  (mkSpot i (Some b) false c) [] (mkSpot i (Some (b ++ text_value v)) false c)).
    { clear b. intros b.
      replace (txt "<span" ++ txt " class=""field""" ++ txt ">" ++ html_value v ++ txt "</span>") with
        (tag_text (txt "span") [(txt "class", txt "field")] ++ html_value v ++ tag_text (47%N :: txt "span") [])
        by (unfold tag_text; cbn [flat_map fst snd txt list_ascii_of_string map app]; rewrite <- ?app_assoc; reflexivity).
      eapply trip_then; [eapply trip_tag; reflexivity|]. eapply trip_then; [apply trip_value|eapply trip_tag; reflexivity]. }
    destruct label as [|x label]; cbn [is_empty].
    - apply V.
    - replace (labelled (x :: label) (text_value v)) with ((((x :: label) ++ txt ":") ++ txt " ") ++ text_value v)
        by (cbn [labelled]; destruct (text_value v); [now destruct NE|rewrite <- !app_assoc; reflexivity]).
      rewrite (app_assoc b (((x :: label) ++ txt ":") ++ txt " ")). eapply trip_then; [|apply V].
      replace (txt "<span class=""field"">" ++ (x :: label) ++ txt ":</span> ") with
        (tag_text (txt "span") [(txt "class", txt "field")] ++ ((x :: label) ++ txt ":") ++ tag_text (47%N :: txt "span") [] ++ txt " ")
        by (unfold tag_text; cbn [flat_map fst snd txt list_ascii_of_string map app]; repeat (cbn [app]; rewrite <- ?app_assoc); reflexivity).
      eapply trip_then; [eapply trip_tag; reflexivity|]. eapply trip_then.
      + apply trip_plain, plain_app; [exact P|apply (plain_colon esc unescape OK)].
      + eapply trip_then; [eapply trip_tag; reflexivity|]. rewrite (app_assoc b ((x :: label) ++ txt ":") (txt " ")). apply trip_plain, (plain_space esc unescape OK).
  Qed.

  Notation at_ i := (mkSpot i None false []).
  (** An entry of its own. *)
  Lemma trip_entry t w i : w <> [] -> trip t (mkSpot i (Some []) false []) [] (mkSpot i (Some w) false []) ->
    trip (txt "<li>" ++ t ++ txt "</li>" ++ newline) (at_ i) [Line i w] (at_ i).
  Proof.
    intros NE T. eapply trip_then; [eapply (trip_tag (txt "li") []); reflexivity|]. eapply trip_then; [exact T|].
    rewrite <- (app_nil_r [Line i w]). eapply trip_app; [|apply trip_newline].
    eapply (trip_tag (47%N :: txt "li") []); [reflexivity|reflexivity|]. cbn. destruct w; [now destruct NE|reflexivity].
  Qed.
  (** An entry with a list in it. *)
  Lemma trip_list li ul l m t w body ls i :
    li = tag_text (txt "li") l -> tag_fine (txt "li") l = true -> ul = tag_text (txt "ul") m -> tag_fine (txt "ul") m = true ->
    trip t (mkSpot i (Some []) false []) [] (mkSpot i (Some w) false []) ->
    trip body (at_ (S i)) ls (at_ (S i)) ->
    trip (li ++ t ++ ul ++ newline ++ body ++ txt "</ul></li>" ++ newline) (at_ i)
      (match w with [] => [] | _ => [Line i w] end ++ ls) (at_ i).
  Proof.
    intros EL FL EU FU T B. eapply trip_then; [eapply trip_tag; [exact EL|exact FL|reflexivity]|]. eapply trip_then; [exact T|].
    eapply trip_app.
    { eapply trip_tag; [exact EU|exact FU|]. cbn. destruct w; reflexivity. }
    eapply trip_then; [apply trip_newline|]. rewrite <- (app_nil_r ls). eapply trip_app; [exact B|].
    change (txt "</ul></li>") with (tag_text (47%N :: txt "ul") [] ++ tag_text (47%N :: txt "li") []).
    rewrite <- app_assoc. eapply trip_then; [eapply trip_tag; reflexivity|]. eapply trip_then; [eapply trip_tag; reflexivity|].
    apply trip_newline.
  Qed.
  Lemma trip_instruction s a m v i : plain esc m ->
    trip (html_instruction s a m (html_value v)) (at_ i) [Line i (instruction_text a m (text_value v))] (at_ i).
  Proof.
    intros P. unfold html_instruction. set (x := match a with Some a => hex a | None => [] end).
    assert (PX : plain esc x).
    { subst x. destruct a as [a|]; [|reflexivity]. apply (plain_chars esc unescape OK). exact (hex_chars alphanumeric a). }
    change (trip (txt "<tr><td>" ++ x ++ txt "</td><td>" ++ m ++ txt "</td><td>" ++ html_value v ++ txt "</td></tr>") (at_ i)
      [Line i (instruction_text a m (text_value v))] (at_ i)).
    replace (txt "<tr><td>" ++ x ++ txt "</td><td>" ++ m ++ txt "</td><td>" ++ html_value v ++ txt "</td></tr>") with
      (tag_text (txt "tr") [] ++ tag_text (txt "td") [] ++ x ++ tag_text (47%N :: txt "td") [] ++ tag_text (txt "td") [] ++ m ++
       tag_text (47%N :: txt "td") [] ++ tag_text (txt "td") [] ++ html_value v ++ tag_text (47%N :: txt "td") [] ++ tag_text (47%N :: txt "tr") [])
      by (unfold tag_text; cbn [flat_map fst snd txt list_ascii_of_string map app]; repeat (cbn [app]; rewrite <- ?app_assoc); reflexivity).
    eapply trip_then; [eapply trip_tag; reflexivity|]. eapply trip_then; [eapply trip_tag; reflexivity|].
    eapply trip_then; [apply trip_plain, PX|]. eapply trip_then; [eapply trip_tag; reflexivity|].
    eapply trip_then; [eapply trip_tag; reflexivity|]. eapply trip_then; [apply trip_plain, P|]. eapply trip_then; [eapply trip_tag; reflexivity|].
    eapply trip_then; [eapply trip_tag; reflexivity|]. eapply trip_then; [apply trip_value|]. eapply trip_then; [eapply trip_tag; reflexivity|].
    eapply trip_tag; [reflexivity|reflexivity|]. cbn [OutlineSpec.read_event tag app]. cbn -[row_text instruction_text].
    f_equal. f_equal. f_equal. unfold instruction_text, row_text. cbn [app]. subst x. destruct a as [a|]; [|reflexivity].
    pose proof (hex_nonempty a). now destruct (hex a).
  Qed.

  (** ** Documents *)
  Lemma solid_empty v : text_value v <> [] -> is_empty (html_value v) = false.
  Proof.
    intros NE. destruct (html_value v) eqn:E; [|reflexivity]. exfalso. apply NE. clear NE.
    assert (N : nothing short v = true) by (rewrite <- (value_nothing esc unescape alphanumeric OK v), E; reflexivity). clear E.
    induction v as [|v1 IH1 v2 IH2|s|s|id v IH]; cbn [nothing text_value] in *; try reflexivity.
    - apply andb_true_iff in N. destruct N as [A B]. now rewrite IH1, IH2.
    - now destruct s.
    - apply andb_true_iff in N. destruct N as [_ N]. now destruct s.
    - apply andb_true_iff in N. destruct N as [_ N]. now apply IH.
  Qed.
  Notation st n := (mkHtml XNone n false).
  Definition prints (n : nat) (d : pdoc) : Prop :=
    exists t, print_doc HP false d (st n) = (t, st n) /\
      (forall i, trip t (at_ i) (filled (lines n i d)) (at_ i)) /\
      (is_empty t = true <-> filled (lines n 0 d) = []).
  Lemma prints_start n : html_started false (mkHtml XNone n true) = st n. Proof. reflexivity. Qed.

  Lemma filled_lines_nil n i d : filled (lines n i d) = [] <-> filled (lines n 0 d) = [].
  Proof. rewrite (lines_at i), filled_deeper. split; [apply deeper_nil|]. now intros ->. Qed.

  Lemma page_outline d : tidy short d -> plain_doc esc d -> forall n, prints n d.
  Proof.
    induction d as [|a IHa b IHb|l v|l| |c h IHh b IHb|c l b IHb|x l b IHb|x h IHh b IHb|d IH|a m v];
      cbn [tidy plain_doc]; intros T P n.
    - exists []. split; [reflexivity|]. split; [intros i; apply trip_nil|]. cbn. tauto.
    - destruct T as [TA TB], P as [PA PB]. destruct (IHa TA PA n) as (ta & EA & RA & NA). destruct (IHb TB PB n) as (tb & EB & RB & NB).
      exists (ta ++ tb). split; [cbn [print_doc]; now rewrite EA, EB|]. split.
      + intros i. cbn [lines]. rewrite filled_app. eapply trip_app; [apply RA|apply RB].
      + cbn [lines]. rewrite filled_app. destruct ta as [|x ta].
        * cbn [app]. rewrite NB. destruct NA as [NA _]. rewrite NA by reflexivity. reflexivity.
        * split; [discriminate|]. intros E. apply app_eq_nil in E. destruct E as [E _]. apply NA in E. discriminate.
    - unfold prints. cbn [print_doc lines]. change (p_value HP v) with (html_value v). destruct (text_value v) as [|x w] eqn:V.
      + specialize (T V). rewrite <- (value_nothing esc unescape alphanumeric OK v) in T. rewrite T.
        exists []. split; [reflexivity|]. split; [intros i; apply trip_nil|]. cbn. tauto.
      + assert (NE : text_value v <> []) by (rewrite V; discriminate). pose proof (solid_empty v NE) as NB. rewrite NB.
        exists (html_line (st n) l (html_value v)). split; [reflexivity|]. rewrite line_split. split.
        * intros i. rewrite <- V. apply trip_entry; [|exact (trip_line l v n i [] [] P NE NB)].
          unfold labelled. destruct l; [exact NE|]. destruct (text_value v); discriminate.
        * split; discriminate.
    - exists (html_line (st n) l []). split; [reflexivity|]. rewrite line_split. split.
      + intros i. cbn [lines filled filter is_filled]. apply trip_entry; [|exact (trip_label l n i [] [] P T)]. now destruct l.
      + split; discriminate.
    - exists []. split; [reflexivity|]. split; [intros i; apply trip_nil|]. cbn. tauto.
    - destruct T as ((v & -> & SV) & TB), P as [PH PB]. cbn [plain_doc] in PH. destruct (IHb TB PB n) as (tb & EB & RB & NB). clear IHb.
      destruct (IHh SV PH n) as (th & EH & RH & NH). clear IHh. unfold prints. cbn [print_doc]. unfold print_indent.
      change (p_body HP (st n)) with (st n). rewrite EB. cbn [lines].
      destruct (is_empty tb) eqn:EM; cbn [negb].
      + exists th. split; [exact EH|]. destruct NB as [NB _]. specialize (NB eq_refl). split.
        * intros i. rewrite filled_app, (proj2 (filled_lines_nil n (S i) b) NB), app_nil_r. apply RH.
        * rewrite filled_app, (proj2 (filled_lines_nil n 1 b) NB), app_nil_r. exact NH.
      + clear EH RH NH. cbn [p_header html_printer no_flag]. cbn [html_started hs_prefix hs_depth].
        assert (V : exists t, (let buf := html_value v in if is_empty buf then ([], mkHtml XNone n true) else (html_line (mkHtml XNone n true) [] buf, mkHtml XNone n true)) =
            (t, mkHtml XNone n true) /\
            forall i, trip t (mkSpot i (Some []) false []) [] (mkSpot i (Some (text_value v)) false [])).
        { cbv zeta. destruct (text_value v) as [|y w] eqn:W.
          - specialize (SV W). rewrite <- (value_nothing esc unescape alphanumeric OK v) in SV. rewrite SV. exists []. split; [reflexivity|]. intros i. apply trip_nil.
          - assert (NE : text_value v <> []) by (rewrite W; discriminate). rewrite (solid_empty v NE). eexists. split; [reflexivity|].
            intros i. rewrite <- W. exact (trip_line [] v n i [] [] PH NE (solid_empty v NE)). }
        destruct V as (t & ET & V). unfold no_flag. cbv zeta in ET.
        change (p_value HP v) with (html_value v). change (p_line HP) with (html_line). change (html_started true (st n)) with (mkHtml XNone n true).
        exists (txt "<li class=""treebranch"">" ++ t ++ (if c then txt "<ul style=""display:none"">" else txt "<ul>") ++
                newline ++ tb ++ txt "</ul></li>" ++ newline).
        split; [destruct (is_empty (html_value v)); injection ET as <-; reflexivity|]. split.
        * intros i. rewrite filled_app.
          assert (L : filled match text_value v with [] => [] | n0 :: l => [Line i (labelled [] (n0 :: l))] end =
            match text_value v with [] => [] | _ => [Line i (text_value v)] end) by (now destruct (text_value v)).
          rewrite L.
          eapply (trip_list (txt "<li class=""treebranch"">") (if c then txt "<ul style=""display:none"">" else txt "<ul>")
            [(txt "class", txt "treebranch")] (if c then [(txt "style", txt "display:none")] else []));
            [reflexivity|reflexivity|now destruct c|now destruct c|apply V|apply RB].
        * split; [discriminate|]. rewrite filled_app. intros E. apply app_eq_nil in E. destruct E as [_ E]. apply (filled_lines_nil n 1) in E.
          apply NB in E. discriminate.
    - destruct T as (NE & TB & HV), P as [PL PB]. destruct (IHb TB PB n) as (tb & EB & RB & NB). clear IHb.
      unfold prints. cbn [print_doc]. unfold print_indent. change (p_body HP (st n)) with (st n). rewrite EB. cbn [lines].
      destruct (is_empty tb) eqn:EM; cbn [negb].
      + destruct NB as [NB _]. specialize (NB eq_refl). specialize (HV n NB). exists []. split; [reflexivity|].
        assert (LN : forall i, lines n i b = []) by (intros i; rewrite lines_at, HV; reflexivity). split.
        * intros i. rewrite LN. apply trip_nil.
        * rewrite LN. cbn. tauto.
      + assert (LN : forall i, filled (match lines n (S i) b with [] => [] | z :: ls => Line i (labelled l []) :: z :: ls end) =
                       Line i (labelled l []) :: filled (lines n (S i) b)).
        { intros i. destruct (lines n (S i) b) eqn:L; [|reflexivity]. exfalso. assert (Z : false = true) by (apply NB; apply (filled_lines_nil n (S i)); now rewrite L).
          discriminate. }
        cbn [p_header html_printer no_flag print_label]. cbn [html_started hs_prefix hs_depth p_line html_printer].
        eexists. split; [reflexivity|]. split.
        * intros i. rewrite LN. change (Line i (labelled l []) :: filled (lines n (S i) b)) with ([Line i (labelled l [])] ++ filled (lines n (S i) b)).
          replace [Line i (labelled l [])] with (match labelled l [] with [] => [] | _ => [Line i (labelled l [])] end) by (now destruct l).
          eapply (trip_list (txt "<li class=""treebranch"">") (if c then txt "<ul style=""display:none"">" else txt "<ul>")
            [(txt "class", txt "treebranch")] (if c then [(txt "style", txt "display:none")] else []));
            [reflexivity|reflexivity|now destruct c|now destruct c|exact (trip_label l n i [] [] PL NE)|apply RB].
        * rewrite LN. split; discriminate.
    - destruct T as (NE & TB & HV), P as (_ & PL & PB). destruct (IHb TB PB n) as (tb & EB & RB & NB). clear IHb.
      unfold prints. cbn [print_doc]. unfold print_indent. change (p_body HP (st n)) with (st n). rewrite EB. cbn [lines].
      destruct (is_empty tb) eqn:EM; cbn [negb].
      + destruct NB as [NB _]. specialize (NB eq_refl). specialize (HV n NB). exists []. split; [reflexivity|].
        assert (LN : forall i, lines n i b = []) by (intros i; rewrite lines_at, HV; reflexivity). split.
        * intros i. rewrite LN. apply trip_nil.
        * rewrite LN. cbn. tauto.
      + assert (LN : forall i, filled (match lines n (S i) b with [] => [] | z :: ls => Line i (labelled l []) :: z :: ls end) =
                       Line i (labelled l []) :: filled (lines n (S i) b)).
        { intros i. destruct (lines n (S i) b) eqn:L; [|reflexivity]. exfalso. assert (Z : false = true) by (apply NB; apply (filled_lines_nil n (S i)); now rewrite L).
          discriminate. }
        cbn [p_header html_printer no_flag print_label]. cbn [html_started hs_prefix hs_depth p_line html_printer].
        eexists. split; [reflexivity|]. split.
        * intros i. rewrite LN. change (Line i (labelled l []) :: filled (lines n (S i) b)) with ([Line i (labelled l [])] ++ filled (lines n (S i) b)).
          replace [Line i (labelled l [])] with (match labelled l [] with [] => [] | _ => [Line i (labelled l [])] end) by (now destruct l).
          eapply (trip_list (txt "<li class=""treebranch"">") (txt "<ul style=""display:none"">")
            [(txt "class", txt "treebranch")] [(txt "style", txt "display:none")]);
            [reflexivity|reflexivity|reflexivity|reflexivity|exact (trip_label l n i [] [] PL NE)|apply RB].
        * rewrite LN. split; discriminate.
    - destruct T as ((v & -> & NE) & TB), P as [PH PB]. cbn [plain_doc] in PH. destruct (IHb TB PB n) as (tb & EB & RB & NB). clear IHh IHb.
      pose proof (solid_empty v NE) as NH. unfold prints. cbn [print_doc lines].
      assert (V : forall i, trip (html_line (mkHtml XNone n true) [] (html_value v)) (mkSpot i (Some []) false []) [] (mkSpot i (Some (text_value v)) false []))
        by (intros i; exact (trip_line [] v n i [] [] PH NE NH)).
      cbn [p_id html_printer no_flag]. cbn [html_started hs_prefix hs_depth]. change (p_value HP v) with (html_value v). rewrite NH. cbn [p_line html_printer].
      change (html_started true (st n)) with (mkHtml XNone n true). unfold no_flag. cbv beta iota.
      change (html_started false (mkHtml XNone n true)) with (st n).
      rewrite EB. eexists. split; [reflexivity|]. split.
      + intros i. rewrite filled_app. destruct (text_value v) as [|y w] eqn:W; [now destruct NE|]. cbn [filled filter is_filled app].
        match goal with |- trip ?t _ _ _ => replace t with
          (tag_text (txt "li") [(txt "class", txt "treebranch"); (txt "id", dec (N.of_nat x))] ++ html_line (mkHtml XNone n true) [] (html_value v) ++
            txt "<ul style=""display:none"">" ++ newline ++ tb ++ txt "</ul></li>" ++ newline) end;
          [|unfold tag_text; cbn [flat_map fst snd txt list_ascii_of_string map app]; repeat (cbn [app]; rewrite <- ?app_assoc); reflexivity].
        change (Line i (labelled [] (y :: w)) :: filled (lines n (S i) b)) with
          (match y :: w with [] => [] | _ => [Line i (y :: w)] end ++ filled (lines n (S i) b)).
        eapply (trip_list _ (txt "<ul style=""display:none"">") [(txt "class", txt "treebranch"); (txt "id", dec (N.of_nat x))] [(txt "style", txt "display:none")]);
          [reflexivity| |reflexivity|reflexivity|apply V|apply RB].
        unfold tag_fine. cbn [forallb fst snd]. repeat (apply andb_true_iff; split); try reflexivity.
        apply forallb_forall. intros z Z. destruct (id_text_safe alphanumeric x z Z) as (A & B & C).
        now rewrite !(proj2 (N.eqb_neq _ _)).
      + split; [discriminate|]. destruct (text_value v); [now destruct NE|discriminate].
    - destruct n as [|n].
      + exists []. split; [reflexivity|]. split; [intros i; apply trip_nil|]. cbn. tauto.
      + destruct (IH T P n) as (t & E & R & N). exists t. split; [|split].
        * cbn [print_doc p_inline_begin html_printer hs_depth hs_prefix hs_line_started]. rewrite E. reflexivity.
        * exact R.
        * exact N.
    - exists (html_instruction (st n) a m (html_value v)). split; [reflexivity|]. split; [intros i; now apply trip_instruction|]. split; discriminate.
  Qed.

  (** ** Pages *)
  Lemma read_emit run : forall i b k c, read_events (emit run) (mkSpot i b k c) = ([], match b with Some t => if k then mkSpot i b k c else mkSpot i (Some (t ++ run)) k c | None => mkSpot i b k c end).
  Proof.
    intros i b k c. destruct run as [|x run]; cbn [emit OutlineSpec.read_events].
    - destruct b as [t|]; [|reflexivity]. destruct k; [reflexivity|]. now rewrite app_nil_r.
    - destruct b as [t|]; [|reflexivity]. now destruct k.
  Qed.
  Lemma read_events_cons e es s : read_events (e :: es) s =
    (fst (read_event e s) ++ fst (read_events es (snd (read_event e s))), snd (read_events es (snd (read_event e s)))).
  Proof. cbn [OutlineSpec.read_events]. destruct (read_event e s) as [a s1]. cbn [fst snd]. now destruct (read_events es s1). Qed.
  Lemma read_closed es : forall run s, read_events (closed (feed run es)) s = read_events es (snd (read_events (emit run) s)).
  Proof.
    induction es as [|e es IH]; intros run [i b k c].
    - unfold closed. cbn [feed fst snd app OutlineSpec.read_events]. rewrite read_emit. reflexivity.
    - destruct e as [t|n l|n].
      + cbn [feed]. rewrite IH, !read_emit. cbn [snd]. rewrite read_events_cons. unfold OutlineSpec.read_event.
        destruct b as [w|]; cbn [sp_entry sp_short fst snd app]; [|now destruct (read_events es _)].
        destruct k; cbn [sp_entry sp_short fst snd app with_entry sp_indent sp_cells]; [now destruct (read_events es _)|].
        rewrite app_assoc. now destruct (read_events es _).
      + rewrite closed_cons by exact I. rewrite read_events_app, read_emit. cbn [fst snd app].
        rewrite !read_events_cons. rewrite !IH. cbn [emit OutlineSpec.read_events fst snd]. reflexivity.
      + rewrite closed_cons by exact I. rewrite read_events_app, read_emit. cbn [fst snd app].
        rewrite !read_events_cons. rewrite !IH. cbn [emit OutlineSpec.read_events fst snd]. reflexivity.
  Qed.
  Lemma trip_page t ls s : trip t (at_ 0) ls s -> exists es, read_html unescape t = Some es /\ outline unescape es = ls.
  Proof.
    intros (es & R & E). exists (closed (feed [] es)). split.
    - unfold read_html. specialize (R [] []). rewrite app_nil_r in R. change (esct []) with (@nil N) in R.
      rewrite R. cbn [scan option_map]. now rewrite (chars_emit esc unescape OK).
    - unfold outline. rewrite read_closed. cbn [emit OutlineSpec.read_events snd]. now rewrite E.
  Qed.
End Outline.
