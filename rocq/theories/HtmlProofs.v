(** Pages are read back: proper nesting, text and full names. *)
From Coq Require Import List Arith NArith Bool String Ascii Lia DecimalString HexadecimalString.
From Verif Require Import PrintModel PrintSpec PrintProofs HtmlSpec.
Import ListNotations.

Section Html.
  Variables (esc : N -> text) (unescape : text -> text) (alphanumeric : N -> bool) (http : bool).
  Hypothesis OK : escape_ok esc unescape.

  Local Notation esct := (escaped esc).
  Local Notation HP := (html_printer esc alphanumeric http).
  Local Notation short := (short_name alphanumeric).
  Local Notation scan := (scan unescape).

  Lemma esct_app a b : esct (a ++ b) = esct a ++ esct b.
  Proof. apply flat_map_app. Qed.
  Lemma esct_nil a : esct a = [] -> a = [].
  Proof.
    intros E. rewrite <- (esc_inverse _ _ OK a). unfold escaped in E. rewrite E.
    apply (esc_inverse _ _ OK []).
  Qed.
  Lemma esct_safe a x : In x (esct a) -> x <> 60%N /\ x <> 62%N /\ x <> 34%N.
  Proof. intros IN. apply in_flat_map in IN. destruct IN as (c & _ & IN). now apply (esc_safe _ _ OK c). Qed.

  (** ** Reading a piece *)

  (** Events with adjacent text merged: what is complete, and the text at the end. *)
  Definition emit (run : text) : list event := match run with [] => [] | _ => [Chars run] end.
  Fixpoint feed (run : text) (es : list event) : list event * text :=
    match es with
    | [] => ([], run)
    | Chars t :: es => feed (run ++ t) es
    | e :: es => let '(a, r) := feed [] es in (emit run ++ e :: a, r)
    end.
  Lemma feed_app run a b :
    feed run (a ++ b) =
    (fst (feed run a) ++ fst (feed (snd (feed run a)) b), snd (feed (snd (feed run a)) b)).
  Proof.
    revert run. induction a as [|e a IH]; intros run; [cbn; now destruct (feed run b)|].
    destruct e as [t|n l|n]; cbn [feed app].
    - apply IH.
    - rewrite IH. destruct (feed [] a) as [x r]. cbn [fst snd]. now rewrite <- app_assoc.
    - rewrite IH. destruct (feed [] a) as [x r]. cbn [fst snd]. now rewrite <- app_assoc.
  Qed.

  Definition reads (t : text) (es : list event) : Prop := forall rest run,
    scan (t ++ rest) (InText (esct run)) =
    option_map (app (fst (feed run es))) (scan rest (InText (esct (snd (feed run es))))).

  Lemma option_map_app {A} (a b : list A) x :
    option_map (app a) (option_map (app b) x) = option_map (app (a ++ b)) x.
  Proof. destruct x; cbn; [now rewrite app_assoc|reflexivity]. Qed.

  Lemma reads_nil : reads [] [].
  Proof. intros rest run. cbn [app feed fst snd]. now destruct (scan rest (InText (esct run))). Qed.
  Lemma reads_app t1 t2 e1 e2 : reads t1 e1 -> reads t2 e2 -> reads (t1 ++ t2) (e1 ++ e2).
  Proof.
    intros A B rest run. rewrite <- app_assoc, A, B, option_map_app, feed_app. reflexivity.
  Qed.
  Lemma scan_text t : (forall x, In x t -> x <> 60%N /\ x <> 62%N) -> forall rest run,
    scan (t ++ rest) (InText run) = scan rest (InText (run ++ t)).
  Proof.
    induction t as [|c t IH]; intros S rest run; [cbn; now rewrite app_nil_r|].
    cbn [app HtmlSpec.scan]. destruct (S c (or_introl eq_refl)) as [N1 N2].
    apply N.eqb_neq in N1, N2. rewrite N1, N2, IH by (intros x IN; apply S; now right).
    now rewrite <- app_assoc.
  Qed.
  Lemma reads_text t : reads (esct t) [Chars t].
  Proof.
    intros rest run. rewrite scan_text by (intros x IN; apply esct_safe in IN; tauto).
    rewrite <- esct_app. cbn [feed fst snd]. now destruct (scan rest (InText (esct (run ++ t)))).
  Qed.
  Lemma reads_plain t : plain esc t -> reads t [Chars t].
  Proof. intros P. pose proof (reads_text t) as R. unfold escaped in R. now rewrite P in R. Qed.

  Lemma chars_emit run : chars unescape (esct run) = emit run.
  Proof.
    unfold chars. destruct (esct run) as [|c t] eqn:E.
    - apply esct_nil in E. now subst.
    - rewrite <- E. unfold escaped. rewrite (esc_inverse _ _ OK). destruct run; [discriminate|reflexivity].
  Qed.

  (** Tags. *)
  Definition tag_text (name : text) (l : list (text * text)) : text :=
    txt "<" ++ name ++ flat_map (fun p => txt " " ++ fst p ++ txt "=""" ++ snd p ++ txt """") l ++ txt ">".
  Definition name_ok (n : text) : Prop := forall x, In x n -> x <> 62%N /\ x <> 32%N.
  Definition attr_ok (p : text * text) : Prop :=
    (forall x, In x (fst p) -> x <> 61%N) /\ (forall x, In x (snd p) -> x <> 60%N /\ x <> 62%N /\ x <> 34%N).

  Lemma scan_name n : name_ok n -> forall rest a, scan (n ++ rest) (InName a) = scan rest (InName (a ++ n)).
  Proof.
    induction n as [|c n IH]; intros S rest a; [cbn; now rewrite app_nil_r|].
    cbn [app HtmlSpec.scan]. destruct (S c (or_introl eq_refl)) as [N1 N2].
    apply N.eqb_neq in N1, N2. rewrite N1, N2, IH by (intros x IN; apply S; now right).
    now rewrite <- app_assoc.
  Qed.
  Lemma scan_attribute a : (forall x, In x a -> x <> 61%N) -> forall rest n l b,
    scan (a ++ rest) (InAttribute n l b) = scan rest (InAttribute n l (b ++ a)).
  Proof.
    induction a as [|c a IH]; intros S rest n l b; [cbn; now rewrite app_nil_r|].
    cbn [app HtmlSpec.scan]. pose proof (S c (or_introl eq_refl)) as N1.
    apply N.eqb_neq in N1. rewrite N1, IH by (intros x IN; apply S; now right).
    now rewrite <- app_assoc.
  Qed.
  Lemma scan_value v : (forall x, In x v -> x <> 60%N /\ x <> 62%N /\ x <> 34%N) -> forall rest n l a w,
    scan (v ++ rest) (InValue n l a w) = scan rest (InValue n l a (w ++ v)).
  Proof.
    induction v as [|c v IH]; intros S rest n l a w; [cbn; now rewrite app_nil_r|].
    cbn [app HtmlSpec.scan]. destruct (S c (or_introl eq_refl)) as (N1 & N2 & N3).
    apply N.eqb_neq in N1, N2, N3. rewrite N1, N2, N3. cbn [orb].
    rewrite IH by (intros x IN; apply S; now right). now rewrite <- app_assoc.
  Qed.
  Lemma scan_attributes l : Forall attr_ok l -> forall rest n l0,
    scan (flat_map (fun p => txt " " ++ fst p ++ txt "=""" ++ snd p ++ txt """") l ++ rest) (AfterValue n l0) =
    scan rest (AfterValue n (l0 ++ l)).
  Proof.
    induction 1 as [|[a v] l [A V] F IH]; intros rest n l0; [cbn; now rewrite app_nil_r|].
    cbn [flat_map fst snd] in *. rewrite <- !app_assoc.
    change (txt " ") with [32%N]. change (txt "=""") with [61%N; 34%N]. change (txt """") with [34%N].
    cbn [app HtmlSpec.scan N.eqb Pos.eqb]. rewrite scan_attribute by exact A.
    cbn [app HtmlSpec.scan N.eqb Pos.eqb]. rewrite scan_value by exact V.
    cbn [app HtmlSpec.scan N.eqb Pos.eqb]. rewrite IH. now rewrite <- app_assoc.
  Qed.
  Lemma reads_tag n l : name_ok n -> Forall attr_ok l -> reads (tag_text n l) [tag n l].
  Proof.
    intros NO AO rest run. unfold tag_text. change (txt "<") with [60%N]. change (txt ">") with [62%N].
    rewrite <- !app_assoc. cbn [app HtmlSpec.scan N.eqb Pos.eqb]. rewrite scan_name by exact NO.
    assert (T : forall r, feed r [tag n l] = (emit r ++ [tag n l], [])).
    { intros r. unfold tag. destruct n as [|[|x] n0]; try reflexivity.
      repeat (destruct x as [x|x|]; try reflexivity). }
    rewrite T, chars_emit. cbn [fst snd app].
    destruct AO as [|[a v] l [A V] F].
    - cbn [flat_map app HtmlSpec.scan N.eqb Pos.eqb]. change (esct []) with (@nil N).
      destruct (scan rest (InText [])); cbn; [now rewrite <- app_assoc|reflexivity].
    - cbn [flat_map fst snd] in *. rewrite <- !app_assoc.
      change (txt " ") with [32%N]. change (txt "=""") with [61%N; 34%N]. change (txt """") with [34%N].
      cbn [app HtmlSpec.scan N.eqb Pos.eqb]. rewrite scan_attribute by exact A.
      cbn [app HtmlSpec.scan N.eqb Pos.eqb]. rewrite scan_value by exact V.
      cbn [app HtmlSpec.scan N.eqb Pos.eqb].
      pose proof (scan_attributes l F (62%N :: rest) n [(a, v)]) as SA.
      change (txt " ") with [32%N] in SA. change (txt "=""") with [61%N; 34%N] in SA.
      change (txt """") with [34%N] in SA. cbn [app] in SA. cbn [app]. rewrite SA.
      cbn [app HtmlSpec.scan N.eqb Pos.eqb]. change (esct []) with (@nil N).
      destruct (scan rest (InText [])); cbn; [now rewrite <- app_assoc|reflexivity].
  Qed.

  (** ** Pieces *)

  Definition balanced (es : list event) : Prop := forall st, nest es st = Some st.
  Definition calm (b : bool) (es : list event) : Prop := b = false -> Forall unmarked es.

  Lemma nest_app a b st : nest (a ++ b) st = match nest a st with Some st' => nest b st' | None => None end.
  Proof.
    revert st. induction a as [|[t|n l|n] a IH]; intros st; cbn [nest app]; [reflexivity|apply IH| |].
    - destruct (text_eqb n (txt "br")); apply IH.
    - destruct st as [|n' st']; [reflexivity|]. destruct (text_eqb n n'); [apply IH|reflexivity].
  Qed.
  Lemma content_app a b st st' : nest a st = Some st' -> content (a ++ b) st = content a st ++ content b st'.
  Proof.
    revert st. induction a as [|[t|n l|n] a IH]; intros st H; cbn [nest app content] in *.
    - now injection H as ->.
    - rewrite IH by exact H. now rewrite app_assoc.
    - destruct (text_eqb n (txt "br")); now apply IH.
    - destruct st as [|n' st0]; [discriminate|]. destruct (text_eqb n n'); [now apply IH|discriminate].
  Qed.
  Lemma titles_app a b : titles unescape (a ++ b) = titles unescape a ++ titles unescape b.
  Proof. apply flat_map_app. Qed.

  Definition in_text (b : bool) (st : list text) : Prop := existsb for_text st = b.

  (** A piece [t] of a page, in an element for text if [i] is true and outside of these
      otherwise, with the text [w] and the full names [ts]; it may have marks if [b]. *)
  Definition piece (i b : bool) (t w : text) (ts : list text) : Prop := exists es,
    reads t es /\ balanced es /\ (forall st, in_text i st -> content es st = w) /\
    titles unescape es = ts /\ Forall known es /\ calm b es.

  Lemma piece_nil i b : piece i b [] [] [].
  Proof. exists []. split; [apply reads_nil|]. repeat split; constructor. Qed.
  Lemma piece_app i b t1 t2 w1 w2 ts1 ts2 : piece i b t1 w1 ts1 -> piece i b t2 w2 ts2 ->
    piece i b (t1 ++ t2) (w1 ++ w2) (ts1 ++ ts2).
  Proof.
    intros (e1 & R1 & B1 & C1 & T1 & K1 & M1) (e2 & R2 & B2 & C2 & T2 & K2 & M2). exists (e1 ++ e2).
    split; [now apply reads_app|]. split; [intros st; now rewrite nest_app, B1|].
    split; [intros st H; rewrite (content_app e1 e2 st st (B1 st)); now rewrite C1, C2|].
    split; [rewrite titles_app; congruence|]. split; [now apply Forall_app|].
    intros E. apply Forall_app. split; auto.
  Qed.
  Lemma piece_text b t : piece true b (esct t) t [].
  Proof.
    exists [Chars t]. split; [apply reads_text|]. repeat split; try (repeat constructor).
    intros st H. unfold in_text in H. cbn. rewrite H. apply app_nil_r.
  Qed.
  Lemma piece_outside b t : plain esc t -> piece false b t [] [].
  Proof.
    intros P. exists [Chars t]. split; [now apply reads_plain|]. repeat split; try (repeat constructor).
    intros st H. unfold in_text in H. cbn. rewrite H. reflexivity.
  Qed.
  Lemma piece_inside b t : plain esc t -> piece true b t t [].
  Proof. intros P. pose proof (piece_text b t) as Q. unfold escaped in Q. now rewrite P in Q. Qed.

  Lemma text_eqb_neq a b : a <> b -> text_eqb a b = false.
  Proof. intros H. destruct (text_eqb a b) eqn:E; [apply text_eqb_iff in E; contradiction|reflexivity]. Qed.

  Definition tag_ok (n : text) : Prop := In n tags /\ n <> txt "br".
  Lemma tag_ok_name n : In n tags -> name_ok n.
  Proof.
    intros IN x X. unfold tags in IN. cbn in IN.
    repeat (destruct IN as [<-|IN]; [cbn in X; repeat (destruct X as [<-|X]; [split; discriminate|]); contradiction|]).
    contradiction.
  Qed.
  Lemma tag_open n l : In n tags -> tag n l = Open n l.
  Proof.
    intros IN. unfold tags in IN. cbn in IN. repeat (destruct IN as [<-|IN]; [reflexivity|]). contradiction.
  Qed.

  Lemma piece_elem i j b n l t w ts :
    tag_ok n -> Forall attr_ok l -> (b = false -> unmarked (Open n l)) ->
    (forall st, in_text i st -> in_text j (n :: st)) ->
    piece j b t w ts ->
    piece i b (tag_text n l ++ t ++ tag_text (47%N :: n) []) w (event_titles unescape (Open n l) ++ ts).
  Proof.
    intros [IN NB] AO UM ST (es & R & B & C & T & K & M).
    exists (Open n l :: es ++ [Close n]).
    split; [|split; [|split; [|split; [|split]]]].
    - change (Open n l :: es ++ [Close n]) with ([Open n l] ++ es ++ [Close n]).
      apply reads_app; [|apply reads_app; [exact R|]].
      + rewrite <- (tag_open n l IN). apply reads_tag; [now apply tag_ok_name|exact AO].
      + change (Close n) with (tag (47%N :: n) []). apply reads_tag; [|constructor].
        intros x [<-|X]; [split; discriminate|]. now apply (tag_ok_name n IN).
    - intros st. cbn [nest]. rewrite (text_eqb_neq n (txt "br") NB), nest_app, B. cbn [nest].
      now rewrite text_eqb_refl.
    - intros st H. cbn [content]. rewrite (text_eqb_neq n (txt "br") NB).
      rewrite (content_app es [Close n] (n :: st) (n :: st) (B _)). rewrite C by now apply ST.
      cbn [content]. apply app_nil_r.
    - unfold titles. cbn [flat_map]. rewrite flat_map_app. cbn [flat_map event_titles].
      rewrite !app_nil_r. fold (titles unescape es). now rewrite T.
    - constructor; [exact IN|]. apply Forall_app. split; [exact K|]. constructor; [exact IN|constructor].
    - intros E. constructor; [now apply UM|]. apply Forall_app. split; [now apply M|]. repeat constructor.
  Qed.

  (** Numbers. *)
  Lemma dec_chars n x : In x (dec n) -> In x (txt "0123456789abcdef: " ++ newline).
  Proof.
    unfold dec. generalize (N.to_uint n). intros d.
    assert (H : forall d, In x (txt (DecimalString.NilEmpty.string_of_uint d)) -> In x (txt "0123456789abcdef: " ++ newline)).
    { clear. induction d as [|d IH|d IH|d IH|d IH|d IH|d IH|d IH|d IH|d IH|d IH]; cbn [DecimalString.NilEmpty.string_of_uint];
        [intros []|..]; (intros [<-|IN]; [cbn; tauto|apply IH; exact IN]). }
    destruct d; [intros [<-|[]]; cbn; tauto|..]; apply H.
  Qed.
  Lemma hex_chars n x : In x (hex n) -> In x (txt "0123456789abcdef: " ++ newline).
  Proof.
    unfold hex. generalize (N.to_hex_uint n). intros d.
    assert (H : forall d, In x (txt (HexadecimalString.NilEmpty.string_of_uint d)) -> In x (txt "0123456789abcdef: " ++ newline)).
    { clear. induction d as [|d IH|d IH|d IH|d IH|d IH|d IH|d IH|d IH|d IH|d IH|d IH|d IH|d IH|d IH|d IH|d IH];
        cbn [HexadecimalString.NilEmpty.string_of_uint];
        [intros []|..]; (intros [<-|IN]; [cbn; tauto|apply IH; exact IN]). }
    destruct d; [intros [<-|[]]; cbn; tauto|..]; apply H.
  Qed.
  Lemma plain_chars t : (forall x, In x t -> In x (txt "0123456789abcdef: " ++ newline)) -> plain esc t.
  Proof.
    unfold plain. induction t as [|c t IH]; intros H; [reflexivity|]. cbn [flat_map].
    rewrite (esc_plain _ _ OK c) by (apply H; now left). rewrite IH by (intros x IN; apply H; now right).
    reflexivity.
  Qed.
  Lemma plain_app a b : plain esc a -> plain esc b -> plain esc (a ++ b).
  Proof. unfold plain. intros A B. rewrite flat_map_app. congruence. Qed.
  Lemma plain_safe t : plain esc t -> forall x, In x t -> x <> 60%N /\ x <> 62%N /\ x <> 34%N.
  Proof. intros P x IN. apply (esct_safe t). unfold escaped. now rewrite P. Qed.
  Lemma plain_colon : plain esc (txt ":").
  Proof. apply plain_chars. intros x [<-|[]]. cbn. tauto. Qed.
  Lemma plain_space : plain esc (txt " ").
  Proof. apply plain_chars. intros x [<-|[]]. cbn. tauto. Qed.
  Lemma plain_newline : plain esc newline.
  Proof. apply plain_chars. intros x [<-|[]]. cbn. tauto. Qed.

  (** Elements. *)
  Ltac static := repeat constructor; cbn; intros x X; repeat (destruct X as [<-|X]; [repeat split; discriminate|]); contradiction.
  Lemma tag_ok_span : tag_ok (txt "span"). Proof. split; [cbn; tauto|discriminate]. Qed.
  Lemma tag_ok_a : tag_ok (txt "a"). Proof. split; [cbn; tauto|discriminate]. Qed.
  Lemma tag_ok_li : tag_ok (txt "li"). Proof. split; [cbn; tauto|discriminate]. Qed.
  Lemma tag_ok_ul : tag_ok (txt "ul"). Proof. split; [cbn; tauto|discriminate]. Qed.
  Lemma tag_ok_tr : tag_ok (txt "tr"). Proof. split; [cbn; tauto|discriminate]. Qed.
  Lemma tag_ok_td : tag_ok (txt "td"). Proof. split; [cbn; tauto|discriminate]. Qed.

  Lemma piece_same i b t t' w w' ts ts' : t = t' -> w = w' -> ts = ts' -> piece i b t w ts -> piece i b t' w' ts'.
  Proof. now intros -> -> ->. Qed.

  (** An element for text, in any place, with one attribute or none. *)
  Lemma piece_span i b l t w ts :
    Forall attr_ok l -> (b = false -> unmarked (Open (txt "span") l)) ->
    (forall v, ~ In (txt "title", v) l) ->
    piece true b t w ts ->
    piece i b (tag_text (txt "span") l ++ t ++ txt "</span>") w ts.
  Proof.
    intros AO UM NT H.
    assert (T : event_titles unescape (Open (txt "span") l) = []).
    { cbn [event_titles]. induction l as [|[a v] l IH]; [reflexivity|]. cbn [filter fst].
      destruct (text_eqb a (txt "title")) eqn:E.
      - apply text_eqb_iff in E. subst. exfalso. apply (NT v). now left.
      - apply IH; [now inversion AO| |].
        + intros E0. specialize (UM E0). cbn in *. intros v0 I0. apply UM. now right.
        + intros v0 I0. apply (NT v0). now right. }
    eapply piece_same; [| | |apply (piece_elem i true b (txt "span") l t w ts tag_ok_span AO UM)]; [reflexivity|reflexivity| | |exact H].
    - now rewrite T.
    - intros st _. reflexivity.
  Qed.
  Lemma piece_block b n l t w ts :
    n = txt "li" \/ n = txt "ul" \/ n = txt "tr" ->
    Forall attr_ok l -> (b = false -> unmarked (Open n l)) -> (forall v, ~ In (txt "title", v) l) ->
    piece false b t w ts ->
    piece false b (tag_text n l ++ t ++ tag_text (47%N :: n) []) w ts.
  Proof.
    intros NN AO UM NT H.
    assert (T : event_titles unescape (Open n l) = []).
    { clear -NT. cbn [event_titles]. induction l as [|[a v] l IH]; [reflexivity|]. cbn [filter fst].
      destruct (text_eqb a (txt "title")) eqn:E.
      - apply text_eqb_iff in E. subst. exfalso. apply (NT v). now left.
      - apply IH. intros v0 I0. apply (NT v0). now right. }
    eapply piece_same; [| | |apply (piece_elem false false b n l t w ts)]; [reflexivity|reflexivity| | |exact AO|exact UM| |exact H].
    - now rewrite T.
    - destruct NN as [->|[->| ->]]; [apply tag_ok_li|apply tag_ok_ul|apply tag_ok_tr].
    - intros st S. unfold in_text in *. cbn [existsb]. rewrite S. destruct NN as [->|[->| ->]]; reflexivity.
  Qed.

  (** Values. *)
  Local Notation html_value := (html_value esc alphanumeric).
  Lemma piece_value v b : piece true b (html_value v) (shown short v) (hover short v).
  Proof.
    induction v as [|v1 IH1 v2 IH2|s|s|id v IH]; cbn [PrintModel.html_value shown hover].
    - apply piece_nil.
    - now apply piece_app.
    - apply piece_text.
    - destruct (text_eqb s (short s)) eqn:E; cbn [negb].
      + apply text_eqb_iff in E. rewrite <- E. apply piece_text.
      + eapply piece_same; [| | |apply (piece_elem true true b (txt "span") [(txt "title", esct s)] (esct (short s)) (short s) [] tag_ok_span)].
        * unfold tag_text. cbn [flat_map fst snd txt list_ascii_of_string map app]. rewrite <- !app_assoc. reflexivity.
        * reflexivity.
        * cbn. unfold escaped. rewrite (esc_inverse _ _ OK). reflexivity.
        * constructor; [|constructor]. split; [|intros x X; now apply esct_safe in X].
          cbn. intros x X. repeat (destruct X as [<-|X]; [discriminate|]). contradiction.
        * intros _ v [X|[]]. discriminate.
        * reflexivity.
        * apply piece_text.
    - destruct (id =? 0) eqn:E; [exact IH|].
      eapply piece_same; [| | |apply (piece_elem true true b (txt "a")
        [(txt "class", txt "link"); (txt "data-link", dec (N.of_nat id)); (txt "href", txt "#" ++ dec (N.of_nat id))]
        (html_value v) (shown short v) (hover short v) tag_ok_a)].
      + unfold tag_text. cbn [flat_map fst snd txt list_ascii_of_string map app]. rewrite <- !app_assoc.
        cbn [app]. rewrite <- !app_assoc. reflexivity.
      + reflexivity.
      + reflexivity.
      + assert (D : forall x, In x (dec (N.of_nat id)) -> x <> 60%N /\ x <> 62%N /\ x <> 34%N).
        { intros x X. apply dec_chars in X. cbn in X. repeat (destruct X as [<-|X]; [repeat split; discriminate|]). contradiction. }
        constructor; [|constructor; [|constructor; [|constructor]]]; (split; cbn [fst snd]).
        * cbn. intros x X. repeat (destruct X as [<-|X]; [discriminate|]). contradiction.
        * cbn. intros x X. repeat (destruct X as [<-|X]; [repeat split; discriminate|]). contradiction.
        * cbn. intros x X. repeat (destruct X as [<-|X]; [discriminate|]). contradiction.
        * exact D.
        * cbn. intros x X. repeat (destruct X as [<-|X]; [discriminate|]). contradiction.
        * intros x X. apply in_app_or in X. destruct X as [X|X]; [|now apply D].
          cbn in X. repeat (destruct X as [<-|X]; [repeat split; discriminate|]). contradiction.
      + intros _ w [X|[X|[X|[]]]]; try discriminate. injection X as <-. cbn. intros Y.
        repeat (destruct Y as [Y|Y]; [discriminate|]). contradiction.
      + intros st S. exact S.
      + exact IH.
  Qed.
  Lemma value_nothing v : is_empty (html_value v) = nothing short v.
  Proof.
    induction v as [|v1 IH1 v2 IH2|s|s|id v IH]; cbn [PrintModel.html_value nothing].
    - reflexivity.
    - rewrite <- IH1, <- IH2. destruct (html_value v1); reflexivity.
    - destruct s as [|c s]; [reflexivity|]. cbn [is_empty]. destruct (esct (c :: s)) eqn:E; [|reflexivity].
      now apply esct_nil in E.
    - destruct (text_eqb s (short s)); cbn [negb andb]; [|reflexivity].
      destruct s as [|c s]; [reflexivity|]. cbn [is_empty]. destruct (esct (c :: s)) eqn:E; [|reflexivity].
      now apply esct_nil in E.
    - destruct (id =? 0); [exact IH|reflexivity].
  Qed.
  Lemma nothing_hover v : nothing short v = true -> hover short v = [].
  Proof.
    induction v as [|v1 IH1 v2 IH2|s|s|id v IH]; cbn [nothing hover]; intros N; try reflexivity.
    - apply andb_true_iff in N. destruct N. now rewrite IH1, IH2.
    - apply andb_true_iff in N. now destruct N as [-> _].
    - apply andb_true_iff in N. now apply IH.
  Qed.

  (** Lines. *)
  Definition quiet (b : bool) (p : prefix) : Prop := b = false -> p = XNone \/ p = XEqual.

  Ltac no_chars := let x := fresh in let X := fresh in intros x X; cbn in X;
    repeat (destruct X as [<-|X]; [repeat split; discriminate|]); contradiction.
  Lemma attr_class v : (forall x, In x v -> x <> 60%N /\ x <> 62%N /\ x <> 34%N) -> attr_ok (txt "class", v).
  Proof. intros H. split; [no_chars|exact H]. Qed.

  Lemma piece_li b s X w ts : piece false b X w ts -> piece false b (html_li s ++ X ++ html_li_end s) w ts.
  Proof.
    intros H. unfold html_li, html_li_end. destruct (hs_line_started s); [now rewrite app_nil_r|].
    replace (txt "<li>" ++ X ++ txt "</li>" ++ newline) with
      ((tag_text (txt "li") [] ++ X ++ tag_text (47%N :: txt "li") []) ++ newline)
      by (unfold tag_text; cbn [flat_map app]; rewrite <- !app_assoc; reflexivity).
    rewrite <- (app_nil_r w), <- (app_nil_r ts). apply piece_app.
    - apply piece_block; [now left|constructor|intros _ v []|intros v []|exact H].
    - apply piece_outside, plain_newline.
  Qed.
  Lemma piece_label b s label : plain esc label -> quiet b (hs_prefix s) ->
    piece false b (html_line s label []) (label ++ txt ":") [].
  Proof.
    intros PL Q. unfold html_line. cbn [is_empty]. apply piece_li.
    destruct (prefix_is_modify (hs_prefix s)) eqn:E.
    - eapply piece_same; [| | |apply (piece_span false b [(txt "class", txt "field mod")] (label ++ txt ":") (label ++ txt ":") [])].
      + unfold tag_text. cbn [flat_map fst snd txt list_ascii_of_string map app]. rewrite <- !app_assoc. reflexivity.
      + reflexivity.
      + reflexivity.
      + constructor; [apply attr_class; no_chars|constructor].
      + intros B. destruct (Q B) as [H|H]; rewrite H in E; discriminate.
      + intros v [X|[]]. discriminate.
      + apply piece_inside, plain_app; [exact PL|apply plain_colon].
    - eapply piece_same; [| | |apply (piece_span false b [] (label ++ txt ":") (label ++ txt ":") [])].
      + unfold tag_text. cbn [flat_map fst snd txt list_ascii_of_string map app]. rewrite <- !app_assoc. reflexivity.
      + reflexivity.
      + reflexivity.
      + constructor.
      + intros _ v [].
      + intros v [].
      + apply piece_inside, plain_app; [exact PL|apply plain_colon].
  Qed.
  Lemma piece_label_span b label : plain esc label ->
    piece false b (if is_empty label then [] else txt "<span class=""field"">" ++ label ++ txt ":</span> ")
      (label_text label) [].
  Proof.
    intros PL. destruct label as [|c l]; [apply piece_nil|]. cbn [is_empty label_text].
    eapply piece_same; [| | |apply (piece_app false b
      (tag_text (txt "span") [(txt "class", txt "field")] ++ ((c :: l) ++ txt ":") ++ txt "</span>") (txt " ")
      ((c :: l) ++ txt ":") [] [] [])].
    - unfold tag_text. cbn [flat_map fst snd txt list_ascii_of_string map app]. rewrite <- !app_assoc. reflexivity.
    - apply app_nil_r.
    - reflexivity.
    - apply piece_span.
      + constructor; [apply attr_class; no_chars|constructor].
      + intros _ v [X|[]]. injection X as <-. cbn. intros Y. repeat (destruct Y as [Y|Y]; [discriminate|]). contradiction.
      + intros v [X|[]]. discriminate.
      + apply piece_inside, plain_app; [exact PL|apply plain_colon].
    - apply piece_outside, plain_space.
  Qed.
  Definition line_class (p : prefix) : text :=
    match p with
    | XNone | XEqual => txt "field"
    | XModify => txt "field mod"
    | XDelete => txt "field del"
    | XAdd => txt "field add"
    end.
  Lemma piece_line b s label buf w ts : plain esc label -> quiet b (hs_prefix s) -> is_empty buf = false ->
    piece true b buf w ts -> piece false b (html_line s label buf) (label_text label ++ w) ts.
  Proof.
    intros PL Q NE H. unfold html_line. rewrite NE. apply piece_li.
    apply piece_app with (ts1 := []); [now apply piece_label_span|].
    eapply piece_same; [| | |apply (piece_span false b [(txt "class", line_class (hs_prefix s))] buf w ts)].
    - unfold tag_text. destruct (hs_prefix s); cbn [flat_map fst snd txt list_ascii_of_string map app line_class]; reflexivity.
    - reflexivity.
    - reflexivity.
    - constructor; [|constructor]. apply attr_class. destruct (hs_prefix s); no_chars.
    - intros B v [X|[]]. injection X as <-. destruct (Q B) as [-> | ->]; cbn; intros Y;
        repeat (destruct Y as [Y|Y]; [discriminate|]); contradiction.
    - intros v [X|[]]. discriminate.
    - exact H.
  Qed.
  Lemma piece_br b : piece true b (txt "<br>") [] [].
  Proof.
    exists [Open (txt "br") []]. split; [|split; [|split; [|split; [|split]]]].
    - apply (reads_tag (txt "br") []); [|constructor]. intros x [<-|[<-|[]]]; split; discriminate.
    - intros st. reflexivity.
    - intros st _. reflexivity.
    - reflexivity.
    - constructor; [cbn; tauto|constructor].
    - intros _. constructor; [|constructor]. intros v [].
  Qed.
  Lemma piece_line_diff s label a b wa wb ta tb : plain esc label ->
    piece true true a wa ta -> piece true true b wb tb ->
    piece false true (html_line_diff s label a b) (label_text label ++ wa ++ newline ++ wb) (ta ++ tb).
  Proof.
    intros PL HA HB. unfold html_line_diff.
    match goal with |- piece false true (_ ++ ?l ++ ?x1 ++ ?x2 ++ ?x3 ++ ?x4 ++ ?x5 ++ ?x6 ++ ?x7 ++ ?e) _ _ =>
      replace (l ++ x1 ++ x2 ++ x3 ++ x4 ++ x5 ++ x6 ++ x7 ++ e) with
        ((l ++ x1 ++ x2 ++ x3 ++ x4 ++ x5 ++ x6 ++ x7) ++ e) by (rewrite <- !app_assoc; reflexivity) end.
    apply piece_li.
    apply piece_app with (ts1 := []); [now apply piece_label_span|].
    eapply piece_same; [| | |apply (piece_span false true [(txt "class", txt "field")]
      ((tag_text (txt "span") [(txt "class", txt "del")] ++ a ++ txt "</span>") ++ txt "<br>" ++ newline ++
       (tag_text (txt "span") [(txt "class", txt "add")] ++ b ++ txt "</span>"))
      (wa ++ [] ++ newline ++ wb) (ta ++ [] ++ [] ++ tb))].
    - unfold tag_text. cbn [flat_map fst snd txt list_ascii_of_string map app].
      repeat (rewrite <- ?app_assoc; cbn [app]). reflexivity.
    - reflexivity.
    - reflexivity.
    - constructor; [apply attr_class; no_chars|constructor].
    - discriminate.
    - intros v [X|[]]. discriminate.
    - apply piece_app; [|apply piece_app; [apply piece_br|apply piece_app; [apply piece_inside, plain_newline|]]].
      + apply piece_span; [constructor; [apply attr_class; no_chars|constructor]|discriminate| |exact HA].
        intros v [X|[]]. discriminate.
      + apply piece_span; [constructor; [apply attr_class; no_chars|constructor]|discriminate| |exact HB].
        intros v [X|[]]. discriminate.
  Qed.
  Lemma piece_instruction b s address mnemonic buf w ts : plain esc mnemonic -> piece true b buf w ts ->
    piece false b (html_instruction s address mnemonic buf)
      (match address with Some a => hex a | None => [] end ++ mnemonic ++ w) ts.
  Proof.
    intros PM H. unfold html_instruction.
    assert (TD : forall t w ts, piece true b t w ts ->
      piece false b (tag_text (txt "td") [] ++ t ++ tag_text (47%N :: txt "td") []) w ts).
    { intros t0 w0 ts0 H0. eapply piece_same; [| | |apply (piece_elem false true b (txt "td") [] t0 w0 ts0 tag_ok_td)];
        [reflexivity|reflexivity|reflexivity|constructor|intros _ v []|reflexivity|exact H0]. }
    eapply piece_same; [| | |apply (piece_block b (txt "tr") []
      ((tag_text (txt "td") [] ++ match address with Some a => hex a | None => [] end ++ tag_text (47%N :: txt "td") []) ++
       (tag_text (txt "td") [] ++ mnemonic ++ tag_text (47%N :: txt "td") []) ++
       (tag_text (txt "td") [] ++ buf ++ tag_text (47%N :: txt "td") []))
      (match address with Some a => hex a | None => [] end ++ mnemonic ++ w) ([] ++ [] ++ ts))].
    - unfold tag_text. cbn [flat_map fst snd txt list_ascii_of_string map app]. 
      repeat (rewrite <- ?app_assoc; cbn [app]). reflexivity.
    - reflexivity.
    - reflexivity.
    - right. now right.
    - constructor.
    - intros _ v [].
    - intros v [].
    - apply piece_app; [|apply piece_app]; apply TD; [|now apply piece_inside|exact H].
      destruct address as [a|]; [|apply piece_nil]. apply piece_inside, plain_chars, hex_chars.
  Qed.

  (** Branches. *)
  Lemma piece_branch b collapsed id th tb wh wb tsh tsb :
    (forall x, In x id -> x <> 60%N /\ x <> 62%N /\ x <> 34%N) ->
    (collapsed = false -> id = []) -> forall cls,
    cls = txt "treebranch" \/ cls = txt "treebranch lazy" ->
    piece false b th wh tsh -> piece false b tb wb tsb ->
    piece false b
      (tag_text (txt "li") ((txt "class", cls) :: match id with [] => [] | _ => [(txt "id", id)] end) ++
       (th ++ (tag_text (txt "ul") (if collapsed then [(txt "style", txt "display:none")] else []) ++
               (newline ++ tb) ++ txt "</ul>")) ++ txt "</li>" ++ newline) (wh ++ wb) (tsh ++ tsb).
  Proof.
    intros ID _ cls CLS H B.
    eapply piece_same; [| | |apply (piece_app false b
      (tag_text (txt "li") ((txt "class", cls) :: match id with [] => [] | _ => [(txt "id", id)] end) ++
       (th ++ (tag_text (txt "ul") (if collapsed then [(txt "style", txt "display:none")] else []) ++
               (newline ++ tb) ++ txt "</ul>")) ++ txt "</li>") newline (wh ++ [] ++ wb) [] (tsh ++ [] ++ tsb) [])].
    - rewrite <- !app_assoc. reflexivity.
    - now rewrite app_nil_r.
    - now rewrite app_nil_r.
    - apply (piece_block b (txt "li")); [now left| | | |].
      + constructor.
        * apply attr_class. destruct CLS as [->| ->]; no_chars.
        * destruct id as [|c id]; [constructor|]. constructor; [|constructor]. split; [no_chars|exact ID].
      + intros _ v [X|X].
        * injection X as <-. destruct CLS as [->| ->]; cbn; intros Y; repeat (destruct Y as [Y|Y]; [discriminate|]); contradiction.
        * destruct id; [destruct X|]. destruct X as [X|[]]. discriminate.
      + intros v [X|X]; [discriminate|]. destruct id; [destruct X|]. destruct X as [X|[]]. discriminate.
      + apply piece_app; [exact H|]. apply (piece_block b (txt "ul")).
        * right. now left.
        * destruct collapsed; constructor; [|constructor]. split; no_chars.
        * intros _ v X. destruct collapsed; [destruct X as [X|[]]; discriminate|destruct X].
        * intros v X. destruct collapsed; [destruct X as [X|[]]; discriminate|destruct X].
        * apply piece_app; [apply piece_outside, plain_newline|exact B].
    - apply piece_outside, plain_newline.
  Qed.

  (** ** Documents *)

  Lemma silent_words d : forall n, silent short http n d = true -> words short http n d = [] /\ full_names short http n d = [].
  Proof.
    induction d as [|x IHx y IHy|l v|l| |c h IHh y IHy|c l y IHy|i l y IHy|i h IHh y IHy|d IH|a m v];
      intros n; cbn [silent words full_names]; intros E; try discriminate; try (split; reflexivity).
    - apply andb_true_iff in E. destruct E as [E1 E2]. destruct (IHx n E1) as [-> ->], (IHy n E2) as [-> ->]. split; reflexivity.
    - rewrite E. split; [reflexivity|]. now apply nothing_hover.
    - apply andb_true_iff in E. destruct E as [E1 E2]. destruct (IHy n E1) as [-> ->], (IHh n E2) as [-> ->]. split; reflexivity.
    - rewrite E. split; [reflexivity|]. now apply IHy.
    - apply andb_true_iff in E. destruct E as [E1 E2]. destruct http; [discriminate|]. rewrite E2.
      split; [reflexivity|]. now apply IHy.
    - destruct n; [split; reflexivity|]. now apply IH.
  Qed.
  Local Notation same := (fun a b => text_eqb (html_value a) (html_value b)).
  Lemma silent_diff_words d : forall n, silent_diff short http n d = true ->
    words_diff short http same n d = [] /\ full_names_diff short http same n d = [].
  Proof.
    ddoc_ind d; intros n; cbn [silent_diff words_diff full_names_diff]; intros E; try discriminate; try (split; reflexivity).
    - apply andb_true_iff in E. destruct E as [E1 E2]. destruct (IHa n E1) as [-> ->], (IHb n E2) as [-> ->]. split; reflexivity.
    - apply andb_true_iff in E. destruct E as [E1 E2]. cbn [words]. rewrite E1, E2.
      rewrite (nothing_hover a E1), (nothing_hover b E2). destruct (text_eqb _ _); split; reflexivity.
    - apply andb_true_iff in E. destruct E as [E1 E2]. destruct (IHb n E1) as [-> ->], (IHh n E2) as [-> ->]. split; reflexivity.
    - rewrite E. split; [reflexivity|]. now apply IHb.
    - destruct n; [split; reflexivity|]. now apply IH.
    - now apply silent_words.
    - now apply silent_words.
    - apply andb_true_iff in E. destruct E as [E1 E2].
      destruct (silent_words a n E1) as [-> ->], (silent_words b n E2) as [-> ->]. split; reflexivity.
    - now apply IH.
    - now apply IH.
  Qed.

  Lemma html_line_nonempty s l x : is_empty (html_line s l x) = false.
  Proof. unfold html_line, html_li. destruct (hs_line_started s), (is_empty x), (is_empty l); reflexivity. Qed.
  Lemma html_line_diff_nonempty s l x y : is_empty (html_line_diff s l x y) = false.
  Proof. unfold html_line_diff, html_li. destruct (hs_line_started s), (is_empty l); reflexivity. Qed.

  Definition id_text (id : nat) : text := dec (N.of_nat id).
  Lemma id_text_safe id x : In x (id_text id) -> x <> 60%N /\ x <> 62%N /\ x <> 34%N.
  Proof.
    intros X. apply dec_chars in X. cbn in X. repeat (destruct X as [<-|X]; [repeat split; discriminate|]). contradiction.
  Qed.
  Lemma id_text_nonempty id : exists c r, id_text id = c :: r.
  Proof.
    unfold id_text, dec, DecimalString.NilZero.string_of_uint. destruct (N.to_uint (N.of_nat id)); cbn; eauto.
  Qed.

  (** What [p_header] and [p_id] write. *)
  Lemma header_text (collapsed : bool) th tb :
    txt "<li class=""treebranch"">" ++ th ++
      (if collapsed then txt "<ul style=""display:none"">" else txt "<ul>") ++ newline ++
      tb ++ txt "</ul></li>" ++ newline =
    tag_text (txt "li") ((txt "class", txt "treebranch") :: []) ++
       (th ++ (tag_text (txt "ul") (if collapsed then [(txt "style", txt "display:none")] else []) ++
               (newline ++ tb) ++ txt "</ul>")) ++ txt "</li>" ++ newline.
  Proof.
    unfold tag_text. destruct collapsed; cbn [flat_map fst snd txt list_ascii_of_string map app];
      repeat (rewrite <- ?app_assoc; cbn [app]); reflexivity.
  Qed.
  Lemma piece_header b (collapsed : bool) th tb wh wb tsh tsb :
    piece false b th wh tsh -> piece false b tb wb tsb ->
    piece false b (txt "<li class=""treebranch"">" ++ th ++
      (if collapsed then txt "<ul style=""display:none"">" else txt "<ul>") ++ newline ++
      tb ++ txt "</ul></li>" ++ newline) (wh ++ wb) (tsh ++ tsb).
  Proof.
    intros H B. rewrite header_text. apply (piece_branch b collapsed [] th tb wh wb tsh tsb); auto.
  Qed.
  Lemma piece_id b id th tb wh wb tsh tsb :
    piece false b th wh tsh -> piece false b tb wb tsb ->
    piece false b (txt "<li class=""treebranch" ++ (if http then txt " lazy" else []) ++ txt """ id=""" ++
       dec (N.of_nat id) ++ txt """>" ++ th ++ txt "<ul style=""display:none"">" ++ newline ++
       tb ++ txt "</ul></li>" ++ newline) (wh ++ wb) (tsh ++ tsb).
  Proof.
    intros H B. destruct (id_text_nonempty id) as (c & r & E).
    eapply piece_same; [| | |apply (piece_branch b true (id_text id) th tb wh wb tsh tsb)];
      [|reflexivity|reflexivity|apply id_text_safe|discriminate| |exact H|exact B].
    2: { instantiate (1 := if http then txt "treebranch lazy" else txt "treebranch"). destruct http; [now right|now left]. }
    fold (id_text id). rewrite E. unfold tag_text.
    destruct http; cbn [flat_map fst snd txt list_ascii_of_string map app];
      repeat (rewrite <- ?app_assoc; cbn [app]); reflexivity.
  Qed.
  Lemma piece_detail b id label s : plain esc id -> plain esc label -> quiet b (hs_prefix s) ->
    piece false b (txt "<li class=""detail"" data-detail=""" ++ id ++ txt """>" ++
       html_line (html_started true s) label [] ++ txt "</li>" ++ newline) (label ++ txt ":") [].
  Proof.
    intros PI PL Q.
    eapply piece_same; [| | |apply (piece_app false b
      (tag_text (txt "li") [(txt "class", txt "detail"); (txt "data-detail", id)] ++
       html_line (html_started true s) label [] ++ tag_text (47%N :: txt "li") []) newline (label ++ txt ":") [] [] [])].
    - unfold tag_text. cbn [flat_map fst snd txt list_ascii_of_string map app].
      repeat (rewrite <- ?app_assoc; cbn [app]). reflexivity.
    - now rewrite app_nil_r.
    - reflexivity.
    - apply piece_block.
      + now left.
      + constructor; [apply attr_class; no_chars|]. constructor; [|constructor].
        split; [no_chars|]. now apply plain_safe.
      + intros _ v [X|[X|[]]]; [|discriminate]. injection X as <-. cbn. intros Y.
        repeat (destruct Y as [Y|Y]; [discriminate|]). contradiction.
      + intros v [X|[X|[]]]; discriminate.
      + now apply piece_label.
    - apply piece_outside, plain_newline.
  Qed.

  Definition printed_ok (b : bool) (n : nat) (w : text) (ts : list text) (quietly : bool) (s : html_state)
      (r : text * html_state) : Prop :=
    piece false b (fst r) w ts /\ is_empty (fst r) = quietly /\
    hs_prefix (snd r) = hs_prefix s /\ hs_depth (snd r) = hs_depth s.

  Lemma if_pair (t : text) (s s' : html_state) (f : bool) :
    (if http then ([], s', f) else (t, s, f)) = (if http then [] else t, if http then s' else s, f).
  Proof. case http; reflexivity. Qed.
  Lemma piece_if b t w ts : piece false b t w ts ->
    piece false b (if http then [] else t) (if http then [] else w) (if http then [] else ts).
  Proof. intros H. case http; [apply piece_nil|exact H]. Qed.

  Lemma print_html d : plain_doc esc d -> forall s b, quiet b (hs_prefix s) ->
    printed_ok b (hs_depth s) (words short http (hs_depth s) d) (full_names short http (hs_depth s) d)
      (silent short http (hs_depth s) d) s (print_doc HP http d s).
  Proof.
    assert (SEC : forall d, (forall s b, quiet b (hs_prefix s) ->
        printed_ok b (hs_depth s) (words short http (hs_depth s) d) (full_names short http (hs_depth s) d)
          (silent short http (hs_depth s) d) s (print_doc HP http d s)) ->
      forall c l s b, plain esc l -> quiet b (hs_prefix s) ->
        printed_ok b (hs_depth s)
          (if silent short http (hs_depth s) d then [] else l ++ txt ":" ++ words short http (hs_depth s) d)
          (full_names short http (hs_depth s) d) (silent short http (hs_depth s) d) s
          (print_indent HP true c (print_label HP l) (print_doc HP http d) s)).
    { clear d. intros d IH c l s b PL Q. unfold print_indent.
      destruct (IH (html_started false s) b Q) as (PB & EB & _ & _). change (p_body HP s) with (html_started false s).
      destruct (print_doc HP http d (html_started false s)) as [tb sb]. cbn [fst snd hs_depth html_started] in *.
      rewrite EB. destruct (silent short http (hs_depth s) d) eqn:SI; cbn [negb].
      - destruct (silent_words d _ SI) as [_ ->]. split; [apply piece_nil|]. repeat split.
      - unfold no_flag, print_label. cbn [p_header html_printer p_line]. split; [|repeat split].
        cbn [fst]. rewrite (app_assoc l). apply (piece_header b c _ _ _ _ [] _); [now apply piece_label|exact PB]. }
    induction d as [|x IHx y IHy|l v|l| |c h IHh y IHy|c l y IHy|i l y IHy|i h IHh y IHy|d IH|a m v];
      cbn [plain_doc]; intros PL s b Q; cbn [print_doc words full_names silent].
    - split; [apply piece_nil|repeat split].
    - destruct PL as [P1 P2]. destruct (IHx P1 s b Q) as (PA & EA & FA & DA).
      destruct (print_doc HP http x s) as [ta s1]. cbn [fst snd] in *. rewrite <- FA in Q.
      destruct (IHy P2 s1 b Q) as (PB & EB & FB & DB). destruct (print_doc HP http y s1) as [tb s2]. cbn [fst snd] in *.
      rewrite DA in *. split; [now apply piece_app|]. cbn [fst snd]. split; [|split; congruence].
      rewrite <- EA, <- EB. now destruct ta.
    - change (p_value HP v) with (html_value v). rewrite value_nothing. destruct (nothing short v) eqn:N.
      + rewrite (nothing_hover v N). split; [apply piece_nil|repeat split].
      + cbn [p_line html_printer]. split; [|split; [apply html_line_nonempty|split; reflexivity]]. cbn [fst].
        apply piece_line; [exact PL|exact Q|now rewrite value_nothing|apply piece_value].
    - unfold print_label. cbn [p_line html_printer]. split; [|split; [apply html_line_nonempty|split; reflexivity]].
      cbn [fst]. now apply piece_label.
    - split; [apply piece_nil|repeat split].
    - destruct PL as [P1 P2]. unfold print_indent.
      destruct (IHy P2 (html_started false s) b Q) as (PB & EB & _ & _). change (p_body HP s) with (html_started false s).
      destruct (print_doc HP http y (html_started false s)) as [tb sb]. cbn [fst snd hs_depth html_started] in *.
      rewrite EB. destruct (silent short http (hs_depth s) y) eqn:SI; cbn [negb andb].
      + destruct (silent_words y _ SI) as [-> ->]. rewrite !app_nil_r. now apply IHh.
      + cbn [p_header html_printer]. unfold no_flag.
        destruct (IHh P1 (html_started true s) b Q) as (PA & EA & FA & DA).
        destruct (print_doc HP http h (html_started true s)) as [ta s1]. cbn [fst snd] in *.
        split; [|split; [reflexivity|split; assumption]]. cbn [fst].
        now apply piece_header.
    - destruct PL as [P1 P2]. apply SEC; auto.
    - destruct PL as (P0 & P1 & P2).
      destruct (Bool.bool_dec http true) as [E|E].
      + rewrite E. cbn [negb andb p_detail html_printer]. split; [|repeat split]. cbn [fst].
        now apply piece_detail.
      + apply not_true_is_false in E. rewrite E in SEC |- *. cbn [negb andb].
        rewrite E in IHy. exact (SEC y (IHy P2) true l s b P1 Q).
    - destruct PL as [P1 P2]. cbn [p_id html_printer]. unfold no_flag.
      destruct (IHh P1 (html_started true s) b Q) as (PA & EA & FA & DA).
      destruct (print_doc HP http h (html_started true s)) as [ta s1]. cbn [fst snd hs_depth hs_prefix html_started] in *.
      rewrite <- FA in Q. destruct (IHy P2 (html_started false s1) b Q) as (PB & EB & FB & DB).
      destruct (print_doc HP http y (html_started false s1)) as [tb s2].
      cbn [fst snd hs_depth hs_prefix html_started] in *. rewrite DA in *.
      rewrite if_pair. split; [|split; [reflexivity|]].
      + cbn [fst]. apply piece_id; [exact PA|]. now apply piece_if.
      + cbn [snd]. case http; cbn [hs_prefix hs_depth html_started]; split; congruence.
    - cbn [p_inline_begin html_printer]. destruct s as [p n ls]. cbn [hs_depth hs_prefix] in *. destruct n as [|n].
      + split; [apply piece_nil|repeat split].
      + destruct (IH PL (mkHtml p n ls) b Q) as (PA & EA & FA & DA). cbn [hs_depth hs_prefix hs_line_started] in *.
        destruct (print_doc HP http d (mkHtml p n ls)) as [ta s1]. cbn [fst snd] in *.
        split; [exact PA|]. split; [exact EA|]. cbn. split; congruence.
    - cbn [p_instruction html_printer]. split; [|split; [reflexivity|split; reflexivity]]. cbn [fst].
      apply piece_instruction; [exact PL|apply piece_value].
  Qed.

  Definition compared_ok (b : bool) (w : text) (ts : list text) (quietly : bool) (s : html_state) (diff : bool)
      (r : text * html_state * bool) : Prop :=
    piece false b (fst (fst r)) w ts /\ is_empty (fst (fst r)) = quietly /\
    hs_depth (snd (fst r)) = hs_depth s /\
    (b = false -> snd r = diff /\ (hs_prefix (snd (fst r)) = XNone \/ hs_prefix (snd (fst r)) = XEqual)).

  Lemma keep_html s : hs_depth (keep_modify HP s) = hs_depth s /\
    (forall b, quiet b (hs_prefix s) -> quiet b (hs_prefix (keep_modify HP s))).
  Proof.
    unfold keep_modify. cbn [p_get_prefix html_printer]. destruct (prefix_is_modify (hs_prefix s)); split; auto.
    intros b Q E. now right.
  Qed.

  Lemma compare_label b l s diff : plain esc l -> quiet b (hs_prefix s) ->
    compared_ok b (l ++ txt ":") [] false s diff (diff_label HP l s diff).
  Proof.
    intros PL Q. unfold diff_label. destruct (keep_html s) as [D K]. specialize (K b Q).
    split; [|split; [|split]]; cbn [fst snd p_line html_printer].
    - now apply piece_label.
    - apply html_line_nonempty.
    - exact D.
    - intros E. split; [reflexivity|]. now apply K.
  Qed.
  Lemma compare_line b l x y s diff : plain esc l -> quiet b (hs_prefix s) -> (b = false -> same x y = true) ->
    compared_ok b (words_diff short http same (hs_depth s) (DLine l x y))
      (full_names_diff short http same (hs_depth s) (DLine l x y))
      (silent_diff short http (hs_depth s) (DLine l x y)) s diff (diff_line HP l x y s diff).
  Proof.
    intros PL Q I. unfold diff_line. cbn [words_diff full_names_diff silent_diff words].
    change (p_value HP x) with (html_value x). change (p_value HP y) with (html_value y). rewrite !value_nothing.
    destruct (text_eqb (html_value x) (html_value y)) eqn:E.
    - apply text_eqb_iff in E. assert (EN : nothing short y = nothing short x) by (rewrite <- !value_nothing; now rewrite E).
      rewrite EN. destruct (nothing short x) eqn:N; cbn [andb].
      + rewrite (nothing_hover x N). split; [apply piece_nil|]. repeat split. now apply Q.
      + destruct (keep_html s) as [D K]. specialize (K b Q).
        split; [|split; [|split]]; cbn [fst snd p_line html_printer].
        * apply piece_line; [exact PL|exact K|now rewrite value_nothing|apply piece_value].
        * apply html_line_nonempty.
        * exact D.
        * intros E0. split; [reflexivity|]. now apply K.
    - assert (B : b = true) by (destruct b; [reflexivity|]; now discriminate I). subst b.
      destruct (nothing short x) eqn:NX; cbn [andb].
      + destruct (nothing short y) eqn:NY.
        * exfalso. pose proof (value_nothing x) as VX. pose proof (value_nothing y) as VY.
          rewrite NX in VX. rewrite NY in VY. apply is_empty_iff in VX, VY. rewrite VX, VY in E. discriminate.
        * rewrite (nothing_hover x NX). split; [|split; [|split]]; cbn [fst snd p_line html_printer p_prefix].
          -- apply piece_line; [exact PL|discriminate|now rewrite value_nothing|apply piece_value].
          -- apply html_line_nonempty.
          -- reflexivity.
          -- discriminate.
      + destruct (nothing short y) eqn:NY.
        * rewrite (nothing_hover y NY), app_nil_r. split; [|split; [|split]]; cbn [fst snd p_line html_printer p_prefix].
          -- apply piece_line; [exact PL|discriminate|now rewrite value_nothing|apply piece_value].
          -- apply html_line_nonempty.
          -- reflexivity.
          -- discriminate.
        * cbn [p_line_diff html_printer]. split; [|split; [|split]]; cbn [fst snd].
          -- apply piece_line_diff; [exact PL|apply piece_value|apply piece_value].
          -- apply html_line_diff_nonempty.
          -- reflexivity.
          -- discriminate.
  Qed.

  (** Headers and bodies. *)
  Local Notation runs := (html_state -> bool -> text * html_state * bool).
  Definition run_ok (b : bool) (n : nat) (w : text) (ts : list text) (quietly : bool) (f : runs) : Prop :=
    forall s diff, hs_depth s = n -> quiet b (hs_prefix s) -> compared_ok b w ts quietly s diff (f s diff).

  Lemma body_ok b n w ts q f s : run_ok b n w ts q f -> hs_depth s = n ->
    piece false b (fst (diff_body HP f s)) w ts /\ is_empty (fst (diff_body HP f s)) = q /\
    (b = false -> snd (diff_body HP f s) = false).
  Proof.
    intros R D. unfold diff_body. cbn [p_prefix p_body html_printer].
    destruct (R (mkHtml XEqual (hs_depth (html_started false s)) (hs_line_started (html_started false s))) false D)
      as (P & E & _ & C); [intros _; now right|].
    destruct (f _ false) as [[t0 s0] f0]. cbn [fst snd] in *. split; [exact P|]. split; [exact E|].
    intros B. now apply C.
  Qed.
  Lemma head_ok b n w ts q f s diff : run_ok b n w ts q f -> hs_depth s = n -> (b = false -> diff = false) ->
    compared_ok b w ts q s false (diff_header HP f diff s).
  Proof.
    intros R D B. unfold diff_header. cbn [p_prefix html_printer].
    destruct (R (mkHtml (if diff then XModify else XEqual) (hs_depth s) (hs_line_started s)) false D) as (P & E & D' & C).
    { intros E. rewrite (B E). now right. }
    split; [exact P|]. split; [exact E|]. split; [exact D'|exact C].
  Qed.
  Lemma indent_ok b n wh wb th tb qh qb optional collapsed h f :
    run_ok b n wh th qh h -> run_ok b n wb tb qb f ->
    (qb = true -> wb = [] /\ tb = []) -> (optional = true -> th = []) ->
    run_ok b n (if qb && optional then [] else wh ++ wb) (th ++ tb) (qb && (optional || qh))
      (diff_indent HP optional collapsed h f).
  Proof.
    intros H F Q O s diff D QS. unfold diff_indent. destruct (body_ok b n wb tb qb f s F D) as (P & E & C).
    destruct (diff_body HP f s) as [bt bf]. cbn [fst snd] in *. rewrite E. destruct qb; cbn [negb andb].
    - destruct (Q eq_refl) as [-> ->]. destruct optional; cbn [negb orb].
      + rewrite O by reflexivity. split; [apply piece_nil|]. split; [reflexivity|]. split; [reflexivity|].
        intros B. split; [reflexivity|]. now apply QS.
      + rewrite !app_nil_r. now apply H.
    - cbn [p_header html_printer].
      destruct (head_ok b n wh th qh h (html_started true s) bf H D C) as (P' & E' & D' & C').
      destruct (diff_header HP h bf (html_started true s)) as [[t0 s0] f0]. cbn [fst snd] in *.
      split; [|split; [|split]]; cbn [fst snd].
      + now apply piece_header.
      + reflexivity.
      + exact D'.
      + intros B. rewrite (C B). destruct (C' B) as [-> X]. split; [apply orb_false_r|exact X].
  Qed.

  Lemma diff_html d : plain_diff esc d -> forall n b, (b = false -> identical_html short http same n d) ->
    run_ok b n (words_diff short http same n d) (full_names_diff short http same n d)
      (silent_diff short http n d) (diff_doc HP true http d).
  Proof.
    ddoc_ind d; cbn [plain_diff]; intros PL n b0 I; cbn [words_diff full_names_diff silent_diff identical_html] in *.
    - intros s diff D Q. split; [apply piece_nil|]. repeat split. now apply Q.
    - intros s diff D Q. destruct PL as [P1 P2]. cbn [diff_doc].
      destruct (IHa P1 n b0 (fun E => proj1 (I E)) s diff D Q) as (PA & EA & DA & CA).
      destruct (diff_doc HP true http a s diff) as [[ta s1] f1]. cbn [fst snd] in *.
      destruct (IHb P2 n b0 (fun E => proj2 (I E)) s1 f1) as (PB & EB & DB & CB); [congruence|intros E; now apply CA|].
      destruct (diff_doc HP true http b s1 f1) as [[tb s2] f2]. cbn [fst snd] in *.
      split; [now apply piece_app|]. cbn [fst snd]. split; [rewrite <- EA, <- EB; now destruct ta|]. split; [congruence|].
      intros E. destruct (CA E) as [F1 _], (CB E) as [F2 X]. split; [congruence|exact X].
    - intros s diff D Q. subst n. now apply compare_line.
    - intros s diff D Q. now apply compare_label.
    - intros s diff D Q. split; [apply piece_nil|]. repeat split. now apply Q.
    - destruct PL as [P1 P2]. pose proof (indent_ok b0 n _ _ _ _ _ _ false c _ _
        (IHh P1 n b0 (fun E => proj1 (I E))) (IHb P2 n b0 (fun E => proj2 (I E)))) as R.
      rewrite andb_false_r in R. apply R; [apply silent_diff_words|discriminate].
    - destruct PL as [P1 P2].
      assert (LB : run_ok b0 n (l ++ txt ":") [] false (diff_label HP l)).
      { intros s diff D Q. now apply compare_label. }
      pose proof (indent_ok b0 n _ _ _ _ _ _ true c _ _ LB (IHb P2 n b0 I)) as R.
      rewrite !andb_true_r, <- app_assoc in R. apply R; [apply silent_diff_words|reflexivity].
    - intros s diff D Q. destruct PL as [P1 P2]. cbn [diff_doc].
      destruct (body_ok b0 n _ _ _ _ s (IHb P2 n b0 (fun E => proj2 (I E))) D) as (P & E & C).
      destruct (diff_body HP (diff_doc HP true http b) s) as [bt bf]. cbn [fst snd] in *. cbn [p_id html_printer].
      destruct (head_ok b0 n _ _ _ _ (html_started true s) bf (IHh P1 n b0 (fun E => proj1 (I E))) D C) as (P' & E' & D' & C').
      destruct (diff_header HP (diff_doc HP true http h) bf (html_started true s)) as [[t0 s0] f0]. cbn [fst snd] in *.
      rewrite if_pair. split; [|split; [|split]]; cbn [fst snd].
      + apply piece_id; [exact P'|]. now apply piece_if.
      + reflexivity.
      + case http; exact D'.
      + intros B. rewrite (C B). destruct (C' B) as [-> X]. split; [now rewrite !orb_false_r|]. case http; exact X.
    - intros s diff D Q. cbn [diff_doc p_inline_begin html_printer]. destruct s as [p m ls]. cbn [hs_depth hs_prefix hs_line_started] in *.
      subst m. destruct n as [|n].
      + split; [apply piece_nil|]. repeat split. now apply Q.
      + destruct (IH PL n b0 I (mkHtml p n ls) diff eq_refl Q) as (PA & EA & DA & CA).
        destruct (diff_doc HP true http d (mkHtml p n ls) diff) as [[ta s1] f1]. cbn [fst snd hs_depth hs_prefix] in *.
        split; [exact PA|]. split; [exact EA|]. cbn. split; [congruence|exact CA].
    - intros s diff D Q. assert (B : b0 = true) by (destruct b0; [reflexivity|]; now exfalso; apply I). subst b0.
      cbn [diff_doc p_prefix html_printer].
      destruct (print_html d PL (mkHtml XDelete (hs_depth s) (hs_line_started s)) true) as (PA & EA & _ & DA); [discriminate|].
      destruct (print_doc HP http d _) as [ta s1]. cbn [fst snd hs_depth] in *. rewrite D in *.
  split; [exact PA|]. split; [exact EA|]. cbn. split; [congruence|discriminate].
    - intros s diff D Q. assert (B : b0 = true) by (destruct b0; [reflexivity|]; now exfalso; apply I). subst b0.
      cbn [diff_doc p_prefix html_printer].
      destruct (print_html d PL (mkHtml XAdd (hs_depth s) (hs_line_started s)) true) as (PA & EA & _ & DA); [discriminate|].
      destruct (print_doc HP http d _) as [ta s1]. cbn [fst snd hs_depth] in *. rewrite D in *.
  split; [exact PA|]. split; [exact EA|]. cbn. split; [congruence|discriminate].
    - intros s diff D Q. destruct PL as [P1 P2]. cbn [diff_doc p_prefix p_sub html_printer].
      destruct (print_html a P1 (mkHtml XDelete (hs_depth s) (hs_line_started s)) true) as (PA & EA & _ & DA); [discriminate|].
      destruct (print_doc HP http a _) as [ta s1]. cbn [fst snd hs_depth] in *.
      destruct (print_html b P2 (mkHtml XAdd (hs_depth s1) (hs_line_started s1)) true) as (PB & EB & _ & DB); [discriminate|].
      destruct (print_doc HP http b _) as [tb s2]. cbn [fst snd hs_depth] in *. rewrite DA, D in *.
      assert (E : is_empty (ta ++ tb) = silent short http n a && silent short http n b).
      { rewrite <- EA, <- EB. now destruct ta. }
      rewrite E. destruct (silent short http n a && silent short http n b) eqn:S; cbn [negb].
      + apply andb_true_iff in S. destruct S as [SA SB].
        destruct (silent_words a n SA) as [-> ->], (silent_words b n SB) as [-> ->].
        split; [apply piece_nil|]. split; [reflexivity|]. split; [reflexivity|]. intros B. split; [reflexivity|now apply Q].
      + assert (B : b0 = true).
        { destruct b0; [reflexivity|]. destruct (I eq_refl) as [SA SB]. rewrite SA, SB in S. discriminate. }
        subst b0. split; [now apply piece_app|]. split; [exact E|]. split; [reflexivity|discriminate].
    - intros s diff D Q. cbn [diff_doc p_sub html_printer].
      destruct (IH PL n b0 I s false D Q) as (PA & EA & DA & CA).
      destruct (diff_doc HP true http d s false) as [[ta s1] f1]. cbn [fst snd] in *. rewrite orb_true_r.
      split; [exact PA|]. split; [exact EA|]. split; [reflexivity|]. intros E. cbn. destruct (CA E) as [-> _].
      split; [apply orb_false_r|now apply Q].
    - intros s diff D Q. cbn [diff_doc].
      destruct (IH PL n b0 I s diff D Q) as (PA & EA & DA & CA).
      destruct (diff_doc HP true http d s diff) as [[ta s1] f1]. cbn [fst snd] in *.
      split; [exact PA|]. split; [exact EA|]. split; [exact DA|]. intros E. cbn. destruct (CA E) as [-> X].
      split; [now destruct fl|exact X].
  Qed.

  (** ** Whole pages *)

  (** Merging adjacent text changes nothing. *)
  Definition closed (r : list event * text) : list event := fst r ++ emit (snd r).
  Lemma closed_cons run e es : (match e with Chars _ => False | _ => True end) ->
    closed (feed run (e :: es)) = emit run ++ e :: closed (feed [] es).
  Proof.
    intros NE. destruct e; [destruct NE| |]; cbn [feed]; destruct (feed [] es) as [x r]; unfold closed; cbn [fst snd];
      now rewrite <- app_assoc.
  Qed.
  Lemma nest_emit run es st : nest (emit run ++ es) st = nest es st.
  Proof. now destruct run. Qed.
  Lemma nest_closed es : forall run st, nest (closed (feed run es)) st = nest es st.
  Proof.
    induction es as [|[t|n l|n] es IH]; intros run st.
    - unfold closed. cbn. rewrite <- (app_nil_r (emit run)). apply nest_emit.
    - cbn [feed nest]. apply IH.
    - rewrite closed_cons by exact I. rewrite nest_emit. cbn [nest]. destruct (text_eqb n (txt "br")); apply IH.
    - rewrite closed_cons by exact I. rewrite nest_emit. cbn [nest]. destruct st as [|n' st]; [reflexivity|].
      destruct (text_eqb n n'); [apply IH|reflexivity].
  Qed.
  Lemma content_emit run es st : content (emit run ++ es) st = (if existsb for_text st then run else []) ++ content es st.
  Proof. destruct run; [now destruct (existsb for_text st)|reflexivity]. Qed.
  Lemma content_closed es : forall run st,
    content (closed (feed run es)) st = (if existsb for_text st then run else []) ++ content es st.
  Proof.
    induction es as [|[t|n l|n] es IH]; intros run st.
    - unfold closed. cbn [feed fst snd app]. rewrite <- (app_nil_r (emit run)). apply content_emit.
    - cbn [feed content]. rewrite IH. destruct (existsb for_text st); [now rewrite app_assoc|reflexivity].
    - rewrite closed_cons by exact I. rewrite content_emit. f_equal. cbn [content].
      destruct (text_eqb n (txt "br")); rewrite IH; destruct (existsb for_text _); reflexivity.
    - rewrite closed_cons by exact I. rewrite content_emit. f_equal. cbn [content].
      rewrite IH; destruct (existsb for_text _); reflexivity.
  Qed.
  Lemma titles_closed es : forall run, titles unescape (closed (feed run es)) = titles unescape es.
  Proof.
    assert (TE : forall run es, titles unescape (emit run ++ es) = titles unescape es) by (intros [|c r] es'; reflexivity).
    induction es as [|[t|n l|n] es IH]; intros run.
    - unfold closed. cbn [feed fst snd app]. rewrite <- (app_nil_r (emit run)). apply TE.
    - cbn [feed]. apply IH.
    - rewrite closed_cons by exact I. rewrite TE. unfold titles in *. cbn [flat_map]. now rewrite IH.
    - rewrite closed_cons by exact I. rewrite TE. unfold titles in *. cbn [flat_map]. now rewrite IH.
  Qed.
  Lemma forall_closed (Q : event -> Prop) es : (forall t, Q (Chars t)) -> Forall Q es ->
    forall run, Forall Q (closed (feed run es)).
  Proof.
    intros QC. assert (FE : forall run l, Forall Q l -> Forall Q (emit run ++ l)).
    { intros run l F. destruct run; [exact F|]. constructor; [apply QC|exact F]. }
    induction 1 as [|[t|n l|n] es H F IH]; intros run.
    - unfold closed. cbn [feed fst snd app]. rewrite <- (app_nil_r (emit run)). apply FE. constructor.
    - cbn [feed]. apply IH.
    - rewrite closed_cons by exact I. apply FE. constructor; [exact H|apply IH].
    - rewrite closed_cons by exact I. apply FE. constructor; [exact H|apply IH].
  Qed.

  Lemma piece_page b t w ts : piece false b t w ts ->
    exists es, read_html unescape t = Some es /\ nest es [] = Some [] /\ Forall known es /\
      content es [] = w /\ titles unescape es = ts /\ (b = false -> Forall unmarked es).
  Proof.
    intros (es & R & B & C & T & K & M). exists (closed (feed [] es)).
    split; [|split; [|split; [|split; [|split]]]].
    - unfold read_html. specialize (R [] []). rewrite app_nil_r in R. change (esct []) with (@nil N) in R.
      rewrite R. cbn [HtmlSpec.scan option_map]. now rewrite chars_emit.
    - rewrite nest_closed. apply B.
    - apply forall_closed; [intros; exact I|exact K].
    - rewrite content_closed. cbn. now apply C.
    - now rewrite titles_closed.
    - intros E. apply forall_closed; [intros; exact I|now apply M].
  Qed.
End Html.
