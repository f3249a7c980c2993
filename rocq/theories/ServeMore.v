(** Pages that are completed by loading their entries. *)
From Coq Require Import List NArith Bool String Ascii Relations Lia.
From Verif Require Import Base PrintModel ServeSpec.
Import ListNotations.
Local Open Scope list_scope.
Local Open Scope N_scope.

(** ** Texts with tags *)

Definition starts (f g : text) : Prop := exists x, g = f ++ x.
(** The rest of a tag that is not one of [fs]. *)
Definition other_tag (fs : list text) (g : text) : Prop :=
  (exists g0, g = g0 ++ [62] /\ ~ In 60 g0) /\ forall f, In f fs -> ~ starts f g.
Inductive tagged (fs : list text) : text -> Prop :=
| tg_nil : tagged fs []
| tg_char : forall c t, c <> 60 -> tagged fs t -> tagged fs (c :: t)
| tg_tag : forall g t, other_tag fs g -> tagged fs t -> tagged fs (60 :: g ++ t).

Lemma tagged_app fs a b : tagged fs a -> tagged fs b -> tagged fs (a ++ b).
Proof.
  induction 1 as [|c t N _ IH|g t G _ IH]; intros B; [exact B|cbn; apply tg_char; auto|].
  cbn [app]. rewrite <- app_assoc. apply tg_tag; auto.
Qed.
Lemma tagged_text fs t : ~ In 60 t -> tagged fs t.
Proof. induction t as [|c t IH]; intros N; constructor; [intros ->; apply N; now left|apply IH; intros I; apply N; now right]. Qed.
Lemma tagged_one fs g : other_tag fs g -> tagged fs (60 :: g).
Proof. intros G. rewrite <- (app_nil_r g). apply tg_tag; [exact G|constructor]. Qed.
Lemma tagged_fewer fs fs' t : (forall f', In f' fs' -> exists f, In f fs /\ starts f f') -> tagged fs t -> tagged fs' t.
Proof.
  intros S. induction 1 as [|c t N _ IH|g t G _ IH]; [constructor|now constructor|]. apply tg_tag; [|exact IH].
  destruct G as [E G]. split; [exact E|]. intros f' I (x & X). destruct (S f' I) as (f & F & (y & Y)). apply (G f F).
  exists (y ++ x). now rewrite app_assoc, <- Y.
Qed.

Lemma after_tag g : forall t a r, ~ In 60 g -> g ++ t = a ++ 60 :: r -> exists a', a = g ++ a' /\ t = a' ++ 60 :: r.
Proof.
  induction g as [|c g IH]; intros t a r N E; [now exists a|]. destruct a as [|c' a]; cbn in E; injection E as E1 E2.
  - exfalso. apply N. now left.
  - subst c'. destruct (IH t a r) as (a' & -> & T); [intros I; apply N; now right|exact E2|]. exists a'. split; [reflexivity|exact T].
Qed.
Lemma tag_prefix f : forall g0 t b, ~ In 62 f -> (g0 ++ [62]) ++ t = f ++ b -> starts f (g0 ++ [62]).
Proof.
  induction f as [|c f IH]; intros g0 t b N E; [now exists (g0 ++ [62])|].
  destruct g0 as [|d g0]; cbn in E; injection E as E1 E2.
  - exfalso. apply N. now left.
  - subst d. destruct (IH g0 t b) as (x & X); [intros I; apply N; now right|exact E2|]. exists x. cbn. now rewrite X.
Qed.
Lemma tagged_contains fs t f : tagged fs t -> In f fs -> ~ In 62 f -> ~ contains t (60 :: f).
Proof.
  intros T I N. induction T as [|c t C _ IH|g t G _ IH]; intros (a & b & E).
  - destruct a; discriminate.
  - destruct a as [|c' a]; cbn in E; injection E as E1 E2; [congruence|]. apply IH. now exists a, b.
  - destruct G as ((g0 & -> & G0) & G). destruct a as [|c' a]; cbn [app] in E; injection E as E1.
    + apply (G f I). exact (tag_prefix f g0 t b N E1).
    + cbn [app] in *. destruct (after_tag (g0 ++ [62]) t a (f ++ b)) as (a' & -> & E); [|exact H|].
      * intros K. apply in_app_or in K. destruct K as [K|[K|[]]]; [now apply G0|discriminate].
      * apply IH. exists a', b. exact E.
Qed.

(** Checks for given texts. *)
Fixpoint apart (f g : text) : bool :=
  match f, g with
  | x :: f', y :: g' => if x =? y then apart f' g' else true
  | _, _ => false
  end.
Lemma apart_starts f : forall g x, apart f g = true -> ~ starts f (g ++ x).
Proof.
  induction f as [|c f IH]; intros g x A (y & Y); [discriminate|]. destruct g as [|d g]; [discriminate|]. cbn in *.
  injection Y as Y1 Y2. subst d. rewrite N.eqb_refl in A. apply (IH g x A). now exists y.
Qed.
Lemma clean_app a b : ~ In 60 a -> ~ In 60 b -> ~ In 60 (a ++ b).
Proof. intros A B I. apply in_app_or in I. tauto. Qed.
Definition cleanb (t : text) : bool := forallb (fun c => negb (c =? 60)) t.
Lemma cleanb_clean t : cleanb t = true -> ~ In 60 t.
Proof. intros C I. unfold cleanb in C. rewrite forallb_forall in C. apply C in I. discriminate. Qed.
Definition all_apart (fs : list text) (g : text) : bool := forallb (fun f => apart f g) fs.
Lemma all_apart_other fs g x : all_apart fs g = true -> forall f, In f fs -> ~ starts f (g ++ x).
Proof. intros A f I. unfold all_apart in A. rewrite forallb_forall in A. apply apart_starts. now apply A. Qed.
Fixpoint tags_ok (fs : list text) (t : text) (m : option text) : bool :=
  match t with
  | [] => match m with None => true | Some _ => false end
  | c :: t' =>
      match m with
      | None => if c =? 60 then tags_ok fs t' (Some []) else tags_ok fs t' None
      | Some g =>
          if c =? 60 then false
          else if c =? 62 then all_apart fs (g ++ [62]) && tags_ok fs t' None
          else tags_ok fs t' (Some (g ++ [c]))
      end
  end.
Lemma tags_ok_tagged fs t :
  (tags_ok fs t None = true -> tagged fs t) /\
  (forall g, tags_ok fs t (Some g) = true -> ~ In 60 g -> tagged fs (60 :: g ++ t)).
Proof.
  induction t as [|c t [IH1 IH2]]; split; cbn [tags_ok].
  - constructor.
  - discriminate.
  - destruct (N.eqb_spec c 60) as [->|N]; [|intros H; apply tg_char; auto]. intros H. apply (IH2 [] H). intros [].
  - intros g. destruct (N.eqb_spec c 60) as [->|N]; [discriminate|]. destruct (N.eqb_spec c 62) as [->|M].
    + intros H C. apply andb_true_iff in H. destruct H as [A H]. change (62 :: t) with ([62] ++ t). rewrite app_assoc.
      apply tg_tag; [|auto]. split; [exists g; auto|]. intros f I. rewrite <- (app_nil_r (g ++ [62])). exact (all_apart_other fs _ [] A f I).
    + intros H C. change (c :: t) with ([c] ++ t). rewrite app_assoc. apply IH2; [exact H|]. apply clean_app; [exact C|]. intros [E|[]]. congruence.
Qed.
Lemma const_tagged fs t : tags_ok fs t None = true -> tagged fs t.
Proof. apply tags_ok_tagged. Qed.
Lemma tag_with fs pre x post : all_apart fs pre = true -> cleanb pre = true -> ~ In 60 x -> cleanb post = true ->
  tagged fs (60 :: pre ++ x ++ post ++ [62]).
Proof.
  intros A P X Q. apply tagged_one. split; [|exact (all_apart_other fs pre _ A)].
  exists (pre ++ x ++ post). split; [now rewrite <- !app_assoc|]. auto using clean_app, cleanb_clean.
Qed.

(** ** Loading in a context *)

Section Loads.
  Variable response : nat -> option text.
  Lemma completes_refl t : completes response t t.
  Proof. constructor. Qed.
  Lemma completes_trans a b c : completes response a b -> completes response b c -> completes response a c.
  Proof. induction 1 as [|a b b' S _ IH]; intros H; [exact H|]. econstructor; [exact S|now apply IH]. Qed.
  Lemma completes_in p q a b : completes response a b -> completes response (p ++ a ++ q) (p ++ b ++ q).
  Proof.
    induction 1 as [|a b c S _ IH]; [constructor|]. econstructor; [|exact IH]. destruct S as [x y n h t H R].
    replace (p ++ (x ++ lazy_entry n h ++ y) ++ q) with ((p ++ x) ++ lazy_entry n h ++ (y ++ q)) by now rewrite <- !app_assoc.
    replace (p ++ (x ++ loaded_entry n h t ++ y) ++ q) with ((p ++ x) ++ loaded_entry n h t ++ (y ++ q)) by now rewrite <- !app_assoc.
    now constructor.
  Qed.
  Lemma completes_app a b c d : completes response a b -> completes response c d -> completes response (a ++ c) (b ++ d).
  Proof.
    intros AB CD. apply completes_trans with (b ++ c).
    - exact (completes_in [] c _ _ AB).
    - pose proof (completes_in b [] _ _ CD) as H. now rewrite !app_nil_r in H.
  Qed.
  Lemma completes_empty a b : completes response a b -> is_empty a = is_empty b.
  Proof.
    induction 1 as [|a b c S _ IH]; [reflexivity|]. rewrite <- IH. destruct S as [x y n h t _ _]. destruct x; reflexivity.
  Qed.
End Loads.

(** ** Documents *)

Definition clean (l : text) : Prop := ~ In 60 l.
(** Without entries, details and instructions. *)
Fixpoint simple (d : pdoc) : Prop :=
  match d with
  | PNil | PBreak => True
  | PSeq a b | PTree _ a b => simple a /\ simple b
  | PLine l _ | PLabel l => clean l
  | PSection _ l b => clean l /\ simple b
  | PInline d => simple d
  | PDetail _ _ _ | PId _ _ _ | PInstruction _ _ _ => False
  end.

Section Page.
  Variable esc : N -> text.
  Variable alnum : N -> bool.
  Hypothesis SAFE : forall c x, In x (esc c) -> x <> 60.
  Variable response : nat -> option text.
  Variable depth : nat.

  (** What is written if details are loaded on demand, and entries are if [http]. *)
  Definition printed (http : bool) (d : pdoc) (s : html_state) : text * html_state :=
    print_doc (html_printer esc alnum http) true d s.
  Definition body_text (http : bool) (d : pdoc) : text := fst (printed http d (html_start depth)).

  (** The content of every entry is sent for its id. *)
  Fixpoint loadable (d : pdoc) : Prop :=
    match d with
    | PNil | PBreak => True
    | PSeq a b => loadable a /\ loadable b
    | PLine l _ | PLabel l => clean l
    | PTree _ h b => simple h /\ loadable b
    | PSection _ l b => clean l /\ loadable b
    | PInline d => simple d
    | PId n h b => (exists v, h = PLine [] v) /\ response n = Some (body_text true b) /\ loadable b
    | PDetail i l _ => clean i /\ clean l
    | PInstruction _ _ _ => False
    end.

  Lemma simple_loadable d : simple d -> loadable d.
  Proof. induction d; cbn; intuition. Qed.

  (** *** States *)
  Definition kept (s s' : html_state) : Prop :=
    hs_prefix s' = hs_prefix s /\ hs_depth s' = hs_depth s /\ (hs_line_started s = false -> hs_line_started s' = false).
  Lemma kept_refl s : kept s s.
  Proof. repeat split; auto. Qed.
  Lemma kept_trans a b c : kept a b -> kept b c -> kept a c.
  Proof. intros (A & B & C) (D & E & F). repeat split; [congruence|congruence|auto]. Qed.
  Lemma kept_start s : kept (html_start depth) s -> s = html_start depth.
  Proof. intros (A & B & C). destruct s; cbn in *. now rewrite A, B, (C eq_refl). Qed.

  Lemma doc_kept http det d : forall s, kept s (snd (print_doc (html_printer esc alnum http) det d s)).
  Proof.
    induction d as [|a IA b IB|l v|l| |c h IH b IB|c l b IB|i l b IB|n h IH b IB|d IH|a m v]; intros s; cbn [print_doc].
    - apply kept_refl.
    - specialize (IA s). destruct (print_doc (html_printer esc alnum http) det a s) as [ta s1]. specialize (IB s1). destruct (print_doc (html_printer esc alnum http) det b s1) as [tb s2].
      exact (kept_trans _ _ _ IA IB).
    - cbn. destruct (is_empty (html_value esc alnum v)); apply kept_refl.
    - apply kept_refl.
    - apply kept_refl.
    - unfold print_indent. destruct (print_doc (html_printer esc alnum http) det b _) as [tb sb]. destruct (negb (is_empty tb)); [|apply IH].
      cbn. unfold no_flag. specialize (IH (html_started true s)). destruct (print_doc (html_printer esc alnum http) det h _) as [th sh]. cbn in *.
      destruct IH as (A & B & _). repeat split; auto.
    - unfold print_indent. destruct (print_doc (html_printer esc alnum http) det b _) as [tb sb]. destruct (negb (is_empty tb)); cbn; repeat split; auto.
    - destruct det; [cbn; repeat split; auto|]. unfold print_indent. destruct (print_doc (html_printer esc alnum http) false b _) as [tb sb].
      destruct (negb (is_empty tb)); cbn; repeat split; auto.
    - cbn. unfold no_flag. specialize (IH (html_started true s)). destruct (print_doc (html_printer esc alnum http) det h _) as [th sh]. cbn in *.
      destruct IH as (A & B & _). destruct http; [cbn; repeat split; auto|]. specialize (IB (html_started false sh)).
      destruct (print_doc (html_printer esc alnum false) det b _) as [tb sb]. cbn in *. destruct IB as (C & D & E).
      repeat split; [etransitivity; [exact C|exact A]|etransitivity; [exact D|exact B]|auto].
    - cbn. destruct (hs_depth s) as [|n] eqn:D; [apply kept_refl|]. specialize (IH (mkHtml (hs_prefix s) n (hs_line_started s))).
      destruct (print_doc (html_printer esc alnum http) det d _) as [td sd]. cbn in *. destruct IH as (A & B & C). split; [exact A|]. split; [|exact C]. cbn. rewrite B. now symmetry.
    - apply kept_refl.
  Qed.
  Lemma printed_kept http d s : kept s (snd (printed http d s)).
  Proof. apply doc_kept. Qed.
  Lemma printed_start http d : printed http d (html_start depth) = (body_text http d, html_start depth).
  Proof.
    pose proof (kept_start _ (printed_kept http d (html_start depth))) as H. unfold body_text.
    destruct (printed http d (html_start depth)) as [t s]. cbn in *. now rewrite H.
  Qed.

  (** *** The same text with and without loading *)
  Lemma simple_same d : simple d -> forall s, printed true d s = printed false d s.
  Proof.
    unfold printed. induction d as [|a IA b IB|l v|l| |c h IH b IB|c l b IB|i l b IB|n h IH b IB|d IH|a m v];
      cbn [simple]; intros S s; try contradiction; cbn [print_doc].
    - reflexivity.
    - destruct S as [SA SB]. rewrite (IA SA). destruct (print_doc (html_printer esc alnum false) true a s) as [ta s1]. rewrite (IB SB). reflexivity.
    - reflexivity.
    - reflexivity.
    - reflexivity.
    - destruct S as [SH SB]. unfold print_indent. change (p_body (html_printer esc alnum true)) with (html_started false).
      change (p_body (html_printer esc alnum false)) with (html_started false).
      rewrite (IB SB). destruct (print_doc (html_printer esc alnum false) true b _) as [tb sb]. destruct (negb (is_empty tb)); [|apply (IH SH)].
      cbn. unfold no_flag. rewrite (IH SH). reflexivity.
    - destruct S as [_ SB]. unfold print_indent. change (p_body (html_printer esc alnum true)) with (html_started false).
      change (p_body (html_printer esc alnum false)) with (html_started false).
      rewrite (IB SB). reflexivity.
    - cbn. destruct (hs_depth s); [reflexivity|]. rewrite (IH S). reflexivity.
  Qed.

  (** *** Tags in the output *)
  Definition list_tags : list text := [txt "li"; txt "ul"].
  Definition lazy_tag : list text := [tl lazy_mark].
  Definition entry_tags : list text := [tl lazy_mark; tl with_id].
  Lemma no_list_no_entry t : tagged list_tags t -> tagged entry_tags t.
  Proof.
    apply tagged_fewer. intros f' [<-|[<-|[]]]; (exists (txt "li"); split; [now left|]; eexists; reflexivity).
  Qed.
  Lemma no_entry_no_lazy t : tagged entry_tags t -> tagged lazy_tag t.
  Proof.
    apply tagged_fewer. intros f' [<-|[]]. exists (tl lazy_mark). split; [now left|]. exists []. now rewrite app_nil_r.
  Qed.

  Lemma escaped_clean s : ~ In 60 (escaped esc s).
  Proof. unfold escaped. intros I. apply in_flat_map in I. destruct I as (c & _ & I). now apply SAFE in I. Qed.
  Lemma dec_clean n : ~ In 60 (dec n).
  Proof.
    unfold dec. generalize (N.to_uint n). intros d I.
    assert (H : forall d, ~ In 60 (txt (DecimalString.NilEmpty.string_of_uint d))).
    { clear. intros d. induction d; unfold txt in *; cbn [DecimalString.NilEmpty.string_of_uint list_ascii_of_string map];
        intros I; [destruct I|..]; destruct I as [I|I]; try discriminate; now apply IHd. }
    destruct d; try (now apply (H _ I)). cbn in I. destruct I as [I|[]]. discriminate.
  Qed.
  Lemma value_tagged v : tagged list_tags (html_value esc alnum v).
  Proof.
    induction v as [|a IA b IB|s|s|id v IV]; cbn [html_value].
    - constructor.
    - now apply tagged_app.
    - apply tagged_text, escaped_clean.
    - destruct (negb (text_eqb s (short_name alnum s))); [|apply tagged_text, escaped_clean].
      change (txt "<span title=""") with (60 :: txt "span title="""). change (txt """>") with (txt """" ++ [62]).
      rewrite (app_assoc (60 :: _)), (app_assoc _ (txt """" ++ [62])). apply tagged_app.
      + rewrite <- app_assoc. apply tag_with; try reflexivity. apply escaped_clean.
      + apply tagged_app; [apply tagged_text, escaped_clean|]. apply const_tagged. reflexivity.
    - destruct (Nat.eqb id 0); [exact IV|].
      replace (txt "<a class=""link"" data-link=""" ++ dec (N.of_nat id) ++ txt """ href=""#" ++ dec (N.of_nat id) ++ txt """>" ++
        html_value esc alnum v ++ txt "</a>") with
        ((60 :: txt "a class=""link"" data-link=""" ++ (dec (N.of_nat id) ++ txt """ href=""#" ++ dec (N.of_nat id)) ++ txt """" ++ [62]) ++
         html_value esc alnum v ++ txt "</a>") by (cbn [app]; rewrite <- !app_assoc; reflexivity).
      apply tagged_app; [|apply tagged_app; [exact IV|apply const_tagged; reflexivity]].
      apply tag_with; try reflexivity. repeat apply clean_app; try apply dec_clean. apply cleanb_clean. reflexivity.
  Qed.
  Lemma span_tagged fs cls rest : tags_ok fs (txt "<span" ++ cls ++ txt ">") None = true -> tagged fs rest ->
    tagged fs (txt "<span" ++ cls ++ txt ">" ++ rest).
  Proof.
    intros T R. replace (txt "<span" ++ cls ++ txt ">" ++ rest) with ((txt "<span" ++ cls ++ txt ">") ++ rest)
      by now rewrite <- !app_assoc.
    apply tagged_app; [now apply const_tagged|exact R].
  Qed.
  Lemma line_tagged s l b : clean l -> tagged list_tags b -> tagged entry_tags (html_line s l b).
  Proof.
    intros C B. apply no_list_no_entry in B. apply (tagged_text entry_tags) in C. unfold html_line.
    apply tagged_app; [unfold html_li; destruct (hs_line_started s); apply const_tagged; reflexivity|].
    apply tagged_app; [|unfold html_li_end; destruct (hs_line_started s); apply const_tagged; reflexivity].
    destruct (is_empty b).
    - apply span_tagged; [destruct (prefix_is_modify (hs_prefix s)); reflexivity|]. apply tagged_app; [exact C|]. apply const_tagged; reflexivity.
    - apply tagged_app.
      + destruct (is_empty l); [constructor|]. apply tagged_app; [apply const_tagged; reflexivity|].
        apply tagged_app; [exact C|apply const_tagged; reflexivity].
      + apply span_tagged; [destruct (hs_prefix s); reflexivity|]. apply tagged_app; [exact B|apply const_tagged; reflexivity].
  Qed.
  (** A title. *)
  Lemma title_tagged s v : hs_line_started s = true -> tagged list_tags (fst (printed false (PLine [] v) s)).
  Proof.
    intros L. unfold printed. cbn [print_doc p_value html_printer p_line]. pose proof (value_tagged v) as V.
    destruct (is_empty (html_value esc alnum v)) eqn:E; [constructor|]. cbn [fst]. unfold html_line, html_li, html_li_end. rewrite L, E.
    cbn [is_empty]. apply tagged_app; [constructor|]. apply tagged_app; [|constructor]. apply tagged_app; [constructor|].
    apply span_tagged; [destruct (hs_prefix s); reflexivity|]. apply tagged_app; [exact V|apply const_tagged; reflexivity].
  Qed.
  Lemma title_ok t : tagged list_tags t -> title_text t.
  Proof.
    intros T. split.
    - apply (tagged_contains list_tags t (txt "li") T); [now left|]. cbn. intuition discriminate.
    - apply (tagged_contains list_tags t (txt "ul") T); [right; now left|]. cbn. intuition discriminate.
  Qed.

  Lemma simple_tagged d : simple d -> forall s, tagged entry_tags (fst (printed false d s)).
  Proof.
    unfold printed. induction d as [|a IA b IB|l v|l| |c h IH b IB|c l b IB|i l b IB|n h IH b IB|d IH|a m v];
      cbn [simple]; intros S s; try contradiction; cbn [print_doc].
    - constructor.
    - destruct S as [SA SB]. specialize (IA SA s). destruct (print_doc (html_printer esc alnum false) true a s) as [ta s1]. specialize (IB SB s1).
      destruct (print_doc (html_printer esc alnum false) true b s1) as [tb s2]. now apply tagged_app.
    - cbn. destruct (is_empty (html_value esc alnum v)); [constructor|]. apply line_tagged; [exact S|apply value_tagged].
    - cbn. apply line_tagged; [exact S|constructor].
    - constructor.
    - destruct S as [SH SB]. unfold print_indent. specialize (IB SB). change (p_body (html_printer esc alnum false)) with (html_started false).
      specialize (IB (html_started false s)). destruct (print_doc (html_printer esc alnum false) true b _) as [tb sb]. cbn [fst] in IB. destruct (negb (is_empty tb)); [|exact (IH SH s)].
      cbn. unfold no_flag. specialize (IH SH (html_started true s)). destruct (print_doc (html_printer esc alnum false) true h _) as [th sh]. cbn [fst] in *.
      apply (tagged_app _ (txt "<li class=""treebranch"">")); [apply const_tagged; reflexivity|]. apply tagged_app; [exact IH|].
      apply tagged_app; [destruct c; apply const_tagged; reflexivity|].
      apply (tagged_app _ newline); [apply const_tagged; reflexivity|]. apply tagged_app; [exact IB|]. apply const_tagged; reflexivity.
    - destruct S as [SL SB]. unfold print_indent. specialize (IB SB). change (p_body (html_printer esc alnum false)) with (html_started false).
      specialize (IB (html_started false s)). destruct (print_doc (html_printer esc alnum false) true b _) as [tb sb]. cbn [fst] in IB. destruct (negb (is_empty tb)); [|constructor].
      unfold no_flag, print_label. cbn [p_header html_printer fst p_line].
      apply (tagged_app _ (txt "<li class=""treebranch"">")); [apply const_tagged; reflexivity|].
      apply tagged_app; [apply line_tagged; [exact SL|constructor]|].
      apply tagged_app; [destruct c; apply const_tagged; reflexivity|].
      apply (tagged_app _ newline); [apply const_tagged; reflexivity|]. apply tagged_app; [exact IB|]. apply const_tagged; reflexivity.
    - cbn. destruct (hs_depth s) as [|n]; [constructor|]. specialize (IH S (mkHtml (hs_prefix s) n (hs_line_started s))).
      destruct (print_doc (html_printer esc alnum false) true d _) as [td sd]. exact IH.
  Qed.

  Lemma detail_tagged i l b s : clean i -> clean l -> tagged entry_tags (fst (printed false (PDetail i l b) s)).
  Proof.
    intros SI SL. unfold printed. cbn [print_doc p_detail html_printer fst].
    replace (txt "<li class=""detail"" data-detail=""" ++ i ++ txt """>" ++ html_line (html_started true s) l [] ++ txt "</li>" ++ newline)
      with ((60 :: txt "li class=""detail"" data-detail=""" ++ i ++ txt """" ++ [62]) ++ html_line (html_started true s) l [] ++ txt "</li>" ++ newline)
      by (cbn [app]; rewrite <- !app_assoc; reflexivity).
    apply tagged_app; [apply tag_with; try reflexivity; exact SI|].
    apply tagged_app; [apply line_tagged; [exact SL|constructor]|apply const_tagged; reflexivity].
  Qed.

  (** *** Pages *)
  Lemma title_same v s : printed true (PLine [] v) s = printed false (PLine [] v) s.
  Proof. reflexivity. Qed.
  Lemma load_body d : loadable d ->
    completes response (body_text true d) (body_text false d) /\ tagged lazy_tag (body_text false d).
  Proof.
    induction d as [|a IA b IB|l v|l| |c h IH b IB|c l b IB|i l b IB|n h IH b IB|d IH|a m v]; cbn [loadable]; intros L; try contradiction.
    - split; [apply completes_refl|constructor].
    - destruct L as [LA LB]. destruct (IA LA) as [CA TA], (IB LB) as [CB TB].
      assert (E : forall http, body_text http (PSeq a b) = body_text http a ++ body_text http b).
      { intros http. unfold body_text at 1, printed. cbn [print_doc].
        pose proof (printed_start http a) as PA. unfold printed in PA. rewrite PA.
        pose proof (printed_start http b) as PB. unfold printed in PB. rewrite PB. reflexivity. }
      rewrite !E. split; [now apply completes_app|now apply tagged_app].
    - split; [apply completes_refl|]. apply no_entry_no_lazy, (simple_tagged (PLine l v)). exact L.
    - split; [apply completes_refl|]. apply no_entry_no_lazy, (simple_tagged (PLabel l)). exact L.
    - split; [apply completes_refl|constructor].
    - destruct L as [LH LB]. destruct (IB LB) as [CB TB].
      assert (E : forall http, body_text http (PTree c h b) =
        if is_empty (body_text http b) then fst (printed http h (html_start depth))
        else txt "<li class=""treebranch"">" ++ fst (printed http h (html_started true (html_start depth))) ++
             (if c then txt "<ul style=""display:none"">" else txt "<ul>") ++ newline ++ body_text http b ++ txt "</ul></li>" ++ newline).
      { intros http. unfold body_text at 1, printed at 1. cbn [print_doc]. unfold print_indent.
        change (p_body (html_printer esc alnum http)) with (html_started false).
        change (html_started false (html_start depth)) with (html_start depth).
        pose proof (printed_start http b) as PB. unfold printed in PB. rewrite PB. destruct (is_empty (body_text http b)); cbn [negb].
        - reflexivity.
        - cbn [p_header html_printer]. unfold no_flag, printed. destruct (print_doc (html_printer esc alnum http) true h _) as [th sh]. reflexivity. }
      rewrite !E, (completes_empty _ _ _ CB). rewrite !(simple_same h LH). destruct (is_empty (body_text false b)).
      + split; [apply completes_refl|]. now apply no_entry_no_lazy, simple_tagged.
      + split.
        * repeat (apply completes_app; [apply completes_refl|]). apply completes_app; [exact CB|apply completes_refl].
        * apply tagged_app; [apply const_tagged; reflexivity|]. apply tagged_app; [now apply no_entry_no_lazy, simple_tagged|].
          apply tagged_app; [destruct c; apply const_tagged; reflexivity|]. apply tagged_app; [apply const_tagged; reflexivity|].
          apply tagged_app; [exact TB|apply const_tagged; reflexivity].
    - destruct L as [LL LB]. destruct (IB LB) as [CB TB].
      assert (E : forall http, body_text http (PSection c l b) =
        if is_empty (body_text http b) then []
        else txt "<li class=""treebranch"">" ++ html_line (html_started true (html_start depth)) l [] ++
             (if c then txt "<ul style=""display:none"">" else txt "<ul>") ++ newline ++ body_text http b ++ txt "</ul></li>" ++ newline).
      { intros http. unfold body_text at 1, printed at 1. cbn [print_doc]. unfold print_indent.
        change (p_body (html_printer esc alnum http)) with (html_started false).
        change (html_started false (html_start depth)) with (html_start depth).
        pose proof (printed_start http b) as PB. unfold printed in PB. rewrite PB. destruct (is_empty (body_text http b)); reflexivity. }
      rewrite !E, (completes_empty _ _ _ CB). destruct (is_empty (body_text false b)).
      + split; [apply completes_refl|constructor].
      + split.
        * repeat (apply completes_app; [apply completes_refl|]). apply completes_app; [exact CB|apply completes_refl].
        * apply tagged_app; [apply const_tagged; reflexivity|]. apply tagged_app; [apply no_entry_no_lazy, line_tagged; [exact LL|constructor]|].
          apply tagged_app; [destruct c; apply const_tagged; reflexivity|]. apply tagged_app; [apply const_tagged; reflexivity|].
          apply tagged_app; [exact TB|apply const_tagged; reflexivity].
    - destruct L as [SI SL]. split; [apply completes_refl|]. apply no_entry_no_lazy. now apply detail_tagged.
    - destruct L as ((v & ->) & R & LB). destruct (IB LB) as [CB TB].
      set (t := fst (printed false (PLine [] v) (html_started true (html_start depth)))).
      assert (T : tagged list_tags t) by now apply title_tagged.
      assert (ET : body_text true (PId n (PLine [] v) b) = lazy_entry n t).
      { unfold t, body_text, printed. cbn [print_doc p_id html_printer]. unfold no_flag. cbn [print_doc].
        destruct (is_empty (p_value (html_printer esc alnum true) v)) eqn:EV; cbn [p_value html_printer] in EV |- *; rewrite ?EV; cbn [fst];
          unfold lazy_entry, lazy_mark, number; rewrite <- ?app_assoc; reflexivity. }
      assert (EF : body_text false (PId n (PLine [] v) b) = loaded_entry n t (body_text false b)).
      { unfold t, body_text at 1, printed. cbn [print_doc p_id html_printer]. unfold no_flag. cbn [print_doc].
        pose proof (printed_start false b) as PB. unfold printed in PB.
        destruct (is_empty (p_value (html_printer esc alnum false) v)) eqn:EV; cbn [p_value html_printer] in EV |- *; rewrite ?EV; cbn [fst];
          change (html_started false (html_started true (html_start depth))) with (html_start depth); rewrite PB;
          unfold loaded_entry, number; rewrite <- ?app_assoc; reflexivity. }
      rewrite ET, EF. split.
      + apply completes_trans with (loaded_entry n t (body_text true b)).
        * pose proof (loads_entry response [] [] n t _ (title_ok t T) R) as S. rewrite !app_nil_l, !app_nil_r in S.
          econstructor; [exact S|constructor].
        * unfold loaded_entry. repeat (apply completes_app; [apply completes_refl|]). apply completes_app; [exact CB|apply completes_refl].
      + unfold loaded_entry.
        replace (txt "<li class=""treebranch"" id=""" ++ number n ++ txt """>" ++ t ++ txt "<ul style=""display:none"">" ++ newline ++
                 body_text false b ++ txt "</ul></li>" ++ newline) with
          ((60 :: txt "li class=""treebranch"" id=""" ++ number n ++ txt """" ++ [62]) ++ t ++ txt "<ul style=""display:none"">" ++ newline ++
                 body_text false b ++ txt "</ul></li>" ++ newline) by (cbn [app]; rewrite <- !app_assoc; reflexivity).
        apply tagged_app; [apply tag_with; try reflexivity; apply dec_clean|]. apply tagged_app; [now apply no_entry_no_lazy, no_list_no_entry|].
        apply tagged_app; [apply const_tagged; reflexivity|]. apply tagged_app; [apply const_tagged; reflexivity|].
        apply tagged_app; [exact TB|apply const_tagged; reflexivity].
    - unfold body_text. rewrite (simple_same (PInline d) L). split; [apply completes_refl|]. now apply no_entry_no_lazy, (simple_tagged (PInline d)).
  Qed.
  Lemma load_page d header footer : loadable d ->
    completes response (header ++ body_text true d ++ footer) (header ++ body_text false d ++ footer) /\
    complete (body_text false d).
  Proof.
    intros L. destruct (load_body d L) as [C T]. split; [now apply completes_in|].
    apply (tagged_contains lazy_tag _ (tl lazy_mark) T); [now left|]. cbn. intuition discriminate.
  Qed.
End Page.
