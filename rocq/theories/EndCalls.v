(** Calls, from the values of attributes: proofs. *)
From Coq Require Import List Arith NArith ZArith Bool String Lia Sorting.Sorted.
From Verif Require Import CodeProofs DescribeProofs Base BaseProofs RangeModel NamespaceModel NamespaceSpec TypeModel TypeSpec TypeProofs FileModel FileSpec LocationModel LocationProofs
  OptionsModel ReadModel ReadSpec PrintModel PrintSpec NameModel ItemModel ItemSpec EntryModel EntrySpec DetailModel DetailSpec DetailProofs DetailShown DetailMore
  MemberSpec WholeModel WholeSpec WholeProofs WholeDepth PropertiesFile SymbolProofs PairItems PropertiesWhole RawModel RawSpec RawProofs PropertiesRaw EndSpec EndProofs
  WholeShown PropertiesDie EndTypes EndItems PropertiesEnd EndLocalSpec EndLocals.
From Verif Require Import DieModel DieSpec DieProofs.
Import ListNotations.
Local Open Scope N_scope.

(** ** One of some attributes *)

Section One.
  Variable rf : raw_file.
  Variable u : raw_unit.

  Lemma one_outside codes attrs c v b : gives c attrs v -> (forall c', In c' codes -> c' <> c -> lacks c' attrs) -> In b attrs -> In (fst b) codes -> b = (c, v).
  Proof.
    intros G N I J. destruct b as [k w]. cbn [fst] in J. destruct (N.eq_dec k c) as [->|NE].
    - now rewrite (gives_only _ _ _ _ G I).
    - destruct (N k J NE). now apply (in_map fst) in I.
  Qed.
  Lemma given_by {A} (pick : attr -> option A) codes attrs v x y : one_of codes attrs v ->
    (forall w, v = Some w -> Forall (fun c => pick (read_attr rf u (c, w)) = x) codes) ->
    Forall (fun p => In (fst p) codes \/ forall v, pick (snd p v) = None) (attribute_table rf u) -> (forall n, pick (AOther n) = None) ->
    given pick (map (read_attr rf u) attrs) y = match v, x with Some _, Some z => z | _, _ => y end.
  Proof.
    intros O E F OT. destruct O as [L|c v I G N].
    - apply given_skip. intros b J. apply in_map_iff in J. destruct J as (a & <- & J).
      apply (read_attr_other rf u pick codes); [exact F|exact OT|]. intros K. apply (L _ K). now apply (in_map fst).
    - specialize (E v eq_refl). rewrite Forall_forall in E. specialize (E c I).
      assert (OUT : forall a, In a attrs -> a <> (c, v) -> pick (read_attr rf u a) = None).
      { intros a J NE. apply (read_attr_other rf u pick codes); [exact F|exact OT|]. intros K. apply NE. now apply (one_outside codes attrs). }
      destruct x as [z|].
      + apply (given_last pick rf u (fun a => In (fst a) codes) attrs (c, v)); [|exact E|].
        * destruct G as (b & a & -> & NI). exists b, a. split; [reflexivity|]. split; [exact I|]. intros k K X.
          assert (k = (c, v)) as ->.
          { apply (one_outside codes (b ++ (c, v) :: a)); [now exists b, a|exact N|apply in_app_iff; right; now right|exact X]. }
          apply NI. rewrite map_app. apply in_app_iff. right. now apply (in_map fst) in K.
        * intros b NI. now apply (read_attr_other rf u pick codes).
      + apply given_skip. intros b J. apply in_map_iff in J. destruct J as (a & <- & J).
        destruct (N.eq_dec (fst a) c) as [<-|NE].
        * destruct a as [k w]. cbn [fst] in *. now rewrite (gives_only _ _ _ _ G J).
        * apply OUT; [exact J|]. intros ->. now apply NE.
  Qed.
End One.
(** ** Expressions *)

Section Sites.
  Variable choice : N -> nat.
  Variable rf : raw_file.
  Variable ob : object_input.
  Hypothesis WF : raw_well_formed rf.
  Hypothesis AC : raw_acyclic rf.
  Hypothesis RD : read_file rf = Some ob.
  Local Notation sc := (file_scene choice ob).
  Local Notation h := (file_offsets (loaded choice ob)).

  Lemma register_words r : register_shown sc r = register_word rf r.
  Proof. unfold register_shown, register_word. destruct (C91_units rf) as (_ & H). destruct (H ob RD) as (_ & _ & _ & _ & _ & _ & E & _). cbn [file_scene sc_register]. now rewrite E. Qed.
  Definition words_of (l : list piece) : list text := map (fun p => location_shown sc (pc_location p)) l.
  Lemma hex_below a : a < u64_max -> hex0x (if a =? u64_max then 0 else a) = txt "0x" ++ hex a.
  Proof. intros L. destruct (N.eqb_spec a u64_max); [lia|reflexivity]. Qed.
  Lemma operation_pushed u p t : operation_words rf u p t -> exists l, location_shown sc l = t /\
    (evaluate (rd_address_size (reading_of rf u)) (rd_address (reading_of rf u)) [p] = Some [mkPiece 0 opt64_none l 0 false]) /\
    (evaluate (rd_address_size (reading_of rf u)) (rd_address (reading_of rf u)) [p; OStackValue] = Some [mkPiece 0 opt64_none l 0 true]).
  Proof.
    intros [r z|z| |a L|i a A L|n|z B|k].
    - exists (LRegisterOffset r z). cbn [location_shown]. rewrite register_words. repeat split; reflexivity.
    - exists (LFrameOffset z). repeat split; reflexivity.
    - exists (LCfaOffset 0). repeat split; reflexivity.
    - exists (LAddress a). cbn [location_shown]. rewrite hex_below by exact L. repeat split; reflexivity.
    - apply attr_address_iff in A. cbn [attr_address] in A. exists (LAddress a). cbn [location_shown]. rewrite hex_below by exact L.
      unfold evaluate. cbn [run step reading_of rd_address read_unit ui_address]. rewrite A. repeat split; reflexivity.
    - exists (LLiteral n). repeat split; reflexivity.
    - exists (LLiteral (LocationModel.as_u64 z)). cbn [location_shown]. split; [|split; reflexivity]. unfold hex0x, LocationModel.as_u64. do 3 f_equal. symmetry.
      destruct (Z.ltb_spec z 0) as [N|N].
      + apply (Z.mod_unique _ _ (-1)); lia.
      + apply (Z.mod_unique _ _ 0); lia.
    - exists LOther. repeat split; reflexivity.
  Qed.
  Lemma expression_evaluated u ops t : expression_words rf u ops t ->
    exists ps, evaluate (rd_address_size (reading_of rf u)) (rd_address (reading_of rf u)) ops = Some ps /\ words_of ps = [t].
  Proof.
    intros [r|p t' O|p t' O| ].
    - eexists. split; [reflexivity|]. unfold words_of. cbn [map]. cbn. now rewrite register_words.
    - destruct (operation_pushed u p t' O) as (l & <- & -> & _). eexists. split; reflexivity.
    - destruct (operation_pushed u p t' O) as (l & <- & _ & ->). eexists. split; reflexivity.
    - eexists. split; reflexivity.
  Qed.
  Lemma expression_read u codes attrs ts (pick : attr -> option (list op)) : expression_by rf u codes attrs ts ->
    (forall m ps ops, Forall (fun c => pick (read_attr rf u (c, RwExpression m ps ops)) = Some ops) codes) ->
    Forall (fun p => In (fst p) codes \/ forall v, pick (snd p v) = None) (attribute_table rf u) -> (forall n, pick (AOther n) = None) ->
    words_of (given_pieces (reading_of rf u) pick (map (read_attr rf u) attrs)) = ts.
  Proof.
    intros H E F O.
    assert (F' : Forall (fun p => In (fst p) codes \/ forall v, match pick (snd p v) with Some ops => evaluate (rd_address_size (reading_of rf u)) (rd_address (reading_of rf u)) ops | None => None end = None)
      (attribute_table rf u)).
    { eapply Forall_impl; [|exact F]. intros p [X|X]; [now left|right]. intros v. now rewrite X. }
    assert (O' : forall n, match pick (AOther n) with Some ops => evaluate (rd_address_size (reading_of rf u)) (rd_address (reading_of rf u)) ops | None => None end = None)
      by (intros n; now rewrite O).
    unfold given_pieces. destruct H as [N|m ps ops t G W].
    - rewrite (given_by rf u _ codes attrs None None []); [reflexivity|exact N|discriminate|exact F'|exact O'].
    - destruct (expression_evaluated u ops t W) as (pcs & EV & WO).
      rewrite (given_by rf u _ codes attrs _ (Some pcs) [] G); [exact WO| |exact F'|exact O'].
      intros w [= <-]. eapply Forall_impl; [|apply (E m ps ops)]. intros c Ec. cbn beta in Ec. now rewrite Ec.
  Qed.

  (** ** Arguments *)

  Definition argument_like (a : argument) (q : raw_argument) : Prop :=
    ar_name a = ra_name q /\
    match ar_ty a with
    | Some off => match vw_find (sc_view sc) off with Some t => txt ": " ++ text_value (vw_ref (sc_view sc) (Some t)) | None => [] end
    | None => []
    end = match ra_type q with Some t => txt ": " ++ t | None => [] end /\
    words_of (ar_location a) = ra_location q /\ words_of (ar_value a) = ra_value q /\ words_of (ar_data_location a) = ra_data_location q /\
    words_of (ar_data_value a) = ra_data_value q.

  Lemma space_at x e : In x (rf_units rf) -> In e (raw_below x) -> entry_space ob (spot_in x e) = Some (reading_of rf x, read_die rf x e) /\ spot_in x e <> u64_max.
  Proof.
    intros I J. pose proof (C88_well_formed rf ob WF RD) as OW. pose proof (unit_in rf ob RD x I) as Ix.
    assert (Je : In (read_die rf x e) (unit_entries (read_unit rf x))) by (rewrite read_below; now apply in_map).
    unfold spot_in. rewrite <- (read_offset rf x e). split.
    - unfold entry_space. now rewrite (entry_in_complete ob OW _ _ Ix Je).
    - destruct OW as (_ & F). rewrite Forall_forall in F. apply F. unfold all_entries. apply in_flat_map. eauto.
  Qed.
  Lemma refers_unit u v x e : In u (rf_units rf) -> refers rf u v x e -> In x (rf_units rf).
  Proof. intros I R. now destruct R. Qed.
  Lemma last_default {A} (l : list A) x y : l <> [] -> last l x = last l y.
  Proof. induction l as [|a [|b l] IH]; intros N; [now destruct N|reflexivity|]. cbn [last] in *. now apply IH. Qed.
  Lemma given_default {A} (pick : attr -> option A) l b y y' : In b l -> pick b <> None -> given pick l y = given pick l y'.
  Proof.
    intros I N. unfold given. apply last_default. intros E. destruct (pick b) as [z|] eqn:P; [|now apply N].
    assert (J : In z []) by (rewrite <- E; apply in_flat_map; exists b; rewrite P; split; [exact I|now left]). destruct J.
  Qed.
  Local Notation pick_name := (fun a : attr => match a with AName v => Some v | _ => None end).
  Local Notation pick_type := (fun a : attr => match a with AType (Some o) => Some (Some o) | _ => None end).
  Lemma name_kept u attrs y : lacks 0x03 attrs -> given pick_name (map (read_attr rf u) attrs) y = y.
  Proof.
    intros L. apply (given_by rf u pick_name [0x03] attrs None None y); [|discriminate|attribute_table|reflexivity].
    constructor. intros c [<-|[]]. exact L.
  Qed.
  Lemma name_over u attrs n y : ~ lacks 0x03 attrs -> named rf u is_name attrs n -> given pick_name (map (read_attr rf u) attrs) y = n.
  Proof.
    intros L N. rewrite <- (named_is rf u (RawDie 0 0 attrs []) n N), read_attrs. cbn [rd_attrs]. unfold given_name.
    destruct (in_dec N.eq_dec 0x03 (map fst attrs)) as [J|J]; [|now destruct L].
    apply in_map_iff in J. destruct J as ((c, v) & E & J). cbn [fst] in E. subst c.
    apply (given_default _ _ (read_attr rf u (0x03, v))); [now apply in_map|].
    rewrite (read_attr_at rf u 0x03 (fun v => AName (attr_string rf u v)) v) by (cbn; tauto). discriminate.
  Qed.
  Definition type_words (off : option type_offset) : text :=
    match off with
    | Some off => match vw_find (sc_view sc) off with Some t => txt ": " ++ text_value (vw_ref (sc_view sc) (Some t)) | None => [] end
    | None => []
    end.
  Lemma type_kept u attrs y : lacks 0x49 attrs -> given pick_type (map (read_attr rf u) attrs) y = y.
  Proof.
    intros L. apply (given_by rf u pick_type [0x49] attrs None None y); [|discriminate|attribute_table|reflexivity].
    constructor. intros c [<-|[]]. exact L.
  Qed.
  Lemma type_over u attrs t y : In u (rf_units rf) -> type_said rf u attrs t -> (t = None -> y = None) ->
    type_words (given pick_type (map (read_attr rf u) attrs) y) = match t with Some t => txt ": " ++ t | None => [] end.
  Proof.
    intros I H Y. destruct H as [L|v t G T].
    - now rewrite type_kept, (Y eq_refl) by exact L.
    - pose proof (written_text choice rf ob u attrs t WF AC RD I T) as W.
      destruct (texts rf ob WF RD) as (TX & _). destruct (TX u 0x49 attrs t T I (or_introl eq_refl)) as (_ & EX).
      destruct (EX (ex_intro _ v G)) as (ty & F & _). unfold refers_to in F. change (0x49 =? 0x1d) with false in F. cbv iota in F.
      assert (E : given pick_type (map (read_attr rf u) attrs) y = Some (given_type (map (read_attr rf u) attrs))).
      { inversion T as [? ? ? L|? ? ? w x e ? G' R J ET]; subst; [now destruct (gives_lacks _ _ _ G L)|].
        rewrite (type_is rf u attrs w x e G' R).
        apply (given_gives rf u _ 0x49 (fun v => AType (info_offset u v)) attrs w); [cbn; tauto|exact G'| |attribute_table|reflexivity].
        now rewrite (reference_offset rf u w x e R). }
      rewrite E. unfold type_words, written_type in *. change (sc_view sc) with (file_view choice ob).
      change (vw_find (file_view choice ob) (given_type (map (read_attr rf u) attrs))) with (from_offset (type_at ob) (given_type (map (read_attr rf u) attrs))) in *.
      rewrite F in *. now rewrite W.
  Qed.
  Lemma expression_at u code attrs ts f (pick : attr -> option (list op)) : expression_by rf u [code] attrs ts ->
    In (code, f) (attribute_table rf u) -> (forall m ps ops, pick (f (RwExpression m ps ops)) = Some ops) ->
    Forall (fun p => In (fst p) [code] \/ forall v, pick (snd p v) = None) (attribute_table rf u) -> (forall n, pick (AOther n) = None) ->
    words_of (given_pieces (reading_of rf u) pick (map (read_attr rf u) attrs)) = ts.
  Proof.
    intros H I E F O. apply (expression_read u [code]); [exact H| |exact F|exact O].
    intros m ps ops. constructor; [|constructor]. now rewrite (read_attr_at rf u code f _ I).
  Qed.
  Lemma argument_read u d q : In u (rf_units rf) -> gives_argument rf u d q ->
    argument_like (argument_of (entry_space ob) (reading_of rf u) (read_die rf u d)) q.
  Proof.
    intros I [name t location value data_location data_value W L V DL DV]. unfold argument_of. rewrite read_attrs.
    unfold argument_like. cbn [ar_name ar_ty ar_location ar_value ar_data_location ar_data_value ra_name ra_type ra_location ra_value ra_data_location ra_data_value].
    match goal with |- context [given ?p (map (read_attr rf u) (rd_attrs d)) None] => set (pick := p) end.
    assert (PF : Forall (fun p => In (fst p) [0x80; 0x31] \/ forall v, pick (snd p v) = None) (attribute_table rf u)) by (unfold pick; attribute_table).
    match goal with |- _ = name /\ ?m = _ /\ _ => change m with (type_words (given_optional_type (map (read_attr rf u) (rd_attrs d) ++
      match given pick (map (read_attr rf u) (rd_attrs d)) None with
      | Some o => match entry_space ob o with Some (_, p) => die_attrs p | None => [] end
      | None => []
      end))) end.
    assert (X : given_name (map (read_attr rf u) (rd_attrs d) ++
        match given pick (map (read_attr rf u) (rd_attrs d)) None with
        | Some o => match entry_space ob o with Some (_, p) => die_attrs p | None => [] end
        | None => []
        end) = name /\
      type_words (given_optional_type (map (read_attr rf u) (rd_attrs d) ++
        match given pick (map (read_attr rf u) (rd_attrs d)) None with
        | Some o => match entry_space ob o with Some (_, p) => die_attrs p | None => [] end
        | None => []
        end)) = match t with Some t => txt ": " ++ t | None => [] end).
    { destruct W as [n t O N T|v x e n t O R J N T].
      - rewrite (given_by rf u pick _ _ None None None O ltac:(discriminate) PF (fun _ => eq_refl)), !app_nil_r.
        split; [rewrite <- (read_attrs rf u d); now apply named_is|]. unfold given_optional_type. now apply type_over.
      - pose proof (refers_unit u v x e I R) as Ix. destruct (space_at x e Ix J) as (SP & _).
        rewrite (given_by rf u pick _ _ (Some v) (Some (Some (spot_in x e))) None O); [| |exact PF|reflexivity].
        2: { intros w [= <-]. repeat constructor;
             [rewrite (read_attr_at rf u 0x80 (fun v => ACallParameter (info_offset u v)) v) by (cbn; tauto)
             |rewrite (read_attr_at rf u 0x31 (fun v => AAbstractOrigin (info_offset u v)) v) by (cbn; tauto)];
             unfold pick; now rewrite (reference_offset rf u v x e R). }
        rewrite SP, read_attrs. unfold given_name, given_optional_type. rewrite !given_app. split.
        + destruct N as [(LK & N)|(LK & N)]; [|now apply name_over]. rewrite name_kept by exact LK.
          rewrite <- (read_attrs rf u d). now apply named_is.
        + destruct T as [(LK & T)|(LK & T)].
          * rewrite type_kept by exact LK. now apply type_over.
          * destruct T as [L'|w t G T]; [now destruct LK|]. apply (type_over x (rd_attrs e) (Some t)); [exact Ix|econstructor; eassumption|discriminate]. }
    destruct X as (X1 & X2). split; [exact X1|]. split; [exact X2|]. repeat split.
    - apply (expression_at u 0x02 _ _ (fun v => ALocation (raw_place u v))); [exact L|cbn; tauto|reflexivity|attribute_table|reflexivity].
    - apply (expression_read u [0x7e; 0x2111]); [exact V| |attribute_table|reflexivity]. intros m ps ops. repeat constructor.
    - apply (expression_at u 0x85 _ _ (fun v => ACallDataLocation (raw_ops v))); [exact DL|cbn; tauto|reflexivity|attribute_table|reflexivity].
    - apply (expression_at u 0x86 _ _ (fun v => ACallDataValue (raw_ops v))); [exact DV|cbn; tauto|reflexivity|attribute_table|reflexivity].
  Qed.

  (** ** What is called *)

  Definition origin_words (x : option site_origin) : text :=
    match x with
    | None => []
    | Some (Direct f) => txt " -> " ++ function_name f
    | Some (ByVariable v) => txt " -> indirect(global:" ++ name_or "<unknown>" (va_name v) ++ txt ")"
    | Some (ByLocal _) => txt " -> indirect(local variable)"
    | Some (ByParameter _) => txt " -> indirect(parameter)"
    | Some (ByMember _) => txt " -> indirect(member)"
    end.
  Lemma call_origin_given sp l : attr_call_origin sp h l =
    given (fun a => match a with ACallOrigin (Some o) | AAbstractOrigin (Some o) => option_map Some (call_origin sp h o) | _ => None end) l None.
  Proof. unfold attr_call_origin. apply scan_given. intros [] y; try reflexivity; destruct v as [o|]; try reflexivity; now destruct (call_origin sp h o). Qed.
  Lemma found_placed x t d : In x (rf_units rf) -> found (ui_children (read_unit rf x)) t d -> t = TagNamespace ->
    exists e path, d = read_die rf x e /\ placed rf x false path e.
  Proof.
    intros Ix H. induction H as [d J|t d c H IH LI J]; intros E.
    - assert (EC : ui_children (read_unit rf x) = map (read_die rf x) (rd_children (ru_root x))) by reflexivity.
      rewrite EC in J. apply in_map_iff in J. destruct J as (e & <- & J). exists e, []. split; [reflexivity|now constructor].
    - assert (t = TagNamespace) as ET by (destruct LI; try discriminate E; assumption). destruct (IH ET) as (e & path & -> & P).
      rewrite read_children in J. apply in_map_iff in J. destruct J as (e' & <- & J).
      destruct (C89_name rf x e) as (N & _). rewrite read_tag_of in E.
      exists e', (path ++ [given_name (die_attrs (read_die rf x e))]). split; [reflexivity|].
      apply (pl_namespace rf x path e _ e' P); [|exact N|exact J]. exact (proj1 (tag_iff 0x39 TagNamespace eq_refl eq_refl _) E).
  Qed.
  Lemma variable_placed x e : In x (rf_units rf) -> In e (raw_below x) -> rd_tag e = 0x34 ->
    has_variable (unit_context ob (read_unit rf x)) (ui_children (read_unit rf x)) (read_die rf x e) -> exists path, placed rf x false path e.
  Proof.
    intros Ix J T HV. assert (TV : die_tag (read_die rf x e) = TagVariable) by now rewrite read_tag_of, T.
    assert (VE : exists o, variable_entry (unit_context ob (read_unit rf x)) (ui_children (read_unit rf x)) (read_die rf x e) o) by (destruct HV; eauto).
    destruct VE as (o & VE).
    assert (F : found (ui_children (read_unit rf x)) TagNamespace (read_die rf x e)).
    { destruct VE; [assumption|..]; match goal with H : static_member _ |- _ => destruct H as (TM & _); rewrite TM in TV; discriminate end. }
    destruct (found_placed x _ _ Ix F eq_refl) as (e' & path & E & P). exists path.
    assert (e' = e) as <-; [|exact P].
    destruct (place_unique rf WF x e' x e Ix (placed_below rf x _ _ _ P) Ix J) as (_ & ->); [|reflexivity].
    unfold place. rewrite <- !(read_offset rf x). now rewrite E.
  Qed.
  Lemma called_read u attrs t : In u (rf_units rf) -> called_by rf u attrs t ->
    origin_words (attr_call_origin (entry_space ob) h (map (read_attr rf u) attrs)) = t.
  Proof.
    intros I H. rewrite call_origin_given. pose proof (C88_well_formed rf ob WF RD) as OW.
    match goal with |- context [given ?p] => set (pick := p) end.
    assert (PF : Forall (fun p => In (fst p) [0x7f; 0x31] \/ forall v, pick (snd p v) = None) (attribute_table rf u)) by (unfold pick; attribute_table).
    assert (Y : forall v x e r, one_of [0x7f; 0x31] attrs (Some v) -> refers rf u v x e -> call_origin (entry_space ob) h (spot_in x e) = r ->
      given pick (map (read_attr rf u) attrs) None = r).
    { intros v x e r O R E. rewrite (given_by rf u pick _ _ (Some v) (option_map Some r) None O); [now destruct r| |exact PF|reflexivity].
      intros w [= <-]. repeat constructor;
        [rewrite (read_attr_at rf u 0x7f (fun v => ACallOrigin (info_offset u v)) v) by (cbn; tauto)
        |rewrite (read_attr_at rf u 0x31 (fun v => AAbstractOrigin (info_offset u v)) v) by (cbn; tauto)];
        unfold pick; rewrite (reference_offset rf u v x e R); fold (spot_in x e); now rewrite E. }
    assert (Z : forall x e, In x (rf_units rf) -> In e (raw_below x) -> entry_space ob (spot_in x e) = Some (reading_of rf x, read_die rf x e) /\
      (spot_in x e =? type_offset_none) = false /\ die_tag (read_die rf x e) = read_tag (rd_tag e)).
    { intros x e Ix J. destruct (space_at x e Ix J) as (SP & NE). split; [exact SP|]. split; [now apply N.eqb_neq|apply read_tag_of]. }
    destruct H as [N|v x e y O R GF|v x e y O R T GV NS|v x e O R J T NP|v x e O R J T|v x e O R J T|v x e O R J T].
    - now rewrite (given_by rf u pick _ _ None None None N ltac:(discriminate) PF (fun _ => eq_refl)).
    - pose proof (refers_unit u v x e I R) as Ix.
      assert (PB : In e (raw_below x) /\ rd_tag e = 0x2e) by (destruct GF; split; try assumption; eapply placed_below; eassumption). destruct PB as (J & T).
      destruct (Z x e Ix J) as (SP & NE & TG). destruct (function_given rf ob WF AC RD x Ix e y GF) as (g & D & HD).
      unfold function_holds in HD. destruct HD as (HO & PO & TX & HN & _).
      destruct (function_indexed choice ob OW (read_unit rf x) _ g (unit_in rf ob RD x Ix) D) as (f & E & FF).
      rewrite (Y v x e (Some (Direct f)) O R).
      + cbn [origin_words]. f_equal. unfold function_name, function_words. destruct FF as (_ & E1 & E2 & _). now rewrite E1, E2, HN, <- TX.
      + unfold call_origin. rewrite SP, TG, T. change (read_tag 0x2e) with TagSubprogram. cbv iota. rewrite NE. unfold spot_in. rewrite <- HO. now rewrite E.
    - pose proof (refers_unit u v x e I R) as Ix.
      assert (J : In e (raw_below x)) by (destruct GV; eapply placed_below; eassumption).
      destruct (Z x e Ix J) as (SP & NE & TG). destruct (variable_given rf ob x e y WF AC RD Ix GV) as (g & D & HD).
      destruct HD as (HO & _ & _ & HN & _).
      destruct (variable_indexed choice ob OW (read_unit rf x) _ g (unit_in rf ob RD x Ix) (statics_none rf ob x RD NS) D (below_in rf x e J)) as (w & E & FF);
        [now rewrite read_offset|].
      rewrite (Y v x e (Some (ByVariable w)) O R).
      + cbn [origin_words]. destruct FF as (_ & _ & E2 & _). now rewrite E2, HN.
      + unfold call_origin. rewrite SP, TG, T. change (read_tag 0x34) with TagVariable. cbv iota. rewrite NE. unfold spot_in. rewrite <- HO. now rewrite E.
    - pose proof (refers_unit u v x e I R) as Ix. destruct (Z x e Ix J) as (SP & NE & TG).
      rewrite (Y v x e (Some (ByLocal (spot_in x e))) O R); [reflexivity|].
      unfold call_origin. rewrite SP, TG, T. change (read_tag 0x34) with TagVariable. cbv iota. rewrite NE.
      pose proof (variable_not_indexed choice ob OW (read_unit rf x) (read_die rf x e) (unit_in rf ob RD x Ix) (below_in rf x e J)) as NI.
      rewrite read_offset in NI. fold (spot_in x e) in NI. rewrite NI; [reflexivity|].
      intros HV. destruct (variable_placed x e Ix J T HV) as (path & P). exact (NP path P).
    - pose proof (refers_unit u v x e I R) as Ix. destruct (Z x e Ix J) as (SP & NE & TG).
      rewrite (Y v x e (Some (ByParameter (spot_in x e))) O R); [reflexivity|]. unfold call_origin. now rewrite SP, TG, T.
    - pose proof (refers_unit u v x e I R) as Ix. destruct (Z x e Ix J) as (SP & NE & TG).
      rewrite (Y v x e (Some (ByMember (spot_in x e))) O R); [reflexivity|]. unfold call_origin. now rewrite SP, TG, T.
    - pose proof (refers_unit u v x e I R) as Ix. destruct (Z x e Ix J) as (SP & NE & TG).
      rewrite (Y v x e None O R); [reflexivity|]. unfold call_origin. rewrite SP, TG.
      pose proof (proj1 (tag_iff 0x2e TagSubprogram eq_refl eq_refl (rd_tag e))) as T1. pose proof (proj1 (tag_iff 0x34 TagVariable eq_refl eq_refl (rd_tag e))) as T2.
      pose proof (proj1 (tag_iff 0x05 TagParameter eq_refl eq_refl (rd_tag e))) as T3. pose proof (proj1 (tag_iff 0x0d TagMember eq_refl eq_refl (rd_tag e))) as T4.
      destruct (read_tag (rd_tag e)); try reflexivity; exfalso; apply T; cbn; [rewrite T1|rewrite T2|rewrite T3|rewrite T4]; tauto.
  Qed.

  (** ** Calls *)

  Definition site_like (s : site) (q : raw_site) : Prop :=
    si_kind s = (if ct_tail q then TailCall else NormalCall) /\ si_call_address s = ct_call q /\ si_return_address s = ct_return q /\
    origin_words (si_origin s) = ct_called q /\ words_of (si_target s) = ct_target q /\ si_source s = ct_source q /\
    Forall2 argument_like (si_arguments s) (ct_arguments q).
  Lemma address_read u codes attrs a (pick : attr -> option (option N)) : address_by u codes attrs a ->
    (forall v a, attr_address u v = Some a -> Forall (fun c => pick (read_attr rf u (c, v)) = Some (Some a)) codes) ->
    Forall (fun p => In (fst p) codes \/ forall v, pick (snd p v) = None) (attribute_table rf u) -> (forall n, pick (AOther n) = None) ->
    given pick (map (read_attr rf u) attrs) None = a.
  Proof.
    intros H E F O. destruct H as [N|v a N A].
    - rewrite (given_by rf u pick codes attrs None None None N); [reflexivity|discriminate|exact F|exact O].
    - rewrite (given_by rf u pick codes attrs (Some v) (Some (Some a)) None N); [reflexivity| |exact F|exact O].
      intros w [= <-]. apply E. now apply attr_address_iff.
  Qed.
  Lemma tail_read u attrs tail : (tail = false <-> lacks 0x82 attrs /\ lacks 0x2115 attrs) ->
    existsb (fun a => match a with ACallTail => true | _ => false end) (map (read_attr rf u) attrs) = tail.
  Proof.
    intros H. destruct tail.
    - apply existsb_exists. assert (X : In 0x82 (map fst attrs) \/ In 0x2115 (map fst attrs)).
      { destruct (in_dec N.eq_dec 0x82 (map fst attrs)) as [J|J]; [now left|]. destruct (in_dec N.eq_dec 0x2115 (map fst attrs)) as [K|K]; [now right|].
        destruct H as (_ & H). discriminate H. now split. }
      destruct X as [X|X]; apply in_map_iff in X; destruct X as ((c, v) & E & J); cbn [fst] in E; subst c; eexists; (split; [apply in_map, J|]).
      + now rewrite (read_attr_at rf u 0x82 (fun _ => ACallTail) v) by (cbn; tauto).
      + now rewrite (read_attr_at rf u 0x2115 (fun _ => ACallTail) v) by (cbn; tauto).
    - apply not_true_is_false. intros X. apply existsb_exists in X. destruct X as (b & J & E). apply in_map_iff in J. destruct J as (a & <- & J).
      destruct (proj1 H eq_refl) as (L1 & L2). apply (in_map fst) in J.
      assert (Q : (match read_attr rf u a with ACallTail => Some tt | _ => None end) = None).
      { apply (read_attr_other rf u (fun a => match a with ACallTail => Some tt | _ => None end) [0x82; 0x2115]); [attribute_table|reflexivity|].
        intros [K|[K|[]]]; [apply L1|apply L2]; now rewrite K. }
      destruct (read_attr rf u a); discriminate.
  Qed.
  Lemma site_read u d q : In u (rf_units rf) -> gives_site rf u d q ->
    site_like (site_of (item_call (entry_space ob) h (reading_of rf u) (read_die rf u d))) q.
  Proof.
    intros I [tail call return_ words target s arguments TG TL CA RA CB TE SO AR].
    unfold item_call, parse_call_site. rewrite attr_call_kind_given, attr_return_address_given, attr_call_address_given, attr_pieces_given.
    rewrite (call_source_is rf u d s SO), !read_attrs.
    unfold site_like. cbn [site_of si_kind si_call_address si_return_address si_origin si_target si_source si_arguments cs_kind cs_return_address cs_call_address cs_origin cs_target cs_source cs_parameters
      ct_tail ct_call ct_return ct_called ct_target ct_source ct_arguments].
    split; [now rewrite (tail_read u _ tail TL)|]. split; [|split; [|split; [|split; [|split; [reflexivity|]]]]].
    - apply (address_read u [0x81]); [exact CA| |attribute_table|reflexivity]. intros v a E. repeat constructor.
      now rewrite (read_attr_at rf u 0x81 (fun v => ACallPc (attr_address u v)) v), E by (cbn; tauto).
    - rewrite read_tag_of. destruct TG as [TG|[TG|[]]]; rewrite <- TG in *.
      + change (0x48 =? 0x4109) with false in RA. cbv iota in RA. apply (address_read u [0x7d]); [exact RA| | |reflexivity].
        * intros v a E. repeat constructor. now rewrite (read_attr_at rf u 0x7d (fun v => ACallReturnPc (attr_address u v)) v), E by (cbn; tauto).
        * change (read_tag 0x48) with (TagCallSite false). cbv iota. unfold attribute_table.
          repeat (apply Forall_cons; [first [right; intros w; reflexivity|right; intros w; destruct w as [ | | [] | | | | | | | | | | | | | | | | | | ]; reflexivity
            |left; cbn; tauto|right; intros w; cbn [snd]; now destruct (attr_address u w)]|]). apply Forall_nil.
      + change (0x4109 =? 0x4109) with true in RA. cbv iota in RA. apply (address_read u [0x7d; 0x11]); [exact RA| | |reflexivity].
        * change (read_tag 0x4109) with (TagCallSite true). intros v a E. repeat constructor.
          -- now rewrite (read_attr_at rf u 0x7d (fun v => ACallReturnPc (attr_address u v)) v), E by (cbn; tauto).
          -- now rewrite (read_attr_at rf u 0x11 (fun v => ALowPc (attr_address u v)) v), E by (cbn; tauto).
        * attribute_table.
    - now apply called_read.
    - apply (expression_read u [0x83; 0x84; 0x2113; 0x2114]); [exact TE| |attribute_table|reflexivity]. intros m ps ops. repeat constructor.
    - rewrite read_children.
      assert (CP : forall l, call_parameters (entry_space ob) (reading_of rf u) (map (read_die rf u) l) =
        map (fun c => argument_of (entry_space ob) (reading_of rf u) (read_die rf u c)) (filter (fun c => (rd_tag c =? 0x49) || (rd_tag c =? 0x410a)) l)).
      { induction l as [|c l IH]; [reflexivity|]. unfold call_parameters in *. cbn [map flat_map filter]. rewrite IH. rewrite <- argument_tag, <- (read_tag_of rf u c).
        destruct (read_die rf u c) as [t o a k] eqn:E. cbn [die_tag].
        destruct t; try reflexivity. cbn [map app]. f_equal. rewrite E. apply argument_ok. }
      rewrite CP. fold (argument_entries d). clear CP. induction AR as [|c y l ys G AR IH]; cbn [map]; constructor; [now apply argument_read|exact IH].
  Qed.

  (** ** Their lines *)

  Lemma pieces_words i label l ts : words_of l = ts -> pieces_shown sc i label l = words_lines i label ts.
  Proof. intros <-. unfold pieces_shown, words_lines, words_of. f_equal. rewrite !flat_map_concat_map, map_map. reflexivity. Qed.
  Lemma argument_same o i a q : argument_like a q -> argument_shown o sc i a = argument_lines o i q.
  Proof.
    intros (N & T & L & V & DL & DV). unfold argument_shown, argument_lines. rewrite N, T.
    rewrite (pieces_words _ _ _ _ L), (pieces_words _ _ _ _ V), (pieces_words _ _ _ _ DL), (pieces_words _ _ _ _ DV). reflexivity.
  Qed.
  Lemma site_same o dir i s q : site_like s q -> site_shown o sc dir i s = site_lines o dir i q.
  Proof.
    intros (K & C & R & W & T & S & A). unfold site_shown, site_lines.
    rewrite K, C, R, <- W, S, (pieces_words _ _ _ _ T). f_equal; [now destruct (ct_tail q)|]. do 3 f_equal. f_equal.
    induction A as [|a b l k H A IH]; [reflexivity|]. cbn [flat_map]. f_equal; [now apply argument_same|exact IH].
  Qed.
  Lemma sites_same o dir i l qs : Forall2 site_like l qs -> flat_map (site_shown o sc dir i) l = flat_map (site_lines o dir i) qs.
  Proof. induction 1 as [|a b l k H A IH]; [reflexivity|]. cbn [flat_map]. f_equal; [now apply site_same|exact IH]. Qed.
End Sites.
