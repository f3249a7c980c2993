(** Proofs about a whole run over two files: the items of the units that were loaded. *)
From Coq Require Import List Arith NArith ZArith Bool String Lia Permutation Sorting.Sorted.
From Verif Require Import Base BaseProofs RangeModel NamespaceModel TypeModel TypeSpec FileModel FileSpec FileProofs SymbolProofs FilterModel FilterSpec
  DiffModel PrintModel PrintSpec RefModel ItemModel ItemSpec OptionsModel EntryModel EntrySpec ReportModel ReportSpec
  PropertiesListing PropertiesReport DieModel MemberSpec PropertiesDie DieProofs DieSpec WholeModel WholeSpec WholeProofs WholeDepth WholeShown PairSpec.
Import ListNotations.

Lemma Forall2_long {A B} (R : A -> B -> Prop) l m : Forall2 R l m -> List.length l = List.length m.
Proof. induction 1; cbn; congruence. Qed.
Lemma same_unit_name given u v u' v' : un_name u = un_name u' -> un_name v = un_name v' -> same_unit given u v -> same_unit given u' v'.
Proof. intros A B. unfold same_unit, match_path. now rewrite A, B. Qed.
Lemma same_unit_sym given u v : same_unit given u v -> same_unit given v u.
Proof. intros (p & A & B). exists p. auto. Qed.
Lemma same_place_sym m s n t : same_place m s n t -> same_place n t m s.
Proof. intros ((p & A & B) & C). split; [exists p; auto|auto]. Qed.

Section Loaded.
  Variable choice : N -> nat.
  Variable ob : object_input.
  Hypothesis WF : well_formed ob.
  Local Notation symbols := (parse_symbols (ob_symbols ob)).
  Local Notation base u := (unit_base u).

  Lemma loaded_all : exists us st unk,
    loaded_units choice ob = (us ++ [st; unk])%list /\ Forall2 (fun u w => loaded_unit symbols (unit_of ob u) w) (ob_units ob) us /\
    un_name st = Some "<symtab>"%string /\ un_types st = [] /\ un_name unk = Some "<unknown>"%string /\
    un_types unk = [] /\ un_functions unk = [] /\ un_variables unk = [].
  Proof.
    destruct (loaded_split choice ob) as (us & st & unk & E & F). exists us, st, unk. split; [exact E|].
    assert (F' : Forall2 (fun u w => loaded_unit symbols (unit_of ob u) w) (ob_units ob) us).
    { revert F. unfold parsed_units. clear. generalize (ob_units ob). intros l. revert us. induction l as [|x l IH]; intros us H; inversion H; subst; constructor; auto. }
    split; [exact F'|]. clear F F'.
    unfold loaded_units, loaded in E. rewrite normalize_eq in E. cbn [fl_units file_read fl_symbols] in E.
    rewrite <- app_assoc in E. cbn [app] in E.
    match type of E with (_ ++ [?x; ?y])%list = _ => assert (H : [x; y] = [st; unk]) end.
    { match type of E with (?l ++ ?p)%list = (?l' ++ ?q)%list => change [st; unk] with q;
        assert (R : rev (l ++ p) = rev (l' ++ q)) by now rewrite E end.
      rewrite !rev_app_distr in R. cbn [rev app] in R. injection R as R1 R2 _. now rewrite <- R1, <- R2. }
    injection H as <- <-. rewrite symtab_unit_spec. repeat split.
  Qed.
  Lemma loaded_name u w : loaded_unit symbols (unit_of ob u) w -> un_name w = un_name (head_of u).
  Proof. intros (N & _). rewrite N. cbn [unit_of un_name head_of]. apply attr_name_given. Qed.
  Lemma loaded_in w : In w (loaded_units choice ob) ->
    (exists i u, nth_error (ob_units ob) i = Some u /\ nth_error (loaded_units choice ob) i = Some w /\ loaded_unit symbols (unit_of ob u) w) \/
    un_name w = Some "<symtab>"%string /\ un_types w = [] \/
    un_name w = Some "<unknown>"%string /\ un_types w = [] /\ un_functions w = [] /\ un_variables w = [].
  Proof.
    destruct loaded_all as (us & st & unk & E & F & A). rewrite E. intros I. apply in_app_iff in I. destruct I as [I|[<-|[<-|[]]]]; [|tauto|tauto].
    left. apply In_nth_error in I. destruct I as (i & Ei). exists i.
    destruct (nth_error (ob_units ob) i) as [u|] eqn:Eu.
    - exists u. destruct (Forall2_nth _ _ _ F i u Eu) as (w' & Ew & L). rewrite Ei in Ew. injection Ew as <-. split; [reflexivity|].
      split; [|exact L]. rewrite nth_error_app1; [exact Ei|]. apply nth_error_Some. congruence.
    - exfalso. apply nth_error_None in Eu. assert (i < List.length us) by (apply nth_error_Some; congruence).
      apply Forall2_long in F. lia.
  Qed.
  (** The units that are not [u]. *)
  Lemma loaded_rest given l1 u l2 v : ob_units ob = (l1 ++ u :: l2)%list ->
    (forall z, In z (l1 ++ l2) -> ~ same_unit given (head_of z) v) -> ~ same_unit given symtab_head v -> ~ same_unit given unknown_head v ->
    exists w m1 m2, loaded_units choice ob = (m1 ++ w :: m2)%list /\ List.length m1 = List.length l1 /\
      loaded_unit symbols (unit_of ob u) w /\ forall z, In z (m1 ++ m2) -> ~ same_unit given z v.
  Proof.
    intros EU UQ NS NU. destruct loaded_all as (us & st & unk & -> & F & SN & _ & UN & _). rewrite EU in F.
    apply Forall2_app_inv_l in F. destruct F as (m1 & m2 & F1 & F2 & ->). inversion F2 as [|? w ? m2' L F2']; subst.
    exists w, m1, (m2' ++ [st; unk])%list. split; [now rewrite <- app_assoc|].
    split; [symmetry; now apply Forall2_long in F1|]. split; [exact L|]. intros z I S.
    assert (C : forall l m, Forall2 (fun u w => loaded_unit symbols (unit_of ob u) w) l m -> (forall x, In x l -> In x (l1 ++ l2)) -> In z m -> False).
    { intros l m F H J. destruct (Forall2_in_r _ _ _ z F J) as (x & Ix & Lx). apply (UQ x (H x Ix)).
      refine (same_unit_name given z v (head_of x) v _ eq_refl S). now apply loaded_name. }
    apply in_app_iff in I. destruct I as [I|I].
    - apply (C l1 m1); auto. intros. apply in_app_iff; auto.
    - apply in_app_iff in I. destruct I as [I|[<-|[<-|[]]]].
      + apply (C l2 m2'); auto. intros. apply in_app_iff; auto.
      + apply NS. exact (same_unit_name given st v symtab_head v SN eq_refl S).
      + apply NU. exact (same_unit_name given unk v unknown_head v UN eq_refl S).
  Qed.

  (** ** Functions *)

  Lemma functions_for u w : loaded_unit symbols (unit_of ob u) w -> Forall2 (function_for symbols) (ws_functions (unit_items ob u)) (un_functions w).
  Proof. intros (_ & _ & _ & F & _). apply (Forall2_unmap _ _ _ _ _ (function_for_loaded ob)), F. Qed.
  Lemma described_in u w d g : In u (ob_units ob) -> loaded_unit symbols (unit_of ob u) w -> describes (base u) (ui_children u) d g ->
    exists f, In f (un_functions w) /\ function_for symbols g f /\ In g (ws_functions (unit_items ob u)).
  Proof.
    intros Iu L D. pose proof (C35_resolved (unit_context ob u) (ui_children u) _ d g (unit_distinct ob WF u Iu) (items_read ob u) D) as J.
    destruct (Forall2_in_l _ _ _ g (functions_for u w L) J) as (f & If & FF). eauto.
  Qed.
  Lemma function_origin u w y : In u (ob_units ob) -> loaded_unit symbols (unit_of ob u) w -> In y (un_functions w) ->
    exists g outer d, In g (ws_functions (unit_items ob u)) /\ function_for symbols g y /\
      found (ui_children u) outer d /\ die_tag d = TagSubprogram /\ fu_offset g = die_offset d /\
      (given_name (die_attrs d) <> None -> fu_name g = given_name (die_attrs d)) /\
      forall h, describes (base u) (ui_children u) d h -> h = g.
  Proof.
    intros Iu L I. destruct (Forall2_in_r _ _ _ y (functions_for u w L) I) as (g & Ig & FF).
    pose proof (unit_distinct ob WF u Iu) as UD. pose proof (items_read ob u) as IR.
    destruct (C35_own _ _ _ g UD IR Ig) as (outer & d & A & B & C & _ & _ & _ & M & _). exists g, outer, d. do 6 (split; [assumption|]).
    intros h D. pose proof (C35_resolved _ _ _ d h UD IR D) as J. destruct (C35_kept _ _ _ UD IR) as (SS & _).
    apply (NoDup_map_eq fu_offset _ _ _ (StronglySorted_lt_NoDup _ SS)); auto. rewrite C. now inversion D.
  Qed.
  Lemma functions_same sa ga fa gb fb : function_for sa ga fa -> function_for symbols gb fb -> same_function fa fb -> functions_match ga gb.
  Proof.
    intros (_ & A & B & _) (_ & C & D & _) ((p & n) & (E & F) & (G & H)). cbn [fst snd] in *. unfold functions_match, same_place.
    rewrite <- A, <- B, <- C, <- D. split; [eauto|congruence].
  Qed.
  Lemma functions_same' sa ga fa gb fb : function_for sa ga fa -> function_for symbols gb fb -> functions_match ga gb -> same_function fa fb.
  Proof.
    intros (_ & A & B & _) (_ & C & D & _) ((p & E & F) & G). exists (p, fu_name ga). unfold function_identity. cbn [fst snd].
    rewrite A, B, C, D. auto.
  Qed.
  Lemma lacking_functions o given u wn sa g f :
    nowhere given ob u (fun v => no_function o v None g) -> function_for sa g f -> un_name wn = un_name (head_of u) ->
    forall v y, In v (loaded_units choice ob) -> same_unit given wn v -> In y (un_functions v) -> function_listed o y -> ~ same_function f y.
  Proof.
    intros (NS & NW) FF WN v y Iv SU Iy LY SF. destruct (loaded_in v Iv) as [(i & x & Ex & Ev & L)|[(N & _)|(N & _ & N' & _)]].
    - assert (Ix : In x (ob_units ob)) by now apply nth_error_In in Ex.
      destruct (function_origin x v y Ix L Iy) as (h & outer & d & Ih & Fh & A & B & C & M & U). pose proof (functions_same sa g f h y FF Fh SF) as FM.
      destruct (NW x Ix (same_unit_name _ _ _ _ _ WN (loaded_name x v L) SU) outer d A B) as [(h' & D & NM)|(GN & NM)]; [discriminate| |].
      + rewrite (U h' D) in NM. destruct NM as [NM|NM]; [exact (NM FM)|]. apply NM. exact (proj1 (wanted_function ob o h y Fh) LY).
      + destruct FM as (_ & E). rewrite E in NM. apply NM. symmetry. exact (M GN).
    - apply NS. exact (same_unit_name _ _ _ _ symtab_head WN N SU).
    - rewrite N' in Iy. destruct Iy.
  Qed.
  Lemma function_alone o u w sa g f h y : In u (ob_units ob) -> loaded_unit symbols (unit_of ob u) w -> no_function o u (Some (fu_offset h)) g ->
    function_for sa g f -> function_for symbols h y -> In y (un_functions w) ->
    exists m1 m2, un_functions w = (m1 ++ y :: m2)%list /\ forall z, In z (m1 ++ m2) -> function_listed o z -> ~ same_function f z.
  Proof.
    intros Iu L NF FF Fh Iy. apply in_split in Iy. destruct Iy as (m1 & m2 & E). exists m1, m2. split; [exact E|]. intros z I LZ SF.
    assert (Iz : In z (un_functions w)) by (rewrite E; apply in_app_iff in I; apply in_app_iff; cbn; tauto).
    destruct (function_origin u w z Iu L Iz) as (k & outer & d & Ik & Fk & A & B & C & M & U). pose proof (functions_same sa g f k z FF Fk SF) as FM.
    destruct (NF outer d A B) as [(k' & D & NM)|(GN & NM)].
    - intros [= X].
      assert (ND : NoDup (map fn_offset (un_functions w))).
      { rewrite <- (Forall2_map_eq fu_offset fn_offset _ _ _ (fun b a H => eq_sym (proj1 H)) (functions_for u w L)).
        apply StronglySorted_lt_NoDup. exact (proj1 (C35_kept _ _ _ (unit_distinct ob WF u Iu) (items_read ob u))). }
      rewrite E, map_app in ND. cbn [map] in ND. apply NoDup_remove_2 in ND. apply ND. rewrite <- map_app.
      destruct Fh as (-> & _). rewrite <- X, <- C. destruct Fk as (<- & _). now apply in_map.
    - rewrite (U k' D) in NM. destruct NM as [NM|NM]; [exact (NM FM)|]. apply NM. exact (proj1 (wanted_function ob o k z Fk) LZ).
    - destruct FM as (_ & EN). rewrite EN in NM. apply NM. symmetry. exact (M GN).
  Qed.

  (** ** Variables *)

  Lemma variables_for u w : loaded_unit symbols (unit_of ob u) w -> Forall2 (variable_for symbols) (ws_variables (unit_items ob u)) (un_variables w).
  Proof. intros (_ & _ & _ & _ & F). apply (Forall2_unmap _ _ _ _ _ (variable_for_loaded ob)), F. Qed.
  Lemma variable_described_in u w d g : In u (ob_units ob) -> loaded_unit symbols (unit_of ob u) w -> no_rust_statics (unit_context ob u) ->
    describes_variable (base u) (ui_children u) d g ->
    exists f, In f (un_variables w) /\ variable_for symbols g f /\ In g (ws_variables (unit_items ob u)).
  Proof.
    intros Iu L NR D. pose proof (C36_resolved (unit_context ob u) (ui_children u) _ d g (unit_distinct ob WF u Iu) NR (items_read ob u) D) as J.
    destruct (Forall2_in_l _ _ _ g (variables_for u w L) J) as (f & If & FF). eauto.
  Qed.
  Lemma unit_tree u o e : cx_tree (unit_context ob u) o = Some e -> In e (flat_map entries (ui_children u)).
  Proof. cbn [unit_context cx_tree]. intros E. now apply find_dies_sound in E. Qed.
  Lemma variable_origin u w y : In u (ob_units ob) -> loaded_unit symbols (unit_of ob u) w -> In y (un_variables w) ->
    exists g d, In g (ws_variables (unit_items ob u)) /\ variable_for symbols g y /\
      has_variable (unit_context ob u) (ui_children u) d /\ vr_offset g = die_offset d /\
      (given_name (die_attrs d) <> None -> vr_name g = given_name (die_attrs d)) /\
      (no_rust_statics (unit_context ob u) -> forall h, describes_variable (base u) (ui_children u) d h -> h = g).
  Proof.
    intros Iu L I. destruct (Forall2_in_r _ _ _ y (variables_for u w L) I) as (g & Ig & FF).
    pose proof (unit_distinct ob WF u Iu) as UD. pose proof (items_read ob u) as IR.
    destruct (C36_own _ _ _ g (unit_tree u) UD IR Ig) as (d & A & B & _ & _ & _ & _ & M & _). exists g, d. do 5 (split; [assumption|]).
    intros NR h D. pose proof (C36_resolved _ _ _ d h UD NR IR D) as J. destruct (C36_kept _ _ _ UD IR) as (SS & _).
    apply (NoDup_map_eq vr_offset _ _ _ (StronglySorted_lt_NoDup _ SS)); auto. rewrite B. now inversion D.
  Qed.
  Lemma variables_same sa ga fa gb fb : variable_for sa ga fa -> variable_for symbols gb fb -> same_variable fa fb -> variables_match ga gb.
  Proof.
    intros (_ & A & B & _) (_ & C & D & _) ((p & n) & (E & F) & (G & H)). cbn [fst snd] in *. unfold variables_match, same_place.
    rewrite <- A, <- B, <- C, <- D. split; [eauto|congruence].
  Qed.
  Lemma variables_same' sa ga fa gb fb : variable_for sa ga fa -> variable_for symbols gb fb -> variables_match ga gb -> same_variable fa fb.
  Proof.
    intros (_ & A & B & _) (_ & C & D & _) ((p & E & F) & G). exists (p, vr_name ga). unfold variable_identity. cbn [fst snd].
    rewrite A, B, C, D. auto.
  Qed.
  Lemma lacking_variables o given u wn sa g f :
    nowhere given ob u (fun v => no_variable o ob v None g) -> variable_for sa g f -> un_name wn = un_name (head_of u) ->
    forall v y, In v (loaded_units choice ob) -> same_unit given wn v -> In y (un_variables v) -> variable_listed o y -> ~ same_variable f y.
  Proof.
    intros (NS & NW) FF WN v y Iv SU Iy LY SF. destruct (loaded_in v Iv) as [(i & x & Ex & Ev & L)|[(N & _)|(N & _ & _ & N')]].
    - assert (Ix : In x (ob_units ob)) by now apply nth_error_In in Ex.
      destruct (variable_origin x v y Ix L Iy) as (h & d & Ih & Fh & A & C & M & U). pose proof (variables_same sa g f h y FF Fh SF) as FM.
      destruct (NW x Ix (same_unit_name _ _ _ _ _ WN (loaded_name x v L) SU) d A) as [(NR & h' & D & NM)|(GN & NM)]; [discriminate| |].
      + rewrite (U NR h' D) in NM. destruct NM as [NM|NM]; [exact (NM FM)|]. apply NM. exact (proj1 (wanted_variable ob o h y Fh) LY).
      + destruct FM as (_ & E). rewrite E in NM. apply NM. symmetry. exact (M GN).
    - apply NS. exact (same_unit_name _ _ _ _ symtab_head WN N SU).
    - rewrite N' in Iy. destruct Iy.
  Qed.
  Lemma variable_alone o u w sa g f h y : In u (ob_units ob) -> loaded_unit symbols (unit_of ob u) w -> no_variable o ob u (Some (vr_offset h)) g ->
    variable_for sa g f -> variable_for symbols h y -> In y (un_variables w) ->
    exists m1 m2, un_variables w = (m1 ++ y :: m2)%list /\ forall z, In z (m1 ++ m2) -> variable_listed o z -> ~ same_variable f z.
  Proof.
    intros Iu L NF FF Fh Iy. apply in_split in Iy. destruct Iy as (m1 & m2 & E). exists m1, m2. split; [exact E|]. intros z I LZ SF.
    assert (Iz : In z (un_variables w)) by (rewrite E; apply in_app_iff in I; apply in_app_iff; cbn; tauto).
    destruct (variable_origin u w z Iu L Iz) as (k & d & Ik & Fk & A & C & M & U). pose proof (variables_same sa g f k z FF Fk SF) as FM.
    destruct (NF d A) as [(NR & k' & D & NM)|(GN & NM)].
    - intros [= X].
      assert (ND : NoDup (map va_offset (un_variables w))).
      { rewrite <- (Forall2_map_eq vr_offset va_offset _ _ _ (fun b a H => eq_sym (proj1 H)) (variables_for u w L)).
        apply StronglySorted_lt_NoDup. exact (proj1 (C36_kept _ _ _ (unit_distinct ob WF u Iu) (items_read ob u))). }
      rewrite E, map_app in ND. cbn [map] in ND. apply NoDup_remove_2 in ND. apply ND. rewrite <- map_app.
      destruct Fh as (-> & _). rewrite <- X, <- C. destruct Fk as (<- & _). now apply in_map.
    - rewrite (U NR k' D) in NM. destruct NM as [NM|NM]; [exact (NM FM)|]. apply NM. exact (proj1 (wanted_variable ob o k z Fk) LZ).
    - destruct FM as (_ & EN). rewrite EN in NM. apply NM. symmetry. exact (M GN).
  Qed.

  (** ** Types *)

  Lemma types_for u w : loaded_unit symbols (unit_of ob u) w -> un_types w = ws_types (unit_items ob u).
  Proof. intros (_ & _ & T & _). exact T. Qed.
  Lemma type_origin u w y : In u (ob_units ob) -> loaded_unit symbols (unit_of ob u) w -> In y (un_types w) ->
    exists outer d, found (ui_children u) outer d /\ outer <> TagEnumeration /\ is_type_tag (die_tag d) = true /\ t_offset y = die_offset d /\
      (exists ns, describes_type (unit_context ob u) ns d (t_kind y)) /\
      forall outer' ns, outer' <> TagEnumeration -> located (base u) (ui_children u) outer' ns d -> describes_type (unit_context ob u) ns d (t_kind y).
  Proof.
    intros Iu L I. rewrite (types_for u w L) in I.
    pose proof (unit_distinct ob WF u Iu) as UD. pose proof (items_read ob u) as IR.
    destruct (C49_kept _ _ _ UD IR) as (ND & _). destruct (C49_every _ _ _ y IR I) as (ms & outer & d & A & C & B & O & DS).
    exists outer, d. do 4 (split; [assumption|]). split; [eauto|]. intros outer' ns B' LO.
    destruct (C49_described _ _ _ outer' ns d UD IR LO C B') as (t & It & Ot & DT).
    assert (t = y) as <-; [|exact DT]. apply (NoDup_map_eq t_offset _ _ _ ND); auto. congruence.
  Qed.
  Lemma unit_types_kept u : In u (ob_units ob) -> types_kept ob u (ws_types (unit_items ob u)).
  Proof.
    intros Iu t I. destruct (C49_every _ _ _ t (items_read ob u) I) as (ns & outer & d & A & B & C & D & E).
    exists ns, outer, d. repeat (split; [assumption|]). exact (proj1 (type_at_named ob WF u t Iu I)).
  Qed.
  Lemma lacking_types given u wn t :
    nowhere given ob u (fun v => no_type ob v None t) -> un_name wn = un_name (head_of u) ->
    forall v y, In v (loaded_units choice ob) -> same_unit given wn v -> In y (un_types v) -> ~ same_type t y.
  Proof.
    intros (NS & NW) WN v y Iv SU Iy SF. destruct (loaded_in v Iv) as [(i & x & Ex & Ev & L)|[(N & _)|(N & N' & _)]].
    - assert (Ix : In x (ob_units ob)) by now apply nth_error_In in Ex.
      destruct (type_origin x v y Ix L Iy) as (outer & d & A & B & C & O & (ms & DS) & U).
      destruct (NW x Ix (same_unit_name _ _ _ _ _ WN (loaded_name x v L) SU) outer d A B C) as [(outer' & ns & NO & LO & NM)|NM]; [discriminate| |].
      + exact (NM y O (U outer' ns NO LO) SF).
      + exact (NM ms y O DS SF).
    - apply NS. exact (same_unit_name _ _ _ _ symtab_head WN N SU).
    - rewrite N' in Iy. destruct Iy.
  Qed.
  Lemma type_alone u w t y : In u (ob_units ob) -> loaded_unit symbols (unit_of ob u) w -> no_type ob u (Some (t_offset y)) t ->
    In y (un_types w) ->
    exists m1 m2, un_types w = (m1 ++ y :: m2)%list /\ forall z, In z (m1 ++ m2) -> ~ same_type t z.
  Proof.
    intros Iu L NF Iy. apply in_split in Iy. destruct Iy as (m1 & m2 & E). exists m1, m2. split; [exact E|]. intros z I SF.
    assert (Iz : In z (un_types w)) by (rewrite E; apply in_app_iff in I; apply in_app_iff; cbn; tauto).
    destruct (type_origin u w z Iu L Iz) as (outer & d & A & B & C & O & (ms & DS) & U).
    destruct (NF outer d A B C) as [(outer' & ns & NO & LO & NM)|NM].
    - intros [= X]. destruct (C49_kept _ _ _ (unit_distinct ob WF u Iu) (items_read ob u)) as (ND & _).
      rewrite <- (types_for u w L), E, map_app in ND. cbn [map] in ND. apply NoDup_remove_2 in ND. apply ND. rewrite <- map_app.
      rewrite <- X, <- O. now apply in_map.
    - exact (NM z O (U outer' ns NO LO) SF).
    - exact (NM ms z O DS SF).
  Qed.
End Loaded.
