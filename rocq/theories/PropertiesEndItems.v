(** From the values of attributes to the lines that are printed for types (property C98). *)
From Coq Require Import List Arith NArith ZArith Bool String Lia Sorting.Sorted Permutation.
From Verif Require Import LayoutSpec LayoutProofs.
From Verif Require Import DescribeProofs MemberProofs DetailSpec PropertiesMember Base BaseProofs RangeModel NamespaceModel NamespaceSpec TypeModel TypeSpec TypeProofs TypeSizeProofs LayoutModel FileModel FileSpec FilterModel FilterSpec
  FilterProofs DiffModel PrintModel PrintSpec PrintProofs LocationModel RefModel RefSpec RefProofs ReadModel ReadSpec CodeModel ItemModel ItemSpec OptionsModel EntryModel EntrySpec EntryProofs
  IdModel ReportModel ReportSpec DetailModel NameModel MemberSpec WholeModel WholeSpec WholeProofs WholeDepth PropertiesWhole PropertiesView RawModel RawSpec RawProofs PropertiesRaw
  EndSpec EndProofs EndTypes EndSample PropertiesEnd EndItemSpec EndItems.
From Verif Require Import DieModel DieSpec.
Import ListNotations.
Local Open Scope N_scope.

Lemma path_name_text ns path n : namespace_text ns = path_text path -> path_and_name ns n = path_text path ++ name_or "<anon>" n.
Proof. intros <-. reflexivity. Qed.
Lemma shown_texts {A} (f : A -> text) l : flat_map (fun x => match f x with [] => [] | t => [Line 2 t] end) l = flat_map (EntrySpec.text_line 2) (map f l).
Proof. induction l as [|x l IH]; [reflexivity|]. cbn [flat_map map]. rewrite IH. unfold EntrySpec.text_line. now destruct (f x). Qed.

Section Pieces.
  Variable choice : N -> nat.
  Variable rf : raw_file.
  Variable ob : object_input.
  Hypothesis WF : raw_well_formed rf.
  Hypothesis AC : raw_acyclic rf.
  Hypothesis RD : read_file rf = Some ob.
  Local Notation vw := (file_view choice ob).
  Local Notation env := (type_at ob).
  Local Notation place u d := (ud_begin (ru_place u) + rd_offset d).
  Local Notation cx u := (unit_context ob (read_unit rf u)).

  (** The type of an entry is listed. *)
  Lemma type_is_listed o diff u d b path name t ns kept : In u (rf_units rf) -> (diff = true -> In (rd_tag d) [0x13; 0x02] -> name <> Some "closure"%string) ->
    placed rf u b path d -> In (rd_tag d) [0x24; 0x16; 0x13; 0x02; 0x17; 0x04] ->
    shown_alone rf u d -> named rf u is_name (rd_attrs d) name -> raw_wanted o (type_path d path) name ->
    (In (rd_tag d) [0x13; 0x02; 0x17] -> name <> None /\ Forall (fun n => n <> None) path) ->
    from_offset env (place u d) = Some t -> t_offset t = place u d ->
    describes_type (cx u) ns (read_die rf u d) (t_kind t) -> path_opt ns path ->
    kept_ok rf ob u kept ->
    type_listed o env diff (FileModel.mkUnit None [] kept [] []) t.
  Proof.
    intros I NC P T SA NN RW CN F O D PO KO. unfold type_path in RW.
    pose proof (placed_below rf u b path d P) as J. pose proof (place_known rf WF u d I J) as PK.
    assert (TA : env (place u d) = Some t).
    { unfold from_offset in F. destruct (N.eqb_spec (place u d) type_offset_none) as [X|X]; [contradiction|exact F]. }
    assert (NA : forall t', env (place u d) = Some t' -> ~ anonymous t').
    { intros t' E A. rewrite TA in E. injection E as <-.
      destruct (in_dec N.eq_dec (rd_tag d) [0x13; 0x02; 0x17]) as [Y|Y].
      - destruct (CN Y) as (N1 & N2). destruct (compound_type choice rf ob WF RD u b path d name I P Y NN) as (t'' & F'' & _ & H).
        rewrite F in F''. injection F'' as <-. exact (H N2 N1 A).
      - destruct (no_compound rf ob WF RD u d t I J Y F) as (N1 & N2). destruct A as [? x _|? x _]; [now apply (N1 x)|now apply (N2 x)]. }
    split; [now rewrite O|]. split; [rewrite O; exact (alone_outside rf ob WF u d kept I J SA NA KO)|].
    apply named_is in NN. destruct RW as (W1 & W2). destruct t as [ot k]. cbn [t_kind] in D.
    pose proof (path_wanted o ns path PO) as PW.
    inversion D as [T1|T1|ms ps bs T1 M V B K|ms T1 M K|T1|T1]; rewrite read_tag_of in T1;
      try (assert (X : (rd_tag d =? 0x24) = false) by
        (destruct (N.eqb_spec (rd_tag d) 0x24) as [X|X]; [rewrite X in T1; try destruct T1 as [T1|T1]; discriminate T1|reflexivity]); rewrite X in W2).
    - exists 1%nat, None, name. assert (X : rd_tag d = 0x24) by exact (proj1 (tag_iff 0x24 TagBase eq_refl eq_refl _) T1).
      rewrite X in W2. cbn in W2. split; [|split; [exact W1|split; [|intros _ ZZ; discriminate ZZ]]].
      + rewrite <- NN. exact (ls_base ot (mkBase _ _)).
      + exact (path_wanted o None [] path_none W2).
    - exists 2%nat, ns, name. split; [rewrite <- NN; exact (ls_def ot (mkDef _ _ _))|]. split; [exact W1|]. split; [auto|intros _ ZZ; discriminate ZZ].
    - exists 3%nat, ns, name. split; [rewrite <- NN; exact (ls_struct ot (mkStruct _ _ _ _ _ _ _))|]. split; [exact W1|]. split; [auto|]. intros DF _. apply (NC DF).
      destruct T1 as [T1|T1]; [left; symmetry; exact (proj1 (tag_iff 0x13 TagStructure eq_refl eq_refl _) T1)|right; left; symmetry; exact (proj1 (tag_iff 0x02 TagClass eq_refl eq_refl _) T1)].
    - exists 4%nat, ns, name. split; [rewrite <- NN; exact (ls_union ot (mkUnion _ _ _ _ _))|]. split; [exact W1|]. split; [auto|intros _ ZZ; discriminate ZZ].
    - exists 5%nat, ns, name. split; [rewrite <- NN; exact (ls_enum ot (mkEnum _ _ _ _ _))|]. split; [exact W1|]. split; [auto|intros _ ZZ; discriminate ZZ].
    - exfalso. cbn [In] in T. repeat (destruct T as [T|T]; [rewrite <- T in T1; discriminate T1|]). destruct T.
  Qed.
  Lemma gives_kinds o u d path name piece : gives_type rf o u d path name piece ->
    (exists b, placed rf u b path d) /\ In (rd_tag d) [0x24; 0x16; 0x13; 0x02; 0x17; 0x04] /\ named rf u is_name (rd_attrs d) name /\
    (In (rd_tag d) [0x13; 0x02; 0x17] -> name <> None /\ Forall (fun n => n <> None) path).
  Proof.
    assert (H : forall n l, (if in_dec N.eq_dec n l then true else false) = false -> ~ In n l).
    { intros n l. destruct (in_dec N.eq_dec n l); [discriminate|auto]. }
    intros G. destruct G as [b ? ? ? ? ? ? ? T P| b ? ? ? ? ? ? T P|b ? ? ? ? ? ? ? T P|b ? ? ? ? ? ? T P|b ? ? ? ? T P];
      (split; [now exists b|]); (split; [try rewrite T; cbn [In] in *; tauto|]); (split; [assumption|]); intros X;
      try (split; [discriminate|assumption]); rewrite T in X; now apply H in X.
  Qed.
  Lemma source_lines o u d t dir source : In u (rf_units rf) -> In d (raw_below u) -> t_offset t = place u d ->
    source_at rf u (rd_attrs d) source ->
    source_shown o vw dir t = if p_source (o_print o) then labelled_line 1 "source" (source_text dir source) else [].
  Proof.
    intros I J O SA. unfold source_shown.
    rewrite (C81_source choice ob (read_unit rf u) (read_die rf u d) t (C88_well_formed rf ob WF RD) (unit_in rf ob RD u I) (below_in rf u d J)).
    - now rewrite (source_is rf u d source SA).
    - now rewrite read_offset.
  Qed.

  (** The lines of the type of an entry. *)
  Lemma given_lines o u d path name piece : In u (rf_units rf) -> gives_type rf o u d path name piece ->
    forall t ns dir ls, from_offset env (place u d) = Some t -> t_offset t = place u d ->
    describes_type (cx u) ns (read_die rf u d) (t_kind t) -> namespace_text ns = path_text path ->
    named rf u is_comp_dir (rd_attrs (ru_root u)) dir -> type_shown o vw dir t ls -> ls = piece.
  Proof.
    intros I G t ns dir piece' F O D TX ND SH.
    destruct G as [b name dir' source declared size inherits members T P FP ND' NN SO DE OS IH ML|
                   b name dir' source declared size members T P FP ND' NN SO DE OS ML|
                   b name dir' source declared size unsigned enumerators T P ND' NN SO DE EB CS EU EN|
                   b name dir' source tx size members T P ND' NN SO TT TB TL|
                   b name size encoding endianity T P NN OS EC EN];
      pose proof (placed_below rf u b path d P) as J; try (pose proof (named_same rf u _ _ _ _ ND' ND); subst dir').
    - { destruct (lines choice rf ob WF AC RD) as (LM & _). specialize (LM 2%nat u d members ML I J). rewrite F in LM.
      assert (TK : die_tag (read_die rf u d) = TagStructure \/ die_tag (read_die rf u d) = TagClass).
      { rewrite read_tag_of. cbn [In] in T. destruct T as [<-|[<-|[]]]; auto. }
      inversion D as [T1|T1|ms ps bs T1 M V B K|ms T1 M K|T1|T1]; try (exfalso; rewrite T1 in TK; destruct TK; discriminate).
      symmetry in K.
      inversion SH as [x ls K' MS|x ls K'|x K'|x ls K'|x K']; rewrite K in K'; try discriminate K'. injection K' as <-.
      cbn [s_namespace s_name s_declaration s_inherits]. rewrite (LM ls MS).
      rewrite (source_lines o u d t dir source I J O SO), (path_name_text ns path _ TX).
      rewrite read_attrs in *. rewrite (declared_is rf u _ _ DE). pose proof (named_is rf u d (Some name) NN) as EN. rewrite read_attrs in EN. rewrite EN.
      assert (SZ : type_size ob t = size).
      { apply (leaf_size rf ob WF RD _ t size F).
        - intros f. cbn [byte_size]. rewrite K. cbn [s_byte_size]. f_equal. now apply own_size_known.
        - intros off R. destruct R; cbn [t_kind] in K; discriminate K.
        - intros o' x E. rewrite E in K. discriminate K. }
      assert (BS : bases_shown (file_view choice ob) bs = bases_lines inherits).
      { rewrite read_children, bases_read in B. fold (with_raw_tag 0x1c d) in B.
        assert (W : map (fun x => written_type (file_view choice ob) (i_ty x)) bs = inherits).
        { clear - B IH WF AC RD I. revert bs B. induction IH as [|e t es ts TT IH IHI]; intros bs B; inversion B as [|? y ? ys (ET & _) B']; subst; [reflexivity|].
          cbn [map]. f_equal; [|now apply IHI]. rewrite ET, read_attrs. now apply (written_text choice rf ob u _ t WF AC RD I). }
        subst inherits. clear. destruct bs as [|x [|y bs]]; [reflexivity|reflexivity|]. unfold bases_shown. rewrite shown_texts. reflexivity. }
      unfold size_known. change (h_size (vw_hash (file_view choice ob)) t) with (type_size ob t). rewrite SZ, BS.
      repeat (cbn [app]; rewrite <- ?app_assoc). reflexivity. }
    - { destruct (lines choice rf ob WF AC RD) as (LM & _). specialize (LM 2%nat u d members ML I J). rewrite F in LM.
      inversion D as [T1|T1|ms ps bs T1 M V B K|ms T1 M K|T1|T1]; rewrite read_tag_of, T in T1; try (try destruct T1 as [T1|T1]; discriminate T1).
      symmetry in K.
      inversion SH as [x ls K' MS|x ls K' MS|x K'|x ls K'|x K']; rewrite K in K'; try discriminate K'. injection K' as <-.
      cbn [u_namespace u_name u_declaration]. rewrite (LM ls MS).
      rewrite (source_lines o u d t dir source I J O SO), (path_name_text ns path _ TX).
      rewrite read_attrs in *. rewrite (declared_is rf u _ _ DE). pose proof (named_is rf u d (Some name) NN) as EN. rewrite read_attrs in EN. rewrite EN.
      assert (SZ : type_size ob t = size).
      { apply (leaf_size rf ob WF RD _ t size F).
        - intros f. cbn [byte_size]. rewrite K. cbn [u_byte_size]. f_equal. now apply own_size_known.
        - intros off R. destruct R; cbn [t_kind] in K; discriminate K.
        - intros o' x E. rewrite E in K. discriminate K. }
      unfold size_known. change (h_size (vw_hash (file_view choice ob)) t) with (type_size ob t). rewrite SZ.
      repeat (cbn [app]; rewrite <- ?app_assoc). reflexivity. }
    - { inversion D as [T1|T1|ms ps bs T1 M V B K|ms T1 M K|T1 K|T1]; rewrite read_tag_of, T in T1; try (try destruct T1 as [T1|T1]; discriminate T1).
      symmetry in K.
      inversion SH as [x ls K' MS|x ls K' MS|x K'|x ls K'|x K']; rewrite K in K'; try discriminate K'. injection K' as <-.
      cbn [e_namespace e_name e_declaration].
      rewrite (source_lines o u d t dir source I J O SO), (path_name_text ns path _ TX).
      destruct (C90_enumerators choice rf ob u d t _ WF RD I (below_entry u d J) O K CS) as (un & UI & ER). cbn [e_ty] in UI.
      rewrite read_attrs in *. rewrite (declared_is rf u _ _ DE). pose proof (named_is rf u d name NN) as NE. rewrite read_attrs in NE. rewrite NE.
      destruct (C95_size rf ob u d size WF RD I J EB) as (ty & F' & SZ). rewrite F in F'. injection F' as <-.
      unfold size_known. change (h_size (vw_hash (file_view choice ob)) t) with (type_size ob t). rewrite SZ.
      assert (UN : un = unsigned).
      { assert (BC : forall x e, In x (rf_units rf) -> In e (raw_below x) -> given_type (map (read_attr rf u) (rd_attrs d)) = ud_begin (ru_place x) + rd_offset e ->
          un = true <-> exists s y a c, from_offset (type_at ob) (ud_begin (ru_place x) + rd_offset e) = Some s /\ t_kind s = TBase y /\
            last_such is_encoding (rd_attrs e) a /\ snd a = RwEncoding c /\ In c [1; 2; 7; 8]).
        { intros x e Ix Ie GT. rewrite GT in UI. split.
          - intros E. apply UI in E. destruct E as (s & y & x' & e' & a & k & FS & KS & Ix' & Ie' & OS & L & V & IN).
            exists s, y, a, k. split; [exact FS|]. split; [exact KS|]. split; [|auto].
            assert (X : x' = x /\ e' = e); [|destruct X as (-> & ->); exact L].
            assert (A : raw_tree rf (t_offset s) = Some (x', e')) by (rewrite OS; apply raw_tree_iff; auto).
            destruct (C81_found ob _ s (object_well_formed rf ob WF RD) FS) as [(_ & KV)|(_ & _ & _ & _ & _ & OO & _)]; [congruence|].
            rewrite OO in A. assert (B' : raw_tree rf (ud_begin (ru_place x) + rd_offset e) = Some (x, e)) by (apply raw_tree_iff; auto using below_entry).
            rewrite A in B'. injection B' as -> ->. auto.
          - intros (s & y & a & k & FS & KS & L & V & IN). apply UI. exists s, y, x, e, a, k. repeat split; auto using below_entry.
            destruct (C81_found ob _ s (object_well_formed rf ob WF RD) FS) as [(_ & KV)|(_ & _ & _ & _ & _ & OO & _)]; [congruence|exact OO]. }
        destruct EU as [L|v x e G R Je TN|v x e G R Je L|v x e b' path' k G R TE PE GE].
        - destruct un; [|reflexivity]. destruct (proj1 UI eq_refl) as (s & y & _ & _ & _ & _ & FS & KS & _).
          rewrite (type_none rf u _ L) in FS. change (from_offset (type_at ob) type_offset_none) with (Some void_type) in FS. injection FS as <-. discriminate KS.
        - pose proof (refers_in rf u v x e I R) as Ix. destruct un; [|reflexivity]. destruct (proj1 (BC x e Ix Je (type_is rf u _ v x e G R)) eq_refl) as (s & y & _ & _ & FS & KS & _).
          destruct (found_raw rf ob WF RD _ s FS) as [KV|(x' & e' & Ix' & Ie' & PE' & DR)]; [congruence|].
          destruct (place_unique rf WF x' e' x e Ix' Ie' Ix Je PE') as (-> & ->). rewrite KS in DR. exfalso. apply TN.
          destruct DR as [(ns' & DR)|DR]; [|inversion DR]. inversion DR as [T2| | | | |]. rewrite read_tag_of in T2. exact (proj1 (tag_iff 0x24 TagBase eq_refl eq_refl _) T2).
        - pose proof (refers_in rf u v x e I R) as Ix. destruct un; [|reflexivity]. destruct (proj1 (BC x e Ix Je (type_is rf u _ v x e G R)) eq_refl) as (s & y & a & k & _ & _ & LS & _).
          exfalso. apply (lacks_none is_encoding 0x3e (rd_attrs e) L) with (a := a); [intros ? (Z & _); exact Z| |]; destruct LS as (p & q & E & PA & _); [|exact PA].
          rewrite E. apply in_app_iff. right. now left.
        - pose proof (refers_in rf u v x e I R) as Ix. pose proof (placed_below rf x b' path' e PE) as Je. specialize (BC x e Ix Je (type_is rf u _ v x e G R)).
          assert (LS : last_such is_encoding (rd_attrs e) (0x3e, RwEncoding k)).
          { apply gives_last; [exact GE|split; [reflexivity|now exists k]|intros ? (Z & _); exact Z]. }
          destruct (placed_type rf ob WF RD x b' path' e Ix PE) as (s & ns' & FS & _ & _ & _ & DS); [now rewrite TE|].
          inversion DS as [T2 KS|T2|? ? ? T2|? T2|T2|T2]; rewrite read_tag_of, TE in T2; try (try destruct T2 as [T2|T2]; discriminate T2). symmetry in KS.
          destruct (existsb (N.eqb k) [1; 2; 7; 8]) eqn:EX.
          + apply BC. exists s. eexists. exists (0x3e, RwEncoding k), k. repeat split; eauto. apply existsb_exists in EX. destruct EX as (z & IZ & EZ).
            apply N.eqb_eq in EZ. now subst z.
          + destruct un; [|reflexivity]. destruct (proj1 BC eq_refl) as (s' & y & a & k' & _ & _ & L' & V' & IN').
            rewrite (last_such_same _ _ _ _ L' LS) in V'. cbn [snd] in V'. injection V' as <-.
            assert (existsb (N.eqb k) [1; 2; 7; 8] = true); [|congruence]. apply existsb_exists. exists k. split; [exact IN'|apply N.eqb_refl]. }
      subst un.
      assert (EL : map enumerator_shown (vw_enumerators (file_view choice ob) t) = enumerators).
      { change (enumerator_entries d) with (with_raw_tag 0x28 d) in ER. clear - ER EN.
        revert ER. generalize (vw_enumerators (file_view choice ob) t) as es. induction EN as [|e x l xs H _ IH]; intros es ER; inversion ER as [|? y ? ys HR ER']; subst; [reflexivity|].
        cbn [map]. f_equal; [|now apply IH]. destruct HR as [N1 V1 V2]. unfold enumerator_shown.
        destruct H as [n NN L|n k z NN G CM|n k z NN G CM]; rewrite (named_same rf u _ _ _ _ N1 NN).
        - rewrite V2; [now rewrite app_nil_r|]. apply (lacks_none _ 0x1c); [exact L|]. intros ? (Z & _). exact Z.
        - rewrite (V1 (0x1c, RwConst k) k (EvSigned z)); [unfold signed; repeat rewrite <- app_assoc; reflexivity| |reflexivity|exact CM].
          apply gives_last; [exact G|split; [reflexivity|]; exists k; eexists; split; [reflexivity|exact CM]|intros ? (Z & _); exact Z].
        - rewrite (V1 (0x1c, RwConst k) k (EvUnsigned z)); [reflexivity| |reflexivity|exact CM].
          apply gives_last; [exact G|split; [reflexivity|]; exists k; eexists; split; [reflexivity|exact CM]|intros ? (Z & _); exact Z]. }
      assert (FM : flat_map (fun e => match enumerator_shown e with [] => [] | s => [Line 2 s] end) (vw_enumerators (file_view choice ob) t) =
        flat_map (EntrySpec.text_line 2) enumerators).
      { rewrite <- EL. apply shown_texts. }
      rewrite FM.
      rewrite dec_line. repeat (cbn [app]; rewrite <- ?app_assoc). reflexivity. }
    - { inversion D as [T1|T1 K|ms ps bs T1 M V B K|ms T1 M K|T1|T1]; rewrite read_tag_of, T in T1; try (try destruct T1 as [T1|T1]; discriminate T1).
      symmetry in K.
      inversion SH as [x ls K' MS|x ls K' MS|x K'|x ls K' LY LN|x K']; rewrite K in K'; try discriminate K'. injection K' as <-.
      cbn [d_namespace d_name d_ty] in *. change (vw_find (file_view choice ob)) with (from_offset (type_at ob)) in LY, LN.
      rewrite (source_lines o u d t dir source I J O SO).
      rewrite read_attrs in *. pose proof (named_is rf u d name NN) as NE. rewrite read_attrs in NE. rewrite NE.
      rewrite (written_text choice rf ob u _ tx WF AC RD I TT).
      destruct (C95_size rf ob u d size WF RD I J (eb_typedef rf u d b path size T P TB)) as (ty & F' & SZ). rewrite F in F'. injection F' as <-.
      unfold size_known. change (h_size (vw_hash (file_view choice ob)) t) with (type_size ob t). rewrite SZ.
      assert (EL : ls = members).
      { destruct TL as [TN|ms TU IL].
        - apply LN. intros (y & FY & A). unfold from_offset in FY.
          destruct (N.eqb_spec (given_type (map (read_attr rf u) (rd_attrs d))) type_offset_none) as [X|X].
          + injection FY as <-. inversion A.
          + exact (named_not_anonymous choice rf ob WF RD u _ y tx I TN TT X FY A).
        - destruct (unnamed_anonymous choice rf ob WF RD u _ I TU) as (y & NM & EY & A).
          assert (FY : from_offset (type_at ob) (given_type (map (read_attr rf u) (rd_attrs d))) = Some y).
          { unfold from_offset. destruct (N.eqb_spec (given_type (map (read_attr rf u) (rd_attrs d))) type_offset_none) as [X|X]; [contradiction|exact EY]. }
          destruct (lines choice rf ob WF AC RD) as (_ & _ & _ & _ & LI). specialize (LI 2%nat u (rd_attrs d) ms IL I ls). rewrite FY in LI. apply LI. now apply LY. }
      subst ls.
      rewrite dec_line, <- TX. repeat (cbn [app]; rewrite <- ?app_assoc). reflexivity. }
    - { inversion D as [T1 K|T1|ms ps bs T1 M V B K|ms T1 M K|T1|T1]; rewrite read_tag_of, T in T1; try (try destruct T1 as [T1|T1]; discriminate T1).
      symmetry in K.
      inversion SH as [x ls K' MS|x ls K' MS|x K'|x ls K'|x K']; rewrite K in K'; try discriminate K'. injection K' as <-.
      cbn [b_name]. pose proof (named_is rf u d name NN) as NE. rewrite NE. rewrite read_attrs in *.
      assert (SZ : type_size ob t = size).
      { apply (leaf_size rf ob WF RD _ t size F).
        - intros f. cbn [byte_size]. rewrite K. cbn [b_byte_size]. f_equal. now apply own_size_known.
        - intros off R. destruct R; cbn [t_kind] in K; discriminate K.
        - intros o' x E. rewrite E in K. discriminate K. }
      unfold size_known. change (h_size (vw_hash (file_view choice ob)) t) with (type_size ob t). rewrite SZ.
      change (vw_encoding (file_view choice ob) t) with (ob_encoding ob (t_offset t)).
      change (vw_endianity (file_view choice ob) t) with (ob_endianity ob (t_offset t)). rewrite O.
      destruct (C90_encoding rf ob u d WF RD I (below_entry u d J)) as (E1 & E2).
      destruct (C90_endianity rf ob u d WF RD I (below_entry u d J)) as (B1 & B2).
      repeat (cbn [app]; rewrite <- ?app_assoc). f_equal. f_equal.
      f_equal; [|f_equal].
      - f_equal. destruct EC as [L|k G].
        + rewrite E2; [reflexivity|]. apply (lacks_none _ 0x3e); [exact L|]. intros ? (Z & _). exact Z.
        + rewrite (E1 (0x3e, RwEncoding k) k); [|apply gives_last; [exact G|split; [reflexivity|now exists k]|intros ? (Z & _); exact Z]|reflexivity].
          destruct k as [|k]; [reflexivity|]. do 4 (destruct k as [k|k|]; try reflexivity).
      - f_equal. destruct EN as [L|k G].
        + rewrite B2; [reflexivity|]. apply (lacks_none _ 0x65); [exact L|]. intros ? (Z & _). exact Z.
        + destruct (B1 (0x65, RwEndianity k) k) as (X1 & X2); [apply gives_last; [exact G|split; [reflexivity|now exists k]|intros ? (Z & _); exact Z]|reflexivity|].
          destruct (ob_endianity ob _) eqn:Z.
          * destruct k as [|[k|[k|k|]|]]; try reflexivity; exfalso; [specialize (proj2 X2 eq_refl)|specialize (proj2 X1 eq_refl)]; discriminate.
          * now rewrite (proj1 X1 eq_refl).
          * now rewrite (proj1 X2 eq_refl). }
  Qed.
  Lemma given_piece c o given fuel out u d path name piece :
    configured c o given -> o_html o = false -> print_output fuel choice o ob = Some out ->
    In u (rf_units rf) -> raw_unit_wanted rf given o u -> c_type (o_category o) = true ->
    gives_type rf o u d path name piece -> shown_alone rf u d -> raw_wanted o (type_path d path) name ->
    exists before after, out = write_lines (before ++ piece ++ after).
  Proof.
    intros C HT OUT I UW CT G SA RW.
    pose proof (C88_well_formed rf ob WF RD) as OW. pose proof (acyclic_raw rf ob WF RD AC) as OA.
    destruct (In_nth_error _ _ (unit_in rf ob RD u I)) as (i & Ei).
    destruct (gives_kinds o u d path name piece G) as ((b & P) & T & NN & CN).
    destruct (placed_located rf u b path d P) as (outer & ns & L & PO & TX & NE & _). pose proof (placed_below rf u b path d P) as J.
    assert (TT : is_type_tag (die_tag (read_die rf u d)) = true).
    { rewrite read_tag_of. cbn [In] in T. repeat (destruct T as [<-|T]; [reflexivity|]). destruct T. }
    destruct (C80_type c o given fuel choice ob i (read_unit rf u) outer ns (read_die rf u d) out C HT OW OA OUT Ei
      (unit_read_wanted rf given o u UW) CT L NE TT) as (t & kept & O & D & TA & KO & SH).
    rewrite read_offset in O. rewrite O in TA. pose proof (place_known rf WF u d I J) as PK.
    assert (F : from_offset env (place u d) = Some t).
    { unfold from_offset. destruct (N.eqb_spec (place u d) type_offset_none) as [X|X]; [contradiction|exact TA]. }
    destruct SH as (before & ls & after & S & ->); [now apply (type_is_listed o false u d b path name t ns kept)|].
    destruct (C91_root rf u) as (_ & ND & _).
    rewrite <- (given_lines o u d path name piece I G t ns _ ls F O D TX ND S). eauto.
  Qed.
End Pieces.

(** ** C98: the lines for types *)

(** C98: a structure or class that is not shown within another type. *)
Theorem C98_structure : forall c o given fuel choice rf ob out u d b path name dir source declared size inherits members,
  configured c o given -> o_html o = false -> raw_well_formed rf -> raw_acyclic rf -> read_file rf = Some ob ->
  print_output fuel choice o ob = Some out ->
  In u (rf_units rf) -> raw_unit_wanted rf given o u -> c_type (o_category o) = true ->
  In (rd_tag d) [0x13; 0x02] -> placed rf u b path d -> Forall (fun n => n <> None) path -> shown_alone rf u d ->
  named rf u is_comp_dir (rd_attrs (ru_root u)) dir -> named rf u is_name (rd_attrs d) (Some name) ->
  source_at rf u (rd_attrs d) source -> is_declared (rd_attrs d) declared -> own_size (rd_attrs d) size ->
  Forall2 (fun e t => type_text rf u 0x49 (rd_attrs e) t) (with_raw_tag 0x1c d) inherits ->
  members_lines rf 2 u d members -> raw_wanted o path (Some name) ->
  exists before after, out = write_lines (before ++
    Line 0 (txt "struct " ++ path_text path ++ txt name) ::
    (if p_source (o_print o) then labelled_line 1 "source" (source_text dir source) else []) ++
    labelled_line 1 "declaration" (yes declared) ++ labelled_line 1 "size" (size_text size) ++
    bases_lines inherits ++ under 1 "members" members ++ [Blank] ++ after).
Proof.
  intros c o given fuel choice rf ob out u d b path name dir source declared size inherits members
    C HT WF AC RD OUT I UW CT T P FP SA ND NN SO DE OS IH ML RW.
  match goal with |- exists before after, out = write_lines (before ++ @?X after) =>
    let Y := eval cbv beta in (X []) in assert (G : gives_type rf o u d path (Some name) Y) end.
  { repeat (cbn [app]; rewrite <- ?app_assoc). rewrite ?app_nil_r. econstructor; eauto. }
  destruct (given_piece choice rf ob WF AC RD c o given fuel out u d path (Some name) _ C HT OUT I UW CT G SA) as (before & after & ->).
  { unfold type_path. cbn [In] in T. destruct T as [<-|[<-|[]]]; exact RW. }
  exists before, after. f_equal. repeat (cbn [app]; rewrite <- ?app_assoc). reflexivity.
Qed.
Print Assumptions C98_structure.

(** C98: a union. *)
Theorem C98_union : forall c o given fuel choice rf ob out u d b path name dir source declared size members,
  configured c o given -> o_html o = false -> raw_well_formed rf -> raw_acyclic rf -> read_file rf = Some ob ->
  print_output fuel choice o ob = Some out ->
  In u (rf_units rf) -> raw_unit_wanted rf given o u -> c_type (o_category o) = true ->
  rd_tag d = 0x17 -> placed rf u b path d -> Forall (fun n => n <> None) path -> shown_alone rf u d ->
  named rf u is_comp_dir (rd_attrs (ru_root u)) dir -> named rf u is_name (rd_attrs d) (Some name) ->
  source_at rf u (rd_attrs d) source -> is_declared (rd_attrs d) declared -> own_size (rd_attrs d) size ->
  members_lines rf 2 u d members -> raw_wanted o path (Some name) ->
  exists before after, out = write_lines (before ++
    Line 0 (txt "union " ++ path_text path ++ txt name) ::
    (if p_source (o_print o) then labelled_line 1 "source" (source_text dir source) else []) ++
    labelled_line 1 "declaration" (yes declared) ++ labelled_line 1 "size" (size_text size) ++
    under 1 "members" members ++ [Blank] ++ after).
Proof.
  intros c o given fuel choice rf ob out u d b path name dir source declared size members
    C HT WF AC RD OUT I UW CT T P FP SA ND NN SO DE OS ML RW.
  match goal with |- exists before after, out = write_lines (before ++ @?X after) =>
    let Y := eval cbv beta in (X []) in assert (G : gives_type rf o u d path (Some name) Y) end.
  { repeat (cbn [app]; rewrite <- ?app_assoc). rewrite ?app_nil_r. econstructor; eauto. }
  destruct (given_piece choice rf ob WF AC RD c o given fuel out u d path (Some name) _ C HT OUT I UW CT G SA) as (before & after & ->).
  { unfold type_path. rewrite T. exact RW. }
  exists before, after. f_equal. repeat (cbn [app]; rewrite <- ?app_assoc). reflexivity.
Qed.
Print Assumptions C98_union.

(** C98: an enumeration. *)
Theorem C98_enumeration : forall c o given fuel choice rf ob out u d b path name dir source declared size unsigned enumerators,
  configured c o given -> o_html o = false -> raw_well_formed rf -> raw_acyclic rf -> read_file rf = Some ob ->
  print_output fuel choice o ob = Some out ->
  In u (rf_units rf) -> raw_unit_wanted rf given o u -> c_type (o_category o) = true ->
  rd_tag d = 0x04 -> placed rf u b path d -> shown_alone rf u d ->
  named rf u is_comp_dir (rd_attrs (ru_root u)) dir -> named rf u is_name (rd_attrs d) name ->
  source_at rf u (rd_attrs d) source -> is_declared (rd_attrs d) declared -> entry_bytes rf u d size ->
  (forall e a k, In e (rd_children d) -> In a (rd_attrs e) -> snd a = RwConst k -> const_sane k) ->
  enum_unsigned rf u (rd_attrs d) unsigned -> Forall2 (enumerator_text rf u unsigned) (with_raw_tag 0x28 d) enumerators ->
  raw_wanted o path name ->
  exists before after, out = write_lines (before ++
    Line 0 (txt "enum " ++ path_text path ++ name_or "<anon>" name) ::
    (if p_source (o_print o) then labelled_line 1 "source" (source_text dir source) else []) ++
    labelled_line 1 "declaration" (yes declared) ++ [Line 1 (txt "size: " ++ dec size)] ++
    under 1 "enumerators" (flat_map (EntrySpec.text_line 2) enumerators) ++ [Blank] ++ after).
Proof.
  intros c o given fuel choice rf ob out u d b path name dir source declared size unsigned enumerators
    C HT WF AC RD OUT I UW CT T P SA ND NN SO DE EB CS EU EN RW.
  match goal with |- exists before after, out = write_lines (before ++ @?X after) =>
    let Y := eval cbv beta in (X []) in assert (G : gives_type rf o u d path name Y) end.
  { repeat (cbn [app]; rewrite <- ?app_assoc). rewrite ?app_nil_r. econstructor; eauto. }
  destruct (given_piece choice rf ob WF AC RD c o given fuel out u d path name _ C HT OUT I UW CT G SA) as (before & after & ->).
  { unfold type_path. rewrite T. exact RW. }
  exists before, after. f_equal. repeat (cbn [app]; rewrite <- ?app_assoc). reflexivity.
Qed.
Print Assumptions C98_enumeration.

(** C98: a typedef; the members of a structure or union without a name are shown with it. *)
Theorem C98_typedef : forall c o given fuel choice rf ob out u d b path name dir source t size members,
  configured c o given -> o_html o = false -> raw_well_formed rf -> raw_acyclic rf -> read_file rf = Some ob ->
  print_output fuel choice o ob = Some out ->
  In u (rf_units rf) -> raw_unit_wanted rf given o u -> c_type (o_category o) = true ->
  rd_tag d = 0x16 -> placed rf u b path d -> shown_alone rf u d ->
  named rf u is_comp_dir (rd_attrs (ru_root u)) dir -> named rf u is_name (rd_attrs d) name ->
  source_at rf u (rd_attrs d) source -> type_text rf u 0x49 (rd_attrs d) t -> type_bytes rf u (rd_attrs d) size ->
  typedef_lines rf u (rd_attrs d) members -> raw_wanted o path name ->
  exists before after, out = write_lines (before ++
    Line 0 (txt "type " ++ path_text path ++ name_or "<anon-typedef>" name ++ txt " = " ++ t) ::
    (if p_source (o_print o) then labelled_line 1 "source" (source_text dir source) else []) ++
    [Line 1 (txt "size: " ++ dec size)] ++ under 1 "members" members ++ [Blank] ++ after).
Proof.
  intros c o given fuel choice rf ob out u d b path name dir source tx size members
    C HT WF AC RD OUT I UW CT T P SA ND NN SO TT TB TL RW.
  match goal with |- exists before after, out = write_lines (before ++ @?X after) =>
    let Y := eval cbv beta in (X []) in assert (G : gives_type rf o u d path name Y) end.
  { repeat (cbn [app]; rewrite <- ?app_assoc). rewrite ?app_nil_r. econstructor; eauto. }
  destruct (given_piece choice rf ob WF AC RD c o given fuel out u d path name _ C HT OUT I UW CT G SA) as (before & after & ->).
  { unfold type_path. rewrite T. exact RW. }
  exists before, after. f_equal. repeat (cbn [app]; rewrite <- ?app_assoc). reflexivity.
Qed.
Print Assumptions C98_typedef.

(** C98: a base type. *)
Theorem C98_base : forall c o given fuel choice rf ob out u d b path name size encoding endianity,
  configured c o given -> o_html o = false -> raw_well_formed rf -> raw_acyclic rf -> read_file rf = Some ob ->
  print_output fuel choice o ob = Some out ->
  In u (rf_units rf) -> raw_unit_wanted rf given o u -> c_type (o_category o) = true ->
  rd_tag d = 0x24 -> placed rf u b path d -> shown_alone rf u d -> named rf u is_name (rd_attrs d) name ->
  own_size (rd_attrs d) size -> encoding_at (rd_attrs d) encoding -> endianity_at (rd_attrs d) endianity ->
  raw_wanted o [] name ->
  exists before after, out = write_lines (before ++
    Line 0 (txt "base " ++ name_or "<anon>" name) :: labelled_line 1 "size" (size_text size) ++
    labelled_line 1 "encoding" (optional_name encoding) ++ labelled_line 1 "endianity" (optional_name endianity) ++ [Blank] ++ after).
Proof.
  intros c o given fuel choice rf ob out u d b path name size encoding endianity
    C HT WF AC RD OUT I UW CT T P SA NN OS EC EN RW.
  match goal with |- exists before after, out = write_lines (before ++ @?X after) =>
    let Y := eval cbv beta in (X []) in assert (G : gives_type rf o u d path name Y) end.
  { repeat (cbn [app]; rewrite <- ?app_assoc). rewrite ?app_nil_r. econstructor; eauto. }
  destruct (given_piece choice rf ob WF AC RD c o given fuel out u d path name _ C HT OUT I UW CT G SA) as (before & after & ->).
  { unfold type_path. rewrite T. exact RW. }
  exists before, after. f_equal. repeat (cbn [app]; rewrite <- ?app_assoc). reflexivity.
Qed.
Print Assumptions C98_base.

(** ** Examples *)

Local Open Scope string_scope.
Local Open Scope list_scope.
Local Open Scope N_scope.
Local Notation rf := sample_raw.
Local Notation u := sample_raw_unit.

Local Ltac plain_now := split; [repeat (constructor; [cbn; intuition discriminate|]); constructor|repeat constructor].
Local Lemma int_named attrs : gives 0x49 attrs (RwUnitRef 20) -> type_named rf u attrs.
Proof.
  intros G v x e G' R T. rewrite (gives_only _ _ _ _ G (gives_in _ _ _ G')) in *. exfalso.
  inversion R as [d I E|]; subst. assert (X : e = int_die).
  { cbn in I. repeat (destruct I as [<-|I]; [first [reflexivity|discriminate E]|]). destruct I. }
  subst e. cbn in T. intuition discriminate.
Qed.
Local Lemma word_named attrs : gives 0x49 attrs (RwUnitRef 140) -> type_named rf u attrs.
Proof.
  intros G v x e G' R T. rewrite (gives_only _ _ _ _ G (gives_in _ _ _ G')) in *. exfalso.
  inversion R as [d I E|]; subst. assert (X : e = word_die).
  { cbn in I. repeat (destruct I as [<-|I]; [first [reflexivity|discriminate E]|]). destruct I. }
  subst e. cbn in T. intuition discriminate.
Qed.
Local Lemma word_text attrs : gives 0x49 attrs (RwUnitRef 140) -> type_text rf u 0x49 attrs (txt "word").
Proof.
  intros G. eapply tt_entry; [exact G|apply (rfs_unit rf u word_die)| |]; [cbn; tauto|apply PropertiesEnd.sample_below; cbn; tauto|].
  eapply (et_named rf u word_die false [] (Some "word") "" "<anon-typedef>"); [now left|apply pl_top; cbn; tauto|named_now O].
Qed.
Local Lemma word_bytes attrs : gives 0x49 attrs (RwUnitRef 140) -> type_bytes rf u attrs 4.
Proof.
  intros G. eapply tb_entry; [exact G|apply (rfs_unit rf u word_die)| |]; [cbn; tauto|apply PropertiesEnd.sample_below; cbn; tauto|].
  eapply (eb_typedef rf u word_die false []); [reflexivity|apply pl_top; cbn; tauto|apply PropertiesEnd.int_bytes; gives_now 1%nat].
Qed.
Local Lemma not_encoded n : String.prefix "RUST$ENCODED$ENUM$" n = false -> ~ encoded_enum n.
Proof.
  intros E (r & ->). assert (X : String.prefix "RUST$ENCODED$ENUM$" ("RUST$ENCODED$ENUM$" ++ r) = true) by (cbn; now destruct r). congruence.
Qed.
Local Lemma alone d : forallb (fun e => negb (is_field e) || negb (existsb (fun a => match snd a with RwUnitRef o => o =? rd_offset d | RwInfoRef _ => true | _ => false end) (rd_attrs e)) ||
  existsb (fun a => match a with (0x03, RwString bs) => negb (String.prefix "RUST$ENCODED$ENUM$" (text_of bs)) | _ => false end) (firstn 1 (rd_attrs e)) && negb (existsb (N.eqb 0x03) (map fst (skipn 1 (rd_attrs e))))) (raw_below u) = true ->
  shown_alone rf u d.
Proof.
  intros H e v I F A P. rewrite forallb_forall in H. specialize (H e I). rewrite F in H. cbn [negb orb] in H. apply orb_true_iff in H. destruct H as [H|H].
  - exfalso. apply negb_true_iff in H. assert (X : existsb (fun a => match snd a with RwUnitRef o => o =? rd_offset d | RwInfoRef _ => true | _ => false end) (rd_attrs e) = true); [|congruence].
    apply existsb_exists. exists (0x49, v). split; [exact A|]. cbn [snd]. inversion P as [o x e' _ _ E|]; subst; [|reflexivity]. apply N.eqb_eq. cbn in E. lia.
  - apply andb_true_iff in H. destruct H as (H & N). destruct (rd_attrs e) as [|a l] eqn:E; [discriminate H|]. cbn [firstn existsb] in H. rewrite orb_false_r in H.
    destruct a as (c, w). destruct c as [|[[c|c|]|c|]]; try discriminate H. destruct w as [| | | | | |bs| | | | | | | | | | | | | |]; try discriminate H. apply negb_true_iff in H.
    exists (text_of bs). split; [|now apply not_encoded]. rewrite <- E. apply (named_nth rf u is_name (rd_attrs e) 0x03 bs 0); [now rewrite E|reflexivity|reflexivity|].
    rewrite E. cbn [skipn]. apply Forall_forall. intros b J Z. apply negb_true_iff in N. cbn [skipn] in N.
    assert (X : existsb (N.eqb 0x03) (map fst l) = true); [|congruence]. apply existsb_exists. exists (fst b). split; [now apply in_map|]. now rewrite Z.
Qed.
Local Lemma anywhere n : raw_wanted sample_settings [] n.
Proof. split; [intros m E; discriminate E|exists []; reflexivity]. Qed.
Local Lemma no_source d : existsb (N.eqb 0x3a) (map fst (rd_attrs d)) = false -> existsb (N.eqb 0x3b) (map fst (rd_attrs d)) = false ->
  existsb (N.eqb 0x39) (map fst (rd_attrs d)) = false -> source_at rf u (rd_attrs d) (mkSource None None 0 0).
Proof. intros A B C. apply sa_intro; [apply fa_none|apply na_none|apply na_none]; now apply lacks_all. Qed.

(** The lines are those in the text of [C96_example]. *)
Example C98_structure_example :
  c_type (o_category sample_settings) = true /\ placed rf u false [] derived_die /\ shown_alone rf u derived_die /\
  named rf u is_name (rd_attrs derived_die) (Some "Derived") /\ source_at rf u (rd_attrs derived_die) (mkSource None None 0 0) /\
  is_declared (rd_attrs derived_die) false /\ own_size (rd_attrs derived_die) (Some 24) /\
  Forall2 (fun e t => type_text rf u 0x49 (rd_attrs e) t) (with_raw_tag 0x1c derived_die) [txt "struct geo::Point"] /\
  members_lines rf 2 u derived_die
    [Line 2 (txt "0[16]" ++ [9] ++ txt "<inherit>: struct geo::Point"); Line 2 (txt "16[0.3]" ++ [9] ++ txt "<padding>");
     Line 2 (txt "16.3[0.5]" ++ [9] ++ txt "z: int"); Line 2 (txt "17[7]" ++ [9] ++ txt "<padding>")] /\
  raw_wanted sample_settings [] (Some "Derived").
Proof.
  assert (P : placed rf u false [] derived_die) by (apply pl_top; cbn; tauto).
  split; [reflexivity|]. split; [exact P|]. split; [apply alone; reflexivity|]. split; [named_now O|]. split; [apply no_source; reflexivity|].
  split; [apply isd_none; lacks_now|]. split; [number_now 1%nat|].
  split; [constructor; [apply PropertiesEnd.point_text; gives_now O|constructor]|]. split; [|apply anywhere].
  apply (ml_struct rf 2 u derived_die false [] (Some 24)
    [(131, 5, [Line 2 (txt "16.3[0.5]" ++ [9] ++ txt "z: int")]); (0, 128, [Line 2 (txt "0[16]" ++ [9] ++ txt "<inherit>: struct geo::Point")])]
    [(0, 128, [Line 2 (txt "0[16]" ++ [9] ++ txt "<inherit>: struct geo::Point")]); (131, 5, [Line 2 (txt "16.3[0.5]" ++ [9] ++ txt "z: int")])]).
  - cbn; tauto.
  - exact P.
  - split; [number_now 1%nat|reflexivity].
  - constructor; [|constructor; [|constructor]].
    + apply (ptl_named rf 2 u z_die "z" 131 5 (txt "int")); [reflexivity|plain_now|named_now O|now apply not_encoded|apply int_named; gives_now 1%nat| | |apply PropertiesEnd.int_text; gives_now 1%nat].
      * apply sts_bits; [lacks_now|lacks_now|number_now 3%nat].
      * apply hw_bits. number_now 2%nat.
    + apply (ptl_base rf 2 u base_die 0 16 (txt "struct geo::Point")); [reflexivity|plain_now| | |reflexivity|apply PropertiesEnd.point_text; gives_now O].
      * apply (ba_number u _ (RwConst (UnsignedData 0)) 0); [gives_now 1%nat|constructor|discriminate|reflexivity].
      * eapply tb_entry; [gives_now O|apply (rfs_unit rf u point_die)| |]; [cbn; tauto|apply PropertiesEnd.sample_below; cbn; tauto|].
        eapply (eb_given rf u point_die false [Some "geo"]); [right; now left|apply PropertiesEnd.point_placed; now left|number_now 1%nat].
  - apply strict_order; [apply perm_swap|]. repeat constructor; cbn; lia.
  - repeat constructor; cbn; lia.
Qed.
Example C98_union_example :
  placed rf u false [] either_die /\ shown_alone rf u either_die /\ named rf u is_name (rd_attrs either_die) (Some "Either") /\
  own_size (rd_attrs either_die) (Some 4) /\
  members_lines rf 2 u either_die [Line 2 (txt "0[4]" ++ [9] ++ txt "a: int"); Line 2 (txt "0[4]" ++ [9] ++ txt "b: word")].
Proof.
  assert (P : placed rf u false [] either_die) by (apply pl_top; cbn; tauto).
  split; [exact P|]. split; [apply alone; reflexivity|]. split; [named_now O|]. split; [number_now 1%nat|].
  apply (ml_union rf 2 u either_die false [] [(0, 32, [Line 2 (txt "0[4]" ++ [9] ++ txt "a: int")]); (0, 32, [Line 2 (txt "0[4]" ++ [9] ++ txt "b: word")])]);
    [reflexivity|exact P|].
  constructor; [|constructor; [|constructor]].
  - apply (ptl_named rf 2 u a_die "a" 0 32 (txt "int")); [reflexivity|plain_now|named_now O|now apply not_encoded|apply int_named; gives_now 1%nat| | |apply PropertiesEnd.int_text; gives_now 1%nat].
    + apply sts_bytes; [lacks_now|lacks_now|apply ba_none; lacks_now].
    + apply (hw_bytes rf u _ 4); [lacks_now|apply PropertiesEnd.int_bytes; gives_now 1%nat|reflexivity].
  - apply (ptl_named rf 2 u b_die "b" 0 32 (txt "word")); [reflexivity|plain_now|named_now O|now apply not_encoded|apply word_named; gives_now 1%nat| | |apply word_text; gives_now 1%nat].
    + apply sts_bytes; [lacks_now|lacks_now|apply ba_none; lacks_now].
    + apply (hw_bytes rf u _ 4); [lacks_now|apply word_bytes; gives_now 1%nat|reflexivity].
Qed.
Example C98_enumeration_example :
  placed rf u false [Some "geo"] colour_die /\ shown_alone rf u colour_die /\ named rf u is_name (rd_attrs colour_die) (Some "Colour") /\
  entry_bytes rf u colour_die 4 /\
  (forall e a k, In e (rd_children colour_die) -> In a (rd_attrs e) -> snd a = RwConst k -> const_sane k) /\
  enum_unsigned rf u (rd_attrs colour_die) false /\ Forall2 (enumerator_text rf u false) (with_raw_tag 0x28 colour_die) [txt "Red(0)"; txt "Blue(7)"] /\
  raw_wanted sample_settings [Some "geo"] (Some "Colour").
Proof.
  assert (P : placed rf u false [Some "geo"] colour_die) by (apply PropertiesEnd.point_placed; cbn; tauto).
  split; [exact P|]. split; [apply alone; reflexivity|]. split; [named_now O|].
  split; [apply (eb_enumeration rf u colour_die false [Some "geo"]); [reflexivity|exact P|lacks_now|apply PropertiesEnd.int_bytes; gives_now 1%nat]|].
  split.
  { intros e a k I J E. cbn in I. destruct I as [<-|[<-|[]]]; cbn in J; destruct J as [<-|[<-|[]]]; try discriminate E; injection E as <-; exact I. }
  split.
  { apply (eu_base rf u _ (RwUnitRef 20) u int_die false [] 5); [gives_now 1%nat|apply (rfs_unit rf u int_die); cbn; tauto|reflexivity|apply pl_top; now left|gives_now 2%nat]. }
  split.
  { constructor; [|constructor; [|constructor]].
    - apply (ent_signed rf u false red_die (Some "Red") (SignedData 0) 0); [named_now O|gives_now 1%nat|constructor].
    - apply (ent_signed rf u false blue_die (Some "Blue") (SignedData 7) 7); [named_now O|gives_now 1%nat|constructor]. }
  split; [intros m E; discriminate E|exists [Some "geo"]; reflexivity].
Qed.
Example C98_typedef_example :
  placed rf u false [] packet_die /\ shown_alone rf u packet_die /\ named rf u is_name (rd_attrs packet_die) (Some "packet") /\
  type_text rf u 0x49 (rd_attrs packet_die) (txt "struct <anon>") /\ type_bytes rf u (rd_attrs packet_die) 8 /\
  typedef_lines rf u (rd_attrs packet_die)
    [Line 2 (txt "0[4]" ++ [9] ++ txt "n: int"); Line 2 (txt "4[4]" ++ [9] ++ txt "<anon>: union <anon>");
     Line 3 (txt "0[4]" ++ [9] ++ txt "i: int"); Line 3 (txt "0[4]" ++ [9] ++ txt "w: word")].
Proof.
  assert (PS : placed rf u false [] struct_die) by (apply pl_top; cbn; tauto).
  assert (PU : placed rf u false [] union_die) by (apply pl_top; cbn; tauto).
  split; [apply pl_top; cbn; tauto|]. split; [apply alone; reflexivity|]. split; [named_now O|].
  split.
  { eapply tt_entry; [gives_now 1%nat|apply (rfs_unit rf u struct_die)| |]; [cbn; tauto|apply PropertiesEnd.sample_below; cbn; tauto|].
    eapply (et_named rf u struct_die false [] None "struct " "<anon>"); [right; now left|exact PS|unnamed_now]. }
  split.
  { eapply tb_entry; [gives_now 1%nat|apply (rfs_unit rf u struct_die)| |]; [cbn; tauto|apply PropertiesEnd.sample_below; cbn; tauto|].
    eapply (eb_given rf u struct_die false []); [right; now left|exact PS|number_now O]. }
  apply tdl_members.
  { exists (RwUnitRef 170), u, struct_die, false, []. split; [gives_now 1%nat|]. split; [apply (rfs_unit rf u struct_die); cbn; tauto|].
    split; [now left|]. split; [exact PS|unnamed_now]. }
  eapply inl_entry; [gives_now 1%nat|apply (rfs_unit rf u struct_die); cbn; tauto|apply PropertiesEnd.sample_below; cbn; tauto|].
  pose (shapes := [(0, 32, [Line 2 (txt "0[4]" ++ [9] ++ txt "n: int")]);
     (32, 32, [Line 2 (txt "4[4]" ++ [9] ++ txt "<anon>: union <anon>"); Line 3 (txt "0[4]" ++ [9] ++ txt "i: int"); Line 3 (txt "0[4]" ++ [9] ++ txt "w: word")])]).
  apply (ml_struct rf 2 u struct_die false [] (Some 8) shapes shapes); subst shapes.
  - now left.
  - exact PS.
  - split; [number_now O|reflexivity].
  - constructor; [|constructor; [|constructor]].
    + apply (ptl_named rf 2 u n_die "n" 0 32 (txt "int")); [reflexivity|plain_now|named_now O|now apply not_encoded|apply int_named; gives_now 1%nat| | |apply PropertiesEnd.int_text; gives_now 1%nat].
      * apply sts_bytes; [lacks_now|lacks_now|apply (ba_number u _ (RwConst (UnsignedData 0)) 0); [gives_now 2%nat|constructor|discriminate|reflexivity]].
      * apply (hw_bytes rf u _ 4); [lacks_now|apply PropertiesEnd.int_bytes; gives_now 1%nat|reflexivity].
    + apply (ptl_shown rf 2 u inner_die None 32 32 (txt "union <anon>")
        [Line 3 (txt "0[4]" ++ [9] ++ txt "i: int"); Line 3 (txt "0[4]" ++ [9] ++ txt "w: word")]);
        [reflexivity|plain_now|unnamed_now|now left| | | |].
      * apply sts_bytes; [lacks_now|lacks_now|apply (ba_number u _ (RwConst (UnsignedData 4)) 4); [gives_now 1%nat|constructor|discriminate|reflexivity]].
      * apply (hw_bytes rf u _ 4); [lacks_now| |reflexivity].
        eapply tb_entry; [gives_now O|apply (rfs_unit rf u union_die)| |]; [cbn; tauto|apply PropertiesEnd.sample_below; cbn; tauto|].
        eapply (eb_given rf u union_die false []); [cbn; tauto|exact PU|number_now O].
      * eapply tt_entry; [gives_now O|apply (rfs_unit rf u union_die)| |]; [cbn; tauto|apply PropertiesEnd.sample_below; cbn; tauto|].
        eapply (et_named rf u union_die false [] None "union " "<anon>"); [cbn; tauto|exact PU|unnamed_now].
      * eapply inl_entry; [gives_now O|apply (rfs_unit rf u union_die); cbn; tauto|apply PropertiesEnd.sample_below; cbn; tauto|].
        apply (ml_union rf 3 u union_die false [] [(0, 32, [Line 3 (txt "0[4]" ++ [9] ++ txt "i: int")]); (0, 32, [Line 3 (txt "0[4]" ++ [9] ++ txt "w: word")])]);
          [reflexivity|exact PU|].
        constructor; [|constructor; [|constructor]].
        -- apply (ptl_named rf 3 u i_die "i" 0 32 (txt "int")); [reflexivity|plain_now|named_now O|now apply not_encoded|apply int_named; gives_now 1%nat| | |apply PropertiesEnd.int_text; gives_now 1%nat].
           ++ apply sts_bytes; [lacks_now|lacks_now|apply ba_none; lacks_now].
           ++ apply (hw_bytes rf u _ 4); [lacks_now|apply PropertiesEnd.int_bytes; gives_now 1%nat|reflexivity].
        -- apply (ptl_named rf 3 u w_die "w" 0 32 (txt "word")); [reflexivity|plain_now|named_now O|now apply not_encoded|apply word_named; gives_now 1%nat| | |apply word_text; gives_now 1%nat].
           ++ apply sts_bytes; [lacks_now|lacks_now|apply ba_none; lacks_now].
           ++ apply (hw_bytes rf u _ 4); [lacks_now|apply word_bytes; gives_now 1%nat|reflexivity].
  - apply strict_order; [reflexivity|]. repeat constructor; cbn; lia.
  - repeat constructor; cbn; lia.
Qed.
Example C98_base_example :
  placed rf u false [] int_die /\ shown_alone rf u int_die /\ named rf u is_name (rd_attrs int_die) (Some "int") /\
  own_size (rd_attrs int_die) (Some 4) /\ encoding_at (rd_attrs int_die) (Some "signed") /\ endianity_at (rd_attrs int_die) None.
Proof.
  split; [apply pl_top; now left|]. split; [apply alone; reflexivity|]. split; [named_now O|]. split; [number_now 1%nat|].
  split; [apply (ea_code _ 5); gives_now 2%nat|apply na_default; lacks_now].
Qed.

(** [enum Value { Small(short), Pair { a: int, b: int } }] in Rust: a structure with a part for the variants, whose discriminant is a member
    without a name, and a structure for each variant. *)
Section Enum.
  Definition short_die : raw_die := RawDie 0x24 24 [(0x03, RwString (chars "short")); (0x0b, RwConst (FixedData 1 2)); (0x3e, RwEncoding 5)] [].
  Definition which_die : raw_die := RawDie 0x0d 44 [(0x49, RwUnitRef 20); (0x38, RwConst (UnsignedData 0))] [].
  Definition is_small_die : raw_die := RawDie 0x0d 52 [(0x03, RwString (chars "Small")); (0x49, RwUnitRef 70); (0x38, RwConst (UnsignedData 0))] [].
  Definition small_variant_die : raw_die := RawDie 0x19 50 [(0x16, RwConst (FixedData 1 0))] [is_small_die].
  Definition is_pair_die : raw_die := RawDie 0x0d 62 [(0x03, RwString (chars "Pair")); (0x49, RwUnitRef 80); (0x38, RwConst (UnsignedData 0))] [].
  Definition pair_variant_die : raw_die := RawDie 0x19 60 [] [is_pair_die].
  Definition part_die : raw_die := RawDie 0x33 40 [(0x15, RwUnitRef 44)] [which_die; small_variant_die; pair_variant_die].
  Definition first_die : raw_die := RawDie 0x0d 72 [(0x03, RwString (chars "__0")); (0x49, RwUnitRef 24); (0x38, RwConst (UnsignedData 6))] [].
  Definition small_die : raw_die := RawDie 0x13 70 [(0x03, RwString (chars "Small")); (0x0b, RwConst (FixedData 1 12))] [first_die].
  Definition pair_a_die : raw_die := RawDie 0x0d 82 [(0x03, RwString (chars "a")); (0x49, RwUnitRef 20); (0x38, RwConst (UnsignedData 4))] [].
  Definition pair_b_die : raw_die := RawDie 0x0d 84 [(0x03, RwString (chars "b")); (0x49, RwUnitRef 20); (0x38, RwConst (UnsignedData 8))] [].
  Definition pair_struct_die : raw_die := RawDie 0x13 80 [(0x03, RwString (chars "Pair")); (0x0b, RwConst (FixedData 1 12))] [pair_b_die; pair_a_die].
  Definition value_die : raw_die :=
    RawDie 0x13 30 [(0x03, RwString (chars "Value")); (0x0b, RwConst (FixedData 1 12))] [part_die; small_die; pair_struct_die].
  Definition enum_raw_unit : raw_unit :=
    mkRawUnit (mkPlace 0 11 100)
      (RawDie 0x11 11 [(0x03, RwString (chars "e.rs")); (0x1b, RwString (chars "/src")); (0x13, RwLanguage 0x1c)] [int_die; short_die; value_die])
      None 4 8 [] [] [] (fun _ => None) [] (fun _ => None).
  Definition enum_raw : raw_file := mkRawFile "e" false [] [] [] [enum_raw_unit] [] [] (fun _ => None) None.
  Definition enum_read : object_input :=
    match read_file enum_raw with Some ob => ob | None => mkObjectInput "" false [] [] [] [] (fun _ => EncOther) (fun _ => EndDefault) (fun _ => []) (fun _ => None) None end.
  Definition value_lines : list line :=
    [Line 2 (txt "0[4]" ++ [9] ++ txt "<anon>: int"); Line 2 (txt "4[8]" ++ [9] ++ txt "<variant part>");
     Line 3 (txt "Small: <0>"); Line 4 (txt "0[2]" ++ [9] ++ txt "<padding>"); Line 4 (txt "6[2]" ++ [9] ++ txt "__0: short"); Line 4 (txt "4[4]" ++ [9] ++ txt "<padding>");
     Line 3 (txt "Pair: <default>"); Line 4 (txt "4[4]" ++ [9] ++ txt "a: int"); Line 4 (txt "8[4]" ++ [9] ++ txt "b: int")].
End Enum.
Local Lemma enum_below d : In d [int_die; short_die; small_die; pair_struct_die] -> In d (raw_below enum_raw_unit).
Proof. intros I. cbn in I. repeat (destruct I as [<-|I]); try contradiction; cbn; tauto. Qed.
Local Lemma enum_base d n name s attrs : In d [int_die; short_die] -> rd_offset d = n -> gives 0x49 attrs (RwUnitRef n) ->
  named enum_raw enum_raw_unit is_name (rd_attrs d) (Some name) -> gives_number 0x0b (rd_attrs d) s ->
  type_named enum_raw enum_raw_unit attrs /\ type_text enum_raw enum_raw_unit 0x49 attrs (txt name) /\ type_bytes enum_raw enum_raw_unit attrs s.
Proof.
  intros I E G N Z. assert (B : In d (raw_below enum_raw_unit)) by (apply enum_below; cbn in *; tauto).
  assert (P : placed enum_raw enum_raw_unit false [] d) by (apply pl_top; cbn in *; tauto).
  assert (T : rd_tag d = 0x24) by (cbn in I; destruct I as [<-|[<-|[]]]; reflexivity).
  subst n. assert (R : refers enum_raw enum_raw_unit (RwUnitRef (rd_offset d)) enum_raw_unit d) by (apply rfs_unit; now apply below_entry).
  split; [|split].
  - intros v x e G' R' T'. rewrite (gives_only _ _ _ _ G (gives_in _ _ _ G')) in *. exfalso. inversion R' as [y J E|]; subst.
    cbn in I. destruct I as [<-|[<-|[]]]; cbn in J; repeat (destruct J as [<-|J]; [first [discriminate E|cbn in T'; intuition discriminate]|]); destruct J.
  - eapply tt_entry; [exact G|exact R|exact B|]. now apply (et_base enum_raw enum_raw_unit d false [] (Some name)).
  - eapply tb_entry; [exact G|exact R|exact B|]. apply (eb_given enum_raw enum_raw_unit d false []); [now left|exact P|exact Z].
Qed.
Local Lemma enum_int attrs : gives 0x49 attrs (RwUnitRef 20) -> type_named enum_raw enum_raw_unit attrs /\
  type_text enum_raw enum_raw_unit 0x49 attrs (txt "int") /\ type_bytes enum_raw enum_raw_unit attrs 4.
Proof. intros G. apply (enum_base int_die 20); [now left|reflexivity|exact G|named_now O|number_now 1%nat]. Qed.
Local Lemma enum_short attrs : gives 0x49 attrs (RwUnitRef 24) -> type_named enum_raw enum_raw_unit attrs /\
  type_text enum_raw enum_raw_unit 0x49 attrs (txt "short") /\ type_bytes enum_raw enum_raw_unit attrs 2.
Proof. intros G. apply (enum_base short_die 24); [right; now left|reflexivity|exact G|named_now O|number_now 1%nat]. Qed.

(** What the variants share comes first; what is left free in a variant is shown with its place from where the variants start, what is
    not with its place in the structure. *)
Example C98_variants_example :
  raw_well_formed enum_raw /\ raw_acyclic enum_raw /\ read_file enum_raw = Some enum_read /\
  print_output 9 sample_first sample_settings enum_read <> None /\
  placed enum_raw enum_raw_unit false [] value_die /\ shown_alone enum_raw enum_raw_unit value_die /\
  members_lines enum_raw 2 enum_raw_unit value_die value_lines.
Proof.
  split.
  { split; [split; cbn; repeat constructor; discriminate|].
    intros x [<-|[]]. split; [discriminate|]. split; [vm_compute; repeat (constructor; [cbn; intuition discriminate|]); constructor|].
    intros d I. unfold inside_unit. cbn in I; repeat (destruct I as [<-|I]; [split; [discriminate|reflexivity]|]); destruct I. }
  split.
  { intros x d [<-|[]] J. constructor. intros y e L. exfalso.
    cbn in J. repeat (destruct J as [<-|J]; [destruct L as [c v T A _ _|p v T]; cbn in T; intuition discriminate|]). destruct J. }
  split; [reflexivity|]. split; [vm_compute; discriminate|].
  assert (P : placed enum_raw enum_raw_unit false [] value_die) by (apply pl_top; cbn; tauto).
  split; [exact P|]. split.
  { intros e v I F A PT. exfalso.
    assert (C : forallb (fun e => forallb (fun a => match snd a with RwUnitRef o => negb (o =? 30) | RwInfoRef _ => false | _ => true end) (rd_attrs e))
      (raw_below enum_raw_unit) = true) by reflexivity.
    rewrite forallb_forall in C. specialize (C e I). rewrite forallb_forall in C. specialize (C _ A). cbn [snd] in C.
    inversion PT as [o x e' _ _ E|x e' _ _ E]; subst; [|discriminate C]. apply negb_true_iff, N.eqb_neq in C. cbn in E. lia. }
  pose (which := (0, 32, [Line 2 (txt "0[4]" ++ [9] ++ txt "<anon>: int")]) : shape).
  pose (part := (32, 64, tl value_lines) : shape).
  apply (ml_struct enum_raw 2 enum_raw_unit value_die false [] (Some 12) [which; part] [which; part]); subst which part.
  - now left.
  - exact P.
  - split; [number_now 1%nat|reflexivity].
  - constructor; [|constructor; [|constructor]].
    + destruct (enum_int (rd_attrs which_die)) as (_ & TX & TB); [gives_now O|].
      apply (ptl_shown enum_raw 2 enum_raw_unit which_die None 0 32 (txt "int") []); [reflexivity|plain_now|unnamed_now|now left| | |exact TX|].
      * apply sts_bytes; [lacks_now|lacks_now|apply (ba_number _ _ (RwConst (UnsignedData 0)) 0); [gives_now 1%nat|constructor|discriminate|reflexivity]].
      * apply (hw_bytes _ _ _ 4); [lacks_now|exact TB|reflexivity].
      * eapply inl_entry; [gives_now O|apply (rfs_unit _ _ int_die); cbn; tauto|apply enum_below; now left|]. apply ml_other. cbn. intuition discriminate.
    + apply (ptl_variants enum_raw 2 enum_raw_unit part_die 32 64 [(48, 64); (32, 96)] (skipn 2 value_lines)); [reflexivity| |right|right].
      2:{ cbn. split; [tauto|]. repeat constructor; lia. }
      2:{ cbn. split; [tauto|]. repeat constructor; lia. }
      pose (first := (48, 16, [Line 4 (txt "6[2]" ++ [9] ++ txt "__0: short")]) : shape).
      pose (pa := (32, 32, [Line 4 (txt "4[4]" ++ [9] ++ txt "a: int")]) : shape).
      pose (pb := (64, 32, [Line 4 (txt "8[4]" ++ [9] ++ txt "b: int")]) : shape).
      apply (vls_cons enum_raw 3 enum_raw_unit 32 64 small_variant_die (Some "Small") [first_die] (Some 0) [first] [seen_from 32 first] 48 64
        [pair_variant_die] [(32, 96)] (skipn 6 value_lines)); subst first.
      * apply (vh_structure _ _ _ is_small_die (RwUnitRef 70) small_die); [apply lga_code; gives_now 2%nat|reflexivity|gives_now 1%nat|
          apply (rfs_unit _ _ small_die); cbn; tauto|apply enum_below; cbn; tauto|reflexivity|named_now O].
      * apply (dia_number _ (RwConst (FixedData 1 0)) 0); [gives_now O|constructor].
      * constructor; [|constructor]. destruct (enum_short (rd_attrs first_die)) as (TN & TX & TB); [gives_now 1%nat|].
        apply (ptl_named enum_raw 4 enum_raw_unit first_die "__0" 48 16 (txt "short")); [reflexivity|plain_now|named_now O|now apply not_encoded|exact TN| | |exact TX].
        -- apply sts_bytes; [lacks_now|lacks_now|apply (ba_number _ _ (RwConst (UnsignedData 6)) 6); [gives_now 2%nat|constructor|discriminate|reflexivity]].
        -- apply (hw_bytes _ _ _ 2); [lacks_now|exact TB|reflexivity].
      * apply strict_order; [reflexivity|]. repeat constructor.
      * repeat constructor; cbn; lia.
      * right. cbn. split; [tauto|]. repeat constructor; lia.
      * right. cbn. split; [tauto|]. repeat constructor; lia.
      * apply (vls_cons enum_raw 3 enum_raw_unit 32 64 pair_variant_die (Some "Pair") [pair_b_die; pair_a_die] None [pb; pa] [seen_from 32 pa; seen_from 32 pb] 32 96 [] [] []); subst pa pb.
        -- apply (vh_structure _ _ _ is_pair_die (RwUnitRef 80) pair_struct_die); [apply lga_code; gives_now 2%nat|reflexivity|gives_now 1%nat|
             apply (rfs_unit _ _ pair_struct_die); cbn; tauto|apply enum_below; cbn; tauto|reflexivity|named_now O].
        -- apply dia_none. lacks_now.
        -- constructor; [|constructor; [|constructor]].
           ++ destruct (enum_int (rd_attrs pair_b_die)) as (TN & TX & TB); [gives_now 1%nat|].
              apply (ptl_named enum_raw 4 enum_raw_unit pair_b_die "b" 64 32 (txt "int")); [reflexivity|plain_now|named_now O|now apply not_encoded|exact TN| | |exact TX].
              ** apply sts_bytes; [lacks_now|lacks_now|apply (ba_number _ _ (RwConst (UnsignedData 8)) 8); [gives_now 2%nat|constructor|discriminate|reflexivity]].
              ** apply (hw_bytes _ _ _ 4); [lacks_now|exact TB|reflexivity].
           ++ destruct (enum_int (rd_attrs pair_a_die)) as (TN & TX & TB); [gives_now 1%nat|].
              apply (ptl_named enum_raw 4 enum_raw_unit pair_a_die "a" 32 32 (txt "int")); [reflexivity|plain_now|named_now O|now apply not_encoded|exact TN| | |exact TX].
              ** apply sts_bytes; [lacks_now|lacks_now|apply (ba_number _ _ (RwConst (UnsignedData 4)) 4); [gives_now 2%nat|constructor|discriminate|reflexivity]].
              ** apply (hw_bytes _ _ _ 4); [lacks_now|exact TB|reflexivity].
        -- apply strict_order; [apply perm_swap|]. repeat constructor; cbn; lia.
        -- repeat constructor; cbn; lia.
        -- right. cbn. split; [tauto|]. repeat constructor; lia.
        -- right. cbn. split; [tauto|]. repeat constructor; lia.
        -- constructor.
  - apply strict_order; [reflexivity|]. repeat constructor; cbn; lia.
  - repeat constructor; cbn; lia.
Qed.
