(** From the values of attributes of two files to their comparison: proofs. *)
From Coq Require Import List Arith NArith ZArith Bool String Lia.
From Verif Require Import MemberProofs DetailSpec Base BaseProofs RangeModel NamespaceModel NamespaceSpec NamespaceProofs TypeModel TypeSpec TypeProofs LayoutModel FileModel FileSpec FilterModel FilterSpec
  FilterProofs DiffModel PrintModel PrintSpec PrintProofs LocationModel RefModel RefSpec RefProofs ReadModel ReadSpec CodeModel ItemModel ItemSpec OptionsModel EntryModel EntrySpec EntryProofs
  IdModel ReportModel ReportSpec DetailModel NameModel MemberSpec WholeModel WholeSpec WholeProofs WholeDepth PropertiesWhole RawModel RawSpec RawProofs PropertiesRaw
  PairSpec KeptVariables PairItems EndSpec EndProofs EndTypes PropertiesEnd EndItemSpec EndItems EndPairSpec.
From Verif Require Import DieModel DieSpec.
Import ListNotations.
Local Open Scope N_scope.

Lemma path_opt_same ns p q : path_opt ns p -> path_opt ns q -> p = q.
Proof. rewrite !path_opt_ns_path. congruence. Qed.

Section Units.
  Lemma head_called rf u m : unit_name rf u m -> head_of (read_unit rf u) = unit_called m.
  Proof. intros N. unfold head_of, unit_called. destruct (C91_root rf u) as (N' & _). now rewrite (named_same rf u _ _ _ _ N' N). Qed.
  Lemma unit_has_name rf u : exists m, unit_name rf u m.
  Proof. destruct (C91_root rf u) as (N & _). eexists. exact N. Qed.
  Lemma nowhere_read given ra u rb b (lacks : raw_unit -> Prop) (lacks' : unit_input -> Prop) : read_file rb = Some b ->
    raw_nowhere given ra u rb lacks -> (forall v, In v (rf_units rb) -> lacks v -> lacks' (read_unit rb v)) ->
    nowhere given b (read_unit ra u) lacks'.
  Proof.
    intros RB (m & N & NS & H) L. split.
    - now rewrite (head_called ra u m N).
    - intros v I S. rewrite (units_read rb b RB) in I. apply in_map_iff in I. destruct I as (w & <- & I).
      destruct (unit_has_name rb w) as (n & Nn). apply L; [exact I|]. apply (H w n I Nn).
      now rewrite <- (head_called ra u m N), <- (head_called rb w n Nn).
  Qed.
  Lemma only_read given ra a u rb v : read_file ra = Some a -> raw_only_unit given ra u rb v -> only_unit given a (read_unit ra u) (read_unit rb v).
  Proof.
    intros RA (m & n & M & Nn & S & NS & NU & l1 & l2 & E & H). unfold only_unit.
    rewrite (head_called ra u m M), (head_called rb v n Nn). do 3 (split; [assumption|]).
    exists (map (read_unit ra) l1), (map (read_unit ra) l2). split.
    - rewrite (units_read ra a RA), E. now rewrite map_app.
    - intros z I. rewrite <- map_app in I. apply in_map_iff in I. destruct I as (w & <- & I).
      destruct (unit_has_name ra w) as (k & Nk). rewrite (head_called ra w k Nk). exact (H w k I Nk).
  Qed.
  Lemma only_in given ra u rb v : raw_only_unit given ra u rb v -> In u (rf_units ra).
  Proof. intros (m & n & _ & _ & _ & _ & _ & l1 & l2 & -> & _). apply in_elt. Qed.
End Units.

Section Items.
  Variable rf : raw_file.
  Variable ob : object_input.
  Hypothesis WF : raw_well_formed rf.
  Hypothesis AC : raw_acyclic rf.
  Hypothesis RD : read_file rf = Some ob.
  Variable u : raw_unit.
  Hypothesis I : In u (rf_units rf).
  Local Notation ui := (read_unit rf u).
  Local Notation cx := (unit_context ob ui).
  Local Notation off_at := (option_map (N.add (ud_begin (ru_place u)))).

  Lemma off_differs e off : Some (die_offset (read_die rf u e)) <> off_at off -> Some (rd_offset e) <> off.
  Proof. rewrite read_offset. destruct off as [n|]; cbn [option_map]; congruence. Qed.

  Lemma no_function_read o off path g : raw_no_function o rf u off path (fu_name g) -> path_opt (fu_namespace g) path -> no_function o ui (off_at off) g.
  Proof.
    intros H P outer d F T O. apply found_entry in F. apply read_entry in F. destruct F as (e & Ie & ->).
    apply off_differs in O. rewrite read_tag_of in T. assert (T' : rd_tag e = 0x2e) by exact (proj1 (tag_iff 0x2e TagSubprogram eq_refl eq_refl _) T).
    destruct (H e Ie T' O) as [(n & N & NE)|(y & G & NE)].
    - right. apply named_is in N. rewrite N. split; [discriminate|exact NE].
    - left. destruct (function_described rf ob u e y WF AC RD I G) as (h & D & _ & PO & NM & HW). exists h. split; [exact D|].
      destruct NE as [NE|[NE|NE]]; [left|left|right; intros X; apply NE; now apply HW]; intros ((p & P1 & P2) & EN); apply NE.
      + now rewrite (path_opt_same _ _ _ PO P2), (path_opt_same _ _ _ P P1).
      + congruence.
  Qed.

  Lemma found_in_namespace outer x : found (ui_children ui) outer x -> outer = TagNamespace -> exists e, x = read_die rf u e /\ in_namespace u e.
  Proof.
    induction 1 as [x J|t x c F IH L J]; intros E.
    - cbn [read_unit ui_children] in J. apply in_map_iff in J. destruct J as (e & <- & J). exists e. split; [reflexivity|now apply inn_top].
    - rewrite E in L. assert (X : t = TagNamespace) by now inversion L.
      destruct (IH X) as (e & -> & K); rewrite read_children in J; apply in_map_iff in J; destruct J as (f & <- & J);
        exists f; split; [reflexivity|]; rewrite read_tag_of in E;
        exact (inn_inside u e f K (proj1 (tag_iff 0x39 TagNamespace eq_refl eq_refl _) E) J).
  Qed.
  Lemma static_read e : static_member (read_die rf u e) -> is_static_member e.
  Proof.
    intros (T & D). rewrite read_tag_of in T. rewrite read_attrs, declared_read in D.
    split; [exact (proj1 (tag_iff 0x0d TagMember eq_refl eq_refl _) T)|]. intros L. apply L.
    apply existsb_exists in D. destruct D as (x & Ix & E). apply N.eqb_eq in E. now subst x.
  Qed.
  Lemma variable_kind d s : variable_entry cx (ui_children ui) d s ->
    (found (ui_children ui) TagNamespace d /\ die_tag d = TagVariable) \/ static_member d.
  Proof. destruct 1; auto. Qed.
  Lemma no_variable_read o off path g : raw_no_variable o rf u off path (vr_name g) -> path_opt (vr_namespace g) path -> no_variable o ob ui (off_at off) g.
  Proof.
    intros H P d F O. pose proof (has_variable_entry cx (ui_children ui) (unit_tree ob ui) d F) as J. apply read_entry in J.
    destruct J as (e & Ie & ->). apply off_differs in O.
    assert (K : in_namespace u e /\ rd_tag e = 0x34 \/ is_static_member e).
    { assert (V : exists s, variable_entry cx (ui_children ui) (read_die rf u e) s) by (destruct F; eauto).
      destruct V as (s & V). apply variable_kind in V. destruct V as [(V & T)|V]; [left|right; now apply static_read].
      destruct (found_in_namespace _ _ V eq_refl) as (f & E & K). rewrite read_tag_of in T.
      split; [|exact (proj1 (tag_iff 0x34 TagVariable eq_refl eq_refl _) T)].
      apply found_entry in V. assert (Jf : In f (raw_below u)).
      { clear - K. induction K as [d J|e d K IH T J]; unfold raw_below in *.
        - apply in_flat_map. exists d. split; [exact J|]. rewrite entries_root. now left.
        - apply in_flat_map in IH. destruct IH as (x & Ix & Je). apply in_flat_map. exists x. split; [exact Ix|].
          apply (raw_entries_trans x e d Je). rewrite entries_root. right. apply in_flat_map. exists d. split; [exact J|]. rewrite entries_root. now left. }
      assert (EO : ud_begin (ru_place u) + rd_offset e = ud_begin (ru_place u) + rd_offset f).
      { rewrite <- !(read_offset rf u). now rewrite E. }
      destruct (place_unique rf WF u e u f I Ie I Jf EO) as (_ & ->). exact K. }
    destruct (H e Ie K O) as [(n & N & NE)|(NS & y & G & NE)].
    - right. apply named_is in N. rewrite N. split; [discriminate|exact NE].
    - left. split; [now apply statics_none|]. destruct (variable_described rf ob u e y WF AC RD I G) as (h & D & _ & PO & NM & HW). exists h. split; [exact D|].
      destruct NE as [NE|[NE|NE]]; [left|left|right; intros X; apply NE; now apply HW]; intros ((p & P1 & P2) & EN); apply NE.
      + now rewrite (path_opt_same _ _ _ PO P2), (path_opt_same _ _ _ P P1).
      + congruence.
  Qed.

  Lemma identity_read ns d t k i : describes_type cx ns (read_die rf u d) (t_kind t) -> type_identity t k i ->
    type_rank (rd_tag d) = Some k /\ snd i = given_name (die_attrs (read_die rf u d)) /\
    ((rd_tag d = 0x24 /\ fst i = []) \/ (rd_tag d <> 0x24 /\ path_opt ns (fst i))).
  Proof.
    intros D (ns' & L & P). destruct t as [ot kd]. cbn [t_kind] in D.
    inversion D as [T1 K|T1 K|ms ps bs T1 M V B K|ms T1 M K|T1 K|T1 K]; subst kd; inversion L; subst; rewrite read_tag_of in T1.
    - assert (X : rd_tag d = 0x24) by exact (proj1 (tag_iff 0x24 TagBase eq_refl eq_refl _) T1). rewrite X. split; [reflexivity|]. split; [reflexivity|].
      left. split; [reflexivity|]. now inversion P.
    - assert (X : rd_tag d = 0x16) by exact (proj1 (tag_iff 0x16 TagTypedef eq_refl eq_refl _) T1). rewrite X. split; [reflexivity|]. split; [reflexivity|].
      right. split; [discriminate|exact P].
    - assert (X : rd_tag d = 0x13 \/ rd_tag d = 0x02).
      { destruct T1 as [T1|T1]; [left; exact (proj1 (tag_iff 0x13 TagStructure eq_refl eq_refl _) T1)|right; exact (proj1 (tag_iff 0x02 TagClass eq_refl eq_refl _) T1)]. }
      destruct X as [X|X]; rewrite X; (split; [reflexivity|]); (split; [reflexivity|]); right; (split; [discriminate|exact P]).
    - assert (X : rd_tag d = 0x17) by exact (proj1 (tag_iff 0x17 TagUnion eq_refl eq_refl _) T1). rewrite X. split; [reflexivity|]. split; [reflexivity|].
      right. split; [discriminate|exact P].
    - assert (X : rd_tag d = 0x04) by exact (proj1 (tag_iff 0x04 TagEnumeration eq_refl eq_refl _) T1). rewrite X. split; [reflexivity|]. split; [reflexivity|].
      right. split; [discriminate|exact P].
  Qed.
  (** What an entry of a type gives is its identity. *)
  Lemma identity_given ns d t path name : describes_type cx ns (read_die rf u d) (t_kind t) -> path_opt ns path ->
    named rf u is_name (rd_attrs d) name -> In (rd_tag d) [0x24; 0x16; 0x13; 0x02; 0x17; 0x04] ->
    forall k, type_rank (rd_tag d) = Some k -> type_identity t k (type_path d path, name).
  Proof.
    intros D P N T k R. apply named_is in N. destruct t as [ot kd]. cbn [t_kind] in D. unfold type_path.
    inversion D as [T1 K|T1 K|ms ps bs T1 M V B K|ms T1 M K|T1 K|T1 K]; subst kd; rewrite read_tag_of in T1; rewrite N.
    - assert (X : rd_tag d = 0x24) by exact (proj1 (tag_iff 0x24 TagBase eq_refl eq_refl _) T1). rewrite X in R |- *. injection R as <-.
      exists None. split; [exact (ls_base ot (mkBase _ _))|constructor].
    - assert (X : rd_tag d = 0x16) by exact (proj1 (tag_iff 0x16 TagTypedef eq_refl eq_refl _) T1). rewrite X in R |- *. injection R as <-.
      exists ns. split; [exact (ls_def ot (mkDef _ _ _))|exact P].
    - assert (X : rd_tag d = 0x13 \/ rd_tag d = 0x02).
      { destruct T1 as [T1|T1]; [left; exact (proj1 (tag_iff 0x13 TagStructure eq_refl eq_refl _) T1)|right; exact (proj1 (tag_iff 0x02 TagClass eq_refl eq_refl _) T1)]. }
      destruct X as [X|X]; rewrite X in R |- *; injection R as <-; (exists ns; split; [exact (ls_struct ot (mkStruct _ _ _ _ _ _ _))|exact P]).
    - assert (X : rd_tag d = 0x17) by exact (proj1 (tag_iff 0x17 TagUnion eq_refl eq_refl _) T1). rewrite X in R |- *. injection R as <-.
      exists ns. split; [exact (ls_union ot (mkUnion _ _ _ _ _))|exact P].
    - assert (X : rd_tag d = 0x04) by exact (proj1 (tag_iff 0x04 TagEnumeration eq_refl eq_refl _) T1). rewrite X in R |- *. injection R as <-.
      exists ns. split; [exact (ls_enum ot (mkEnum _ _ _ _ _))|exact P].
    - exfalso. cbn [In] in T. repeat (destruct T as [T|T]; [rewrite <- T in T1; discriminate T1|]). destruct T.
  Qed.
  Lemma identity_same t k i k' i' : type_identity t k i -> type_identity t k' i' -> k = k' /\ i = i'.
  Proof.
    intros (ns & L & P) (ns' & L' & P'). destruct i as (p, n), i' as (p', n'). cbn [fst snd] in *.
    inversion L; subst; inversion L'; subst; (split; [reflexivity|]); f_equal; eapply path_opt_same; eauto.
  Qed.
  Lemma no_type_read off t k path name : type_identity t k (path, name) -> raw_no_type rf u off (Some k) path name -> no_type ob ui (off_at off) t.
  Proof.
    intros TI H outer d F NE T O. apply found_entry in F. apply read_entry in F. destruct F as (e & Ie & ->). apply off_differs in O.
    assert (C : type_rank (rd_tag e) = Some k \/ type_rank (rd_tag e) <> Some k).
    { destruct (type_rank (rd_tag e)) as [j|]; [destruct (Nat.eq_dec j k); [left|right]; congruence|right; discriminate]. }
    assert (ID : forall ns s, describes_type cx ns (read_die rf u e) (t_kind s) -> same_type t s ->
      type_rank (rd_tag e) = Some k /\ name = given_name (die_attrs (read_die rf u e)) /\ (rd_tag e <> 0x24 -> path_opt ns path)).
    { intros ns s D (k' & i & A & B). destruct (identity_same t k _ k' i TI A) as (<- & <-).
      destruct (identity_read ns e s k _ D B) as (X & Y & Z). cbn [fst snd] in *. split; [exact X|]. split; [exact Y|]. intros W. tauto. }
    destruct C as [C|C].
    - destruct (H e Ie C O) as [(n & N & NN)|(b & p & P & NP & NB)].
      + right. intros ns s _ D S. destruct (ID ns s D S) as (_ & X & _). apply NN. apply named_is in N. congruence.
      + left. destruct (placed_located rf u b p e P) as (outer' & ns & L & PO & _ & NO & _). exists outer', ns. split; [exact NO|]. split; [exact L|].
        intros s _ D S. destruct (ID ns s D S) as (_ & _ & X). apply NP. exact (path_opt_same ns p path PO (X NB)).
    - right. intros ns s _ D S. destruct (ID ns s D S) as (X & _). contradiction.
  Qed.
End Items.
