(** How the types of a file are written, and their sizes: proofs. *)
From Coq Require Import List Arith NArith ZArith Bool String Lia.
From Verif Require Import Base BaseProofs RangeModel NamespaceModel NamespaceSpec TypeModel TypeSpec TypeProofs TypeSizeProofs FileModel LocationModel ReadModel ReadSpec
  ReadProofs FilterSpec PrintModel PrintSpec NameModel RefSpec RefProofs ItemModel ItemSpec EntryModel EntrySpec DescribeProofs MemberSpec WholeModel WholeSpec
  WholeProofs WholeDepth PropertiesWhole RawModel RawSpec RawProofs PropertiesRaw EndSpec EndProofs.
From Verif Require Import DieModel DieSpec.
Import ListNotations.
Local Open Scope N_scope.

(** ** Texts are unique *)

Scheme spelled_mut := Minimality for spelled Sort Prop
  with parameters_mut := Minimality for parameters_spelled Sort Prop
  with return_mut := Minimality for return_spelled Sort Prop.

Lemma spelled_same env names t x y : spelled env names t x -> spelled env names t y -> x = y.
Proof.
  intros H. revert y. revert t x H.
  apply (spelled_mut env names (fun t x => forall y, spelled env names t y -> x = y)
    (fun ns tys ps => forall qs, parameters_spelled env names ns tys qs -> ps = qs)
    (fun t x => forall y, return_spelled env names t y -> x = y)).
  - intros y H. now inversion H.
  - intros t K y H. inversion H; congruence.
  - intros t x K y H. inversion H; congruence.
  - intros t x K y H. inversion H; congruence.
  - intros t x K y H. inversion H; congruence.
  - intros t x K y H. inversion H; congruence.
  - intros t x K y H. inversion H; congruence.
  - intros t x e dims K _ IH D y H. inversion H as [| | | | | | |? x' e' dims' K' S' D'| | | | | | ]; try congruence. subst.
    rewrite K in K'. injection K' as <-. rewrite (IH _ S').
    assert (dims = dims') as ->; [|reflexivity]. destruct D as [(A & ->)|(A & ->)], D' as [(B & ->)|(B & ->)]; congruence.
  - intros t x ps r K _ IP _ IR y H. inversion H as [| | | | | | | |? x' ps' r' K' P' R'| | | | | ]; try congruence. subst.
    rewrite K in K'. injection K' as <-. now rewrite (IP _ P'), (IR _ R').
  - intros t x K y H. inversion H; congruence.
  - intros t x c m K _ IC _ IM y H. inversion H as [| | | | | | | | | |? x' c' m' K' C' M'| | | ]; try congruence. subst.
    rewrite K in K'. injection K' as <-. now rewrite (IC _ C'), (IM _ M').
  - intros t x m K N _ IM y H. inversion H as [| | | | | | | | | | |? x' m' K' N' M'|? x' n K' N'| ]; try congruence. subst.
    rewrite K in K'. injection K' as <-. now rewrite (IM _ M').
  - intros t x n K N y H. inversion H; congruence.
  - intros t x s K A _ B y H. inversion H as [| | | | | | | | | | | | |? x' s' K' A' B']; try congruence. subst.
    rewrite K in K'. injection K' as <-. f_equal. destruct (sr_name x) as [n|]; [|now apply B, B'].
    now rewrite (A n eq_refl), (A' n eq_refl).
  - intros ns qs H. now inversion H.
  - intros ns ty tys s ps _ IS _ IP qs H. inversion H as [|? ? ? s' ps' S' P']; subst. now rewrite (IS _ S'), (IP _ P').
  - intros y H. now inversion H.
  - intros t K y H. inversion H; congruence.
  - intros t s K _ IS y H. inversion H as [|? K'|? s' K' S']; [congruence|]. subst. now rewrite (IS _ S').
Qed.

(** ** Places *)

Lemma placed_below rf u b path d : placed rf u b path d -> In d (raw_below u).
Proof.
  assert (CH : forall e d, In e (raw_below u) -> In d (rd_children e) -> In d (raw_below u)).
  { intros e x I J. unfold raw_below in *. apply in_flat_map in I. destruct I as (r & Ir & I). apply in_flat_map. exists r.
    split; [exact Ir|]. clear Ir. revert I. induction r as [t o a l IH] using raw_die_ind'. cbn [raw_entries]. intros [<-|I].
    - right. apply in_flat_map. exists x. split; [exact J|]. rewrite entries_root. now left.
    - right. apply in_flat_map in I. destruct I as (c & Ic & I). apply in_flat_map. exists c. split; [exact Ic|]. now apply IH. }
  induction 1 as [d I|path e n d _ IH _ _ I|b path e n d _ IH _ _ I]; [|now apply (CH e)|now apply (CH e)].
  unfold raw_below. apply in_flat_map. exists d. split; [exact I|]. rewrite entries_root. now left.
Qed.

Definition namespace_text (ns : option namespace) : text :=
  match ns with Some n => text_value (namespace_value n) | None => [] end.
Lemma path_text_app p n : path_text (p ++ [n]) = path_text p ++ name_or "<anon>" n ++ txt "::".
Proof. unfold path_text. rewrite flat_map_app. cbn [flat_map]. now rewrite app_nil_r. Qed.
Lemma namespace_step ns n k path : k <> KFunction -> path_opt ns path -> namespace_text ns = path_text path ->
  path_opt (Some (Ns ns n k)) (path ++ [n]) /\ namespace_text (Some (Ns ns n k)) = path_text (path ++ [n]).
Proof.
  intros NK P T. split.
  - constructor. inversion P; subst; now constructor.
  - rewrite path_text_app, <- T. cbn [namespace_text namespace_value text_value]. unfold name_or.
    destruct ns as [x|]; cbn [text_value namespace_text app]; f_equal; destruct n; destruct k; try congruence; reflexivity.
Qed.

Lemma placed_located rf u b path d : placed rf u b path d ->
  exists outer ns, located (unit_base (read_unit rf u)) (ui_children (read_unit rf u)) outer ns (read_die rf u d) /\
    path_opt ns path /\ namespace_text ns = path_text path /\ outer <> TagEnumeration /\
    (b = false -> outer = TagNamespace) /\ (b = true -> In outer [TagStructure; TagClass; TagUnion]) /\
    (Forall (fun n => n <> None) path -> forall n, ns = Some n -> ~ in_unnamed_type n).
Proof.
  induction 1 as [d I|path e n d _ IH T N I|b path e n d _ IH T N I].
  - exists TagNamespace, None. split; [apply loc_top; cbn [read_unit ui_children]; now apply in_map|]. repeat split; try discriminate. constructor.
  - destruct IH as (outer & ns & L & P & TX & _ & O & _ & _). rewrite (O eq_refl) in L. apply named_is in N.
    destruct (namespace_step ns n KNamespace path) as (P' & T'); [discriminate|exact P|exact TX|].
    exists TagNamespace, (Some (Ns ns n KNamespace)). split.
    + destruct e as [t o a l]. cbn [rd_tag] in T. subst t. cbn [read_die die_attrs] in *. rewrite <- N. eapply loc_namespace; [exact L|].
      cbn [rd_children] in I. now apply in_map.
    + split; [exact P'|]. split; [exact T'|]. repeat split; try discriminate. intros _ m [= <-] X. inversion X.
  - destruct IH as (outer & ns & L & P & TX & NE & O & _ & U). apply named_is in N.
    destruct (namespace_step ns n KType path) as (P' & T'); [discriminate|exact P|exact TX|].
    assert (TT : In (read_tag (rd_tag e)) [TagStructure; TagClass; TagUnion]).
    { destruct T as [<-|[<-|[<-|[]]]]; cbn; tauto. }
    exists (read_tag (rd_tag e)), (Some (Ns ns n KType)). split.
    + destruct e as [t o a l]. cbn [rd_tag] in *. cbn [read_die die_attrs] in *. rewrite <- N. eapply loc_type; [exact L|exact NE| |].
      * cbn in TT |- *. tauto.
      * cbn [rd_children] in I. now apply in_map.
    + split; [exact P'|]. split; [exact T'|]. split; [|split; [discriminate|split; [now intros _|]]].
      * intros X. rewrite X in TT. cbn in TT. intuition discriminate.
      * intros F m [= <-] X. apply Forall_app in F. destruct F as (F & F1). inversion F1 as [|? ? N1 _]; subst.
        inversion X as [|? ? X']; subst; [now apply N1|]. now apply (U F _ eq_refl).
Qed.

(** ** Types that are found *)

Scheme type_text_mut := Minimality for type_text Sort Prop
  with entry_text_mut := Minimality for entry_text Sort Prop
  with parameters_text_mut := Minimality for parameters_text Sort Prop
  with result_text_mut := Minimality for result_text Sort Prop.
Combined Scheme texts_ind from type_text_mut, entry_text_mut, parameters_text_mut, result_text_mut.
Scheme type_bytes_mut := Minimality for type_bytes Sort Prop
  with entry_bytes_mut := Minimality for entry_bytes Sort Prop.
Combined Scheme bytes_ind from type_bytes_mut, entry_bytes_mut.

Section File.
  Variable rf : raw_file.
  Variable ob : object_input.
  Hypothesis WF : raw_well_formed rf.
  Hypothesis RD : read_file rf = Some ob.

  Local Notation place u d := (ud_begin (ru_place u) + rd_offset d).

  Lemma object_well_formed : well_formed ob.
  Proof. exact (C88_well_formed rf ob WF RD). Qed.
  Lemma units_read : ob_units ob = map (read_unit rf) (rf_units rf).
  Proof. destruct (C91_units rf) as (_ & H). now apply H. Qed.
  Lemma unit_in u : In u (rf_units rf) -> In (read_unit rf u) (ob_units ob).
  Proof. intros I. rewrite units_read. now apply in_map. Qed.
  Lemma below_in u d : In d (raw_below u) -> In (read_die rf u d) (unit_entries (read_unit rf u)).
  Proof. intros I. rewrite read_below. now apply in_map. Qed.
  Lemma refers_in u v x e : In u (rf_units rf) -> refers rf u v x e -> In x (rf_units rf).
  Proof. intros I []; auto. Qed.

  Lemma placed_type u b path d : In u (rf_units rf) -> placed rf u b path d -> is_type_tag (read_tag (rd_tag d)) = true ->
    exists t ns, from_offset (type_at ob) (place u d) = Some t /\ t_offset t = place u d /\
      path_opt ns path /\ namespace_text ns = path_text path /\
      describes_type (unit_context ob (read_unit rf u)) ns (read_die rf u d) (t_kind t).
  Proof.
    intros I P T. destruct (placed_located rf u b path d P) as (outer & ns & L & PO & TX & NE & _).
    destruct (C81_types ob (read_unit rf u) outer ns (read_die rf u d) object_well_formed (unit_in u I) L NE) as (t & F & O & D).
    - now rewrite read_tag_of.
    - rewrite read_offset in *. exists t, ns. auto.
  Qed.
  Lemma unnamed_type_at u d : In u (rf_units rf) -> In d (raw_below u) -> is_unnamed_tag (read_tag (rd_tag d)) = true ->
    exists k, from_offset (type_at ob) (place u d) = Some (mkType (place u d) k) /\
      describes_unnamed (ru_address_size u) (read_die rf u d) k.
  Proof.
    intros I J T. destruct (C81_unnamed ob (read_unit rf u) (read_die rf u d) object_well_formed (unit_in u I) (below_in u d J)) as (k & F & D).
    - now rewrite read_tag_of.
    - rewrite read_offset in F. exists k. split; [exact F|]. destruct (C91_root rf u) as (_ & _ & _ & _ & E & _). now rewrite E in D.
  Qed.

  (** Dimensions. *)
  Lemma read_dimensions u d : MemberSpec.dimensions (die_children (read_die rf u d)) = map (read_die rf u) (with_raw_tag 0x21 d).
  Proof.
    rewrite read_children. unfold MemberSpec.dimensions, with_raw_tag. induction (rd_children d) as [|c l IH]; [reflexivity|].
    cbn [map filter]. rewrite read_tag_of, IH. destruct (N.eqb_spec (rd_tag c) 0x21) as [->|NE]; [reflexivity|].
    destruct (read_tag (rd_tag c)) eqn:E; try reflexivity. exfalso. apply NE.
    destruct (C91_numbers) as (_ & _ & H & _). specialize (H (rd_tag c)). rewrite E in H. cbn in H. destruct H as [<-|[]]. reflexivity.
  Qed.
  Lemma extents_dimensions u d ns : extents d ns -> dimensions_given (die_children (read_die rf u d)) (map Z.of_N ns).
  Proof.
    intros (NE & F). unfold dimensions_given. rewrite read_dimensions.
    assert (E : forall c n, extent (rd_attrs c) n -> n < u64_max /\ dimension_is (die_attrs (read_die rf u c)) (Z.of_N n) /\
      (given_count (die_attrs (read_die rf u c)) <> None \/
       (exists n, dimension_is (die_attrs (read_die rf u c)) n /\ (0 < n)%Z) /\
       forall z, given_lower (die_attrs (read_die rf u c)) = Some z -> (0 <= z)%Z)).
    { intros c n X. rewrite read_attrs. destruct X as [n G|n L1 L2 G B|lo hi L G1 G2 LE B].
      - assert (K := count_is rf u _ _ G). destruct G as (v & _ & _ & LT). split; [exact LT|]. split; [now left|]. left. rewrite K. discriminate.
      - assert (D : dimension_is (map (read_attr rf u) (rd_attrs c)) (Z.of_N (n + 1))).
        { right. split; [now apply count_none|]. exists 0%Z, (Z.of_N n). split; [now apply upper_is|]. rewrite lower_none by exact L2.
          split; [reflexivity|]. unfold elements. lia. }
        split; [exact B|]. split; [exact D|]. right. split; [exists (Z.of_N (n + 1)); split; [exact D|lia]|].
        rewrite lower_none by exact L2. discriminate.
      - assert (D : dimension_is (map (read_attr rf u) (rd_attrs c)) (Z.of_N (hi - lo + 1))).
        { right. split; [now apply count_none|]. exists (Z.of_N lo), (Z.of_N hi). split; [now apply upper_is|].
          rewrite (lower_is rf u _ lo G1). split; [reflexivity|]. unfold elements. lia. }
        split; [exact B|]. split; [exact D|]. right. split; [exists (Z.of_N (hi - lo + 1)); split; [exact D|lia]|].
        intros z. rewrite (lower_is rf u _ lo G1). intros [= <-]. lia. }
    split; [|split; [|split]].
    - clear NE. induction F as [|c n cs ns X _ IH]; cbn [map]; constructor; [apply (E c n X)|exact IH].
    - intros X. now apply map_eq_nil in X.
    - clear NE. induction F as [|c n cs ns X _ IH]; cbn [map]; constructor; [destruct (E c n X); lia|exact IH].
    - clear NE. induction F as [|c n cs ns X _ IH]; cbn [map]; constructor; [apply (E c n X)|exact IH].
  Qed.
  Lemma extents_known d ns : extents d ns -> Forall (fun n => n < u64_max) ns.
  Proof.
    intros (_ & F). induction F as [|c n cs ns X _ IH]; constructor; [|exact IH]. destruct X as [n (v & _ & _ & B)|n _ _ _ B|lo hi _ _ _ _ B]; exact B.
  Qed.
  Lemma counts_shown u d x ns : extents d ns ->
    (forall zs, dimensions_given (die_children (read_die rf u d)) zs -> counts_as_slice x = map Z.to_N zs) ->
    counts_as_slice x = ns /\ TypeSpec.dimensions x ns /\ map number_or_unknown ns = map dec ns.
  Proof.
    intros X H. pose proof (extents_known d ns X) as K. specialize (H _ (extents_dimensions u d ns X)).
    assert (E : counts_as_slice x = ns). { rewrite H, map_map. rewrite (map_ext _ id) by (intros; apply N2Z.id). apply map_id. }
    split; [exact E|]. split.
    - unfold counts_as_slice in E. destruct (a_counts x) as [|c cs] eqn:C; [right; now split|left; split; [congruence|]]. congruence.
    - apply map_ext_in. intros n I. rewrite Forall_forall in K. specialize (K n I). unfold number_or_unknown.
      destruct (N.eqb_spec n u64_max); [lia|reflexivity].
  Qed.

  (** Parameters. *)
  Definition parameter_at (u : raw_unit) (d : raw_die) : parameter_type :=
    mkParameterType (place u d) (given_name (die_attrs (read_die rf u d))) (given_type (die_attrs (read_die rf u d))).
  Lemma parameters_read u l : Forall (fun d => lacks 0x31 (rd_attrs d)) (filter (fun c => rd_tag c =? 0x05) l) ->
    forall ps, extends ps (map (read_die rf u) l) (ps ++ map (parameter_at u) (filter (fun c => rd_tag c =? 0x05) l)).
  Proof.
    induction l as [|c l IH]; intros F ps; cbn [map filter] in *; [rewrite app_nil_r; constructor|].
    destruct (N.eqb_spec (rd_tag c) 0x05) as [E|NE].
    - inversion F as [|? ? L F']; subst. cbn [map]. replace (ps ++ parameter_at u c :: map (parameter_at u) (filter (fun c => rd_tag c =? 5) l))
        with ((ps ++ [parameter_at u c]) ++ map (parameter_at u) (filter (fun c => rd_tag c =? 5) l)) by now rewrite <- app_assoc.
      specialize (IH F' (ps ++ [parameter_at u c])). destruct c as [t o a ch]. cbn [rd_tag] in E. subst t. cbn [read_die].
      change (read_tag 5) with TagParameter. apply ext_new; [|exact IH]. intros or G. cbn [rd_attrs] in L. rewrite origin_none in G by exact L. discriminate.
    - apply ext_skip; [|now apply IH]. rewrite read_tag_of. intros X. apply NE.
      destruct (C91_numbers) as (_ & _ & H & _). specialize (H (rd_tag c)). rewrite X in H. cbn in H. destruct H as [<-|[]]. reflexivity.
  Qed.
  (** ** Texts *)

  (** The offset that an attribute with a number refers to. *)
  Definition refers_to (u : raw_unit) (code : N) (attrs : list (N * raw_value)) : type_offset :=
    if code =? 0x1d then given_containing (map (read_attr rf u) attrs) else given_type (map (read_attr rf u) attrs).
  Local Notation env := (type_at ob).
  Local Notation names := (parameter_names ob).
  Lemma names_at u d k : In u (rf_units rf) -> In d (raw_below u) -> Forall (fun d => lacks 0x31 (rd_attrs d)) (with_raw_tag 0x05 d) ->
    names (mkType (place u d) k) = map (fun c => given_name (die_attrs (read_die rf u c))) (with_raw_tag 0x05 d).
  Proof.
    intros I J F. unfold parameter_names. cbn [t_offset]. rewrite (entry_read rf WF ob RD u d I J), read_children.
    rewrite (parameters_extends _ _ _ (parameters_read u _ F [])). cbn [app]. now rewrite map_map.
  Qed.
  Lemma parameters_lack u ds ts : parameters_text rf u ds ts -> Forall (fun d => lacks 0x31 (rd_attrs d)) ds.
  Proof. induction 1; constructor; auto. Qed.
  Lemma type_word t word default : In (t, (word, default)) type_words -> is_type_tag (read_tag t) = true.
  Proof. intros I. cbn in I. repeat (destruct I as [[= <- _ _]|I]; [reflexivity|]). destruct I. Qed.
  Lemma modifier_word t word : In (t, word) modifier_words -> exists k, read_tag t = TagModifier k /\
    txt word = match k with
         | MPointer => txt "* " | MReference | MRvalueReference => txt "& "
         | MConst => txt "const " | MVolatile => txt "volatile " | MRestrict => txt "restrict "
         | MPacked | MShared | MAtomic | MOther => []
         end.
  Proof. intros I. cbn in I. repeat (destruct I as [[= <- <-]|I]; [eexists; split; reflexivity|]). destruct I. Qed.
  Lemma name_or_same default n : name_or default n = or_name default n.
  Proof. reflexivity. Qed.

  Lemma texts :
    (forall u code attrs t, type_text rf u code attrs t -> In u (rf_units rf) -> code = 0x49 \/ code = 0x1d ->
       spelled env names (from_offset env (refers_to u code attrs)) t /\
       ((exists v, gives code attrs v) -> exists ty, from_offset env (refers_to u code attrs) = Some ty /\ t_kind ty <> TVoid)) /\
    (forall u d t, entry_text rf u d t -> In u (rf_units rf) -> In d (raw_below u) ->
       exists ty, from_offset env (place u d) = Some ty /\ t_kind ty <> TVoid /\ spelled env names (Some ty) t) /\
    (forall u ds ts, parameters_text rf u ds ts -> In u (rf_units rf) ->
       parameters_spelled env names (map (fun c => given_name (die_attrs (read_die rf u c))) ds)
         (map (fun c => given_type (die_attrs (read_die rf u c))) ds) ts) /\
    (forall u attrs r, result_text rf u attrs r -> In u (rf_units rf) ->
       return_spelled env names (from_offset env (given_type (map (read_attr rf u) attrs))) r).
  Proof.
    apply (texts_ind rf
      (fun u code attrs t => In u (rf_units rf) -> code = 0x49 \/ code = 0x1d ->
         spelled env names (from_offset env (refers_to u code attrs)) t /\
         ((exists v, gives code attrs v) -> exists ty, from_offset env (refers_to u code attrs) = Some ty /\ t_kind ty <> TVoid))
      (fun u d t => In u (rf_units rf) -> In d (raw_below u) ->
         exists ty, from_offset env (place u d) = Some ty /\ t_kind ty <> TVoid /\ spelled env names (Some ty) t)
      (fun u ds ts => In u (rf_units rf) ->
         parameters_spelled env names (map (fun c => given_name (die_attrs (read_die rf u c))) ds)
           (map (fun c => given_type (die_attrs (read_die rf u c))) ds) ts)
      (fun u attrs r => In u (rf_units rf) ->
         return_spelled env names (from_offset env (given_type (map (read_attr rf u) attrs))) r)).
    - intros u code attrs L I C. split; [|intros (v & G); destruct (gives_lacks _ _ _ G L)].
      assert (refers_to u code attrs = type_offset_none) as ->.
      { unfold refers_to. destruct C as [->| ->]; [now apply type_none|now apply containing_none]. }
      apply sp_void. reflexivity.
    - intros u code attrs v x e t G R B _ IH I C.
      assert (refers_to u code attrs = place x e) as ->.
      { unfold refers_to. destruct C as [->| ->]; [now apply (type_is rf u attrs v)|now apply (containing_is rf u attrs v)]. }
      destruct (IH (refers_in u v x e I R) B) as (ty & E & NV & S). rewrite E. split; [exact S|]. intros _. now exists ty.
    - intros u d b path n T P N I J.
      destruct (placed_type u b path d I P) as (t & ns & E & _ & _ & _ & D); [now rewrite T|].
      exists t. split; [exact E|]. inversion D as [T' K|T'|? ? ? [T'|T']|? T'|T'|T']; rewrite read_tag_of, T in T'; try discriminate T'.
      split; [congruence|]. apply named_is in N. rewrite <- N. exact (sp_base env names t _ (eq_sym K)).
    - intros u d b path n word default W P N I J.
      destruct (placed_type u b path d I P (type_word _ _ _ W)) as (t & ns & E & _ & _ & TX & D).
      exists t. split; [exact E|]. apply named_is in N. rewrite name_or_same, <- TX, <- N.
      assert (X : forall k, t_kind t = k -> describes_type (unit_context ob (read_unit rf u)) ns (read_die rf u d) k) by (intros k <-; exact D).
      inversion D as [T' K|T' K|? ? ? T' _ _ _ K|? T' _ K|T' K|T' K]; rewrite read_tag_of in T'; clear X;
        cbn in W; repeat (destruct W as [W|W]; [injection W as W0 W1 W2; subst word default; rewrite <- W0 in T'; (discriminate T' || (destruct T' as [T'|T']; discriminate T') || (split; [congruence|]))|]); try contradiction.
      + exact (sp_def env names t _ (eq_sym K)).
      + exact (sp_struct env names t _ (eq_sym K)).
      + exact (sp_struct env names t _ (eq_sym K)).
      + exact (sp_union env names t _ (eq_sym K)).
      + exact (sp_enum env names t _ (eq_sym K)).
      + exact (sp_unspecified env names t _ (eq_sym K)).
    - intros u d word t W N _ IH I J. destruct (modifier_word _ _ W) as (k & T & TX).
      destruct (unnamed_type_at u d I J) as (kd & E & D); [now rewrite T|]. exists (mkType (place u d) kd). split; [exact E|].
      inversion D as [? T'|? T'|? T'|T'|k' T' K]; rewrite read_tag_of, T in T'; try discriminate T'. injection T' as <-. subst kd.
      split; [discriminate|]. apply named_is in N.
      rewrite TX. rewrite read_attrs in *. match goal with |- spelled _ _ (Some (mkType ?o (TModifier ?x))) _ =>
        exact (sp_modifier env names (mkType o (TModifier x)) x t eq_refl N (proj1 (IH I (or_introl eq_refl)))) end.
    - intros u d word n W N I J. destruct (modifier_word _ _ W) as (k & T & _).
      destruct (unnamed_type_at u d I J) as (kd & E & D); [now rewrite T|]. exists (mkType (place u d) kd). split; [exact E|].
      inversion D as [? T'|? T'|? T'|T'|k' T' K]; rewrite read_tag_of, T in T'; try discriminate T'. subst kd. split; [discriminate|].
      apply named_is in N. match goal with |- spelled _ _ (Some (mkType ?o (TModifier ?x))) _ =>
        exact (sp_named_modifier env names (mkType o (TModifier x)) x n eq_refl N) end.
    - intros u d t ns T _ IH X I J.
      destruct (unnamed_type_at u d I J) as (kd & E & D); [now rewrite T|]. exists (mkType (place u d) kd). split; [exact E|].
      inversion D as [x T' A1 A2 A3 K|? T'|? T'|T'|? T']; rewrite read_tag_of, T in T'; try discriminate T'. subst kd. split; [discriminate|].
      destruct (counts_shown u d x ns X A3) as (_ & D1 & <-).
      refine (sp_array env names (mkType (place u d) _) x t ns eq_refl _ D1). rewrite A1, read_attrs. apply IH; auto.
    - intros u d ps r T PT IP _ IR I J.
      destruct (unnamed_type_at u d I J) as (kd & E & D); [now rewrite T|]. exists (mkType (place u d) kd). split; [exact E|].
      inversion D as [? T'|? T'|qs T' X K|T'|? T']; rewrite read_tag_of, T in T'; try discriminate T'. subst kd. split; [discriminate|].
      pose proof (parameters_lack u _ _ PT) as F.
      refine (sp_function env names (mkType (place u d) _) _ ps r eq_refl _ _).
      + rewrite (names_at u d _ I J F). cbn [f_parameters].
        assert (qs = map (parameter_at u) (with_raw_tag 0x05 d)) as ->.
        { rewrite read_children in X. apply parameters_extends in X. rewrite <- X. exact (parameters_extends _ _ _ (parameters_read u _ F [])). }
        rewrite map_map. cbn [parameter_at pt_ty]. exact (IP I).
      + cbn [f_return]. rewrite read_attrs. exact (IR I).
    - intros u d c m T _ IC _ IM I J.
      destruct (unnamed_type_at u d I J) as (kd & E & D); [now rewrite T|]. exists (mkType (place u d) kd). split; [exact E|].
      inversion D as [? T'|? T'|? T'|T' K|? T']; rewrite read_tag_of, T in T'; try discriminate T'. subst kd. split; [discriminate|].
      refine (sp_ptr_to_member env names (mkType (place u d) _) _ c m eq_refl _ _); cbn [pm_containing pm_ty]; rewrite read_attrs.
      + apply IC; auto.
      + apply IM; auto.
    - intros u I. constructor.
    - intros u d n t ds ts N L _ IT _ IP I. cbn [map]. apply named_is in N.
      pose proof (ps_cons env names (given_name (die_attrs (read_die rf u d)) :: map (fun c => given_name (die_attrs (read_die rf u c))) ds)
        (given_type (die_attrs (read_die rf u d))) (map (fun c => given_type (die_attrs (read_die rf u c))) ds) t ts) as H.
      cbn [hd tl] in H. rewrite N in H |- *. apply H; [|exact (IP I)]. rewrite read_attrs. apply IT; auto.
    - intros u attrs L I. rewrite type_none by exact L. apply rs_void. reflexivity.
    - intros u attrs v t G _ IT I. destruct (IT I (or_introl eq_refl)) as (S & H). unfold refers_to in *. change (0x49 =? 0x1d) with false in *. cbv iota in *.
      destruct H as (ty & E & NV); [now exists v|]. rewrite E in *. now apply rs_type.
  Qed.

  (** ** Sizes *)

  Ltac each_tag T T' tac := cbn [In] in T; repeat (destruct T as [T|T]; [rewrite <- T in T'; tac|]); destruct T.

  Lemma not_explicit : ~ explicit u64_max.
  Proof. intros H. now apply H. Qed.
  Lemma given_explicit n : n < u64_max -> explicit n.
  Proof. unfold explicit. lia. Qed.
  Lemma below_two64 n : n < u64_max -> n < 2 ^ 64.
  Proof. unfold u64_max, two64. lia. Qed.
  Lemma product_counted ns : Forall (fun n => n < u64_max) ns -> forall s, s < 2 ^ 64 ->
    mul_counts s ns = Some ((s * fold_right N.mul 1 ns) mod 2 ^ 64).
  Proof.
    induction 1 as [|n ns B F IH]; intros s LT; cbn [mul_counts fold_right].
    - rewrite N.mul_1_r, N.mod_small by exact LT. reflexivity.
    - rewrite explicit_get by now apply given_explicit. rewrite IH by apply wrap64_lt. f_equal.
      change (mul64 s n) with ((s * n) mod 2 ^ 64). rewrite N.mul_mod_idemp_l by discriminate. now rewrite N.mul_assoc.
  Qed.
  Lemma reports_given t n : n < u64_max -> (forall f, byte_size (S f) env t = Done (opt64_get n)) -> reports_size env t (Some n).
  Proof. intros LT H. apply reports_leaf. intros f. rewrite H. f_equal. apply explicit_get. now apply given_explicit. Qed.
  Lemma reports_ref t off r s : from_offset env off = Some r -> reports_size env r s ->
    (forall f, byte_size (S f) env t = match from_offset env off with Some u => byte_size f env u | None => Done None end) ->
    reports_size env t s.
  Proof. intros E (n & H) B. exists (S n). intros [|f] L; [lia|]. rewrite B, E. apply H. lia. Qed.
  Lemma some_given n : n < u64_max -> opt64_is_some n = true.
  Proof. intros LT. unfold opt64_is_some, opt64_none. destruct (N.eqb_spec n u64_max); [lia|reflexivity]. Qed.
  Lemma leaf_founded t : (forall off, ~ size_ref t off) -> (forall o x, t <> mkType o (TPtrToMember x)) -> size_well_founded env t.
  Proof. intros H G. constructor; [intros off u R; destruct (H off R)|]. intros o x u E. destruct (G o x E). Qed.
  Lemma void_size o : size_well_founded env (mkType o TVoid) /\ reports_size env (mkType o TVoid) (Some 0).
  Proof. split; [|apply reports_leaf; reflexivity]. apply leaf_founded; [intros off R; inversion R|discriminate]. Qed.
  Definition sized (off : type_offset) (s : N) : Prop :=
    exists ty, from_offset env off = Some ty /\ size_well_founded env ty /\ reports_size env ty (Some s) /\ s < 2 ^ 64.

  Lemma bytes :
    (forall u attrs s, type_bytes rf u attrs s -> In u (rf_units rf) -> sized (given_type (map (read_attr rf u) attrs)) s) /\
    (forall u d s, entry_bytes rf u d s -> In u (rf_units rf) -> In d (raw_below u) -> sized (place u d) s).
  Proof.
    apply (bytes_ind rf
      (fun u attrs s => In u (rf_units rf) -> sized (given_type (map (read_attr rf u) attrs)) s)
      (fun u d s => In u (rf_units rf) -> In d (raw_below u) -> sized (place u d) s)).
    - intros u attrs L I. rewrite type_none by exact L. exists (mkType type_offset_none TVoid). split; [reflexivity|].
      destruct (void_size type_offset_none) as (H1 & H2). split; [exact H1|]. split; [exact H2|]. reflexivity.
    - intros u attrs v x e s G R B _ IH I. rewrite (type_is rf u attrs v x e G R). apply IH; auto. now apply (refers_in u v x e).
    - intros u d b path s T P G I J.
      destruct (placed_type u b path d I P) as (t & ns & E & TO & _ & _ & D).
      { cbn in T. repeat (destruct T as [<-|T]; [reflexivity|]). destruct T. }
      exists t. split; [exact E|]. pose proof (byte_size_is rf u _ s G) as BS. rewrite <- read_attrs in BS. destruct G as (v & _ & _ & LT).
      destruct t as [o k]. cbn [t_kind t_offset] in *. pose proof LT as EX. rewrite <- BS in EX. pose proof (some_given _ EX) as SG.
      assert (X : size_well_founded env (mkType o k) /\ reports_size env (mkType o k) (Some (given_byte_size (die_attrs (read_die rf u d))))).
      { inversion D as [T' K|T' K|? ? ? T' _ _ _ K|? T' _ K|T' K|T' K]; rewrite read_tag_of in T'; subst k.
        - split; [|apply (reports_given _ _ EX); reflexivity]. apply leaf_founded; [intros off R; inversion R|discriminate].
        - exfalso. each_tag T T' ltac:(discriminate T').
        - split; [|apply (reports_given _ _ EX); reflexivity]. apply leaf_founded; [intros off R; inversion R|discriminate].
        - split; [|apply (reports_given _ _ EX); reflexivity]. apply leaf_founded; [intros off R; inversion R|discriminate].
        - split; [|apply (reports_given _ _ EX); intros f; cbn [byte_size t_kind e_byte_size]; now rewrite SG].
          apply leaf_founded; [intros off R; inversion R as [|? ? NE| | |]; now apply NE, given_explicit|discriminate].
        - exfalso. each_tag T T' ltac:(discriminate T'). }
      destruct X as (X1 & X2). rewrite BS in X2. split; [exact X1|]. split; [exact X2|]. now apply below_two64.
    - intros u d b path s T P _ IH I J.
      destruct (placed_type u b path d I P) as (t & ns & E & TO & _ & _ & D); [now rewrite T|].
      exists t. split; [exact E|]. destruct (IH I) as (r & Er & W & S & LT).
      destruct t as [o k]. cbn [t_kind] in *. rewrite <- read_attrs in Er.
      inversion D as [T' K|T' K|? ? ? [T'|T']|? T'|T'|T']; rewrite read_tag_of, T in T'; try discriminate T'. subst k.
      split; [|split; [apply (reports_ref _ _ r _ Er S); intros f; reflexivity|exact LT]].
      constructor; [|discriminate]. intros off r' R Er'. inversion R; subst. cbn [d_ty] in Er'. congruence.
    - intros u d b path s T P L _ IH I J.
      destruct (placed_type u b path d I P) as (t & ns & E & TO & _ & _ & D); [now rewrite T|].
      exists t. split; [exact E|]. destruct (IH I) as (r & Er & W & S & LT).
      destruct t as [o k]. cbn [t_kind] in *. rewrite <- read_attrs in Er.
      pose proof (byte_size_none rf u _ L) as BS. rewrite <- read_attrs in BS.
      inversion D as [T' K|T' K|? ? ? [T'|T']|? T'|T' K|T']; rewrite read_tag_of, T in T'; try discriminate T'. subst k.
      assert (NX : ~ explicit (given_byte_size (die_attrs (read_die rf u d)))) by (rewrite BS; apply not_explicit).
      split; [|split; [apply (reports_ref _ _ r _ Er S); intros f; cbn [byte_size t_kind e_byte_size e_ty]; now rewrite BS|exact LT]].
      constructor; [|discriminate]. intros off r' R Er'. inversion R; subst. cbn [e_ty] in Er'. congruence.
    - intros u d s T G I J.
      destruct (unnamed_type_at u d I J) as (kd & E & D).
      { cbn in T. repeat (destruct T as [<-|T]; [reflexivity|]). destruct T. }
      exists (mkType (place u d) kd). split; [exact E|].
      pose proof (byte_size_is rf u _ s G) as BS. rewrite <- read_attrs in BS. destruct G as (v & _ & _ & LT).
      pose proof LT as EX. rewrite <- BS in EX. pose proof (some_given _ EX) as SG.
      assert (X : size_well_founded env (mkType (place u d) kd) /\ reports_size env (mkType (place u d) kd) (Some (given_byte_size (die_attrs (read_die rf u d))))).
      { inversion D as [x T' _ A2 _ K|? T'|? T'|T' K|k T' K]; rewrite read_tag_of in T'; subst kd.
        - rewrite <- A2 in *. split; [|apply (reports_given _ _ EX); intros f; cbn [byte_size t_kind ]; now rewrite SG]. apply leaf_founded; [intros off R; inversion R as [| |? ? NE| |]; now apply NE, given_explicit|discriminate].
        - exfalso. each_tag T T' ltac:(discriminate T').
        - exfalso. each_tag T T' ltac:(discriminate T').
        - split; [|apply (reports_given _ _ EX); intros f; cbn [byte_size t_kind pm_byte_size]; now rewrite SG]. constructor; [intros off r R; inversion R|].
          intros o x r [= <- <-] NX. destruct (NX (given_explicit _ EX)).
        - split; [|apply (reports_given _ _ EX); intros f; cbn [byte_size t_kind mo_byte_size]; now rewrite SG].
          apply leaf_founded; [intros off R; inversion R as [| | |? ? NE|]; now apply NE, given_explicit|discriminate]. }
      destruct X as (X1 & X2). rewrite BS in X2. split; [exact X1|]. split; [exact X2|]. now apply below_two64.
    - intros u d T L LT I J.
      destruct (unnamed_type_at u d I J) as (kd & E & D).
      { cbn in T. repeat (destruct T as [<-|T]; [reflexivity|]). destruct T. }
      exists (mkType (place u d) kd). split; [exact E|].
      pose proof (byte_size_none rf u _ L) as BS. rewrite <- read_attrs in BS.
      assert (NX : ~ explicit (given_byte_size (die_attrs (read_die rf u d)))) by (rewrite BS; apply not_explicit).
      inversion D as [? T'|? T'|? T'|T'|k T' K]; rewrite read_tag_of in T'; subst kd;
        try (exfalso; each_tag T T' ltac:(discriminate T'); fail).
      assert (PS : has_pointer_size k).
      { unfold has_pointer_size. each_tag T T' ltac:(injection T' as <-; auto). }
      split; [|split; [apply reports_leaf; intros f; cbn [byte_size t_kind mo_byte_size mo_kind mo_address_size]; rewrite BS; destruct PS as [->|[->| ->]]; reflexivity|now apply below_two64]].
      apply leaf_founded; [intros off R; inversion R as [| | |? ? ? NP|]; now apply NP|discriminate].
    - intros u d T LT I J.
      destruct (unnamed_type_at u d I J) as (kd & E & D); [now rewrite T|].
      exists (mkType (place u d) kd). split; [exact E|].
      inversion D as [? T'|? T'|qs T' _ K|T'|? T']; rewrite read_tag_of, T in T'; try discriminate T'. subst kd.
      split; [apply leaf_founded; [intros off R; inversion R|discriminate]|].
      split; [apply (reports_given _ _ LT); reflexivity|now apply below_two64].
    - intros u d s T L _ IH I J.
      destruct (unnamed_type_at u d I J) as (kd & E & D).
      { cbn in T. repeat (destruct T as [<-|T]; [reflexivity|]). destruct T. }
      exists (mkType (place u d) kd). split; [exact E|]. destruct (IH I) as (r & Er & W & S & LT). rewrite <- read_attrs in Er.
      pose proof (byte_size_none rf u _ L) as BS. rewrite <- read_attrs in BS.
      assert (NX : ~ explicit (given_byte_size (die_attrs (read_die rf u d)))) by (rewrite BS; apply not_explicit).
      inversion D as [? T'|? T'|? T'|T'|k T' K]; rewrite read_tag_of in T'; subst kd;
        try (exfalso; each_tag T T' ltac:(discriminate T'); fail).
      assert (PS : ~ has_pointer_size k).
      { unfold has_pointer_size. each_tag T T' ltac:(injection T' as <-; intros [H|[H|H]]; discriminate H). }
      split; [|split; [apply (reports_ref _ _ r _ Er S); intros f; cbn [byte_size t_kind mo_byte_size mo_kind mo_ty]; rewrite BS; destruct k; try reflexivity; destruct PS; unfold has_pointer_size; auto|exact LT]].
      constructor; [|discriminate]. intros off r' R Er'. inversion R; subst. cbn [mo_ty] in Er'. congruence.
    - intros u d s ns T L _ IH X LT I J.
      destruct (unnamed_type_at u d I J) as (kd & E & D); [now rewrite T|].
      exists (mkType (place u d) kd). split; [exact E|]. destruct (IH I) as (r & Er & W & (m & S) & LS). rewrite <- read_attrs in Er.
      pose proof (byte_size_none rf u _ L) as BS. rewrite <- read_attrs in BS.
      inversion D as [x T' A1 A2 A3 K|? T'|? T'|T'|? T']; rewrite read_tag_of, T in T'; try discriminate T'. subst kd.
      destruct (counts_shown u d x ns X A3) as (CS & _ & _).
      assert (NX : ~ explicit (a_byte_size x)) by (rewrite A2, BS; apply not_explicit). rewrite <- A1 in Er.
      split; [|split; [|exact LT]].
      + constructor; [|discriminate]. intros off r' R Er'. inversion R; subst. congruence.
      + exists (Datatypes.S m). intros [|f] L'; [lia|]. cbn [byte_size t_kind]. rewrite A2, BS, Er, CS.
        rewrite S by lia. pose proof (product_counted ns (extents_known d ns X) s LS) as PC. rewrite N.mod_small in PC by exact LT.
        destruct ns; [now destruct X|]. change (opt64_is_some opt64_none) with false. cbv iota. now f_equal.
  Qed.

  (** ** No type with itself *)

  Lemma given_from {A} (pick : attr -> option A) l y : given pick l y = y \/ exists a, In a l /\ pick a = Some (given pick l y).
  Proof.
    unfold given. set (vs := flat_map _ l).
    assert (H : last vs y = y \/ In (last vs y) vs).
    { clear. induction vs as [|v vs IH]; [now left|]. destruct vs as [|w vs]; [right; now left|]. right.
      change (last (v :: w :: vs) y) with (last (w :: vs) y). right. clear IH.
      induction vs as [|z vs IH] in w |- *; [now left|]. change (last (w :: z :: vs) y) with (last (z :: vs) y). right. apply IH. }
    destruct H as [H|H]; [now left|right]. unfold vs in H at 2. apply in_flat_map in H. destruct H as (a & I & H). exists a. split; [exact I|].
    destruct (pick a) as [v|]; [|destruct H]. destruct H as [<-|[]]. reflexivity.
  Qed.
  Lemma type_reference u attrs : given_type (map (read_attr rf u) attrs) = type_offset_none \/
    exists v, In (0x49, v) attrs /\ info_offset u v = Some (given_type (map (read_attr rf u) attrs)).
  Proof.
    destruct (given_from (fun a => match a with AType v => v | _ => None end) (map (read_attr rf u) attrs) type_offset_none) as [H|(a & I & E)]; [now left|right].
    apply in_map_iff in I. destruct I as ((c, v) & <- & I). fold (given_type (map (read_attr rf u) attrs)) in E. exists v.
    destruct (N.eq_dec c 0x49) as [->|NE].
    - split; [exact I|]. rewrite (read_attr_at rf u 0x49 (fun v => AType (info_offset u v)) v) in E by (cbn; tauto). exact E.
    - exfalso. rewrite (read_attr_other rf u (fun a => match a with AType v => v | _ => None end) [0x49] (c, v)) in E;
        [discriminate|attribute_table|reflexivity|]. intros [H|[]]. now apply NE.
  Qed.
  Lemma containing_reference u attrs : given_containing (map (read_attr rf u) attrs) = type_offset_none \/
    exists v, In (0x1d, v) attrs /\ info_offset u v = Some (given_containing (map (read_attr rf u) attrs)).
  Proof.
    destruct (given_from (fun a => match a with AContainingType v => v | _ => None end) (map (read_attr rf u) attrs) type_offset_none) as [H|(a & I & E)]; [now left|right].
    apply in_map_iff in I. destruct I as ((c, v) & <- & I). fold (given_containing (map (read_attr rf u) attrs)) in E. exists v.
    destruct (N.eq_dec c 0x1d) as [->|NE].
    - split; [exact I|]. rewrite (read_attr_at rf u 0x1d (fun v => AContainingType (info_offset u v)) v) in E by (cbn; tauto). exact E.
    - exfalso. rewrite (read_attr_other rf u (fun a => match a with AContainingType v => v | _ => None end) [0x1d] (c, v)) in E;
        [discriminate|attribute_table|reflexivity|]. intros [H|[]]. now apply NE.
  Qed.
  Lemma points_at u v off x e : info_offset u v = Some off -> In x (rf_units rf) -> In e (raw_below x) -> place x e = off ->
    points rf u v x e.
  Proof. intros E I J P. destruct v; try discriminate E; cbn [info_offset] in E; injection E as <-; [now constructor|]. rewrite <- P. now constructor. Qed.
  Lemma extends_types ps ds qs : extends ps ds qs -> forall q, In q qs ->
    In (pt_ty q) (map pt_ty ps) \/ exists d, In d ds /\ die_tag d = TagParameter /\ pt_ty q = given_type (die_attrs d).
  Proof.
    induction 1 as [ps|ps d ds qs NT H IH|ps1 p ps2 off attrs c ds origin qs G P F H IH|ps off attrs c ds qs G H IH]; intros q I.
    - left. now apply in_map.
    - destruct (IH q I) as [L|(e & J & K)]; [now left|right]. exists e. split; [now right|exact K].
    - destruct (IH q I) as [L|(e & J & K)]; [|right; exists e; split; [now right|exact K]].
      rewrite map_app in *. cbn [map pt_ty] in L. apply in_app_iff in L. destruct L as [L|[L|L]].
      + left. apply in_app_iff. now left.
      + destruct (N.eqb_spec (given_type attrs) type_offset_none) as [_|_].
        * left. apply in_app_iff. right. now left.
        * right. exists (Die TagParameter off attrs c). split; [now left|]. split; [reflexivity|]. now symmetry.
      + left. apply in_app_iff. right. now right.
    - destruct (IH q I) as [L|(e & J & K)]; [|right; exists e; split; [now right|exact K]].
      rewrite map_app in L. apply in_app_iff in L. destruct L as [L|[L|[]]]; [now left|right].
      exists (Die TagParameter off attrs c). split; [now left|]. split; [reflexivity|]. now symmetry.
  Qed.
  Lemma tag_number t : In t (tag_codes (read_tag t)).
  Proof. destruct (C91_numbers) as (_ & _ & H & _). apply H. Qed.

  (** What the entries that types are read from say of them. *)
  Definition describes_raw (u : raw_unit) (d : raw_die) (k : type_kind) : Prop :=
    (exists ns, describes_type (unit_context ob (read_unit rf u)) ns (read_die rf u d) k) \/
    describes_unnamed (ru_address_size u) (read_die rf u d) k.
  Lemma found_raw off t : from_offset env off = Some t -> t_kind t = TVoid \/
    exists u d, In u (rf_units rf) /\ In d (raw_below u) /\ place u d = off /\ describes_raw u d (t_kind t).
  Proof.
    intros E. destruct (C81_found ob off t object_well_formed E) as [(_ & H)|(x & y & Ix & Iy & O & _ & H)]; [now left|right].
    rewrite units_read in Ix. apply in_map_iff in Ix. destruct Ix as (u & <- & Iu). rewrite read_below in Iy. apply in_map_iff in Iy.
    destruct Iy as (d & <- & Id). exists u, d. rewrite read_offset in O. repeat split; auto.
    destruct H as [(_ & H)|(_ & H)]; [now left|now right].
  Qed.

  Lemma acyclic_of_ends u d : ends rf u d -> forall t, describes_raw u d (t_kind t) -> acyclic env t.
  Proof.
    induction 1 as [u d H IH]; intros t D.
    assert (V : forall o, acyclic env (mkType o TVoid)) by (intros o; constructor; intros off r R; inversion R).
    assert (STEP : forall off r, from_offset env off = Some r ->
      off = type_offset_none \/ (exists c v, In (c, v) (rd_attrs d) /\ In c [0x49; 0x1d] /\ In (rd_tag d) ([0x01; 0x21; 0x15; 0x1f] ++ map fst modifier_words) /\ info_offset u v = Some off) \/
        (rd_tag d = 0x15 /\ exists p v, In p (rd_children d) /\ rd_tag p = 0x05 /\ In (0x49, v) (rd_attrs p) /\ info_offset u v = Some off) ->
      acyclic env r).
    { intros off r Er [->|[(c & v & I1 & I2 & I3 & IO)|(T & p & v & I1 & I2 & I3 & IO)]].
      - cbn in Er. injection Er as <-. apply V.
      - destruct (found_raw off r Er) as [K|(x & e & Ix & Ie & P & DR)]; [destruct r as [o k]; cbn in K; subst k; apply V|].
        apply (IH x e); [|exact DR]. apply (lds_own rf u d x e c v); auto. now apply (points_at u v off).
      - destruct (found_raw off r Er) as [K|(x & e & Ix & Ie & P & DR)]; [destruct r as [o k]; cbn in K; subst k; apply V|].
        apply (IH x e); [|exact DR]. apply (lds_parameter rf u d x e p v); auto. now apply (points_at u v off). }
    constructor. intros off r R Er. apply (STEP off r Er).
    assert (OWN : In (rd_tag d) ([0x01; 0x21; 0x15; 0x1f] ++ map fst modifier_words) -> off = given_type (map (read_attr rf u) (rd_attrs d)) ->
      off = type_offset_none \/ (exists c v, In (c, v) (rd_attrs d) /\ In c [0x49; 0x1d] /\ In (rd_tag d) ([0x01; 0x21; 0x15; 0x1f] ++ map fst modifier_words) /\ info_offset u v = Some off)).
    { intros T ->. destruct (type_reference u (rd_attrs d)) as [K|(v & K1 & K2)]; [now left|right]. exists 0x49, v. split; [exact K1|]. split; [now left|]. now split. }
    pose proof (tag_number (rd_tag d)) as TN.
    destruct t as [o k]. cbn [t_kind t_offset] in *. destruct D as [(ns & D)|D].
    - destruct D; inversion R.
    - inversion D as [z T' A1 _ _ K|z T' _ A2 _ _ K|qs T' X K|T' K|k' T' K]; rewrite read_tag_of in T'; rewrite T' in TN; cbn [tag_codes In] in TN; subst k.
      + inversion R; subst. rewrite A1, read_attrs in *. destruct TN as [TN|[]]. assert (In (rd_tag d) ([0x01; 0x21; 0x15; 0x1f] ++ map fst modifier_words)) as HT by (rewrite <- TN; cbn; tauto).
        destruct (OWN HT eq_refl) as [?|?]; auto.
      + inversion R; subst. rewrite A2, read_attrs in *. destruct TN as [TN|[]]. assert (In (rd_tag d) ([0x01; 0x21; 0x15; 0x1f] ++ map fst modifier_words)) as HT by (rewrite <- TN; cbn; tauto).
        destruct (OWN HT eq_refl) as [?|?]; auto.
      + destruct TN as [TN|[]]. assert (In (rd_tag d) ([0x01; 0x21; 0x15; 0x1f] ++ map fst modifier_words)) as HT by (rewrite <- TN; cbn; tauto).
        inversion R as [|? ? p Ip| | | | |]; subst; cbn [f_parameters f_return] in *.
        * apply in_map_iff in Ip. destruct Ip as (q & <- & Iq). destruct (extends_types _ _ _ X q Iq) as [[]|(c & Ic & Tc & Ec)].
          rewrite read_children in Ic. apply in_map_iff in Ic. destruct Ic as (rc & <- & Ic). rewrite read_tag_of in Tc. rewrite read_attrs in Ec.
          pose proof (tag_number (rd_tag rc)) as TC. rewrite Tc in TC. cbn [tag_codes In] in TC. destruct TC as [TC|[]].
          rewrite Ec. destruct (type_reference u (rd_attrs rc)) as [K|(v & K1 & K2)]; [now left|right; right]. split; [now symmetry|]. exists rc, v. repeat split; auto.
        * rewrite read_attrs in *. destruct (OWN HT eq_refl) as [?|?]; auto.
      + destruct TN as [TN|[]]. assert (In (rd_tag d) ([0x01; 0x21; 0x15; 0x1f] ++ map fst modifier_words)) as HT by (rewrite <- TN; cbn; tauto).
        inversion R; subst; cbn [pm_containing pm_ty] in *; rewrite read_attrs in *.
        * destruct (containing_reference u (rd_attrs d)) as [K|(v & K1 & K2)]; [now left|right; left]. exists 0x1d, v. split; [exact K1|]. split; [right; now left|]. now split.
        * destruct (OWN HT eq_refl) as [?|?]; auto.
      + assert (In (rd_tag d) ([0x01; 0x21; 0x15; 0x1f] ++ map fst modifier_words)) as HT.
        { destruct k'; cbn [tag_codes In] in TN; repeat (destruct TN as [TN|TN]; [rewrite <- TN; cbn; tauto|]); destruct TN. }
        inversion R; subst; cbn [mo_ty] in *; rewrite read_attrs in *. destruct (OWN HT eq_refl) as [?|?]; auto.
  Qed.
  Lemma acyclic_raw : raw_acyclic rf -> acyclic_types ob.
  Proof.
    intros AC off t E. destruct (found_raw off t E) as [K|(u & d & I & J & _ & D)].
    - destruct t as [o k]. cbn in K. subst k. constructor. intros o' r R. inversion R.
    - exact (acyclic_of_ends u d (AC u d I J) t D).
  Qed.
End File.
