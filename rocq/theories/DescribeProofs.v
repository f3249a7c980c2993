(** Proofs about DieModel.v, third part: the functions of a unit are those its entries describe. *)
From Coq Require Import List Arith NArith ZArith Bool String Lia Permutation Sorted.
From Verif Require Import Base RangeModel NamespaceModel TypeModel LocationModel DieModel DieSpec
  DieProofs FixupProofs.
Import ListNotations.
Local Open Scope N_scope.

(** ** The model's fields and the specification's *)

Lemma nonempty_ranges_filter rs :
  nonempty_ranges rs = map (fun p => mkRange (fst p) (snd p)) (filter (fun p => fst p <? snd p) rs).
Proof.
  induction rs as [|p rs IH]; [reflexivity|]. unfold nonempty_ranges in *. cbn [flat_map filter].
  destruct (fst p <? snd p); cbn [app map]; now rewrite IH.
Qed.

Lemma total_size_sum rs :
  Forall (fun p => snd p < two64) rs ->
  total_size rs
  = fold_right N.add 0 (map (fun r => rend r - rbegin r) (nonempty_ranges rs)) mod two64.
Proof.
  intros H. unfold total_size.
  assert (G : forall acc, acc < two64 ->
    fold_left (fun size p => if fst p <? snd p then add64 size (sub64 (snd p) (fst p)) else size) rs acc
    = (acc + fold_right N.add 0 (map (fun r => rend r - rbegin r) (nonempty_ranges rs))) mod two64).
  { induction H as [|p rs Hp H IH]; intros acc Ha; cbn [fold_left].
    - cbn [nonempty_ranges flat_map map fold_right]. rewrite N.add_0_r. symmetry. now apply N.mod_small.
    - unfold nonempty_ranges in *. cbn [flat_map]. destruct (N.ltb_spec (fst p) (snd p)) as [L|L].
      + rewrite IH by (unfold add64, wrap64; apply N.mod_lt; discriminate).
        cbn [app map fold_right rend rbegin].
        assert (E : sub64 (snd p) (fst p) = snd p - fst p).
        { unfold sub64, wrap64. rewrite (N.mod_small (fst p)) by lia.
          replace (snd p + two64 - fst p) with (snd p - fst p + 1 * two64) by lia.
          rewrite N.mod_add by discriminate. apply N.mod_small. lia. }
        rewrite E. unfold add64, wrap64. rewrite N.add_mod_idemp_l by discriminate. f_equal. lia.
      + cbn [app]. now apply IH. }
  rewrite G by reflexivity. now rewrite N.add_0_l.
Qed.

Lemma sub64_below a b : a <= b -> b < two64 -> sub64 b a = b - a.
Proof.
  intros H1 H2. unfold sub64, wrap64. rewrite (N.mod_small a) by lia.
  replace (b + two64 - a) with (b - a + 1 * two64) by lia.
  rewrite N.mod_add by discriminate. apply N.mod_small. lia.
Qed.

Lemma opt64_get_some a : a <> opt64_none -> opt64_get a = Some a.
Proof.
  intros H. unfold opt64_get, opt64_is_none. destruct (N.eqb_spec a opt64_none); [contradiction|reflexivity].
Qed.

Lemma extent_occupies low l address size ranges :
  occupies low l address size ranges -> subprogram_extent low l = (address, size, ranges).
Proof.
  unfold subprogram_extent. rewrite attr_ranges_given, attr_low_pc_given, attr_high_pc_given, attr_size_given.
  intros H. destruct H as [rs kept size Hr Hf -> ->|Hr Hl|a h Hr Hl Ha Hh L1 L2|a h Hr Hl Hh L|a n Hr Hl Ha Hh Hn|a Hr Hl Hh Hn];
    rewrite Hr; rewrite ?Hl; cbn [opt64_from].
  - rewrite total_size_sum by assumption. rewrite !nonempty_ranges_filter.
    destruct (map (fun p => mkRange (fst p) (snd p)) (filter (fun p => fst p <? snd p) rs)); reflexivity.
  - reflexivity.
  - rewrite opt64_get_some, Hh by assumption. destruct (N.ltb_spec a h); [|lia].
    now rewrite sub64_below by lia.
  - destruct (opt64_get a) as [a'|] eqn:E; [|reflexivity]. rewrite Hh.
    unfold opt64_get in E. destruct (opt64_is_none a); inversion E; subst.
    destruct (N.ltb_spec a' h); [lia|reflexivity].
  - rewrite opt64_get_some, Hh, Hn by assumption. reflexivity.
  - destruct (opt64_get a) as [a'|] eqn:E; [|reflexivity]. now rewrite Hh, Hn.
Qed.

Lemma update_parameter_none origin p l :
  Forall (fun q => pt_offset q <> origin) l -> update_parameter origin p l = None.
Proof.
  induction 1 as [|q l H Hl IH]; [reflexivity|]. cbn [update_parameter].
  destruct (N.eqb_spec (pt_offset q) origin); [contradiction|]. now rewrite IH.
Qed.

Lemma update_parameter_some origin p l1 q l2 :
  Forall (fun q => pt_offset q <> origin) l1 -> pt_offset q = origin ->
  update_parameter origin p (l1 ++ q :: l2)
  = Some (l1 ++ mkParameterType (pt_offset q) (or_else (pt_name p) (pt_name q))
                  (if pt_ty p =? type_offset_none then pt_ty q else pt_ty p) :: l2).
Proof.
  intros H E. induction H as [|x l1 H Hl IH]; cbn [app update_parameter].
  - destruct (N.eqb_spec (pt_offset q) origin); [|contradiction]. now destruct (pt_name p).
  - destruct (N.eqb_spec (pt_offset x) origin); [contradiction|]. now rewrite IH.
Qed.

Lemma parameters_extends ps children qs :
  extends ps children qs -> parse_parameter_types children ps = qs.
Proof.
  unfold parse_parameter_types.
  induction 1 as [ps|ps d ds qs H He IH|ps1 p ps2 off attrs c ds origin qs Ho Hp Hf He IH|ps off attrs c ds qs Hf He IH];
    cbn [fold_left].
  - reflexivity.
  - destruct d as [t o a c]. destruct t; try exact IH. now destruct H.
  - unfold parse_parameter_type. rewrite attr_abstract_origin_given, Ho, attr_name_given, attr_type_given.
    rewrite update_parameter_some by assumption. exact IH.
  - unfold parse_parameter_type. rewrite attr_abstract_origin_given, attr_name_given, attr_type_given.
    destruct (given_origin attrs) as [o|] eqn:E; [|exact IH].
    rewrite update_parameter_none by now apply Hf. exact IH.
Qed.

Lemma own_function_fields low ns o l address size ranges :
  occupies low l address size ranges ->
  own_function low ns o l
  = mkFunction o ns (given_name l) (given_linkage_name l) (given_source l) address size ranges
      (given_inline l) (given_declaration l) [] (given_type l).
Proof.
  intros H. unfold own_function. rewrite (extent_occupies _ _ _ _ _ H).
  now rewrite attr_name_given, attr_linkage_name_given, attr_source_given, attr_inline_given,
    attr_declaration_given, attr_type_given.
Qed.

(** ** Entries that are dealt with *)

Section Describe.
  Variable cx : context.

  (** The type pushed for an entry. *)
  Definition entry_type (ns : option namespace) (d : die) : type :=
    match d with
    | Die t off attrs children =>
        mkType off
          match t with
          | TagBase => TBase (mkBase (attr_name attrs) (attr_byte_size attrs))
          | TagTypedef => TDef (mkDef ns (attr_name attrs) (attr_type attrs))
          | TagStructure | TagClass =>
              TStruct (mkStruct ns (attr_name attrs) (attr_byte_size attrs)
                 (attr_declaration attrs) (structure_members cx children)
                 (variant_parts_of cx children) (inherits_of cx children))
          | TagUnion =>
              TUnion (mkUnion ns (attr_name attrs) (attr_byte_size attrs)
                 (attr_declaration attrs) (members_of cx children))
          | TagEnumeration =>
              TEnum (mkEnum ns (attr_name attrs) (attr_declaration attrs)
                 (attr_type attrs) (attr_byte_size attrs))
          | _ => TUnspecified (mkUnspecified ns (attr_name attrs))
          end
    end.

  (** The items of an entry other than functions are there. *)
  Definition placed (s : walk_state) (outer : tag) (ns : option namespace) (d : die) : Prop :=
    (is_type_tag (die_tag d) = true -> outer <> TagEnumeration -> In (entry_type ns d) (ws_types s))
    /\ (die_tag d = TagVariable -> outer = TagNamespace ->
        match attr_variable_specification (die_attrs d) with
        | Some o => In (o, parse_variable ns (die_offset d) (die_attrs d)) (ws_deferred s)
        | None => In (parse_variable ns (die_offset d) (die_attrs d)) (ws_variables s)
        end)
    /\ (static_member d -> In outer [TagStructure; TagClass; TagUnion] ->
        In (parse_variable ns (die_offset d) (die_attrs d)) (ws_variables s)).

  Definition finished (f : dw_function) (children : list die) : dw_function :=
    with_parameters f (parse_parameter_types children (fu_parameters f)).

  Fixpoint covered (m : list dw_function) (s : walk_state) (pend : list pending)
      (outer : tag) (ns : option namespace) (d : die) {struct d} : Prop :=
    placed s outer ns d /\
    match d with
    | Die t o a c =>
        let all := fun ns' => fold_right (fun c P => covered m s pend t ns' c /\ P) True c in
        if looks outer t then
          match t with
          | TagSubprogram =>
              let f := own_function (cx_low_pc cx) ns o a in
              match attr_specification a with
              | None => In (finished f c) m /\ all (function_namespace f)
              | Some (target, ab) =>
                  In (mkPending c target ab f) pend
                  \/ exists origin, In origin m /\ fu_offset origin = target
                     /\ In (finished (inherit_function origin f ab) c) m
                     /\ all (function_namespace (inherit_function origin f ab))
              end
          | TagNamespace => all (Some (Ns ns (attr_name a) KNamespace))
          | TagLexicalBlock => all ns
          | _ => all (Some (Ns ns (attr_name a) KType))
          end
        else True
    end.

  Lemma all_forall {A} (P : A -> Prop) l : fold_right (fun c Q => P c /\ Q) True l <-> Forall P l.
  Proof.
    induction l as [|x l IH]; cbn [fold_right]; [intuition|].
    rewrite IH. split; [intros []; now constructor|]. intros H. now inversion H.
  Qed.

  Definition settled (m : list dw_function) (s : walk_state) (pend : list pending) (p : pending) : Prop :=
    exists origin, In origin m /\ fu_offset origin = pe_specification p
    /\ In (finished (inherit_function origin (pe_function p) (pe_abstract_origin p)) (pe_children p)) m
    /\ Forall (covered m s pend TagSubprogram
         (function_namespace (inherit_function origin (pe_function p) (pe_abstract_origin p)))) (pe_children p).

  Definition under (s s' : walk_state) : Prop :=
    incl (ws_types s) (ws_types s') /\ incl (ws_variables s) (ws_variables s')
    /\ incl (ws_deferred s) (ws_deferred s').

  Lemma placed_under s s' outer ns d : under s s' -> placed s outer ns d -> placed s' outer ns d.
  Proof.
    intros (U1 & U2 & U3) (A & B & C). repeat split.
    - intros; apply U1; auto.
    - intros H1 H2. specialize (B H1 H2). destruct (attr_variable_specification (die_attrs d)); auto.
    - intros; apply U2; auto.
  Qed.

  Lemma covered_mono m s pend m' s' pend' :
    incl m m' -> under s s' ->
    (forall p, In p pend -> In p pend' \/ settled m' s' pend' p) ->
    forall d outer ns, covered m s pend outer ns d -> covered m' s' pend' outer ns d.
  Proof.
    intros Hm Hs Hp d. induction d as [t o a c IH] using die_ind'. intros outer ns H.
    assert (IHl : forall u ns', fold_right (fun c P => covered m s pend u ns' c /\ P) True c ->
      fold_right (fun c P => covered m' s' pend' u ns' c /\ P) True c).
    { intros u ns'. rewrite !all_forall. intros G. rewrite Forall_forall in *. intros x Hx. apply IH; auto. }
    clear IH. cbn [covered] in *. destruct H as (H1 & H2). split; [eapply placed_under; eassumption|].
    destruct (looks outer t) eqn:El; [|exact I].
    destruct t; try (now apply IHl).
    destruct (attr_specification a) as [[target ab]|].
    - destruct H2 as [H2|(origin & G1 & G2 & G3 & G4)].
      + destruct (Hp _ H2) as [H3|(origin & G1 & G2 & G3 & G4)]; [now left|].
        right. exists origin. cbn [pe_specification pe_function pe_abstract_origin pe_children] in *.
        rewrite all_forall. auto.
      + right. exists origin. auto.
    - destruct H2 as (G1 & G2). auto.
  Qed.

  (** The walk deals with everything. *)
  Definition into (st : walk_state) (m : list dw_function) (s : walk_state) (pend : list pending) : Prop :=
    under st s /\ incl (ws_functions st) m /\ incl (ws_subprograms st) pend.

  Lemma into_grows s1 s2 m s pend : grows s1 s2 -> into s2 m s pend -> into s1 m s pend.
  Proof.
    intros (A & B & C & D & E) ((F & G & H) & I1 & J).
    repeat split; eapply incl_tran; eassumption.
  Qed.

  Lemma parse_child_covers d : forall outer ns st m s pend,
    scope outer -> into (parse_child cx (parent_of outer) ns d st) m s pend ->
    covered m s pend outer ns d.
  Proof.
    induction d as [t o a l IH] using die_ind'. intros outer ns st m s pend Hs Hi.
    assert (IHl : forall u ns' st', scope u ->
      into (fold_left (fun s c => parse_child cx (parent_of u) ns' c s) l st') m s pend ->
      fold_right (fun c P => covered m s pend u ns' c /\ P) True l).
    { clear Hi. intros u ns' st' Hu. rewrite all_forall. revert st'.
      induction IH as [|d l Hd Hl IHl]; intros st' H; cbn [fold_left] in H; constructor.
      - apply Hd with st'; [assumption|]. eapply into_grows; [|exact H]. apply (parse_children_grows cx).
      - eapply IHl; eassumption. }
    clear IH.
    assert (PT : forall ty s', into (push_type ty s') m s pend -> In ty (ws_types s) /\ into s' m s pend).
    { intros ty s' H. split; [|eapply into_grows; [|exact H]; apply (grows_push s')].
      destruct H as ((H & _) & _). apply H. apply in_or_app. right. now left. }
    assert (PV : forall vs s', into (push_variables vs s') m s pend -> incl vs (ws_variables s)).
    { intros vs s' ((_ & H & _) & _). intros v Hv. apply H. apply in_or_app. now right. }
    cbn [covered]. split.
    - (* the items of the entry *)
      repeat split; cbn [die_tag die_attrs die_offset].
      + intros Ht Ho. destruct t; try discriminate Ht; destruct outer; try destruct Hs; try congruence;
          cbn [parse_child parent_of] in Hi; apply PT in Hi; exact (proj1 Hi).
      + intros -> ->. cbn [parse_child parent_of] in Hi.
        destruct (attr_variable_specification a).
        * destruct Hi as ((_ & _ & H) & _). apply H. apply in_or_app. right. now left.
        * apply PV in Hi. apply Hi. now left.
      + intros (Ht & Hd) Ho. cbn [die_tag die_attrs] in Ht, Hd. subst t.
        rewrite <- is_static_declared in Hd.
        destruct outer; cbn in Ho; try (exfalso; intuition discriminate);
          cbn [parse_child parent_of] in Hi; apply PV in Hi; apply Hi; cbn [statics_of flat_map];
          rewrite Hd; now left.
    - destruct (looks outer t) eqn:El; [|exact I].
      destruct t; try discriminate El; cbn [looks] in El.
      + destruct outer; try discriminate El. apply (IHl TagNamespace _ st I Hi).
      + assert (Hi' : into match attr_specification a with
            | Some (o0, ab) => push_subprogram (mkPending l o0 ab (own_function (cx_low_pc cx) ns o a)) st
            | None => push_function (finished (own_function (cx_low_pc cx) ns o a) l)
               (fold_left (fun s c => parse_child cx InSubprogram
                  (function_namespace (own_function (cx_low_pc cx) ns o a)) c s) l st)
            end m s pend).
        { assert (Ep : fu_parameters (own_function (cx_low_pc cx) ns o a) = []).
          { unfold own_function. now destruct (subprogram_extent (cx_low_pc cx) a) as [[? ?] ?]. }
          unfold finished. rewrite Ep. destruct outer; try destruct Hs; exact Hi. }
        destruct (attr_specification a) as [[target ab]|].
        * left. destruct Hi' as (_ & _ & H). apply H. apply in_or_app. right. now left.
        * split.
          -- destruct Hi' as (_ & H & _). apply H. apply in_or_app. right. now left.
          -- apply (IHl TagSubprogram _ st I). eapply into_grows; [|exact Hi']. apply grows_push.
      + destruct outer; try discriminate El; apply (IHl TagLexicalBlock _ st I Hi).
      + destruct outer; try discriminate El; try destruct Hs; cbn [parse_child parent_of] in Hi;
          apply PT in Hi; apply (IHl TagStructure _ st I (proj2 Hi)).
      + destruct outer; try discriminate El; try destruct Hs; cbn [parse_child parent_of] in Hi;
          apply PT in Hi; apply (IHl TagClass _ st I (proj2 Hi)).
      + destruct outer; try discriminate El; try destruct Hs; cbn [parse_child parent_of] in Hi;
          apply PT in Hi; apply (IHl TagUnion _ st I (proj2 Hi)).
      + destruct outer; try discriminate El; try destruct Hs; cbn [parse_child parent_of] in Hi;
          apply PT in Hi; apply (IHl TagEnumeration _ st I (proj2 Hi)).
  Qed.

  Lemma parse_children_covers outer ns l st m s pend :
    scope outer -> into (parse_children cx (parent_of outer) ns l st) m s pend ->
    Forall (covered m s pend outer ns) l.
  Proof.
    intros Hs. unfold parse_children. revert st. induction l as [|d l IH]; intros st H; constructor.
    - apply parse_child_covers with st; [assumption|]. eapply into_grows; [|exact H].
      apply (parse_children_grows cx).
    - eapply IH. exact H.
  Qed.

  (** ** The loop *)

  Variable top : list die.

  Definition dealt_with (m : list dw_function) (s : walk_state) (rest : list pending) : Prop :=
    Forall (covered m s (ws_subprograms s ++ rest) TagNamespace None) top.

  Lemma dealt_resolve : inv_resolve cx dealt_with.
  Proof.
    intros p m s rest origin m' s' G H M A. unfold dealt_with in *.
    set (f := inherit_function origin (pe_function p) (pe_abstract_origin p)) in *.
    destruct (add_subprogram_later cx p f m s rest m' s' G eq_refl A) as (G' & L & Hf & Hi & Es).
    destruct L as (_ & L1 & L2 & L3 & L4).
    destruct (map_get_some _ _ _ _ M) as (Ho & Eo).
    destruct (parse_children_grows cx (pe_children p) InSubprogram (function_namespace f) s)
      as (_ & _ & _ & W & _).
    eapply Forall_impl; [|exact H]. intros d. apply covered_mono; [assumption|repeat split; assumption|].
    intros q Hq. apply in_app_or in Hq. destruct Hq as [Hq|[<-|Hq]].
    - left. apply in_or_app. left. rewrite Es. now apply W.
    - right. exists origin. repeat split; auto. fold f.
      apply parse_children_covers with s; [exact I|]. change (parent_of TagSubprogram) with InSubprogram.
      repeat split; try (rewrite Es; apply incl_refl); [assumption|].
      rewrite Es. apply incl_appl, incl_refl.
    - left. apply in_or_app. now right.
  Qed.

  Lemma dealt_keep : inv_keep cx dealt_with.
  Proof.
    intros p m s rest G H. unfold dealt_with in *.
    eapply Forall_impl; [|exact H]. intros d. apply covered_mono; [apply incl_refl| |].
    - repeat split; apply incl_refl.
    - intros q Hq. left. cbn [push_subprogram ws_subprograms]. rewrite <- app_assoc. exact Hq.
  Qed.

  Lemma dealt_swap : inv_swap cx dealt_with.
  Proof.
    intros m s G H. unfold dealt_with in *. rewrite app_nil_r in H.
    eapply Forall_impl; [|exact H]. intros d. apply covered_mono; [apply incl_refl| |auto].
    repeat split; apply incl_refl.
  Qed.

  (** What the specification says is there. *)
  Definition described (m : list dw_function) (s : walk_state) : Prop :=
    (forall d f, describes (cx_low_pc cx) top d f -> In f m)
    /\ (forall outer ns d, located (cx_low_pc cx) top outer ns d -> placed s outer ns d).

  Scheme located_mut := Minimality for located Sort Prop
    with describes_mut := Minimality for describes Sort Prop.
  Combined Scheme located_describes_ind from located_mut, describes_mut.

  Lemma stuck_described m s rest :
    ordered fu_offset m -> ws_subprograms s = [] ->
    Forall (fun p => map_get fu_offset (pe_specification p) m = None) rest ->
    dealt_with m s rest -> described m s.
  Proof.
    intros Ho Hw Hstuck H. unfold dealt_with in H. rewrite Hw in H. cbn [app] in H.
    rewrite Forall_forall in H, Hstuck.
    assert (X : (forall outer ns d, located (cx_low_pc cx) top outer ns d -> covered m s rest outer ns d)
      /\ (forall d f, describes (cx_low_pc cx) top d f ->
           In f m /\ fu_offset f = die_offset d
           /\ Forall (covered m s rest TagSubprogram (Some (Ns (fu_namespace f) (fu_name f) KFunction)))
                (die_children d))).
    { apply located_describes_ind.
      - intros d Hd. now apply H.
      - intros ns off attrs children d _ (_ & C) Hd. cbn [looks] in C. rewrite all_forall, Forall_forall in C.
        rewrite <- attr_name_given. now apply C.
      - intros outer ns t off attrs children d _ C Hout Ht Hd. cbn [covered] in C. destruct C as (_ & C).
        assert (El : looks outer t = true).
        { cbn in Ht. destruct Ht as [<-|[<-|[<-|[<-|[]]]]]; destruct outer; try reflexivity; congruence. }
        rewrite El in C. rewrite <- attr_name_given.
        cbn in Ht. destruct Ht as [<-|[<-|[<-|[<-|[]]]]]; rewrite all_forall, Forall_forall in C; now apply C.
      - intros outer ns off attrs children d _ C Hout Hd. cbn [covered] in C. destruct C as (_ & C).
        assert (El : looks outer TagLexicalBlock = true) by (destruct Hout; subst; reflexivity).
        rewrite El, all_forall, Forall_forall in C. now apply C.
      - intros off attrs children d f _ (_ & _ & C) Hd. rewrite Forall_forall in C. now apply C.
      - intros outer ns off attrs children address size ranges ps _ (_ & C) Hspec Hocc Hext.
        cbn [looks] in C. rewrite attr_specification_given, Hspec in C.
        rewrite (own_function_fields _ _ _ _ _ _ _ Hocc) in C. destruct C as (C1 & C2).
        unfold finished, with_parameters, function_namespace in C1, C2.
        cbn [fu_offset fu_namespace fu_name fu_linkage_name fu_source fu_address fu_size fu_ranges fu_inline
             fu_declaration fu_parameters fu_return] in *.
        rewrite (parameters_extends _ _ _ Hext) in C1. rewrite all_forall in C2. auto.
      - intros outer ns off attrs children target ab d g address size ranges ps _ (_ & C) Hspec _
          (Hg & Eg & _) Et Hocc Hext.
        cbn [looks] in C. rewrite attr_specification_given, Hspec in C.
        rewrite (own_function_fields _ _ _ _ _ _ _ Hocc) in C.
        destruct C as [C|(origin & C1 & C2 & C3 & C4)].
        { exfalso. apply Hstuck in C. cbn [pe_specification] in C.
          apply (map_get_none _ _ _ g C); [assumption|congruence]. }
        assert (origin = g) by (apply (ordered_unique _ _ _ _ Ho); auto; congruence). subst origin.
        unfold finished, with_parameters, function_namespace, inherit_function in C3, C4.
        cbn [fu_offset fu_namespace fu_name fu_linkage_name fu_source fu_address fu_size fu_ranges fu_inline
             fu_declaration fu_parameters fu_return] in *.
        rewrite (parameters_extends _ _ _ Hext) in C3. rewrite all_forall in C4.
        assert (OE : forall (x y : option string), (if is_none x then y else x) = or_else x y)
          by now intros [].
        rewrite !OE in C3. rewrite !OE in C4. auto. }
    destruct X as (X1 & X2). split.
    - intros d f Hd. now apply X2 in Hd.
    - intros outer ns d Hd. apply X1 in Hd. destruct d. cbn [covered] in Hd. tauto.
  Qed.

  Lemma described_later m s rest m' s' rest' :
    later cx m s rest m' s' rest' -> described m s -> described m' s'.
  Proof.
    intros (_ & L1 & L2 & L3 & L4) (D1 & D2). split.
    - intros d f H. apply L1. eauto.
    - intros outer ns d H. eapply placed_under; [|eauto]. repeat split; assumption.
  Qed.

  Hypothesis distinct : forall o, (cnt (IFun o) (items_in cx TagNamespace top) <= 1)%nat.

  Lemma start_dealt : dealt_with (start_map cx top) (start_state cx top) [].
  Proof.
    unfold dealt_with. rewrite app_nil_r.
    apply (parse_children_covers TagNamespace None top no_items); [exact I|].
    change (parse_children cx (parent_of TagNamespace) None top no_items) with (walked cx top).
    repeat split; try apply incl_refl.
    intros f Hf. apply (Permutation_in f (Permutation_sym (start_perm cx top distinct))). exact Hf.
  Qed.

  Lemma resolved_described fuel m s :
    resolve cx fuel (start_map cx top, start_state cx top) = Some (m, s) -> described m s.
  Proof.
    intros E. eapply (resolve_reaches cx dealt_with described); try exact E.
    - apply dealt_resolve.
    - apply dealt_keep.
    - apply dealt_swap.
    - intros m' s' rest (Ho & _) Hw Hst Hd. now apply stuck_described with rest.
    - apply described_later.
    - now apply start_good.
    - apply start_dealt.
  Qed.
End Describe.
