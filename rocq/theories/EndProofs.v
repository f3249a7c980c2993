(** From the values of attributes to what is printed: proofs. *)
From Coq Require Import List Arith NArith ZArith Bool String Lia.
From Verif Require Import Base BaseProofs RangeModel NamespaceModel NamespaceSpec TypeModel TypeSpec TypeProofs FileModel LocationModel ReadModel ReadSpec
  ReadProofs PrintModel PrintSpec NameModel RefSpec RefProofs ItemModel ItemSpec EntryModel EntrySpec MemberSpec WholeModel WholeSpec WholeProofs WholeDepth
  PropertiesWhole RawModel RawSpec RawProofs PropertiesRaw EndSpec.
From Verif Require Import DieModel DieSpec.
Import ListNotations.
Local Open Scope N_scope.

(** ** Attributes *)

Ltac attribute_table :=
  unfold attribute_table;
  let w := fresh in
  repeat (apply Forall_cons; [first [right; intros w; reflexivity
    |right; intros w; destruct w as [ | | [] | | | | | | | | | | | | | | | | | | ]; reflexivity
    |left; cbn; tauto]|]); apply Forall_nil.

Lemma gives_last (P : N * raw_value -> Prop) code attrs v : gives code attrs v -> P (code, v) -> (forall b, P b -> fst b = code) -> last_such P attrs (code, v).
Proof.
  intros (b & a & -> & N) Pv H. exists b, a. split; [reflexivity|]. split; [exact Pv|]. intros c I Pc. apply N.
  rewrite map_app, in_app_iff. right. rewrite <- (H c Pc). now apply in_map.
Qed.
Lemma lacks_none (P : N * raw_value -> Prop) code attrs : lacks code attrs -> (forall b, P b -> fst b = code) -> no_such P attrs.
Proof. intros L H b I Pb. apply L. rewrite <- (H b Pb). now apply in_map. Qed.
Lemma gives_in code attrs v : gives code attrs v -> In (code, v) attrs.
Proof. intros (b & a & -> & _). apply in_app_iff. right. now left. Qed.
Lemma gives_only code attrs v w : gives code attrs v -> In (code, w) attrs -> w = v.
Proof.
  intros (b & a & -> & N) I. rewrite map_app, in_app_iff in N. apply in_app_iff in I. destruct I as [I|[[= <-]|I]]; [|reflexivity|];
    apply (in_map fst) in I; cbn in I; tauto.
Qed.
Lemma gives_lacks code attrs v : gives code attrs v -> lacks code attrs -> False.
Proof. intros G L. apply L. apply gives_in in G. exact (in_map fst _ _ G). Qed.

Section Given.
  Variable rf : raw_file.
  Variable u : raw_unit.
  Lemma given_gives {A} (pick : attr -> option A) code f attrs v x y :
    In (code, f) (attribute_table rf u) -> gives code attrs v -> pick (f v) = Some x ->
    Forall (fun p => In (fst p) [code] \/ forall v, pick (snd p v) = None) (attribute_table rf u) ->
    (forall n, pick (AOther n) = None) -> given pick (map (read_attr rf u) attrs) y = x.
  Proof.
    intros I G E F O. apply (given_last pick rf u (fun a => fst a = code) attrs (code, v)).
    - now apply gives_last.
    - now rewrite (read_attr_at rf u code f v I).
    - intros b N. apply (read_attr_other rf u pick [code]); [exact F|exact O|]. intros [X|[]]. now apply N.
  Qed.
  Lemma given_lacks {A} (pick : attr -> option A) code attrs y : lacks code attrs ->
    Forall (fun p => In (fst p) [code] \/ forall v, pick (snd p v) = None) (attribute_table rf u) ->
    (forall n, pick (AOther n) = None) -> given pick (map (read_attr rf u) attrs) y = y.
  Proof.
    intros L F O. apply (given_none pick rf u (fun a => fst a = code)).
    - now apply lacks_none with code.
    - intros b N. apply (read_attr_other rf u pick [code]); [exact F|exact O|]. intros [X|[]]. now apply N.
  Qed.

  Lemma last_such_same P attrs a b : last_such P attrs a -> last_such P attrs b -> a = b.
  Proof.
    intros (x & y & -> & Pa & N) (x' & y' & E & Pb & N'). revert x' E. induction x as [|c x IH]; intros x' E.
    - destruct x' as [|c' x']; cbn in E; injection E as <- E; [reflexivity|]. destruct (N b); [|exact Pb].
      rewrite E. apply in_app_iff. right. now left.
    - destruct x' as [|c' x']; cbn in E; injection E as <- E; [|now apply (IH x')]. exfalso. apply (N' a); [|exact Pa].
      rewrite <- E. apply in_app_iff. right. now left.
  Qed.
  Lemma says_same v s s' : says rf u v s -> says rf u v s' -> s = s'.
  Proof. intros A B. apply attr_string_iff in A. apply attr_string_iff in B. congruence. Qed.
  Lemma named_same P attrs n m : named rf u P attrs n -> named rf u P attrs m -> n = m.
  Proof.
    intros A B. assert (LN : forall a, last_such P attrs a -> no_such P attrs -> False).
    { intros a (x & y & -> & Pa & _) N. apply (N a); [|exact Pa]. apply in_app_iff. right. now left. }
    destruct A as [A|a s A S|a A S], B as [B|b t B T|b B T]; try reflexivity; try (exfalso; eauto; fail).
    - rewrite (last_such_same P attrs a b A B) in S. now rewrite (says_same _ s t S T).
    - rewrite (last_such_same P attrs a b A B) in S. destruct (T s S).
    - rewrite (last_such_same P attrs a b A B) in S. destruct (S t T).
  Qed.
  Lemma named_is d n : named rf u is_name (rd_attrs d) n -> given_name (die_attrs (read_die rf u d)) = n.
  Proof. intros H. destruct (C89_name rf u d) as (A & _). exact (named_same _ _ _ _ A H). Qed.
  Lemma linkage_is d n : named rf u is_linkage_name (rd_attrs d) n -> given_linkage_name (die_attrs (read_die rf u d)) = n.
  Proof. intros H. destruct (C89_name rf u d) as (_ & A). exact (named_same _ _ _ _ A H). Qed.

  Lemma type_none attrs : lacks 0x49 attrs -> given_type (map (read_attr rf u) attrs) = type_offset_none.
  Proof. intros L. unfold given_type. apply (given_lacks _ 0x49); [exact L|attribute_table|reflexivity]. Qed.
  Lemma containing_none attrs : lacks 0x1d attrs -> given_containing (map (read_attr rf u) attrs) = type_offset_none.
  Proof. intros L. unfold given_containing. apply (given_lacks _ 0x1d); [exact L|attribute_table|reflexivity]. Qed.
  Lemma type_is attrs v x e : gives 0x49 attrs v -> refers rf u v x e ->
    given_type (map (read_attr rf u) attrs) = ud_begin (ru_place x) + rd_offset e.
  Proof.
    intros G R. unfold given_type.
    apply (given_gives _ 0x49 (fun v => AType (info_offset u v)) attrs v); [cbn; tauto|exact G| |attribute_table|reflexivity].
    destruct R; cbn [info_offset]; congruence.
  Qed.
  Lemma containing_is attrs v x e : gives 0x1d attrs v -> refers rf u v x e ->
    given_containing (map (read_attr rf u) attrs) = ud_begin (ru_place x) + rd_offset e.
  Proof.
    intros G R. unfold given_containing.
    apply (given_gives _ 0x1d (fun v => AContainingType (info_offset u v)) attrs v); [cbn; tauto|exact G| |attribute_table|reflexivity].
    destruct R; cbn [info_offset]; congruence.
  Qed.
  Lemma constant_counts v z : counts v z -> raw_constant v = Some z.
  Proof. intros []; reflexivity. Qed.
  Lemma byte_size_is attrs n : gives_number 0x0b attrs n -> given_byte_size (map (read_attr rf u) attrs) = n.
  Proof.
    intros (v & G & C & _). unfold given_byte_size.
    apply (given_gives _ 0x0b (fun v => AByteSize (raw_constant v)) attrs v); [cbn; tauto|exact G| |attribute_table|reflexivity].
    rewrite (constant_counts _ _ C). cbn [nonnegative]. destruct (Z.ltb_spec (Z.of_N n) 0); [lia|]. now rewrite N2Z.id.
  Qed.
  Lemma byte_size_none attrs : lacks 0x0b attrs -> given_byte_size (map (read_attr rf u) attrs) = opt64_none.
  Proof. intros L. unfold given_byte_size. apply (given_lacks _ 0x0b); [exact L|attribute_table|reflexivity]. Qed.
  Lemma bit_size_is attrs n : gives_number 0x0d attrs n -> given_bit_size (map (read_attr rf u) attrs) = n.
  Proof.
    intros (v & G & C & _). unfold given_bit_size.
    apply (given_gives _ 0x0d (fun v => ABitSize (raw_constant v)) attrs v); [cbn; tauto|exact G| |attribute_table|reflexivity].
    rewrite (constant_counts _ _ C). cbn [nonnegative]. destruct (Z.ltb_spec (Z.of_N n) 0); [lia|]. now rewrite N2Z.id.
  Qed.
  Lemma bit_size_none attrs : lacks 0x0d attrs -> given_bit_size (map (read_attr rf u) attrs) = opt64_none.
  Proof. intros L. unfold given_bit_size. apply (given_lacks _ 0x0d); [exact L|attribute_table|reflexivity]. Qed.
  Lemma count_is attrs n : gives_number 0x37 attrs n -> given_count (map (read_attr rf u) attrs) = Some (Z.of_N n).
  Proof.
    intros (v & G & C & _). unfold given_count, bound.
    apply (given_gives _ 0x37 (fun v => ACount (raw_constant v)) attrs v); [cbn; tauto|exact G| |attribute_table|reflexivity].
    now rewrite (constant_counts _ _ C).
  Qed.
  Lemma count_none attrs : lacks 0x37 attrs -> given_count (map (read_attr rf u) attrs) = None.
  Proof. intros L. unfold given_count, bound. apply (given_lacks _ 0x37); [exact L|attribute_table|reflexivity]. Qed.
  Lemma lower_is attrs n : gives_number 0x22 attrs n -> given_lower (map (read_attr rf u) attrs) = Some (Z.of_N n).
  Proof.
    intros (v & G & C & _). unfold given_lower, bound.
    apply (given_gives _ 0x22 (fun v => ALowerBound (raw_constant v)) attrs v); [cbn; tauto|exact G| |attribute_table|reflexivity].
    now rewrite (constant_counts _ _ C).
  Qed.
  Lemma lower_none attrs : lacks 0x22 attrs -> given_lower (map (read_attr rf u) attrs) = None.
  Proof. intros L. unfold given_lower, bound. apply (given_lacks _ 0x22); [exact L|attribute_table|reflexivity]. Qed.
  Lemma upper_is attrs n : gives_number 0x2f attrs n -> given_upper (map (read_attr rf u) attrs) = Some (Z.of_N n).
  Proof.
    intros (v & G & C & _). unfold given_upper, bound.
    apply (given_gives _ 0x2f (fun v => AUpperBound (raw_constant v)) attrs v); [cbn; tauto|exact G| |attribute_table|reflexivity].
    now rewrite (constant_counts _ _ C).
  Qed.
  Lemma origin_none attrs : lacks 0x31 attrs -> given_origin (map (read_attr rf u) attrs) = None.
  Proof. intros L. unfold given_origin. apply (given_lacks _ 0x31); [exact L|attribute_table|reflexivity]. Qed.
  Lemma variable_specification_none attrs : lacks 0x47 attrs -> given_variable_specification (map (read_attr rf u) attrs) = None.
  Proof. intros L. unfold given_variable_specification. apply (given_lacks _ 0x47); [exact L|attribute_table|reflexivity]. Qed.
  Lemma ranges_none attrs : lacks 0x55 attrs -> given_ranges (map (read_attr rf u) attrs) = None.
  Proof. intros L. unfold given_ranges. apply (given_lacks _ 0x55); [exact L|attribute_table|reflexivity]. Qed.
  Lemma specification_none attrs : lacks 0x47 attrs -> lacks 0x31 attrs -> given_specification (map (read_attr rf u) attrs) = None.
  Proof.
    intros L M. unfold given_specification. apply (given_none _ rf u (fun a => In (fst a) [0x47; 0x31])).
    - intros b I [E|[E|[]]]; [apply L|apply M]; rewrite E; now apply in_map.
    - intros b N. apply (read_attr_other rf u (fun a => match a with
                           | ASpecification (Some o) => Some (Some (o, false))
                           | AAbstractOrigin (Some o) => Some (Some (o, true))
                           | _ => None
                           end) [0x47; 0x31]); [attribute_table|reflexivity|exact N].
  Qed.
  Lemma declared_is attrs b : is_declared attrs b -> given_declaration (map (read_attr rf u) attrs) = b.
  Proof.
    unfold given_declaration. intros [L|b' G].
    - apply (given_lacks _ 0x3c); [exact L|attribute_table|reflexivity].
    - apply (given_gives _ 0x3c (fun v => ADeclaration (raw_flag v)) attrs (RwFlag b')); [cbn; tauto|exact G|reflexivity|attribute_table|reflexivity].
  Qed.
  Lemma inlined_is attrs b : is_inlined attrs b -> given_inline (map (read_attr rf u) attrs) = b.
  Proof.
    unfold given_inline. intros [L|c G E|c G E].
    - apply (given_lacks _ 0x20); [exact L|attribute_table|reflexivity].
    - apply (given_gives _ 0x20 (fun v => AInline (raw_inline v)) attrs (RwInline c)); [cbn; tauto|exact G| |attribute_table|reflexivity].
      destruct E as [->| ->]; reflexivity.
    - apply (given_gives _ 0x20 (fun v => AInline (raw_inline v)) attrs (RwInline c)); [cbn; tauto|exact G| |attribute_table|reflexivity].
      destruct E as [->| ->]; reflexivity.
  Qed.

  Lemma maybe_same v s s' : says_maybe rf u v s -> says_maybe rf u v s' -> s = s'.
  Proof.
    intros [a A|A] [b B|B]; try reflexivity; [now rewrite (says_same v a b A B)|destruct (B a A)|destruct (A b B)].
  Qed.
  Lemma source_is d s : source_at rf u (rd_attrs d) s -> given_source (die_attrs (read_die rf u d)) = s.
  Proof.
    intros [file dir line column F L C].
    assert (EF : so_file (given_source (die_attrs (read_die rf u d))) = file /\ so_directory (given_source (die_attrs (read_die rf u d))) = dir).
    { destruct F as [N|v path dv p q G A B P Q].
      - apply C89_no_file. apply (lacks_none _ 0x3a); [exact N|]. intros b (x & X & _). exact X.
      - destruct (C89_file rf u d (0x3a, v) path dv) as (X & Y).
        + apply gives_last; [exact G|now exists path|]. intros b (x & X & _). exact X.
        + exact A.
        + exact B.
        + split; [exact (maybe_same _ _ _ X P)|exact (maybe_same _ _ _ Y Q)]. }
    assert (POS : forall code n m, code = 0x3b /\ n = so_line (given_source (die_attrs (read_die rf u d))) \/
       code = 0x39 /\ n = so_column (given_source (die_attrs (read_die rf u d))) -> number_at code (rd_attrs d) m -> n = m).
    { intros code n m E N. destruct (C89_position rf u d code n E) as (A & B). destruct N as [N|m G LE].
      - apply B. apply (lacks_none _ code); [exact N|]. intros b (X & _). exact X.
      - specialize (A (code, RwConst (UnsignedData m))). cbn [snd] in A.
        assert (X : RwConst (UnsignedData m) = RwConst (UnsignedData n)); [|congruence]. apply A.
        apply gives_last; [exact G|split; [reflexivity|now exists m]|]. intros b (X & _). exact X. }
    destruct EF as (E1 & E2). pose proof (POS _ _ _ (or_introl (conj eq_refl eq_refl)) L) as E3.
    pose proof (POS _ _ _ (or_intror (conj eq_refl eq_refl)) C) as E4.
    destruct (given_source (die_attrs (read_die rf u d))) as [x y z w]. cbn [so_file so_directory so_line so_column] in *. now subst.
  Qed.
  Lemma code_is d base low n : lacks 0x55 (rd_attrs d) -> code_at u (rd_attrs d) low n ->
    occupies base (die_attrs (read_die rf u d)) low n [mkRange low (low + n)] /\ low < u64_max /\ n < u64_max /\ low + n < two64 /\ n <> 0.
  Proof.
    intros LR C. destruct (C89_start rf u d base) as (S & _). destruct (C89_end rf u d) as (E1 & E2 & E3 & _).
    assert (R : given_ranges (die_attrs (read_die rf u d)) = None) by (rewrite read_attrs; now apply ranges_none).
    assert (ST : forall v a, gives 0x11 (rd_attrs d) v -> addresses u v a -> a <> 0 -> given_low_pc base (die_attrs (read_die rf u d)) = Some a).
    { intros v a G A N. apply (S (0x11, v) a); [|exact A]. apply gives_last; [exact G| |].
      - split; [reflexivity|]. exists a. split; [exact A|]. intros X. contradiction.
      - intros b (X & _). exact X. }
    assert (T64 : two64 = u64_max + 1) by reflexivity. destruct C as [v a n G A N H NZ LT|v a w h G A N H B L1 L2].
    - split.
      + rewrite <- (N.mod_small (a + n) two64) by exact LT. apply occ_length; [exact R|now apply (ST v)| | |].
        * unfold opt64_none. lia.
        * apply E2. intros b I (X & Y). destruct b as (c, w). cbn [fst snd] in *. subst c. apply (Y n). exact (gives_only _ _ _ _ H I).
        * destruct (E3 (0x12, RwConst (UnsignedData n))) as (m & K & M).
          { apply gives_last; [exact H| |intros b (X & _); exact X]. split; [reflexivity|]. now exists n. }
          cbn [snd] in M. rewrite K. congruence.
      + lia.
    - assert (HI : given_high_pc (die_attrs (read_die rf u d)) = Some h).
      { apply (E1 (0x12, w)); [|exact B]. apply gives_last; [exact H| |intros b (X & _); exact X].
        split; [reflexivity|]. intros m X. cbn [snd] in X. subst w. inversion B. }
      split.
      + replace (a + (h - a)) with h by lia. apply occ_up_to; [exact R|now apply (ST v)|unfold opt64_none; lia|exact HI|exact L1|exact L2].
      + lia.
  Qed.
  Lemma reference_offset v x e : refers rf u v x e -> info_offset u v = Some (ud_begin (ru_place x) + rd_offset e).
  Proof. intros R. destruct R; cbn [info_offset]; congruence. Qed.
  Lemma origin_is attrs v x e : gives 0x31 attrs v -> refers rf u v x e ->
    given_origin (map (read_attr rf u) attrs) = Some (ud_begin (ru_place x) + rd_offset e).
  Proof.
    intros G R. unfold given_origin.
    apply (given_gives _ 0x31 (fun v => AAbstractOrigin (info_offset u v)) attrs v); [cbn; tauto|exact G| |attribute_table|reflexivity].
    now rewrite (reference_offset v x e R).
  Qed.
  Lemma variable_specification_is attrs v x e : gives 0x47 attrs v -> refers rf u v x e ->
    given_variable_specification (map (read_attr rf u) attrs) = Some (ud_begin (ru_place x) + rd_offset e).
  Proof.
    intros G R. unfold given_variable_specification.
    apply (given_gives _ 0x47 (fun v => ASpecification (info_offset u v)) attrs v); [cbn; tauto|exact G| |attribute_table|reflexivity].
    now rewrite (reference_offset v x e R).
  Qed.
  Lemma specification_is attrs code v x e : code = 0x47 /\ lacks 0x31 attrs \/ code = 0x31 /\ lacks 0x47 attrs -> gives code attrs v -> refers rf u v x e ->
    given_specification (map (read_attr rf u) attrs) = Some (ud_begin (ru_place x) + rd_offset e, code =? 0x31).
  Proof.
    intros H G R. unfold given_specification. apply (given_last _ rf u (fun a => In (fst a) [0x47; 0x31]) attrs (code, v)).
    - destruct G as (b & a & -> & N). exists b, a. split; [reflexivity|]. split.
      + destruct H as [(-> & _)|(-> & _)]; cbn; tauto.
      + intros c I [E|[E|[]]]; destruct H as [(X & L)|(X & L)]; subst code;
          first [apply N; rewrite E, map_app, in_app_iff; right; now apply in_map|apply L; rewrite E, map_app, in_app_iff; right; right; now apply in_map].
    - destruct H as [(-> & _)|(-> & _)].
      + rewrite (read_attr_at rf u 0x47 (fun v => ASpecification (info_offset u v)) v) by (cbn; tauto). now rewrite (reference_offset v x e R).
      + rewrite (read_attr_at rf u 0x31 (fun v => AAbstractOrigin (info_offset u v)) v) by (cbn; tauto). now rewrite (reference_offset v x e R).
    - intros b N. apply (read_attr_other rf u (fun a => match a with
                           | ASpecification (Some o) => Some (Some (o, false))
                           | AAbstractOrigin (Some o) => Some (Some (o, true))
                           | _ => None
                           end) [0x47; 0x31]); [attribute_table|reflexivity|exact N].
  Qed.
  Lemma start_none attrs base : lacks 0x11 attrs -> given_low_pc base (map (read_attr rf u) attrs) = None.
  Proof. intros L. unfold given_low_pc. apply (given_lacks _ 0x11); [exact L|attribute_table|reflexivity]. Qed.
  Lemma code_given_is d base address size ranges : code_given u (rd_attrs d) address size ranges ->
    occupies base (die_attrs (read_die rf u d)) (opt64_from address) (opt64_from size) ranges /\
    (address = None /\ size = None \/ exists a n, address = Some a /\ a < u64_max /\ size = Some n /\ n < u64_max).
  Proof.
    intros [L1 L2|low n L C|v l rs s G LS F -> E LT].
    - split; [|now left]. rewrite read_attrs. apply occ_nowhere; [now apply ranges_none|now apply start_none].
    - destruct (code_is d base low n L C) as (O & B1 & B2 & _). split; [exact O|]. right. eauto 6.
    - split.
      + cbn [opt64_from]. assert (X : s < two64) by (assert (two64 = u64_max + 1) by reflexivity; lia). rewrite read_attrs.
        eapply occ_ranges; [|exact F|reflexivity|now rewrite <- E, N.mod_small].
        unfold given_ranges. apply (given_gives _ 0x55 (fun v => ARanges (RawModel.attr_ranges u v)) (rd_attrs d) v); [cbn; tauto|exact G| |attribute_table|reflexivity].
        apply ranges_listed in LS. now rewrite LS.
      + right. eexists _, _. split; [reflexivity|]. split; [|split; [reflexivity|exact LT]].
        assert (two64 = u64_max + 1) by reflexivity. clear - F H. destruct (filter _ l) as [|q l'] eqn:Q; [reflexivity|].
        cbn [map hd rbegin]. assert (I : In q (filter (fun p => fst p <? snd p) l)) by (rewrite Q; now left).
        apply filter_In in I. destruct I as (I & LT). rewrite Forall_forall in F. specialize (F q I). apply N.ltb_lt in LT. lia.
  Qed.
  Lemma address_is attrs a : address_at attrs a ->
    given_address (map (read_attr rf u) attrs) = match a with Some n => n | None => opt64_none end /\
    given_size (map (read_attr rf u) attrs) = opt64_none.
  Proof.
    unfold given_address, given_size. intros [L|m n ops G B].
    - split; (apply (given_lacks _ 0x02); [exact L|attribute_table|reflexivity]).
    - split.
      + apply (given_gives _ 0x02 (fun v => ALocation (raw_place u v)) attrs (RwExpression m [(GAddress n, None)] ops));
          [cbn; tauto|exact G|reflexivity|attribute_table|reflexivity].
      + apply given_skip. intros b I. apply in_map_iff in I. destruct I as ((c, v) & <- & I).
        destruct (N.eq_dec c 0x02) as [->|NE].
        * rewrite (gives_only _ _ _ _ G I). reflexivity.
        * apply (read_attr_other rf u (fun a => match a with
                           | ALocation (PExpression pieces _) =>
                               match variable_location pieces with
                               | Some (_, size) => if opt64_is_some size then Some size else None
                               | None => None
                               end
                           | _ => None
                           end) [0x02]); [attribute_table|reflexivity|]. cbn [fst]. intros [X|[]]. now apply NE.
  Qed.
End Given.
