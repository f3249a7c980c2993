(** Property theorems C15, C16, C17: structure layout. *)
From Coq Require Import List NArith Bool Lia Permutation Sorted.
From Coq Require Import ZifyBool ZifyNat ZifyN.
From Verif Require Import Base BaseProofs TypeModel TypeSpec TypeSizeProofs LayoutModel LayoutSpec
  LayoutProofs.
Import ListNotations.
Local Open Scope N_scope.

(** An example: [struct { char a; base b; int f:3; variants }] listed out of order. *)
Definition ex_sizes : type_sizes := fun off =>
  match off with 1 => Some 1 | 4 => Some 4 | 8 => Some 8 | _ => None end.
Definition ex_member off ty o := mkMember off None ty o u64_max.
Definition ex_members := [ex_member 101 1 64; mkMember 102 None 4 96 3].
Definition ex_inherits := [mkInherit 4 8].
Definition ex_variant1 := mkVariant (Some 0) None [ex_member 103 8 192; ex_member 104 1 128].
Definition ex_variant2 := mkVariant (Some 1) None [ex_member 105 1 136].
Definition ex_part := mkVariantPart 101 [ex_variant1; ex_variant2].
Definition ex_struct := mkStruct None None 40 false ex_members [ex_part] ex_inherits.
Definition ex_exts : list (N * N) := [(64, 8); (96, 3); (8, 32); (128, 128)].

Lemma ex_not_explicit : ~ explicit u64_max.
Proof. unfold explicit. congruence. Qed.
Lemma ex_part_extent : item_extent ex_sizes (LVariantPart ex_part) (128, 256 - 128).
Proof.
  eapply (ie_part _ _ [(192, 64); (128, 8); (136, 8)]).
  - cbn. intros v [<-|[<-|[]]]; discriminate.
  - cbn. constructor; [apply (me_type ex_sizes (ex_member 103 8 192) 8); auto using ex_not_explicit|].
    constructor; [apply (me_type ex_sizes (ex_member 104 1 128) 1); auto using ex_not_explicit|].
    constructor; [apply (me_type ex_sizes (ex_member 105 1 136) 1); auto using ex_not_explicit|].
    constructor.
  - split; [|split].
    + intros o s I. cbn in I. decompose [or] I; try tauto; match goal with H : _ = _ |- _ => injection H as <- <- end; lia.
    + exists 128, 8. cbn. auto.
    + exists 192, 64. cbn. auto.
Qed.
Lemma ex_extents : Forall2 (item_extent ex_sizes) (contents ex_members ex_inherits [ex_part]) ex_exts.
Proof.
  cbn. constructor; [|constructor; [|constructor; [|constructor; [|constructor]]]].
  - constructor. apply (me_type ex_sizes (ex_member 101 1 64) 1); auto using ex_not_explicit.
  - constructor. apply (me_bits ex_sizes (mkMember 102 None 4 96 3)). unfold explicit. discriminate.
  - apply (ie_inherit ex_sizes (mkInherit 4 8) 4). reflexivity.
  - apply ex_part_extent.
Qed.

(** C15: when the contents have known extents that do not overlap and lie inside
    the structure, the layout tiles the structure exactly, contains each item once
    at its own place, and has no empty or adjacent padding. *)
Theorem C15_layout_partition :
  forall bs members inherits parts base total exts,
    contents members inherits parts <> [] ->
    Forall2 (item_extent bs) (contents members inherits parts) exts ->
    (forall o s, In (o, s) exts -> base <= o /\ o + s <= base + total) ->
    ForallOrdPairs apart exts -> base + total < 2 ^ 64 - 1 ->
    let l := layout bs members inherits parts base (Some total) in
    tiles 0 total l /\
    (exists xs, Permutation (real_items l) xs /\
       Forall2 (describes base) xs (combine (contents members inherits parts) exts)) /\
    padding_isolated l /\
    (forall x, In x l -> is_padding x = true -> 0 < l_size x).
Proof.
  intros bs members inherits parts base total exts NE F B A T. cbv zeta.
  assert (T' : base + total < u64_max) by (rewrite u64_max_val; lia).
  destruct (layout_tiles bs members inherits parts base total exts NE F B A T') as (H1 & H2).
  split; [exact H1|]. split; [exact H2|]. split; [apply layout_isolated|].
  intros x I P. apply (layout_padding bs members inherits parts base (Some total) x) in P; auto.
  - tauto.
  - intros s [= <-]. lia.
Qed.
Print Assumptions C15_layout_partition.

(** The same for the layout of a structure type. *)
Theorem C15_struct_layout :
  forall bs s exts,
    contents (s_members s) (s_inherits s) (s_variant_parts s) <> [] ->
    Forall2 (item_extent bs) (contents (s_members s) (s_inherits s) (s_variant_parts s)) exts ->
    explicit (s_byte_size s) -> 8 * s_byte_size s < 2 ^ 64 - 1 ->
    (forall o n, In (o, n) exts -> o + n <= 8 * s_byte_size s) ->
    ForallOrdPairs apart exts ->
    tiles 0 (8 * s_byte_size s) (struct_layout bs s) /\
    (exists xs, Permutation (real_items (struct_layout bs s)) xs /\
       Forall2 (describes 0) xs
         (combine (contents (s_members s) (s_inherits s) (s_variant_parts s)) exts)).
Proof.
  intros bs s exts NE F E L B A. unfold struct_layout.
  rewrite (explicit_get _ E). cbn [option_map]. rewrite mul64_small by lia.
  rewrite (N.mul_comm (s_byte_size s)).
  apply layout_tiles; auto.
  intros o n I. apply B in I. lia.
Qed.
Print Assumptions C15_struct_layout.

(** The same for a variant laid out inside its variant part: the variant part
    gives the interval, and each variant tiles it. *)
Theorem C15_variant_layout :
  forall bs p v es exts,
    In v (vp_variants p) -> (forall w, In w (vp_variants p) -> v_members w <> []) ->
    Forall2 (member_extent bs) (flat_map v_members (vp_variants p)) es ->
    (forall o s, In (o, s) es -> o + s < 2 ^ 64 - 1) ->
    Forall2 (member_extent bs) (v_members v) exts -> ForallOrdPairs apart exts ->
    exists size, vpart_bit_size bs p = Some size /\
      tiles 0 size (variant_layout bs v (vpart_bit_offset p) (vpart_bit_size bs p)).
Proof.
  intros bs p v es exts Iv NV F B FE A.
  assert (B' : forall o s, In (o, s) es -> o < u64_max /\ o + s < 2 ^ 64).
  { intros o s I. apply B in I. rewrite u64_max_val. lia. }
  destruct (part_hull bs p es) as (size & E & H); auto.
  { intros X. rewrite X in Iv. easy. }
  exists size. split; auto. rewrite E. unfold variant_layout.
  assert (IN : forall e, In e exts -> In e es).
  { destruct (in_split _ _ Iv) as (l1 & l2 & EQ). rewrite EQ in F.
    rewrite flat_map_app in F. cbn [flat_map] in F.
    apply Forall2_app_inv_l in F. destruct F as (e1 & e2 & _ & F & ->).
    apply Forall2_app_inv_l in F. destruct F as (e3 & e4 & F & _ & ->).
    assert (e3 = exts).
    { clear - F FE. revert exts FE. induction F as [|m e ms es H _ IH]; intros exts FE;
        inversion FE as [|? ? ? ? H' FE']; subst; [reflexivity|]. f_equal; [|now apply IH].
      destruct H as [m X|m b X Y]; inversion H' as [? X'|? b' X' Y']; subst; try contradiction.
      - reflexivity.
      - rewrite Y in Y'. now injection Y' as ->. }
    subst. intros e I. rewrite !in_app_iff. auto. }
  apply (layout_tiles bs (v_members v) [] [] (vpart_bit_offset p) size exts); auto.
  - unfold contents. cbn. rewrite app_nil_r. intros X. apply map_eq_nil in X. now apply (NV v).
  - unfold contents. cbn. rewrite app_nil_r. clear - FE.
    induction FE; cbn; constructor; auto. now constructor.
  - intros o s I. apply IN in I. apply H in I. lia.
  - destruct H as (_ & _ & (o & s & I & <-)). apply B in I. rewrite u64_max_val. lia.
Qed.
Print Assumptions C15_variant_layout.

Example C15_example :
  contents ex_members ex_inherits [ex_part] <> [] /\
  Forall2 (item_extent ex_sizes) (contents ex_members ex_inherits [ex_part]) ex_exts /\
  (forall o n, In (o, n) ex_exts -> 0 <= o /\ o + n <= 0 + 320) /\
  ForallOrdPairs apart ex_exts /\
  map (fun x => (l_offset x, l_size x, is_padding x)) (struct_layout ex_sizes ex_struct) =
    [(0, 8, true); (8, 32, false); (40, 24, true); (64, 8, false); (72, 24, true);
     (96, 3, false); (99, 29, true); (128, 128, false); (256, 64, true)].
Proof.
  split; [discriminate|]. split; [apply ex_extents|]. split.
  { intros o n I. cbn in I. decompose [or] I; try tauto;
      match goal with H : _ = _ |- _ => injection H as <- <- end; lia. }
  split; [|reflexivity].
  repeat constructor; unfold apart; cbn; lia.
Qed.

(** A memberless structure has an empty layout although all of it is padding. *)
Theorem C15_empty_struct_refuted :
  exists bs total, layout bs [] [] [] 0 (Some total) = [] /\ ~ tiles 0 total [].
Proof. exists ex_sizes, 8. split; [reflexivity|]. cbn. discriminate. Qed.
Print Assumptions C15_empty_struct_refuted.

(** C16: for any members at all, the layout contains each one exactly once, in
    order of offset; padding is never empty and never follows other padding, and
    starts at bit 0 or where an item ends. *)
Theorem C16_layout_conserves :
  forall bs members inherits parts base total,
    Permutation (map l_item (real_items (layout bs members inherits parts base total)))
      (contents members inherits parts).
Proof. exact layout_items_perm. Qed.
Print Assumptions C16_layout_conserves.

Theorem C16_layout_sorted :
  forall bs members inherits parts base total,
    StronglySorted (fun x y => l_offset x <= l_offset y)
      (real_items (layout bs members inherits parts base total)).
Proof. exact layout_real_sorted. Qed.
Print Assumptions C16_layout_sorted.

Theorem C16_layout_offsets :
  forall bs members inherits parts base total x,
    In x (layout bs members inherits parts base total) ->
    match l_item x with
    | LPadding => True
    | LMember m => (l_offset x + base) mod 2 ^ 64 = m_bit_offset m mod 2 ^ 64
    | LInherit i => (l_offset x + base) mod 2 ^ 64 = i_bit_offset i mod 2 ^ 64
    | LVariantPart p => (l_offset x + base) mod 2 ^ 64 = vpart_bit_offset p mod 2 ^ 64
    end.
Proof.
  intros bs members inherits parts base total x I.
  destruct (is_padding x) eqn:P.
  { unfold is_padding in P. destruct (l_item x); easy. }
  assert (R : In x (real_items (layout bs members inherits parts base total))).
  { apply filter_In. rewrite P. auto. }
  apply (Permutation_in _ (layout_conserves bs members inherits parts base total)) in R.
  apply in_map_iff in R. destruct R as (it & <- & _). rewrite placed_item.
  assert (W : forall a, (sub64 a base + base) mod 2 ^ 64 = a mod 2 ^ 64).
  { intros a. unfold sub64, wrap64. change (2 ^ 64) with two64.
    assert (N0 : two64 <> 0) by (rewrite two64_val; discriminate).
    assert (M : base mod two64 < two64) by (now apply N.mod_lt).
    rewrite <- (N.add_mod_idemp_r _ base) by exact N0.
    rewrite N.add_mod_idemp_l by exact N0.
    replace (a + two64 - base mod two64 + base mod two64) with (a + 1 * two64) by lia.
    now rewrite N.mod_add. }
  destruct it; cbn [placed l_offset]; auto.
Qed.
Print Assumptions C16_layout_offsets.

Theorem C16_layout_padding :
  forall bs members inherits parts base total x,
    (forall s, total = Some s -> s < 2 ^ 64) ->
    let l := layout bs members inherits parts base total in
    In x l -> is_padding x = true ->
    0 < l_size x /\
    (l_offset x = 0 \/
     exists y, In y l /\ is_padding y = false /\ explicit (l_size y) /\
       l_offset x = (l_offset y + l_size y) mod 2 ^ 64).
Proof.
  intros bs members inherits parts base total x T. cbv zeta. intros I P.
  destruct (layout_padding bs members inherits parts base total x T I P)
    as (Q & [Z|(y & s & Iy & Py & G & O)]); split; auto.
  right. exists y. assert (X : explicit (l_size y)).
  { destruct (explicit_dec (l_size y)) as [X|X]; auto.
    apply not_explicit_get in X. congruence. }
  rewrite (explicit_get _ X) in G. injection G as <-. auto.
Qed.
Print Assumptions C16_layout_padding.

Theorem C16_padding_isolated :
  forall bs members inherits parts base total,
    padding_isolated (layout bs members inherits parts base total).
Proof. exact layout_isolated. Qed.
Print Assumptions C16_padding_isolated.

(** With overlapping members the layout may report padding inside a member. *)
Theorem C16_padding_overlap_refuted :
  exists bs members total x y,
    let l := layout bs members [] [] 0 (Some total) in
    In x l /\ In y l /\ is_padding x = true /\ is_padding y = false /\
    ~ apart (l_offset x, l_size x) (l_offset y, l_size y).
Proof.
  exists ex_sizes, [ex_member 1 8 0; ex_member 2 1 8; ex_member 3 1 40], 64,
    (mkLay 16 24 LPadding), (mkLay 0 64 (LMember (ex_member 1 8 0))).
  cbn. split; [auto 6|]. split; [auto 6|]. split; auto. split; auto. unfold apart. cbn. lia.
Qed.
Print Assumptions C16_padding_overlap_refuted.

Example C16_example :
  map (fun x => (l_offset x, l_size x, is_padding x))
    (layout ex_sizes [ex_member 1 8 8; ex_member 2 7 0; ex_member 3 1 8] [] [] 0 None) =
    [(0, u64_max, false); (8, 8, false); (8, 64, false)].
Proof. reflexivity. Qed.

(** C17: a variant and a variant part with members of known size span exactly the
    hull of those members. *)
Theorem C17_variant_hull :
  forall bs v es, v_members v <> [] -> Forall2 (member_extent bs) (v_members v) es ->
    (forall o s, In (o, s) es -> o < 2 ^ 64 - 1 /\ o + s < 2 ^ 64) ->
    exists s, variant_bit_size bs v = Some s /\
      hull es (variant_bit_offset v) (variant_bit_offset v + s).
Proof.
  intros bs v es N F B. now apply variant_hull.
Qed.
Print Assumptions C17_variant_hull.

Theorem C17_part_hull :
  forall bs p es, vp_variants p <> [] -> (forall v, In v (vp_variants p) -> v_members v <> []) ->
    Forall2 (member_extent bs) (flat_map v_members (vp_variants p)) es ->
    (forall o s, In (o, s) es -> o < 2 ^ 64 - 1 /\ o + s < 2 ^ 64) ->
    exists s, vpart_bit_size bs p = Some s /\
      hull es (vpart_bit_offset p) (vpart_bit_offset p + s).
Proof.
  intros bs p es N NV F B. now apply part_hull.
Qed.
Print Assumptions C17_part_hull.

(** The size is unknown exactly when the size of a member is. *)
Theorem C17_variant_unknown :
  forall bs v,
    variant_bit_size bs v = None <-> exists m, In m (v_members v) /\ member_unsized bs m.
Proof. exact variant_unknown. Qed.
Print Assumptions C17_variant_unknown.

Theorem C17_part_unknown :
  forall bs p,
    vpart_bit_size bs p = None <->
    exists v m, In v (vp_variants p) /\ In m (v_members v) /\ member_unsized bs m.
Proof. exact part_unknown. Qed.
Print Assumptions C17_part_unknown.

Example C17_example :
  item_extent ex_sizes (LVariantPart ex_part) (128, 256 - 128) /\
  vpart_bit_offset ex_part = 128 /\ vpart_bit_size ex_sizes ex_part = Some 128 /\
  variant_bit_offset ex_variant2 = 136 /\ variant_bit_size ex_sizes ex_variant2 = Some 8.
Proof. split; [apply ex_part_extent|]. repeat split. Qed.

(** A memberless variant makes the variant part start at bit 0, which is outside
    the hull of the members. *)
Theorem C17_memberless_variant_refuted :
  exists bs p es lo hi,
    Forall2 (member_extent bs) (flat_map v_members (vp_variants p)) es /\ hull es lo hi /\
    vpart_bit_offset p <> lo.
Proof.
  exists ex_sizes, (mkVariantPart 1 [mkVariant (Some 0) None []; mkVariant (Some 1) None [ex_member 2 4 64]]),
    [(64, 32)], 64, 96. split; [|split].
  - cbn. constructor; [|constructor].
    apply (me_type ex_sizes (ex_member 2 4 64) 4); auto using ex_not_explicit.
  - split; [|split].
    + intros o s [[= <- <-]|[]]. lia.
    + exists 64, 32. cbn. auto.
    + exists 64, 32. cbn. auto.
  - cbn. discriminate.
Qed.
Print Assumptions C17_memberless_variant_refuted.
