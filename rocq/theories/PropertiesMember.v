(** Where bit-fields are (C37), and how many elements arrays and subranges have (C38). *)
From Coq Require Import List Arith NArith ZArith Bool String Lia Permutation.
From Verif Require Import Base RangeModel NamespaceModel TypeModel LocationModel DieModel DieSpec
  MemberSpec DieProofs DescribeProofs MemberProofs.
Import ListNotations.
Local Open Scope N_scope.

(** ** C37 *)

(** The member for the attributes of a bit-field, in the form of DWARF 2 and 3: the bits at the
    reported position have the value that the attributes describe, which is that of some of
    the bits of an object of [size] bytes at offset [place].  The attributes may be in any order,
    and there may be others. *)
Theorem C37_bit_field cx off l place skip bits size rest mem i :
  Permutation l (ADataMemberLocation (MUdata place) :: ABitOffset (Some (Z.of_N skip))
                 :: ABitSize (Some (Z.of_N bits)) :: AByteSize (Some (Z.of_N (N.of_nat size))) :: rest) ->
  distinct_attrs l -> ~ In 19 (map attr_kind l) ->
  skip + bits <= 8 * N.of_nat size -> 8 * (place + N.of_nat size) < two64 ->
  (forall p, mem p < 256) -> i < bits ->
  m_bit_size (parse_member cx off l) = bits
  /\ field_bit (cx_big_endian cx) mem (m_bit_offset (parse_member cx off l)) bits i
     = N.testbit (field_value (object_value (cx_big_endian cx) mem place size) size skip bits) i.
Proof.
  intros P D O Hs Hb Hm Hi. split.
  - apply member_bit_size; [assumption|]. apply (Permutation_in _ (Permutation_sym P)).
    do 2 right. now left.
  - rewrite (bit_field_position cx off l place skip bits (N.of_nat size) rest P D O Hs Hb).
    symmetry. now apply field_bits.
Qed.
Print Assumptions C37_bit_field.

(** Other members are where the attributes say: an offset in bytes, or since DWARF 4 one in
    bits. *)
Theorem C37_position cx off l p :
  distinct_attrs l -> one_position l -> ~ In 18 (map attr_kind l) ->
  (In (ADataMemberLocation (MUdata p)) l -> 8 * p < two64 -> m_bit_offset (parse_member cx off l) = 8 * p)
  /\ (In (ADataBitOffset (Some (Z.of_N p))) l -> m_bit_offset (parse_member cx off l) = p).
Proof.
  intros D O N. split.
  - intros I Hp. apply (member_position cx off l _ _ D O N I). cbn [pick_position parse_data_member_location].
    unfold mul64, wrap64. rewrite N.mod_small by lia. f_equal. lia.
  - intros I. apply (member_position cx off l _ _ D O N I). cbn [pick_position]. unfold udata.
    destruct (Z.ltb_spec (Z.of_N p) 0); [lia|]. now rewrite N2Z.id.
Qed.
Print Assumptions C37_position.

(** The order of the attributes does not matter for any part of the member. *)
Theorem C37_order cx off l l' :
  Permutation l l' -> distinct_attrs l -> one_position l -> parse_member cx off l = parse_member cx off l'.
Proof. apply parse_member_perm. Qed.
Print Assumptions C37_order.

(** It does if both an offset in bytes and one in bits are given. *)
Theorem C37_order_refuted : exists cx l l',
  Permutation l l' /\ distinct_attrs l /\ parse_member cx 0 l <> parse_member cx 0 l'.
Proof.
  exists (mkContext None false false 4 8 (fun _ => None)),
    [ADataMemberLocation (MUdata 4); ADataBitOffset (Some 3%Z)],
    [ADataBitOffset (Some 3%Z); ADataMemberLocation (MUdata 4)].
  split; [apply perm_swap|]. split; [repeat constructor; cbn; intuition discriminate|].
  vm_compute. discriminate.
Qed.
Print Assumptions C37_order_refuted.

(** Two more limits: an object that ends before the field does, which DWARF 2 expresses with a
    negative offset, and an object whose size is only given by its type.  In both cases the
    field is reported to start where the object does. *)
Theorem C37_negative_refuted : exists cx l place skip bits,
  l = [ADataMemberLocation (MUdata place); ABitOffset (Some skip); ABitSize (Some (Z.of_N bits));
       AByteSize (Some 4%Z)]
  /\ cx_big_endian cx = false
  /\ Z.of_N (m_bit_offset (parse_member cx 0 l)) <> (8 * Z.of_N place + (32 - (skip + Z.of_N bits)))%Z.
Proof.
  exists (mkContext None false false 2 8 (fun _ => None)). eexists. exists 0, (-8)%Z, 16.
  split; [reflexivity|]. split; [reflexivity|]. vm_compute. discriminate.
Qed.
Print Assumptions C37_negative_refuted.
Theorem C37_size_refuted : exists cx l place skip bits,
  l = [ADataMemberLocation (MUdata place); ABitOffset (Some (Z.of_N skip)); ABitSize (Some (Z.of_N bits))]
  /\ cx_big_endian cx = false
  /\ m_bit_offset (parse_member cx 0 l) <> 8 * place + (32 - (skip + bits)).
Proof.
  exists (mkContext None false false 2 8 (fun _ => None)). eexists. exists 0, 8, 8.
  split; [reflexivity|]. split; [reflexivity|]. vm_compute. discriminate.
Qed.
Print Assumptions C37_size_refuted.

(** An example: bits 12 to 16 of a 32 bit object at offset 4. *)
Example C37_example :
  let l := [AName (Some "f"%string); AType (Some 90); AByteSize (Some 4%Z); ABitSize (Some 5%Z);
            ABitOffset (Some 15%Z); ADataMemberLocation (MUdata 4)] in
  let cx be := mkContext None false be 2 8 (fun _ => None) in
  distinct_attrs l /\ ~ In 19 (map attr_kind l)
  /\ Permutation l (ADataMemberLocation (MUdata 4) :: ABitOffset (Some (Z.of_N 15))
        :: ABitSize (Some (Z.of_N 5)) :: AByteSize (Some (Z.of_N (N.of_nat 4)))
        :: [AType (Some 90); AName (Some "f"%string)])
  /\ m_bit_offset (parse_member (cx false) 0 l) = 44 /\ m_bit_offset (parse_member (cx true) 0 l) = 47.
Proof.
  cbv zeta. split; [repeat constructor; cbn; intuition discriminate|].
  split; [cbn; intuition discriminate|]. split; [|vm_compute; tauto].
  change (ADataMemberLocation (MUdata 4) :: ABitOffset (Some (Z.of_N 15))
        :: ABitSize (Some (Z.of_N 5)) :: AByteSize (Some (Z.of_N (N.of_nat 4)))
        :: [AType (Some 90); AName (Some "f"%string)])
    with (rev [AName (Some "f"%string); AType (Some 90); AByteSize (Some 4%Z); ABitSize (Some 5%Z);
               ABitOffset (Some 15%Z); ADataMemberLocation (MUdata 4)]).
  apply Permutation_rev.
Qed.

(** ** C38 *)

(** The numbers of elements of an array are those of its dimensions, whether they are described
    by a count or by bounds. *)
Theorem C38_array attrs children ns :
  Forall2 (fun d n => dimension_is (die_attrs d) n) (dimensions children) ns -> ns <> [] ->
  Forall (fun n => 0 <= n < Z.of_N u64_max)%Z ns ->
  Forall (fun d => given_count (die_attrs d) <> None
            \/ (exists n, dimension_is (die_attrs d) n /\ (0 < n)%Z)
               /\ forall z, given_lower (die_attrs d) = Some z -> (0 <= z)%Z) (dimensions children) ->
  counts_as_slice (parse_array_type attrs children) = map Z.to_N ns
  /\ a_ty (parse_array_type attrs children) = given_type attrs
  /\ a_byte_size (parse_array_type attrs children) = given_byte_size attrs.
Proof.
  intros H Hne Hr Hl. destruct (array_counts children attrs) as (A & B & C).
  split; [|split; assumption].
  assert (E : map (fun d => dimension (attr_count (die_attrs d)) (attr_lower (die_attrs d))
                                (attr_upper (die_attrs d))) (dimensions children) = map Z.to_N ns).
  { clear A B C Hne. induction H as [|d n ds ms Hd Hds IH]; [reflexivity|]. cbn [map].
    inversion Hr; subst. inversion Hl as [|? ? Hd2 Hl2]; subst. rewrite IH by assumption. f_equal.
    destruct Hd2 as [Hc|[(n' & Hn' & Pn) Hz]].
    - destruct Hd as [Hd|(Hd & _)]; [|contradiction].
      destruct (Z.eq_dec n 0) as [->|Nz]; [now apply dimension_zero|].
      rewrite attr_count_given, Hd. unfold nonnegative. destruct (Z.ltb_spec n 0); [lia|]. reflexivity.
    - apply dimension_exact; [assumption| |assumption].
      assert (n = n').
      { destruct Hd as [Hd|(Hd & lo & up & Hu & El & ->)], Hn' as [Hn'|(Hn' & lo' & up' & Hu' & El' & ->)];
          congruence. }
      subst. lia. }
  rewrite E in C. destruct ns as [|n [|m ns]]; [contradiction| |]; cbn [map] in C |- *; unfold counts_as_slice.
  - destruct C as (C1 & C2). now rewrite C1, C2.
  - now rewrite C.
Qed.
Print Assumptions C38_array.

(** A dimension from a negative lower bound is taken to start at 0, and one of no elements that
    is described by bounds has an unknown number. *)
Theorem C38_lower_refuted : exists d n,
  dimension_is (die_attrs d) n /\ (0 < n)%Z
  /\ counts_as_slice (parse_array_type [] [d]) <> [Z.to_N n].
Proof.
  exists (Die TagSubrange 16 [ALowerBound (Some (-3)%Z); AUpperBound (Some 4%Z)] []), 8%Z.
  split; [|split; [lia|vm_compute; discriminate]].
  right. split; [reflexivity|]. exists (-3)%Z, 4%Z. repeat split.
Qed.
Print Assumptions C38_lower_refuted.
Theorem C38_empty_refuted : exists d,
  dimension_is (die_attrs d) 0 /\ counts_as_slice (parse_array_type [] [d]) <> [0].
Proof.
  exists (Die TagSubrange 16 [ALowerBound (Some 1%Z); AUpperBound (Some 0%Z)] []).
  split; [|vm_compute; discriminate].
  right. split; [reflexivity|]. exists 1%Z, 0%Z. repeat split.
Qed.
Print Assumptions C38_empty_refuted.

Example C38_example :
  let children := [Die TagSubrange 16 [ACount (Some 0%Z)] []; Die (TagOther 1) 18 [] [];
                   Die TagSubrange 20 [AUpperBound (Some 7%Z); ALowerBound (Some 3%Z)] []] in
  Forall2 (fun d n => dimension_is (die_attrs d) n) (dimensions children) [0; 5]%Z
  /\ counts_as_slice (parse_array_type [] children) = [0; 5].
Proof.
  split; [|vm_compute; reflexivity].
  constructor; [now left|]. constructor; [|constructor]. right. split; [reflexivity|].
  exists 3%Z, 7%Z. repeat split.
Qed.

(** The bounds of a subrange that is described by them are reported. *)
Theorem C38_subrange l lower upper :
  distinct_attrs l -> In (ALowerBound (Some (Z.of_N lower))) l -> In (AUpperBound (Some (Z.of_N upper))) l ->
  ~ In 21 (map attr_kind l) ->
  sr_lower (parse_subrange_type l) = Some lower /\ sr_upper (parse_subrange_type l) = Some upper.
Proof.
  intros D I1 I2 N.
  assert (U : forall n, udata (Some (Z.of_N n)) = Some n).
  { intros n. unfold udata. destruct (Z.ltb_spec (Z.of_N n) 0); [lia|]. now rewrite N2Z.id. }
  assert (E1 : scan (fun a x => match a with ALowerBound v => keep_udata v x | _ => x end) l None = Some lower).
  { rewrite (scan_given _ (fun a => match a with ALowerBound v => option_map Some (udata v) | _ => None end)).
    - eapply (given_in _ 22); [|exact D|exact I1|cbn beta iota; now rewrite U].
      intros a v H. destruct a; try discriminate; reflexivity.
    - intros [] x; try reflexivity. unfold keep_udata. now destruct (udata v). }
  assert (E2 : scan (fun a x => match a with AUpperBound v => keep_udata v x | _ => x end) l None = Some upper).
  { rewrite (scan_given _ (fun a => match a with AUpperBound v => option_map Some (udata v) | _ => None end)).
    - eapply (given_in _ 23); [|exact D|exact I2|cbn beta iota; now rewrite U].
      intros a v H. destruct a; try discriminate; reflexivity.
    - intros [] x; try reflexivity. unfold keep_udata. now destruct (udata v). }
  assert (E3 : scan (fun a x => match a with ACount v => keep_udata v x | _ => x end) l None = None).
  { rewrite (scan_given _ (fun a => match a with ACount v => option_map Some (udata v) | _ => None end)).
    - apply (given_no _ 21); [|exact N]. intros a v H. destruct a; try discriminate; reflexivity.
    - intros [] x; try reflexivity. unfold keep_udata. now destruct (udata v). }
  unfold parse_subrange_type. rewrite E1, E2, E3. split; reflexivity.
Qed.
Print Assumptions C38_subrange.

(** One that is described by a lower bound and a count is reported to have one value too many,
    and one that is described by a count alone to have no upper bound. *)
Theorem C38_subrange_refuted : exists l lower count,
  l = [ALowerBound (Some (Z.of_N lower)); ACount (Some (Z.of_N count))]
  /\ sr_lower (parse_subrange_type l) = Some lower
  /\ sr_upper (parse_subrange_type l) <> Some (lower + count - 1).
Proof. exists [ALowerBound (Some 3%Z); ACount (Some 5%Z)], 3, 5. repeat split. vm_compute. discriminate. Qed.
Print Assumptions C38_subrange_refuted.
Theorem C38_count_refuted : exists l count,
  l = [ACount (Some (Z.of_N count))] /\ 0 < count /\ sr_upper (parse_subrange_type l) = None.
Proof. exists [ACount (Some 5%Z)], 5. repeat split. Qed.
Print Assumptions C38_count_refuted.

Example C38_subrange_example :
  let l := [AName (Some "r"%string); AUpperBound (Some 9%Z); ALowerBound (Some 2%Z)] in
  distinct_attrs l /\ ~ In 21 (map attr_kind l)
  /\ sr_lower (parse_subrange_type l) = Some 2 /\ sr_upper (parse_subrange_type l) = Some 9.
Proof. split; [repeat constructor; cbn; intuition discriminate|]. split; [cbn; intuition discriminate|]. vm_compute. tauto. Qed.
