(** Proofs about members, arrays and the types of a unit. *)
From Coq Require Import List Arith NArith ZArith Bool String Lia Permutation.
From Verif Require Import Base NamespaceModel TypeModel LocationModel DieModel DieSpec MemberSpec
  DieProofs DescribeProofs VariableProofs.
Import ListNotations.
Local Open Scope N_scope.

(** ** The order of attributes *)

Lemma udata_nonnegative v : udata v = nonnegative v.
Proof. reflexivity. Qed.

Definition picks {A} (pick : attr -> option A) (l : list attr) : list A :=
  flat_map (fun a => match pick a with Some v => [v] | None => [] end) l.

Lemma given_perm {A} (pick : attr -> option A) l l' x :
  Permutation l l' -> (List.length (picks pick l) <= 1)%nat -> given pick l x = given pick l' x.
Proof.
  intros P L. unfold given. fold (picks pick l) (picks pick l').
  assert (Q : Permutation (picks pick l) (picks pick l')) by now apply Permutation_flat_map.
  destruct (picks pick l) as [|v [|? ?]].
  - apply Permutation_nil in Q. now rewrite Q.
  - apply Permutation_length_1_inv in Q. now rewrite Q.
  - cbn in L. lia.
Qed.

Lemma picks_kind {A} (pick : attr -> option A) k l :
  (forall a v, pick a = Some v -> attr_kind a = k) -> distinct_attrs l ->
  (List.length (picks pick l) <= 1)%nat.
Proof.
  intros H D. unfold distinct_attrs in D.
  assert (G : (List.length (picks pick l) <= count_occ N.eq_dec (map attr_kind l) k)%nat).
  { clear D. induction l as [|a l IH]; [cbn; lia|]. unfold picks in *. cbn [flat_map map count_occ].
    rewrite app_length. destruct (pick a) eqn:E; cbn [List.length].
    - apply H in E. rewrite E. destruct (N.eq_dec k k); [lia|contradiction].
    - destruct (N.eq_dec (attr_kind a) k); lia. }
  rewrite (NoDup_count_occ N.eq_dec) in D. specialize (D k). lia.
Qed.

Lemma given_kind_perm {A} (pick : attr -> option A) k l l' x :
  (forall a v, pick a = Some v -> attr_kind a = k) -> distinct_attrs l -> Permutation l l' ->
  given pick l x = given pick l' x.
Proof. intros H D P. apply given_perm; [assumption|]. now apply picks_kind with k. Qed.

(** [attr_bit_offset] picks two kinds of attributes. *)
Definition pick_position (cx : context) (a : attr) : option N :=
  match a with
  | ADataMemberLocation v => parse_data_member_location cx v
  | ADataBitOffset v => udata v
  | _ => None
  end.

Lemma attr_bit_offset_given cx l : attr_bit_offset cx l = given (pick_position cx) l 0.
Proof.
  apply scan_given. now intros [].
Qed.
Lemma attr_field_offset_given l :
  attr_field_offset l = given (fun a => match a with ABitOffset v => Some (udata v) | _ => None end) l None.
Proof. apply scan_given. now intros []. Qed.
Lemma attr_storage_size_given l :
  attr_storage_size l = given (fun a => match a with AByteSize v => Some (udata v) | _ => None end) l None.
Proof. apply scan_given. now intros []. Qed.
Lemma attr_bit_size_given l : attr_bit_size l = given_bit_size l.
Proof. apply scan_given. now intros []. Qed.
Lemma attr_byte_size_given l : attr_byte_size l = given_byte_size l.
Proof. apply scan_given. now intros []. Qed.

Lemma picks_position cx l : distinct_attrs l -> one_position l -> (List.length (picks (pick_position cx) l) <= 1)%nat.
Proof.
  intros D O.
  assert (G : (List.length (picks (pick_position cx) l)
     <= count_occ N.eq_dec (map attr_kind l) 19%N + count_occ N.eq_dec (map attr_kind l) 20%N)%nat).
  { clear D O. induction l as [|a l IH]; [cbn; lia|]. unfold picks in *. cbn [flat_map map].
    rewrite app_length.
    assert (C : (List.length match pick_position cx a with Some v => [v] | None => [] end
       <= count_occ N.eq_dec [attr_kind a] 19%N + count_occ N.eq_dec [attr_kind a] 20%N)%nat).
    { destruct a; cbn [pick_position attr_kind List.length]; try lia.
      - destruct (udata v); cbn; lia.
      - destruct (parse_data_member_location cx v); cbn; lia. }
    change (attr_kind a :: map attr_kind l) with ([attr_kind a] ++ map attr_kind l).
    rewrite !count_occ_app. lia. }
  unfold distinct_attrs in D. rewrite (NoDup_count_occ N.eq_dec) in D. unfold one_position in O.
  rewrite (count_occ_In N.eq_dec), (count_occ_In N.eq_dec) in O. pose proof (D 19). pose proof (D 20). lia.
Qed.

Lemma parse_member_perm cx o l l' :
  Permutation l l' -> distinct_attrs l -> one_position l -> parse_member cx o l = parse_member cx o l'.
Proof.
  intros P D O. unfold parse_member.
  rewrite !attr_name_given, !attr_type_given, !attr_bit_offset_given, !attr_field_offset_given,
    !attr_bit_size_given, !attr_storage_size_given.
  assert (E1 : given_name l = given_name l').
  { apply (given_kind_perm _ 0); auto. intros [] v0 H; try discriminate; reflexivity. }
  assert (E2 : given_type l = given_type l').
  { apply (given_kind_perm _ 2); auto. intros [] v0 H; try discriminate; reflexivity. }
  assert (E3 : given (pick_position cx) l 0 = given (pick_position cx) l' 0).
  { apply given_perm; [assumption|]. now apply picks_position. }
  assert (E4 : given_bit_size l = given_bit_size l').
  { apply (given_kind_perm _ 17); auto. intros [] v0 H; try discriminate; reflexivity. }
  rewrite E1, E2, E3, E4.
  f_equal. f_equal.
  - apply (given_kind_perm _ 18); auto. intros [] v0 H; try discriminate; reflexivity.
  - apply (given_kind_perm _ 16); auto. intros [] v0 H; try discriminate; reflexivity.
Qed.

(** ** Bits *)

Lemma value_of_bit l : Forall (fun b => b < 256) l -> forall n,
  N.testbit (value_of l) n = N.testbit (nth (N.to_nat (n / 8)) l 0) (n mod 8).
Proof.
  induction 1 as [|b l Hb Hl IH]; intros n; cbn [value_of].
  - rewrite N.bits_0. destruct (N.to_nat (n / 8)); cbn [nth]; now rewrite N.bits_0.
  - destruct (N.lt_ge_cases n 8) as [L|L].
    + rewrite (N.div_small n 8), (N.mod_small n 8) by assumption. cbn [N.to_nat nth].
      rewrite <- (N.mod_pow2_bits_low _ 8 n) by assumption. change (2 ^ 8) with 256. f_equal.
      rewrite (N.mul_comm 256), N.mod_add by discriminate. now apply N.mod_small.
    + replace n with ((n - 8) + 8) at 1 by lia. rewrite <- N.div_pow2_bits. change (2 ^ 8) with 256.
      assert (E : (b + 256 * value_of l) / 256 = value_of l).
      { rewrite (N.mul_comm 256), N.div_add by discriminate. rewrite N.div_small by assumption. lia. }
      rewrite E, IH.
      assert (D : n / 8 = N.succ ((n - 8) / 8)).
      { replace n with ((n - 8) + 1 * 8) at 1 by lia. rewrite N.div_add by discriminate. apply N.add_1_r. }
      assert (M : n mod 8 = (n - 8) mod 8).
      { replace n with ((n - 8) + 1 * 8) at 1 by lia. now rewrite N.mod_add by discriminate. }
      rewrite D, M, N2Nat.inj_succ. reflexivity.
Qed.

Lemma object_value_bit be mem off size n :
  (forall p, mem p < 256) -> n < 8 * N.of_nat size ->
  N.testbit (object_value be mem off size) n
  = N.testbit (mem (off + if be then N.of_nat size - 1 - n / 8 else n / 8)) (n mod 8).
Proof.
  intros Hm Hn. unfold object_value.
  set (l := map (fun k => mem (off + N.of_nat k)) (seq 0 size)).
  assert (Hl : Forall (fun b => b < 256) l).
  { apply Forall_forall. intros b Hb. apply in_map_iff in Hb. destruct Hb as (k & <- & _). apply Hm. }
  assert (Hd : n / 8 < N.of_nat size).
  { apply N.div_lt_upper_bound; lia. }
  assert (Nth : forall k, (k < size)%nat -> nth k l 0 = mem (off + N.of_nat k)).
  { intros k Hk. unfold l.
    rewrite (nth_indep _ 0 (mem (off + N.of_nat 0))) by (rewrite map_length, seq_length; lia).
    rewrite (map_nth (fun k => mem (off + N.of_nat k)) (seq 0 size) 0%nat). now rewrite seq_nth by lia. }
  assert (Len : List.length l = size) by (unfold l; now rewrite map_length, seq_length).
  destruct be.
  - rewrite value_of_bit by now apply Forall_rev. generalize dependent (n / 8). intros q Hd.
    rewrite rev_nth, Len, Nth by lia. repeat f_equal. lia.
  - rewrite value_of_bit by assumption. generalize dependent (n / 8). intros q Hd.
    rewrite Nth by lia. repeat f_equal. lia.
Qed.

Lemma div8 n : n = 8 * (n / 8) + n mod 8 /\ n mod 8 < 8.
Proof. split; [apply N.div_mod; discriminate|apply N.mod_lt; discriminate]. Qed.

Lemma div8_unique n q r : n = 8 * q + r -> r < 8 -> n / 8 = q /\ n mod 8 = r.
Proof.
  intros E L. split; symmetry; [apply (N.div_unique _ _ _ r)|apply (N.mod_unique _ _ q)]; assumption.
Qed.

Lemma field_bits be mem off size skip bits i :
  (forall p, mem p < 256) -> skip + bits <= 8 * N.of_nat size -> i < bits ->
  N.testbit (field_value (object_value be mem off size) size skip bits) i
  = field_bit be mem (8 * off + if be then skip else 8 * N.of_nat size - (skip + bits)) bits i.
Proof.
  intros Hm Hs Hi. unfold field_value. rewrite N.mod_pow2_bits_low by assumption.
  rewrite N.shiftr_spec by lia. rewrite object_value_bit by (assumption || lia).
  set (n := i + (8 * N.of_nat size - skip - bits)). unfold field_bit, bit_at.
  destruct (div8 n) as (En & Ln).
  assert (Hn : n < 8 * N.of_nat size) by (unfold n; lia).
  generalize dependent (n mod 8). generalize dependent (n / 8). intros q r En Lr.
  assert (Hq : q < N.of_nat size) by lia.
  destruct be.
  - assert (E : 8 * off + skip + (bits - 1 - i) = 8 * (off + (N.of_nat size - 1 - q)) + (7 - r)).
    { assert (skip + (bits - 1 - i) = 8 * N.of_nat size - 1 - n) by (unfold n; lia). lia. }
    destruct (div8_unique _ _ _ E) as (E1 & E2); [lia|]. rewrite E1, E2.
    f_equal. lia.
  - assert (E : 8 * off + (8 * N.of_nat size - (skip + bits)) + i = 8 * (off + q) + r).
    { unfold n in En. lia. }
    destruct (div8_unique _ _ _ E) as (E1 & E2); [lia|]. now rewrite E1, E2.
Qed.

(** ** Positions from attributes *)

Lemma given_skip {A} (pick : attr -> option A) l x :
  Forall (fun a => pick a = None) l -> given pick l x = x.
Proof.
  intros H. revert x. induction H as [|a l Ha Hl IH]; intros x; [reflexivity|].
  rewrite given_cons, Ha. apply IH.
Qed.

Lemma bit_field_position cx o l place skip bits size rest :
  Permutation l (ADataMemberLocation (MUdata place) :: ABitOffset (Some (Z.of_N skip))
                 :: ABitSize (Some (Z.of_N bits)) :: AByteSize (Some (Z.of_N size)) :: rest) ->
  distinct_attrs l -> ~ In 19 (map attr_kind l) ->
  skip + bits <= 8 * size -> 8 * (place + size) < two64 ->
  m_bit_offset (parse_member cx o l)
  = 8 * place + (if cx_big_endian cx then skip else 8 * size - (skip + bits)).
Proof.
  intros P D O Hs Hb.
  rewrite (parse_member_perm cx o _ _ P D) by (unfold one_position; tauto).
  assert (P2 : Permutation (map attr_kind l) (20 :: 18 :: 17 :: 16 :: map attr_kind rest)).
  { apply (Permutation_map attr_kind) in P. exact P. }
  assert (D2 : NoDup (20 :: 18 :: 17 :: 16 :: map attr_kind rest)) by now apply (Permutation_NoDup P2).
  assert (O2 : ~ In 19 (map attr_kind rest)).
  { intros H. apply O. apply (Permutation_in _ (Permutation_sym P2)). do 4 right. exact H. }
  inversion D2 as [|? ? N20 D3]; inversion D3 as [|? ? N18 D4]; inversion D4 as [|? ? N17 D5];
    inversion D5 as [|? ? N16 D6]; subst. cbn [In] in N20, N18, N17, N16.
  assert (R : forall a, In a rest -> attr_kind a <> 20 /\ attr_kind a <> 19 /\ attr_kind a <> 18
                                   /\ attr_kind a <> 17 /\ attr_kind a <> 16).
  { intros a Ha. apply (in_map attr_kind) in Ha. repeat split; intros E; rewrite E in Ha; tauto. }
  unfold parse_member. cbn [m_bit_offset].
  rewrite attr_bit_offset_given, attr_field_offset_given, attr_bit_size_given, attr_storage_size_given.
  unfold given_bit_size. rewrite !given_cons. cbn [pick_position parse_data_member_location].
  assert (U : forall n, udata (Some (Z.of_N n)) = Some n).
  { intros n. unfold udata. destruct (Z.ltb_spec (Z.of_N n) 0); [lia|]. now rewrite N2Z.id. }
  assert (U2 : forall n, nonnegative (Some (Z.of_N n)) = Some n) by exact U.
  rewrite !U, ?U2.
  rewrite !given_skip.
  - assert (E8 : two64 = 18446744073709551616) by reflexivity.
    assert (M1 : mul64 place 8 = 8 * place) by (unfold mul64, wrap64; rewrite N.mod_small; lia).
    assert (M2 : mul64 size 8 = 8 * size) by (unfold mul64, wrap64; rewrite N.mod_small; lia).
    assert (G : opt64_get bits = Some bits).
    { apply opt64_get_some. unfold opt64_none, u64_max. lia. }
    unfold field_position. rewrite G, M1, M2. destruct (cx_big_endian cx).
    + unfold add64, wrap64. rewrite N.mod_small; lia.
    + unfold add64, wrap64. rewrite !N.mod_small by lia. rewrite sub64_below by lia. lia.
  - apply Forall_forall. intros a Ha. destruct (R a Ha) as (A1 & A2 & A3 & A4 & A5).
    destruct a; try reflexivity; cbn in *; congruence.
  - apply Forall_forall. intros a Ha. destruct (R a Ha) as (A1 & A2 & A3 & A4 & A5).
    destruct a; try reflexivity; cbn in *; congruence.
  - apply Forall_forall. intros a Ha. destruct (R a Ha) as (A1 & A2 & A3 & A4 & A5).
    destruct a; try reflexivity; cbn in *; congruence.
  - apply Forall_forall. intros a Ha. destruct (R a Ha) as (A1 & A2 & A3 & A4 & A5).
    destruct a; try reflexivity; cbn in *; congruence.
Qed.

(** What the only attribute of a kind gives. *)
Lemma given_in {A} (pick : attr -> option A) k l a v x :
  (forall a v, pick a = Some v -> attr_kind a = k) -> distinct_attrs l -> In a l -> pick a = Some v ->
  given pick l x = v.
Proof.
  intros H D I E. apply in_split in I as (l1 & l2 & ->).
  assert (P : Permutation (l1 ++ a :: l2) (a :: l1 ++ l2)) by (symmetry; apply Permutation_middle).
  rewrite (given_kind_perm pick k _ _ x H D P), given_cons, E. apply given_skip. apply Forall_forall.
  intros b Hb. destruct (pick b) as [w|] eqn:Eb; [|reflexivity]. exfalso.
  pose proof (Permutation_NoDup (Permutation_map attr_kind P) D) as D2. cbn [map] in D2.
  inversion D2 as [|? ? N1 _]; subst. apply N1. rewrite (H a v E), <- (H b w Eb). now apply in_map.
Qed.
Lemma given_no {A} (pick : attr -> option A) k l x :
  (forall a v, pick a = Some v -> attr_kind a = k) -> ~ In k (map attr_kind l) -> given pick l x = x.
Proof.
  intros H I. apply given_skip, Forall_forall. intros b Hb.
  destruct (pick b) as [w|] eqn:Eb; [|reflexivity]. exfalso. apply I. rewrite <- (H b w Eb).
  now apply in_map.
Qed.

Lemma member_bit_size cx o l bits :
  distinct_attrs l -> In (ABitSize (Some (Z.of_N bits))) l -> m_bit_size (parse_member cx o l) = bits.
Proof.
  intros D I. unfold parse_member. cbn [m_bit_size]. rewrite attr_bit_size_given. unfold given_bit_size.
  eapply (given_in _ 17); [|exact D|exact I|].
  { intros a v H. destruct a; try discriminate; reflexivity. }
  cbn [nonnegative]. destruct (Z.ltb_spec (Z.of_N bits) 0); [lia|]. now rewrite N2Z.id.
Qed.

(** The position of a member that is not described in the way of DWARF 2 and 3. *)
Lemma member_position cx o l a p :
  distinct_attrs l -> one_position l -> ~ In 18 (map attr_kind l) -> In a l ->
  pick_position cx a = Some p -> m_bit_offset (parse_member cx o l) = p.
Proof.
  intros D O N I E. unfold parse_member. cbn [m_bit_offset].
  rewrite attr_bit_offset_given, attr_field_offset_given.
  rewrite (given_no _ 18) with (l := l) (x := None); [|intros b v H; destruct b; try discriminate; reflexivity|exact N].
  cbn [field_position]. clear N.
  apply in_split in I as (l1 & l2 & ->).
  assert (P : Permutation (l1 ++ a :: l2) (a :: l1 ++ l2)) by (symmetry; apply Permutation_middle).
  rewrite (given_perm _ _ (a :: l1 ++ l2) _ P) by now apply picks_position.
  rewrite given_cons, E. apply given_skip, Forall_forall. intros b Hb.
  destruct (pick_position cx b) as [w|] eqn:Eb; [|reflexivity]. exfalso.
  pose proof (picks_position cx _ D O) as L.
  apply (Permutation_flat_map (fun a => match pick_position cx a with Some v => [v] | None => [] end)) in P.
  apply Permutation_length in P. fold (picks (pick_position cx) (l1 ++ a :: l2)) in P. rewrite P in L.
  cbn [flat_map] in L. rewrite E in L. apply in_split in Hb as (l3 & l4 & Eq). rewrite Eq in L.
  rewrite flat_map_app in L. cbn [flat_map] in L. rewrite Eb in L.
  cbn [app List.length] in L. rewrite app_length in L. cbn [app List.length] in L. lia.
Qed.

(** ** Arrays *)

Lemma attr_count_given l : attr_count l = nonnegative (given_count l).
Proof.
  unfold attr_count, given_count, bound. change None with (nonnegative None) at 1.
  generalize (@None Z : constant) as x. induction l as [|a l IH]; intros x; [reflexivity|].
  rewrite given_cons, <- IH. unfold scan. cbn [fold_left]. f_equal. now destruct a.
Qed.
Lemma attr_lower_given l : attr_lower l = nonnegative (given_lower l).
Proof.
  unfold attr_lower, given_lower, bound. change None with (nonnegative None) at 1.
  generalize (@None Z : constant) as x. induction l as [|a l IH]; intros x; [reflexivity|].
  rewrite given_cons, <- IH. unfold scan. cbn [fold_left]. f_equal. now destruct a.
Qed.
Lemma attr_upper_given l : attr_upper l = nonnegative (given_upper l).
Proof.
  unfold attr_upper, given_upper, bound. change None with (nonnegative None) at 1.
  generalize (@None Z : constant) as x. induction l as [|a l IH]; intros x; [reflexivity|].
  rewrite given_cons, <- IH. unfold scan. cbn [fold_left]. f_equal. now destruct a.
Qed.

Lemma dimension_exact l n :
  dimension_is l n -> (0 < n < Z.of_N u64_max)%Z ->
  (forall z, given_lower l = Some z -> 0 <= z)%Z ->
  dimension (attr_count l) (attr_lower l) (attr_upper l) = Z.to_N n.
Proof.
  intros H Hn Hl. rewrite attr_count_given, attr_lower_given, attr_upper_given.
  destruct H as [H|(H & lower & upper & Hu & Hlo & En)]; rewrite H; cbn [nonnegative].
  - destruct (Z.ltb_spec n 0); [lia|]. reflexivity.
  - unfold elements in En. rewrite Hu. cbn [nonnegative].
    assert (Hlow : (0 <= lower)%Z).
    { destruct (given_lower l) as [z|]; [|lia]. specialize (Hl z eq_refl). lia. }
    destruct (Z.ltb_spec upper 0); [lia|]. cbn [dimension].
    assert (El : match nonnegative (given_lower l) with Some n0 => n0 | None => 0 end = Z.to_N lower).
    { destruct (given_lower l) as [z|]; cbn [nonnegative]; [|now subst].
      specialize (Hl z eq_refl). destruct (Z.ltb_spec z 0); [lia|]. now subst. }
    rewrite El. unfold u64_max in Hn.
    destruct (N.ltb_spec (Z.to_N upper) (Z.to_N lower)); [lia|].
    destruct (N.eqb_spec (Z.to_N upper - Z.to_N lower) u64_max) as [E|E]; [unfold u64_max in E; lia|]. lia.
Qed.

Lemma dimension_zero l :
  given_count l = Some 0%Z -> dimension (attr_count l) (attr_lower l) (attr_upper l) = 0.
Proof. intros H. rewrite attr_count_given, H. reflexivity. Qed.

Lemma array_counts children attrs :
  let a := parse_array_type attrs children in
  let counts := map (fun d => dimension (attr_count (die_attrs d)) (attr_lower (die_attrs d))
                                (attr_upper (die_attrs d))) (dimensions children) in
  a_ty a = given_type attrs /\ a_byte_size a = given_byte_size attrs
  /\ match counts with [c] => a_count a = c /\ a_counts a = [] | _ => a_counts a = counts end.
Proof.
  unfold parse_array_type.
  assert (E : flat_map (fun d => match d with
      | Die TagSubrange _ a _ => [dimension (attr_count a) (attr_lower a) (attr_upper a)]
      | _ => [] end) children
    = map (fun d => dimension (attr_count (die_attrs d)) (attr_lower (die_attrs d)) (attr_upper (die_attrs d)))
        (dimensions children)).
  { unfold dimensions. induction children as [|[t o a c] l IH]; [reflexivity|].
    cbn [flat_map filter die_tag]. rewrite IH. now destruct t. }
  rewrite E. cbn zeta.
  destruct (map _ (dimensions children)) as [|c [|d l]]; cbn [a_ty a_byte_size a_count a_counts];
    rewrite attr_type_given, attr_byte_size_given; auto.
Qed.

(** ** Types *)

Lemma in_kind a l : In a l -> In (attr_kind a) (map attr_kind l).
Proof. apply in_map. Qed.
Lemma mul64_small n : 8 * n < two64 -> mul64 n 8 = 8 * n.
Proof. intros H. unfold mul64, wrap64. rewrite N.mod_small by lia. lia. Qed.

(** An entry with an offset: what [pick_position] takes from it. *)
Lemma offset_picked cx l p : offset_is cx l p ->
  ~ In 20 (map attr_kind l) /\ p = 0 \/ exists v, In (ADataMemberLocation v) l /\ parse_data_member_location cx v = Some p.
Proof.
  intros [N|n I L|n I L|n I V L|n b I L]; [now left|right; eexists; (split; [exact I|])..]; cbn [parse_data_member_location member_location].
  - now rewrite mul64_small.
  - destruct (Z.leb_spec 0 (Z.of_N n)); [|lia]. now rewrite N2Z.id, mul64_small.
  - now rewrite V, N.eqb_refl, mul64_small.
  - now rewrite mul64_small.
Qed.

Lemma position_parsed cx o l p : distinct_attrs l -> position_is cx l p -> m_bit_offset (parse_member cx o l) = p.
Proof.
  intros D [q N1 N2 H|n N1 N2 I|place skip bits size I1 I2 I3 I4 N1 H1 H2].
  - destruct (offset_picked cx l q H) as [(N3 & ->)|(v & I & E)].
    + unfold parse_member. cbn [m_bit_offset]. rewrite attr_bit_offset_given, attr_field_offset_given.
      rewrite (given_no _ 18) with (l := l) (x := None); [|intros b v E; destruct b; try discriminate; reflexivity|exact N1].
      cbn [field_position]. apply given_skip, Forall_forall. intros b Hb. apply in_kind in Hb.
      destruct b; try reflexivity; contradiction.
    + apply (member_position cx o l (ADataMemberLocation v) q D); auto. now intros (A & _).
  - apply (member_position cx o l (ADataBitOffset (Some (Z.of_N n))) n D); auto; [now intros (_ & A)|].
    cbn [pick_position]. unfold udata. destruct (Z.ltb_spec (Z.of_N n) 0); [lia|]. now rewrite N2Z.id.
  - assert (P : exists rest, Permutation l (ADataMemberLocation (MUdata place) :: ABitOffset (Some (Z.of_N skip))
                 :: ABitSize (Some (Z.of_N bits)) :: AByteSize (Some (Z.of_N size)) :: rest)).
    { assert (T : forall (a b : attr) (l r : list attr), Permutation l (b :: r) -> In a l -> a <> b -> In a r).
      { intros a b m r P I NE. apply (Permutation_in _ P) in I. destruct I as [E|I]; [congruence|exact I]. }
      assert (S : forall (a : attr) l, In a l -> exists r, Permutation l (a :: r)).
      { intros a m I. apply in_split in I as (x & y & ->). exists (x ++ y)%list. symmetry. apply Permutation_middle. }
      destruct (S _ _ I1) as (r1 & P1).
      apply (T _ _ _ _ P1) in I2; [|discriminate]. apply (T _ _ _ _ P1) in I3; [|discriminate]. apply (T _ _ _ _ P1) in I4; [|discriminate].
      destruct (S _ _ I2) as (r2 & P2). apply (T _ _ _ _ P2) in I3; [|discriminate]. apply (T _ _ _ _ P2) in I4; [|discriminate].
      destruct (S _ _ I3) as (r3 & P3). apply (T _ _ _ _ P3) in I4; [|discriminate]. destruct (S _ _ I4) as (r4 & P4).
      exists r4. now rewrite P1, P2, P3, P4. }
    destruct P as (rest & P). exact (bit_field_position cx o l place skip bits size rest P D N1 H1 H2).
Qed.

Lemma parse_member_like cx o a c : member_like cx (Die TagMember o a c) (parse_member cx o a).
Proof.
  unfold member_like. cbn [die_offset die_attrs].
  split; [reflexivity|]. split; [apply attr_name_given|]. split; [apply attr_type_given|].
  split; [apply attr_bit_size_given|]. intros p. apply position_parsed.
Qed.

Lemma given_more {A} (pick : attr -> option A) l m x : given pick (l ++ m) x = given pick m (given pick l x).
Proof.
  revert x. induction l as [|a l IH]; intros x; [reflexivity|]. cbn [app]. now rewrite !given_cons, IH.
Qed.
Lemma base_parsed cx l p : distinct_attrs l -> offset_is cx l p -> i_bit_offset (parse_inheritance cx l) = p.
Proof.
  intros D H. unfold parse_inheritance. cbn [i_bit_offset].
  rewrite (scan_given _ (fun a => match a with ADataMemberLocation v => parse_data_member_location cx v | _ => None end))
    by (intros [] y; try reflexivity; now destruct (parse_data_member_location cx v)).
  destruct (offset_picked cx l p H) as [(N & ->)|(v & I & E)].
  - apply given_skip, Forall_forall. intros b Hb. apply in_kind in Hb. destruct b; try reflexivity; contradiction.
  - apply in_split in I as (l1 & l2 & ->). unfold distinct_attrs in D. rewrite map_app in D. cbn [map] in D.
    apply NoDup_remove in D as (_ & D). rewrite given_more, given_cons. cbn [attr_kind] in D. rewrite E.
    apply given_skip, Forall_forall. intros b Hb. apply in_kind in Hb.
    destruct b; try reflexivity; destruct D; apply in_app_iff; now right.
Qed.

Lemma members_like cx l : Forall2 (member_like cx) (filter instance_member l) (members_of cx l).
Proof.
  unfold members_of. induction l as [|[t o a c] l IH]; [constructor|]. cbn [filter flat_map].
  unfold instance_member at 1. cbn [die_tag die_attrs]. destruct t; try exact IH.
  rewrite is_static_declared. destruct (declared_only a); cbn [negb app]; [exact IH|].
  constructor; [apply parse_member_like|exact IH].
Qed.

Lemma structure_members_like cx l : Forall2 (member_like cx) (member_entries l) (structure_members cx l).
Proof.
  unfold member_entries, structure_members. induction l as [|d l IH]; [constructor|]. cbn [flat_map].
  apply Forall2_app; [|exact IH]. destruct d as [t o a c]. unfold instance_member. cbn [die_tag die_attrs die_children].
  destruct t; try constructor.
  - unfold members_of. cbn [flat_map]. rewrite is_static_declared. destruct (declared_only a); cbn [negb app];
      [constructor|]. constructor; [apply parse_member_like|constructor].
  - apply members_like.
Qed.

Lemma inherits_like cx l :
  Forall2 (base_like cx) (with_tag (fun t => match t with TagInheritance => true | _ => false end) l) (inherits_of cx l).
Proof.
  unfold with_tag, inherits_of. induction l as [|[t o a c] l IH]; [constructor|]. cbn [filter flat_map die_tag].
  destruct t; try exact IH. cbn [app]. constructor; [|exact IH]. unfold base_like. cbn [die_attrs].
  split; [apply attr_type_given|]. intros p. apply base_parsed.
Qed.

Lemma parse_variant_like cx o a c : variant_like cx (Die TagVariant o a c) (parse_variant cx a c).
Proof.
  assert (Ed : scan (fun a x => match a with
       | ADiscrValue v => match udata v with Some n => Some n | None => x end
       | _ => x end) a None = given_discr_value a).
  { apply scan_given. intros [] y; try reflexivity; rewrite udata_nonnegative; now destruct (nonnegative v). }
  unfold parse_variant.
  destruct (variant_structure cx (members_of cx c)) as [s|] eqn:E.
  - apply (variant_structure_spec cx (Die TagVariant o a c)) in E.
    apply (var_stands cx _ _ s); cbn [v_discr_value v_name v_members variant_name die_attrs].
    + exact E.
    + exact Ed.
    + apply attr_name_given.
    + apply members_like.
  - apply var_itself; cbn [v_discr_value v_name v_members variant_name die_attrs die_children].
    + intros s Hs. apply (variant_structure_spec cx (Die TagVariant o a c)) in Hs. cbn [die_children] in Hs. congruence.
    + exact Ed.
    + reflexivity.
    + apply members_like.
Qed.

Lemma parts_like cx l :
  Forall2 (part_like cx) (with_tag (fun t => match t with TagVariantPart => true | _ => false end) l)
    (variant_parts_of cx l).
Proof.
  unfold with_tag at 1, variant_parts_of. induction l as [|[t o a c] l IH]; [constructor|].
  cbn [filter flat_map die_tag]. destruct t; try exact IH. cbn [app]. constructor; [|exact IH].
  unfold part_like, parse_variant_part. cbn [vp_discr vp_variants die_attrs die_children]. split.
  - apply scan_given. now intros [].
  - unfold with_tag, variants_of. clear IH. induction c as [|[t2 o2 a2 c2] c IHc]; [constructor|].
    cbn [filter flat_map die_tag]. destruct t2; try exact IHc. cbn [app]. constructor; [|exact IHc].
    apply parse_variant_like.
Qed.

Lemma entry_type_described cx ns d :
  is_type_tag (die_tag d) = true ->
  t_offset (entry_type cx ns d) = die_offset d /\ describes_type cx ns d (t_kind (entry_type cx ns d)).
Proof.
  destruct d as [t o a c]. cbn [die_tag]. intros Ht. split; [reflexivity|].
  destruct t; try discriminate Ht; cbn [entry_type t_kind];
    rewrite ?attr_name_given, ?attr_byte_size_given, ?attr_type_given, ?attr_declaration_given.
  - now apply (dt_base cx ns (Die TagBase o a c)).
  - now apply (dt_typedef cx ns (Die TagTypedef o a c)).
  - apply (dt_struct cx ns (Die TagStructure o a c)); [now left| | |].
    + apply structure_members_like.
    + apply parts_like.
    + apply inherits_like.
  - apply (dt_struct cx ns (Die TagClass o a c)); [now right| | |].
    + apply structure_members_like.
    + apply parts_like.
    + apply inherits_like.
  - apply (dt_union cx ns (Die TagUnion o a c)); [reflexivity|]. apply members_like.
  - now apply (dt_enum cx ns (Die TagEnumeration o a c)).
  - now apply (dt_unspecified cx ns (Die TagUnspecified o a c)).
Qed.
