(** From the values of attributes to the lines that are printed for types: proofs. *)
From Coq Require Import List Arith NArith ZArith Bool String Lia Sorting.Sorted Permutation.
From Verif Require Import LayoutSpec LayoutProofs DetailShown WholeShown.
From Verif Require Import DescribeProofs MemberProofs DetailSpec PropertiesMember Base BaseProofs RangeModel NamespaceModel NamespaceSpec TypeModel TypeSpec TypeProofs TypeSizeProofs LayoutModel FileModel FileSpec FilterModel FilterSpec
  FilterProofs DiffModel PrintModel PrintSpec PrintProofs LocationModel RefModel RefSpec RefProofs ReadModel ReadSpec CodeModel ItemModel ItemSpec OptionsModel EntryModel EntrySpec EntryProofs
  IdModel ReportModel ReportSpec DetailModel NameModel MemberSpec WholeModel WholeSpec WholeProofs WholeDepth PropertiesWhole RawModel RawSpec RawProofs PropertiesRaw
  EndSpec EndProofs EndTypes PropertiesEnd EndItemSpec.
From Verif Require Import DieModel DieSpec.
Import ListNotations.
Local Open Scope N_scope.

(** ** Attributes *)

Definition kind_code (k : N) : N :=
  match k with
  | 0 => 0x03 | 1 => 0x6e | 2 => 0x49 | 3 => 0x47 | 4 => 0x31 | 5 => 0x1d | 6 => 0x15 | 7 => 0x16 | 8 => 0x3c | 9 => 0x20
  | 10 => 0x11 | 11 => 0x12 | 12 => 0x55 | 13 => 0x3a | 14 => 0x3b | 15 => 0x39 | 16 => 0x0b | 17 => 0x0d | 18 => 0x0c
  | 19 => 0x6b | 20 => 0x38 | 21 => 0x37 | 22 => 0x22 | 23 => 0x2f | 24 => 0x02 | 25 => 0x58 | 26 => 0x59 | 27 => 0x57
  | 28 => 0x7f | 29 => 0x82 | 30 => 0x83 | 31 => 0x84 | 32 => 0x7d | 33 => 0x81 | 34 => 0x80 | 35 => 0x7e | 36 => 0x85
  | 37 => 0x86 | k => k - 38
  end.
Lemma kind_code_other n : kind_code (38 + n) = n.
Proof.
  unfold kind_code. destruct (38 + n) as [|q] eqn:E; [lia|].
  do 6 (destruct q as [q|q|]; try (exfalso; lia); try (rewrite <- E; lia)).
Qed.
Lemma code_of_kind a c : In c (attr_codes a) -> c < 0x2000 -> c = kind_code (attr_kind a).
Proof.
  intros I L. destruct a; try match goal with b : bool |- _ => destruct b end; cbn [attr_codes In attr_kind] in *;
    try (destruct I as [I|I]; [now rewrite <- I|]; first [destruct I as [I|[]]; rewrite <- I in L; discriminate L|now destruct I]).
  rewrite kind_code_other. destruct I as [I|[]]. now rewrite I.
Qed.
Lemma kind_codes k c : In (k, c) [(18, 0x0c); (19, 0x6b); (20, 0x38)] -> forall a, attr_kind a = k -> attr_codes a = [c].
Proof.
  intros I a E. destruct a; try match goal with b : bool |- _ => destruct b end; cbn [attr_kind] in E;
    repeat (destruct I as [[= <- <-]|I]; [first [discriminate E|reflexivity|lia]|]); destruct I.
Qed.

Section Attrs.
  Variable rf : raw_file.
  Variable u : raw_unit.
  Lemma plain_distinct attrs : plain attrs -> distinct_attrs (map (read_attr rf u) attrs).
  Proof.
    intros (ND & F). unfold distinct_attrs. induction attrs as [|a l IH]; cbn [map] in *; [constructor|].
    inversion ND as [|? ? NI ND']; inversion F as [|? ? La F']; subst. constructor; [|now apply IH].
    intros I. apply NI. apply in_map_iff in I. destruct I as (x & E & I). apply in_map_iff in I. destruct I as (b & <- & I).
    destruct (C91_numbers) as (H & _). pose proof (H rf u a) as Ha. pose proof (H rf u b) as Hb.
    apply code_of_kind in Ha; [|exact La]. apply code_of_kind in Hb; [|now apply (proj1 (Forall_forall _ _) F')].
    rewrite Ha, <- E, <- Hb. now apply in_map.
  Qed.
  Lemma kind_lacks k c attrs : In (k, c) [(18, 0x0c); (19, 0x6b); (20, 0x38)] -> lacks c attrs ->
    ~ In k (map attr_kind (map (read_attr rf u) attrs)).
  Proof.
    intros T L I. apply L. apply in_map_iff in I. destruct I as (x & E & I). apply in_map_iff in I. destruct I as (a & <- & I).
    destruct (C91_numbers) as (H & _). pose proof (H rf u a) as Ha. rewrite (kind_codes k c T _ E) in Ha. destruct Ha as [->|[]]. now apply in_map.
  Qed.
  Lemma gives_read code f attrs v : In (code, f) (attribute_table rf u) -> gives code attrs v -> In (f v) (map (read_attr rf u) attrs).
  Proof. intros T G. apply gives_in in G. apply (in_map (read_attr rf u)) in G. now rewrite (read_attr_at rf u code f v T) in G. Qed.
  Lemma number_read code f attrs n : In (code, fun v => f (raw_constant v)) (attribute_table rf u) -> gives_number code attrs n ->
    In (f (Some (Z.of_N n))) (map (read_attr rf u) attrs).
  Proof.
    intros T (v & G & C & _). apply (gives_read code _ attrs v T) in G. now rewrite (constant_counts v _ C) in G.
  Qed.
End Attrs.

Section Position.
  Variable rf : raw_file.
  Variable ob : object_input.
  Hypothesis RD : read_file rf = Some ob.
  Variable u : raw_unit.
  Local Notation cx := (unit_context ob (read_unit rf u)).
  Lemma cx_version_is : cx_version cx = ru_version u.
  Proof. reflexivity. Qed.
  Lemma cx_endian_is : cx_big_endian cx = rf_big_endian rf.
  Proof.
    cbn [unit_context cx_big_endian]. destruct (C91_units rf) as (_ & H). now destruct (H ob RD) as (_ & _ & EE & _).
  Qed.
  Lemma bytes_offset attrs p : bytes_at u attrs p -> offset_is cx (map (read_attr rf u) attrs) p /\ p < two64.
  Proof.
    intros [L|v n G C F B|n G V B|n s ps ops G B]; (split; [|first [exact B|reflexivity]]).
    - apply off_none. now apply (kind_lacks rf u 20 0x38); [cbn; tauto|].
    - apply (gives_read rf u 0x38 (fun v => ADataMemberLocation (raw_member_place v))) in G; [|cbn; tauto].
      inversion C as [k m E|z E|m E]; subst v.
      + now destruct (F k m).
      + subst. now apply off_signed.
      + apply N2Z.inj in H. subst m. now apply off_number.
    - apply (gives_read rf u 0x38 (fun v => ADataMemberLocation (raw_member_place v))) in G; [|cbn; tauto]. now apply off_fixed.
    - apply (gives_read rf u 0x38 (fun v => ADataMemberLocation (raw_member_place v))) in G; [|cbn; tauto]. now apply (off_expression _ _ _ s).
  Qed.
  Lemma starts_position attrs p : starts rf u attrs p -> position_is cx (map (read_attr rf u) attrs) p /\ p < two64.
  Proof.
    intros [q L1 L2 B|n L1 L2 G|place skip width size G GS GW GB L F B].
    - apply bytes_offset in B. destruct B as (B & LT). split; [|exact LT].
      apply pos_offset; [now apply (kind_lacks rf u 18 0x0c); [cbn; tauto|]|now apply (kind_lacks rf u 19 0x6b); [cbn; tauto|]|exact B].
    - split; [|destruct G as (v & _ & _ & LT); rewrite u64_max_val in LT; rewrite two64_val; lia].
      apply pos_bits; [now apply (kind_lacks rf u 18 0x0c); [cbn; tauto|]|now apply (kind_lacks rf u 20 0x38); [cbn; tauto|]|].
      apply (number_read rf u 0x6b ADataBitOffset); [cbn; tauto|exact G].
    - split.
      + rewrite <- cx_endian_is. apply pos_field; auto.
        * now apply (gives_read rf u 0x38 (fun v => ADataMemberLocation (raw_member_place v))) in G; [|cbn; tauto].
        * apply (number_read rf u 0x0c ABitOffset); [cbn; tauto|exact GS].
        * apply (number_read rf u 0x0d ABitSize); [cbn; tauto|exact GW].
        * apply (number_read rf u 0x0b AByteSize); [cbn; tauto|exact GB].
        * now apply (kind_lacks rf u 19 0x6b); [cbn; tauto|].
      + destruct (rf_big_endian rf); lia.
  Qed.
End Position.

(** ** Texts of positions *)

Lemma bits_text n t : bits n t -> t = bit_text n.
Proof.
  intros (b & r & -> & L & ->). unfold bit_text.
  assert (D : (8 * b + r) / 8 = b) by (symmetry; apply (N.div_unique _ 8 b r); lia).
  assert (M : (8 * b + r) mod 8 = r) by (symmetry; apply (N.mod_unique _ 8 b r); lia).
  rewrite D, M. destruct r as [|q]; [now rewrite app_nil_r|]. reflexivity.
Qed.
Lemma place_text p w it t : w <> u64_max -> ItemSpec.place (mkLay p w it) t -> t = bit_text p ++ txt "[" ++ bit_text w ++ txt "]" ++ [9].
Proof.
  intros N (a & b & A & B & ->). cbn [l_offset l_size] in *. apply bits_text in A. subst a.
  destruct (N.eqb_spec w u64_max) as [X|X]; [contradiction|]. apply bits_text in B. now subst b.
Qed.

(** ** Sorting *)

Lemma filter_perm {A} (f : A -> bool) l m : Permutation l m -> Permutation (filter f l) (filter f m).
Proof.
  induction 1 as [|x l m P IH|x y l|l m k _ IH1 _ IH2]; cbn [filter].
  - constructor.
  - destruct (f x); [now constructor|exact IH].
  - destruct (f x), (f y); try reflexivity. apply perm_swap.
  - now transitivity (filter f m).
Qed.
Lemma sorted_perm {A} (cmp : A -> A -> comparison) (TP : total_preorder cmp) l m : Permutation l m ->
  StronglySorted (fun a b => cmp a b = Lt) m -> stable_sort cmp l = m.
Proof.
  intros P S. apply (stable_sort_unique cmp TP).
  - now apply stable_sort_sorted.
  - clear P. induction S as [|x m S IH F]; constructor; [exact IH|]. eapply Forall_impl; [|exact F]. intros y E. unfold le_cmp. rewrite E. discriminate.
  - rewrite stable_sort_perm. exact P.
  - intros k. rewrite (stable_sort_stable cmp TP). pose proof (filter_perm (fun y => match cmp k y with Eq => true | _ => false end) _ _ P) as Q.
    remember (filter _ m) as y eqn:Ey. assert (SH : (List.length y <= 1)%nat).
    { subst y. clear P Q. induction S as [|x m S IH F]; cbn [filter]; [cbn; lia|]. destruct (cmp k x) eqn:E; [|exact IH|exact IH].
      assert (N : filter (fun y => match cmp k y with Eq => true | _ => false end) m = []).
      { clear IH S. induction F as [|z m L F IH]; [reflexivity|]. cbn [filter]. destruct (cmp k z) eqn:E'; [|exact IH|exact IH].
        exfalso. assert (X : cmp k z = Lt) by (apply (tp_le_lt_trans cmp TP k x z); [rewrite E; discriminate|exact L]). congruence. }
      rewrite N. cbn. lia. }
    destruct y as [|a [|b y]]; [now apply Permutation_sym, Permutation_nil in Q| |cbn in SH; lia].
    apply Permutation_sym, Permutation_length_1_inv in Q. exact Q.
Qed.

(** Two lists that correspond are sorted alike. *)
Lemma insert_related {A B} (R : A -> B -> Prop) ca cb : (forall a b a' b', R a b -> R a' b' -> ca a a' = cb b b') ->
  forall x y, R x y -> forall la lb, Forall2 R la lb -> Forall2 R (insert ca x la) (insert cb y lb).
Proof.
  intros C x y XY la lb F. induction F as [|a b la lb H F IH]; cbn [insert]; [now constructor|].
  rewrite (C x y a b XY H). destruct (cb y b); repeat (constructor; auto).
Qed.
Lemma sort_related {A B} (R : A -> B -> Prop) ca cb : (forall a b a' b', R a b -> R a' b' -> ca a a' = cb b b') ->
  forall la lb, Forall2 R la lb -> Forall2 R (stable_sort ca la) (stable_sort cb lb).
Proof. intros C la lb F. induction F; cbn [stable_sort]; [constructor|now apply insert_related]. Qed.

Definition shape_cmp (a b : shape) : comparison :=
  then_with (N.compare (first_bit a) (first_bit b)) (N.compare (snd (fst a)) (snd (fst b))).
Lemma shape_cmp_tp : total_preorder shape_cmp.
Proof.
  apply (then_with_tp (fun a b => N.compare (first_bit a) (first_bit b)) (fun a b : shape => N.compare (snd (fst a)) (snd (fst b)))).
  - apply (cmp_on_tp first_bit _ N_compare_tp).
  - apply (cmp_on_tp (fun a : shape => snd (fst a)) _ N_compare_tp).
Qed.
Lemma shape_order given shapes : in_order given shapes -> shapes = stable_sort shape_cmp given.
Proof.
  intros (P & S & F). apply (stable_sort_unique shape_cmp shape_cmp_tp).
  - clear P F. induction S as [|x l S IH H]; constructor; [exact IH|]. eapply Forall_impl; [|exact H].
    intros ((p', w'), ls') L. destruct x as ((p, w), ls). unfold no_later in L. unfold le_cmp, shape_cmp, then_with, first_bit. cbn [fst snd].
    destruct (N.compare_spec p p'); destruct (N.compare_spec w w'); try discriminate; lia.
  - apply stable_sort_sorted, shape_cmp_tp.
  - rewrite stable_sort_perm. now symmetry.
  - intros ((p, w), ls). rewrite (stable_sort_stable shape_cmp shape_cmp_tp). specialize (F p w). symmetry.
    rewrite !(filter_ext (fun y => match shape_cmp (p, w, ls) y with Eq => true | _ => false end) (at_spot p w)); [exact F| |];
      intros ((p', w'), ls'); unfold shape_cmp, then_with, first_bit, at_spot; cbn [fst snd];
      destruct (N.compare_spec p p'); destruct (N.compare_spec w w'); destruct (N.eqb_spec p p'), (N.eqb_spec w w'); try reflexivity; lia.
Qed.
Definition before (a b : shape) : Prop := let '(p, w, _) := a in let '(p', w', _) := b in p < p' \/ p = p' /\ w < w'.
Lemma strict_order given shapes : Permutation given shapes -> StronglySorted before shapes -> in_order given shapes.
Proof.
  intros P S. assert (E : stable_sort shape_cmp given = shapes).
  { apply (sorted_perm shape_cmp shape_cmp_tp); [exact P|]. clear P. induction S as [|x l S IH H]; constructor; [exact IH|]. eapply Forall_impl; [|exact H].
    intros ((p', w'), ls') L. destruct x as ((p, w), ls). unfold before in L. unfold shape_cmp, then_with, first_bit. cbn [fst snd].
    destruct (N.compare_spec p p'); destruct (N.compare_spec w w'); try reflexivity; lia. }
  split; [exact P|]. split.
  - clear P E. induction S as [|x l S IH H]; constructor; [exact IH|]. eapply Forall_impl; [|exact H].
    intros ((p', w'), ls') L. destruct x as ((p, w), ls). unfold before in L. unfold no_later. lia.
  - intros p w. rewrite <- E. pose proof (stable_sort_stable shape_cmp shape_cmp_tp (p, w, []) given) as F. symmetry.
    rewrite !(filter_ext (fun y => match shape_cmp (p, w, []) y with Eq => true | _ => false end) (at_spot p w)) in F; [exact F| |];
      intros ((p', w'), ls'); unfold shape_cmp, then_with, first_bit, at_spot; cbn [fst snd];
      destruct (N.compare_spec p p'); destruct (N.compare_spec w w'); destruct (N.eqb_spec p p'), (N.eqb_spec w w'); try reflexivity; lia.
Qed.

(** ** Lines *)

Scheme members_lines_mut := Minimality for members_lines Sort Prop
  with parts_lines_mut := Minimality for parts_lines Sort Prop
  with part_lines_mut := Minimality for part_lines Sort Prop
  with variants_lines_mut := Minimality for variants_lines Sort Prop
  with inner_lines_mut := Minimality for inner_lines Sort Prop.
Combined Scheme lines_ind from members_lines_mut, parts_lines_mut, part_lines_mut, variants_lines_mut, inner_lines_mut.

Lemma tag_iff c T : read_tag c = T -> tag_codes T = [c] -> forall n, read_tag n = T <-> n = c.
Proof.
  intros R C n. split; [|now intros ->]. intros E. destruct C91_numbers as (_ & _ & A & _). pose proof (A n) as J. rewrite E, C in J.
  destruct J as [J|[]]. now symmetry.
Qed.

Section Children.
  Variable rf : raw_file.
  Variable u : raw_unit.
  Lemma declared_read attrs : declared_only (map (read_attr rf u) attrs) = existsb (N.eqb 0x3c) (map fst attrs).
  Proof.
    unfold declared_only. induction attrs as [|(c, v) l IH]; [reflexivity|]. cbn [map existsb fst]. rewrite IH. f_equal.
    destruct (N.eqb_spec 0x3c c) as [<-|NE].
    - now rewrite (read_attr_at rf u 0x3c (fun v => ADeclaration (raw_flag v)) v) by (cbn; tauto).
    - destruct C91_numbers as (H & _). pose proof (H rf u (c, v)) as I. cbn [fst] in I. destruct (read_attr rf u (c, v)); try reflexivity.
      destruct I as [I|[]]. contradiction.
  Qed.
  Lemma field_read e : instance_member (read_die rf u e) = is_field e.
  Proof.
    unfold instance_member, is_field. rewrite read_tag_of, read_attrs, declared_read.
    destruct (N.eqb_spec (rd_tag e) 0x0d) as [->|NE]; [reflexivity|]. cbn [andb].
    destruct (read_tag (rd_tag e)) eqn:E; try reflexivity. destruct NE. exact (proj1 (tag_iff 0x0d TagMember eq_refl eq_refl _) E).
  Qed.
  Lemma filter_read (f : die -> bool) (g : raw_die -> bool) cs : (forall e, f (read_die rf u e) = g e) ->
    filter f (map (read_die rf u) cs) = map (read_die rf u) (filter g cs).
  Proof.
    intros H. induction cs as [|c cs IH]; [reflexivity|]. cbn [map filter]. rewrite H. destruct (g c); cbn [map]; now rewrite IH.
  Qed.
  Lemma fields_read cs : filter instance_member (map (read_die rf u) cs) = map (read_die rf u) (filter is_field cs).
  Proof. apply filter_read, field_read. Qed.
  Lemma bases_read cs : with_tag (fun t => match t with TagInheritance => true | _ => false end) (map (read_die rf u) cs) =
    map (read_die rf u) (filter (fun c => rd_tag c =? 0x1c) cs).
  Proof.
    apply filter_read. intros e. rewrite read_tag_of. destruct (N.eqb_spec (rd_tag e) 0x1c) as [->|NE]; [reflexivity|].
    destruct (read_tag (rd_tag e)) eqn:E; try reflexivity. destruct NE. exact (proj1 (tag_iff 0x1c TagInheritance eq_refl eq_refl _) E).
  Qed.
  Lemma variants_read cs : with_tag (fun t => match t with TagVariantPart => true | _ => false end) (map (read_die rf u) cs) =
    map (read_die rf u) (filter (fun c => rd_tag c =? 0x33) cs).
  Proof.
    apply filter_read. intros e. rewrite read_tag_of. destruct (N.eqb_spec (rd_tag e) 0x33) as [->|NE]; [reflexivity|].
    destruct (read_tag (rd_tag e)) eqn:E; try reflexivity. destruct NE. exact (proj1 (tag_iff 0x33 TagVariantPart eq_refl eq_refl _) E).
  Qed.
  Lemma variant_read cs : with_tag (fun t => match t with TagVariant => true | _ => false end) (map (read_die rf u) cs) =
    map (read_die rf u) (filter (fun c => rd_tag c =? 0x19) cs).
  Proof.
    apply filter_read. intros e. rewrite read_tag_of. destruct (N.eqb_spec (rd_tag e) 0x19) as [->|NE]; [reflexivity|].
    destruct (read_tag (rd_tag e)) eqn:E; try reflexivity. destruct NE. exact (proj1 (tag_iff 0x19 TagVariant eq_refl eq_refl _) E).
  Qed.
  Lemma members_read d : member_entries (map (read_die rf u) (rd_children d)) = map (read_die rf u) (fields d).
  Proof.
    unfold member_entries, fields. induction (rd_children d) as [|c cs IH]; [reflexivity|]. cbn [map flat_map]. rewrite IH, map_app. f_equal.
    rewrite field_read. destruct (is_field c); [reflexivity|]. rewrite read_tag_of. destruct (N.eqb_spec (rd_tag c) 0x33) as [->|X].
    - cbn [read_tag]. rewrite read_children, fields_read. reflexivity.
    - destruct (read_tag (rd_tag c)) eqn:E; try reflexivity. destruct X. exact (proj1 (tag_iff 0x33 TagVariantPart eq_refl eq_refl _) E).
  Qed.
End Children.

Section Lines.
  Variable choice : N -> nat.
  Variable rf : raw_file.
  Variable ob : object_input.
  Hypothesis WF : raw_well_formed rf.
  Hypothesis AC : raw_acyclic rf.
  Hypothesis RD : read_file rf = Some ob.
  Local Notation vw := (file_view choice ob).
  Local Notation env := (type_at ob).
  Local Notation place u d := (ud_begin (ru_place u) + rd_offset d).
  Local Notation cx u := (unit_context ob (read_unit rf u)).

  (** What is shown for a list of items is one list of lines. *)
  Definition shows (i : nat) (l : list lay) (ls : list line) : Prop := forall ls', items_shown vw i l ls' -> ls' = ls.
  Lemma shows_nil i : shows i [] [].
  Proof. intros ls H. now inversion H. Qed.
  Lemma shows_cons i l rest ls ls2 : (forall ls', item_shown vw i l ls' -> ls' = ls) -> shows i rest ls2 -> shows i (l :: rest) (ls ++ ls2).
  Proof. intros H R ls' S. inversion S as [|? ? ? a b IA IB]; subst. rewrite (H a IA), (R b IB). reflexivity. Qed.
  Lemma shows_app i a b la lb : shows i a la -> shows i b lb -> shows i (a ++ b) (la ++ lb).
  Proof.
    intros A B ls' S. assert (H : exists x y, ls' = x ++ y /\ items_shown vw i a x /\ items_shown vw i b y).
    { clear A B. revert ls' S. induction a as [|l a IH]; intros ls' S; [exists [], ls'; repeat split; [constructor|exact S]|].
      cbn [app] in S. inversion S as [|? ? ? p q IP IQ]; subst. destruct (IH q IQ) as (x & y & -> & HX & HY).
      exists (p ++ x), y. rewrite app_assoc. repeat split; [now constructor|exact HY]. }
    destruct H as (x & y & -> & X & Y). now rewrite (A x X), (B y Y).
  Qed.
  Lemma shows_hole i a b : b < two64 -> b <> u64_max -> shows i (if a <? b then [mkLay a (b - a) LPadding] else []) (hole i a b).
  Proof.
    intros L N. unfold hole. destruct (N.ltb_spec a b) as [X|X]; [|apply shows_nil].
    rewrite <- (app_nil_r [row _ _ _ _]). apply shows_cons; [|apply shows_nil]. intros ls' S.
    inversion S as [? ? t E P|? ? m ? E|? ? x ? E|? ? p ? ? E]; subst; try discriminate E.
    apply place_text in P; [|rewrite two64_val in L; rewrite u64_max_val in *; lia]. subst t. unfold row. repeat rewrite <- app_assoc. reflexivity.
  Qed.

  (** The item that an entry is read as. *)
  Definition reads_as (u : raw_unit) (e : raw_die) (it : layout_item) : Prop :=
    rd_tag e = 0x0d /\ (exists m, it = LMember m /\ member_like (cx u) (read_die rf u e) m) \/
    rd_tag e = 0x1c /\ (exists b, it = LInherit b /\ base_like (cx u) (read_die rf u e) b) \/
    rd_tag e = 0x33 /\ (exists p, it = LVariantPart p /\ part_like (cx u) (read_die rf u e) p).
  Definition begins (it : layout_item) : N :=
    match it with LPadding => 0 | LMember m => m_bit_offset m | LInherit b => i_bit_offset b | LVariantPart p => vpart_bit_offset p end.
  Definition width (it : layout_item) : option N :=
    match it with
    | LPadding => None | LMember m => member_bit_size (vw_sizes vw) m | LInherit b => inherit_bit_size (vw_sizes vw) b
    | LVariantPart p => vpart_bit_size (vw_sizes vw) p
    end.
  Definition fits (i : nat) (s : shape) (it : layout_item) : Prop :=
    let '(p, w, ls) := s in
    begins it = p /\ p < two64 /\ width it = Some w /\ w < u64_max /\ forall ls', item_shown vw i (mkLay p w it) ls' -> ls' = ls.
  Definition sits (i : nat) (s : shape) (l : lay) : Prop :=
    let '(p, w, ls) := s in l_offset l = p /\ l_size l = w /\ w < u64_max /\ forall ls', item_shown vw i l ls' -> ls' = ls.
  Lemma width_lay base it p w : begins it = p -> width it = Some w -> base <= p -> p < two64 ->
    LayoutProofs.placed (vw_sizes vw) base it = mkLay (p - base) w it.
  Proof.
    intros B W L T. rewrite two64_val in T.
    destruct it as [|m|q|b]; cbn [begins width LayoutProofs.placed] in *; [discriminate W|..]; rewrite W, B; cbn [opt64_from]; f_equal;
      (apply sub64_small; lia).
  Qed.
  Lemma fits_sits i shapes its : Forall2 (fits i) shapes its -> Forall2 (sits i) shapes (map (LayoutProofs.placed (vw_sizes vw) 0) its).
  Proof.
    intros F. induction F as [|((p, w), ls) it shapes its (B & T & W & LW & H) F IH]; cbn [map]; constructor; [|exact IH].
    rewrite (width_lay 0 it p w B W) by (try exact T; lia). rewrite N.sub_0_r. cbn [sits l_offset l_size]. auto.
  Qed.
  Lemma member_sits i base shapes ms : Forall2 (fits i) shapes (map LMember ms) -> Forall (fun s => base <= first_bit s) shapes ->
    Forall2 (sits i) (map (seen_from base) shapes) (map (LayoutProofs.placed (vw_sizes vw) base) (map LMember ms)).
  Proof.
    revert shapes. induction ms as [|m ms IH]; intros shapes F L; inversion F as [|((p, w), ls) ? shapes' ? (B & T & W & LW & H) F']; subst; cbn [map]; constructor.
    - inversion L; subst. cbn [first_bit] in *. rewrite (width_lay base (LMember m) _ w eq_refl W) by assumption. cbn [seen_from sits l_offset l_size begins].
      split; [reflexivity|]. split; [reflexivity|]. split; [exact LW|]. intros ls' S. apply H.
      inversion S as [? ? y E|? ? m' ? E MS|? ? y ? E|? ? q ? ? E]; subst; try discriminate E. cbn [l_item] in E. injection E as <-.
      now apply (it_member vw i (mkLay (m_bit_offset m) w (LMember m)) m ls').
    - inversion L; subst. now apply IH.
  Qed.
  Lemma forward_filled i total shapes ls : Forall2 (sits i) shapes ls -> Forall bounded shapes -> (forall n, total = Some n -> n < u64_max) ->
    shows i (forward ls total) (match shapes with [] => [] | (p, w, ls) :: rest => ls ++ filled i (p + w) total rest end).
  Proof.
    intros F I T. induction F as [|((p, w), t) l shapes ls (E & EW & NW & H) F IH]; [apply shows_nil|].
    inversion I as [|? ? BD I']; subst. cbn [forward]. unfold bounded in BD. cbn [last_bit] in BD.
    apply shows_cons; [exact H|]. specialize (IH I').
    assert (GS : gap l = fun next => match next with Some nx => if l_offset l + l_size l <? nx then [mkLay (l_offset l + l_size l) (sub64 nx (l_offset l + l_size l)) LPadding] else [] | None => [] end).
    { unfold gap. rewrite explicit_get by (unfold explicit; lia). rewrite add64_small by (rewrite u64_max_val in BD; lia). reflexivity. }
    rewrite GS. clear GS. set (e := l_offset l + l_size l) in *.
    assert (HO : forall b, b < u64_max -> shows i (if e <? b then [mkLay e (sub64 b e) LPadding] else []) (hole i e b)).
    { intros b L. pose proof (shows_hole i e b) as G. destruct (N.ltb_spec e b) as [X|X].
      - rewrite sub64_small by (rewrite u64_max_val in L; lia). destruct (e <? b) eqn:Z; [|apply N.ltb_ge in Z; lia].
        apply G; rewrite ?two64_val, ?u64_max_val in *; lia.
      - apply G; rewrite ?two64_val, ?u64_max_val in *; lia. }
    destruct F as [|((p', w'), t') l' shapes ls (E' & EW' & NW' & H') F].
    - cbn [forward filled]. rewrite app_nil_r. destruct total as [n|]; [now apply HO, T|apply shows_nil].
    - cbn [filled] in *. subst p' w'. apply shows_app; [|exact IH]. apply HO.
      inversion I' as [|? ? I2 _]; subst. unfold bounded in I2. cbn [last_bit] in I2. lia.
  Qed.
  Lemma sits_cmp i s1 s2 l1 l2 : sits i s1 l1 -> sits i s2 l2 -> shape_cmp s1 s2 = lay_cmp l1 l2.
  Proof.
    destruct s1 as ((p, w), ls), s2 as ((p', w'), ls'). intros (E & F & _) (E' & F' & _). unfold shape_cmp, lay_cmp, opt64_cmp, first_bit. cbn [fst snd].
    now rewrite E, F, E', F'.
  Qed.
  Lemma layout_filled i total members bases parts base given shapes :
    Forall2 (sits i) given (map (LayoutProofs.placed (vw_sizes vw) base) (contents members bases parts)) -> in_order given shapes ->
    Forall bounded given -> (forall n, total = Some n -> n < u64_max) ->
    shows i (layout (vw_sizes vw) members bases parts base total) (laid_out i total shapes).
  Proof.
    intros F O I T. rewrite layout_eq. cbv zeta. unfold sorted_items.
    pose proof (sort_related (sits i) shape_cmp lay_cmp (fun a b a' b' => sits_cmp i a a' b b') _ _ F) as G. rewrite <- (shape_order given shapes O) in G.
    assert (I' : Forall bounded shapes) by (destruct O as (P & _); exact (Permutation_Forall P I)).
    pose proof (forward_filled i total shapes _ G I' T) as W. revert W.
    destruct G as [|((p, w), ls) l shapes' ls' (E & EW & NW & H) F']; intros W; [apply shows_nil|].
    unfold laid_out. cbn [filled]. apply shows_app; [|exact W]. cbn [lead]. rewrite E.
    assert (B : p < u64_max) by (inversion I' as [|? ? I1 _]; subst; unfold bounded in I1; cbn [last_bit] in I1; lia).
    pose proof (shows_hole i 0 p) as Z. rewrite N.sub_0_r in Z. apply Z; rewrite ?two64_val, ?u64_max_val in *; lia.
  Qed.

  (** ** Entries and types *)

  Lemma place_unique u d x e : In u (rf_units rf) -> In d (raw_below u) -> In x (rf_units rf) -> In e (raw_below x) ->
    place u d = place x e -> u = x /\ d = e.
  Proof.
    intros I J I' J' E. assert (A : raw_tree rf (place u d) = Some (u, d)) by (apply raw_tree_iff; auto using below_entry).
    assert (B : raw_tree rf (place x e) = Some (x, e)) by (apply raw_tree_iff; auto using below_entry).
    rewrite E, B in A. injection A as <- <-. auto.
  Qed.
  Lemma place_known u d : In u (rf_units rf) -> In d (raw_below u) -> place u d <> u64_max.
  Proof.
    intros I J. destruct WF as (_ & H). destruct (H u I) as (E & _ & K). specialize (K d (below_entry u d J)). unfold inside_unit in K. lia.
  Qed.
  Lemma found_env off t : off <> u64_max -> from_offset env off = Some t -> env off = Some t.
  Proof. intros N. unfold from_offset. destruct (N.eqb_spec off type_offset_none) as [X|X]; [contradiction|auto]. Qed.

  (** A structure or union with a place in the unit. *)
  Lemma compound_type u b path d n : In u (rf_units rf) -> placed rf u b path d -> In (rd_tag d) [0x13; 0x02; 0x17] ->
    named rf u is_name (rd_attrs d) n ->
    exists t, from_offset env (place u d) = Some t /\ (n = None -> anonymous t) /\
      (Forall (fun m => m <> None) path -> n <> None -> ~ anonymous t).
  Proof.
    intros I P T N. destruct (placed_located rf u b path d P) as (outer & ns & L & PO & TX & NE & _ & _ & U).
    destruct (C81_types ob (read_unit rf u) outer ns (read_die rf u d) (object_well_formed rf ob WF RD) (unit_in rf ob RD u I) L NE) as (t & F & O & D).
    - rewrite read_tag_of. cbn [In] in T. destruct T as [<-|[<-|[<-|[]]]]; reflexivity.
    - rewrite read_offset in F. exists t. split; [exact F|]. apply named_is in N.
      assert (TT : die_tag (read_die rf u d) = TagStructure \/ die_tag (read_die rf u d) = TagClass \/ die_tag (read_die rf u d) = TagUnion).
      { rewrite read_tag_of. cbn [In] in T. destruct T as [<-|[<-|[<-|[]]]]; auto. }
      destruct t as [o k]. cbn [t_kind] in D. split.
      + intros ->. inversion D as [T1|T1|ms ps bs T1|ms T1|T1|T1]; subst k; try (exfalso; rewrite T1 in TT; intuition discriminate).
        * constructor. left. exact N.
        * constructor. left. exact N.
      + intros FP NN A. inversion D as [T1|T1|ms ps bs T1|ms T1|T1|T1]; subst k; try (exfalso; rewrite T1 in TT; intuition discriminate);
          inversion A as [? ? X|? ? X]; subst; cbn [s_name s_namespace u_name u_namespace] in X;
          (destruct X as [X|(m & X & Y)]; [contradiction|exact (U FP m X Y)]).
  Qed.
  Lemma refers_below u v x e b path : In u (rf_units rf) -> refers rf u v x e -> placed rf x b path e -> In x (rf_units rf) /\ In e (raw_below x).
  Proof. intros I R P. split; [now apply (refers_in rf u v x e)|now apply (placed_below rf x b path)]. Qed.
  Lemma unnamed_anonymous u attrs : In u (rf_units rf) -> type_unnamed rf u attrs ->
    exists t, given_type (map (read_attr rf u) attrs) <> u64_max /\ env (given_type (map (read_attr rf u) attrs)) = Some t /\ anonymous t.
  Proof.
    intros I (v & x & e & b & path & G & R & T & P & N). destruct (refers_below u v x e b path I R P) as (Ix & Ie).
    rewrite (type_is rf u attrs v x e G R). destruct (compound_type x b path e None Ix P T N) as (t & F & A & _). exists t.
    pose proof (place_known x e Ix Ie) as K. split; [exact K|]. split; [now apply found_env|now apply A].
  Qed.
  Lemma named_not_anonymous u attrs t text : In u (rf_units rf) -> type_named rf u attrs -> type_text rf u 0x49 attrs text ->
    given_type (map (read_attr rf u) attrs) <> u64_max -> env (given_type (map (read_attr rf u) attrs)) = Some t -> ~ anonymous t.
  Proof.
    intros I TN TT NM E A. inversion TT as [? ? ? L|? ? ? v x e ? G R J _]; subst.
    { rewrite type_none in NM by exact L. now destruct NM. }
    rewrite (type_is rf u attrs v x e G R) in *. pose proof (refers_in rf u v x e I R) as Ix.
    assert (F : from_offset env (place x e) = Some t).
    { unfold from_offset. destruct (N.eqb_spec (place x e) type_offset_none) as [X|X]; [contradiction|exact E]. }
    assert (T : In (rd_tag e) [0x13; 0x02; 0x17]).
    { destruct (found_raw rf ob WF RD _ t F) as [K|(y & d & Iy & Id & PE & D)]; [destruct A; discriminate K|].
      destruct (place_unique y d x e Iy Id Ix J PE) as (-> & ->).
      pose proof (tag_number (rd_tag e)) as TG. destruct D as [(ns & D)|D]; [|destruct A; inversion D].
      destruct A; cbn [t_kind] in D; inversion D as [| |? ? ? [T1|T1]|? T1| |]; subst; rewrite read_tag_of in T1; rewrite T1 in TG; cbn [tag_codes In] in *; tauto. }
    destruct (TN v x e G R T) as (b & path & n & P & FP & N). destruct (compound_type x b path e (Some n) Ix P T N) as (t' & F' & _ & H).
    rewrite F in F'. injection F' as <-. apply H; [exact FP|discriminate|exact A].
  Qed.

  (** ** From entries to lines *)

  Lemma member_fits i u e m n p w t ls : In u (rf_units rf) -> plain (rd_attrs e) -> member_like (cx u) (read_die rf u e) m ->
    named rf u is_name (rd_attrs e) n -> starts rf u (rd_attrs e) p -> has_width rf u (rd_attrs e) w -> type_text rf u 0x49 (rd_attrs e) t ->
    (inline_member env m /\ (forall ls', members_shown vw (S i) (from_offset env (m_ty m)) ls' -> ls' = ls)) \/ (~ inline_member env m /\ ls = []) ->
    fits i (p, w, row i p w (name_or "<anon>" n ++ txt ": " ++ t) :: ls) (LMember m).
  Proof.
    intros I PL (_ & EN & ET & EB & EP) N ST W TT H. apply named_is in N. apply starts_position with (ob := ob) in ST; [|exact RD].
    destruct ST as (PI & LT). rewrite read_attrs in EP, ET, EB. specialize (EP p (plain_distinct rf u _ PL) PI).
    assert (MW : member_bit_size (vw_sizes vw) m = Some w /\ w < u64_max).
    { unfold member_bit_size. rewrite EB, ET. destruct W as [n' G|s L B S8].
      - rewrite (bit_size_is rf u _ _ G). destruct G as (v & _ & _ & LW). rewrite some_given by exact LW. rewrite explicit_get by now apply given_explicit. auto.
      - rewrite (bit_size_none rf u _ L). change (opt64_is_some opt64_none) with false. cbv iota. rewrite (sizes_bytes choice rf ob u _ s WF RD I B).
        cbn [option_map]. rewrite mul64_small by exact S8. rewrite two64_val in S8. rewrite u64_max_val. split; [reflexivity|lia]. }
    destruct MW as (MW & LW). unfold fits. cbn [begins width]. split; [exact EP|]. split; [exact LT|]. split; [exact MW|]. split; [exact LW|].
    intros ls' S. inversion S as [? ? x E|? ? m' ls0 E MS|? ? x ? E|? ? q ? ? E]; try discriminate E. cbn [l_item] in E. injection E as <-. subst.
      inversion MS as [? ? off size ls2 BO BS _ IN NI]; subst. specialize (BS w MW). apply bits_text in BO, BS. subst off size.
      change (h_env (vw_hash vw)) with env in IN, NI. change (vw_find vw (m_ty m)) with (from_offset env (m_ty m)) in IN.
      assert (E2 : ls2 = ls) by (destruct H as [(A & B)|(A & ->)]; auto). subst ls2. f_equal. unfold row. f_equal.
      rewrite EN, ET, (written_text choice rf ob u _ t WF AC RD I TT). reflexivity.
  Qed.

  Lemma no_compound u d t : In u (rf_units rf) -> In d (raw_below u) -> ~ In (rd_tag d) [0x13; 0x02; 0x17] ->
    from_offset env (place u d) = Some t -> (forall s, t_kind t <> TStruct s) /\ (forall x, t_kind t <> TUnion x).
  Proof.
    intros I J NT E. destruct (found_raw rf ob WF RD _ t E) as [K|(y & e & Iy & Ie & PE & D)]; [rewrite K; split; discriminate|].
    destruct (place_unique y e u d Iy Ie I J PE) as (-> & ->). pose proof (tag_number (rd_tag d)) as TG.
    split; intros z K; rewrite K in D; (destruct D as [(ns & D)|D]; [|inversion D]); apply NT;
      inversion D as [| |? ? ? [T1|T1]|? T1| |]; subst; rewrite read_tag_of in T1; rewrite T1 in TG; cbn [tag_codes In] in *; tauto.
  Qed.
  Lemma compound_found u b path d : In u (rf_units rf) -> placed rf u b path d -> In (rd_tag d) [0x13; 0x02; 0x17] ->
    exists ns t, from_offset env (place u d) = Some t /\ describes_type (cx u) ns (read_die rf u d) (t_kind t).
  Proof.
    intros I P T. destruct (placed_located rf u b path d P) as (outer & ns & L & PO & TX & NE & _).
    destruct (C81_types ob (read_unit rf u) outer ns (read_die rf u d) (object_well_formed rf ob WF RD) (unit_in rf ob RD u I) L NE) as (t & F & O & D).
    - rewrite read_tag_of. cbn [In] in T. destruct T as [<-|[<-|[<-|[]]]]; reflexivity.
    - rewrite read_offset in F. eauto.
  Qed.
  Lemma size_total u attrs size : size_at attrs size ->
    option_map (fun v => mul64 v 8) (opt64_get (given_byte_size (map (read_attr rf u) attrs))) = option_map (N.mul 8) size /\
    forall n, option_map (N.mul 8) size = Some n -> n < u64_max.
  Proof.
    destruct size as [s|]; cbn [size_at].
    - intros (G & L). rewrite (byte_size_is rf u _ _ G). destruct G as (v & _ & _ & LT). rewrite explicit_get by now apply given_explicit.
      cbn [option_map]. rewrite mul64_small by exact L. split; [reflexivity|]. intros n E. assert (EE : n = 8 * s) by congruence. subst n. rewrite two64_val in L. rewrite u64_max_val. lia.
    - intros L. rewrite (byte_size_none rf u _ L). split; [reflexivity|discriminate].
  Qed.
  Lemma union_fits i shapes members : Forall2 (fits i) shapes (map LMember members) ->
    forall ls', union_shown vw i members ls' -> ls' = flat_map snd shapes.
  Proof.
    revert shapes. induction members as [|m ms IH]; intros shapes F ls' U.
    - inversion F; subst. now inversion U.
    - cbn [map] in F. inversion F as [|((p, w), ls) ? shapes' ? (_ & _ & H) F']; subst. inversion U as [|? ? ? la lb A B]; subst. cbn [flat_map snd].
      rewrite (IH shapes' F' lb B). f_equal. apply H. now apply (it_member vw i (mkLay p w (LMember m)) m la).
  Qed.
  Lemma reads_members u l ms : Forall (fun e => is_field e = true) l ->
    Forall2 (member_like (cx u)) (map (read_die rf u) l) ms -> Forall2 (reads_as u) l (map LMember ms).
  Proof.
    intros A M. revert ms M. induction l as [|e fs IH]; intros ms M; inversion M; subst; cbn [map]; constructor.
    - left. inversion A as [|? ? E _]; subst. unfold is_field in E. apply andb_true_iff in E. destruct E as (E & _). apply N.eqb_eq in E. split; [exact E|]. eauto.
    - inversion A; subst. now apply IH.
  Qed.
  Lemma filter_fields l : Forall (fun e => is_field e = true) (filter is_field l).
  Proof. apply Forall_forall. intros x I. now apply filter_In in I. Qed.
  Lemma all_fields d : Forall (fun e => is_field e = true) (fields d).
  Proof.
    unfold fields. induction (rd_children d) as [|c cs IH]; [constructor|]. cbn [flat_map]. apply Forall_app. split; [|exact IH].
    destruct (is_field c) eqn:E; [now repeat constructor|]. destruct (rd_tag c =? 0x33); [apply filter_fields|constructor].
  Qed.
  Lemma reads_tagged {A} (make : A -> layout_item) (like : context -> die -> A -> Prop) code u :
    (forall e x, rd_tag e = code -> like (cx u) (read_die rf u e) x -> reads_as u e (make x)) ->
    forall d xs, Forall2 (like (cx u)) (map (read_die rf u) (with_raw_tag code d)) xs -> Forall2 (reads_as u) (with_raw_tag code d) (map make xs).
  Proof.
    intros H d xs M. unfold with_raw_tag in *. remember (filter _ (rd_children d)) as l eqn:El. assert (A0 : Forall (fun e => rd_tag e = code) l).
    { subst l. apply Forall_forall. intros x I. apply filter_In in I. now apply N.eqb_eq. }
    clear El. revert xs M. induction l as [|e l IH]; intros ms M; inversion M; subst; inversion A0; subst; cbn [map]; constructor; [now apply H|now apply IH].
  Qed.
  Lemma reads_struct u d members bases parts :
    Forall2 (member_like (cx u)) (map (read_die rf u) (fields d)) members ->
    Forall2 (base_like (cx u)) (map (read_die rf u) (with_raw_tag 0x1c d)) bases ->
    Forall2 (part_like (cx u)) (map (read_die rf u) (with_raw_tag 0x33 d)) parts ->
    Forall2 (reads_as u) (takes_place d) (contents members bases parts).
  Proof.
    intros M B V. unfold takes_place, contents. apply Forall2_app; [now apply reads_members; [apply all_fields|]|]. apply Forall2_app.
    - apply (reads_tagged LInherit base_like 0x1c u); [|exact B]. intros e x T L. right. left. eauto.
    - apply (reads_tagged LVariantPart part_like 0x33 u); [|exact V]. intros e x T L. right. right. eauto.
  Qed.

  (** ** Variants *)

  Lemma least_min l n : least l n -> Forall (fun x => x < u64_max) l -> min_offset l = n.
  Proof.
    intros H B. assert (G : forall l acc, let m := fold_left (fun acc o => if o <? acc then o else acc) l acc in
      m <= acc /\ Forall (N.le m) l /\ (m = acc \/ In m l)).
    { clear. induction l as [|x l IH]; intros acc; cbn [fold_left]; [repeat split; [lia|constructor|now left]|].
      destruct (IH (if x <? acc then x else acc)) as (A & F & D). destruct (N.ltb_spec x acc).
      - split; [lia|]. split; [constructor; [lia|exact F]|]. right. destruct D as [D|D]; [left; now symmetry|now right].
      - split; [lia|]. split; [constructor; [lia|exact F]|]. destruct D as [D|D]; [now left|right; now right]. }
    unfold min_offset. destruct (G l u64_max) as (A & F & D). cbv zeta in *. destruct H as [(-> & ->)|(I & L)]; [cbn [fold_left]; now rewrite N.ltb_irrefl|].
    rewrite Forall_forall in *. pose proof (B n I) as Bn. specialize (F n I). destruct D as [D|D]; [exfalso; rewrite D in F; lia|].
    specialize (L _ D). set (m := fold_left _ l u64_max) in *. destruct (N.ltb_spec m u64_max); lia.
  Qed.
  (** The greatest end, for a list of places and widths. *)
  Lemma greatest_end l n s : greatest (map (fun x => fst x + snd x) l) n -> Forall (fun x => fst x + snd x < u64_max) l -> (l = [] -> s = 0) ->
    Forall (fun x => s <= fst x) l -> max_end (map (fun x => (fst x, Some (snd x))) l) s = Some n.
  Proof.
    intros H B S0 S. assert (G : forall l acc, Forall (fun x => fst x + snd x < u64_max) l -> exists m,
      max_end (map (fun x => (fst x, Some (snd x))) l) acc = Some m /\ acc <= m /\
      Forall (fun x => fst x + snd x <= m) l /\ (m = acc \/ In m (map (fun x => fst x + snd x) l))).
    { clear. induction l as [|(p, w) l IH]; intros acc B; cbn [map max_end fst snd]; [exists acc; repeat split; [lia|constructor|now left]|].
      inversion B as [|? ? B1 B']; subst. cbn [fst snd] in B1. rewrite add64_small by (rewrite u64_max_val in B1; lia).
      destruct (IH (if acc <? p + w then p + w else acc) B') as (m & E & A & F & D). exists m. split; [exact E|]. destruct (N.ltb_spec acc (p + w)).
      - split; [lia|]. split; [constructor; [cbn [fst snd]; lia|exact F]|]. right. destruct D as [D|D]; [left; now symmetry|now right].
      - split; [lia|]. split; [constructor; [cbn [fst snd]; lia|exact F]|]. destruct D as [D|D]; [now left|right; now right]. }
    destruct (G l s B) as (m & E & A & F & D). rewrite E. f_equal. destruct H as [(E0 & ->)|(I & L)].
    - apply map_eq_nil in E0. subst l. rewrite (S0 eq_refl) in *. destruct D as [D|[]]. exact D.
    - rewrite Forall_forall in *. apply in_map_iff in I. destruct I as (x & EX & I). specialize (F x I). specialize (S x I).
      destruct D as [D|D]; [lia|]. specialize (L _ D). lia.
  Qed.
  Lemma span_is l s n : greatest (map (fun x => fst x + snd x) l) n -> Forall (fun x => fst x + snd x < u64_max) l -> least (map fst l) s ->
    span_size (map (fun x => (fst x, Some (snd x))) l) s = Some (n - s) /\ s <= n /\ n < u64_max.
  Proof.
    intros G B L. assert (A : Forall (fun x => s <= fst x) l).
    { destruct L as [(E & ->)|(_ & L)]; [apply Forall_forall; intros; lia|]. rewrite Forall_map in L. exact L. }
    assert (C : n < u64_max).
    { destruct G as [(_ & ->)|(I & _)]; [rewrite u64_max_val; lia|]. apply in_map_iff in I. destruct I as (x & <- & I). now rewrite Forall_forall in B; apply B. }
    assert (D : s <= n).
    { destruct G as [(E & ->)|(I & _)].
      - apply map_eq_nil in E. subst l. destruct L as [(_ & ->)|([] & _)]. lia.
      - apply in_map_iff in I. destruct I as (x & <- & I). rewrite Forall_forall in A. specialize (A x I). lia. }
    unfold span_size. rewrite (greatest_end l n s G B); [|intros ->; destruct L as [(_ & ->)|([] & _)]; reflexivity|exact A].
    rewrite sub64_small by (rewrite u64_max_val in C; lia). auto.
  Qed.
  Definition spot (s : shape) : N * N := (fst (fst s), snd (fst s)).
  Lemma fits_spots i shapes ms : Forall2 (fits i) shapes (map LMember ms) ->
    map m_bit_offset ms = map first_bit shapes /\
    map (fun m => (m_bit_offset m, member_bit_size (vw_sizes vw) m)) ms = map (fun x => (fst x, Some (snd x))) (map spot shapes).
  Proof.
    revert shapes. induction ms as [|m ms IH]; intros shapes F; inversion F as [|((p, w), ls) ? shapes' ? (B & T & W & LW & H) F']; subst; [split; reflexivity|].
    destruct (IH _ F') as (E1 & E2). cbn [map begins width first_bit] in *. unfold spot at 1. cbn [fst snd]. rewrite E1, E2, W. split; reflexivity.
  Qed.
  Lemma spot_maps (l : list shape) : map fst (map spot l) = map first_bit l /\ map (fun x => fst x + snd x) (map spot l) = map last_bit l /\
    (Forall bounded l -> Forall (fun x => fst x + snd x < u64_max) (map spot l)).
  Proof.
    rewrite !map_map. split; [|split].
    - apply map_ext. now intros ((p, w), ls).
    - apply map_ext. now intros ((p, w), ls).
    - intros B. rewrite Forall_map. eapply Forall_impl; [|exact B]. now intros ((p, w), ls).
  Qed.
  Lemma variant_span i v given first last : Forall2 (fits i) given (map LMember (v_members v)) -> Forall bounded given ->
    least (map first_bit given) first -> greatest (map last_bit given) last ->
    variant_bit_offset v = first /\ variant_bit_size (vw_sizes vw) v = Some (last - first) /\ first <= last /\ last < u64_max.
  Proof.
    intros F B L G. destruct (fits_spots i given _ F) as (E1 & E2). destruct (spot_maps given) as (M1 & M2 & M3).
    assert (O : variant_bit_offset v = first).
    { unfold variant_bit_offset. rewrite E1. apply least_min; [exact L|]. rewrite Forall_map. eapply Forall_impl; [|exact B].
      intros ((p, w), ls). unfold bounded. cbn [first_bit last_bit]. lia. }
    split; [exact O|]. unfold variant_bit_size. rewrite O, E2. apply span_is; [now rewrite M2|now apply M3|now rewrite M1].
  Qed.
  Lemma part_span (ps : variant_part) spans p w :
    Forall2 (fun v s => variant_bit_offset v = fst s /\ variant_bit_size (vw_sizes vw) v = Some (snd s - fst s) /\ fst s <= snd s /\ snd s < u64_max) (vp_variants ps) spans ->
    least (map fst spans) p -> greatest (map snd spans) (p + w) ->
    vpart_bit_offset ps = p /\ vpart_bit_size (vw_sizes vw) ps = Some w /\ p + w < u64_max.
  Proof.
    intros F L G. assert (E1 : map variant_bit_offset (vp_variants ps) = map fst spans).
    { clear L G. induction F as [|v s vs ss (A & _) F IH]; [reflexivity|]. cbn [map]. now rewrite A, IH. }
    assert (E2 : map (fun v => (variant_bit_offset v, variant_bit_size (vw_sizes vw) v)) (vp_variants ps) =
      map (fun x => (fst x, Some (snd x))) (map (fun s => (fst s, snd s - fst s)) spans)).
    { clear L G E1. induction F as [|v s vs ss (A & B & _) F IH]; [reflexivity|]. cbn [map fst snd]. now rewrite A, B, IH. }
    assert (B : Forall (fun s => fst s <= snd s /\ snd s < u64_max) spans).
    { clear L G E1 E2. induction F as [|v s vs ss (_ & _ & C) F IH]; constructor; auto. }
    assert (O : vpart_bit_offset ps = p).
    { unfold vpart_bit_offset. rewrite E1. apply least_min; [exact L|]. rewrite Forall_map. eapply Forall_impl; [|exact B]. cbn. lia. }
    split; [exact O|]. unfold vpart_bit_size. rewrite O, E2.
    destruct (span_is (map (fun s => (fst s, snd s - fst s)) spans) p (p + w)) as (S & LE & LT).
    - rewrite map_map. cbn [fst snd]. erewrite map_ext_in; [exact G|]. intros s I. rewrite Forall_forall in B. specialize (B s I). cbn beta. lia.
    - rewrite Forall_map. eapply Forall_impl; [|exact B]. intros s (A & C). cbn [fst snd]. lia.
    - rewrite map_map. cbn [fst]. exact L.
    - rewrite S. split; [f_equal; lia|exact LT].
  Qed.
  Lemma tree_entry u off y : cx_tree (cx u) off = Some y -> exists e, In e (raw_below u) /\ y = read_die rf u e /\ off = place u e.
  Proof.
    cbn [unit_context cx_tree]. intros E. apply find_dies_sound in E. destruct E as (I & O). change (In y (unit_entries (read_unit rf u))) in I.
    rewrite read_below in I. apply in_map_iff in I. destruct I as (e & <- & I). exists e. rewrite read_offset in O. auto.
  Qed.
  Lemma tree_is u e : In u (rf_units rf) -> In e (raw_below u) -> cx_tree (cx u) (place u e) = Some (read_die rf u e).
  Proof.
    intros I J. destruct (find_dies_complete (place u e) (ui_children (read_unit rf u))) as (y & E).
    - exists (read_die rf u e). split; [|apply read_offset]. change (In (read_die rf u e) (unit_entries (read_unit rf u))). rewrite read_below. now apply in_map.
    - cbn [unit_context cx_tree]. rewrite E. destruct (tree_entry u (place u e) y E) as (e' & J' & -> & O).
      destruct (place_unique u e u e' I J I J' O) as (_ & <-). reflexivity.
  Qed.
  Lemma rust_is u l : language_at u l -> cx_rust (cx u) = true <-> l = Some 0x1c.
  Proof.
    intros L. cbn [unit_context cx_rust]. destruct (C91_root rf u) as (_ & _ & H & _). rewrite H. clear H.
    assert (Q : forall b, is_language b -> fst b = 0x13) by (intros b (E & _); exact E).
    destruct L as [L|c G].
    - split; [|discriminate]. intros (a & (x & y & E & PA & _) & _). destruct (lacks_none is_language 0x13 _ L Q a); [|exact PA]. rewrite E. apply in_app_iff. right. now left.
    - assert (LS : last_such is_language (rd_attrs (ru_root u)) (0x13, RwLanguage c)).
      { apply gives_last; [exact G| |exact Q]. split; [reflexivity|now exists c]. }
      split.
      + intros (a & LA & V). pose proof (last_such_same _ _ _ _ LS LA) as E. subst a. cbn [snd] in V. congruence.
      + intros [= ->]. eauto.
  Qed.
  Lemma only_field u d m : filter is_field (rd_children d) = [m] <-> only_member (read_die rf u d) (read_die rf u m) /\ filter is_field (rd_children d) = [m].
  Proof.
    split; [|tauto]. intros E. split; [|exact E]. unfold only_member. rewrite read_children.
    change (filter instance_member (map (read_die rf u) (rd_children d)) = [read_die rf u m]). now rewrite fields_read, E.
  Qed.
  Lemma stands_field u d s : stands_for (cx u) (read_die rf u d) s -> cx_rust (cx u) = true /\ die_tag s = TagStructure /\
    exists m, filter is_field (rd_children d) = [m] /\ given_type (map (read_attr rf u) (rd_attrs m)) <> type_offset_none /\
      cx_tree (cx u) (given_type (map (read_attr rf u) (rd_attrs m))) = Some s.
  Proof.
    intros (R & T & m & O & G & C). split; [exact R|]. split; [exact T|]. unfold only_member in O. rewrite read_children in O.
    change (filter instance_member (map (read_die rf u) (rd_children d)) = [m]) in O. rewrite fields_read in O.
    destruct (filter is_field (rd_children d)) as [|x [|y l]]; try discriminate O. cbn [map] in O. injection O as <-. rewrite read_attrs in *. eauto.
  Qed.
  Lemma holds_like u d name members v : In u (rf_units rf) -> variant_holds rf u d name members -> variant_like (cx u) (read_die rf u d) v ->
    v_name v = name /\ Forall2 (member_like (cx u)) (map (read_die rf u) members) (v_members v) /\ Forall (fun e => is_field e = true) members.
  Proof.
    intros I H L.
    assert (X : (forall s, ~ stands_for (cx u) (read_die rf u d) s) -> v_name v = None /\
      Forall2 (member_like (cx u)) (map (read_die rf u) (filter is_field (rd_children d))) (v_members v)).
    { intros N. destruct L as [_ _ E F|s S]; [|now destruct (N s)]. rewrite read_children, fields_read in F. auto. }
    assert (PL : forall x e, In x (rf_units rf) -> In e (raw_below x) -> place x e <> type_offset_none) by (intros; now apply place_known).
    destruct H as [l LA NE|NL|m E LK|m w x s E G R J NE|m w s name LA E G R J T N].
    - destruct X as (A & B); [|auto using filter_fields]. intros s S. apply stands_field in S. destruct S as (R & _). now apply (rust_is u l LA) in R.
    - destruct X as (A & B); [|auto using filter_fields]. intros s S. apply stands_field in S. destruct S as (_ & _ & m & E & _). rewrite E in NL. now apply NL.
    - pose proof (filter_fields (rd_children d)) as FF. rewrite E in X, FF. destruct X as (A & B); [|auto]. intros s S. apply stands_field in S.
      destruct S as (_ & _ & m' & E' & K & _). rewrite E in E'. injection E' as <-. now rewrite type_none in K.
    - pose proof (filter_fields (rd_children d)) as FF. rewrite E in X, FF. destruct X as (A & B); [|auto]. intros y S. apply stands_field in S.
      destruct S as (_ & T & m' & E' & K & C). rewrite E in E'. injection E' as <-. rewrite (type_is rf u _ w x s G R) in C.
      destruct (tree_entry u _ _ C) as (e & Je & -> & O). destruct (place_unique x s u e (refers_in rf u w x s I R) J I Je O) as (-> & ->).
      rewrite read_tag_of in T. apply (tag_iff 0x13 TagStructure eq_refl eq_refl) in T. destruct NE; contradiction.
    - pose proof (tree_is u s I J) as C. rewrite <- (type_is rf u _ w u s G R) in C.
      assert (S : stands_for (cx u) (read_die rf u d) (read_die rf u s)).
      { split; [now apply (rust_is u _ LA)|]. split; [rewrite read_tag_of, T; reflexivity|]. exists (read_die rf u m). rewrite read_attrs.
        split; [now apply only_field|]. split; [|exact C]. rewrite (type_is rf u _ w u s G R). now apply PL. }
      destruct L as [NS|y S' _ EN F]; [now destruct (NS _ S)|]. apply stands_field in S'. destruct S' as (_ & _ & m' & E' & _ & C').
      rewrite E in E'. injection E' as <-. rewrite C in C'. injection C' as <-. rewrite read_attrs in EN. rewrite read_children, fields_read in F.
      apply named_is in N. split; [rewrite EN, <- (read_attrs rf u); exact N|]. split; [exact F|apply filter_fields].
  Qed.
  Lemma discriminant_is u attrs value : discriminant_at attrs value -> given_discr_value (map (read_attr rf u) attrs) = value.
  Proof.
    intros [L|v z G C N|v n G C]; unfold given_discr_value.
    - apply (given_lacks rf u _ 0x16); [exact L|attribute_table|reflexivity].
    - apply (given_none _ rf u (fun b => (match read_attr rf u b with ADiscrValue v => option_map Some (nonnegative v) | _ => None end) <> None)).
      + intros b J PB. apply PB. destruct (N.eq_dec (fst b) 0x16) as [E|E].
        * destruct G as (x & y & -> & NI). apply in_app_iff in J. destruct J as [J|[<-|J]].
          -- destruct NI. rewrite <- E. apply in_map, in_app_iff. now left.
          -- rewrite (read_attr_at rf u 0x16 (fun v => ADiscrValue (raw_constant v)) v) by (cbn; tauto). rewrite (constant_counts _ _ C). cbn [nonnegative].
             destruct (Z.ltb_spec z 0); [reflexivity|lia].
          -- destruct NI. rewrite <- E. apply in_map, in_app_iff. now right.
        * apply (read_attr_other rf u (fun a => match a with ADiscrValue v => option_map Some (nonnegative v) | _ => None end) [0x16]); [attribute_table|reflexivity|].
          intros [X|[]]. now apply E.
      + intros b NB. destruct (match read_attr rf u b with ADiscrValue _ => _ | _ => _ end); [destruct NB; discriminate|reflexivity].
    - apply (given_gives rf u _ 0x16 (fun v => ADiscrValue (raw_constant v)) attrs v); [cbn; tauto|exact G| |attribute_table|reflexivity].
      rewrite (constant_counts _ _ C). cbn [nonnegative]. destruct (Z.ltb_spec (Z.of_N n) 0); [lia|]. now rewrite N2Z.id.
  Qed.

  Lemma lines :
    (forall i u d ls, members_lines rf i u d ls -> In u (rf_units rf) -> In d (raw_below u) ->
       forall ls', members_shown vw i (from_offset env (place u d)) ls' -> ls' = ls) /\
    (forall i u es shapes, parts_lines rf i u es shapes -> In u (rf_units rf) ->
       forall its, Forall2 (reads_as u) es its -> Forall2 (fits i) shapes its) /\
    (forall i u e p w ls, part_lines rf i u e p w ls -> In u (rf_units rf) -> forall it, reads_as u e it -> fits i (p, w, ls) it) /\
    (forall i u p w ds spans ls, variants_lines rf i u p w ds spans ls -> In u (rf_units rf) ->
       forall vs, Forall2 (variant_like (cx u)) (map (read_die rf u) ds) vs ->
       Forall2 (fun v s => variant_bit_offset v = fst s /\ variant_bit_size (vw_sizes vw) v = Some (snd s - fst s) /\ fst s <= snd s /\ snd s < u64_max) vs spans /\
       (Forall (fun s => p <= fst s) spans -> w < u64_max ->
        forall it ls', variants_shown vw i (mkLay p w it) vs ls' -> ls' = ls)) /\
    (forall i u attrs ls, inner_lines rf i u attrs ls -> In u (rf_units rf) ->
       forall ls', members_shown vw i (from_offset env (given_type (map (read_attr rf u) attrs))) ls' -> ls' = ls).
  Proof.
    apply (lines_ind rf).
    - intros i u d b path size given shapes T P SZ _ IH O BD I J ls' S.
      destruct (compound_found u b path d I P) as (ns & t & F & D); [cbn [In] in *; tauto|]. rewrite F in S.
      inversion D as [T1|T1|ms ps bs T1 M V B E|ms T1|T1|T1]; rewrite read_tag_of in T1;
        try (exfalso; cbn [In] in T; destruct T as [T|[T|[]]]; rewrite <- T in T1; discriminate T1).
      rewrite read_children in M, V, B. rewrite variants_read in V. rewrite bases_read in B. rewrite members_read in M.
      inversion S as [|? ? s ls0 K IS|? ? x ls0 K|? ? N1 N2]; subst; rewrite <- E in *; [|discriminate K|now destruct (N1 _ eq_refl)].
      injection K as <-. destruct (size_total u (rd_attrs d) size SZ) as (TE & TL).
      apply (layout_filled i (option_map (N.mul 8) size) ms bs ps 0 given shapes); [|exact O|exact BD|exact TL|].
      + apply fits_sits, (IH I). now apply reads_struct.
      + unfold struct_layout in IS. cbn [s_members s_inherits s_variant_parts s_byte_size] in IS. rewrite read_attrs, TE in IS. exact IS.
    - intros i u d b path shapes T P _ IH I J ls' S.
      destruct (compound_found u b path d I P) as (ns & t & F & D); [rewrite T; cbn [In]; tauto|]. rewrite F in S.
      inversion D as [T1|T1|ms ps bs T1 M V B E|ms T1 M E|T1|T1]; rewrite read_tag_of, T in T1; try (try destruct T1 as [T1|T1]; discriminate T1).
      rewrite read_children, fields_read in M.
      inversion S as [|? ? s ls0 K IS|? ? x ls0 K IS|? ? N1 N2]; subst; rewrite <- E in *; [discriminate K| |now destruct (N2 _ eq_refl)].
      injection K as <-. cbn [u_members] in IS. apply (union_fits i shapes ms); [|exact IS]. apply (IH I). apply reads_members; [apply filter_fields|exact M].
    - intros i u d NT I J ls' S. destruct (from_offset env (place u d)) as [t|] eqn:E; [|now inversion S].
      destruct (no_compound u d t I J NT E) as (N1 & N2). inversion S as [|? ? s ls0 K|? ? x ls0 K|]; subst; [now destruct (N1 s)|now destruct (N2 x)|reflexivity].
    - intros i u I its F. inversion F. constructor.
    - intros i u e p w ls es shapes _ IH _ IHS I its F. inversion F; subst. constructor; [now apply IH|now apply IHS].
    - intros i u e n p w t T PL N NE TN ST W TT I it [(_ & m & -> & ML)|[(T' & _)|(T' & _)]]; [|congruence|congruence].
      apply (member_fits i u e m (Some n) p w t [] I PL ML N ST W TT). right. split; [|reflexivity].
      destruct ML as (_ & EN & ET & _). rewrite read_attrs in ET. apply named_is in N. rewrite N in EN.
      intros [A|[(r & A)|(t' & A & B & C)]].
      + congruence.
      + apply NE. exists r. congruence.
      + rewrite ET in A, B. exact (named_not_anonymous u _ t' t I TN TT A B C).
    - intros i u e n p w t ls T PL N SH ST W TT _ IH I it [(_ & m & -> & ML)|[(T' & _)|(T' & _)]]; [|congruence|congruence].
      apply (member_fits i u e m n p w t ls I PL ML N ST W TT). left.
      destruct ML as (_ & EN & ET & _). rewrite read_attrs in ET. apply named_is in N. rewrite N in EN. split.
      + unfold inline_member. rewrite EN. destruct SH as [->|[(s & -> & r & ->)|TU]]; [now left|right; left; now exists r|right; right].
        destruct (unnamed_anonymous u _ I TU) as (ty & A). rewrite ET. now exists ty.
      + intros ls' S. rewrite ET in S. exact (IH I ls' S).
    - intros i u e p s t T PL BA TB L8 TT I it [(T' & _)|[(_ & x & -> & ET & EP)|(T' & _)]]; [congruence| |congruence].
      apply bytes_offset with (rf := rf) (ob := ob) in BA. destruct BA as (PI & LT). rewrite read_attrs in EP, ET.
      specialize (EP p (plain_distinct rf u _ PL) PI).
      assert (BW : inherit_bit_size (vw_sizes vw) x = Some (8 * s)).
      { unfold inherit_bit_size. rewrite ET, (sizes_bytes choice rf ob u _ s WF RD I TB). cbn [option_map]. rewrite mul64_small by exact L8. reflexivity. }
      rewrite two64_val in L8.
      unfold fits. cbn [begins width]. split; [exact EP|]. split; [exact LT|]. split; [exact BW|]. split; [rewrite u64_max_val; lia|].
      intros ls' S. inversion S as [? ? y E|? ? m' ls0 E MS|? ? y t' E PT|? ? q ? ? E]; try discriminate E. cbn [l_item] in E. injection E as <-. subst.
      apply place_text in PT; [|rewrite u64_max_val; lia]. subst t'. unfold row. rewrite ET, (written_text choice rf ob u _ t WF AC RD I TT).
      repeat rewrite <- app_assoc. reflexivity.
    - intros i u e p w spans ls T _ IH L G I it [(T' & _)|[(T' & _)|(_ & q & -> & _ & V)]]; [congruence|congruence|].
      rewrite read_children, variant_read in V. destruct (IH I (vp_variants q) V) as (SP & SH).
      destruct (part_span q spans p w SP L G) as (EO & ES & LT).
      unfold fits. cbn [begins width]. split; [exact EO|]. split; [rewrite u64_max_val in LT; rewrite two64_val; lia|]. split; [exact ES|]. split; [lia|].
      intros ls' S. inversion S as [? ? y E|? ? m' ls0 E MS|? ? y t' E PT|? ? q' t' ls0 E PT VS]; try discriminate E. cbn [l_item] in E. injection E as <-. subst.
      apply place_text in PT; [|lia]. subst t'. unfold row. f_equal; [repeat rewrite <- app_assoc; reflexivity|].
      apply (SH) in VS; [exact VS| |lia]. destruct L as [(E0 & _)|(_ & A)]; [apply map_eq_nil in E0; subst spans; constructor|]. rewrite Forall_map in A. exact A.
    - intros i u p w I vs F. inversion F; subst. split; [constructor|]. intros _ _ it ls' S. now inversion S.
    - intros i u p w d name members value given shapes first last ds spans ls H DI _ IH O BD L G _ IHV I vs F.
      cbn [map] in F. inversion F as [|? v ? vs' VL F']; subst. destruct (holds_like u d name members v I H VL) as (EN & EM & FM).
      assert (DV : v_discr_value v = value).
      { apply (discriminant_is u) in DI. destruct VL as [_ E|s _ E]; rewrite read_attrs, DI in E; exact E. }
      destruct (IHV I vs' F') as (SP & SH). pose proof (IH I _ (reads_members u members _ FM EM)) as FT.
      destruct (variant_span (S i) v given first last FT BD L G) as (VO & VZ & LE & LT).
      split; [constructor; [cbn [fst snd]; auto|exact SP]|]. intros A LW it ls' SS. inversion A as [|? ? A1 A']; subst. cbn [fst] in A1.
      inversion SS as [|? ? ? ? lv lr SV SR]; subst. cbn [l_offset l_size] in SV. destruct (N.eqb_spec w u64_max) as [X|X]; [lia|].
      rewrite (SH A' LW it lr SR). f_equal. f_equal.
      assert (AG : Forall (fun s => p <= first_bit s) given).
      { destruct L as [(E0 & _)|(_ & B)]; [apply map_eq_nil in E0; subst given; constructor|]. rewrite Forall_map in B. eapply Forall_impl; [|exact B]. cbn beta. lia. }
      apply (layout_filled (S i) (Some w) (v_members v) [] [] p (map (seen_from p) given) shapes); [|exact O| |congruence|exact SV].
      + unfold contents. cbn [map app]. rewrite app_nil_r. now apply member_sits.
      + rewrite Forall_map. rewrite Forall_forall in *. intros ((q, z), t) Jq. specialize (BD _ Jq). unfold bounded in *. cbn [seen_from last_bit] in *. lia.
    - intros i u attrs L I ls' S. rewrite (type_none rf u attrs L) in S. change (from_offset env type_offset_none) with (Some (mkType u64_max TVoid)) in S.
      inversion S as [|? ? s ls0 K|? ? x ls0 K|]; subst; [discriminate K|discriminate K|reflexivity].
    - intros i u attrs v x e ls G R J _ IH I ls' S. rewrite (type_is rf u attrs v x e G R) in S. apply IH; auto. now apply (refers_in rf u v x e).
  Qed.

  (** ** What is listed *)

  Definition kept_ok (u : raw_unit) (kept : list type) : Prop :=
    forall t', In t' kept -> exists ns' outer' d', found (ui_children (read_unit rf u)) outer' d' /\ is_type_tag (die_tag d') = true /\
      outer' <> TagEnumeration /\ t_offset t' = die_offset d' /\ describes_type (cx u) ns' d' (t_kind t') /\ env (t_offset t') = Some t'.
  Lemma found_entry top outer d : found top outer d -> In d (flat_map entries top).
  Proof.
    induction 1 as [d I|t d c _ IH _ I].
    - apply in_flat_map. exists d. split; [exact I|]. destruct d. now left.
    - apply in_flat_map in IH. destruct IH as (e & J & K). apply in_flat_map. exists e. split; [exact J|]. apply (DetailShown.entries_trans e d); [exact K|]. apply (entries_child c); [exact I|apply entries_self].
  Qed.
  Lemma read_entry u x : In x (flat_map entries (ui_children (read_unit rf u))) -> exists e, In e (raw_below u) /\ x = read_die rf u e.
  Proof.
    intros H. change (flat_map entries (ui_children (read_unit rf u))) with (unit_entries (read_unit rf u)) in H.
    rewrite read_below in H. apply in_map_iff in H. destruct H as (e & <- & I). now exists e.
  Qed.
  Lemma entries_children top d c : In d (flat_map entries top) -> In c (die_children d) -> In c (flat_map entries top).
  Proof.
    intros H I. apply in_flat_map in H. destruct H as (e & J & K). apply in_flat_map. exists e. split; [exact J|]. apply (DetailShown.entries_trans e d); [exact K|]. apply (entries_child c); [exact I|apply entries_self].
  Qed.
  Lemma member_read u d' ns' t m : In d' (flat_map entries (ui_children (read_unit rf u))) -> describes_type (cx u) ns' d' (t_kind t) -> member_of t m ->
    exists e, In e (raw_below u) /\ is_field e = true /\ member_like (cx u) (read_die rf u e) m.
  Proof.
    intros J D MO. assert (H : exists x, In x (flat_map entries (ui_children (read_unit rf u))) /\ instance_member x = true /\ member_like (cx u) x m).
    { destruct MO as [o x m I|o x m I]; cbn [t_kind] in D; inversion D as [| |ms ps bs T M V B E|ms T M E| |]; subst x; cbn [s_members u_members] in I.
      - destruct (WholeShown.Forall2_in_r _ _ _ m M I) as (y & Iy & L). unfold member_entries in Iy. apply in_flat_map in Iy. destruct Iy as (z & Iz & Iy).
        exists y. destruct (instance_member z) eqn:EZ.
        + destruct Iy as [<-|[]]. split; [now apply (entries_children _ d' z)|]. split; assumption.
        + destruct (die_tag z); try contradiction. apply filter_In in Iy. destruct Iy as (Iy & IM).
          split; [|split; assumption]. apply (entries_children _ z y); [now apply (entries_children _ d' z)|exact Iy].
      - destruct (WholeShown.Forall2_in_r _ _ _ m M I) as (y & Iy & L). apply filter_In in Iy. destruct Iy as (Iy & IM). exists y.
        split; [now apply (entries_children _ d' y)|]. split; assumption. }
    destruct H as (x & Ix & IM & ML). destruct (read_entry u x Ix) as (e & Ie & ->). exists e. rewrite field_read in IM. auto.
  Qed.
  Lemma alone_outside u d kept : In u (rf_units rf) -> In d (raw_below u) -> shown_alone rf u d ->
    (forall t, env (place u d) = Some t -> ~ anonymous t) -> kept_ok u kept ->
    ~ shown_inside env (FileModel.mkUnit None [] kept [] []) (place u d).
  Proof.
    intros I J SA NA KO (t' & It & [(A & E)|(m & MO & IM & E)]); cbn [un_types] in It; destruct (KO t' It) as (ns' & outer' & d' & F & _ & _ & O & D & TA).
    - rewrite <- E in TA. exact (NA t' TA A).
    - apply found_entry in F. destruct (member_read u d' ns' t' m F D MO) as (e & Ie & Fe & (_ & EN & ET & _)).
      rewrite read_attrs in ET. rewrite ET in E. destruct (type_reference rf u (rd_attrs e)) as [X|(v & Iv & IO)].
      { rewrite X in E. exact (place_known u d I J E). }
      rewrite <- E in IO. destruct (SA e v Ie Fe Iv (points_at rf u v _ u d IO I J eq_refl)) as (n & N & NE). apply named_is in N. rewrite N in EN.
      destruct IM as [X|[(r & X)|(t'' & _ & X & Y)]].
      + congruence.
      + apply NE. exists r. congruence.
      + rewrite ET, <- E in X. exact (NA t'' X Y).
  Qed.
  Lemma leaf_size off t n : from_offset env off = Some t -> (forall f, byte_size (S f) env t = TypeModel.Done n) ->
    (forall o, ~ size_ref t o) -> (forall o x, t <> mkType o (TPtrToMember x)) -> type_size ob t = n.
  Proof.
    intros E B R P. apply (reports_size_fun env t).
    - exact (C83_sizes ob off t (C88_well_formed rf ob WF RD) E (leaf_founded ob t R P)).
    - now apply reports_leaf.
  Qed.
  Lemma own_size_known u attrs size : own_size attrs size -> opt64_get (given_byte_size (map (read_attr rf u) attrs)) = size.
  Proof.
    destruct size as [s|]; cbn [own_size].
    - intros G. rewrite (byte_size_is rf u _ _ G). destruct G as (v & _ & _ & LT). apply explicit_get. now apply given_explicit.
    - intros L. now rewrite (byte_size_none rf u _ L).
  Qed.
End Lines.
