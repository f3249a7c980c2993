(** Proofs about structure layout. *)
From Coq Require Import List NArith Bool Lia Permutation Sorted.
From Coq Require Import ZifyBool ZifyNat ZifyN.
From Verif Require Import Base BaseProofs TypeModel TypeSpec TypeSizeProofs LayoutModel LayoutSpec.
Import ListNotations.
Local Open Scope N_scope.

Lemma u64_max_val : u64_max = 18446744073709551615.
Proof. reflexivity. Qed.
Lemma two64_val : two64 = 18446744073709551616.
Proof. reflexivity. Qed.

Lemma add64_small x y : x + y < 2 ^ 64 -> add64 x y = x + y.
Proof. intros H. unfold add64. apply wrap64_small. rewrite two64_val. lia. Qed.
Lemma mul64_small x y : x * y < 2 ^ 64 -> mul64 x y = x * y.
Proof. intros H. unfold mul64. apply wrap64_small. rewrite two64_val. lia. Qed.
Lemma sub64_small x y : y <= x -> x < 2 ^ 64 -> sub64 x y = x - y.
Proof.
  intros H L. unfold sub64, wrap64. rewrite (N.mod_small y) by (rewrite two64_val; lia).
  replace (x + two64 - y) with ((x - y) + 1 * two64) by lia.
  rewrite N.mod_add by discriminate. apply N.mod_small. rewrite two64_val. lia.
Qed.
Opaque u64_max two64.

Lemma lay_cmp_tp : total_preorder lay_cmp.
Proof.
  unfold lay_cmp. apply (then_with_tp (fun a b => N.compare (l_offset a) (l_offset b))
    (fun a b => N.compare (l_size a) (l_size b))).
  - apply (cmp_on_tp l_offset _ N_compare_tp).
  - apply (cmp_on_tp l_size _ N_compare_tp).
Qed.

Lemma lay_cmp_le a b :
  lay_cmp a b <> Gt <->
  l_offset a < l_offset b \/ (l_offset a = l_offset b /\ l_size a <= l_size b).
Proof.
  unfold lay_cmp, opt64_cmp, then_with.
  destruct (N.compare_spec (l_offset a) (l_offset b)) as [E|L|L].
  - destruct (N.compare_spec (l_size a) (l_size b)); split; intros; try lia; try congruence.
  - split; auto. discriminate.
  - split; [congruence|lia].
Qed.

(** ** The algorithm read forwards *)

Definition gap (m : lay) (next : option N) : list lay :=
  match opt64_get (l_size m), next with
  | Some size, Some nx =>
      let e := add64 (l_offset m) size in
      if e <? nx then [mkLay e (sub64 nx e) LPadding] else []
  | _, _ => []
  end.

Fixpoint forward (ms : list lay) (total : option N) : list lay :=
  match ms with
  | [] => []
  | m :: r => m :: gap m (match r with [] => total | n :: _ => Some (l_offset n) end) ++ forward r total
  end.

Definition lead (ms : list lay) : list lay :=
  match ms with
  | [] => []
  | m :: _ => if 0 <? l_offset m then [mkLay 0 (l_offset m) LPadding] else []
  end.

Lemma forward_snoc ms m t :
  forward (ms ++ [m]) t = forward ms (Some (l_offset m)) ++ m :: gap m t.
Proof.
  induction ms as [|x r IH].
  - cbn. now rewrite app_nil_r.
  - change ((x :: r) ++ [m]) with (x :: (r ++ [m])). cbn [forward]. rewrite IH.
    destruct r as [|y r]; cbn [app]; now rewrite <- app_assoc.
Qed.

Lemma gap_rev m t : rev (gap m t) = gap m t.
Proof.
  unfold gap. destruct (opt64_get _); [|reflexivity]. destruct t; [|reflexivity].
  destruct (_ <? _); reflexivity.
Qed.

Lemma walk_forward ms t : layout_walk (rev ms) t = rev (forward ms t).
Proof.
  revert t. induction ms as [|m ms IH] using rev_ind; intros t; [reflexivity|].
  rewrite rev_app_distr, forward_snoc, rev_app_distr. cbn [rev app layout_walk].
  rewrite IH. fold (gap m t). rewrite gap_rev, <- app_assoc. reflexivity.
Qed.

Lemma lead_spec ms t : rev (layout_lead (rev (forward ms t))) = lead ms ++ forward ms t.
Proof.
  unfold layout_lead. rewrite rev_involutive. destruct ms as [|m r]; [reflexivity|].
  cbn [forward lead]. destruct (0 <? l_offset m).
  - rewrite rev_app_distr, rev_involutive. reflexivity.
  - now rewrite rev_involutive.
Qed.

Definition placed (bs : type_sizes) (base : N) (it : layout_item) : lay :=
  match it with
  | LPadding => mkLay 0 0 LPadding
  | LMember m => mkLay (sub64 (m_bit_offset m) base) (opt64_from (member_bit_size bs m)) it
  | LInherit i => mkLay (sub64 (i_bit_offset i) base) (opt64_from (inherit_bit_size bs i)) it
  | LVariantPart p => mkLay (sub64 (vpart_bit_offset p) base) (opt64_from (vpart_bit_size bs p)) it
  end.

Definition sorted_items bs members inherits parts base :=
  stable_sort lay_cmp (map (placed bs base) (contents members inherits parts)).

Lemma layout_eq bs members inherits parts base t :
  layout bs members inherits parts base t =
  let s := sorted_items bs members inherits parts base in lead s ++ forward s t.
Proof.
  unfold layout, sorted_items, contents. rewrite !map_app, !map_map, walk_forward, lead_spec.
  reflexivity.
Qed.

Lemma contents_real m i p it : In it (contents m i p) -> it <> LPadding.
Proof.
  unfold contents. rewrite !in_app_iff, !in_map_iff.
  intros [(x & <- & _)|[(x & <- & _)|(x & <- & _)]]; discriminate.
Qed.

Lemma placed_item bs base it : l_item (placed bs base it) = it.
Proof. now destruct it. Qed.

Definition all_real (ms : list lay) := Forall (fun x => is_padding x = false) ms.

Lemma sorted_real bs m i p base : all_real (sorted_items bs m i p base).
Proof.
  unfold all_real, sorted_items. apply Forall_forall. intros x H.
  apply (Permutation_in _ (stable_sort_perm lay_cmp _)) in H. apply in_map_iff in H.
  destruct H as (it & <- & I). unfold is_padding. rewrite placed_item.
  apply contents_real in I. now destruct it.
Qed.

Lemma gap_padding m t x : In x (gap m t) -> is_padding x = true.
Proof.
  unfold gap. destruct (opt64_get _); [|easy]. destruct t; [|easy].
  destruct (_ <? _); [|easy]. intros [<-|[]]. reflexivity.
Qed.

Lemma real_items_gap m t : real_items (gap m t) = [].
Proof.
  unfold gap. destruct (opt64_get _); [|easy]. destruct t; [|easy]. now destruct (_ <? _).
Qed.

Lemma real_items_app a b : real_items (a ++ b) = real_items a ++ real_items b.
Proof. apply filter_app. Qed.

Lemma real_forward ms t : all_real ms -> real_items (forward ms t) = ms.
Proof.
  induction 1 as [|m r H _ IH]; [reflexivity|].
  cbn [forward]. unfold real_items at 1. cbn [filter]. rewrite H. cbn [negb]. f_equal.
  change (real_items (gap m (match r with [] => t | n :: _ => Some (l_offset n) end) ++ forward r t) = r).
  now rewrite real_items_app, real_items_gap, IH.
Qed.

Lemma real_layout bs m i p base t :
  real_items (layout bs m i p base t) = sorted_items bs m i p base.
Proof.
  rewrite layout_eq. cbn zeta. rewrite real_items_app, real_forward by apply sorted_real.
  unfold lead. destruct (sorted_items _ _ _ _ _) as [|x r]; [reflexivity|].
  now destruct (0 <? l_offset x).
Qed.

Lemma layout_conserves bs m i p base t :
  Permutation (real_items (layout bs m i p base t)) (map (placed bs base) (contents m i p)).
Proof. rewrite real_layout. apply stable_sort_perm. Qed.

Lemma layout_items_perm bs m i p base t :
  Permutation (map l_item (real_items (layout bs m i p base t))) (contents m i p).
Proof.
  rewrite (Permutation_map l_item (layout_conserves bs m i p base t)), map_map.
  rewrite (map_ext _ (fun x => x)) by (intros; apply placed_item). now rewrite map_id.
Qed.

Lemma layout_real_sorted bs m i p base t :
  StronglySorted (fun x y => l_offset x <= l_offset y) (real_items (layout bs m i p base t)).
Proof.
  rewrite real_layout.
  assert (S : StronglySorted (le_cmp lay_cmp) (sorted_items bs m i p base))
    by (apply stable_sort_sorted; apply lay_cmp_tp).
  induction S as [|x l S IH F]; constructor; auto.
  eapply Forall_impl; [|exact F]. intros y L. unfold le_cmp in L. rewrite lay_cmp_le in L. lia.
Qed.

Lemma padding_isolated_app_real a m b :
  is_padding m = false -> padding_isolated a -> padding_isolated (m :: b) ->
  padding_isolated (a ++ m :: b).
Proof.
  intros M. induction a as [|x a IH]; intros A B; [exact B|].
  destruct A as [A1 A2]. cbn [app]. split; [|now apply IH].
  destruct a; cbn [app] in *; [|exact A1]. intros [_ H]. congruence.
Qed.

Lemma forward_isolated ms t : all_real ms -> padding_isolated (forward ms t).
Proof.
  induction 1 as [|m r H Hr IH]; [exact I|]. cbn [forward].
  set (nx := match r with [] => t | n :: _ => Some (l_offset n) end).
  assert (G : gap m nx = [] \/ exists x, gap m nx = [x]).
  { unfold gap. destruct (opt64_get _); auto. destruct nx; auto. destruct (_ <? _); eauto. }
  assert (Q : padding_isolated (gap m nx ++ forward r t)).
  { destruct r as [|n r].
    - cbn [forward]. rewrite app_nil_r. destruct G as [->|[x ->]]; cbn; auto.
    - cbn [forward] in *. apply padding_isolated_app_real; auto.
      + now inversion Hr.
      + destruct G as [->|[x ->]]; cbn; auto. }
  cbn [padding_isolated]. split; [|exact Q].
  destruct (gap m nx ++ forward r t); auto. intros [E _]. congruence.
Qed.

Lemma layout_isolated bs m i p base t : padding_isolated (layout bs m i p base t).
Proof.
  rewrite layout_eq. cbn zeta. set (s := sorted_items bs m i p base).
  assert (R : all_real s) by apply sorted_real.
  pose proof (forward_isolated s t R) as F.
  destruct s as [|x s]; [exact I|]. cbn [lead].
  destruct (0 <? l_offset x); [|exact F]. cbn [app padding_isolated]. split; [|exact F].
  cbn [forward]. intros [_ H]. inversion R; congruence.
Qed.

(** Every padding item has a positive size, and starts at bit 0 or at the end of
    an item. *)
Lemma sub64_pos x y : y < x -> x < 2 ^ 64 -> 0 < sub64 x y.
Proof. intros. rewrite sub64_small by lia. lia. Qed.

Lemma sub64_lt x y : sub64 x y < 2 ^ 64.
Proof. unfold sub64, wrap64. rewrite two64_val. apply N.mod_lt. discriminate. Qed.

Lemma forward_padding ms t x :
  (forall y, In y ms -> l_offset y < 2 ^ 64) -> (forall s, t = Some s -> s < 2 ^ 64) ->
  all_real ms -> In x (forward ms t) -> is_padding x = true ->
  0 < l_size x /\ exists m s, In m ms /\ opt64_get (l_size m) = Some s /\
    l_offset x = add64 (l_offset m) s.
Proof.
  intros B T R. induction R as [|m r H R IH]; cbn [forward]; [easy|].
  intros [<-|I] P; [congruence|]. apply in_app_iff in I. destruct I as [I|I].
  - unfold gap in I. destruct (opt64_get (l_size m)) as [s|] eqn:E; [|easy].
    destruct r as [|n r].
    + destruct t as [t|]; [|easy]. destruct (_ <? _) eqn:L; [|easy]. destruct I as [<-|[]].
      cbn [l_size l_offset]. split; [|exists m, s; cbn; auto].
      apply sub64_pos; [lia|]. now apply T.
    + destruct (_ <? _) eqn:L; [|easy]. destruct I as [<-|[]].
      cbn [l_size l_offset]. split; [|exists m, s; cbn; auto].
      apply sub64_pos; [lia|]. apply B. cbn. auto.
  - destruct IH as (Q & m' & s & I' & G & O); auto.
    { intros; apply B; cbn; auto. }
    split; auto. exists m', s. cbn. auto.
Qed.

Lemma sorted_in bs m i p base x :
  In x (sorted_items bs m i p base) ->
  exists it, In it (contents m i p) /\ x = placed bs base it.
Proof.
  unfold sorted_items. intros H.
  apply (Permutation_in _ (stable_sort_perm lay_cmp _)), in_map_iff in H.
  destruct H as (it & <- & I). eauto.
Qed.

Lemma layout_padding bs m i p base t x :
  (forall s, t = Some s -> s < 2 ^ 64) ->
  In x (layout bs m i p base t) -> is_padding x = true ->
  0 < l_size x /\
  (l_offset x = 0 \/
   exists y s, In y (layout bs m i p base t) /\ is_padding y = false /\
     opt64_get (l_size y) = Some s /\ l_offset x = add64 (l_offset y) s).
Proof.
  intros T. rewrite layout_eq. cbn zeta. set (ss := sorted_items bs m i p base).
  assert (B : forall y, In y ss -> l_offset y < 2 ^ 64).
  { intros y I. apply sorted_in in I. destruct I as (it & _ & ->).
    destruct it; cbn [placed l_offset]; try apply sub64_lt. lia. }
  assert (R : all_real ss) by apply sorted_real.
  intros I P. apply in_app_iff in I. destruct I as [I|I].
  - destruct ss as [|y ss]; [easy|]. cbn [lead] in I. destruct (_ <? _) eqn:L; [|easy].
    destruct I as [<-|[]]. cbn [l_size l_offset]. split; [lia|auto].
  - destruct (forward_padding ss t x B T R I P) as (Q & y & s & Iy & G & O). split; auto.
    right. exists y, s. split; [|split; [|auto]].
    + apply in_app_iff. right.
      rewrite <- (real_forward ss t R) in Iy. apply filter_In in Iy. tauto.
    + unfold all_real in R. rewrite Forall_forall in R. auto.
Qed.

(** ** Hulls *)

Lemma min_fold l acc :
  let m := fold_left (fun acc o => if o <? acc then o else acc) l acc in
  m <= acc /\ (forall o, In o l -> m <= o) /\ (m = acc \/ In m l).
Proof.
  revert acc. induction l as [|o l IH]; intros acc; cbn [fold_left].
  - cbn. intuition lia.
  - destruct (IH (if o <? acc then o else acc)) as (H1 & H2 & H3). cbv zeta in *.
    set (m := fold_left _ l (if o <? acc then o else acc)) in *.
    destruct (N.ltb_spec o acc); (split; [lia|split]).
    + intros x [<-|I]; [lia|auto].
    + destruct H3 as [->|H3]; cbn; auto.
    + intros x [<-|I]; [lia|auto].
    + destruct H3 as [->|H3]; cbn; auto.
Qed.

Lemma min_offset_spec l : l <> [] -> (forall o, In o l -> o < u64_max) ->
  In (min_offset l) l /\ forall o, In o l -> min_offset l <= o.
Proof.
  intros N B. unfold min_offset. destruct (min_fold l u64_max) as (H1 & H2 & H3). cbv zeta in *.
  set (m := fold_left _ l u64_max) in *.
  assert (M : m < u64_max).
  { destruct l as [|o l]; [easy|]. specialize (H2 o (or_introl eq_refl)).
    specialize (B o (or_introl eq_refl)). lia. }
  destruct (N.ltb_spec m u64_max); [|lia]. split; auto. destruct H3; [lia|auto].
Qed.

Lemma max_end_spec l e :
  (forall o s, In (o, Some s) l -> o + s < 2 ^ 64) -> (forall o, ~ In (o, None) l) ->
  exists r, max_end l e = Some r /\ e <= r /\ (forall o s, In (o, Some s) l -> o + s <= r) /\
    (r = e \/ exists o s, In (o, Some s) l /\ r = o + s).
Proof.
  revert e. induction l as [|(o, [s|]) l IH]; intros e B K; cbn [max_end].
  - exists e. cbn. intuition lia.
  - rewrite add64_small by (apply B; cbn; auto).
    destruct (IH (if e <? o + s then o + s else e)) as (r & E & H1 & H2 & H3).
    { intros; apply B; cbn; auto. } { intros x I; apply (K x); cbn; auto. }
    exists r. split; [exact E|].
    destruct (N.ltb_spec e (o + s)); (split; [lia|split]).
    + intros o' s' [[= <- <-]|I]; [lia|eauto].
    + destruct H3 as [->|(o' & s' & I & ->)]; right; [exists o, s|exists o', s']; cbn; auto.
    + intros o' s' [[= <- <-]|I]; [lia|eauto].
    + destruct H3 as [->|(o' & s' & I & ->)]; [auto|right; exists o', s'; cbn; auto].
  - exfalso. apply (K o). cbn. auto.
Qed.

Lemma max_end_none l e : max_end l e = None <-> exists o, In (o, None) l.
Proof.
  revert e. induction l as [|(o, [s|]) l IH]; intros e; cbn [max_end].
  - split; [discriminate|intros (o & [])].
  - rewrite IH. split; intros (x & I); exists x; cbn in *; [auto|].
    destruct I as [|]; [discriminate|auto].
  - split; auto. intros _. exists o. cbn. auto.
Qed.

Lemma span_none l e : span_size l e = None <-> exists o, In (o, None) l.
Proof.
  unfold span_size. rewrite <- (max_end_none l e). destruct (max_end l e); split; congruence.
Qed.

(** The span of known extents is their hull. *)
Lemma span_hull (es : list (N * N)) l start :
  l = map (fun e => (fst e, Some (snd e))) es -> es <> [] ->
  start = min_offset (map fst es) ->
  (forall o s, In (o, s) es -> o < u64_max /\ o + s < 2 ^ 64) ->
  exists s, span_size l start = Some s /\ hull es start (start + s) /\ start < 2 ^ 64.
Proof.
  intros -> NE -> B.
  destruct (min_offset_spec (map fst es)) as (M1 & M2).
  { destruct es; easy. }
  { intros o I. apply in_map_iff in I. destruct I as ((o' & s) & <- & I). now apply (B o' s). }
  set (start := min_offset (map fst es)) in *.
  destruct (max_end_spec (map (fun e => (fst e, Some (snd e))) es) start) as (r & E & L & H2 & H3).
  { intros o s I. apply in_map_iff in I. destruct I as ((o' & s') & [= -> ->] & I). now apply B. }
  { intros o I. apply in_map_iff in I. now destruct I as ((o' & s') & ? & _). }
  assert (J : forall o s, In (o, s) es ->
    In (o, Some s) (map (fun e => (fst e, Some (snd e))) es)).
  { intros o s I. apply in_map_iff. exists (o, s). auto. }
  apply in_map_iff in M1. destruct M1 as ((o1 & s1) & F1 & I1). cbn in F1.
  assert (R : r < 2 ^ 64).
  { destruct H3 as [->|(o & s & I & ->)].
    - pose proof (B _ _ I1). lia.
    - apply in_map_iff in I. destruct I as ((o' & s') & [= -> ->] & I). apply B in I. lia. }
  exists (r - start). unfold span_size. rewrite E, sub64_small by lia.
  split; [reflexivity|]. replace (start + (r - start)) with r by lia.
  split; [|pose proof (B _ _ I1); lia]. repeat split.
  - apply M2. apply in_map_iff. exists (o, s). auto.
  - apply H2. auto.
  - exists o1, s1. auto.
  - destruct H3 as [->|(o & s & I & ->)].
    + exists o1, s1. split; auto. pose proof (H2 _ _ (J _ _ I1)). lia.
    + apply in_map_iff in I. destruct I as ((o' & s') & [= -> ->] & I). eauto.
Qed.

Lemma member_size_extent bs m e : member_extent bs m e -> fst e + snd e < 2 ^ 64 ->
  (m_bit_offset m, member_bit_size bs m) = (fst e, Some (snd e)).
Proof.
  unfold member_bit_size. destruct 1 as [m H|m b H E]; cbn [fst snd]; intros B.
  - apply explicit_some in H. rewrite H. f_equal. apply explicit_get. now apply explicit_some.
  - destruct (opt64_is_some _) eqn:S; [now apply explicit_some in S|].
    rewrite E. cbn [option_map]. rewrite mul64_small by lia. do 2 f_equal. lia.
Qed.

Lemma member_size_none bs m : member_bit_size bs m = None <-> member_unsized bs m.
Proof.
  unfold member_bit_size, member_unsized. destruct (opt64_is_some _) eqn:S.
  - apply explicit_some in S. pose proof (explicit_get (m_bit_size m) S) as G.
    rewrite G. split; [discriminate|tauto].
  - rewrite explicit_some, S. destruct (bs (m_ty m)); cbn; intuition congruence.
Qed.

Lemma extents_map bs ms es : Forall2 (member_extent bs) ms es ->
  (forall o s, In (o, s) es -> o + s < 2 ^ 64) ->
  map (fun m => (m_bit_offset m, member_bit_size bs m)) ms =
  map (fun e => (fst e, Some (snd e))) es.
Proof.
  induction 1 as [|m e ms es H _ IH]; intros B; cbn [map]; [reflexivity|]. f_equal.
  - apply member_size_extent; auto. destruct e. apply B. cbn. auto.
  - apply IH. intros; apply B; cbn; auto.
Qed.

Lemma variant_hull bs v es : v_members v <> [] -> Forall2 (member_extent bs) (v_members v) es ->
  (forall o s, In (o, s) es -> o < u64_max /\ o + s < 2 ^ 64) ->
  exists s, variant_bit_size bs v = Some s /\
    hull es (variant_bit_offset v) (variant_bit_offset v + s).
Proof.
  intros NE F B. unfold variant_bit_size.
  destruct (span_hull es (map (fun m => (m_bit_offset m, member_bit_size bs m)) (v_members v))
    (variant_bit_offset v)) as (s & E & H & _); eauto.
  - apply extents_map; auto. intros; now apply B.
  - intros ->. inversion F. congruence.
  - unfold variant_bit_offset. f_equal.
    assert (X := extents_map bs _ es F (fun o s I => proj2 (B o s I))).
    apply (f_equal (map fst)) in X. rewrite !map_map in X. cbn in X. exact X.
Qed.

Lemma variant_unknown bs v :
  variant_bit_size bs v = None <-> exists m, In m (v_members v) /\ member_unsized bs m.
Proof.
  unfold variant_bit_size. rewrite span_none. split.
  - intros (o & I). apply in_map_iff in I. destruct I as (m & [= _ E] & I).
    exists m. split; auto. now apply member_size_none.
  - intros (m & I & U). exists (m_bit_offset m). apply in_map_iff. exists m. split; auto.
    f_equal. now apply member_size_none.
Qed.

Lemma hull_in_bound es lo hi B : hull es lo hi ->
  (forall o s, In (o, s) es -> o < u64_max /\ o + s < B) -> lo < u64_max /\ hi < B /\ lo <= hi.
Proof.
  intros (H1 & (o1 & s1 & I1 & E1) & (o2 & s2 & I2 & E2)) H.
  pose proof (H _ _ I1). pose proof (H _ _ I2). pose proof (H1 _ _ I1). lia.
Qed.

Lemma hull_app es1 es2 lo1 hi1 lo2 hi2 :
  hull es1 lo1 hi1 -> hull es2 lo2 hi2 ->
  hull (es1 ++ es2) (N.min lo1 lo2) (N.max hi1 hi2).
Proof.
  intros (A1 & (o1 & s1 & I1 & E1) & (o2 & s2 & I2 & E2))
    (B1 & (o3 & s3 & I3 & E3) & (o4 & s4 & I4 & E4)).
  split; [|split].
  - intros o s I. apply in_app_iff in I. destruct I as [I|I]; [apply A1 in I|apply B1 in I]; lia.
  - destruct (N.le_gt_cases lo1 lo2).
    + exists o1, s1. rewrite in_app_iff. split; auto; lia.
    + exists o3, s3. rewrite in_app_iff. split; auto; lia.
  - destruct (N.le_gt_cases hi1 hi2).
    + exists o4, s4. rewrite in_app_iff. split; auto; lia.
    + exists o2, s2. rewrite in_app_iff. split; auto; lia.
Qed.

(** The hull of hulls is the hull of everything. *)
Lemma hull_hull es lo hi (ess : list (list (N * N))) :
  Forall2 (fun e l => hull l (fst e) (fst e + snd e)) es ess ->
  hull es lo hi -> hull (concat ess) lo hi.
Proof.
  intros F (H1 & (o1 & s1 & I1 & E1) & (o2 & s2 & I2 & E2)). split; [|split].
  - intros o s I. apply in_concat in I. destruct I as (l & Il & I).
    assert (exists e, In e es /\ hull l (fst e) (fst e + snd e)) as ((a & b) & Ie & H).
    { clear - F Il. induction F as [|e x es ess H _ IH]; [easy|].
      destruct Il as [->|Il]; [exists e; cbn; auto|]. destruct (IH Il) as (e' & ? & ?).
      exists e'. cbn. auto. }
    destruct H as (H & _). apply H in I. apply H1 in Ie. cbn in I. lia.
  - assert (exists l, In l ess /\ hull l o1 (o1 + s1)) as (l & Il & H).
    { clear - F I1. induction F as [|e x es ess H _ IH]; [easy|].
      destruct I1 as [->|I1]; [exists x; cbn in *; auto|]. destruct (IH I1) as (e' & ? & ?).
      exists e'. cbn. auto. }
    destruct H as (_ & (o & s & I & E) & _). exists o, s. rewrite in_concat. split; [eauto|lia].
  - assert (exists l, In l ess /\ hull l o2 (o2 + s2)) as (l & Il & H).
    { clear - F I2. induction F as [|e x es ess H _ IH]; [easy|].
      destruct I2 as [->|I2]; [exists x; cbn in *; auto|]. destruct (IH I2) as (e' & ? & ?).
      exists e'. cbn. auto. }
    destruct H as (_ & _ & (o & s & I & E)). exists o, s. rewrite in_concat. split; [eauto|lia].
Qed.

Lemma Forall2_flat_map {A B C} (R : B -> C -> Prop) (f : A -> list B) l es :
  Forall2 R (flat_map f l) es ->
  exists ess, es = concat ess /\ Forall2 (fun a e => Forall2 R (f a) e) l ess.
Proof.
  revert es. induction l as [|a l IH]; cbn [flat_map]; intros es F.
  - inversion F. exists []. split; auto.
  - apply Forall2_app_inv_l in F. destruct F as (e1 & e2 & F1 & F2 & ->).
    destruct (IH _ F2) as (ess & -> & F). exists (e1 :: ess). cbn. split; auto.
Qed.

Lemma part_hull bs p es : vp_variants p <> [] ->
  (forall v, In v (vp_variants p) -> v_members v <> []) ->
  Forall2 (member_extent bs) (flat_map v_members (vp_variants p)) es ->
  (forall o s, In (o, s) es -> o < u64_max /\ o + s < 2 ^ 64) ->
  exists s, vpart_bit_size bs p = Some s /\ hull es (vpart_bit_offset p) (vpart_bit_offset p + s).
Proof.
  intros NE NV F B. apply Forall2_flat_map in F. destruct F as (ess & -> & F).
  assert (exists vs, map (fun v => (variant_bit_offset v, variant_bit_size bs v)) (vp_variants p) =
      map (fun e => (fst e, Some (snd e))) vs /\
      map variant_bit_offset (vp_variants p) = map fst vs /\
      Forall2 (fun e l => hull l (fst e) (fst e + snd e)) vs ess) as (vs & E1 & E2 & HV).
  { clear NE. induction F as [|v e vl ess H F IH].
    - exists []. repeat split; constructor.
    - destruct (variant_hull bs v e) as (s & E & H').
      { apply NV. cbn. auto. } { exact H. } { intros; apply B; cbn; apply in_app_iff; auto. }
      destruct IH as (vs & E1 & E2 & HV).
      { intros; apply NV; cbn; auto. } { intros; apply B; cbn; apply in_app_iff; auto. }
      exists ((variant_bit_offset v, s) :: vs). cbn [map fst snd]. rewrite E, E1, E2.
      split; auto. }
  assert (BV : forall o s, In (o, s) vs -> o < u64_max /\ o + s < 2 ^ 64).
  { intros o s I. clear - B HV I. induction HV as [|e l vs ess H _ IH]; [easy|].
    destruct I as [->|I].
    - cbn [fst snd] in H. destruct (hull_in_bound _ _ _ (2 ^ 64) H) as (? & ? & ?).
      + intros. apply B. cbn. apply in_app_iff. auto.
      + auto.
    - apply IH; auto. intros. apply B. cbn. apply in_app_iff. auto. }
  unfold vpart_bit_size. destruct (span_hull vs _ (vpart_bit_offset p) E1) as (s & E & H & _); auto.
  - intros ->. destruct (vp_variants p); easy.
  - unfold vpart_bit_offset. now rewrite E2.
  - exists s. split; auto. eapply hull_hull; eauto.
Qed.

Lemma part_unknown bs p :
  vpart_bit_size bs p = None <->
  exists v m, In v (vp_variants p) /\ In m (v_members v) /\ member_unsized bs m.
Proof.
  unfold vpart_bit_size. rewrite span_none. split.
  - intros (o & I). apply in_map_iff in I. destruct I as (v & [= _ E] & I).
    apply variant_unknown in E. destruct E as (m & ? & ?). eauto.
  - intros (v & m & I & Im & U). exists (variant_bit_offset v). apply in_map_iff. exists v.
    split; auto. f_equal. apply variant_unknown. eauto.
Qed.

(** ** Tiling *)

Lemma hull_unique es lo hi lo' hi' : hull es lo hi -> hull es lo' hi' -> lo = lo' /\ hi = hi'.
Proof.
  intros (A & (a & b & A1 & A2) & (c & d & A3 & A4)) (B & (e & f & B1 & B2) & (g & h & B3 & B4)).
  pose proof (A _ _ B1). pose proof (A _ _ B3). pose proof (B _ _ A1). pose proof (B _ _ A3). lia.
Qed.

Lemma placed_extent bs base it e :
  item_extent bs it e -> base <= fst e -> fst e + snd e < u64_max ->
  describes base (placed bs base it) (it, e) /\ explicit (snd e).
Proof.
  intros H B1 B2. unfold describes. cbn [fst snd]. rewrite u64_max_val in B2.
  split; [|unfold explicit; rewrite ?u64_max_val; intros X; assert (snd e = 18446744073709551615) by (rewrite <- u64_max_val; exact X); lia].
  destruct H as [m e H|i b E|p es lo hi NV F H]; cbn [placed l_item l_offset l_size fst snd] in *.
  - apply member_size_extent in H; [|lia]. injection H as H1 H2. rewrite H1, H2.
    split; auto. split; auto. apply sub64_small; lia.
  - unfold inherit_bit_size. rewrite E. cbn [option_map opt64_from].
    rewrite mul64_small, sub64_small by lia. repeat split; lia.
  - assert (LH : lo <= hi).
    { destruct H as (H1 & (o & s & I & E) & _). apply H1 in I. lia. }
    assert (B : forall o s, In (o, s) es -> o < u64_max /\ o + s < 2 ^ 64).
    { intros o s I. apply H in I. rewrite u64_max_val. lia. }
    destruct (part_hull bs p es) as (s & E & H'); auto.
    { intros EV. rewrite EV in F. inversion F. subst es. destruct H as (_ & (? & ? & [] & _) & _). }
    destruct (hull_unique _ _ _ _ _ H H') as (-> & ->). rewrite E. cbn [opt64_from].
    rewrite sub64_small by lia. repeat split; lia.
Qed.

Lemma FOP_perm {A} (R : A -> A -> Prop) l l' :
  (forall x y, R x y -> R y x) -> Permutation l l' -> ForallOrdPairs R l -> ForallOrdPairs R l'.
Proof.
  intros S P. induction P as [|x l l' P IH|x y l|l l' l'' _ IH1 _ IH2]; intros H; auto.
  - inversion H; subst. constructor; auto. rewrite <- P. assumption.
  - inversion H as [|? ? H1 H2]; subst. inversion H2 as [|? ? H3 H4]; subst. inversion H1; subst.
    constructor; [constructor; auto|constructor; auto].
Qed.

Definition ext_of (x : lay) : N * N := (l_offset x, l_size x).

Lemma tiles_forward ms t : ms <> [] ->
  StronglySorted (le_cmp lay_cmp) ms -> ForallOrdPairs apart (map ext_of ms) ->
  (forall x, In x ms -> explicit (l_size x) /\ l_offset x + l_size x <= t) -> t < u64_max ->
  tiles (match ms with x :: _ => l_offset x | [] => 0 end) t (forward ms (Some t)).
Proof.
  intros NE S. revert NE. induction S as [|m r S IH Fm]; [easy|]. intros _ A B T.
  assert (TV : t < 18446744073709551615) by (rewrite <- u64_max_val; exact T).
  destruct (B m (or_introl eq_refl)) as (Em & Lm).
  cbn [forward]. cbn [tiles]. split; [reflexivity|]. split; [exact Em|].
  unfold gap. rewrite (explicit_get (l_size m) Em).
  rewrite add64_small by lia. cbv zeta.
  assert (PADOK : forall nx, l_offset m + l_size m < nx -> nx <= t ->
     explicit (sub64 nx (l_offset m + l_size m)) /\
     l_offset m + l_size m + sub64 nx (l_offset m + l_size m) = nx).
  { intros nx H1 H2. rewrite sub64_small by lia. split; [|lia]. unfold explicit.
    change (nx - (l_offset m + l_size m) <> u64_max). rewrite u64_max_val. lia. }
  destruct r as [|n r].
  - cbn [forward]. rewrite app_nil_r. destruct (N.ltb_spec (l_offset m + l_size m) t) as [L|L].
    + cbn [tiles l_offset l_size]. destruct (PADOK t L) as (P1 & P2); [lia|]. auto.
    + cbn [tiles]. lia.
  - assert (Q : l_offset m + l_size m <= l_offset n).
    { inversion Fm as [|? ? L _]; subst. unfold le_cmp in L. rewrite lay_cmp_le in L.
      cbn [map] in A. inversion A as [|? ? A1 _]; subst. inversion A1 as [|? ? A2 _]; subst.
      unfold apart, ext_of in A2. cbn in A2. lia. }
    assert (IH' : tiles (l_offset n) t (forward (n :: r) (Some t))).
    { apply IH; auto; [easy|now inversion A|]. intros; apply B; cbn; auto. }
    destruct (B n) as (En & Ln); [cbn; auto|].
    destruct (N.ltb_spec (l_offset m + l_size m) (l_offset n)) as [L|L].
    + cbn [app tiles l_offset l_size]. destruct (PADOK _ L) as (P1 & P2); [lia|].
      split; auto. split; auto. now rewrite P2.
    + cbn [app]. replace (l_offset m + l_size m) with (l_offset n) by lia. exact IH'.
Qed.

Lemma layout_tiles bs members inherits parts base total exts :
  contents members inherits parts <> [] ->
  Forall2 (item_extent bs) (contents members inherits parts) exts ->
  (forall o s, In (o, s) exts -> base <= o /\ o + s <= base + total) ->
  ForallOrdPairs apart exts -> base + total < u64_max ->
  let l := layout bs members inherits parts base (Some total) in
  tiles 0 total l /\
  exists xs, Permutation (real_items l) xs /\
    Forall2 (describes base) xs (combine (contents members inherits parts) exts).
Proof.
  intros NE F B A T. cbv zeta. set (c := contents members inherits parts) in *.
  assert (TV : base + total < 18446744073709551615) by (rewrite <- u64_max_val; exact T).
  assert (D : Forall2 (fun x ie => describes base x ie /\ explicit (snd (snd ie)))
     (map (placed bs base) c) (combine c exts)).
  { clear A NE. induction F as [|it e c exts H _ IH]; cbn; constructor.
    - destruct e as (o, s). cbn [snd fst]. destruct (B o s) as (B1 & B2); [cbn; auto|].
      apply placed_extent; auto. cbn. rewrite u64_max_val. lia.
    - apply IH. intros; apply B; cbn; auto. }
  assert (LEN : length c = length exts) by (clear - F; induction F; cbn; congruence).
  split.
  - rewrite layout_eq. cbv zeta. fold (sorted_items bs members inherits parts base).
    unfold sorted_items. fold c. set (ms := stable_sort lay_cmp (map (placed bs base) c)).
    assert (P : Permutation ms (map (placed bs base) c)) by apply stable_sort_perm.
    assert (EX : map ext_of (map (placed bs base) c) = map (fun e => (fst e - base, snd e)) exts).
    { clear - D LEN. revert exts D LEN. induction c as [|it c IH]; intros [|e exts] D LEN;
        try discriminate; [reflexivity|].
      cbn in D. inversion D as [|? ? ? ? ((_ & D1 & D2) & _) D3]; subst. cbn [map]. f_equal.
      + unfold ext_of. cbn in D1, D2. now rewrite D1, D2.
      + apply IH; auto. }
    assert (Q1 : forall x, In x ms -> explicit (l_size x) /\ l_offset x + l_size x <= total).
    { intros x I. apply (Permutation_in _ P) in I.
      assert (exists ie, In ie (combine c exts) /\ describes base x ie /\ explicit (snd (snd ie)))
        as ((it & (o & s)) & I' & (_ & D1 & D2) & X).
      { clear - D I. induction D; [easy|]. destruct I as [<-|I]; [exists y; cbn; auto|].
        destruct (IHD I) as (ie & ? & ?). exists ie. cbn. auto. }
      cbn in D1, D2, X. rewrite D2, D1. apply in_combine_r in I'. apply B in I'.
      split; [exact X|]. lia. }
    assert (Q2 : ForallOrdPairs apart (map ext_of ms)).
    { apply (FOP_perm apart (map ext_of (map (placed bs base) c))).
      - unfold apart. intros x y [|]; auto.
      - apply Permutation_map. now symmetry.
      - rewrite EX. clear - A B.
        induction A as [|e exts A1 _ IH]; cbn [map]; constructor.
        + rewrite Forall_forall in *. intros y I. apply in_map_iff in I.
          destruct I as ((o & s) & <- & I). specialize (A1 _ I).
          destruct e as (o', s'). pose proof (B o' s' (or_introl eq_refl)).
          pose proof (B o s (or_intror I)). unfold apart in *. cbn [fst snd] in *. lia.
        + apply IH. intros; apply B; cbn; auto. }
    assert (Q3 : ms <> []).
    { intros E. rewrite E in P. apply Permutation_nil in P. destruct c; easy. }
    assert (ST : StronglySorted (le_cmp lay_cmp) ms) by (apply stable_sort_sorted, lay_cmp_tp).
    pose proof (tiles_forward ms total Q3 ST Q2 Q1) as TF.
    destruct ms as [|x r]; [easy|]. cbn [lead].
    assert (TF' : tiles (l_offset x) total (forward (x :: r) (Some total))).
    { apply TF. rewrite u64_max_val. lia. }
    destruct (N.ltb_spec 0 (l_offset x)) as [L|L].
    + cbn [app tiles l_offset l_size]. split; [reflexivity|]. split; [|exact TF'].
      destruct (Q1 x) as (_ & Q); [cbn; auto|]. unfold explicit.
      change (l_offset x <> u64_max). rewrite u64_max_val. lia.
    + cbn [app]. replace 0 with (l_offset x) by lia. exact TF'.
  - exists (map (placed bs base) c). split; [apply layout_conserves|].
    clear - D. induction D as [|? ? ? ? (H & _) _ IH]; constructor; auto.
Qed.
