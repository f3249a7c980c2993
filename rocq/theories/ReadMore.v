(** Proofs about reading: unit ranges, units by offset, enumerators. *)
From Coq Require Import List Arith NArith ZArith Bool String Lia Sorted.
From Verif Require Import Base NamespaceModel RangeModel RangeSpec RangeProofs TypeModel DieModel DieSpec
  DieProofs DescribeProofs ItemModel ReadModel ReadSpec.
Import ListNotations.
Local Open Scope N_scope.

(** ** The sequences of a line-number program *)

Fixpoint sequences (rows : line_rows) (start : option N) : list range :=
  match rows with
  | [] => []
  | (addr, true) :: rows' =>
      match start with
      | Some a => (if a =? 0 then [] else [mkRange a addr]) ++ sequences rows' None
      | None => sequences rows' None
      end
  | (addr, false) :: rows' =>
      sequences rows' match start with Some a => Some a | None => Some addr end
  end.

Lemma line_ranges_pushed rows : line_ranges rows = push_all [] (sequences rows None).
Proof.
  unfold line_ranges, push_all.
  match goal with |- fst (fold_left ?f _ _) = _ =>
    assert (H : forall rows l st, fst (fold_left f rows (l, st)) = fold_left push (sequences rows st) l) end.
  { clear rows. induction rows as [|[addr b] rows IH]; intros l st; [reflexivity|].
    cbn [fold_left sequences]. destruct b, st as [a|]; try apply IH.
    destruct (a =? 0); [apply IH|]. cbn [app fold_left]. apply IH. }
  apply H.
Qed.

Lemma sequence_after_end e rows r : sequence_of ((e, true) :: rows) r <-> sequence_of rows r.
Proof.
  split.
  - intros (before & middle & after & E & M & B). destruct before as [|x before].
    + cbn in E. discriminate.
    + cbn in E. injection E as <- E. exists before, middle, after. split; [exact E|]. split; [exact M|].
      destruct B as [B|(b & a & B)]; [discriminate|].
      destruct b as [|y b]; cbn in B; injection B as _ B; [now left|]. right. now exists b, a.
  - intros (before & middle & after & E & M & B). exists ((e, true) :: before), middle, after.
    split; [now rewrite E|]. split; [exact M|]. right.
    destruct B as [->|(b & a & ->)]; [now exists [], e|]. now exists ((e, true) :: b), a.
Qed.

Lemma sequence_running a b rows r :
  sequence_of ((a, false) :: (b, false) :: rows) r <-> sequence_of ((a, false) :: rows) r.
Proof.
  split; intros (before & middle & after & E & M & B).
  - destruct B as [->|(x & y & ->)].
    + cbn in E. injection E as Ea E. destruct middle as [|m middle]; [discriminate|].
      cbn in E. injection E as <- E. apply Forall_inv_tail in M. exists [], middle, after.
      cbn. rewrite Ea, E. split; [reflexivity|]. split; [exact M|now left].
    + destruct x as [|x0 x]; [discriminate|]. cbn in E. injection E as <- E.
      destruct x as [|x1 x]; [discriminate|]. cbn in E. injection E as <- E.
      exists ((a, false) :: x ++ [(y, true)]), middle, after. cbn. rewrite E.
      split; [reflexivity|]. split; [exact M|]. right. now exists ((a, false) :: x), y.
  - destruct B as [->|(x & y & ->)].
    + cbn in E. injection E as Ea E. exists [], ((b, false) :: middle), after. cbn. rewrite Ea, E.
      split; [reflexivity|]. split; [now constructor|]. now left.
    + destruct x as [|x0 x]; [discriminate|]. cbn in E. injection E as <- E.
      exists ((a, false) :: (b, false) :: x ++ [(y, true)]), middle, after. cbn. rewrite E.
      split; [reflexivity|]. split; [exact M|]. right. now exists ((a, false) :: (b, false) :: x), y.
Qed.

Lemma sequence_ends a e rows r :
  sequence_of ((a, false) :: (e, true) :: rows) r <-> r = mkRange a e \/ sequence_of rows r.
Proof.
  split.
  - intros (before & middle & after & E & M & B). destruct B as [->|(x & y & ->)].
    + cbn in E. injection E as Ea E. destruct middle as [|m middle].
      * cbn in E. injection E as Ee _. left. destruct r. cbn in *. congruence.
      * cbn in E. injection E as <- E. inversion M; discriminate.
    + right. destruct x as [|x0 x]; [discriminate|]. cbn in E. injection E as _ E.
      apply (sequence_after_end e). exists (x ++ [(y, true)]), middle, after. rewrite E.
      split; [reflexivity|]. split; [exact M|]. right. now exists x, y.
  - intros [->|S].
    + exists [], [], rows. cbn. auto.
    + destruct S as (before & middle & after & E & M & B).
      exists ((a, false) :: (e, true) :: before), middle, after. rewrite E. split; [reflexivity|].
      split; [exact M|]. right. destruct B as [->|(x & y & ->)].
      * now exists [(a, false)], e.
      * now exists ((a, false) :: (e, true) :: x), y.
Qed.

Lemma sequences_in rows :
  (forall r, In r (sequences rows None) <-> sequence_of rows r /\ rbegin r <> 0) /\
  (forall a r, In r (sequences rows (Some a)) <-> sequence_of ((a, false) :: rows) r /\ rbegin r <> 0).
Proof.
  induction rows as [|[x b] rows [IHn IHs]]; split.
  - intros r. split; [intros []|]. intros [(before & middle & after & E & _) _].
    destruct before; discriminate.
  - intros a r. split; [intros []|]. intros [(before & middle & after & E & _) _].
    destruct before as [|y [|z before]]; cbn in E; try discriminate.
    injection E as _ E. destruct middle; discriminate.
  - intros r. destruct b; cbn [sequences].
    + rewrite IHn, sequence_after_end. reflexivity.
    + apply IHs.
  - intros a r. destruct b; cbn [sequences].
    + rewrite sequence_ends, in_app_iff, IHn. destruct (N.eqb_spec a 0) as [Z|Z].
      * split; [intros [[]|H]; tauto|]. intros [[->|H] P]; [|tauto]. now destruct P.
      * cbn [In]. split.
        -- intros [[<-|[]]|H]; [|tauto]. split; [now left|exact Z].
        -- intros [[->|H] P]; [|tauto]. left. now left.
    + rewrite IHs, sequence_running. reflexivity.
Qed.

(** ** The ranges of a unit *)

Definition extents (program : option line_rows) (l : list attr) : list range :=
  match program, given_ranges l, low_given l with
  | Some rows, _, _ => sequences rows None
  | None, Some rs, _ => nonempty_ranges rs
  | None, None, Some low =>
      match
        match high_given l, size_given l with
        | Some h, _ => Some h
        | None, Some size => checked_add low size
        | None, None => None
        end
      with
      | Some high => [mkRange low high]
      | None => []
      end
  | None, None, None => []
  end.

Lemma attr_unit_low l : attr_unit_low_pc l = low_given l.
Proof. apply scan_given. intros []; reflexivity. Qed.
Lemma attr_unit_high l : attr_unit_high_pc l = high_given l.
Proof. apply scan_given. intros []; try reflexivity. destruct v; reflexivity. Qed.
Lemma attr_unit_size_given l : attr_unit_size l = size_given l.
Proof. apply scan_given. intros []; reflexivity. Qed.
Lemma attr_ranges_given' l : attr_ranges l = given_ranges l.
Proof. apply scan_given. intros []; reflexivity. Qed.

Lemma pushed_extents program l : unit_ranges_pushed program l = push_all [] (extents program l).
Proof.
  unfold unit_ranges_pushed, extents.
  rewrite attr_unit_low, attr_unit_high, attr_unit_size_given, attr_ranges_given'.
  destruct program as [rows|]; [apply line_ranges_pushed|].
  destruct (given_ranges l) as [rs|]; [reflexivity|]. destruct (low_given l) as [low|]; [|reflexivity].
  destruct (high_given l) as [h|]; [reflexivity|]. destruct (size_given l) as [n|]; [|reflexivity].
  destruct (checked_add low n); reflexivity.
Qed.

Lemma extents_in program l r : nonempty r -> (In r (extents program l) <-> unit_extent l program r).
Proof.
  intros Ne. unfold extents. destruct program as [rows|].
  - rewrite (proj1 (sequences_in rows)). split; [intros [? ?]; now constructor|].
    intros U. inversion U; subst. auto.
  - destruct (given_ranges l) as [rs|] eqn:R.
    + rewrite nonempty_ranges_filter, in_map_iff. split.
      * intros ([b e] & <- & I). apply filter_In in I as [I _]. now apply (ux_ranges l rs).
      * intros U. inversion U as [|rs' r' G I| |]; subst; try congruence.
        rewrite R in G. injection G as ->. exists (rbegin r, rend r). split; [now destruct r|].
        apply filter_In. split; [exact I|]. apply N.ltb_lt, Ne.
    + destruct (low_given l) as [low|] eqn:Lo.
      2: { split; [intros []|]. intros U. inversion U; congruence. }
      destruct (high_given l) as [h|] eqn:H.
      { cbn [In]. split.
        - intros [<-|[]]. now apply ux_high.
        - intros U. inversion U; subst; try congruence. left. destruct r. cbn in *. congruence. }
      destruct (size_given l) as [n|] eqn:S.
      2: { split; [intros []|]. intros U. inversion U; congruence. }
      unfold checked_add. destruct (N.ltb_spec (low + n) two64) as [B|B]; cbn [In].
      { split.
        - intros [<-|[]]. now apply (ux_size l _ n).
        - intros U. inversion U; subst; try congruence. left. destruct r. cbn in *. congruence. }
      split; [intros []|]. intros U. inversion U as [| | |r' n' G L' H' S' E B']; subst; try congruence.
      rewrite Lo in L'. injection L' as ->. rewrite S in S'. injection S' as ->.
      change (2 ^ 64) with two64 in B'. lia.
Qed.

Section UnitRanges.
  Variables (program : option line_rows) (l : list attr) (rs : list range).
  Hypothesis Rs : forall r, In r rs <-> unit_extent l program r.
  Hypothesis Bounds : Forall in_bounds rs.

  Lemma extents_bounds : Forall in_bounds (filter (fun r => rbegin r <? rend r) (extents program l)).
  Proof.
    apply Forall_forall. intros r I. apply filter_In in I as [I Ne]. apply N.ltb_lt in Ne.
    rewrite Forall_forall in Bounds. apply Bounds, Rs. now apply extents_in.
  Qed.

  Lemma push_filter x y : push_all x y = push_all x (filter (fun r => rbegin r <? rend r) y).
  Proof.
    unfold push_all. revert x. induction y as [|r y IH]; intros x; [reflexivity|]. cbn [fold_left filter].
    destruct (N.ltb_spec (rbegin r) (rend r)) as [H|H]; [apply IH|]. rewrite IH. f_equal.
    unfold push. now rewrite (proj2 (N.leb_le _ _) H).
  Qed.

  Lemma unit_ranges_sorted :
    unit_ranges program l = rl_sort (push_all [] (filter (fun r => rbegin r <? rend r) (extents program l))).
  Proof. unfold unit_ranges. now rewrite pushed_extents, push_filter. Qed.

  Lemma kept_in r :
    In r (filter (fun r => rbegin r <? rend r) (extents program l)) <-> In r rs /\ nonempty r.
  Proof.
    rewrite filter_In, N.ltb_lt. fold (nonempty r). rewrite Rs.
    split; intros [I N]; (split; [|exact N]); now apply extents_in.
  Qed.

  Lemma unit_covers a : covers rs a -> covers (unit_ranges program l) a.
  Proof.
    intros (r & I & H). rewrite unit_ranges_sorted. apply (ci_lower _ _ (push_sort_inv _ extents_bounds)).
    exists r. split; [|exact H]. apply kept_in. split; [exact I|]. unfold nonempty. lia.
  Qed.

  Lemma unit_covered a :
    covers (unit_ranges program l) a -> covers rs a \/ alignment_padding rs a.
  Proof.
    rewrite unit_ranges_sorted. intros C. destruct (ci_upper _ _ (push_sort_inv _ extents_bounds) a C)
      as [(r & I & H)|(p & q & Ip & Iq & H)].
    - left. exists r. apply kept_in in I. tauto.
    - right. exists p, q. apply kept_in in Ip. apply kept_in in Iq. tauto.
  Qed.

  Lemma unit_canonical : canonical (unit_ranges program l).
  Proof. rewrite unit_ranges_sorted. apply push_sort_canonical, extents_bounds. Qed.

  Lemma unit_low a :
    unit_low_pc program l = Some a <->
    covers rs a /\ forall b, covers rs b -> a <= b.
  Proof.
    unfold unit_low_pc. pose proof unit_canonical as [Cn Cs].
    destruct (unit_ranges program l) as [|p ps] eqn:E.
    - split; [discriminate|]. intros [C _]. apply unit_covers in C as (r & I & _). rewrite E in I. destruct I.
    - assert (P : covers rs (rbegin p)).
      { destruct (ci_begin _ _ (push_sort_inv _ extents_bounds) p) as (q & I & N & Q).
        - rewrite <- unit_ranges_sorted, E. now left.
        - exists q. apply kept_in in I as [I _]. unfold nonempty in N. split; [exact I|]. lia. }
      assert (Least : forall b, covers rs b -> rbegin p <= b).
      { intros b C. apply unit_covers in C as (q & I & H). rewrite E in I. destruct I as [<-|I]; [lia|].
        apply StronglySorted_inv in Cs as [_ F]. rewrite Forall_forall in F. specialize (F q I).
        inversion Cn as [|? ? Np _]; subst. unfold separated, nonempty in *. lia. }
      split.
      + intros H. injection H as <-. auto.
      + intros [C M]. f_equal. apply N.le_antisymm; [now apply Least|now apply M].
  Qed.
End UnitRanges.

(** ** Units *)

Lemma to_unit_offset_iff o u x :
  to_unit_offset o u = Some x <-> inside_unit o u /\ x = o - ud_begin u.
Proof.
  unfold to_unit_offset, inside_unit.
  destruct (N.leb_spec (ud_begin u + ud_first u) o), (N.ltb_spec o (ud_end u)); cbn [andb];
    split; try discriminate; intros H'; try lia.
  - injection H' as <-. auto.
  - now destruct H' as [_ ->].
Qed.

Lemma find_unit_sound us o u x :
  find_unit us o = Some (u, x) -> In u us /\ inside_unit o u /\ o = ud_begin u + x.
Proof.
  induction us as [|v us IH]; cbn [find_unit]; [discriminate|].
  destruct (to_unit_offset o v) as [y|] eqn:E.
  - intros H. injection H as <- <-. apply to_unit_offset_iff in E as [I ->].
    split; [now left|]. split; [exact I|]. unfold inside_unit in I. lia.
  - intros H. apply IH in H as (I & H). split; [now right|exact H].
Qed.

Lemma find_unit_none us o : find_unit us o = None -> forall u, In u us -> ~ inside_unit o u.
Proof.
  induction us as [|v us IH]; cbn [find_unit]; intros H u []; subst.
  - destruct (to_unit_offset o u) as [y|] eqn:E; [discriminate|]. intros I.
    assert (to_unit_offset o u = Some (o - ud_begin u)) by (apply to_unit_offset_iff; auto). congruence.
  - destruct (to_unit_offset o v); [discriminate|]. now apply IH.
Qed.

Lemma inside_unique us o u v :
  units_apart us -> In u us -> In v us -> inside_unit o u -> inside_unit o v -> u = v.
Proof.
  intros [P _] Iu Iv Hu Hv. unfold inside_unit in *.
  destruct (ForallOrdPairs_In P u v Iu Iv) as [E|[E|E]]; [exact E| |]; lia.
Qed.

(** ** Enumerators *)

Lemma unsigned_iff e : is_unsigned e = true <-> In e unsigned_encodings.
Proof. destruct e; cbn; intuition discriminate. Qed.

Lemma sign_extend_means k n :
  (0 < k)%nat -> n < 256 ^ N.of_nat k -> const_means false (FixedData k n) (EvSigned (sign_extend k n)).
Proof.
  intros K B.
  assert (P : (Z.of_N (256 ^ N.of_nat k) = 2 ^ (8 * Z.of_nat k))%Z).
  { rewrite N2Z.inj_pow, nat_N_Z. change (Z.of_N 256) with (2 ^ 8)%Z. rewrite <- Z.pow_mul_r; lia. }
  assert (Hb : (Z.of_N n < 2 ^ (8 * Z.of_nat k))%Z) by lia.
  assert (Q : (2 ^ (8 * Z.of_nat k) = 2 * 2 ^ (8 * Z.of_nat k - 1))%Z).
  { replace (8 * Z.of_nat k)%Z with (Z.succ (8 * Z.of_nat k - 1)) at 1 by lia. apply Z.pow_succ_r. lia. }
  unfold sign_extend. replace (Z.of_nat (8 * k)) with (8 * Z.of_nat k)%Z by lia.
  destruct (Z.leb_spec (2 ^ (8 * Z.of_nat k - 1)) (Z.of_N n)).
  - apply (cm_fixed_signed _ _ _ 1); lia.
  - apply (cm_fixed_signed _ _ _ 0); lia.
Qed.

Definition const_value (unsigned : bool) (c : const_form) : option enumerator_value :=
  if unsigned then option_map EvUnsigned (udata_value c) else option_map EvSigned (sdata_value c).

Lemma const_value_iff unsigned c v :
  const_sane c -> (const_value unsigned c = Some v <-> const_means unsigned c v).
Proof.
  intros Sane. unfold const_value. split.
  - destruct unsigned, c as [k n|z|n|]; cbn; try discriminate.
    + intros H. injection H as <-. constructor.
    + destruct (Z.ltb_spec z 0); [discriminate|]. intros H'. injection H' as <-.
      rewrite <- (Z2N.id z) at 1 by assumption. constructor.
    + intros H. injection H as <-. constructor.
    + intros H. injection H as <-. destruct Sane as [K B]. apply sign_extend_means; [cbn in K; lia|exact B].
    + intros H. injection H as <-. constructor.
    + destruct (N.ltb_spec n 9223372036854775808); [|discriminate]. intros H'. injection H' as <-.
      now constructor.
  - intros M. destruct M as [k n|k n z m E B|z|n|n|n B]; cbn; try reflexivity.
    + do 2 f_equal. cbn in Sane. destruct Sane as [K Bn].
      pose proof (sign_extend_means k n ltac:(cbn in K; lia) Bn) as M. inversion M as [|? ? ? m' E' B'| | | |]; subst.
      enough (m = m') by (subst; lia). nia.
    + destruct (Z.ltb_spec (Z.of_N n) 0); [lia|]. now rewrite N2Z.id.
    + change (2 ^ 63) with 9223372036854775808 in B. now rewrite (proj2 (N.ltb_lt _ _) B).
Qed.

Definition attrs_sane (attrs : list enumerator_attr) : Prop := forall c, In (EnConst c) attrs -> const_sane c.

Lemma app_snoc_eq {A} (l : list A) x before y after :
  l ++ [x] = before ++ y :: after ->
  (after = [] /\ x = y /\ l = before) \/ (exists after', after = after' ++ [x] /\ l = before ++ y :: after').
Proof.
  intros E. destruct after as [|z after] using rev_ind.
  - left. apply app_inj_tail in E. intuition.
  - clear IHafter. right. exists after. change (before ++ y :: after ++ [z]) with (before ++ (y :: after) ++ [z]) in E.
    rewrite app_assoc in E. apply app_inj_tail in E as [E ->]. auto.
Qed.

Lemma parse_enumerator_of e attrs :
  attrs_sane attrs -> enumerator_of (is_unsigned e) attrs (parse_enumerator e attrs).
Proof.
  unfold parse_enumerator. induction attrs as [|a attrs IH] using rev_ind; intros Sane.
  - split; try reflexivity; intros [|] ? ?; discriminate.
  - destruct IH as [N1 N2 V1 V2]; [intros c I; apply Sane, in_app_iff; now left|].
    rewrite fold_left_app. cbn [fold_left].
    set (x := fold_left _ attrs _) in *.
    assert (Sc : forall c, a = EnConst c -> const_sane c).
    { intros c ->. apply Sane, in_app_iff. right. now left. }
    assert (NoLast : forall (P : enumerator_attr -> Prop), (forall y, In y (attrs ++ [a]) -> P y) -> P a /\ forall y, In y attrs -> P y).
    { intros P H. split; [apply H, in_app_iff; right; now left|]. intros y I. apply H, in_app_iff. now left. }
    destruct a as [v|c|].
    + (* a name *)
      cbn [en_name en_value]. split; cbn [en_name en_value].
      * intros before v' after E H. apply app_snoc_eq in E as [(-> & [= ->] & _)|(after' & -> & _)]; [reflexivity|].
        destruct (H v). apply in_app_iff. right. now left.
      * intros H. destruct (H v). apply in_app_iff. right. now left.
      * intros before c after v' E M H. apply app_snoc_eq in E as [(_ & E & _)|(after' & -> & E)]; [discriminate|].
        apply (V1 before c after' v' E M). intros c' v'' I. apply H, in_app_iff. now left.
      * intros H. apply V2. intros c v' I. apply H, in_app_iff. now left.
    + (* a constant *)
      fold (const_value (is_unsigned e) c).
      assert (K : en_name match const_value (is_unsigned e) c with
                          | Some v => mkEnumerator (en_name x) v | None => x end = en_name x)
        by (destruct (const_value (is_unsigned e) c); reflexivity).
      split.
      * intros before v' after E H. rewrite K.
        apply app_snoc_eq in E as [(_ & E & _)|(after' & -> & E)]; [discriminate|].
        apply (N1 before v' after' E). intros y I. apply (H y), in_app_iff. now left.
      * intros H. rewrite K. apply N2. intros y I. apply (H y), in_app_iff. now left.
      * intros before c' after v' E M H. apply app_snoc_eq in E as [(-> & [= ->] & _)|(after' & -> & E)].
        -- rewrite (proj2 (const_value_iff _ _ _ (Sc _ eq_refl)) M). reflexivity.
        -- destruct (const_value (is_unsigned e) c) as [w|] eqn:C.
           ++ apply const_value_iff in C; [|now apply Sc]. destruct (H c w); [|exact C].
              apply in_app_iff. right. now left.
           ++ apply (V1 before c' after' v' E M). intros c'' v'' I. apply H, in_app_iff. now left.
      * intros H. destruct (const_value (is_unsigned e) c) as [w|] eqn:C.
        -- apply const_value_iff in C; [|now apply Sc]. destruct (H c w); [|exact C].
           apply in_app_iff. right. now left.
        -- apply V2. intros c' v' I. apply H, in_app_iff. now left.
    + (* something else *)
      split.
      * intros before v' after E H. apply app_snoc_eq in E as [(_ & E & _)|(after' & -> & E)]; [discriminate|].
        apply (N1 before v' after' E). intros y I. apply (H y), in_app_iff. now left.
      * intros H. apply N2. intros y I. apply (H y), in_app_iff. now left.
      * intros before c' after v' E M H. apply app_snoc_eq in E as [(_ & E & _)|(after' & -> & E)]; [discriminate|].
        apply (V1 before c' after' v' E M). intros c'' v'' I. apply H, in_app_iff. now left.
      * intros H. apply V2. intros c' v' I. apply H, in_app_iff. now left.
Qed.

Lemma parse_enumerators_of e children :
  (forall attrs, In (Some attrs) children -> attrs_sane attrs) ->
  Forall2 (enumerator_of (is_unsigned e))
    (flat_map (fun c => match c with Some attrs => [attrs] | None => [] end) children)
    (parse_enumerators e children).
Proof.
  unfold parse_enumerators. induction children as [|c children IH]; intros S; [constructor|].
  cbn [flat_map]. destruct c as [attrs|]; cbn [app].
  - constructor; [apply parse_enumerator_of, S; now left|]. apply IH. intros a I. apply S. now right.
  - apply IH. intros a I. apply S. now right.
Qed.
