(** Proofs about address attribution, segment data and lookups. *)
From Coq Require Import List Arith NArith Lia Bool String Sorted Permutation.
From Coq Require Import ZifyBool ZifyNat ZifyN.
From Verif Require Import Base BaseProofs RangeModel RangeSpec RangeProofs TypeModel LayoutModel
  FileModel FileSpec SymbolProofs.
Import ListNotations.
Local Open Scope N_scope.

(** ** What sorting a range list adds *)

(** [a] lies in a gap of [rs] that ends at a 16-byte boundary and starts at most
    15 bytes before it. *)
Definition padding_gap (rs : list range) (a : N) : Prop :=
  exists p q, In p rs /\ In q rs /\ nonempty p /\ nonempty q /\
    rend p <= a < rbegin q /\ rbegin q <= rend p + 15 /\ rbegin q mod 16 = 0 /\
    forall y, In y rs -> nonempty y -> a < rbegin y -> rbegin q <= rbegin y.

Lemma push_sorted_gap rs l r a :
  in_bounds r -> Forall in_bounds l -> coverage_inv rs l -> canonical l ->
  (forall y, In y rs -> rbegin y <= rbegin r) ->
  (covers l a -> covers rs a \/ padding_gap rs a) ->
  covers (push l r) a -> covers (rs ++ [r]) a \/ padding_gap (rs ++ [r]) a.
Proof.
  intros Br Bl I C Hle IH H.
  assert (Old : covers l a -> covers (rs ++ [r]) a \/ padding_gap (rs ++ [r]) a).
  { intros Ca. apply IH in Ca as [Ca|(p & q & Hp & Hq & Np & Nq & H1 & H2 & H3 & H4)].
    - left. apply covers_app. now left.
    - right. exists p, q. rewrite !in_app_iff. repeat (split; [auto; fail|]).
      intros y Hy Ny Ha. apply in_app_iff in Hy as [Hy|[<-|[]]]; auto. }
  unfold push in H. destruct (N.leb_spec (rend r) (rbegin r)) as [E|E]; [auto|].
  destruct (push_last_case l r Bl) as [|l p M|l p M].
  - apply covers_cons in H as [H|H]; [|now apply covers_nil in H].
    left. apply covers_app. right. apply covers_cons. now left.
  - apply covers_app in H as [H|H].
    { apply Old. apply covers_app. now left. }
    apply covers_cons in H as [H|H]; [|now apply covers_nil in H].
    rewrite rend_merged in H. cbn [merged rbegin] in H.
    destruct (N.lt_ge_cases a (rend p)) as [La|La].
    { apply Old. apply covers_app. right. apply covers_cons. left. lia. }
    destruct (N.le_gt_cases (rbegin r) a) as [Lr|Lr].
    { left. apply covers_app. right. apply covers_cons. left. lia. }
    right. destruct M as [M1 M2].
    destruct (ci_end _ _ I p) as (p' & Hp' & Np' & Ep').
    { apply in_app_iff. right. now left. }
    exists p', r. rewrite !in_app_iff. split; [auto|]. split; [right; now left|].
    split; [auto|]. split; [exact E|]. split; [lia|]. split; [lia|]. split; [lia|].
    intros y Hy Ny Ha. apply in_app_iff in Hy as [Hy|[<-|[]]]; [|lia]. exfalso.
    assert (Cy : covers (l ++ [p]) (rbegin y)).
    { apply (ci_lower _ _ I). exists y. unfold nonempty in Ny. split; auto. lia. }
    destruct C as [_ S]. apply StronglySorted_app in S as (_ & _ & S).
    apply covers_app in Cy as [(z & Hz & Hz')|Cy].
    + specialize (S z p Hz (or_introl eq_refl)). destruct S as [S _].
      apply Forall_app in Bl. destruct Bl as [_ Bp].
      assert (rbegin p < rend p).
      { pose proof (ci_nonempty _ _ I) as Nn. apply Forall_app in Nn as [_ Nn]. now inversion Nn. }
      lia.
    + apply covers_cons in Cy as [Cy|Cy]; [lia|now apply covers_nil in Cy].
  - apply covers_app in H as [H|H].
    { apply Old. apply covers_app. now left. }
    apply covers_cons in H as [H|H].
    { apply Old. apply covers_app. right. apply covers_cons. now left. }
    left. apply covers_app. now right.
Qed.

Lemma push_all_sorted_gap rs rs0 l a :
  Forall in_bounds rs -> Forall in_bounds l -> coverage_inv rs0 l -> canonical l ->
  StronglySorted (le_cmp begin_le) rs ->
  (forall y r, In y rs0 -> In r rs -> rbegin y <= rbegin r) ->
  (covers l a -> covers rs0 a \/ padding_gap rs0 a) ->
  covers (push_all l rs) a -> covers (rs0 ++ rs) a \/ padding_gap (rs0 ++ rs) a.
Proof.
  intros B. revert rs0 l. induction B as [|r rs Br B IH]; intros rs0 l Bl I C S Hle H0 H.
  - rewrite app_nil_r. auto.
  - cbn [push_all fold_left] in H. fold (push_all (push l r) rs) in H.
    change (r :: rs) with ([r] ++ rs). rewrite app_assoc.
    inversion S as [|? ? S' F]; subst. rewrite Forall_forall in F.
    assert (I' : coverage_inv (rs0 ++ [r]) (push l r)) by now apply push_inv.
    apply (IH (rs0 ++ [r]) (push l r)); auto.
    + apply (ci_bounds _ _ I').
    + apply push_canonical; auto. intros p Hp.
      destruct (ci_begin _ _ I p Hp) as (q & Hq & _ & <-). apply Hle; auto. now left.
    + intros y z Hy Hz. apply in_app_iff in Hy as [Hy|[<-|[]]].
      * apply Hle; auto. now right.
      * apply F in Hz. exact Hz.
    + apply push_sorted_gap; auto. intros y Hy. apply Hle; auto. now left.
Qed.

Lemma rl_sort_covers m a :
  Forall in_bounds m -> covers (rl_sort m) a <-> covers m a \/ padding_gap m a.
Proof.
  intros B. split.
  - intros H. unfold rl_sort in H.
    pose proof (stable_sort_perm begin_le m) as P.
    apply (push_all_sorted_gap _ [] []) in H; cbn [app] in *; auto using coverage_inv_nil, canonical_nil.
    + destruct H as [H|H].
      * left. eapply covers_perm; [exact P|exact H].
      * right. destruct H as (p & q & Hp & Hq & H1 & H2 & H3 & H4 & H5 & H6).
        exists p, q. split; [eapply Permutation_in; eauto|].
        split; [eapply Permutation_in; eauto|]. do 5 (split; [assumption|]).
        intros y Hy. apply H6. eapply Permutation_in; [symmetry; exact P|exact Hy].
    + eapply Permutation_Forall; [symmetry; exact P|exact B].
    + apply stable_sort_sorted, begin_le_tp.
    + intros y r [].
  - pose proof (rl_sort_inv m B) as I. intros [H|H]; [now apply (ci_lower _ _ I)|].
    destruct H as (p & q & Hp & Hq & Np & Nq & H1 & H2 & H3 & H4). unfold nonempty in *.
    destruct (ci_lower _ _ I (rend p - 1)) as (P & HP & HP'). { exists p. split; auto. lia. }
    destruct (ci_lower _ _ I (rbegin q)) as (Q & HQ & HQ'). { exists q. split; auto. lia. }
    destruct (N.lt_ge_cases a (rend P)) as [?|LP]. { exists P. split; auto. lia. }
    destruct (N.le_gt_cases (rbegin Q) a) as [?|LQ]. { exists Q. split; auto. lia. }
    exfalso. destruct (ci_begin _ _ I Q HQ) as (y & Hy & Ny & Ey).
    specialize (H4 y Hy Ny). 
    destruct (rl_sort_canonical m B) as [_ S].
    destruct (StronglySorted_trichotomy _ _ P Q S HP HQ) as [->|[X|X]];
      unfold separated in *; lia.
Qed.

(** ** Ranges of units and files *)

Definition unit_in_bounds (bs : type_sizes) (u : unit) : Prop :=
  Forall in_bounds (un_ranges u) /\
  Forall in_bounds (flat_map fn_ranges (un_functions u)) /\
  Forall in_bounds (var_ranges bs (un_variables u)).

(** What [Unit::ranges] pushes. *)
Definition item_ranges (bs : type_sizes) (u : unit) : list range :=
  flat_map fn_ranges (un_functions u) ++ var_ranges bs (un_variables u).

Lemma unit_ranges_eq bs u : unit_ranges bs u = rl_sort (push_all [] (item_ranges bs u)).
Proof. unfold unit_ranges, item_ranges. now rewrite push_all_app. Qed.

Lemma item_in_bounds bs u : unit_in_bounds bs u -> Forall in_bounds (item_ranges bs u).
Proof. intros (_ & A & B). apply Forall_app. auto. Qed.

Lemma unit_ranges_inv bs u :
  unit_in_bounds bs u -> coverage_inv (item_ranges bs u) (unit_ranges bs u).
Proof. intros H. rewrite unit_ranges_eq. apply push_sort_inv, item_in_bounds, H. Qed.

Lemma unit_ranges_canonical bs u : unit_in_bounds bs u -> canonical (unit_ranges bs u).
Proof. intros H. rewrite unit_ranges_eq. apply push_sort_canonical, item_in_bounds, H. Qed.

Lemma own_ranges_inv bs u :
  unit_in_bounds bs u -> coverage_inv (un_ranges u) (rl_sort (push_all [] (un_ranges u))).
Proof. intros (A & _). now apply push_sort_inv. Qed.

Lemma unit_unknown_bounds bs u :
  unit_in_bounds bs u ->
  Forall in_bounds (unit_unknown_ranges bs u) /\ canonical (unit_unknown_ranges bs u).
Proof.
  intros H. pose proof H as (A & _).
  pose proof (canonical_ascending _ (unit_ranges_canonical bs u H)) as Ao.
  pose proof (canonical_ascending _ (push_sort_canonical _ A)) as As.
  pose proof (ci_bounds _ _ (own_ranges_inv bs u H)) as B.
  split.
  - apply (ci_bounds _ _ (subtract_inv _ _ As Ao B)).
  - now apply subtract_canonical.
Qed.

(** What a unit says it covers. *)
Definition unit_covers (bs : type_sizes) (u : unit) (a : N) : Prop :=
  covers (unit_ranges bs u) a \/ covers (unit_unknown_ranges bs u) a.

Lemma unit_covers_own bs u a :
  unit_in_bounds bs u -> covers (un_ranges u) a -> unit_covers bs u a.
Proof.
  intros H C. pose proof H as (A & _).
  destruct (existsb (fun r => (rbegin r <=? a) && (a <? rend r)) (unit_ranges bs u)) eqn:E.
  - left. apply existsb_exists in E as (r & ? & E). exists r. split; auto. lia.
  - right. apply subtract_lower.
    + apply canonical_ascending, push_sort_canonical, A.
    + apply canonical_ascending, unit_ranges_canonical, H.
    + apply (ci_bounds _ _ (own_ranges_inv bs u H)).
    + split; [apply (ci_lower _ _ (own_ranges_inv bs u H)), C|].
      intros (r & Hr & ?).
      assert (existsb (fun r => (rbegin r <=? a) && (a <? rend r)) (unit_ranges bs u) = true);
        [|congruence].
      apply existsb_exists. exists r. split; auto. lia.
Qed.

Lemma unit_covers_items bs u a :
  unit_in_bounds bs u -> covers (item_ranges bs u) a -> unit_covers bs u a.
Proof. intros H C. left. apply (ci_lower _ _ (unit_ranges_inv bs u H)), C. Qed.

(** What [File::ranges] pushes. *)
Definition pushed_ranges (bs : type_sizes) (units : list unit) : list range :=
  flat_map (fun u => unit_ranges bs u ++ unit_unknown_ranges bs u) units.

Lemma file_ranges_eq bs units :
  file_ranges bs units = rl_sort (push_all [] (pushed_ranges bs units)).
Proof.
  unfold file_ranges. f_equal. generalize (@nil range).
  induction units as [|u units IH]; intros acc; cbn [fold_left pushed_ranges flat_map]; [reflexivity|].
  rewrite IH. fold (pushed_ranges bs units). now rewrite !push_all_app.
Qed.

Lemma pushed_in_bounds bs units :
  Forall (unit_in_bounds bs) units -> Forall in_bounds (pushed_ranges bs units).
Proof.
  intros H. apply Forall_forall. intros r Hr. apply in_flat_map in Hr as (u & Hu & Hr).
  rewrite Forall_forall in H. apply H in Hu.
  apply in_app_iff in Hr as [Hr|Hr].
  - pose proof (ci_bounds _ _ (unit_ranges_inv bs u Hu)) as B. rewrite Forall_forall in B. auto.
  - pose proof (proj1 (unit_unknown_bounds bs u Hu)) as B. rewrite Forall_forall in B. auto.
Qed.

Lemma file_ranges_inv bs units :
  Forall (unit_in_bounds bs) units ->
  coverage_inv (pushed_ranges bs units) (file_ranges bs units).
Proof. intros H. rewrite file_ranges_eq. now apply push_sort_inv, pushed_in_bounds. Qed.

Lemma file_ranges_canonical bs units :
  Forall (unit_in_bounds bs) units -> canonical (file_ranges bs units).
Proof. intros H. rewrite file_ranges_eq. now apply push_sort_canonical, pushed_in_bounds. Qed.

Lemma pushed_covers bs units a :
  covers (pushed_ranges bs units) a <-> exists u, In u units /\ unit_covers bs u a.
Proof.
  unfold pushed_ranges, unit_covers. split.
  - intros (r & Hr & ?). apply in_flat_map in Hr as (u & Hu & Hr). exists u. split; auto.
    apply in_app_iff in Hr as [Hr|Hr]; [left|right]; exists r; auto.
  - intros (u & Hu & [(r & Hr & ?)|(r & Hr & ?)]); exists r; (split; [|auto]);
      apply in_flat_map; exists u; rewrite in_app_iff; auto.
Qed.

(** ** Normalisation *)

Lemma new_fn_ranges l f : fn_ranges (new_fn l f) = fn_ranges f.
Proof.
  unfold new_fn. destruct (opt64_get (fn_address f)); [|reflexivity].
  destruct (pick_symbol _ _); reflexivity.
Qed.

Lemma new_va_range bs l v : var_range bs (new_va l v) = var_range bs v.
Proof.
  unfold new_va. destruct (opt64_get (va_address v)); [|reflexivity].
  destruct (pick_symbol _ _); reflexivity.
Qed.

Lemma new_un_in_bounds bs l u : unit_in_bounds bs u -> unit_in_bounds bs (new_un l u).
Proof.
  intros (A & B & C). split; [exact A|]. cbn [new_un un_functions un_variables]. split.
  - rewrite flat_map_concat_map in *. rewrite map_map.
    now rewrite (map_ext _ _ (new_fn_ranges l)).
  - unfold var_ranges in *. rewrite flat_map_concat_map in *. rewrite map_map.
    rewrite (map_ext _ (fun v => opt_list (var_range bs v))); auto.
    intros v. now rewrite new_va_range.
Qed.

Lemma symbol_in_bounds_range s : symbol_in_bounds s -> in_bounds (symbol_range s).
Proof. intros H. rewrite symbol_range_plain by auto. exact H. Qed.

Lemma symtab_in_bounds bs l addrs :
  Forall symbol_in_bounds l -> unit_in_bounds bs (symtab_unit l (flags addrs l)).
Proof.
  intros B. rewrite symtab_unit_spec.
  set (un := filter (unused addrs) l).
  assert (Bu : forall s, In s un -> symbol_in_bounds s).
  { intros s H. apply filter_In in H as [H _]. rewrite Forall_forall in B. auto. }
  split; [|split]; cbn [un_ranges un_functions un_variables].
  - apply (ci_bounds (map symbol_range un)). apply push_sort_inv.
    apply Forall_forall. intros r H. apply in_map_iff in H as (s & <- & H).
    auto using symbol_in_bounds_range.
  - apply Forall_forall. intros r H. apply in_flat_map in H as (f & Hf & H).
    apply in_map_iff in Hf as (s & <- & Hs). apply filter_In in Hs as [Hs _].
    cbn [symbol_function fn_ranges] in H. destruct (0 <? sy_size s); [|destruct H].
    destruct H as [<-|[]]. auto using symbol_in_bounds_range.
  - apply Forall_forall. intros r H. apply in_flat_map in H as (v & Hv & H).
    apply in_map_iff in Hv as (s & <- & Hs). apply filter_In in Hs as [Hs _].
    apply Bu in Hs. destruct (symbol_opt64 s Hs) as [Ea Es].
    assert (E : var_range bs (symbol_variable s) =
                if sy_size s =? 0 then None else Some (symbol_range s)).
    { unfold var_range, var_byte_size, symbol_variable. cbn [va_address va_size].
      rewrite Ea. unfold opt64_is_some. unfold opt64_get, opt64_is_none in Es |- *.
      destruct (sy_size s =? opt64_none); [discriminate|]. reflexivity. }
    rewrite E in H. destruct (sy_size s =? 0); [destruct H|].
    destruct H as [<-|[]]. auto using symbol_in_bounds_range.
Qed.

(** ** Sections and variables take up the addresses they should *)

Lemma section_ranges_eq l :
  Forall in_bounds (section_spans l) -> section_ranges l = section_spans l.
Proof.
  induction l as [|s l IH]; cbn [section_ranges section_spans flat_map]; intros H; [reflexivity|].
  apply Forall_app in H as [H1 H2]. f_equal; [|now apply IH].
  unfold section_address. destruct (se_address s) as [b|]; [|reflexivity]. cbn.
  inversion H1 as [|r rs B _]. unfold in_bounds in B. cbn in B. unfold add64.
  rewrite wrap64_small by (rewrite two64_eq; lia). reflexivity.
Qed.

Lemma var_byte_size_eq bs v :
  var_byte_size bs v = match opt64_get (va_size v) with Some n => Some n | None => bs (va_ty v) end.
Proof.
  unfold var_byte_size, opt64_is_some, opt64_get, opt64_is_none.
  destruct (va_size v =? opt64_none); reflexivity.
Qed.

Lemma var_ranges_eq bs l :
  Forall in_bounds (var_spans bs l) -> var_ranges bs l = var_spans bs l.
Proof.
  induction l as [|v l IH]; cbn [var_ranges var_spans flat_map]; intros H; [reflexivity|].
  apply Forall_app in H as [H1 H2]. f_equal; [|now apply IH].
  unfold var_range. rewrite var_byte_size_eq.
  destruct (opt64_get (va_address v)) as [b|]; [|reflexivity].
  destruct (match opt64_get (va_size v) with Some n => Some n | None => bs (va_ty v) end)
    as [n|]; [|reflexivity].
  destruct (n =? 0); [reflexivity|].
  inversion H1 as [|r rs B _]. unfold in_bounds in B. cbn [rend] in B.
  unfold add64. rewrite wrap64_small by (rewrite two64_eq; lia). reflexivity.
Qed.

(** [file_in_bounds] in terms of the model's ranges. *)
Definition file_ok (bs : type_sizes) (f : file) : Prop :=
  Forall in_bounds (section_ranges (fl_sections f)) /\
  Forall symbol_in_bounds (fl_symbols f) /\
  forall u, In u (fl_units f) -> unit_in_bounds bs u.

Lemma file_in_bounds_ok bs f : file_in_bounds bs f -> file_ok bs f.
Proof.
  intros (A & B & C). split; [now rewrite section_ranges_eq|]. split; [assumption|].
  intros u Hu. destruct (C u Hu) as (C1 & C2 & C3). split; [assumption|]. split; [assumption|].
  now rewrite var_ranges_eq.
Qed.

Section Normalized.
  Variable choice : N -> nat.
  Variable bs : type_sizes.
  Variable f : file.
  Hypothesis B : file_ok bs f.

  Let l := sort_symbols (fl_symbols f).
  Let units1 := map (new_un l) (fl_units f) ++
                [symtab_unit l (flags (flat_map un_addrs (fl_units f)) l)].
  Let f1 := mkFile (fl_segments f) (fl_sections f) l units1.
  Let unk := unknown_unit (file_unknown_ranges bs f1).

  Lemma normalized_eq :
    normalize choice bs f = mkFile (fl_segments f) (fl_sections f) l (units1 ++ [unk]).
  Proof. apply normalize_eq. Qed.

  Lemma units1_in_bounds : Forall (unit_in_bounds bs) units1.
  Proof.
    destruct B as (_ & Bs & Bu). apply Forall_app. split.
    - apply Forall_forall. intros w H. apply in_map_iff in H as (u & <- & H).
      apply new_un_in_bounds. exact (Bu u H).
    - constructor; [|constructor]. apply symtab_in_bounds.
      eapply Permutation_Forall; [symmetry; apply sort_symbols_perm|exact Bs].
  Qed.

  Let secs := rl_sort (push_all [] (section_ranges (fl_sections f))).

  Lemma secs_ascending : ascending secs.
  Proof. apply canonical_ascending, push_sort_canonical. apply (proj1 B). Qed.

  Lemma secs_in_bounds : Forall in_bounds secs.
  Proof. apply (ci_bounds _ _ (push_sort_inv _ (proj1 B))). Qed.

  Lemma unk_ranges_inv :
    coverage_inv (loop_pieces secs (file_ranges bs units1)) (un_ranges unk).
  Proof.
    apply subtract_inv; auto using secs_ascending, secs_in_bounds.
    apply canonical_ascending, file_ranges_canonical, units1_in_bounds.
  Qed.

  Lemma unk_in_bounds : unit_in_bounds bs unk.
  Proof.
    split; [apply (ci_bounds _ _ unk_ranges_inv)|]. split; constructor.
  Qed.

  Lemma all_in_bounds : Forall (unit_in_bounds bs) (units1 ++ [unk]).
  Proof. apply Forall_app. split; [apply units1_in_bounds|]. repeat constructor. all: apply unk_in_bounds. Qed.

  Lemma covers_dec rs a : covers rs a \/ ~ covers rs a.
  Proof.
    destruct (existsb (fun r => (rbegin r <=? a) && (a <? rend r)) rs) eqn:E.
    - left. apply existsb_exists in E as (r & ? & E). exists r. split; auto. lia.
    - right. intros (r & Hr & ?).
      assert (existsb (fun r => (rbegin r <=? a) && (a <? rend r)) rs = true); [|congruence].
      apply existsb_exists. exists r. split; auto. lia.
  Qed.

  Lemma secs_split a :
    covers secs a -> covers (file_ranges bs units1) a \/ unit_covers bs unk a.
  Proof.
    intros C. destruct (covers_dec (file_ranges bs units1) a) as [D|D]; [now left|right].
    apply unit_covers_own; [apply unk_in_bounds|]. cbn [unk un_ranges unknown_unit].
    apply subtract_lower; auto using secs_ascending, secs_in_bounds.
    - apply canonical_ascending, file_ranges_canonical, units1_in_bounds.
    - split; auto.
  Qed.

  Lemma unk_pushed_begin r :
    In r (unit_ranges bs unk ++ unit_unknown_ranges bs unk) ->
    ~ covers (file_ranges bs units1) (rbegin r).
  Proof.
    intros H. apply in_app_iff in H as [H|H].
    { destruct H. }
    assert (E : unit_ranges bs unk = []) by reflexivity.
    pose proof (ci_bounds _ _ unk_ranges_inv) as Bk.
    pose proof (canonical_ascending _ (push_sort_canonical _ Bk)) as As.
    assert (Ao : ascending (unit_ranges bs unk)) by (rewrite E; split; constructor).
    pose proof (ci_bounds _ _ (push_sort_inv _ Bk)) as Bk'.
    destruct (ci_begin _ _ (subtract_inv _ _ As Ao Bk') r H) as (q & Hq & _ & <-).
    apply (loop_pieces_spec _ _ As Ao) in Hq as (_ & s & Hs & _ & _ & [Eq|(x & Hx & _)]).
    2:{ rewrite E in Hx. destruct Hx. }
    rewrite Eq. destruct (ci_begin _ _ (push_sort_inv _ Bk) s Hs) as (t & Ht & _ & <-).
    destruct (ci_begin _ _ unk_ranges_inv t Ht) as (w & Hw & Nw & <-).
    assert (Af : ascending (file_ranges bs units1))
      by apply canonical_ascending, file_ranges_canonical, units1_in_bounds.
    assert (K : covers (loop_pieces secs (file_ranges bs units1)) (rbegin w)).
    { exists w. unfold nonempty in Nw. split; auto. lia. }
    apply (loop_pieces_spec _ _ secs_ascending Af) in K. apply K.
  Qed.

  Lemma file_ranges_mono a :
    covers (file_ranges bs units1) a -> covers (file_ranges bs (units1 ++ [unk])) a.
  Proof.
    intros Ca. pose proof Ca as Ca'. rewrite file_ranges_eq in Ca'.
    set (ps := pushed_ranges bs units1) in *.
    set (us := unit_ranges bs unk ++ unit_unknown_ranges bs unk).
    assert (EL : file_ranges bs (units1 ++ [unk]) = rl_sort (push_all (push_all [] ps) us)).
    { rewrite file_ranges_eq. unfold pushed_ranges. rewrite flat_map_app. cbn [flat_map].
      rewrite app_nil_r. now rewrite push_all_app. }
    rewrite EL.
    assert (Bps : Forall in_bounds ps) by apply pushed_in_bounds, units1_in_bounds.
    assert (Bus : Forall in_bounds us).
    { pose proof (pushed_in_bounds bs _ all_in_bounds) as X. unfold pushed_ranges in X.
      rewrite flat_map_app in X. cbn [flat_map] in X. rewrite app_nil_r in X.
      now apply Forall_app in X. }
    assert (I1 : coverage_inv ps (push_all [] ps))
      by (apply (push_all_inv _ [] []); auto using coverage_inv_nil).
    set (m1 := push_all [] ps) in *.
    assert (Bm1 : Forall in_bounds m1) by apply (ci_bounds _ _ I1).
    assert (Im : coverage_inv (m1 ++ us) (push_all m1 us)).
    { apply push_all_inv; auto. split; auto.
      - apply (ci_nonempty _ _ I1).
      - intros p Hp. exists p. split; auto. split; auto.
        pose proof (ci_nonempty _ _ I1) as N. rewrite Forall_forall in N. auto.
      - intros p Hp. exists p. split; auto. split; auto.
        pose proof (ci_nonempty _ _ I1) as N. rewrite Forall_forall in N. auto. }
    set (m := push_all m1 us) in *.
    assert (Bm : Forall in_bounds m) by apply (ci_bounds _ _ Im).
    apply (rl_sort_covers m1 a Bm1) in Ca' as [H|H].
    { apply (ci_lower _ _ (rl_sort_inv m Bm)), (ci_lower _ _ Im), covers_app. now left. }
    pose proof H as Gap.
    destruct H as (p & q & Hp & Hq & Np & Nq & H1 & H2 & H3 & H4). unfold nonempty in *.
    pose proof (rl_sort_inv m Bm) as IL.
    pose proof (coverage_inv_trans _ _ _ Im IL) as IL'.
    destruct (ci_lower _ _ IL' (rend p - 1)) as (P & HP & HP').
    { apply covers_app. left. exists p. split; [assumption|lia]. }
    destruct (ci_lower _ _ IL' (rbegin q)) as (Q & HQ & HQ').
    { apply covers_app. left. exists q. split; [assumption|lia]. }
    destruct (N.lt_ge_cases a (rend P)) as [?|LP]. { exists P. split; [assumption|lia]. }
    destruct (N.le_gt_cases (rbegin Q) a) as [?|LQ]. { exists Q. split; [assumption|lia]. }
    exfalso. destruct (ci_begin _ _ IL' Q HQ) as (y & Hy & Ny & Ey).
    apply in_app_iff in Hy as [Hy|Hy].
    - specialize (H4 y Hy Ny).
      destruct (rl_sort_canonical m Bm) as [_ S].
      destruct (StronglySorted_trichotomy _ _ P Q S HP HQ) as [->|[X|X]];
        unfold separated in *; lia.
    - apply (unk_pushed_begin y Hy). rewrite file_ranges_eq. fold ps. fold m1.
      apply (rl_sort_covers m1 _ Bm1).
      destruct (N.eq_dec (rbegin y) (rbegin q)) as [Eq|Ne].
      + left. rewrite Eq. exists q. split; [assumption|lia].
      + right. exists p, q. unfold nonempty. repeat (split; [assumption || lia|]).
        intros z Hz Nz Lz. apply H4; [assumption|assumption|lia].
  Qed.

  Lemma sections_covered a :
    covers (section_ranges (fl_sections f)) a ->
    covers (file_ranges bs (fl_units (normalize choice bs f))) a.
  Proof.
    intros C. rewrite normalized_eq. cbn [fl_units].
    apply (ci_lower _ _ (push_sort_inv _ (proj1 B))) in C.
    destruct (secs_split a C) as [D|D]; [now apply file_ranges_mono|].
    apply (ci_lower _ _ (file_ranges_inv bs _ all_in_bounds)). apply pushed_covers.
    exists unk. split; auto. apply in_app_iff. right. now left.
  Qed.

  Lemma secs_covered a :
    covers secs a -> covers (file_ranges bs (fl_units (normalize choice bs f))) a.
  Proof.
    intros C. rewrite normalized_eq. cbn [fl_units].
    destruct (secs_split a C) as [D|D]; [now apply file_ranges_mono|].
    apply (ci_lower _ _ (file_ranges_inv bs _ all_in_bounds)). apply pushed_covers.
    exists unk. split; auto. apply in_app_iff. right. now left.
  Qed.

  Lemma unknown_again : file_unknown_ranges bs (normalize choice bs f) = [].
  Proof.
    unfold file_unknown_ranges. apply subtract_empty.
    - rewrite normalized_eq. apply secs_ascending.
    - rewrite normalized_eq. cbn [fl_units]. apply canonical_ascending, file_ranges_canonical, all_in_bounds.
    - rewrite normalized_eq. apply secs_in_bounds.
    - intros a C. apply secs_covered. rewrite normalized_eq in C. exact C.
  Qed.

  Lemma attribution a :
    covers (section_ranges (fl_sections f)) a ->
    (exists u, In u (fl_units (normalize choice bs f)) /\ unit_covers bs u a) \/
    alignment_padding (pushed_ranges bs (fl_units (normalize choice bs f))) a.
  Proof.
    intros C. apply sections_covered in C. rewrite normalized_eq in *. cbn [fl_units] in *.
    apply (ci_upper _ _ (file_ranges_inv bs _ all_in_bounds)) in C as [C|C]; auto.
    left. now apply pushed_covers.
  Qed.

  (** What the last unit covers, no unit before it does, nor is it padding
      between those: except for padding the last unit has itself. *)
  Lemma unknown_only a :
    covers (un_ranges unk) a ->
    (covers secs a /\ ~ covers (file_ranges bs units1) a) \/
    kept_padding secs (file_ranges bs units1) a.
  Proof.
    intros C. apply (subtract_upper secs (file_ranges bs units1)) in C.
    - exact C.
    - apply secs_ascending.
    - apply canonical_ascending, file_ranges_canonical, units1_in_bounds.
    - apply secs_in_bounds.
  Qed.
End Normalized.

(** Loading keeps the types, so sizes looked up through them do not change. *)
Lemma types_kept choice bs f :
  all_types (fl_units (normalize choice bs f)) = all_types (fl_units f).
Proof.
  rewrite normalize_eq. cbn [fl_units]. unfold all_types.
  rewrite !flat_map_app. cbn [flat_map]. rewrite symtab_unit_spec. cbn [un_types unknown_unit app].
  rewrite !app_nil_r. rewrite flat_map_concat_map, map_map, flat_map_concat_map. reflexivity.
Qed.

(** ** Segment data *)

Lemma sub64_le x y : y <= x -> x < 2 ^ 64 -> sub64 x y = x - y.
Proof.
  intros H B. unfold sub64, wrap64. rewrite two64_eq.
  rewrite (N.mod_small y) by lia.
  replace (x + 2^64 - y) with ((x - y) + 1 * 2^64) by lia.
  rewrite N.mod_add by lia. apply N.mod_small. lia.
Qed.

Lemma segment_test s r :
  segment_fits s ->
  (sg_address s <=? rbegin r)
    && (rend r <=? add64 (sg_address s) (N.of_nat (List.length (sg_bytes s)))) = true
  <-> segment_holds s r.
Proof.
  unfold segment_fits, segment_holds. intros F. unfold add64. rewrite wrap64_small by (rewrite two64_eq; lia).
  lia.
Qed.

Lemma nth_error_skipn {A} (l : list A) n i : nth_error (skipn n l) i = nth_error l (n + i).
Proof. revert l. induction n as [|n IH]; intros [|x l]; cbn; auto. now destruct i. Qed.

Lemma nth_error_firstn {A} (l : list A) n i :
  (i < n)%nat -> nth_error (firstn n l) i = nth_error l i.
Proof.
  revert l i. induction n as [|n IH]; intros [|x l] [|i] H; cbn; auto; try lia.
  apply IH. lia.
Qed.

Lemma slice_of_segment s r :
  segment_fits s -> segment_holds s r -> rbegin r <= rend r ->
  exists l, slice_bytes (sg_bytes s) (sub64 (rbegin r) (sg_address s)) (sub64 (rend r) (rbegin r))
            = BBytes l /\ bytes_of s r l.
Proof.
  unfold segment_fits, segment_holds. intros F [H1 H2] H3.
  rewrite !sub64_le by lia. unfold slice_bytes.
  destruct (N.ltb_spec (N.of_nat (List.length (sg_bytes s))) (rbegin r - sg_address s)); [lia|].
  rewrite skipn_length.
  destruct (N.ltb_spec (N.of_nat (List.length (sg_bytes s) - N.to_nat (rbegin r - sg_address s)))
              (rend r - rbegin r)); [lia|].
  eexists. split; [reflexivity|]. unfold bytes_of. rewrite firstn_length, skipn_length. split; [lia|].
  intros i Hi. rewrite nth_error_firstn by lia. apply nth_error_skipn.
Qed.

Lemma segment_bytes_spec segments r :
  Forall segment_fits segments -> rbegin r <= rend r ->
  (segment_bytes segments r = BNone /\ forall s, In s segments -> ~ segment_holds s r) \/
  (exists before s after l, segments = before ++ s :: after /\
     (forall t, In t before -> ~ segment_holds t r) /\ segment_holds s r /\
     segment_bytes segments r = BBytes l /\ bytes_of s r l).
Proof.
  intros F Hr. induction F as [|s segments Fs F IH]; [left; split; [reflexivity|intros ? []]|].
  cbn [segment_bytes]. pose proof (segment_test s r Fs) as T.
  destruct (_ && _).
  - right. assert (H : segment_holds s r) by now apply T.
    destruct (slice_of_segment s r Fs H Hr) as (l & E & Hl).
    exists [], s, segments, l. split; [reflexivity|]. split; [intros ? []|]. auto.
  - assert (H : ~ segment_holds s r) by (intros H; apply T in H; discriminate).
    destruct IH as [[E N]|(b & t & a & l & -> & Hb & Ht & E & Hl)].
    + left. split; auto. intros t [<-|Ht]; auto.
    + right. exists (s :: b), t, a, l. split; [reflexivity|]. split; [|auto].
      intros u [<-|Hu]; auto.
Qed.

(** ** Lookups *)

Section Lookup.
  Context {A : Type}.
  Variable key : A -> option N.
  Definition insert_by (m : N -> option A) (x : A) : N -> option A :=
    match key x with Some k => map_insert m k x | None => m end.

  Lemma last_with_snoc k l x y :
    last_with key k (l ++ [x]) y <->
    (key x = Some k /\ y = x) \/ (key x <> Some k /\ last_with key k l y).
  Proof.
    unfold last_with. split.
    - intros (b & a & E & K & H). destruct (exists_last (l := y :: a) ltac:(discriminate)) as (a' & z & Ea).
      rewrite Ea, app_assoc in E. apply app_inj_tail in E as [E ->].
      destruct a' as [|w a'].
      + cbn in Ea. injection Ea as -> ->. left. auto.
      + injection Ea as -> ->. right. split.
        * apply H. apply in_app_iff. right. now left.
        * exists b, a'. split; auto. split; auto. intros t Ht. apply H. apply in_app_iff. now left.
    - intros [[K ->]|[K (b & a & -> & Ky & H)]].
      + exists l, []. split; [reflexivity|]. split; [exact K|]. intros ? [].
      + exists b, (a ++ [x]). rewrite <- app_assoc. split; [reflexivity|]. split; auto.
        intros t Ht. apply in_app_iff in Ht as [Ht|[<-|[]]]; auto.
  Qed.

  Lemma lookup_spec l k x :
    fold_left insert_by l empty_map k = Some x <-> last_with key k l x.
  Proof.
    induction l as [|y l IH] using rev_ind.
    - cbn. split; [discriminate|]. intros (b & a & E & _). destruct b; discriminate.
    - rewrite fold_left_app. cbn [fold_left]. rewrite last_with_snoc, <- IH.
      unfold insert_by at 1. destruct (key y) as [k'|]; unfold map_insert.
      + destruct (N.eqb_spec k k') as [->|E].
        * split; [intros [= ->]; auto|]. intros [[_ ->]|[H _]]; congruence.
        * split; [right; split; congruence|]. intros [[H _]|[_ H]]; [congruence|auto].
      + split; [right; split; congruence|]. intros [[H _]|[_ H]]; [discriminate|auto].
  Qed.

  Lemma lookup_none l k :
    fold_left insert_by l empty_map k = None <-> forall x, In x l -> key x <> Some k.
  Proof.
    induction l as [|y l IH] using rev_ind.
    - cbn. split; [intros _ ? []|reflexivity].
    - rewrite fold_left_app. cbn [fold_left]. unfold insert_by at 1.
      assert (S : (forall x, In x (l ++ [y]) -> key x <> Some k) <->
                  key y <> Some k /\ forall x, In x l -> key x <> Some k).
      { split.
        - intros H. split; [apply H, in_app_iff; right; now left|].
          intros x Hx. apply H, in_app_iff. now left.
        - intros [Hy H] x Hx. apply in_app_iff in Hx as [Hx|[<-|[]]]; auto. }
      rewrite S, <- IH. destruct (key y) as [k'|]; unfold map_insert.
      + destruct (N.eqb_spec k k') as [->|E].
        * split; [discriminate|]. intros [H _]. congruence.
        * split; [intros H; split; auto; congruence|tauto].
      + split; [intros H; split; auto; discriminate|tauto].
  Qed.
End Lookup.

Lemma fold_units {A M} (g : unit -> list A) (step : M -> A -> M) units m :
  fold_left (fun m u => fold_left step (g u) m) units m = fold_left step (flat_map g units) m.
Proof.
  revert m. induction units as [|u units IH]; intros m; cbn; [reflexivity|].
  now rewrite fold_left_app, IH.
Qed.

Lemma functions_by_address_eq units :
  functions_by_address units =
  fold_left (insert_by (fun f => opt64_get (fn_address f))) (all_functions units) empty_map.
Proof. apply fold_units. Qed.
Lemma functions_by_offset_eq units :
  functions_by_offset units =
  fold_left (insert_by (fun f => Some (fn_offset f))) (all_functions units) empty_map.
Proof. apply fold_units. Qed.
Lemma variables_by_address_eq units :
  variables_by_address units =
  fold_left (insert_by (fun v => opt64_get (va_address v))) (all_variables units) empty_map.
Proof. apply fold_units. Qed.
Lemma variables_by_offset_eq units :
  variables_by_offset units =
  fold_left (insert_by (fun v => Some (va_offset v))) (all_variables units) empty_map.
Proof. apply fold_units. Qed.
Lemma types_by_offset_eq units :
  types_by_offset units =
  fold_left (insert_by (fun t => Some (t_offset t))) (all_types units) empty_map.
Proof. apply fold_units. Qed.
