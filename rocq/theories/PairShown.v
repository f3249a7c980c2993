(** Proofs about a whole run over two files: where the entries of the files are in the report. *)
From Coq Require Import List Arith NArith ZArith Bool String Lia Permutation.
From Verif Require Import Base BaseProofs RangeModel NamespaceModel TypeModel TypeSpec FileModel FilterModel FilterSpec FilterProofs
  DiffModel DiffSpec PrintModel PrintSpec PrintProofs RefModel ItemModel ItemSpec OptionsModel EntryModel EntrySpec ReportModel ReportSpec ReportProofs
  PropertiesListing PropertiesReport WholeShown PairSpec.
Import ListNotations.
Local Notation compare_docs := (diff_doc text_printer false false).

Lemma write_marked_app l m : write_marked (l ++ m) = (write_marked l ++ write_marked m)%list.
Proof. apply flat_map_app. Qed.
Lemma within_app xs pre ls post : within xs (write_marked ls) -> within xs (write_marked (pre ++ ls ++ post)).
Proof.
  intros (x & y & E). exists (pre ++ x)%list, (y ++ post)%list. rewrite write_marked_app, (write_marked_app ls), E, <- !write_marked_app.
  f_equal. now rewrite <- !app_assoc.
Qed.
Lemma within_l xs ls post : within xs (write_marked ls) -> within xs (write_marked (ls ++ post)).
Proof. exact (within_app xs [] ls post). Qed.
Lemma within_r xs pre ls : within xs (write_marked ls) -> within xs (write_marked (pre ++ ls)).
Proof. intros W. pose proof (within_app xs pre ls [] W) as X. now rewrite app_nil_r in X. Qed.
Lemma within_refl ls : within ls (write_marked ls).
Proof. exists [], []. cbn [app]. now rewrite app_nil_r. Qed.

Lemma blocks_row {A} depth pa pb (df : A -> A -> option ddoc) rows ls flag r : blocks depth pa pb df rows ls flag -> In r rows ->
  exists pre bl post f, block depth pa pb df r bl f /\ ls = (pre ++ bl ++ post)%list /\ (f = true -> flag = true).
Proof.
  induction 1 as [|r' rows bl f rest g B BS IH]; intros I; [destruct I|]. destruct I as [->|I].
  - exists [], bl, rest, f. split; [exact B|]. split; [reflexivity|]. intros ->. reflexivity.
  - destruct (IH I) as (pre & bl' & post & f' & B' & -> & F). exists (bl ++ pre)%list, bl', post, f'.
    split; [exact B'|]. split; [now rewrite <- !app_assoc|]. intros X. rewrite (F X). apply orb_true_r.
Qed.
Lemma visited_row {A} (before : hash -> A -> hash -> A -> Prop) o ha hb rows out r :
  visited before o ha hb rows out -> (In r out <-> In r rows /\ row_wanted o r).
Proof.
  intros (p & (P & _) & S). rewrite (selects_in _ _ _ r S). split; intros (I & W); (split; [|exact W]).
  - exact (Permutation_in _ P I).
  - exact (Permutation_in _ (Permutation_sym P) I).
Qed.
Lemma lefts_row {A B} (rows : list (merge_result A B)) x : In x (lefts rows) <-> In (MLeft x) rows \/ exists y, In (MBoth x y) rows.
Proof.
  unfold lefts. rewrite in_flat_map. split.
  - intros (r & I & J). destruct r as [z|z|z y]; cbn in J; try (destruct J as [->|[]]; eauto); destruct J.
  - intros [I|(y & I)]; eexists; (split; [exact I|]); now left.
Qed.
Lemma rights_row {A B} (rows : list (merge_result A B)) y : In y (rights rows) <-> In (MRight y) rows \/ exists x, In (MBoth x y) rows.
Proof.
  unfold rights. rewrite in_flat_map. split.
  - intros (r & I & J). destruct r as [z|z|z z']; cbn in J; try (destruct J as [->|[]]; eauto); destruct J.
  - intros [I|(x & I)]; eexists; (split; [exact I|]); now left.
Qed.
Lemma matched_left {A B} (same : A -> B -> Prop) la lb rows x : matched same la lb rows -> In x la ->
  (forall y, In y lb -> ~ same x y) -> In (MLeft x) rows.
Proof.
  intros (PL & PR & SM & _) I N. apply (Permutation_in _ (Permutation_sym PL)), lefts_row in I. destruct I as [I|(y & I)]; [exact I|].
  exfalso. apply (N y); [|now apply SM]. apply (Permutation_in _ PR), rights_row. eauto.
Qed.
Lemma matched_right {A B} (same : A -> B -> Prop) la lb rows y : matched same la lb rows -> In y lb ->
  (forall x, In x la -> ~ same x y) -> In (MRight y) rows.
Proof.
  intros (PL & PR & SM & _) I N. apply (Permutation_in _ (Permutation_sym PR)), rights_row in I. destruct I as [I|(x & I)]; [exact I|].
  exfalso. apply (N x); [|now apply SM]. apply (Permutation_in _ PL), lefts_row. eauto.
Qed.
Lemma matched_pair {A B} (same : A -> B -> Prop) l1 x l2 m1 y m2 rows : matched same (l1 ++ x :: l2) (m1 ++ y :: m2) rows -> same x y ->
  (forall z, In z (l1 ++ l2) -> ~ same z y) -> (forall z, In z (m1 ++ m2) -> ~ same x z) -> In (MBoth x y) rows.
Proof.
  intros (PL & PR & SM & NS) S UX UY.
  assert (Ix : In x (lefts rows)) by (apply (Permutation_in _ (Permutation_sym PL)), in_elt).
  assert (Iy : In y (rights rows)) by (apply (Permutation_in _ (Permutation_sym PR)), in_elt).
  apply lefts_row in Ix. destruct Ix as [Ix|(y' & Ix)].
  - apply rights_row in Iy. destruct Iy as [Iy|(x' & Iy)]; [destruct (NS x y Ix Iy S)|].
    exfalso. assert (Lx : In x' (l1 ++ x :: l2)) by (apply (Permutation_in _ PL), lefts_row; eauto).
    assert (Mx : In x' (x :: l1 ++ l2)) by (apply (Permutation_in _ (Permutation_sym (Permutation_middle _ _ _)) Lx)).
    destruct Mx as [<-|Mx]; [|exact (UX x' Mx (SM _ _ Iy))].
    apply in_split in Ix. destruct Ix as (r1 & r2 & ->).
    assert (Iy' : In (MBoth x y) (r1 ++ r2)).
    { apply in_app_iff in Iy. apply in_app_iff. destruct Iy as [Iy|[Iy|Iy]]; [now left|discriminate|now right]. }
    assert (P : Permutation (lefts (r1 ++ r2)) (l1 ++ l2)).
    { apply (Permutation_cons_inv (a := x)). etransitivity; [|etransitivity; [exact PL|symmetry; apply Permutation_middle]].
      unfold lefts. rewrite !flat_map_app. cbn [flat_map app]. apply Permutation_middle. }
    apply (UX x); [|exact S]. apply (Permutation_in _ P), lefts_row. eauto.
  - assert (Ly : In y' (m1 ++ y :: m2)) by (apply (Permutation_in _ PR), rights_row; eauto).
    assert (My : In y' (y :: m1 ++ m2)) by (apply (Permutation_in _ (Permutation_sym (Permutation_middle _ _ _)) Ly)).
    destruct My as [<-|My]; [exact Ix|]. destruct (UY y' My (SM _ _ Ix)).
Qed.
(** The same for what is selected of two lists. *)
Lemma selects_split {A} (P : A -> Prop) l l' x : selects P l l' -> forall l1 l2, l = (l1 ++ x :: l2)%list -> P x ->
  exists m1 m2, l' = (m1 ++ x :: m2)%list /\ selects P l1 m1 /\ selects P l2 m2.
Proof.
  induction 1 as [|z l l' Pz S IH|z l l' Nz S IH]; intros l1 l2 E Px.
  - destruct l1; discriminate.
  - destruct l1 as [|z' l1]; injection E as <- E.
    + subst l2. exists [], l'. split; [reflexivity|]. split; [constructor|exact S].
    + destruct (IH l1 l2 E Px) as (m1 & m2 & -> & A1 & A2). exists (z :: m1), m2. split; [reflexivity|]. split; [now constructor|exact A2].
  - destruct l1 as [|z' l1]; injection E as <- E; [contradiction|].
    destruct (IH l1 l2 E Px) as (m1 & m2 & -> & A1 & A2). exists m1, m2. split; [reflexivity|]. split; [now constructor|exact A2].
Qed.
Lemma selected_pair {A B} (same : A -> B -> Prop) (ka : A -> Prop) (kb : B -> Prop) l1 x l2 m1 y m2 sa sb rows :
  selects ka (l1 ++ x :: l2) sa -> selects kb (m1 ++ y :: m2) sb -> matched same sa sb rows -> ka x -> kb y -> same x y ->
  (forall z, In z (l1 ++ l2) -> ka z -> ~ same z y) -> (forall z, In z (m1 ++ m2) -> kb z -> ~ same x z) -> In (MBoth x y) rows.
Proof.
  intros SA SB M KX KY S UX UY.
  destruct (selects_split _ _ _ x SA l1 l2 eq_refl KX) as (a1 & a2 & -> & A1 & A2).
  destruct (selects_split _ _ _ y SB m1 m2 eq_refl KY) as (b1 & b2 & -> & B1 & B2).
  apply (matched_pair same a1 x a2 b1 y b2 rows M S).
  - intros z I. apply in_app_iff in I. destruct I as [I|I].
    + apply (selects_in _ _ _ z A1) in I. apply UX; [apply in_app_iff; now left|apply I].
    + apply (selects_in _ _ _ z A2) in I. apply UX; [apply in_app_iff; now right|apply I].
  - intros z I. apply in_app_iff in I. destruct I as [I|I].
    + apply (selects_in _ _ _ z B1) in I. apply UY; [apply in_app_iff; now left|apply I].
    + apply (selects_in _ _ _ z B2) in I. apply UY; [apply in_app_iff; now right|apply I].
Qed.
Lemma unkeyed {A} (key : A -> N) l1 x l2 : NoDup (map key (l1 ++ x :: l2)) -> forall z, In z (l1 ++ l2) -> key z <> key x.
Proof.
  intros N z I E. rewrite map_app in N. cbn [map] in N. apply NoDup_remove_2 in N. apply N.
  rewrite <- map_app, <- E. now apply in_map.
Qed.

Section Listing.
  Context {A : Type}.
  Lemma listing_in (keep : A -> Prop) before depth pr l ls x : listing keep before depth pr l ls -> In x l -> keep x ->
    exists pre p post, pr x = Some p /\ ls = (pre ++ lines depth 0 p ++ post)%list.
  Proof.
    intros (sel & out & S & (P & _) & E) I K.
    assert (J : In x out) by (apply (Permutation_in _ (Permutation_sym P)), (selects_in _ _ _ x S); auto).
    destruct (each_split _ _ _ x E J) as (pre & xs & post & -> & (p & Ep & ->)). eauto.
  Qed.
  Variables (same : A -> A -> Prop) (before : hash -> A -> hash -> A -> Prop) (o : options) (ii : images) (depth : nat)
    (pa pb : A -> option pdoc) (df : A -> A -> option ddoc) (ka kb : A -> Prop) (la lb : list A) (ls : list (mark * line)) (flag : bool).
  Hypothesis RE : reporting same before o ii depth pa pb df ka kb la lb ls flag.
  Lemma reporting_row r (Q : forall sa sb rows, selects ka la sa -> selects kb lb sb -> matched same sa sb rows -> In r rows) : row_wanted o r ->
    exists pre bl post f, block depth pa pb df r bl f /\ ls = (pre ++ bl ++ post)%list /\ (f = true -> flag = true).
  Proof.
    destruct RE as (sa & sb & rows & out & SA & SB & M & V & B). intros W.
    apply (blocks_row _ _ _ _ _ _ _ r B). apply (visited_row _ _ _ _ _ _ r V). split; [|exact W]. now apply (Q sa sb).
  Qed.
  Lemma reporting_old x : In x la -> ka x -> (forall y, In y lb -> kb y -> ~ same x y) -> i_deleted (o_ignore o) = false ->
    exists pre p post, pa x = Some p /\ ls = (pre ++ with_mark Old (lines depth 0 p) ++ post)%list /\ flag = true.
  Proof.
    intros I K N W. destruct (reporting_row (MLeft x)) as (pre & bl & post & f & B & E & F); [|exact W|].
    - intros sa sb rows SA SB M. apply (matched_left _ _ _ _ x M); [now apply (selects_in _ _ _ x SA)|].
      intros y J. apply (selects_in _ _ _ y SB) in J. now apply N.
    - inversion B; subst. eauto 8.
  Qed.
  Lemma reporting_new y : In y lb -> kb y -> (forall x, In x la -> ka x -> ~ same x y) -> i_added (o_ignore o) = false ->
    exists pre p post, pb y = Some p /\ ls = (pre ++ with_mark New (lines depth 0 p) ++ post)%list /\ flag = true.
  Proof.
    intros I K N W. destruct (reporting_row (MRight y)) as (pre & bl & post & f & B & E & F); [|exact W|].
    - intros sa sb rows SA SB M. apply (matched_right _ _ _ _ y M); [now apply (selects_in _ _ _ y SB)|].
      intros x J. apply (selects_in _ _ _ x SA) in J. now apply N.
    - inversion B; subst. eauto 8.
  Qed.
  Lemma reporting_both l1 x l2 m1 y m2 : la = (l1 ++ x :: l2)%list -> lb = (m1 ++ y :: m2)%list -> ka x -> kb y -> same x y ->
    (forall z, In z (l1 ++ l2) -> ka z -> ~ same z y) -> (forall z, In z (m1 ++ m2) -> kb z -> ~ same x z) ->
    exists pre bl post f, block depth pa pb df (MBoth x y) bl f /\ ls = (pre ++ bl ++ post)%list /\ (f = true -> flag = true).
  Proof.
    intros EA EB KX KY S UX UY. apply reporting_row; [|exact I]. intros sa sb rows SA SB M. rewrite EA in SA. rewrite EB in SB.
    exact (selected_pair same ka kb l1 x l2 m1 y m2 sa sb rows SA SB M KX KY S UX UY).
  Qed.
End Listing.
Lemma with_mark_app m l1 l2 : with_mark m (l1 ++ l2) = (with_mark m l1 ++ with_mark m l2)%list.
Proof. apply map_app. Qed.
Lemma type_listed_less o h u t : type_listed o h true u t -> type_listed o h false u t.
Proof. intros (A & B & rank & ns & name & L & N & M & _). split; [exact A|]. split; [exact B|]. exists rank, ns, name. repeat split; auto; discriminate. Qed.

Section Report.
  Variables (c : cli) (o : options) (given : list (string * string)) (choose : list N -> list N -> list (list N) -> nat -> nat)
    (pc : param_cmp) (fuel : nat) (ii : images) (depth : nat).
  Hypothesis CO : configured c o given.
  Hypothesis PC : consistent pc.
  Hypothesis HT : o_html o = false.
  Variable e : ddoc.
  Hypothesis DF : diff_file choose o pc fuel ii = Some e.
  Local Notation out := (fst (fst (compare_docs e (text_start depth) false))).
  Local Notation seen := (snd (compare_docs e (text_start depth) false)).

  Lemma report_units : exists hs us f flag,
    out = write_marked (hs ++ us) /\ seen = f || flag /\
    reporting (same_unit given) (unit_before given (o_sort o)) o ii depth
      (print_unit o pc fuel (is_a ii)) (print_unit o pc fuel (is_b ii)) (diff_unit choose o pc fuel ii)
      (unit_listed given o) (unit_listed given o) (im_units (is_a ii)) (im_units (is_b ii)) us flag.
  Proof.
    destruct (C67_files_compared c o given choose pc fuel ii e depth CO DF) as (hs & us & s & f & flag & E & _ & R).
    exists hs, us, f, flag. rewrite E. auto.
  Qed.

  (** ** Entries of the old file only *)

  (** A unit of the old file is reported: as a whole, or compared with one of the other file. *)
  Lemma old_unit u : In u (im_units (is_a ii)) -> unit_listed given o u -> i_deleted (o_ignore o) = false ->
    exists pre bl post f, out = write_marked (pre ++ bl ++ post) /\ (f = true -> seen = true) /\
      ((exists p, print_unit o pc fuel (is_a ii) u = Some p /\ bl = with_mark Old (lines depth 0 p) /\ f = true) \/
       exists v d s, In v (im_units (is_b ii)) /\ same_unit given u v /\ diff_unit choose o pc fuel ii u v = Some d /\
         (exists ls, compare_docs d (text_start depth) false = (ls, s, f) /\ (f = true -> ls = write_marked bl))).
  Proof.
    intros I L W. destruct report_units as (hs & us & f0 & flag & -> & -> & RE).
    destruct RE as (sa & sb & rows & outr & SA & SB & M & V & B). pose proof M as (PL & PR & SM & _).
    assert (J : In (MLeft u) rows \/ exists v, In (MBoth u v) rows).
    { apply lefts_row. apply (Permutation_in _ (Permutation_sym PL)). apply (selects_in _ _ _ u SA). auto. }
    destruct J as [J|(v & J)].
    - destruct (blocks_row _ _ _ _ _ _ _ (MLeft u) B) as (pre & bl & post & f & K & -> & F).
      { apply (visited_row _ _ _ _ _ _ _ V). auto. }
      exists (hs ++ pre)%list, bl, post, f. split; [now rewrite <- app_assoc|]. split; [intros X; rewrite (F X); apply orb_true_r|].
      left. inversion K; subst. eauto.
    - destruct (blocks_row _ _ _ _ _ _ _ (MBoth u v) B) as (pre & bl & post & f & K & -> & F).
      { apply (visited_row _ _ _ _ _ _ _ V). split; [exact J|exact Logic.I]. }
      assert (Iv : In v (im_units (is_b ii))).
      { apply (selects_in _ _ _ v SB). apply (Permutation_in _ PR), rights_row. eauto. }
      exists (hs ++ pre)%list, bl, post, f. split; [now rewrite <- app_assoc|]. split; [intros X; rewrite (F X); apply orb_true_r|].
      right. inversion K; subst; exists v, d, s; (split; [exact Iv|]); (split; [exact (SM _ _ J)|]); (split; [assumption|]); eexists; (split; [eassumption|]); auto; discriminate.
  Qed.

  Lemma old_function u x : In u (im_units (is_a ii)) -> unit_listed given o u -> i_deleted (o_ignore o) = false ->
    c_function (o_category o) = true -> In x (un_functions u) -> function_listed o x ->
    (forall v y, In v (im_units (is_b ii)) -> same_unit given u v -> In y (un_functions v) -> function_listed o y -> ~ same_function x y) ->
    exists p, print_function_in o fuel (is_a ii) u x = Some p /\ within (with_mark Old (lines depth 0 p)) out /\ seen = true.
  Proof.
    intros I L W CF Ix Lx NS. destruct (old_unit u I L W) as (pre & bl & post & f & -> & F & [(p & E & -> & Ef)|(v & d & s & Iv & SU & E & ls & EC & EL)]).
    - destruct (C67_unit_printed o pc fuel (is_a ii) u p depth PC HT E) as (ts & fs & vs & _ & FS & _ & ->).
      destruct FS as [B|ls _ FS]; [congruence|].
      destruct (listing_in _ _ _ _ _ _ x FS Ix Lx) as (p1 & q & p2 & Eq & ->). exists q. split; [exact Eq|]. split; [|auto].
      apply within_app. rewrite !with_mark_app. do 2 apply within_r. apply within_l, within_r, within_l, within_refl.
    - destruct (C67_units_compared c o given choose pc fuel ii u v d depth CO PC HT E) as
        (us & ts & fs & ns & vs & s' & uf & tf & ff & nf & vf & rows & EC' & _ & _ & _ & FS & _).
      destruct (FS CF) as ((sa & sb & SA & SB & M) & (w1 & o1 & S1 & V1 & B1) & (w2 & o2 & S2 & V2 & B2)). clear FS.
      rewrite EC in EC'. injection EC' as E1 _ Ef.
      assert (J : In (MLeft x) rows).
      { apply (matched_left _ _ _ _ x M); [now apply (selects_in _ _ _ x SA)|]. intros y K. apply (selects_in _ _ _ y SB) in K. now apply (NS v y Iv SU). }
      assert (D : row_without_code (MLeft x) \/ ~ row_without_code (MLeft x)).
      { destruct (opt64_get (fn_size x)) eqn:G; [right|left; exists x; auto].
        intros (z & Z & [H|[H|[(g & H)|(g & H)]]]); try discriminate. injection H as ->. congruence. }
      destruct D as [D|D].
      + destruct (blocks_row _ _ _ _ _ _ _ (MLeft x) B2) as (p1 & bl' & p2 & f' & K & -> & F').
        { apply (visited_row _ _ _ _ _ _ _ V2). split; [|exact W]. apply (selects_in _ _ _ _ S2). auto. }
        inversion K; subst. specialize (F' eq_refl). subst nf.
        assert (X : uf || (tf || (ff || true || vf)) = true) by now rewrite orb_true_r, !orb_true_l, !orb_true_r.
        rewrite X in *. exists p. split; [assumption|]. split; [|auto]. apply within_app. rewrite <- (EL eq_refl).
        do 3 apply within_r. apply within_l, within_r, within_l, within_refl.
      + destruct (blocks_row _ _ _ _ _ _ _ (MLeft x) B1) as (p1 & bl' & p2 & f' & K & -> & F').
        { apply (visited_row _ _ _ _ _ _ _ V1). split; [|exact W]. apply (selects_in _ _ _ _ S1). auto. }
        inversion K; subst. specialize (F' eq_refl). subst ff.
        assert (X : uf || (tf || (true || nf || vf)) = true) by now rewrite !orb_true_l, !orb_true_r.
        rewrite X in *. exists p. split; [assumption|]. split; [|auto]. apply within_app. rewrite <- (EL eq_refl).
        do 2 apply within_r. apply within_l, within_r, within_l, within_refl.
  Qed.

  Lemma old_variable u x : In u (im_units (is_a ii)) -> unit_listed given o u -> i_deleted (o_ignore o) = false ->
    c_variable (o_category o) = true -> In x (un_variables u) -> variable_listed o x ->
    (forall v y, In v (im_units (is_b ii)) -> same_unit given u v -> In y (un_variables v) -> variable_listed o y -> ~ same_variable x y) ->
    exists p, print_variable_in o (is_a ii) u x = Some p /\ within (with_mark Old (lines depth 0 p)) out /\ seen = true.
  Proof.
    intros I L W CF Ix Lx NS. destruct (old_unit u I L W) as (pre & bl & post & f & -> & F & [(p & E & -> & Ef)|(v & d & s & Iv & SU & E & ls & EC & EL)]).
    - destruct (C67_unit_printed o pc fuel (is_a ii) u p depth PC HT E) as (ts & fs & vs & _ & _ & VS & ->).
      destruct VS as [B|ls _ VS]; [congruence|].
      destruct (listing_in _ _ _ _ _ _ x VS Ix Lx) as (p1 & q & p2 & Eq & ->). exists q. split; [exact Eq|]. split; [|auto].
      apply within_app. rewrite !with_mark_app. do 3 apply within_r. apply within_r, within_l, within_refl.
    - destruct (C67_units_compared c o given choose pc fuel ii u v d depth CO PC HT E) as
        (us & ts & fs & ns & vs & s' & uf & tf & ff & nf & vf & rows & EC' & _ & _ & _ & _ & (_ & VS)).
      specialize (VS CF). rewrite EC in EC'. injection EC' as E1 _ Ef.
      destruct (reporting_old _ _ _ _ _ _ _ _ _ _ _ _ _ _ VS x Ix Lx (fun y => NS v y Iv SU) W) as (p1 & p & p2 & Ep & -> & ->).
      assert (X : uf || (tf || (ff || nf || true)) = true) by now rewrite !orb_true_r.
      rewrite X in *. subst f. exists p. split; [assumption|]. split; [|auto]. apply within_app. rewrite <- (EL eq_refl), E1.
      do 4 apply within_r. apply within_r, within_l, within_refl.
  Qed.

  Lemma old_type u x : In u (im_units (is_a ii)) -> unit_listed given o u -> i_deleted (o_ignore o) = false ->
    c_type (o_category o) = true -> In x (un_types u) -> type_listed o (h_env (im_hash (is_a ii))) true u x ->
    (forall v y, In v (im_units (is_b ii)) -> same_unit given u v -> In y (un_types v) -> ~ same_type x y) ->
    exists p, print_type_in o fuel (is_a ii) u x = Some p /\ within (with_mark Old (lines depth 0 p)) out /\ seen = true.
  Proof.
    intros I L W CF Ix Lx NS. destruct (old_unit u I L W) as (pre & bl & post & f & -> & F & [(p & E & -> & Ef)|(v & d & s & Iv & SU & E & ls & EC & EL)]).
    - destruct (C67_unit_printed o pc fuel (is_a ii) u p depth PC HT E) as (ts & fs & vs & TS & _ & _ & ->).
      destruct TS as [B|ls _ TS]; [congruence|].
      destruct (listing_in _ _ _ _ _ _ x TS Ix (type_listed_less _ _ _ _ Lx)) as (p1 & q & p2 & Eq & ->). exists q. split; [exact Eq|]. split; [|auto].
      apply within_app. rewrite !with_mark_app. apply within_r. apply within_l, within_r, within_l, within_refl.
    - destruct (C67_units_compared c o given choose pc fuel ii u v d depth CO PC HT E) as
        (us & ts & fs & ns & vs & s' & uf & tf & ff & nf & vf & rows & EC' & _ & (_ & TS) & _).
      specialize (TS CF). rewrite EC in EC'. injection EC' as E1 _ Ef.
      destruct (reporting_old _ _ _ _ _ _ _ _ _ _ _ _ _ _ TS x Ix Lx (fun y J _ => NS v y Iv SU J) W) as (p1 & p & p2 & Ep & -> & ->).
      assert (X : uf || (true || (ff || nf || vf)) = true) by now rewrite !orb_true_l, !orb_true_r.
      rewrite X in *. subst f. exists p. split; [assumption|]. split; [|auto]. apply within_app. rewrite <- (EL eq_refl), E1.
      apply within_r. apply within_l, within_r, within_l, within_refl.
  Qed.

  (** ** Entries of the new file only *)

  (** A unit of the new file is reported: as a whole, or compared with one of the other file. *)
  Lemma new_unit u : In u (im_units (is_b ii)) -> unit_listed given o u -> i_added (o_ignore o) = false ->
    exists pre bl post f, out = write_marked (pre ++ bl ++ post) /\ (f = true -> seen = true) /\
      ((exists p, print_unit o pc fuel (is_b ii) u = Some p /\ bl = with_mark New (lines depth 0 p) /\ f = true) \/
       exists v d s, In v (im_units (is_a ii)) /\ same_unit given v u /\ diff_unit choose o pc fuel ii v u = Some d /\
         (exists ls, compare_docs d (text_start depth) false = (ls, s, f) /\ (f = true -> ls = write_marked bl))).
  Proof.
    intros I L W. destruct report_units as (hs & us & f0 & flag & -> & -> & RE).
    destruct RE as (sa & sb & rows & outr & SA & SB & M & V & B). pose proof M as (PL & PR & SM & _).
    assert (J : In (MRight u) rows \/ exists v, In (MBoth v u) rows).
    { apply rights_row. apply (Permutation_in _ (Permutation_sym PR)). apply (selects_in _ _ _ u SB). auto. }
    destruct J as [J|(v & J)].
    - destruct (blocks_row _ _ _ _ _ _ _ (MRight u) B) as (pre & bl & post & f & K & -> & F).
      { apply (visited_row _ _ _ _ _ _ _ V). auto. }
      exists (hs ++ pre)%list, bl, post, f. split; [now rewrite <- app_assoc|]. split; [intros X; rewrite (F X); apply orb_true_r|].
      left. inversion K; subst. eauto.
    - destruct (blocks_row _ _ _ _ _ _ _ (MBoth v u) B) as (pre & bl & post & f & K & -> & F).
      { apply (visited_row _ _ _ _ _ _ _ V). split; [exact J|exact Logic.I]. }
      assert (Iv : In v (im_units (is_a ii))).
      { apply (selects_in _ _ _ v SA). apply (Permutation_in _ PL), lefts_row. eauto. }
      exists (hs ++ pre)%list, bl, post, f. split; [now rewrite <- app_assoc|]. split; [intros X; rewrite (F X); apply orb_true_r|].
      right. inversion K; subst; exists v, d, s; (split; [exact Iv|]); (split; [exact (SM _ _ J)|]); (split; [assumption|]); eexists; (split; [eassumption|]); auto; discriminate.
  Qed.

  Lemma new_function u x : In u (im_units (is_b ii)) -> unit_listed given o u -> i_added (o_ignore o) = false ->
    c_function (o_category o) = true -> In x (un_functions u) -> function_listed o x ->
    (forall v y, In v (im_units (is_a ii)) -> same_unit given v u -> In y (un_functions v) -> function_listed o y -> ~ same_function y x) ->
    exists p, print_function_in o fuel (is_b ii) u x = Some p /\ within (with_mark New (lines depth 0 p)) out /\ seen = true.
  Proof.
    intros I L W CF Ix Lx NS. destruct (new_unit u I L W) as (pre & bl & post & f & -> & F & [(p & E & -> & Ef)|(v & d & s & Iv & SU & E & ls & EC & EL)]).
    - destruct (C67_unit_printed o pc fuel (is_b ii) u p depth PC HT E) as (ts & fs & vs & _ & FS & _ & ->).
      destruct FS as [B|ls _ FS]; [congruence|].
      destruct (listing_in _ _ _ _ _ _ x FS Ix Lx) as (p1 & q & p2 & Eq & ->). exists q. split; [exact Eq|]. split; [|auto].
      apply within_app. rewrite !with_mark_app. do 2 apply within_r. apply within_l, within_r, within_l, within_refl.
    - destruct (C67_units_compared c o given choose pc fuel ii v u d depth CO PC HT E) as
        (us & ts & fs & ns & vs & s' & uf & tf & ff & nf & vf & rows & EC' & _ & _ & _ & FS & _).
      destruct (FS CF) as ((sa & sb & SA & SB & M) & (w1 & o1 & S1 & V1 & B1) & (w2 & o2 & S2 & V2 & B2)). clear FS.
      rewrite EC in EC'. injection EC' as E1 _ Ef.
      assert (J : In (MRight x) rows).
      { apply (matched_right _ _ _ _ x M); [now apply (selects_in _ _ _ x SB)|]. intros y K. apply (selects_in _ _ _ y SA) in K. now apply (NS v y Iv SU). }
      assert (D : row_without_code (MRight x) \/ ~ row_without_code (MRight x)).
      { destruct (opt64_get (fn_size x)) eqn:G; [right|left; exists x; auto].
        intros (z & Z & [H|[H|[(g & H)|(g & H)]]]); try discriminate. injection H as ->. congruence. }
      destruct D as [D|D].
      + destruct (blocks_row _ _ _ _ _ _ _ (MRight x) B2) as (p1 & bl' & p2 & f' & K & -> & F').
        { apply (visited_row _ _ _ _ _ _ _ V2). split; [|exact W]. apply (selects_in _ _ _ _ S2). auto. }
        inversion K; subst. specialize (F' eq_refl). subst nf.
        assert (X : uf || (tf || (ff || true || vf)) = true) by now rewrite orb_true_r, !orb_true_l, !orb_true_r.
        rewrite X in *. exists p. split; [assumption|]. split; [|auto]. apply within_app. rewrite <- (EL eq_refl).
        do 3 apply within_r. apply within_l, within_r, within_l, within_refl.
      + destruct (blocks_row _ _ _ _ _ _ _ (MRight x) B1) as (p1 & bl' & p2 & f' & K & -> & F').
        { apply (visited_row _ _ _ _ _ _ _ V1). split; [|exact W]. apply (selects_in _ _ _ _ S1). auto. }
        inversion K; subst. specialize (F' eq_refl). subst ff.
        assert (X : uf || (tf || (true || nf || vf)) = true) by now rewrite !orb_true_l, !orb_true_r.
        rewrite X in *. exists p. split; [assumption|]. split; [|auto]. apply within_app. rewrite <- (EL eq_refl).
        do 2 apply within_r. apply within_l, within_r, within_l, within_refl.
  Qed.

  Lemma new_variable u x : In u (im_units (is_b ii)) -> unit_listed given o u -> i_added (o_ignore o) = false ->
    c_variable (o_category o) = true -> In x (un_variables u) -> variable_listed o x ->
    (forall v y, In v (im_units (is_a ii)) -> same_unit given v u -> In y (un_variables v) -> variable_listed o y -> ~ same_variable y x) ->
    exists p, print_variable_in o (is_b ii) u x = Some p /\ within (with_mark New (lines depth 0 p)) out /\ seen = true.
  Proof.
    intros I L W CF Ix Lx NS. destruct (new_unit u I L W) as (pre & bl & post & f & -> & F & [(p & E & -> & Ef)|(v & d & s & Iv & SU & E & ls & EC & EL)]).
    - destruct (C67_unit_printed o pc fuel (is_b ii) u p depth PC HT E) as (ts & fs & vs & _ & _ & VS & ->).
      destruct VS as [B|ls _ VS]; [congruence|].
      destruct (listing_in _ _ _ _ _ _ x VS Ix Lx) as (p1 & q & p2 & Eq & ->). exists q. split; [exact Eq|]. split; [|auto].
      apply within_app. rewrite !with_mark_app. do 3 apply within_r. apply within_r, within_l, within_refl.
    - destruct (C67_units_compared c o given choose pc fuel ii v u d depth CO PC HT E) as
        (us & ts & fs & ns & vs & s' & uf & tf & ff & nf & vf & rows & EC' & _ & _ & _ & _ & (_ & VS)).
      specialize (VS CF). rewrite EC in EC'. injection EC' as E1 _ Ef.
      destruct (reporting_new _ _ _ _ _ _ _ _ _ _ _ _ _ _ VS x Ix Lx (fun y => NS v y Iv SU) W) as (p1 & p & p2 & Ep & -> & ->).
      assert (X : uf || (tf || (ff || nf || true)) = true) by now rewrite !orb_true_r.
      rewrite X in *. subst f. exists p. split; [assumption|]. split; [|auto]. apply within_app. rewrite <- (EL eq_refl), E1.
      do 4 apply within_r. apply within_r, within_l, within_refl.
  Qed.

  Lemma new_type u x : In u (im_units (is_b ii)) -> unit_listed given o u -> i_added (o_ignore o) = false ->
    c_type (o_category o) = true -> In x (un_types u) -> type_listed o (h_env (im_hash (is_b ii))) true u x ->
    (forall v y, In v (im_units (is_a ii)) -> same_unit given v u -> In y (un_types v) -> ~ same_type y x) ->
    exists p, print_type_in o fuel (is_b ii) u x = Some p /\ within (with_mark New (lines depth 0 p)) out /\ seen = true.
  Proof.
    intros I L W CF Ix Lx NS. destruct (new_unit u I L W) as (pre & bl & post & f & -> & F & [(p & E & -> & Ef)|(v & d & s & Iv & SU & E & ls & EC & EL)]).
    - destruct (C67_unit_printed o pc fuel (is_b ii) u p depth PC HT E) as (ts & fs & vs & TS & _ & _ & ->).
      destruct TS as [B|ls _ TS]; [congruence|].
      destruct (listing_in _ _ _ _ _ _ x TS Ix (type_listed_less _ _ _ _ Lx)) as (p1 & q & p2 & Eq & ->). exists q. split; [exact Eq|]. split; [|auto].
      apply within_app. rewrite !with_mark_app. apply within_r. apply within_l, within_r, within_l, within_refl.
    - destruct (C67_units_compared c o given choose pc fuel ii v u d depth CO PC HT E) as
        (us & ts & fs & ns & vs & s' & uf & tf & ff & nf & vf & rows & EC' & _ & (_ & TS) & _).
      specialize (TS CF). rewrite EC in EC'. injection EC' as E1 _ Ef.
      destruct (reporting_new _ _ _ _ _ _ _ _ _ _ _ _ _ _ TS x Ix Lx (fun y J _ => NS v y Iv SU J) W) as (p1 & p & p2 & Ep & -> & ->).
      assert (X : uf || (true || (ff || nf || vf)) = true) by now rewrite !orb_true_l, !orb_true_r.
      rewrite X in *. subst f. exists p. split; [assumption|]. split; [|auto]. apply within_app. rewrite <- (EL eq_refl), E1.
      apply within_r. apply within_l, within_r, within_l, within_refl.
  Qed.

  (** ** Entries of both files *)

  Lemma both_unit l1 u l2 m1 v m2 : im_units (is_a ii) = (l1 ++ u :: l2)%list -> im_units (is_b ii) = (m1 ++ v :: m2)%list ->
    unit_listed given o u -> unit_listed given o v -> same_unit given u v ->
    (forall z, In z (l1 ++ l2) -> ~ same_unit given z v) -> (forall z, In z (m1 ++ m2) -> ~ same_unit given u z) ->
    exists pre bl post f d s ls, out = write_marked (pre ++ bl ++ post) /\ (f = true -> seen = true) /\
      diff_unit choose o pc fuel ii u v = Some d /\ compare_docs d (text_start depth) false = (ls, s, f) /\ (f = true -> ls = write_marked bl).
  Proof.
    intros EA EB LU LV S UX UY. destruct report_units as (hs & us & f0 & flag & -> & -> & RE).
    destruct (reporting_both _ _ _ _ _ _ _ _ _ _ _ _ _ _ RE l1 u l2 m1 v m2 EA EB LU LV S (fun z J _ => UX z J) (fun z J _ => UY z J)) as (pre & bl & post & f & B & -> & F).
    inversion B; subst.
    - exists (hs ++ pre)%list, bl, post, true. do 3 eexists. split; [now rewrite <- app_assoc|].
      split; [intros X; rewrite (F X); apply orb_true_r|]. split; [eassumption|]. split; [eassumption|auto].
    - exists (hs ++ pre)%list, [], post, false. do 3 eexists. split; [now rewrite <- app_assoc|].
      split; [discriminate|]. split; [eassumption|]. split; [eassumption|discriminate].
  Qed.
  (** What is in the comparison of two units is in the report. *)
  Definition compared (d : ddoc) : Prop :=
    exists bl ls s f, compare_docs d (text_start depth) false = (ls, s, f) /\
      (f = true -> ls = write_marked bl /\ within bl out /\ seen = true).
  Lemma block_compared {A} (pa pb : A -> option pdoc) df x y bl f (W : f = true -> within bl out /\ seen = true) :
    block depth pa pb df (MBoth x y) bl f -> exists d, df x y = Some d /\ compared d.
  Proof.
    intros B. inversion B; subst; exists d; (split; [assumption|]).
    - exists bl. do 3 eexists. split; [eassumption|]. intros _. split; [reflexivity|]. now apply W.
    - exists []. do 3 eexists. split; [eassumption|discriminate].
  Qed.

  Section Two.
    Variables (l1 l2 m1 m2 : list unit) (u v : unit).
    Hypothesis EA : im_units (is_a ii) = (l1 ++ u :: l2)%list.
    Hypothesis EB : im_units (is_b ii) = (m1 ++ v :: m2)%list.
    Hypothesis LU : unit_listed given o u.
    Hypothesis LV : unit_listed given o v.
    Hypothesis SU : same_unit given u v.
    Hypothesis UX : forall z, In z (l1 ++ l2) -> ~ same_unit given z v.
    Hypothesis UY : forall z, In z (m1 ++ m2) -> ~ same_unit given u z.

    Lemma both_variable a1 x a2 b1 y b2 : c_variable (o_category o) = true ->
      un_variables u = (a1 ++ x :: a2)%list -> un_variables v = (b1 ++ y :: b2)%list -> variable_listed o x -> variable_listed o y ->
      same_variable x y -> (forall z, In z (a1 ++ a2) -> variable_listed o z -> ~ same_variable z y) ->
      (forall z, In z (b1 ++ b2) -> variable_listed o z -> ~ same_variable x z) ->
      compared (diff_variable o (is_scenes ii) (im_dir (is_a ii) u) (im_dir (is_b ii) v) x y).
    Proof.
      intros CV EX EY KX KY S QX QY. destruct (both_unit _ _ _ _ _ _ EA EB LU LV SU UX UY) as (pre & bl & post & f & d & s & ls & EO & F & E & EC & EL).
      destruct (C67_units_compared c o given choose pc fuel ii u v d depth CO PC HT E) as
        (us & ts & fs & ns & vs & s' & uf & tf & ff & nf & vf & rows & EC' & _ & _ & _ & _ & (_ & VS)).
      specialize (VS CV). rewrite EC in EC'. injection EC' as E1 _ Ef.
      destruct (reporting_both _ _ _ _ _ _ _ _ _ _ _ _ _ _ VS a1 x a2 b1 y b2 EX EY KX KY S QX QY) as (p1 & bl' & p2 & f' & B & -> & F').
      assert (W : f' = true -> within bl' out /\ seen = true); [|destruct (block_compared _ _ _ x y bl' f' W B) as (d' & [= <-] & C); exact C].
      intros X. rewrite (F' X) in *. rewrite !orb_true_r in Ef. subst f. split; [|auto]. rewrite EO. apply within_app. rewrite <- (EL eq_refl), E1.
      do 4 apply within_r. apply within_r, within_l, within_refl.
    Qed.
    Lemma both_type a1 x a2 b1 y b2 : c_type (o_category o) = true ->
      un_types u = (a1 ++ x :: a2)%list -> un_types v = (b1 ++ y :: b2)%list ->
      type_listed o (h_env (im_hash (is_a ii))) true u x -> type_listed o (h_env (im_hash (is_b ii))) true v y ->
      same_type x y -> (forall z, In z (a1 ++ a2) -> ~ same_type z y) -> (forall z, In z (b1 ++ b2) -> ~ same_type x z) ->
      exists d, diff_type choose o fuel (ss_sides (is_scenes ii)) (im_dir (is_a ii) u) (im_dir (is_b ii) v) x y = Some d /\ compared d.
    Proof.
      intros CV EX EY KX KY S QX QY. destruct (both_unit _ _ _ _ _ _ EA EB LU LV SU UX UY) as (pre & bl & post & f & d & s & ls & EO & F & E & EC & EL).
      destruct (C67_units_compared c o given choose pc fuel ii u v d depth CO PC HT E) as
        (us & ts & fs & ns & vs & s' & uf & tf & ff & nf & vf & rows & EC' & _ & (_ & TS) & _).
      specialize (TS CV). rewrite EC in EC'. injection EC' as E1 _ Ef.
      destruct (reporting_both _ _ _ _ _ _ _ _ _ _ _ _ _ _ TS a1 x a2 b1 y b2 EX EY KX KY S (fun z J _ => QX z J) (fun z J _ => QY z J)) as (p1 & bl' & p2 & f' & B & -> & F').
      assert (W : f' = true -> within bl' out /\ seen = true); [|exact (block_compared _ _ _ x y bl' f' W B)].
      intros X. rewrite (F' X) in *. rewrite orb_true_l, orb_true_r in Ef. subst f. split; [|auto]. rewrite EO. apply within_app. rewrite <- (EL eq_refl), E1.
      apply within_r. apply within_l, within_r, within_l, within_refl.
    Qed.
    Lemma both_function a1 x a2 b1 y b2 : c_function (o_category o) = true ->
      un_functions u = (a1 ++ x :: a2)%list -> un_functions v = (b1 ++ y :: b2)%list -> function_listed o x -> function_listed o y ->
      same_function x y -> (forall z, In z (a1 ++ a2) -> function_listed o z -> ~ same_function z y) ->
      (forall z, In z (b1 ++ b2) -> function_listed o z -> ~ same_function x z) ->
      exists d, diff_function choose o (is_scenes ii) (im_unit_id (is_a ii) u) fuel (im_dir (is_a ii) u) (im_dir (is_b ii) v) x y = Some d /\ compared d.
    Proof.
      intros CV EX EY KX KY S QX QY. destruct (both_unit _ _ _ _ _ _ EA EB LU LV SU UX UY) as (pre & bl & post & f & d & s & ls & EO & F & E & EC & EL).
      destruct (C67_units_compared c o given choose pc fuel ii u v d depth CO PC HT E) as
        (us & ts & fs & ns & vs & s' & uf & tf & ff & nf & vf & rows & EC' & _ & _ & _ & FS & _).
      destruct (FS CV) as ((sa & sb & SA & SB & M) & (w1 & o1 & S1 & V1 & B1) & (w2 & o2 & S2 & V2 & B2)). clear FS.
      rewrite EC in EC'. injection EC' as E1 _ Ef. rewrite EX in SA. rewrite EY in SB.
      pose proof (selected_pair _ _ _ _ _ _ _ _ _ _ _ _ SA SB M KX KY S QX QY) as J.
      assert (D : row_without_code (MBoth x y) \/ ~ row_without_code (MBoth x y)).
      { destruct (opt64_get (fn_size x)) eqn:Gx; [|left; exists x; eauto 6]. destruct (opt64_get (fn_size y)) eqn:Gy; [|left; exists y; eauto 6].
        right. intros (z & Z & [H|[H|[(g & H)|(g & H)]]]); try discriminate; injection H as -> ->; congruence. }
      destruct D as [D|D].
      - destruct (blocks_row _ _ _ _ _ _ _ (MBoth x y) B2) as (p1 & bl' & p2 & f' & K & -> & F').
        { apply (visited_row _ _ _ _ _ _ _ V2). split; [|exact I]. apply (selects_in _ _ _ _ S2). auto. }
        assert (W : f' = true -> within bl' out /\ seen = true); [|exact (block_compared _ _ _ x y bl' f' W K)].
        intros X. rewrite (F' X) in *. rewrite orb_true_r, orb_true_l, !orb_true_r in Ef. subst f. split; [|auto]. rewrite EO. apply within_app. rewrite <- (EL eq_refl), E1.
        do 3 apply within_r. apply within_l, within_r, within_l, within_refl.
      - destruct (blocks_row _ _ _ _ _ _ _ (MBoth x y) B1) as (p1 & bl' & p2 & f' & K & -> & F').
        { apply (visited_row _ _ _ _ _ _ _ V1). split; [|exact I]. apply (selects_in _ _ _ _ S1). auto. }
        assert (W : f' = true -> within bl' out /\ seen = true); [|exact (block_compared _ _ _ x y bl' f' W K)].
        intros X. rewrite (F' X) in *. rewrite !orb_true_l, !orb_true_r in Ef. subst f. split; [|auto]. rewrite EO. apply within_app. rewrite <- (EL eq_refl), E1.
        do 2 apply within_r. apply within_l, within_r, within_l, within_refl.
    Qed.
  End Two.
End Report.
