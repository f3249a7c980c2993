(** Proofs about printed and compared functions and variables. *)
From Coq Require Import List Arith NArith ZArith Bool String Lia Permutation Sorting.Sorted.
From Verif Require Import Base BaseProofs RangeModel NamespaceModel TypeModel TypeSpec TypeProofs LayoutModel
  CfiModel FileModel DieModel OptionsModel FilterModel FilterProofs DiffModel DiffSpec MergeProofs PropertiesDiff PrintModel
  PrintSpec PrintProofs NameModel RefModel LocationModel CodeModel ItemModel ItemSpec ItemProofs ItemShown EntryModel
  EntrySpec.
Import ListNotations.
Local Open Scope N_scope.

(** ** Distinct items in order *)

Section Dedup.
  Context {A : Type}.
  Variable eqb : A -> A -> bool.

  Lemma dedup_cons a b l : dedup eqb (a :: b :: l) = if eqb a b then dedup eqb (b :: l) else a :: dedup eqb (b :: l).
  Proof. reflexivity. Qed.
  Lemma dedup_incl l x : In x (dedup eqb l) -> In x l.
  Proof.
    induction l as [|a [|b l] IH]; auto. rewrite dedup_cons.
    destruct (eqb a b); intros I.
    - right. auto.
    - destruct I as [<-|I]; [now left|right; auto].
  Qed.
  Lemma dedup_length l : (List.length (dedup eqb l) <= List.length l)%nat.
  Proof.
    induction l as [|a [|b l] IH]; auto. rewrite dedup_cons.
    change (List.length (a :: b :: l)) with (S (List.length (b :: l))).
    destruct (eqb a b); [lia|]. change (List.length (a :: dedup eqb (b :: l))) with (S (List.length (dedup eqb (b :: l)))).
    lia.
  Qed.
  Lemma dedup_has l : (forall x y, In x l -> In y l -> eqb x y = true -> x = y) ->
    forall x, In x l -> In x (dedup eqb l).
  Proof.
    induction l as [|a [|b l] IH]; intros H x I; auto.
    rewrite dedup_cons. assert (H' : forall x y, In x (b :: l) -> In y (b :: l) -> eqb x y = true -> x = y).
    { intros; apply H; auto; now right. }
    destruct (eqb a b) eqn:E.
    - apply IH; [assumption|]. destruct I as [<-|I]; [|assumption]. left. symmetry. apply H; auto; [now left|now right; left].
    - destruct I as [<-|I]; [now left|]. right. now apply IH.
  Qed.
  Variable cmp : A -> A -> comparison.
  Hypothesis TP : total_preorder cmp.
  Lemma dedup_sorted l : StronglySorted (le_cmp cmp) l ->
    (forall x y, In x l -> In y l -> cmp x y = Eq -> eqb x y = true) ->
    (forall x y, In x l -> In y l -> eqb x y = true -> x = y) ->
    StronglySorted (fun x y => cmp x y = Lt) (dedup eqb l).
  Proof.
    induction l as [|a [|b l] IH]; intros SS H1 H2; [constructor|repeat constructor|].
    apply StronglySorted_inv in SS. destruct SS as [SS F].
    assert (IH' : StronglySorted (fun x y => cmp x y = Lt) (dedup eqb (b :: l))).
    { apply IH; [assumption|..]; intros; [apply H1|apply H2]; auto; now right. }
    rewrite dedup_cons. destruct (eqb a b) eqn:E; [exact IH'|]. constructor; [exact IH'|].
    apply Forall_forall. intros z I. apply dedup_incl in I.
    rewrite Forall_forall in F. pose proof (F z I) as Z. pose proof (F b (or_introl eq_refl)) as BB. unfold le_cmp in *.
    destruct (cmp a z) eqn:EZ; [|reflexivity|congruence]. exfalso.
    assert (cmp a b = Eq).
    { apply (tp_eq_le _ TP). split; [exact BB|]. apply (tp_eq_sym _ TP) in EZ.
      rewrite <- (tp_eq_r _ TP b z a EZ). destruct I as [<-|I].
      - rewrite (tp_refl _ TP). discriminate.
      - apply StronglySorted_inv in SS. destruct SS as [_ SS]. rewrite Forall_forall in SS. exact (SS z I). }
    rewrite H1 in E; [discriminate|now left|right; now left|assumption].
  Qed.
End Dedup.

Lemma distinct_sort {A} (cmp : A -> A -> comparison) (eqb : A -> A -> bool) l :
  total_preorder cmp ->
  (forall x y, In x l -> In y l -> cmp x y = Eq -> eqb x y = true) ->
  (forall x y, In x l -> In y l -> eqb x y = true -> x = y) ->
  distinct_in_order (fun x y => cmp x y = Lt) l (dedup eqb (stable_sort cmp l)).
Proof.
  intros TP H1 H2. pose proof (stable_sort_perm cmp l) as P.
  assert (I : forall x, In x (stable_sort cmp l) <-> In x l).
  { intros x. split; apply Permutation_in; [exact P|now apply Permutation_sym]. }
  split.
  - apply (dedup_sorted _ _ TP); [now apply stable_sort_sorted|..]; intros x y IX IY; apply I in IX, IY; auto.
  - intros x. split; intros IX.
    + apply dedup_has; [|now apply I]. intros y z IY IZ. apply I in IY, IZ. auto.
    + apply I. now apply (dedup_incl eqb).
Qed.

Lemma distinct_unique {A} (before : A -> A -> Prop) :
  (forall x, ~ before x x) -> (forall x y, before x y -> before y x -> False) ->
  forall l1 l2, StronglySorted before l1 -> StronglySorted before l2 ->
  (forall x, In x l1 <-> In x l2) -> l1 = l2.
Proof.
  intros IRR ASY. induction l1 as [|a l1 IH]; intros [|b l2] S1 S2 E; auto.
  - destruct (proj2 (E b)); now left.
  - destruct (proj1 (E a)); now left.
  - apply StronglySorted_inv in S1, S2. destruct S1 as [S1 F1], S2 as [S2 F2].
    rewrite Forall_forall in F1, F2.
    assert (a = b).
    { destruct (proj1 (E a) (or_introl eq_refl)) as [|I]; [auto|].
      destruct (proj2 (E b) (or_introl eq_refl)) as [|J]; [auto|]. exfalso. exact (ASY a b (F1 b J) (F2 a I)). }
    subst b. f_equal. apply IH; auto. intros x. split; intros I.
    + destruct (proj1 (E x) (or_intror I)) as [<-|]; [|assumption]. exfalso. exact (IRR a (F1 a I)).
    + destruct (proj2 (E x) (or_intror I)) as [<-|]; [|assumption]. exfalso. exact (IRR a (F2 a I)).
Qed.


(** ** Orders *)

Lemma then_eq a b : then_with a b = Eq <-> a = Eq /\ b = Eq.
Proof. destruct a; cbn; intuition congruence. Qed.
Lemma cmp_name_eq a b : cmp_name a b = Eq <-> a = b.
Proof.
  unfold cmp_name. destruct a, b; cbn; try (split; congruence). rewrite cmp_string_eq. split; congruence.
Qed.
Lemma frame_cmp_tp : total_preorder frame_cmp.
Proof.
  unfold frame_cmp.
  apply (then_with_tp (fun a b => Z.compare (fl_offset a) (fl_offset b)) (fun a b => N.compare (fl_bit_size a) (fl_bit_size b)));
    apply cmp_on_tp; [exact Z_compare_tp|exact N_compare_tp].
Qed.
Lemma frame_cmp_eq a b : frame_cmp a b = Eq <-> a = b.
Proof.
  unfold frame_cmp. rewrite then_eq, Z.compare_eq_iff, N.compare_eq_iff. destruct a, b; cbn. split; [|now intros [= -> ->]].
  now intros [-> ->].
Qed.
Lemma fv_cmp_tp : total_preorder fv_cmp.
Proof.
  unfold fv_cmp.
  apply (then_with_tp (fun a b => Z.compare (fv_offset a) (fv_offset b))); [apply cmp_on_tp, Z_compare_tp|].
  apply (then_with_tp (fun a b => cmp_option N.compare (fv_size a) (fv_size b))).
  { apply (cmp_on_tp fv_size), cmp_option_tp, N_compare_tp. }
  apply (then_with_tp (fun a b => cmp_name (fv_name a) (fv_name b)));
    [apply (cmp_on_tp fv_name), NamespaceProofs.cmp_name_tp|apply cmp_on_tp, N_compare_tp].
Qed.
Lemma fv_cmp_eq a b : fv_cmp a b = Eq <->
  fv_offset a = fv_offset b /\ fv_size a = fv_size b /\ fv_name a = fv_name b /\ fv_ty a = fv_ty b.
Proof.
  unfold fv_cmp. rewrite !then_eq, Z.compare_eq_iff, N.compare_eq_iff, cmp_name_eq.
  assert (cmp_option N.compare (fv_size a) (fv_size b) = Eq <-> fv_size a = fv_size b) as ->; [|tauto].
  destruct (fv_size a), (fv_size b); cbn; try (split; congruence). rewrite N.compare_eq_iff. split; congruence.
Qed.

Lemma sorted_registers_distinct l : distinct_in_order (fun x y => N.compare x y = Lt) l (sorted_registers l).
Proof.
  apply distinct_sort; [exact N_compare_tp|..]; intros x y _ _.
  - rewrite N.compare_eq_iff. apply N.eqb_eq.
  - apply N.eqb_eq.
Qed.
Lemma frame_eqb_iff a b : frame_eqb a b = true <-> a = b.
Proof.
  rewrite <- frame_cmp_eq. unfold frame_eqb. destruct (frame_cmp a b); split; congruence.
Qed.
Lemma sorted_frames_distinct l : distinct_in_order (fun x y => frame_cmp x y = Lt) l (sorted_frames l).
Proof.
  apply distinct_sort; [exact frame_cmp_tp|..]; intros x y _ _.
  - rewrite frame_cmp_eq. apply frame_eqb_iff.
  - apply frame_eqb_iff.
Qed.
Lemma fv_eqb_iff a b : fv_prev a = fv_prev b -> fv_eqb a b = true -> a = b.
Proof.
  unfold fv_eqb. destruct (fv_cmp a b) eqn:E; try discriminate. apply fv_cmp_eq in E.
  destruct a, b; cbn in *. destruct E as (-> & -> & -> & ->). now intros ->.
Qed.

Lemma several_sorted l : several l <-> (1 < List.length (sorted_frames l))%nat.
Proof.
  destruct (sorted_frames_distinct l) as [SS I]. split.
  - intros (x & y & IX & IY & N). apply I in IX, IY. destruct (sorted_frames l) as [|a [|b s]]; cbn in *; [tauto| |lia].
    destruct IX as [<-|[]], IY as [<-|[]]. congruence.
  - destruct (sorted_frames l) as [|a [|b s]]; cbn; try lia. intros _. exists a, b.
    split; [apply I; now left|]. split; [apply I; right; now left|].
    apply StronglySorted_inv in SS. destruct SS as [_ F]. rewrite Forall_forall in F.
    specialize (F b (or_introl eq_refl)). intros <-. rewrite (tp_refl _ frame_cmp_tp) in F. discriminate.
Qed.
Lemma sorted_nil l : sorted_frames l = [] <-> l = [].
Proof.
  destruct (sorted_frames_distinct l) as [_ I]. split.
  - intros E. rewrite E in I. destruct l as [|x l]; [reflexivity|]. destruct (proj1 (I x)). now left.
  - intros ->. reflexivity.
Qed.

Lemma dec_nonempty n : dec n <> [].
Proof.
  unfold dec. destruct (N.to_uint n) as [|u|u|u|u|u|u|u|u|u|u]; try discriminate.
Qed.
Lemma frame_text_nonempty x : frame_text x <> [].
Proof.
  unfold frame_text, sdec. intros E. apply app_eq_nil in E. destruct E as [E _].
  destruct (fl_offset x <? 0)%Z; [discriminate|]. now apply dec_nonempty in E.
Qed.

(** ** Lists *)

Lemma script_rows {A} choose step dc (l1 l2 : list A) :
  total_cost step l1 + total_cost step l2 < 2 ^ 64 - 1 ->
  exists rows, edit_script choose step dc l1 l2 = Some rows /\ lefts rows = l1 /\ rights rows = l2.
Proof.
  intros C. unfold edit_script.
  match goal with |- context [diff_list _ _ _ _ _ ?f ?p] =>
    destruct (C12_list_consumed A l1 l2 step step dc p f) as (rows & E & L & R & _) end; [assumption|lia|eauto].
Qed.
Lemma script_self {A} choose step dc (l : list A) :
  total_cost step l + total_cost step l < 2 ^ 64 - 1 ->
  (forall a, In a l -> dc a a = 0 /\ 0 < step a) ->
  edit_script choose step dc l l = Some (map (fun a => MBoth a a) l).
Proof.
  intros C D. unfold edit_script. apply (C14_self_diff A l step step dc); [assumption|lia|].
  intros a I. destruct (D a I). auto.
Qed.
Lemma merge_self {A} (cmp : A -> A -> comparison) l : (forall a, In a l -> cmp a a = Eq) ->
  merge cmp l l = map (fun a => MBoth a a) l.
Proof.
  induction l as [|a l IH]; intros H; [reflexivity|]. rewrite merge_eq, (H a (or_introl eq_refl)). cbn [map].
  rewrite IH; [reflexivity|]. intros; apply H; now right.
Qed.
Lemma lefts_cons {A} (r : merge_result A A) rows : lefts (r :: rows) =
  match r with MLeft a | MBoth a _ => [a] | MRight _ => [] end ++ lefts rows.
Proof. reflexivity. Qed.
Lemma rights_cons {A} (r : merge_result A A) rows : rights (r :: rows) =
  match r with MRight b | MBoth _ b => [b] | MLeft _ => [] end ++ rights rows.
Proof. reflexivity. Qed.
Lemma both_left {A} (a b : A) rows : In (MBoth a b) rows -> In a (lefts rows).
Proof. intros I. apply in_flat_map. eexists. split; [exact I|now left]. Qed.
Lemma both_right {A} (a b : A) rows : In (MBoth a b) rows -> In b (rights rows).
Proof. intros I. apply in_flat_map. eexists. split; [exact I|now left]. Qed.
Lemma Forall2_eq {A} (l l' : list A) : Forall2 eq l l' -> l = l'.
Proof. induction 1; congruence. Qed.

Lemma identical_without d : forall n, identical n d -> identical n (without_ignored d).
Proof.
  induction d; cbn [identical without_ignored]; intros n H; try tauto; try (split; firstorder); auto.
  - destruct n; auto.
  - destruct flag; [exact I|auto].
Qed.

(** ** Comparisons in which both sides can be read, and which find nothing between equal items *)

Section Good.
  Variables NI C S H : Prop.

  (** No difference is found. *)
  Definition quiet (e : ddoc) : Prop := (forall n, identical n (without_ignored e)) /\ (NI -> same_sides e).
  Lemma quiet_nil : quiet DNil.
  Proof. split; intros; [exact I|intros n; exact I]. Qed.
  Lemma quiet_break : quiet DBreak.
  Proof. split; intros; [exact I|intros n; exact I]. Qed.
  Lemma quiet_line l v w : v = w -> quiet (DLine l v w).
  Proof. intros <-. split; intros; [reflexivity|intros n; reflexivity]. Qed.
  Lemma quiet_seq a b : quiet a -> quiet b -> quiet (DSeq a b).
  Proof. intros [A1 A2] [B1 B2]. split; [intros n; split; auto|intros N n; split; [now apply A2|now apply B2]]. Qed.
  Lemma quiet_tree c a b : quiet a -> quiet b -> quiet (DTree c a b).
  Proof. intros [A1 A2] [B1 B2]. split; [intros n; split; auto|intros N n; split; [now apply A2|now apply B2]]. Qed.
  Lemma quiet_id i a b : quiet a -> quiet b -> quiet (DId i a b).
  Proof. intros [A1 A2] [B1 B2]. split; [intros n; split; auto|intros N n; split; [now apply A2|now apply B2]]. Qed.
  Lemma quiet_section c l b : quiet b -> quiet (DSection c l b).
  Proof. intros [B1 B2]. split; [intros n; apply B1|intros N n; now apply B2]. Qed.
  Lemma quiet_inline b : quiet b -> quiet (DInline b).
  Proof. intros [B1 B2]. split; [intros [|n]; [exact I|apply B1]|intros N [|n]; [exact I|now apply B2]]. Qed.
  Lemma quiet_ignore f b : quiet b -> quiet (DIgnore f b).
  Proof. intros [B1 B2]. split; [intros n; destruct f; [exact I|apply B1]|intros N n; now apply B2]. Qed.

  Definition good (E : Prop) (e : ddoc) (p q : pdoc) : Prop :=
    (C \/ S /\ E -> reads e p q) /\ (S /\ E -> quiet e) /\ (H -> unignored e).
  Definition fine (E : Prop) (D : option ddoc) (P Q : option pdoc) : Prop :=
    exists e p q, D = Some e /\ P = Some p /\ Q = Some q /\ good E e p q.

  Lemma good_mono (E E' : Prop) e p q : (E' -> E) -> good E e p q -> good E' e p q.
  Proof. unfold good. tauto. Qed.
  Lemma good_nil E : good E DNil PNil PNil.
  Proof. split; [|split]; intros; [apply reads_nil|apply quiet_nil|exact I]. Qed.
  Lemma good_break E : good E DBreak PBreak PBreak.
  Proof. split; [|split]; intros; [|apply quiet_break|exact I]. split; [|split]; [apply same_refl..|exact I]. Qed.
  Lemma good_line (E : Prop) l v w : (S /\ E -> v = w) -> good E (DLine l v w) (PLine l v) (PLine l w).
  Proof. split; [|split]; intros; [apply reads_line|now apply quiet_line; auto|exact I]. Qed.
  Lemma good_field (E : Prop) l v w : (S /\ E -> v = w) -> good E (field2 l v w) (field l v) (field l w).
  Proof. intros X. apply good_line. intros Y. now rewrite (X Y). Qed.
  Lemma good_seq E a b p q p' q' : good E a p p' -> good E b q q' -> good E (DSeq a b) (PSeq p q) (PSeq p' q').
  Proof.
    intros (A1 & A2 & A3) (B1 & B2 & B3). split; [|split]; intros; [apply reads_seq; auto|apply quiet_seq; auto|].
    split; auto.
  Qed.
  Lemma good_tree E c a b p q p' q' : good E a p p' -> good E b q q' ->
    good E (DTree c a b) (PTree c p q) (PTree c p' q').
  Proof.
    intros (A1 & A2 & A3) (B1 & B2 & B3). split; [|split]; intros; [apply reads_tree; auto|apply quiet_tree; auto|].
    split; auto.
  Qed.
  Lemma good_id E i j k a b p q p' q' : good E a p p' -> good E b q q' ->
    good E (DId i a b) (PId j p q) (PId k p' q').
  Proof.
    intros (A1 & A2 & A3) (B1 & B2 & B3). split; [|split]; intros X; [|apply quiet_id; auto|split; auto].
    destruct (A1 X) as (O1 & N1 & U1), (B1 X) as (O2 & N2 & U2).
    split; [|split]; cbn [old_side new_side]; [now apply same_id..|now split].
  Qed.
  Lemma good_section E c l b p q : good E b p q -> good E (DSection c l b) (PSection c l p) (PSection c l q).
  Proof. intros (A1 & A2 & A3). split; [|split]; intros; [apply reads_section; auto|apply quiet_section; auto|auto]. Qed.
  Lemma reads_inline b p q : reads b p q -> reads (DInline b) (PInline p) (PInline q).
  Proof.
    intros (O & N & U). split; [|split]; cbn [old_side new_side]; [..|exact U]; intros [|d] i; cbn [lines]; auto.
  Qed.
  Lemma good_inline E b p q : good E b p q -> good E (DInline b) (PInline p) (PInline q).
  Proof. intros (A1 & A2 & A3). split; [|split]; intros; [apply reads_inline; auto|apply quiet_inline; auto|auto]. Qed.
  Lemma good_ignore E f b p q : (H -> f = false) -> good E b p q -> good E (DIgnore f b) p q.
  Proof.
    intros F (A1 & A2 & A3). split; [|split]; intros X; [|apply quiet_ignore; auto|split; auto].
    destruct (A1 X) as (O & N & U). split; [|split]; auto.
  Qed.
  Lemma good_dseq E es ps qs : Forall2 (fun e pq => good E e (fst pq) (snd pq)) es (combine ps qs) ->
    List.length ps = List.length qs -> good E (dseq es) (pseq ps) (pseq qs).
  Proof.
    revert es qs. induction ps as [|p ps IH]; intros es [|q qs] F L; try discriminate.
    - inversion F; subst. apply good_nil.
    - cbn [combine] in F. inversion F; subst. apply good_seq; [assumption|]. apply IH; auto.
  Qed.

  Lemma fine_mono (E E' : Prop) D P Q : (E' -> E) -> fine E D P Q -> fine E' D P Q.
  Proof. intros X (e & p & q & -> & -> & -> & G). exists e, p, q. eauto using good_mono. Qed.
  Lemma fine_some E e p q : good E e p q -> fine E (Some e) (Some p) (Some q).
  Proof. intros G. exists e, p, q. auto. Qed.
  Lemma fine_bind E D P Q F G K : fine E D P Q ->
    (forall e p q, good E e p q -> fine E (F e) (G p) (K q)) -> fine E (bind D F) (bind P G) (bind Q K).
  Proof. intros (e & p & q & -> & -> & -> & X) Y. cbn [bind]. auto. Qed.
  Lemma fine_if E (b : bool) D P Q : (b = true -> fine E D P Q) ->
    fine E (if b then D else Some DNil) (if b then P else Some PNil) (if b then Q else Some PNil).
  Proof. destruct b; auto. intros _. apply fine_some, good_nil. Qed.
  Lemma fine_section E l D P Q : fine E D P Q -> fine E (dsection_of l D) (section_of l P) (section_of l Q).
  Proof. intros X. apply fine_bind; [exact X|]. intros. now apply fine_some, good_section. Qed.
  Lemma fine_collapsed E l D P Q : fine E D P Q -> fine E (dcollapsed_of l D) (collapsed_of l P) (collapsed_of l Q).
  Proof. intros X. apply fine_bind; [exact X|]. intros. now apply fine_some, good_section. Qed.


  Lemma good_same E e p q p' q' : same_lines p p' -> same_lines q q' -> good E e p q -> good E e p' q'.
  Proof.
    intros SP SQ (G1 & G2). split; [|exact G2]. intros X. destruct (G1 X) as (O & N & U).
    split; [|split; [|exact U]]; intros d i; [now rewrite O|now rewrite N].
  Qed.
  Lemma good_delete (E : Prop) p : ~ (S /\ E) -> good E (DDelete p) p PNil.
  Proof. intros X. split; [|split]; [intros _|tauto|intros _; exact I]. split; [|split]; [apply same_refl..|exact I]. Qed.
  Lemma good_add (E : Prop) p : ~ (S /\ E) -> good E (DAdd p) PNil p.
  Proof. intros X. split; [|split]; [intros _|tauto|intros _; exact I]. split; [|split]; [apply same_refl..|exact I]. Qed.

  (** Lists, item by item; [R] relates items to those that are printed instead. *)
  Lemma rows_fine {A} (R : A -> A -> Prop) (pa pb : A -> option pdoc) df E rows :
    (forall a, R a a) ->
    (forall a, In a (lefts rows) -> exists p, pa a = Some p) ->
    (forall b, In b (rights rows) -> exists p, pb b = Some p) ->
    (forall a b, In (MBoth a b) rows -> exists a' b', R a a' /\ R b b' /\ fine (a = b) (df a b) (pa a') (pb b')) ->
    (S /\ E -> exists l, rows = map (fun a => MBoth a a) l) ->
    exists l1 l2, Forall2 R (lefts rows) l1 /\ Forall2 R (rights rows) l2 /\
      fine E (all_rows pa pb df rows) (all_printed pa l1) (all_printed pb l2).
  Proof.
    intros RR. induction rows as [|r rows IH]; intros HA HB HD HE.
    - exists [], []. split; [constructor|]. split; [constructor|]. apply fine_some, good_nil.
    - destruct IH as (l1 & l2 & F1 & F2 & X).
      + intros a I. apply HA. rewrite lefts_cons. apply in_or_app. now right.
      + intros a I. apply HB. rewrite rights_cons. apply in_or_app. now right.
      + intros a b I. apply HD. now right.
      + intros Y. destruct (HE Y) as ([|a l] & Z); [discriminate|]. injection Z as _ ->. eauto.
      + rewrite lefts_cons, rights_cons. cbn [all_rows].
        destruct r as [a|b|a b].
        * exists (a :: l1), l2. split; [constructor; auto|]. split; [exact F2|].
          destruct (HA a) as (p & EP); [rewrite lefts_cons; now left|].
          destruct X as (e & p' & q' & -> & EP' & -> & G). cbn [row_doc all_printed]. rewrite EP, EP'. cbn [bind].
          apply fine_some. apply (good_same _ _ (PSeq p p') (PSeq PNil q')); [apply same_refl|apply same_nil_seq, same_refl|].
          apply good_seq; [|exact G]. apply good_delete. intros Y. destruct (HE Y) as ([|? ?] & Z); discriminate.
        * exists l1, (b :: l2). split; [exact F1|]. split; [constructor; auto|].
          destruct (HB b) as (p & EP); [rewrite rights_cons; now left|].
          destruct X as (e & p' & q' & -> & -> & EP' & G). cbn [row_doc all_printed]. rewrite EP, EP'. cbn [bind].
          apply fine_some. apply (good_same _ _ (PSeq PNil p') (PSeq p q')); [apply same_nil_seq, same_refl|apply same_refl|].
          apply good_seq; [|exact G]. apply good_add. intros Y. destruct (HE Y) as ([|? ?] & Z); discriminate.
        * destruct (HD a b (or_introl eq_refl)) as (a' & b' & RA & RB & XD).
          exists (a' :: l1), (b' :: l2). split; [constructor; auto|]. split; [constructor; auto|].
          cbn [row_doc all_printed]. destruct X as (e & p' & q' & -> & -> & -> & G).
          destruct XD as (e1 & p1 & q1 & -> & -> & -> & (G1 & G2 & G3)). cbn [bind]. apply fine_some.
          apply good_seq; [|exact G].
          assert (AB : S /\ E -> S /\ a = b).
          { intros Y. destruct (HE Y) as ([|c l] & Z); [discriminate|]. injection Z as -> -> _. split; [apply Y|reflexivity]. }
          split; [|split]; auto. intros [Y|Y]; auto.
  Qed.

  Lemma compared_fine_up {A} (R : A -> A -> Prop) choose step dc (pa pb : A -> option pdoc) df (E : Prop) l1 l2 :
    (forall a, R a a) ->
    total_cost step l1 + total_cost step l2 < 2 ^ 64 - 1 ->
    (forall a, In a l1 -> exists p, pa a = Some p) -> (forall b, In b l2 -> exists p, pb b = Some p) ->
    (forall a b, In a l1 -> In b l2 -> exists a' b', R a a' /\ R b b' /\ fine (a = b) (df a b) (pa a') (pb b')) ->
    (S /\ E -> l1 = l2 /\ forall a, In a l1 -> dc a a = 0 /\ 0 < step a) ->
    exists l1' l2', Forall2 R l1 l1' /\ Forall2 R l2 l2' /\
      fine E (compared_list choose step dc pa pb df l1 l2) (all_printed pa l1') (all_printed pb l2').
  Proof.
    intros RR TC HA HB HD HE. unfold compared_list.
    destruct (script_rows choose step dc l1 l2 TC) as (rows & ER & L & RI). rewrite ER. cbn [bind].
    destruct (rows_fine R pa pb df E rows) as (l1' & l2' & F1 & F2 & X);
      [assumption|rewrite L; assumption|rewrite RI; assumption|..|exists l1', l2'; now rewrite L in F1; rewrite RI in F2].
    - intros a b I. apply HD; [rewrite <- L|rewrite <- RI]; [eapply both_left|eapply both_right]; exact I.
    - intros Y. destruct (HE Y) as [-> D]. rewrite (script_self choose step dc l2 TC D) in ER. injection ER as <-. eauto.
  Qed.
  Lemma compared_fine {A} choose step dc (pa pb : A -> option pdoc) df (E : Prop) l1 l2 :
    total_cost step l1 + total_cost step l2 < 2 ^ 64 - 1 ->
    (forall a, In a l1 -> exists p, pa a = Some p) -> (forall b, In b l2 -> exists p, pb b = Some p) ->
    (forall a b, In a l1 -> In b l2 -> fine (a = b) (df a b) (pa a) (pb b)) ->
    (S /\ E -> l1 = l2 /\ forall a, In a l1 -> dc a a = 0 /\ 0 < step a) ->
    fine E (compared_list choose step dc pa pb df l1 l2) (all_printed pa l1) (all_printed pb l2).
  Proof.
    intros TC HA HB HD HE.
    destruct (compared_fine_up eq choose step dc pa pb df E l1 l2) as (l1' & l2' & F1 & F2 & X); auto.
    - intros a b IA IB. exists a, b. auto.
    - apply Forall2_eq in F1, F2. now subst.
  Qed.
  Lemma ord_fine {A} cmp (pa pb : A -> option pdoc) df (E : Prop) l1 l2 :
    (forall a, In a l1 -> exists p, pa a = Some p) -> (forall b, In b l2 -> exists p, pb b = Some p) ->
    (forall a b, In a l1 -> In b l2 -> fine (a = b) (df a b) (pa a) (pb b)) ->
    (S /\ E -> l1 = l2 /\ forall a, In a l1 -> cmp a a = Eq) ->
    fine E (compared_ord_list cmp pa pb df l1 l2) (all_printed pa l1) (all_printed pb l2).
  Proof.
    intros HA HB HD HE. unfold compared_ord_list. rewrite merge_all_total.
    destruct (rows_fine eq pa pb df E (merge cmp l1 l2)) as (l1' & l2' & F1 & F2 & X).
    - reflexivity.
    - rewrite merge_lefts. assumption.
    - rewrite merge_rights. assumption.
    - intros a b I. exists a, b. split; [reflexivity|]. split; [reflexivity|]. apply HD.
      + rewrite <- (merge_lefts cmp l1 l2). eapply both_left; exact I.
      + rewrite <- (merge_rights cmp l1 l2). eapply both_right; exact I.
    - intros Y. destruct (HE Y) as [-> D]. rewrite (merge_self cmp l2 D). eauto.
    - apply Forall2_eq in F1, F2. rewrite merge_lefts in F1. rewrite merge_rights in F2. now subst.
  Qed.
  (** Lists with one line for each item. *)
  Lemma lines_fine {A} choose step dc (va vb : A -> value) (E : Prop) l1 l2 :
    total_cost step l1 + total_cost step l2 < 2 ^ 64 - 1 ->
    (S -> forall a, va a = vb a) ->
    (S /\ E -> l1 = l2 /\ forall a, In a l1 -> dc a a = 0 /\ 0 < step a) ->
    fine E (compared_list choose step dc (fun x => Some (PLine [] (va x))) (fun x => Some (PLine [] (vb x)))
              (fun x y => Some (DLine [] (va x) (vb y))) l1 l2)
      (all_printed (fun x => Some (PLine [] (va x))) l1) (all_printed (fun x => Some (PLine [] (vb x))) l2).
  Proof.
    intros TC V HE. apply compared_fine; auto; [eauto|eauto|].
    intros a b _ _. apply fine_some, good_line. intros [Y ->]. auto.
  Qed.
End Good.

Lemma short_cost {A} (step : A -> N) l1 l2 : (forall a, step a = 1) -> short l1 -> short l2 ->
  total_cost step l1 + total_cost step l2 < 2 ^ 64 - 1.
Proof. intros X S1 S2. rewrite !(short_total step 1) by assumption. unfold short in *. lia. Qed.
Lemma short_map {A B} (f : A -> B) l : short l -> short (map f l).
Proof. unfold short. now rewrite map_length. Qed.
Lemma short_sort {A} cmp (l : list A) : short l -> short (stable_sort cmp l).
Proof. unfold short. now rewrite (Permutation_length (stable_sort_perm cmp l)). Qed.
Lemma short_le {A B} (l : list A) (l' : list B) : (List.length l' <= List.length l)%nat -> short l -> short l'.
Proof. unfold short. lia. Qed.

(** ** Functions *)

Section Entries.
  Variable choose : list N -> list N -> list (list N) -> nat -> nat.
  Variable o : options.
  Variable ss : scenes.
  Variables da db : option string.
  Local Notation A := (ss_a ss).
  Local Notation B := (ss_b ss).
  Variable C : Prop.

  (** The file compared with itself. *)
  Definition one_file : Prop :=
    A = B /\ da = db /\ acyclic_view (sc_view A) /\ compares_types (ss_sides ss).
  Local Notation S' := one_file.
  Local Notation H' := (heeds_functions o).
  Local Notation NI' := (p_function_instructions (o_print o) = false).
  Local Notation fine := (fine NI' C S' H').
  Local Notation good := (good NI' C S' H').

  Ltac self := intros [(? & ? & _) ?]; congruence.

  Lemma pieces_fine (E : Prop) l1 l2 : short l1 -> short l2 -> (E -> l1 = l2) ->
    fine E (diff_pieces choose ss l1 l2) (print_pieces A l1) (print_pieces B l2).
  Proof.
    intros S1 S2 X. unfold diff_pieces, print_pieces, print_lines.
    apply (lines_fine NI' C S' H' choose location_step location_cost
             (fun x => VText (location_text A x)) (fun x => VText (location_text B x))).
    - apply short_cost; [reflexivity|now apply short_map..].
    - intros (SA & _) a. congruence.
    - intros [_ Y]. rewrite (X Y). split; [reflexivity|]. intros a _. split; [|reflexivity].
      unfold location_cost. assert (location_eqb a a = true) as ->; [|reflexivity].
      destruct a; cbn; rewrite ?N.eqb_refl, ?Z.eqb_refl; reflexivity.
  Qed.
  Lemma registers_fine (E : Prop) l1 l2 : short l1 -> short l2 -> (E -> l1 = l2) ->
    fine E (diff_registers choose ss l1 l2) (print_registers A l1) (print_registers B l2).
  Proof.
    intros S1 S2 X. unfold diff_registers, print_registers. apply (fine_section _ _ _ _ _ "registers").
    apply (lines_fine NI' C S' H' choose register_step register_cost
             (fun x => VText (register_text (sc_register A) x)) (fun x => VText (register_text (sc_register B) x))).
    - apply short_cost; [reflexivity|..]; eapply short_le; try apply dedup_length; now apply short_sort.
    - intros (SA & _) a. congruence.
    - intros [_ Y]. rewrite (X Y). split; [reflexivity|]. intros a _. split; [|reflexivity].
      unfold register_cost. now rewrite N.eqb_refl.
  Qed.

  Lemma frames_fine (E : Prop) l1 l2 : (C -> frames_alike l1 l2) -> (E -> l1 = l2) ->
    fine E (diff_frames l1 l2) (print_frames l1) (print_frames l2).
  Proof.
    intros AL X.
    assert (AL' : C \/ S' /\ E -> frames_alike l1 l2).
    { intros [Y|[_ Y]]; [auto|]. rewrite (X Y). split; auto. }
    clear AL.
    unfold diff_frames. rewrite orb_diag.
    assert (PF : forall l, exists p, print_frames l = Some p).
    { intros l. unfold print_frames. destruct (sorted_frames l) as [|x [|y s]]; [eauto|eauto|].
      unfold print_lines. destruct (all_printed_ex (fun x : frame_location => Some (PLine [] (VText (frame_text x)))) (x :: y :: s))
        as (p & ->); [eauto|]. cbn [bind]. eauto. }
    destruct (1 <? List.length (sorted_frames l1))%nat eqn:L1.
    - set (pl := fun x : frame_location => Some (PLine [] (VText (frame_text x)))).
      assert (F : fine E (compared_ord_list frame_cmp pl pl
                 (fun x y => Some (DLine [] (VText (frame_text x)) (VText (frame_text y)))) (sorted_frames l1) (sorted_frames l2))
                 (all_printed pl (sorted_frames l1)) (all_printed pl (sorted_frames l2))).
      { apply ord_fine; [unfold pl; eauto|unfold pl; eauto|..].
        - intros a b _ _. apply fine_some, good_line. intros [_ ->]. reflexivity.
        - intros [_ Y]. rewrite (X Y). split; [reflexivity|]. intros. apply (tp_refl _ frame_cmp_tp). }
      destruct F as (e & p & q & -> & EP & EQ & G). cbn [bind].
      apply (good_section _ _ _ _ _ false (txt "stack frame")) in G.
      destruct (PF l2) as (q' & EQ'). exists (DSection false (txt "stack frame") e), (PSection false (txt "stack frame") p), q'.
      split; [reflexivity|]. split; [|split; [exact EQ'|]].
      { unfold print_frames, print_lines. fold pl. destruct (sorted_frames l1) as [|x [|y s]]; try discriminate.
        rewrite EP. reflexivity. }
      destruct G as (G1 & G2). split; [|exact G2]. intros Y. destruct (G1 Y) as (O & N & U).
      split; [exact O|]. split; [|exact U]. destruct (AL' Y) as [_ A2].
      apply Nat.ltb_lt, several_sorted in L1. specialize (A2 L1). intros d i. rewrite N. clear N.
      unfold print_frames, print_lines in EQ'. fold pl in EQ'.
      destruct A2 as [A2|A2].
      + apply several_sorted in A2. destruct (sorted_frames l2) as [|x [|y s]]; cbn [List.length] in A2; try lia.
        rewrite EQ in EQ'. cbn [bind] in EQ'. now injection EQ' as <-.
      + subst l2. cbn in EQ, EQ'. injection EQ as <-. injection EQ' as <-. reflexivity.
    - destruct (PF l1) as (p & EP), (PF l2) as (q & EQ).
      exists (field2 "stack frame" (first_frame (sorted_frames l1)) (first_frame (sorted_frames l2))), p, q.
      split; [reflexivity|]. split; [exact EP|]. split; [exact EQ|].
      assert (G : good E (field2 "stack frame" (first_frame (sorted_frames l1)) (first_frame (sorted_frames l2)))
                  (field "stack frame" (first_frame (sorted_frames l1))) (field "stack frame" (first_frame (sorted_frames l2)))).
      { apply good_field. intros [_ Y]. now rewrite (X Y). }
      destruct G as (G1 & G2). split; [|exact G2]. intros Y. destruct (G1 Y) as (O & N & U).
      destruct (AL' Y) as [A1 _].
      assert (K : forall l p, ~ several l -> print_frames l = Some p ->
                  same_lines (field "stack frame" (first_frame (sorted_frames l))) p).
      { clear. intros l p NS EP. rewrite several_sorted in NS. unfold print_frames in EP.
        destruct (sorted_frames l) as [|x [|y s]]; cbn [List.length] in NS; [| |lia]; injection EP as <-;
          [intros d i; reflexivity|apply same_refl]. }
      apply Nat.ltb_ge in L1.
      assert (N1 : ~ several l1) by (rewrite several_sorted; lia).
      assert (N2 : ~ several l2) by auto.
      split; [|split; [|exact U]]; intros d i.
      + rewrite O. now apply K.
      + rewrite N. now apply K.
  Qed.

  Lemma registers_short l : short l -> short (registers_of l).
  Proof.
    unfold registers_of. intros SL. apply short_map. eapply short_le; [|exact SL]. clear.
    unfold registers. induction l as [|x l IH]; cbn [flat_map List.length]; [lia|]. rewrite app_length.
    destruct (pc_is_value (snd x)); cbn [List.length]; [lia|]. destruct (pc_location (snd x)); cbn [List.length]; lia.
  Qed.
  Lemma settled_alike l1 l2 : p_variable_locations (o_print o) = true ->
    settled o l1 -> settled o l2 -> frames_alike (frames_of l1) (frames_of l2).
  Proof. intros V S1 S2. specialize (S1 V). specialize (S2 V). split; tauto. Qed.

  (** *** Parameters and local variables *)

  Lemma print_registers_some sc l : exists p, print_registers sc l = Some p.
  Proof.
    unfold print_registers, print_lines.
    destruct (all_printed_ex (fun x => Some (PLine [] (VText (register_text (sc_register sc) x)))) (sorted_registers l)) as (p & ->);
      cbn [bind]; eauto.
  Qed.
  Lemma print_frames_some l : exists p, print_frames l = Some p.
  Proof.
    unfold print_frames. destruct (sorted_frames l) as [|x [|y s]]; [eauto|eauto|].
    unfold print_lines. destruct (all_printed_ex (fun x : frame_location => Some (PLine [] (VText (frame_text x)))) (x :: y :: s))
        as (p & ->); [eauto|]. cbn [bind]. eauto.
  Qed.
  Lemma print_formal_some sc p : exists d, print_formal o sc p = Some d.
  Proof.
    unfold print_formal. destruct (p_variable_locations (o_print o)); cbn [bind]; [|eauto].
    destruct (print_registers_some sc (registers_of (fo_locations p))) as (r & ->).
    destruct (print_frames_some (frames_of (fo_locations p))) as (f & ->). cbn [bind]. eauto.
  Qed.
  Lemma print_slot_some sc v : exists d, print_slot o sc v = Some d.
  Proof.
    unfold print_slot. destruct (p_variable_locations (o_print o)); cbn [bind]; [|eauto].
    destruct (print_registers_some sc (registers_of (sl_locations v))) as (r & ->).
    destruct (print_frames_some (frames_of (sl_locations v))) as (f & ->). cbn [bind]. eauto.
  Qed.

  Lemma formal_fine a b : short_formal a -> short_formal b ->
    (C -> settled o (fo_locations a)) -> (C -> settled o (fo_locations b)) ->
    fine (a = b) (diff_formal choose o ss a b) (print_formal o A a) (print_formal o B b).
  Proof.
    intros S1 S2 T1 T2. unfold diff_formal, print_formal. apply fine_bind.
    - apply fine_if. intros V. apply fine_bind.
      { apply registers_fine; [now apply registers_short..|congruence]. }
      intros e p q G. apply fine_bind.
      { apply frames_fine; [|congruence]. intros Y. apply settled_alike; auto. }
      intros e' p' q' G'. apply fine_some. unfold dseq, pseq. cbn [fold_right]. repeat apply good_seq; auto. apply good_nil.
    - intros e p q G. apply fine_some, good_tree; [|exact G]. apply good_line. self.
  Qed.
  Lemma slot_fine a b : short_slot a -> short_slot b ->
    (C -> settled o (sl_locations a)) -> (C -> settled o (sl_locations b)) ->
    fine (a = b) (diff_slot choose o ss a b) (print_slot o A a) (print_slot o B b).
  Proof.
    intros S1 S2 T1 T2. unfold diff_slot, print_slot. apply fine_bind.
    - apply fine_if. intros V. apply fine_bind.
      { apply registers_fine; [now apply registers_short..|congruence]. }
      intros e p q G. apply fine_bind.
      { apply frames_fine; [|congruence]. intros Y. apply settled_alike; auto. }
      intros e' p' q' G'. apply fine_some. unfold dseq, pseq. cbn [fold_right].
      repeat apply good_seq; auto; [|apply good_nil]. apply good_ignore; [intros Y; apply Y|].
      apply good_field. self.
    - intros e p q G. apply fine_some, good_tree; [|exact G]. apply good_line. self.
  Qed.

  Lemma same_name_self n : swap_cost (cmp_name n n) 1 = 0.
  Proof. now rewrite (proj2 (cmp_name_eq n n) eq_refl). Qed.
  Lemma same_type_self t w : S' -> type_cost (ss_sides ss) w t t = 0.
  Proof.
    intros (SA & _ & AC & CT). unfold ss_sides in *. rewrite <- SA in *. now apply type_cost_self.
  Qed.

  Lemma formals_fine (E : Prop) l1 l2 : short l1 -> short l2 -> Forall short_formal l1 -> Forall short_formal l2 ->
    (C -> Forall (fun p => settled o (fo_locations p)) l1) -> (C -> Forall (fun p => settled o (fo_locations p)) l2) ->
    (E -> l1 = l2) ->
    fine E (diff_formals choose o ss l1 l2) (all_printed (print_formal o A) l1) (all_printed (print_formal o B) l2).
  Proof.
    intros S1 S2 F1 F2 T1 T2 X. rewrite Forall_forall in F1, F2. apply compared_fine.
    - now apply short_cost.
    - intros; apply print_formal_some.
    - intros; apply print_formal_some.
    - intros a b IA IB. apply formal_fine; auto; intros Y; [specialize (T1 Y)|specialize (T2 Y)];
        rewrite Forall_forall in *; auto.
    - intros [Y Z]. rewrite (X Z). split; [reflexivity|]. intros a _. split; [|reflexivity].
      unfold formal_cost. now rewrite same_name_self, same_type_self.
  Qed.
  Lemma slots_in x l : In x (slots_by_name l) -> In x l.
  Proof. apply Permutation_in. apply stable_sort_perm. Qed.
  Lemma slots_fine (E : Prop) l1 l2 : short l1 -> short l2 -> Forall short_slot l1 -> Forall short_slot l2 ->
    (C -> Forall (fun p => settled o (sl_locations p)) l1) -> (C -> Forall (fun p => settled o (sl_locations p)) l2) ->
    (E -> l1 = l2) ->
    fine E (diff_slots choose o ss l1 l2) (all_printed (print_slot o A) (slots_by_name l1))
      (all_printed (print_slot o B) (slots_by_name l2)).
  Proof.
    intros S1 S2 F1 F2 T1 T2 X. rewrite Forall_forall in F1, F2. apply compared_fine.
    - apply short_cost; [reflexivity|now apply short_sort..].
    - intros; apply print_slot_some.
    - intros; apply print_slot_some.
    - intros a b IA IB. apply slots_in in IA, IB. apply slot_fine; auto; intros Y; [specialize (T1 Y)|specialize (T2 Y)];
        rewrite Forall_forall in *; auto.
    - intros [Y Z]. rewrite (X Z). split; [reflexivity|]. intros a _. split; [|reflexivity].
      unfold slot_cost. now rewrite same_name_self, same_type_self.
  Qed.

  (** *** Call sites *)

  Lemma print_pieces_some sc l : exists p, print_pieces sc l = Some p.
  Proof. unfold print_pieces, print_lines. apply all_printed_ex. eauto. Qed.
  Lemma print_argument_some sc x : exists p, print_argument o sc x = Some p.
  Proof.
    unfold print_argument, section_of. destruct (p_variable_locations (o_print o)); cbn [bind]; [|eauto].
    destruct (print_pieces_some sc (ar_location x)) as (? & ->), (print_pieces_some sc (ar_value x)) as (? & ->),
      (print_pieces_some sc (ar_data_location x)) as (? & ->), (print_pieces_some sc (ar_data_value x)) as (? & ->).
    cbn [bind]. eauto.
  Qed.
  Lemma print_site_some sc dir x : exists p, print_site o sc dir x = Some p.
  Proof.
    unfold print_site, section_of.
    destruct (all_printed_ex (print_argument o sc) (si_arguments x)) as (p & ->); [intros; apply print_argument_some|].
    destruct (print_pieces_some sc (si_target x)) as (? & ->).
    destruct (p_variable_locations (o_print o)); cbn [bind]; eauto.
  Qed.

  Lemma argument_fine a b : short_argument a -> short_argument b ->
    fine (a = b) (diff_argument choose o ss a b) (print_argument o A a) (print_argument o B b).
  Proof.
    intros (S1 & S2 & S3 & S4) (T1 & T2 & T3 & T4). unfold diff_argument, print_argument. apply fine_bind.
    - apply fine_if. intros _.
      apply fine_bind; [apply fine_section, pieces_fine; auto; congruence|]. intros.
      apply fine_bind; [apply fine_section, pieces_fine; auto; congruence|]. intros.
      apply fine_bind; [apply fine_section, pieces_fine; auto; congruence|]. intros.
      apply fine_bind; [apply fine_section, pieces_fine; auto; congruence|]. intros.
      apply fine_some. unfold dseq, pseq. cbn [fold_right]. repeat apply good_seq; auto. apply good_nil.
    - intros e p q G. apply fine_some, good_tree; [|exact G]. apply good_line. self.
  Qed.
  Lemma by_position_lefts {X} (l1 l2 : list X) : lefts (by_position l1 l2) = l1 /\ rights (by_position l1 l2) = l2.
  Proof.
    assert (L : forall l : list X, lefts (map (@MLeft X X) l) = l /\ rights (map (@MLeft X X) l) = [] /\
                  lefts (map (@MRight X X) l) = [] /\ rights (map (@MRight X X) l) = l).
    { induction l as [|x l (IH1 & IH2 & IH3 & IH4)]; [auto|]. cbn [map]. rewrite !lefts_cons, !rights_cons, IH1, IH2, IH3, IH4. auto. }
    revert l2. induction l1 as [|a l1 IH]; intros [|b l2]; cbn [by_position].
    - auto.
    - split; apply L.
    - split; apply L.
    - rewrite lefts_cons, rights_cons. destruct (IH l2) as [-> ->]. auto.
  Qed.
  Lemma by_position_self {X} (l : list X) : by_position l l = map (fun a => MBoth a a) l.
  Proof. induction l; cbn; congruence. Qed.

  Lemma arguments_fine (E : Prop) l1 l2 : Forall short_argument l1 -> Forall short_argument l2 -> (E -> l1 = l2) ->
    fine E (all_rows (print_argument o A) (print_argument o B) (diff_argument choose o ss) (by_position l1 l2))
      (all_printed (print_argument o A) l1) (all_printed (print_argument o B) l2).
  Proof.
    intros F1 F2 X. rewrite Forall_forall in F1, F2. destruct (by_position_lefts l1 l2) as [L R].
    destruct (rows_fine NI' C S' H' eq (print_argument o A) (print_argument o B) (diff_argument choose o ss) E
                (by_position l1 l2)) as (l1' & l2' & E1 & E2 & Y).
    - reflexivity.
    - intros; apply print_argument_some.
    - intros; apply print_argument_some.
    - intros a b I. exists a, b. split; [reflexivity|]. split; [reflexivity|]. apply argument_fine.
      + apply F1. rewrite <- L. eapply both_left; exact I.
      + apply F2. rewrite <- R. eapply both_right; exact I.
    - intros [_ Y]. rewrite (X Y), by_position_self. eauto.
    - apply Forall2_eq in E1, E2. rewrite L in E1. rewrite R in E2. now subst.
  Qed.

  Lemma site_fine a b : short_site a -> short_site b ->
    fine (a = b) (diff_site choose o ss da db a b) (print_site o A da a) (print_site o B db b).
  Proof.
    intros (S1 & S2) (T1 & T2). unfold diff_site, print_site.
    apply fine_bind; [apply fine_if; intros _; apply fine_section, pieces_fine; auto; congruence|]. intros e p q G.
    apply fine_bind.
    - assert (X := arguments_fine (a = b) (si_arguments a) (si_arguments b) S2 T2 ltac:(congruence)).
      apply (fine_section _ _ _ _ _ "parameters") in X.
      destruct (negb (is_empty (si_arguments a)) || negb (is_empty (si_arguments b))) eqn:N; [exact X|].
      destruct (si_arguments a), (si_arguments b); try discriminate. apply fine_some.
      apply (good_same _ _ _ _ _ _ PNil PNil); [intros ? ?; reflexivity..|]. apply good_nil.
    - intros e' p' q' G'. apply fine_some, good_tree; [apply good_line; self|].
      unfold dseq, pseq. cbn [fold_right]. repeat apply good_seq; auto; [..|apply good_nil].
      + apply good_field. self.
      + destruct (p_source (o_print o)); [|apply good_nil]. apply good_field. self.
  Qed.

  Lemma function_cmp_self f : function_cmp_id f f = Eq.
  Proof. rewrite function_cmp_id_key. apply (tp_refl _ NamespaceProofs.cmp_item_tp). Qed.
  Lemma opt_N_eqb_refl x : opt_N_eqb x x = true.
  Proof. destruct x; cbn; [apply N.eqb_refl|reflexivity]. Qed.
  Lemma site_cost_self x : site_cost x x = 0.
  Proof.
    unfold site_cost. rewrite !opt_N_eqb_refl.
    assert (kind_eqb (si_kind x) (si_kind x) = true) as -> by (now destruct (si_kind x)).
    destruct (si_origin x) as [[]|]; cbn; rewrite ?function_cmp_self; reflexivity.
  Qed.
  Lemma sites_fine (E : Prop) l1 l2 : short l1 -> short l2 -> Forall short_site l1 -> Forall short_site l2 ->
    (E -> l1 = l2) ->
    fine E (diff_sites choose o ss da db l1 l2) (all_printed (print_site o A da) l1) (all_printed (print_site o B db) l2).
  Proof.
    intros S1 S2 F1 F2 X. rewrite Forall_forall in F1, F2. apply compared_fine.
    - now apply short_cost.
    - intros; apply print_site_some.
    - intros; apply print_site_some.
    - intros a b IA IB. apply site_fine; auto.
    - intros [_ Z]. rewrite (X Z). split; [reflexivity|]. intros a _. split; [|reflexivity]. apply site_cost_self.
  Qed.

  (** *** Inlined functions *)

  Definition code_size (x : inlined) : N := if il_size x =? u64_max then 0 else il_size x.
  Lemma size_or_0_eq x : size_or_0 (il_size x) = code_size x.
  Proof.
    unfold size_or_0, unwrap_or_0, opt64_get, opt64_is_none, opt64_none, code_size.
    destruct (il_size x =? u64_max); reflexivity.
  Qed.
  Lemma code_size_le l x : In x l -> code_size x <= fold_right N.add 0 (map code_size l).
  Proof. induction l as [|y l IH]; cbn; [tauto|]. intros [<-|I]; [lia|]. specialize (IH I). lia. Qed.
  Lemma inlined_step_eq x : code_size x < 2 ^ 60 -> inlined_step x = 2 + 4 * code_size x.
  Proof.
    intros L. unfold inlined_step, add64, mul64, wrap64, two64. rewrite size_or_0_eq.
    rewrite !N.mod_small; [reflexivity|..]; rewrite ?N.mod_small; lia.
  Qed.
  Lemma modest_cost l : modest l -> total_cost inlined_step l < 6 * 2 ^ 60 /\ forall x, In x l -> 0 < inlined_step x.
  Proof.
    intros [SL SS]. fold code_size in SS. change (map (fun x => if il_size x =? u64_max then 0 else il_size x) l) with (map code_size l) in SS.
    split.
    - unfold short in SL.
      enough (total_cost inlined_step l = 2 * N.of_nat (List.length l) + 4 * fold_right N.add 0 (map code_size l)) by lia.
      clear SL. induction l as [|x l IH]; cbn [total_cost fold_right List.length map]; [reflexivity|].
      change (fold_right (fun a s => inlined_step a + s) 0 l) with (total_cost inlined_step l).
      cbn [map fold_right] in SS. rewrite IH, inlined_step_eq by lia. lia.
    - intros x I. apply code_size_le in I. rewrite inlined_step_eq; lia.
  Qed.
  Lemma inlined_cost_self x : S' -> inlined_cost ss da db x x = 0.
  Proof.
    intros (SA & SD & _). unfold inlined_cost. rewrite <- SA, <- SD, !N.eqb_refl.
    assert (opt_string_cost (source_path da (il_source x)) (source_path da (il_source x)) = true) as ->.
    { unfold opt_string_cost. destruct (source_path da (il_source x)) as [s|]; [|reflexivity]. cbn.
      now rewrite (proj2 (cmp_string_eq s s) eq_refl). }
    destruct (sc_function A (il_origin x)); [rewrite function_cmp_self|]; cbn [swap_cost andb];
      unfold mul64, wrap64; now rewrite N.mul_0_l.
  Qed.

  Lemma inlined_rearranged x : rearranged x x.
  Proof.
    revert x. fix IH 1. intros [or si so ps vs inner cs]. constructor; [reflexivity|].
    induction inner as [|y inner IHi]; constructor; [apply IH|exact IHi].
  Qed.

  Lemma print_inlined_S f sc dir x : print_inlined o (S f) sc dir x =
    bind (if p_inlined_function_parameters (o_print o)
            then section_of "parameters" (all_printed (print_formal o sc) (il_parameters x))
            else Some PNil) (fun params =>
      bind (if p_function_variables (o_print o)
            then collapsed_of "variables" (all_printed (print_slot o sc) (il_variables x))
            else Some PNil) (fun vars =>
      bind (if p_function_calls (o_print o)
            then collapsed_of "call sites" (all_printed (print_site o sc dir) (il_calls x))
            else Some PNil) (fun calls =>
      bind (all_printed (print_inlined o f sc dir) (il_inlined x)) (fun inner =>
      Some (PTree true (PLine [] (inlined_value sc x))
              (pseq [(if p_source (o_print o) then field "call source" (source_text dir (il_source x)) else PNil);
                     params; vars; calls; PInline inner])))))).
  Proof. reflexivity. Qed.
  Lemma diff_inlined_S f a b : diff_inlined choose o ss (S f) da db a b =
        bind (if p_inlined_function_parameters (o_print o)
              then dsection_of "parameters" (diff_formals choose o ss (il_parameters a) (il_parameters b))
              else Some DNil) (fun params =>
        bind (if p_function_variables (o_print o)
              then dcollapsed_of "variables" (diff_slots choose o ss (il_variables a) (il_variables b))
              else Some DNil) (fun vars =>
        bind (if p_function_calls (o_print o)
              then dcollapsed_of "call sites" (diff_sites choose o ss da db (il_calls a) (il_calls b))
              else Some DNil) (fun calls =>
        bind (compared_list choose inlined_step (inlined_cost ss da db)
                (print_inlined o f A da) (print_inlined o f B db)
                (diff_inlined choose o ss f da db) (il_inlined a) (il_inlined b)) (fun inner =>
        Some (DTree true (DLine [] (inlined_value A a) (inlined_value B b))
                (dseq [(if p_source (o_print o)
                        then field2 "call source" (source_text da (il_source a)) (source_text db (il_source b))
                        else DNil);
                       params; vars; calls; DInline inner])))))).
  Proof. reflexivity. Qed.

  Lemma print_inlined_inner f sc dir x p : print_inlined o (S f) sc dir x = Some p ->
    forall y, In y (il_inlined x) -> exists q, print_inlined o f sc dir y = Some q.
  Proof.
    rewrite print_inlined_S. intros E. do 3 (apply bind_some in E; destruct E as (? & _ & E)).
    apply bind_some in E. destruct E as (? & E & _). eapply all_printed_some; exact E.
  Qed.

  Lemma inlined_list_fine f (E : Prop) l1 l2 :
    (forall a b, In a l1 -> In b l2 -> exists a' b', rearranged a a' /\ rearranged b b' /\
       fine (a = b) (diff_inlined choose o ss f da db a b) (print_inlined o f A da a') (print_inlined o f B db b')) ->
    modest l1 -> modest l2 ->
    (forall a, In a l1 -> exists p, print_inlined o f A da a = Some p) ->
    (forall b, In b l2 -> exists p, print_inlined o f B db b = Some p) ->
    (E -> l1 = l2) ->
    exists l1' l2', Forall2 rearranged l1 l1' /\ Forall2 rearranged l2 l2' /\
      fine E (compared_list choose inlined_step (inlined_cost ss da db) (print_inlined o f A da) (print_inlined o f B db)
                (diff_inlined choose o ss f da db) l1 l2)
        (all_printed (print_inlined o f A da) l1') (all_printed (print_inlined o f B db) l2').
  Proof.
    intros HD M1 M2 P1 P2 X. apply modest_cost in M1, M2. apply compared_fine_up; auto.
    - apply inlined_rearranged.
    - lia.
    - intros [Y Z]. rewrite (X Z). split; [reflexivity|]. intros a I.
      split; [now apply inlined_cost_self|now apply M2].
  Qed.

  Lemma inlined_fine f : forall a b, short_inlined a -> short_inlined b ->
    (C -> settled_inlined o a) -> (C -> settled_inlined o b) ->
    (exists p, print_inlined o f A da a = Some p) -> (exists q, print_inlined o f B db b = Some q) ->
    exists a' b', rearranged a a' /\ rearranged b b' /\
      fine (a = b) (diff_inlined choose o ss f da db a b) (print_inlined o f A da a') (print_inlined o f B db b').
  Proof.
    induction f as [|f IH]; intros a b SA SB TA TB (p & EP) (q & EQ); [discriminate|].
    destruct SA as [(A1 & A2 & A3 & A4 & A5 & A6 & A7) AI], SB as [(B1 & B2 & B3 & B4 & B5 & B6 & B7) BI].
    assert (TA' : C -> Forall (fun p => settled o (fo_locations p)) (il_parameters a) /\
                   Forall (fun v => settled o (sl_locations v)) (il_variables a)).
    { intros Y. now destruct (TA Y). }
    assert (TB' : C -> Forall (fun p => settled o (fo_locations p)) (il_parameters b) /\
                   Forall (fun v => settled o (sl_locations v)) (il_variables b)).
    { intros Y. now destruct (TB Y). }
    assert (TA2 : C -> forall x, In x (il_inlined a) -> settled_inlined o x) by (intros Y; now destruct (TA Y)).
    assert (TB2 : C -> forall x, In x (il_inlined b) -> settled_inlined o x) by (intros Y; now destruct (TB Y)).
    destruct (inlined_list_fine f (a = b) (il_inlined a) (il_inlined b)) as (ia & ib & RA & RB & X);
      [|exact A7|exact B7|exact (print_inlined_inner _ _ _ _ _ EP)|exact (print_inlined_inner _ _ _ _ _ EQ)|congruence|].
    - intros x y IX IY.
      apply IH; auto; [exact (AI x IX)|exact (BI y IY)|exact (print_inlined_inner _ _ _ _ _ EP _ IX)|exact (print_inlined_inner _ _ _ _ _ EQ _ IY)].
    - destruct a as [ao asz aso aps avs ain acs] eqn:EA, b as [bo bsz bso bps bvs bin bcs] eqn:EB.
      cbn [il_parameters il_variables il_inlined il_calls] in *.
      exists (mkInlined ao asz aso aps (slots_by_name avs) ia acs), (mkInlined bo bsz bso bps (slots_by_name bvs) ib bcs).
      split; [constructor; [apply Permutation_sym, stable_sort_perm|exact RA]|].
      split; [constructor; [apply Permutation_sym, stable_sort_perm|exact RB]|].
      rewrite diff_inlined_S, !print_inlined_S. cbn [il_parameters il_variables il_inlined il_calls il_source].
      apply fine_bind.
      { apply fine_if. intros _. apply fine_section, formals_fine; auto; [apply TA'|apply TB'|congruence]. }
      intros. apply fine_bind.
      { apply fine_if. intros _. apply fine_collapsed, slots_fine; auto; [apply TA'|apply TB'|congruence]. }
      intros. apply fine_bind.
      { apply fine_if. intros _. apply fine_collapsed, sites_fine; auto; congruence. }
      intros. apply fine_bind; [exact X|]. intros. apply fine_some, good_tree.
      + apply good_line. intros [(SA & SD & _) AB]. injection AB as -> -> -> -> -> -> ->. rewrite SA. reflexivity.
      + unfold dseq, pseq. cbn [fold_right]. repeat apply good_seq; auto; [|now apply good_inline|apply good_nil].
        destruct (p_source (o_print o)); [|apply good_nil]. apply good_field. self.
  Qed.

  (** *** Whole functions *)

  Definition printable (fuel : nat) (sc : scene) (dir : option string) (f : func) : Prop :=
    (forall x, In x (de_inlined (sc_details sc f)) -> exists p, print_inlined o fuel sc dir x = Some p) /\
    (p_function_calls (o_print o) = true -> exists l, calls sc f = Some l) /\
    (p_function_instructions (o_print o) = true -> exists d, print_instructions sc f = Some d).

  Lemma no_instructions sc f : fn_ranges f = [] -> exists d, print_instructions sc f = Some d /\
    forall n i, lines n i d = [].
  Proof.
    intros E. unfold print_instructions. destruct (sc_program sc) as [p|]; [|eauto].
    rewrite E. cbn. eauto.
  Qed.
  Lemma function_printable fuel sc dir f p : print_function o fuel sc dir f = Some p -> printable fuel sc dir f.
  Proof.
    unfold print_function, print_function_listed, print_function_body. cbv zeta. intros E.
    apply bind_some in E. destruct E as (d & E & _).
    apply bind_some in E. destruct E as (? & _ & E). apply bind_some in E. destruct E as (? & _ & E).
    apply bind_some in E. destruct E as (? & _ & E). apply bind_some in E. destruct E as (? & _ & E).
    apply bind_some in E. destruct E as (? & E1 & E). apply bind_some in E. destruct E as (? & E2 & E).
    apply bind_some in E. destruct E as (? & E3 & _). split; [|split].
    - unfold collapsed_of in E1. apply bind_some in E1. destruct E1 as (? & E1 & _). eapply all_printed_some; exact E1.
    - intros V. rewrite V in E2. apply bind_some in E2. destruct E2 as (? & _ & E2). apply bind_some in E2.
      destruct E2 as (? & E2 & _). apply bind_some in E2. destruct E2 as (l & E2 & _). eauto.
    - intros V. rewrite V in E3. cbn [andb] in E3. destruct (is_empty (fn_ranges f)) eqn:Z.
      + apply is_empty_iff in Z. destruct (no_instructions sc f Z) as (d' & ED & _). eauto.
      + cbn [negb] in E3. apply bind_some in E3. destruct E3 as (? & E3 & _). eauto.
  Qed.

  Lemma range_cmp_self r : range_cmp r r = Eq.
  Proof. unfold range_cmp. now rewrite !N.compare_refl. Qed.
  Lemma print_addresses_some l : exists p, print_addresses l = Some p.
  Proof.
    unfold print_addresses, collapsed_of, print_lines. destruct (1 <? _)%nat; [|eauto].
    destruct (all_printed_ex (fun x => Some (PLine [] (VText (range_size_text x)))) l) as (p & ->); cbn [bind]; eauto.
  Qed.
  Lemma addresses_fine (E : Prop) l1 l2 : (C -> ranges_alike l1 l2) -> (E -> l1 = l2) ->
    fine E (diff_addresses l1 l2) (print_addresses l1) (print_addresses l2).
  Proof.
    intros AL X.
    assert (AL' : C \/ S' /\ E -> ranges_alike l1 l2).
    { intros [Y|[_ Y]]; [auto|]. rewrite (X Y). unfold ranges_alike. lia. }
    clear AL. unfold diff_addresses.
    destruct (print_addresses_some l1) as (p & EP), (print_addresses_some l2) as (q & EQ).
    set (pl := fun x : range => Some (PLine [] (VText (range_size_text x)))).
    destruct ((1 <? List.length l1)%nat || (1 <? List.length l2)%nat) eqn:L.
    - assert (F : fine E (compared_ord_list range_cmp pl pl
                 (fun x y => Some (DLine [] (VText (range_size_text x)) (VText (range_size_text y)))) l1 l2)
                 (all_printed pl l1) (all_printed pl l2)).
      { apply ord_fine; [unfold pl; eauto|unfold pl; eauto|..].
        - intros a b _ _. apply fine_some, good_line. intros [_ ->]. reflexivity.
        - intros [_ Y]. rewrite (X Y). split; [reflexivity|]. intros. apply range_cmp_self. }
      unfold diff_ranges, dcollapsed_of. fold pl.
      destruct F as (e & p1 & q1 & -> & EP1 & EQ1 & G). cbn [bind].
      apply (good_section _ _ _ _ _ true (txt "addresses")) in G.
      eexists. exists p, q. split; [reflexivity|]. split; [exact EP|]. split; [exact EQ|].
      destruct G as (G1 & G2). split; [|exact G2]. intros Y. destruct (G1 Y) as (O & N & U).
      destruct (AL' Y) as [N1 N2]. apply orb_true_iff in L. rewrite !Nat.ltb_lt in L.
      assert (K : forall l p p1, List.length l <> 1%nat -> print_addresses l = Some p -> all_printed pl l = Some p1 ->
                  same_lines (PSection true (txt "addresses") p1) p).
      { clear. intros l p p1 NL EP E1. unfold print_addresses, collapsed_of, print_lines in EP. fold pl in EP.
        rewrite E1 in EP. cbn [bind] in EP. destruct l as [|x [|y l]]; cbn [List.length] in *; [|congruence|].
        - injection E1 as <-. injection EP as <-. intros d i. reflexivity.
        - injection EP as <-. apply same_refl. }
      split; [|split; [|exact U]]; intros d i.
      + rewrite O. apply (K l1); auto; lia.
      + rewrite N. apply (K l2); auto; lia.
    - apply orb_false_iff in L. destruct L as [L1 L2]. unfold print_addresses in EP, EQ.
      rewrite L1 in EP. rewrite L2 in EQ. unfold print_addresses. rewrite L1, L2.
      apply fine_some, good_field. intros [_ Y]. now rewrite (X Y).
  Qed.

  Lemma calls_fine (E : Prop) l1 l2 : short l1 -> short l2 -> (S' /\ E -> l1 = l2) ->
    fine E (compared_list choose call_step (call_cost ss)
                       (fun c => Some (PLine [] (call_value o A c))) (fun c => Some (PLine [] (call_value o B c)))
                       (fun c c' => Some (DLine [] (call_value o A c) (call_value o B c'))) l1 l2)
      (all_printed (fun c => Some (PLine [] (call_value o A c))) l1)
      (all_printed (fun c => Some (PLine [] (call_value o B c))) l2).
  Proof.
    intros S1 S2 X. apply lines_fine.
    - now apply short_cost.
    - intros (SA & _) c. now rewrite SA.
    - intros Y. rewrite (X Y). split; [reflexivity|]. intros c _. split; [|reflexivity].
      destruct Y as [(SA & _) _]. unfold call_cost. rewrite SA. destruct (sc_function_at B (ca_to c)); [|reflexivity].
      now rewrite function_cmp_self.
  Qed.
  Lemma frame_fine (E : Prop) l1 l2 : (S' /\ E -> l1 = l2) ->
    fine E (compared_ord_list fv_cmp (print_frame_variable A) (print_frame_variable B) (diff_frame_variable ss) l1 l2)
      (all_printed (print_frame_variable A) l1) (all_printed (print_frame_variable B) l2).
  Proof.
    intros X. apply ord_fine.
    - unfold print_frame_variable. eauto.
    - unfold print_frame_variable. eauto.
    - intros a b _ _. apply fine_some, good_seq; apply good_line; self.
    - intros Y. rewrite (X Y). split; [reflexivity|]. intros. apply (tp_refl _ fv_cmp_tp).
  Qed.

  Lemma function_body_fine fuel a b :
    short_function A a -> short_function B b ->
    (C -> settled_details o (sc_details A a)) -> (C -> settled_details o (sc_details B b)) ->
    (C -> ranges_alike (fn_ranges a) (fn_ranges b)) ->
    printable fuel A da a -> printable fuel B db b ->
    exists va ia vb ib,
      Permutation (de_variables (sc_details A a)) va /\ Forall2 rearranged (de_inlined (sc_details A a)) ia /\
      Permutation (de_variables (sc_details B b)) vb /\ Forall2 rearranged (de_inlined (sc_details B b)) ib /\
      fine (a = b) (diff_function_body choose o ss fuel da db a b)
        (print_function_body o fuel A da a va ia) (print_function_body o fuel B db b vb ib).
  Proof.
    intros [(A1 & A2 & A3 & A4 & A5 & A6 & A7 & A8) AC] [(B1 & B2 & B3 & B4 & B5 & B6 & B7 & B8) BC] TA TB AL
      (PA1 & PA2 & PA3) (PB1 & PB2 & PB3).
    assert (TA2 : C -> Forall (settled_inlined o) (de_inlined (sc_details A a))) by (intros Y; now apply TA).
    assert (TB2 : C -> Forall (settled_inlined o) (de_inlined (sc_details B b))) by (intros Y; now apply TB).
    rewrite Forall_forall in A8, B8.
    destruct (inlined_list_fine fuel (S' /\ a = b) (de_inlined (sc_details A a)) (de_inlined (sc_details B b)))
      as (ia & ib & RA & RB & X); auto.
    { intros x y IX IY. apply inlined_fine; auto; intros Y; [specialize (TA2 Y)|specialize (TB2 Y)];
        rewrite Forall_forall in *; auto. }
    { intros [(SA & _) ->]. now rewrite SA. }
    exists (slots_by_name (de_variables (sc_details A a))), ia, (slots_by_name (de_variables (sc_details B b))), ib.
    split; [apply Permutation_sym, stable_sort_perm|]. split; [exact RA|].
    split; [apply Permutation_sym, stable_sort_perm|]. split; [exact RB|].
    assert (DE : S' /\ a = b -> sc_details A a = sc_details B b) by (intros [(SA & _) ->]; now rewrite SA).
    assert (FM : forall D P Q, fine (S' /\ a = b) D P Q -> fine (a = b) D P Q).
    { intros D P Q (e & p & q & E1 & E2 & E3 & G1 & G2 & G3). exists e, p, q. repeat (split; [assumption|]).
      split; [|split]; tauto. }
    unfold diff_function_body, print_function_body. cbv zeta.
    apply fine_bind; [apply addresses_fine; [exact AL|congruence]|]. intros eaddr paddr qaddr Gaddr.
    apply fine_bind.
    { apply FM, fine_section, formals_fine; auto; [apply TA|apply TB|]. intros Y. now rewrite (DE Y). }
    intros epar ppar qpar Gpar. apply fine_bind.
    { apply FM, fine_if. intros _. apply fine_collapsed, slots_fine; auto; [apply TA|apply TB|].
      intros Y. now rewrite (DE Y). }
    intros evar pvar qvar Gvar. apply fine_bind.
    { apply fine_if. intros _. apply fine_collapsed, frame_fine. intros Y. rewrite (DE Y).
      destruct Y as [(SA & _) _]. now rewrite SA. }
    intros efr pfr qfr Gfr. apply fine_bind; [apply FM, fine_collapsed, X|].
    intros ein pin qin Gin. apply fine_bind.
    { apply fine_if. intros V. destruct (PA2 V) as (l1 & E1), (PB2 V) as (l2 & E2).
      apply fine_bind.
      { apply FM, fine_collapsed, sites_fine; auto. intros Y. now rewrite (DE Y). }
      intros. rewrite E1, E2. cbn [bind]. apply fine_bind.
      { apply fine_collapsed, calls_fine; auto. intros [(SA & _) ->]. congruence. }
      intros. now apply fine_some, good_seq. }
    intros ecs pcs qcs Gcs.
    match goal with |- fine _ (bind ?D _) (bind ?P _) (bind ?Q _) => assert (CODE : fine (a = b) D P Q) end.
    { destruct (p_function_instructions (o_print o)) eqn:V; cbn [andb]; [|apply fine_some, good_nil].
      destruct (PA3 eq_refl) as (x & EX), (PB3 eq_refl) as (y & EY). rewrite EX, EY. cbn [bind].
      assert (PC : forall sc f x, print_instructions sc f = Some x ->
                 exists p, (if negb (is_empty (fn_ranges f)) then Some (PDetail (txt "code") (txt "instructions") x) else Some PNil)
                   = Some p /\ same_lines (PSection true (txt "instructions") x) p).
      { clear. intros sc f x E. destruct (is_empty (fn_ranges f)) eqn:Z; cbn [negb].
        - exists PNil. split; [reflexivity|]. apply is_empty_iff in Z. destruct (no_instructions sc f Z) as (d & ED & L).
          rewrite ED in E. injection E as <-. intros n i. cbn [lines]. now rewrite L.
        - eexists. split; [reflexivity|]. intros n i. reflexivity. }
      destruct (PC A a x EX) as (p & EP & SP), (PC B b y EY) as (q & EQ & SQ). rewrite EP, EQ.
      apply fine_some, (good_same _ _ _ _ _ _ _ _ _ _ SP SQ). split; [|split].
      - intros _. apply reads_section. apply reads_block.
      - intros _. split; [intros n; exact I|discriminate].
      - intros Y. destruct Y as (_ & _ & _ & _ & _ & _ & Y). rewrite V in Y. discriminate. }
    apply fine_bind; [exact CODE|]. intros ecode pcode qcode Gcode. apply fine_some.
    unfold dseq, pseq. cbn [fold_right].
    repeat apply good_seq; auto.
    - apply good_ignore; [intros Y; apply Y|]. apply good_field. self.
    - apply good_ignore; [intros Y; apply Y|]. apply good_field. self.
    - destruct (p_source (o_print o)); [|apply good_nil]. apply good_field. self.
    - apply good_ignore; [intros Y; apply Y|assumption].
    - apply good_ignore; [intros Y; apply Y|]. apply good_field. self.
    - apply good_ignore; [intros Y; apply Y|]. apply good_field. self.
    - apply good_field. self.
    - apply good_section, good_line. self.
    - now apply good_inline.
    - apply good_nil.
  Qed.

  Lemma function_fine id fuel a b p q :
    short_function A a -> short_function B b ->
    (C -> settled_details o (sc_details A a)) -> (C -> settled_details o (sc_details B b)) ->
    (C -> ranges_alike (fn_ranges a) (fn_ranges b)) ->
    print_function o fuel A da a = Some p -> print_function o fuel B db b = Some q ->
    exists e p' q', diff_function choose o ss id fuel da db a b = Some e /\
      printed_up_to_order o fuel A da a p' /\ printed_up_to_order o fuel B db b q' /\
      good (a = b) e p' q'.
  Proof.
    intros SA SB TA TB AL EP EQ. apply function_printable in EP, EQ.
    destruct (function_body_fine fuel a b SA SB TA TB AL EP EQ) as (va & ia & vb & ib & PA & RA & PB & RB & F).
    destruct F as (e & p' & q' & ED & EP' & EQ' & G). unfold diff_function. rewrite ED. cbn [bind].
    eexists. exists (PSeq (PId (sc_function_id A a) (PLine [] (function_value a)) p') PBreak),
      (PSeq (PId (sc_function_id B b) (PLine [] (function_value b)) q') PBreak).
    split; [reflexivity|]. split; [|split].
    - exists va, ia. split; [exact PA|]. split; [exact RA|]. unfold print_function_listed. now rewrite EP'.
    - exists vb, ib. split; [exact PB|]. split; [exact RB|]. unfold print_function_listed. now rewrite EQ'.
    - apply good_seq; [|apply good_break]. apply good_id; [|exact G]. apply good_line. self.
  Qed.

  (** *** Variables *)

  Lemma variable_reads a b : reads (diff_variable o ss da db a b) (print_variable o A da a) (print_variable o B db b).
  Proof.
    unfold diff_variable, diff_variable_body, print_variable, print_variable_body. apply reads_seq; [|split; [|split]; [apply same_refl..|exact I]].
    match goal with |- reads (DTree true (DLine [] ?x ?y) (dseq ?l)) (PId _ _ (pseq ?l1)) (PId _ _ (pseq ?l2)) =>
      enough (R : reads (dseq l) (pseq l1) (pseq l2)) end.
    - destruct R as (O & N & U). split; [|split; [|split; [exact I|exact U]]]; intros d i; cbn [old_side new_side lines];
        now rewrite ?O, ?N.
    - assert (RI : forall f d p q, reads d p q -> reads (ignored f d) p q).
      { intros f d p q (O & N & U). split; [|split]; assumption. }
      unfold dseq, pseq. cbn [fold_right].
      repeat (apply reads_seq; [|]); try apply reads_nil; try apply RI; try apply reads_field.
      destruct (p_source (o_print o)); [apply reads_field|apply reads_nil].
  Qed.
End Entries.
