(** Proofs about the reading of a whole file. *)
From Coq Require Import List Arith NArith ZArith Bool String Lia Permutation Sorting.Sorted.
From Verif Require Import Base BaseProofs RangeModel NamespaceModel TypeModel TypeSpec TypeProofs LayoutModel FileModel
  FileSpec FileProofs OptionsModel FilterModel FilterSpec DiffModel IdModel PrintModel LocationModel DieModel DieSpec
  MemberSpec RefModel ReadModel CodeModel ItemModel EntryModel DetailModel ReportModel PropertiesDie PropertiesFile
  DieSpec WholeModel WholeSpec.
Import ListNotations.
Local Open Scope N_scope.

(** ** Lists *)

Lemma NoDup_app_remove_l {A} (l m : list A) : NoDup (l ++ m) -> NoDup m.
Proof. induction l; [auto|]. cbn. inversion 1; auto. Qed.
Lemma NoDup_app_remove_r {A} (l m : list A) : NoDup (l ++ m) -> NoDup l.
Proof.
  induction l; [constructor|]. cbn. inversion 1; subst. constructor; [|auto]. intros I. apply H2. apply in_app_iff. now left.
Qed.

Lemma NoDup_flat_map_at {A B} (f : A -> list B) l : NoDup (flat_map f l) ->
  forall i j a b x, nth_error l i = Some a -> nth_error l j = Some b -> In x (f a) -> In x (f b) -> i = j.
Proof.
  induction l as [|c l IH]; intros D i j a b x Ea Eb Ia Ib; [destruct i; discriminate|].
  cbn [flat_map] in D. pose proof (NoDup_app_remove_l _ _ D) as D2.
  assert (X : forall y, In y (f c) -> In y (flat_map f l) -> False).
  { clear -D. induction (f c) as [|z zs IH]; intros y [] I; subst; cbn in D; inversion D; subst.
    - apply H1. apply in_app_iff. now right.
    - eapply IH; eauto. }
  destruct i as [|i], j as [|j]; cbn [nth_error] in Ea, Eb.
  - reflexivity.
  - exfalso. injection Ea as <-. apply (X x Ia). apply in_flat_map. exists b. split; [eapply nth_error_In; eauto|auto].
  - exfalso. injection Eb as <-. apply (X x Ib). apply in_flat_map. exists a. split; [eapply nth_error_In; eauto|auto].
  - f_equal. eapply IH; eauto.
Qed.

Lemma NoDup_flat_map_in {A B} (f : A -> list B) l a : NoDup (flat_map f l) -> In a l -> NoDup (f a).
Proof.
  induction l as [|c l IH]; [intros _ []|]. cbn [flat_map]. intros D [<-|I].
  - now apply NoDup_app_remove_r in D.
  - apply IH; [|exact I]. now apply NoDup_app_remove_l in D.
Qed.

Lemma map_flat_map {A B C} (f : A -> list B) (g : B -> C) l : map g (flat_map f l) = flat_map (fun x => map g (f x)) l.
Proof. induction l as [|x l IH]; [reflexivity|]. cbn. now rewrite map_app, IH. Qed.

Lemma StronglySorted_lt_NoDup l : StronglySorted N.lt l -> NoDup l.
Proof.
  induction 1 as [|x l H IH F]; constructor; [|exact IH]. intros I. rewrite Forall_forall in F. specialize (F x I). lia.
Qed.

Lemma NoDup_map_eq {A B} (f : A -> B) l x y : NoDup (map f l) -> In x l -> In y l -> f x = f y -> x = y.
Proof.
  induction l as [|z l IH]; [intros _ []|]. cbn [map]. intros D Ix Iy E. inversion D as [|? ? N D']; subst.
  destruct Ix as [->|Ix], Iy as [->|Iy]; [reflexivity| | |now apply IH].
  - exfalso. apply N. rewrite E. now apply in_map.
  - exfalso. apply N. rewrite <- E. now apply in_map.
Qed.

(** ** Entries *)

Lemma count_le c l : In c l -> (die_count c <= list_sum (map die_count l))%nat.
Proof.
  induction l as [|z l IH]; [intros []|]. intros [->|I]; change (list_sum (map die_count (?z :: l))) with (die_count z + list_sum (map die_count l))%nat; [lia|].
  specialize (IH I). lia.
Qed.
Lemma count_child c t o a l : In c l -> (die_count c < die_count (Die t o a l))%nat.
Proof. intros I. cbn [die_count]. apply Nat.lt_succ_r. now apply count_le. Qed.

Lemma entries_self d : In d (entries d).
Proof. destruct d. now left. Qed.
Lemma entries_child c d x : In c (die_children d) -> In x (entries c) -> In x (entries d).
Proof. destruct d as [t o a l]. cbn [die_children entries]. intros I J. right. apply in_flat_map. eauto. Qed.

Lemma entries_trans d : forall x y, In x (entries d) -> In y (entries x) -> In y (entries d).
Proof.
  induction d as [d IH] using (well_founded_induction (Wf_nat.well_founded_ltof _ die_count)).
  destruct d as [t o a l]. intros x y [<-|I] J; [exact J|]. apply in_flat_map in I. destruct I as (c & Ic & Ix).
  apply (entries_child c); [exact Ic|]. apply (IH c) with x; [|exact Ix|exact J].
  now apply count_child.
Qed.

Lemma found_entry top t d : found top t d -> In d (flat_map entries top).
Proof.
  induction 1 as [d I|t d c _ IH _ I].
  - apply in_flat_map. exists d. split; [exact I|apply entries_self].
  - apply in_flat_map in IH. destruct IH as (r & Ir & Id). apply in_flat_map. exists r. split; [exact Ir|].
    apply (entries_trans r d); [exact Id|]. apply (entries_child c); [exact I|apply entries_self].
Qed.

Fixpoint find_child (off : N) (l : list die) : option die :=
  match l with
  | [] => None
  | c :: l' => match find_die off c with Some x => Some x | None => find_child off l' end
  end.
Lemma find_die_eq off t o a l :
  find_die off (Die t o a l) = if o =? off then Some (Die t o a l) else find_child off l.
Proof. cbn [find_die]. destruct (o =? off); [reflexivity|]. induction l as [|c l IH]; [reflexivity|]. cbn. now rewrite IH. Qed.
Lemma find_dies_child off l : find_dies off l = find_child off l.
Proof. induction l as [|c l IH]; [reflexivity|]. cbn. now rewrite IH. Qed.

Lemma find_child_sound off l x :
  (forall c, In c l -> forall x, find_die off c = Some x -> In x (entries c) /\ die_offset x = off) ->
  find_child off l = Some x -> In x (flat_map entries l) /\ die_offset x = off.
Proof.
  induction l as [|d l IH]; intros H; [discriminate|]. cbn [find_child flat_map]. destruct (find_die off d) eqn:F.
  - intros [= <-]. apply H in F; [|now left]. split; [apply in_app_iff; left|]; apply F.
  - intros E. destruct (IH (fun c I => H c (or_intror I)) E). split; [apply in_app_iff; now right|assumption].
Qed.
Lemma find_child_complete off l :
  (forall c, In c l -> (exists x, In x (entries c) /\ die_offset x = off) -> exists x, find_die off c = Some x) ->
  (exists x, In x (flat_map entries l) /\ die_offset x = off) -> exists x, find_child off l = Some x.
Proof.
  intros H (x & I & E). induction l as [|d l IH]; [destruct I|]. cbn [find_child flat_map] in *.
  destruct (find_die off d) eqn:F; [eauto|]. apply in_app_iff in I. destruct I as [I|I].
  - destruct (H d (or_introl eq_refl)) as (y & Y); [eauto|congruence].
  - apply IH; [|exact I]. intros c J. apply H. now right.
Qed.

Lemma find_die_sound off d : forall x, find_die off d = Some x -> In x (entries d) /\ die_offset x = off.
Proof.
  induction d as [d IH] using (well_founded_induction (Wf_nat.well_founded_ltof _ die_count)).
  destruct d as [t o a l]. intros x. rewrite find_die_eq. destruct (N.eqb_spec o off) as [->|N].
  - intros [= <-]. split; [now left|reflexivity].
  - intros E. apply find_child_sound in E.
    + destruct E as (I & E). split; [right; exact I|exact E].
    + intros c I. apply IH. now apply count_child.
Qed.
Lemma find_die_complete off d : (exists x, In x (entries d) /\ die_offset x = off) -> exists x, find_die off d = Some x.
Proof.
  induction d as [d IH] using (well_founded_induction (Wf_nat.well_founded_ltof _ die_count)).
  destruct d as [t o a l]. intros (x & I & E). rewrite find_die_eq. destruct (N.eqb_spec o off) as [->|N]; [eauto|].
  apply find_child_complete.
  - intros c J. apply IH. now apply count_child.
  - destruct I as [<-|I]; [now destruct N|]. eauto.
Qed.

Lemma find_dies_sound off l x : find_dies off l = Some x -> In x (flat_map entries l) /\ die_offset x = off.
Proof. rewrite find_dies_child. apply find_child_sound. intros c _ y. apply find_die_sound. Qed.
Lemma find_dies_complete off l : (exists x, In x (flat_map entries l) /\ die_offset x = off) ->
  exists x, find_dies off l = Some x.
Proof. rewrite find_dies_child. apply find_child_complete. intros c _. apply find_die_complete. Qed.

(** ** Units *)

Section Units.
  Variable ob : object_input.

  Lemma items_read u : parse_items (unit_context ob u) (ui_children u) = Some (unit_items ob u).
  Proof. unfold unit_items. destruct (C35_terminates (unit_context ob u) (ui_children u)) as (s & E). now rewrite E. Qed.

  Hypothesis WF : well_formed ob.

  Lemma offsets_nodup : NoDup (flat_map (fun u => map die_offset (unit_entries u)) (ob_units ob)).
  Proof. destruct WF as [D _]. unfold all_entries in D. now rewrite map_flat_map in D. Qed.

  Lemma unit_distinct u : In u (ob_units ob) -> distinct_offsets (ui_children u).
  Proof. intros I. exact (NoDup_flat_map_in _ _ u offsets_nodup I). Qed.

  Lemma owner_at i j u v off : nth_error (ob_units ob) i = Some u -> nth_error (ob_units ob) j = Some v ->
    In off (map die_offset (unit_entries u)) -> In off (map die_offset (unit_entries v)) -> i = j.
  Proof. intros. eapply (NoDup_flat_map_at _ _ offsets_nodup); eauto. Qed.
  Lemma owner u v off : In u (ob_units ob) -> In v (ob_units ob) ->
    In off (map die_offset (unit_entries u)) -> In off (map die_offset (unit_entries v)) -> u = v.
  Proof.
    intros Iu Iv Ou Ov. apply In_nth_error in Iu, Iv. destruct Iu as (i & Ei), Iv as (j & Ej).
    assert (i = j) by (eapply owner_at; eauto). congruence.
  Qed.
  Lemma entry_unique u d e : In u (ob_units ob) -> In d (unit_entries u) -> In e (unit_entries u) ->
    die_offset d = die_offset e -> d = e.
  Proof. intros I. apply NoDup_map_eq. now apply unit_distinct. Qed.

  Lemma entry_in_sound us off u d : (forall x, In x us -> In x (ob_units ob)) -> entry_in us off = Some (u, d) ->
    In u us /\ In d (unit_entries u) /\ die_offset d = off.
  Proof.
    induction us as [|x us IH]; intros S; [discriminate|]. cbn [entry_in].
    destruct (find_dies off (ui_children x)) eqn:F.
    - intros [= <- <-]. apply find_dies_sound in F. split; [now left|exact F].
    - intros E. destruct IH as (A & B); [intros; apply S; now right|exact E|]. split; [now right|exact B].
  Qed.
  Lemma entry_in_complete u d : In u (ob_units ob) -> In d (unit_entries u) ->
    entry_in (ob_units ob) (die_offset d) = Some (u, d).
  Proof.
    intros I J. assert (X : exists y, entry_in (ob_units ob) (die_offset d) = Some y).
    { clear WF. induction (ob_units ob) as [|x us IH]; [destruct I|]. cbn [entry_in].
      destruct (find_dies (die_offset d) (ui_children x)) eqn:F; [eauto|]. destruct I as [->|I]; [|auto].
      destruct (find_dies_complete (die_offset d) (ui_children u)) as (y & E); [eauto|congruence]. }
    destruct X as ([v e] & E). rewrite E. apply entry_in_sound in E; [|auto]. destruct E as (A & B & C).
    assert (u = v) as <- by (apply (owner u v (die_offset d)); auto; [now apply in_map|rewrite <- C; now apply in_map]).
    assert (d = e) as <- by (apply (entry_unique u); auto). reflexivity.
  Qed.

  (** ** Items *)

  Lemma function_entry u f : In u (ob_units ob) -> In f (ws_functions (unit_items ob u)) ->
    exists d, In d (unit_entries u) /\ die_tag d = TagSubprogram /\ fu_offset f = die_offset d.
  Proof.
    intros I J. destruct (C35_own _ _ _ f (unit_distinct u I) (items_read u) J) as (t & d & F & T & O & _).
    exists d. split; [now apply found_entry in F|auto].
  Qed.
  Lemma type_entry u t : In u (ob_units ob) -> In t (ws_types (unit_items ob u)) ->
    exists d, In d (unit_entries u) /\ is_type_tag (die_tag d) = true /\ t_offset t = die_offset d.
  Proof.
    intros I J. destruct (C49_kept _ _ _ (unit_distinct u I) (items_read u)) as (_ & K).
    destruct (proj1 (K (t_offset t)) (in_map t_offset _ _ J)) as (x & d & F & T & _ & O).
    exists d. split; [now apply found_entry in F|auto].
  Qed.
  Lemma variable_entry_in u d s : variable_entry (unit_context ob u) (ui_children u) d s -> In d (unit_entries u).
  Proof.
    assert (C : forall x y, In x (unit_entries u) -> In y (die_children x) -> In y (unit_entries u)).
    { intros x y I J. unfold unit_entries in *. apply in_flat_map in I. destruct I as (r & Ir & Ix).
      apply in_flat_map. exists r. split; [exact Ir|]. apply (entries_trans r x); [exact Ix|].
      apply (entries_child y); [exact J|apply entries_self]. }
    destruct 1 as [d F _|t d F _ _|t p d F _ _ I _|t p v d F _ _ I _ J _|t p v m s d F _ _ I _ _ _ _ E _ J _].
    - now apply found_entry in F.
    - now apply found_entry in F.
    - apply found_entry in F. eauto.
    - apply found_entry in F. eauto.
    - cbn [unit_context cx_tree] in E. apply find_dies_sound in E. apply (C s); [apply E|exact J].
  Qed.
  Lemma has_variable_in u d : has_variable (unit_context ob u) (ui_children u) d -> In d (unit_entries u).
  Proof. destruct 1 as [d H|d e o H _ _]; eapply variable_entry_in; eauto. Qed.
  Lemma variable_entry_of u v : In u (ob_units ob) -> In v (ws_variables (unit_items ob u)) ->
    exists d, In d (unit_entries u) /\ has_variable (unit_context ob u) (ui_children u) d /\ vr_offset v = die_offset d.
  Proof.
    intros I J. destruct (C36_kept _ _ _ (unit_distinct u I) (items_read u)) as (_ & K).
    destruct (proj1 (K (vr_offset v)) (in_map vr_offset _ _ J)) as (d & H & O).
    exists d. split; [now apply has_variable_in in H|auto].
  Qed.

  Lemma find_unique {A} (key : A -> N) (parts : unit_input -> list A) u x :
    (forall v y, In v (ob_units ob) -> In y (parts v) -> In (key y) (map die_offset (unit_entries v))) ->
    (forall v, In v (ob_units ob) -> NoDup (map key (parts v))) ->
    In u (ob_units ob) -> In x (parts u) ->
    find (fun y => key y =? key x) (flat_map parts (ob_units ob)) = Some x.
  Proof.
    intros K N I J. destruct (find _ _) as [y|] eqn:F.
    - apply find_some in F. destruct F as (Iy & E). apply N.eqb_eq in E. apply in_flat_map in Iy.
      destruct Iy as (v & Iv & Jv). assert (u = v) as <-.
      { apply (owner u v (key x)); auto. rewrite <- E. now apply K. }
      f_equal. now apply (NoDup_map_eq key (parts u) y x); auto.
    - exfalso. assert (X : (key x =? key x) = false).
      { apply (find_none _ _ F x). apply in_flat_map. eauto. }
      rewrite N.eqb_refl in X. discriminate X.
  Qed.

  Lemma flat_items {A} (get : walk_state -> list A) :
    flat_map get (all_items ob) = flat_map (fun u => get (unit_items ob u)) (ob_units ob).
  Proof. unfold all_items. induction (ob_units ob) as [|u l IH]; [reflexivity|]. cbn. now rewrite IH. Qed.

  Lemma read_function_in u f : In u (ob_units ob) -> In f (ws_functions (unit_items ob u)) ->
    read_function ob (fu_offset f) = Some f.
  Proof.
    intros I J. unfold read_function. rewrite flat_items.
    apply (find_unique fu_offset (fun u => ws_functions (unit_items ob u)) u f); auto.
    - intros v y Iv Iy. destruct (function_entry v y Iv Iy) as (d & Id & _ & ->). now apply in_map.
    - intros v Iv. apply StronglySorted_lt_NoDup.
      exact (proj1 (C35_kept _ _ _ (unit_distinct v Iv) (items_read v))).
  Qed.
  Lemma read_variable_in u v : In u (ob_units ob) -> In v (ws_variables (unit_items ob u)) ->
    read_variable ob (vr_offset v) = Some v.
  Proof.
    intros I J. unfold read_variable. rewrite flat_items.
    apply (find_unique vr_offset (fun u => ws_variables (unit_items ob u)) u v); auto.
    - intros w y Iw Iy. destruct (variable_entry_of w y Iw Iy) as (d & Id & _ & ->). now apply in_map.
    - intros w Iw. apply StronglySorted_lt_NoDup.
      exact (proj1 (C36_kept _ _ _ (unit_distinct w Iw) (items_read w))).
  Qed.
End Units.
