(** The lists of a file are no longer than the number of its entries. *)
From Coq Require Import List Arith NArith ZArith Bool String Lia.
From Verif Require Import MemberProofs DetailSpec Base BaseProofs RangeModel NamespaceModel NamespaceSpec NamespaceProofs TypeModel TypeSpec TypeProofs LayoutModel FileModel FileSpec FilterModel FilterSpec
  FilterProofs DiffModel PrintModel PrintSpec PrintProofs LocationModel RefModel RefSpec RefProofs ReadModel ReadSpec CodeModel ItemModel ItemSpec OptionsModel EntryModel EntrySpec EntryProofs
  IdModel ReportModel ReportSpec DetailModel NameModel MemberSpec WholeModel WholeSpec WholeProofs WholeDepth PropertiesWhole RawModel RawSpec RawProofs PropertiesRaw
  PairSpec KeptVariables PairItems EndSpec EndProofs EndTypes PropertiesEnd EndItemSpec EndItems EndPairSpec.
From Verif Require DieProofs.
From Verif Require Import DieModel DieSpec.
Import ListNotations.
Local Open Scope N_scope.

Lemma filter_length_le {A} (f : A -> bool) l : (List.length (filter f l) <= List.length l)%nat.
Proof. induction l as [|x l IH]; cbn; [lia|]. destruct (f x); cbn; lia. Qed.
Lemma Forall2_length_eq {A B} (R : A -> B -> Prop) l m : Forall2 R l m -> List.length m = List.length l.
Proof. induction 1; cbn; congruence. Qed.
Lemma flat_map_length_le {A B C} (f : A -> list B) (g : A -> list C) l : (forall x, In x l -> (List.length (f x) <= List.length (g x))%nat) ->
  (List.length (flat_map f l) <= List.length (flat_map g l))%nat.
Proof.
  induction l as [|x l IH]; intros H; [reflexivity|]. cbn [flat_map]. rewrite !app_length.
  pose proof (H x (or_introl eq_refl)). assert (List.length (flat_map f l) <= List.length (flat_map g l))%nat by (apply IH; intros; apply H; now right). lia.
Qed.
Lemma entries_self d : entries d = d :: flat_map entries (die_children d).
Proof. destruct d as [t o a l]. cbn [entries die_children]. f_equal. Qed.
Lemma children_length l : (List.length l <= List.length (flat_map entries l))%nat.
Proof. induction l as [|x l IH]; [reflexivity|]. cbn [flat_map]. rewrite app_length, entries_self. cbn [List.length]. lia. Qed.
Lemma members_length l : (List.length (member_entries l) <= List.length (flat_map entries l))%nat.
Proof.
  unfold member_entries. apply flat_map_length_le. intros x _. rewrite entries_self. cbn [List.length].
  destruct (instance_member x); [cbn; lia|]. destruct (die_tag x); cbn [List.length]; try lia.
  pose proof (filter_length_le instance_member (die_children x)). pose proof (children_length (die_children x)). lia.
Qed.
Lemma flat_map_part {A B} (f : A -> list B) x l : In x l -> (List.length (f x) <= List.length (flat_map f l))%nat.
Proof. induction l as [|y l IH]; intros []; cbn [flat_map]; rewrite app_length; [subst; lia|]. specialize (IH H). lia. Qed.
Lemma entries_length top d : In d (flat_map entries top) -> (List.length (flat_map entries (die_children d)) < List.length (flat_map entries top))%nat.
Proof.
  assert (H : forall x d, In d (entries x) -> (List.length (entries d) <= List.length (entries x))%nat).
  { intros x. induction x as [t o a l IH] using DieProofs.die_ind'. intros e. rewrite entries_self. cbn [die_children]. intros [<-|I]; [now rewrite entries_self|].
    cbn [List.length]. apply in_flat_map in I. destruct I as (y & Iy & I). pose proof (proj1 (Forall_forall _ _) IH y Iy e I). pose proof (flat_map_part entries y l Iy). lia. }
  intros I. apply in_flat_map in I. destruct I as (x & Ix & I). specialize (H x d I). rewrite (entries_self d) in H. cbn [List.length] in H.
  pose proof (flat_map_part entries x top Ix). lia.
Qed.

Section Short.
  Variable choice : N -> nat.
  Variable rf : raw_file.
  Variable ob : object_input.
  Hypothesis WF : raw_well_formed rf.
  Hypothesis RD : read_file rf = Some ob.
  Hypothesis SM : raw_small rf.
  Local Notation cx u := (unit_context ob (read_unit rf u)).

  Lemma short_le {A} u (l : list A) : In u (rf_units rf) -> (List.length l <= List.length (raw_below u))%nat -> short l.
  Proof. intros I L. specialize (SM u I). unfold short. lia. Qed.
  Lemma below_length u : List.length (flat_map entries (ui_children (read_unit rf u))) = List.length (raw_below u).
  Proof. fold (unit_entries (read_unit rf u)). now rewrite read_below, map_length. Qed.
  Lemma inside_length u d : In d (flat_map entries (ui_children (read_unit rf u))) ->
    (List.length (flat_map entries (die_children d)) <= List.length (raw_below u))%nat.
  Proof. intros I. rewrite <- below_length. apply entries_length in I. lia. Qed.
  Lemma described_short u ns d k t : In u (rf_units rf) -> In d (flat_map entries (ui_children (read_unit rf u))) ->
    describes_type (cx u) ns d k -> t_kind t = k -> short_type t.
  Proof.
    intros I J D E. unfold short_type. rewrite E. pose proof (inside_length u d J) as L. pose proof (children_length (die_children d)) as LC.
    inversion D as [T1 K|T1 K|ms ps bs T1 M V B K|ms T1 M K|T1 K|T1 K]; try exact Logic.I.
    - cbn [s_members s_inherits s_variant_parts]. apply Forall2_length_eq in M as M'. apply Forall2_length_eq in B. apply Forall2_length_eq in V as V'.
      pose proof (members_length (die_children d)). unfold with_tag in *.
      split; [apply (short_le u); [exact I|lia]|]. split; [apply (short_le u); [exact I|rewrite B; etransitivity; [apply filter_length_le|lia]]|].
      split; [apply (short_le u); [exact I|rewrite V'; etransitivity; [apply filter_length_le|lia]]|].
      assert (Q : forall x, In x (filter (fun d => match die_tag d with TagVariantPart => true | _ => false end) (die_children d)) ->
        In x (flat_map entries (ui_children (read_unit rf u)))).
      { intros x Ix. apply filter_In in Ix. destruct Ix as (Ix & _). now apply (entries_children _ d). }
      clear M M' B V' K E D. induction V as [|x p xs qs (_ & P) V IH]; constructor.
      + specialize (Q x (or_introl eq_refl)). split.
        * apply (short_le u _ I). rewrite (Forall2_length_eq _ _ _ P). unfold with_tag. etransitivity; [apply filter_length_le|].
          pose proof (inside_length u x Q). pose proof (children_length (die_children x)). lia.
        * assert (Q' : forall y, In y (with_tag (fun t => match t with TagVariant => true | _ => false end) (die_children x)) ->
            In y (flat_map entries (ui_children (read_unit rf u)))).
          { intros y Iy. apply filter_In in Iy. destruct Iy as (Iy & _). now apply (entries_children _ x). }
          clear IH Q. induction P as [|y v ys vs HV P IHP]; constructor; [|apply IHP; intros; apply Q'; now right].
          unfold short_variant. apply (short_le u _ I). specialize (Q' y (or_introl eq_refl)).
          destruct HV as [_ _ _ HV|s (_ & _ & m & _ & _ & S) _ _ HV]; rewrite (Forall2_length_eq _ _ _ HV); (etransitivity; [apply filter_length_le|]).
          -- pose proof (inside_length u y Q'). pose proof (children_length (die_children y)). lia.
          -- pose proof (inside_length u s (unit_tree ob (read_unit rf u) _ _ S)). pose proof (children_length (die_children s)). lia.
      + apply IH. intros z Iz. apply Q. now right.
    - cbn [u_members]. apply (short_le u _ I). rewrite (Forall2_length_eq _ _ _ M). etransitivity; [apply filter_length_le|lia].
  Qed.
  Lemma found_short off t : from_offset (type_at ob) off = Some t -> short_type t.
  Proof.
    intros F. destruct (found_raw rf ob WF RD off t F) as [K|(u & d & I & J & _ & D)].
    - unfold short_type. rewrite K. exact Logic.I.
    - destruct D as [(ns & D)|D].
      + apply (described_short u ns (read_die rf u d) (t_kind t) t I); auto. exact (below_in rf u d J).
      + unfold short_type. destruct D; exact Logic.I.
  Qed.
  Lemma view_short : short_view (file_view choice ob).
  Proof.
    split; [exact found_short|]. intros t. cbn [file_view vw_enumerators]. unfold type_enumerators.
    assert (NIL : @short enumerator []) by (unfold short; cbn; lia).
    destruct (t_kind t); try exact NIL.
    all: unfold read_file in RD; destruct (forallb _ _); [|discriminate]; injection RD as <-; cbn [ob_enumerators];
      unfold at_entry; destruct (raw_tree rf (t_offset t)) as [(u, d)|] eqn:E; [|exact NIL];
      apply (raw_tree_iff rf WF) in E; destruct E as (I & J & _); apply (short_le u _ I);
      unfold enumerators, parse_enumerators, read_enumerators; rewrite flat_map_concat_map, map_map, <- flat_map_concat_map;
      rewrite entries_root in J;
      assert (L : (List.length (flat_map raw_entries (rd_children d)) <= List.length (raw_below u))%nat).
    { destruct J as [<-|J]; [reflexivity|]. apply (below_in rf u) in J. apply entries_length in J.
      fold (unit_entries (read_unit rf u)) in J. rewrite read_below, map_length in J. rewrite read_children in J.
      assert (Z : flat_map entries (map (read_die rf u) (rd_children d)) = map (read_die rf u) (flat_map raw_entries (rd_children d))).
      { clear. generalize (rd_children d) as l. induction l as [|c l IH]; [reflexivity|]. cbn [map flat_map]. rewrite map_app, read_entries. now rewrite IH. }
      rewrite Z, map_length in J. lia. }
    { etransitivity; [|exact L]. apply flat_map_length_le. intros c _. rewrite entries_root. destruct (rd_tag c =? 0x28); cbn; lia. }
  Qed.
End Short.
