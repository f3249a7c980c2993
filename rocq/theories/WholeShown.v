(** What is printed for the units of a file. *)
From Coq Require Import List Arith NArith ZArith Bool String Lia Permutation Sorting.Sorted.
From Verif Require Import Base BaseProofs RangeModel NamespaceModel TypeModel TypeSpec FileModel FileSpec FileProofs FilterModel FilterSpec
  FilterProofs PrintModel PrintSpec PrintProofs RefModel ItemModel ItemSpec OptionsModel EntryModel EntrySpec ReportModel ReportSpec
  PropertiesListing PropertiesFile ItemShown EntryShown PropertiesReport PropertiesDie
  NameModel MemberSpec DieModel DieSpec DieProofs WholeModel WholeSpec WholeProofs WholeDepth.
Import ListNotations.
Local Open Scope N_scope.

(** ** Lists *)

Lemma Forall2_nth {A B} (R : A -> B -> Prop) l m : Forall2 R l m ->
  forall i x, nth_error l i = Some x -> exists y, nth_error m i = Some y /\ R x y.
Proof.
  induction 1 as [|a b l m Rab _ IH]; intros [|i] x E; try discriminate; cbn in *.
  - injection E as <-. eauto.
  - apply (IH i x E).
Qed.
Lemma Forall2_in_l {A B} (R : A -> B -> Prop) l m x : Forall2 R l m -> In x l -> exists y, In y m /\ R x y.
Proof. induction 1 as [|a b l m Rab _ IH]; [intros []|]. intros [<-|I]; [exists b; cbn; auto|]. destruct (IH I) as (y & ? & ?). exists y. cbn; auto. Qed.
Lemma Forall2_in_r {A B} (R : A -> B -> Prop) l m y : Forall2 R l m -> In y m -> exists x, In x l /\ R x y.
Proof. induction 1 as [|a b l m Rab _ IH]; [intros []|]. intros [<-|I]; [exists a; cbn; auto|]. destruct (IH I) as (x & ? & ?). exists x. cbn; auto. Qed.
Lemma Forall2_map_eq {A B C} (f : A -> C) (g : B -> C) (R : A -> B -> Prop) l m :
  (forall x y, R x y -> f x = g y) -> Forall2 R l m -> map f l = map g m.
Proof. intros H. induction 1; cbn; f_equal; auto. Qed.
Lemma Forall2_choose {A B} (R : A -> B -> Prop) m : (forall y, In y m -> exists x, R x y) -> exists l, Forall2 R l m.
Proof.
  induction m as [|y m IH]; intros H; [exists []; constructor|]. destruct (H y (or_introl eq_refl)) as (x & Rx).
  destruct IH as (l & F); [intros z I; apply H; now right|]. exists (x :: l). now constructor.
Qed.
Lemma Forall2_unmap {A B C} (f : A -> B) (R : B -> C -> Prop) (Q : A -> C -> Prop) l m :
  (forall x y, R (f x) y -> Q x y) -> Forall2 R (map f l) m -> Forall2 Q l m.
Proof. intros H. revert m. induction l as [|x l IH]; intros m F; inversion F; subst; constructor; auto. Qed.
Lemma Forall2_with_in {A B} (R : A -> B -> Prop) l m : Forall2 R l m -> Forall2 (fun x y => R x y /\ In x l) l m.
Proof.
  intros F. assert (H : forall k, incl l k -> Forall2 (fun x y => R x y /\ In x k) l m); [|apply H, incl_refl].
  induction F as [|x y l m Rxy F IH]; intros k H; constructor.
  - split; [exact Rxy|apply H; now left].
  - apply IH. intros z I. apply H. now right.
Qed.
Lemma selects_in {A} (P : A -> Prop) l l' x : selects P l l' -> (In x l' <-> In x l /\ P x).
Proof.
  induction 1 as [|y l l' Py S IH|y l l' NP S IH]; cbn; [tauto| |].
  - rewrite IH. split; [intros [->|[]]; auto|intros [[->|] ]; auto].
  - rewrite IH. split; [tauto|]. intros [[->|] ]; tauto.
Qed.
Lemma selects_nodup {A B} (P : A -> Prop) (key : A -> B) l l' :
  selects P l l' -> NoDup (map key l) -> NoDup (map key l').
Proof.
  induction 1 as [|y l l' Py S IH|y l l' NP S IH]; cbn; intros D; auto; inversion D; subst; auto.
  constructor; [|auto]. intros I. apply in_map_iff in I. destruct I as (z & E & J). apply (selects_in _ _ _ z S) in J.
  apply H1. rewrite <- E. apply in_map. apply J.
Qed.

Lemma each_split {A} (P : A -> list line -> Prop) l ls x : each P l ls -> In x l ->
  exists pre xs post, ls = (pre ++ xs ++ post)%list /\ P x xs.
Proof.
  induction 1 as [|y l ys ls Py _ IH]; [intros []|]. intros [->|I].
  - exists [], ys, ls. auto.
  - destruct (IH I) as (pre & xs & post & -> & Px). exists (ys ++ pre)%list, xs, post. split; [now rewrite app_assoc|exact Px].
Qed.
Lemma each_weaken {A} (P Q : A -> list line -> Prop) l ls :
  (forall x xs, In x l -> P x xs -> Q x xs) -> each P l ls -> each Q l ls.
Proof. intros H E. induction E; constructor; [apply H; [now left|assumption]|apply IHE; intros; apply H; [now right|assumption]]. Qed.
Lemma each_along {A B} (R : A -> B -> Prop) (P : B -> list line -> Prop) (Q : A -> list line -> Prop) l m ls :
  Forall2 R l m -> (forall x y ys, In y m -> R x y -> P y ys -> Q x ys) -> each P m ls -> each Q l ls.
Proof.
  intros F. revert ls. induction F as [|x y l m Rxy F IH]; intros ls H E; inversion E; subst; constructor.
  - apply (H x y); [now left|exact Rxy|assumption].
  - apply IH; [|assumption]. intros. eapply H; [right|..]; eauto.
Qed.

(** ** Units that were loaded *)

Section Loaded.
  Variable choice : N -> nat.
  Variable ob : object_input.
  Hypothesis WF : well_formed ob.
  Local Notation symbols := (parse_symbols (ob_symbols ob)).

  Lemma loaded_split : exists us st unk,
    loaded_units choice ob = (us ++ [st; unk])%list /\ Forall2 (loaded_unit symbols) (parsed_units ob) us.
  Proof. exact (C20_symbol_names choice (h_sizes (file_hash ob)) (file_read ob)). Qed.
  Lemma loaded_at i u : nth_error (ob_units ob) i = Some u ->
    exists w, nth_error (loaded_units choice ob) i = Some w /\ loaded_unit symbols (unit_of ob u) w.
  Proof.
    intros E. destruct loaded_split as (us & st & unk & -> & F).
    destruct (Forall2_nth _ _ _ F i (unit_of ob u)) as (w & Ew & L).
    { unfold parsed_units. rewrite nth_error_map, E. reflexivity. }
    exists w. split; [|exact L]. rewrite nth_error_app1; [exact Ew|]. apply nth_error_Some. congruence.
  Qed.

  Lemma loaded_offsets u w : loaded_unit symbols (unit_of ob u) w ->
    map t_offset (un_types w) = map t_offset (ws_types (unit_items ob u)) /\
    map fn_offset (un_functions w) = map fu_offset (ws_functions (unit_items ob u)) /\
    map va_offset (un_variables w) = map vr_offset (ws_variables (unit_items ob u)).
  Proof.
    intros (_ & _ & T & F & V). cbn [unit_of un_types un_functions un_variables] in *. split; [now rewrite T|]. split.
    - rewrite <- (Forall2_map_eq fn_offset fn_offset _ _ _ (fun x y H => proj1 (proj1 H)) F), map_map. reflexivity.
    - rewrite <- (Forall2_map_eq va_offset va_offset _ _ _ (fun x y H => proj1 (proj1 H)) V), map_map. reflexivity.
  Qed.

  Lemma list_eqb_eq {A} (eqb : A -> A -> bool) (H : forall x y, eqb x y = true -> x = y) a : forall b,
    list_eqb eqb a b = true -> a = b.
  Proof.
    induction a as [|x a IH]; intros [|y b]; cbn; try discriminate; [auto|]. rewrite andb_true_iff. intros [E F].
    f_equal; auto.
  Qed.
  Lemma list_eqb_refl {A} (eqb : A -> A -> bool) (H : forall x, eqb x x = true) a : list_eqb eqb a a = true.
  Proof. induction a as [|x a IH]; [reflexivity|]. cbn. now rewrite H, IH. Qed.
  Lemma like_refl w : like_unit w w = true.
  Proof.
    unfold like_unit. rewrite !(list_eqb_refl N.eqb) by (intros; apply N.eqb_refl).
    rewrite (list_eqb_refl range_eqb) by (intros r; unfold range_eqb; now rewrite !N.eqb_refl).
    unfold opt_string_eqb. destruct (un_name w); [now rewrite String.eqb_refl|reflexivity].
  Qed.
  Lemma like_offsets a b : like_unit a b = true ->
    map t_offset (un_types a) = map t_offset (un_types b) /\
    map fn_offset (un_functions a) = map fn_offset (un_functions b) /\
    map va_offset (un_variables a) = map va_offset (un_variables b).
  Proof.
    unfold like_unit. rewrite !andb_true_iff. intros [[[_ T] F] V].
    assert (E : forall x y, N.eqb x y = true -> x = y) by (intros x y; apply N.eqb_eq).
    repeat split; now apply (list_eqb_eq N.eqb E).
  Qed.

  (** An offset of an item of a unit. *)
  Definition item_offset (u : unit_input) (off : N) : Prop :=
    In off (map t_offset (ws_types (unit_items ob u))) \/
    In off (map fu_offset (ws_functions (unit_items ob u))) \/
    In off (map vr_offset (ws_variables (unit_items ob u))).
  Lemma item_entry u off : In u (ob_units ob) -> item_offset u off -> In off (map die_offset (unit_entries u)).
  Proof.
    intros I [J|[J|J]]; apply in_map_iff in J; destruct J as (x & <- & J).
    - destruct (type_entry ob WF u x I J) as (d & D & _ & ->). now apply in_map.
    - destruct (function_entry ob WF u x I J) as (d & D & _ & ->). now apply in_map.
    - destruct (variable_entry_of ob WF u x I J) as (d & D & _ & ->). now apply in_map.
  Qed.

  Lemma nth_combine {A B} (l : list A) : forall (m : list B) x, In x (combine l m) ->
    exists i, nth_error l i = Some (fst x) /\ nth_error m i = Some (snd x).
  Proof.
    induction l as [|a l IH]; intros [|b m] x; cbn; try tauto. intros [<-|I].
    - exists O. auto.
    - destruct (IH m x I) as (i & E). exists (S i). exact E.
  Qed.
  Lemma combine_nth_in {A B} (l : list A) : forall (m : list B) i a b,
    nth_error l i = Some a -> nth_error m i = Some b -> In (a, b) (combine l m).
  Proof.
    induction l as [|x l IH]; intros [|y m] [|i] a b; cbn; try discriminate.
    - intros [= ->] [= ->]. now left.
    - intros E F. right. eauto.
  Qed.

  Lemma origin_at i u w off : nth_error (ob_units ob) i = Some u -> nth_error (loaded_units choice ob) i = Some w ->
    item_offset u off -> unit_origin choice ob w = Some u.
  Proof.
    intros Eu Ew IO. destruct (loaded_at i u Eu) as (w' & Ew' & LU). rewrite Ew in Ew'. injection Ew' as <-.
    unfold unit_origin. destruct (find _ _) as [[w' u']|] eqn:F.
    - apply find_some in F. destruct F as (I & LK). apply nth_combine in I. destruct I as (j & Ej & Fj).
      cbn [fst snd] in *. destruct (loaded_at j u' Fj) as (w'' & E & LU'). rewrite Ej in E. injection E as <-.
      apply like_offsets in LK. apply loaded_offsets in LU, LU'.
      assert (i = j) as <-; [|cbn; congruence]. apply (owner_at ob WF i j u u' off Eu Fj).
      + apply item_entry; [|exact IO]. now apply nth_error_In in Eu.
      + apply item_entry; [now apply nth_error_In in Fj|]. unfold item_offset in *.
        destruct LU as (A1 & A2 & A3), LU' as (B1 & B2 & B3), LK as (C1 & C2 & C3).
        rewrite <- B1, <- B2, <- B3, C1, C2, C3, A1, A2, A3. exact IO.
    - exfalso. pose proof (find_none _ _ F (w, u) (combine_nth_in _ _ i w u Ew Eu)) as X. cbn in X. rewrite like_refl in X. discriminate.
  Qed.
  Lemma dir_at i u w off : nth_error (ob_units ob) i = Some u -> nth_error (loaded_units choice ob) i = Some w ->
    item_offset u off -> unit_dir choice ob w = ui_dir u.
  Proof. intros A B C. unfold unit_dir. now rewrite (origin_at i u w off). Qed.

  (** ** Functions *)

  Lemma function_for_loaded g f : loaded_function symbols (func_of g) f -> function_for symbols g f.
  Proof.
    intros ((A & B & C & D & E & F & G & H & I) & S). cbn in *. unfold function_for, symbol_shown.
    repeat split; auto.
  Qed.
  Lemma variable_for_loaded g v : loaded_variable symbols (var_of g) v -> variable_for symbols g v.
  Proof.
    intros ((A & B & C & D & E & F & G & H) & S). cbn in *. unfold variable_for, symbol_shown.
    repeat split; auto.
  Qed.
  Lemma wanted_function o g f : function_for symbols g f -> (function_listed o f <-> function_wanted o g).
  Proof.
    intros (_ & N & M & _ & A & S & _ & I & _). unfold function_listed, function_wanted. now rewrite N, M, A, S, I.
  Qed.
  Lemma wanted_variable o g v : variable_for symbols g v -> (variable_listed o v <-> variable_wanted o g).
  Proof.
    intros (_ & N & M & _ & _ & A & _ & D & _). unfold variable_listed, variable_wanted. now rewrite N, M, A, D.
  Qed.

  (** Items that correspond, when some of them are selected and put in order. *)
  Lemma listed_along {A B} (R : B -> A -> Prop) (keyA : A -> N) (keyB : B -> N) (P : A -> Prop) (Q : B -> Prop)
      before depth pr (parsed : list B) (l : list A) ls :
    (forall b a, R b a -> keyB b = keyA a) -> (forall b a, R b a -> (P a <-> Q b)) ->
    NoDup (map keyB parsed) -> Forall2 R parsed l -> listing P before depth pr l ls ->
    exists out gs, Forall2 R gs out /\ NoDup (map keyB gs) /\ (forall g, In g gs <-> In g parsed /\ Q g) /\
      (forall a, In a out -> In a l) /\
      each (fun x xs => exists p, pr x = Some p /\ xs = lines depth 0 p) out ls.
  Proof.
    intros K PQ D F (sel & out & S & (PM & _) & E).
    assert (DA : NoDup (map keyA l)) by (rewrite <- (Forall2_map_eq keyB keyA R _ _ K F); exact D).
    assert (IO : forall a, In a out <-> In a l /\ P a).
    { intros a. rewrite <- (selects_in P l sel a S). split; apply Permutation_in; [exact PM|now symmetry]. }
    destruct (Forall2_choose (fun b a => R b a /\ In b parsed) out) as (gs & G).
    { intros a I. apply IO in I. destruct (Forall2_in_r _ _ _ a F (proj1 I)) as (b & ? & ?). eauto. }
    assert (G' : Forall2 R gs out) by (revert G; clear; induction 1 as [|? ? ? ? []]; constructor; auto).
    assert (DO : NoDup (map keyA out)).
    { apply (Permutation_NoDup (l := map keyA sel)); [apply Permutation_map; now symmetry|].
      now apply (selects_nodup P keyA l). }
    exists out, gs. split; [exact G'|]. split; [now rewrite (Forall2_map_eq keyB keyA R _ _ K G')|]. split; [|split].
    - intros g. split.
      + intros I. destruct (Forall2_in_l _ _ _ g G I) as (a & Ia & Rg & J). split; [exact J|].
        apply (PQ g a Rg). now apply IO.
      + intros [I Qg]. destruct (Forall2_in_l _ _ _ g F I) as (a & Ia & Rg).
        assert (Ja : In a out) by (apply IO; split; [exact Ia|now apply (PQ g a Rg)]).
        destruct (Forall2_in_r _ _ _ a G Ja) as (g' & Ig & Rg' & J').
        assert (g' = g) as <-; [|exact Ig]. apply (NoDup_map_eq keyB parsed); auto. rewrite (K _ _ Rg), (K _ _ Rg'). reflexivity.
    - intros a I. now apply IO in I.
    - exact E.
  Qed.

  Lemma functions_listed o fuel i u w depth before ls :
    nth_error (ob_units ob) i = Some u -> nth_error (loaded_units choice ob) i = Some w ->
    listing (function_listed o) before depth (print_function_in o fuel (load choice ob) w) (un_functions w) ls ->
    functions_printed choice ob o depth u ls.
  Proof.
    intros Eu Ew L. assert (Iu : In u (ob_units ob)) by now apply nth_error_In in Eu.
    destruct (loaded_at i u Eu) as (w' & Ew' & LU). rewrite Ew in Ew'. injection Ew' as <-.
    destruct LU as (_ & _ & _ & F & _). cbn [unit_of un_functions] in F.
    pose proof (unit_distinct ob WF u Iu) as UD. pose proof (items_read ob u) as IR.
    destruct (C35_kept _ _ _ UD IR) as (SS & _).
    assert (F' : Forall2 (function_for symbols) (ws_functions (unit_items ob u)) (un_functions w)).
    { apply (Forall2_unmap _ _ _ _ _ (function_for_loaded)), F. }
    destruct (listed_along (function_for symbols) fn_offset fu_offset (function_listed o) (function_wanted o) before depth
      (print_function_in o fuel (load choice ob) w) (ws_functions (unit_items ob u)) (un_functions w) ls) as (out & gs & G & D & IG & IO & E);
      try (intros b a (X & _); now symmetry); try (intros b a; apply wanted_function); auto.
    { now apply StronglySorted_lt_NoDup. }
    exists gs. split; [exact D|]. split; [|split].
    - intros d g H. rewrite IG. split; [tauto|]. intros Wg. split; [|exact Wg].
      now apply (C35_resolved (unit_context ob u) (ui_children u) _ d g).
    - intros g I. apply IG in I. destruct (C35_own _ _ _ g UD IR (proj1 I)) as (t & d & A & B & C & _). eauto.
    - refine (each_along (fun g f => function_for symbols g f /\ In g gs) _ _ gs out ls (Forall2_with_in _ _ _ G) _ E).
      intros g f xs If (R & Ig) (p & Ep & ->). exists f. split; [exact R|].
        assert (OF : fn_offset f = fu_offset g) by apply R.
        apply IG in Ig. destruct Ig as (Jg & _).
        split; [|split].
        * cbn [file_scene sc_return]. rewrite OF, (read_function_in ob WF u g Iu Jg). reflexivity.
        * cbn [file_scene sc_function_source]. rewrite OF, (read_function_in ob WF u g Iu Jg). reflexivity.
        * unfold print_function_in in Ep. cbn [load im_scene im_dir] in Ep.
          rewrite (dir_at i u w (fu_offset g) Eu Ew) in Ep by (right; left; now apply in_map).
          now apply (function_printed o fuel).
  Qed.

  Lemma variables_listed o i u w depth before ls :
    nth_error (ob_units ob) i = Some u -> nth_error (loaded_units choice ob) i = Some w ->
    listing (variable_listed o) before depth (print_variable_in o (load choice ob) w) (un_variables w) ls ->
    variables_printed choice ob o u ls.
  Proof.
    intros Eu Ew L. assert (Iu : In u (ob_units ob)) by now apply nth_error_In in Eu.
    destruct (loaded_at i u Eu) as (w' & Ew' & LU). rewrite Ew in Ew'. injection Ew' as <-.
    destruct LU as (_ & _ & _ & _ & F). cbn [unit_of un_variables] in F.
    pose proof (unit_distinct ob WF u Iu) as UD. pose proof (items_read ob u) as IR.
    destruct (C36_kept _ _ _ UD IR) as (SS & _).
    assert (F' : Forall2 (variable_for symbols) (ws_variables (unit_items ob u)) (un_variables w)).
    { apply (Forall2_unmap _ _ _ _ _ (variable_for_loaded)), F. }
    destruct (listed_along (variable_for symbols) va_offset vr_offset (variable_listed o) (variable_wanted o) before depth
      (print_variable_in o (load choice ob) w) (ws_variables (unit_items ob u)) (un_variables w) ls) as (out & gs & G & D & IG & IO & E);
      try (intros b a (X & _); now symmetry); try (intros b a; apply wanted_variable); auto.
    { now apply StronglySorted_lt_NoDup. }
    exists gs. split; [exact D|]. split; [|split].
    - intros NR d g H. rewrite IG. split; [tauto|]. intros Wg. split; [|exact Wg].
      now apply (C36_resolved (unit_context ob u) (ui_children u) _ d g).
    - intros g I. apply IG in I. destruct (variable_entry_of ob WF u g Iu (proj1 I)) as (d & _ & A & B). eauto.
    - refine (each_along (fun g f => variable_for symbols g f /\ In g gs) _ _ gs out ls (Forall2_with_in _ _ _ G) _ E).
      intros g f xs If (R & Ig) (p & Ep & ->). exists f. split; [exact R|].
        assert (OF : va_offset f = vr_offset g) by apply R.
        apply IG in Ig. destruct Ig as (Jg & _).
        split.
        * cbn [file_scene sc_variable_source]. rewrite OF, (read_variable_in ob WF u g Iu Jg). reflexivity.
        * unfold print_variable_in in Ep. cbn [load im_scene im_dir] in Ep.
          rewrite (dir_at i u w (vr_offset g) Eu Ew) in Ep by (right; right; now apply in_map).
          injection Ep as <-. apply variable_printed.
  Qed.

  Lemma types_listed o fuel i u w depth before ls :
    nth_error (ob_units ob) i = Some u -> nth_error (loaded_units choice ob) i = Some w ->
    listing (type_listed o (type_at ob) false w) before depth (print_type_in o fuel (load choice ob) w) (un_types w) ls ->
    types_printed choice ob o u ls.
  Proof.
    intros Eu Ew (sel & out & S & (PM & _) & E). assert (Iu : In u (ob_units ob)) by now apply nth_error_In in Eu.
    destruct (loaded_at i u Eu) as (w' & Ew' & LU). rewrite Ew in Ew'. injection Ew' as <-.
    destruct LU as (_ & _ & T & _ & _). cbn [unit_of un_types] in T. rewrite T in S.
    pose proof (unit_distinct ob WF u Iu) as UD. pose proof (items_read ob u) as IR.
    destruct (C49_kept _ _ _ UD IR) as (NT & KT).
    assert (IO : forall a, In a out <-> In a (ws_types (unit_items ob u)) /\ type_listed o (type_at ob) false w a).
    { intros a. rewrite <- (selects_in _ _ sel a S). split; apply Permutation_in; [exact PM|now symmetry]. }
    exists (ws_types (unit_items ob u)), out. split; [exact NT|]. split; [|split; [|split; [|split; [|split]]]].
    - apply (Permutation_NoDup (l := map t_offset sel)); [apply Permutation_map; now symmetry|].
      exact (selects_nodup _ t_offset _ _ S NT).
    - intros t I. exact (C49_every _ _ _ t IR I).
    - intros outer ns d L NO TT. exact (C49_described _ _ _ outer ns d UD IR L TT NO).
    - intros t I. exact (proj1 (type_at_named ob WF u t Iu I)).
    - intros t. rewrite IO. unfold type_listed, shown_inside. rewrite T. reflexivity.
    - revert E. apply each_weaken. intros t xs I (p & Ep & ->). unfold print_type_in in Ep.
      cbn [load im_view im_scene im_dir file_scene sc_view] in Ep.
      apply IO in I. rewrite (dir_at i u w (t_offset t) Eu Ew) in Ep by (left; now apply in_map).
      now apply (type_lines o fuel).
  Qed.

  Lemma wanted_unit given o u w : loaded_unit symbols (unit_of ob u) w -> (unit_listed given o w <-> unit_wanted given o u).
  Proof.
    intros (N & _). cbn [unit_of un_name] in N. unfold unit_wanted, unit_listed, filter_path. cbn [un_name].
    rewrite N, attr_name_given. reflexivity.
  Qed.
End Loaded.

(** ** The order of functions *)

Lemma parameters_compare_list ob a : forall b, parameters_compare ob a b = cmp_list (parameter_compare ob) a b.
Proof.
  induction a as [|x a IH]; intros [|y b]; try reflexivity. cbn [parameters_compare cmp_list then_with]. rewrite IH. now destruct (parameter_compare ob x y).
Qed.
Lemma compare_consistent ob : well_formed ob -> acyclic_types ob -> consistent (compare_parameters ob).
Proof.
  intros WF AC. pose proof (type_compare_tp ob WF AC) as T.
  assert (P : total_preorder (parameter_compare ob)).
  { split; intros; unfold parameter_compare in *.
    - destruct (from_offset _ _); [apply (tp_refl _ T)|reflexivity].
    - destruct (from_offset (type_at ob) (pt_ty x)), (from_offset (type_at ob) (pt_ty y)); try reflexivity. apply (tp_sym _ T).
    - destruct (from_offset (type_at ob) (pt_ty x)), (from_offset (type_at ob) (pt_ty y)), (from_offset (type_at ob) (pt_ty z));
        try congruence. eapply (tp_trans _ T); eauto. }
  apply cmp_list_tp in P. unfold consistent, on_pairs, compare_parameters.
  split; intros; rewrite ?parameters_compare_list in *.
  - apply (tp_refl _ P).
  - apply (tp_sym _ P).
  - eapply (tp_trans _ P); eauto.
Qed.
