(** Proofs about DetailModel.v, first part: attributes, and several entries for one item. *)
From Coq Require Import List Arith NArith ZArith Bool String Lia.
From Verif Require Import Base BaseProofs RangeModel NamespaceModel TypeModel LocationModel LocationProofs DieModel
  DieSpec DieProofs DescribeProofs FileModel EntryModel DetailModel DetailSpec.
Import ListNotations.
Local Open Scope N_scope.

(** ** Attributes *)

Lemma attr_low_given l : attr_unit_low_pc l = given_low l.
Proof. apply scan_given. now intros []. Qed.
Lemma attr_extent_given l : attr_unit_size l = given_extent l.
Proof. apply scan_given. now intros []. Qed.
Lemma attr_optional_type_given l : attr_optional_type l None = given_optional_type l.
Proof. apply scan_given. intros [] y; try reflexivity; now destruct v. Qed.
Lemma attr_pieces_given rd pick l : attr_pieces rd pick l = given_pieces rd pick l.
Proof. apply scan_given. intros a y. destruct (pick a); [now destruct evaluate|reflexivity]. Qed.
Lemma attr_call_address_given l :
  attr_call_address l = given (fun a => match a with ACallPc v => Some v | _ => None end) l None.
Proof. apply scan_given. now intros []. Qed.
Lemma attr_return_address_given gnu l :
  attr_return_address gnu l =
  given (fun a => match a with
                  | ACallReturnPc v => Some v
                  | ALowPc (Some n) => if gnu then Some (Some n) else None
                  | _ => None
                  end) l None.
Proof. apply scan_given. intros [] y; try reflexivity. destruct v; [now destruct gnu|reflexivity]. Qed.
Lemma attr_call_parameter_given l :
  attr_call_parameter l =
  given (fun a => match a with
                  | ACallParameter (Some o) | AAbstractOrigin (Some o) => Some (Some o)
                  | _ => None
                  end) l None.
Proof. apply scan_given. intros [] y; try reflexivity; now destruct v. Qed.

Lemma attr_function_origin_given l :
  attr_function_origin l = match given_origin l with Some o => o | None => u64_max end.
Proof.
  unfold attr_function_origin, given_origin. change type_offset_none with u64_max.
  change (scan (fun a x => match a with AAbstractOrigin (Some o) => o | _ => x end) l u64_max =
          match given (fun a => match a with AAbstractOrigin (Some o) => Some (Some o) | _ => None end) l None
          with Some o => o | None => u64_max end).
  assert (H : forall x : option N,
    scan (fun a x => match a with AAbstractOrigin (Some o) => o | _ => x end) l
      match x with Some o => o | None => u64_max end =
    match given (fun a => match a with AAbstractOrigin (Some o) => Some (Some o) | _ => None end) l x
    with Some o => o | None => u64_max end).
  { induction l as [|a l IH]; intros x; [reflexivity|]. rewrite given_cons, <- IH.
    unfold scan. cbn [fold_left]. f_equal. destruct a; try reflexivity. now destruct v. }
  apply (H None).
Qed.

Lemma scan_flag (p : attr -> bool) {A} (yes no : A) l :
  scan (fun a x => if p a then yes else x) l no = if existsb p l then yes else no.
Proof.
  assert (H : forall x, scan (fun a x => if p a then yes else x) l x = if existsb p l then yes else x).
  { induction l as [|a l IH]; intros x; [reflexivity|]. unfold scan in *. cbn [fold_left existsb]. rewrite IH.
    destruct (p a), (existsb p l); reflexivity. }
  apply H.
Qed.
Lemma scan_ext {A} (f g : attr -> A -> A) l x : (forall a y, f a y = g a y) -> scan f l x = scan g l x.
Proof. intros H. revert x. induction l as [|a l IH]; intros x; [reflexivity|]. unfold scan in *. cbn [fold_left]. now rewrite H, IH. Qed.
Lemma attr_call_kind_given l :
  attr_call_kind l = if existsb (fun a => match a with ACallTail => true | _ => false end) l
                     then TailCall else NormalCall.
Proof. rewrite <- scan_flag. apply scan_ext. now intros []. Qed.
Lemma attr_clobbered_given l :
  attr_clobbered l = existsb (fun a => match a with ACallTarget true _ => true | _ => false end) l.
Proof.
  transitivity (if existsb (fun a => match a with ACallTarget true _ => true | _ => false end) l then true else false).
  - rewrite <- scan_flag. apply scan_ext. intros [] y; try reflexivity. now destruct clobbered.
  - now destruct existsb.
Qed.

Lemma attr_call_source_given l : attr_call_source l = given_call_source l.
Proof.
  unfold attr_call_source, given_call_source, given_position.
  match goal with
  | |- scan ?F l no_source = mkSource (given ?p1 l _) (given ?p2 l _) (given ?p3 l _) (given ?p4 l _) =>
      enough (H : forall a b c e, scan F l (mkSource a b c e)
                  = mkSource (given p1 l a) (given p2 l b) (given p3 l c) (given p4 l e)) by apply H
  end.
  induction l as [|x l IH]; intros a b c e; [reflexivity|].
  rewrite !given_cons. unfold scan in *. cbn [fold_left].
  assert (P : forall v y, position v y
     = match match v with
             | Some n => if (0 <? n) && (n <? 4294967296) then Some n else None
             | None => None
             end with Some v0 => v0 | None => y end).
  { intros [n|] y; [|reflexivity]. unfold position.
    destruct (N.eqb_spec n 0), (N.leb_spec n 4294967295), (N.ltb_spec 0 n), (N.ltb_spec n 4294967296);
      cbn [negb andb]; try reflexivity; lia. }
  destruct x; try apply IH.
  - destruct v as [[file [dir|]]|]; cbn [so_line so_column so_directory]; apply IH.
  - cbn [so_line so_column so_directory so_file]. rewrite IH, <- P. reflexivity.
  - cbn [so_line so_column so_directory so_file]. rewrite IH, <- P. reflexivity.
Qed.

(** ** Locations *)

Definition listed (l : list attr) : list (range * list op) :=
  flat_map (fun a => match a with ALocation v => place_list v | _ => [] end) l.

Lemma places_evaluated rd d :
  places_at (rd, d) = evaluated (rd_address_size rd) (rd_address rd) (listed (die_attrs d)).
Proof.
  unfold places_at, evaluated, listed, e_attrs. cbn [fst snd]. f_equal.
Qed.

Lemma parameter_places rd d : attr_parameter_locations rd (die_attrs d) = places_at (rd, d).
Proof.
  rewrite places_evaluated. unfold attr_parameter_locations.
  assert (H : forall l x,
    scan (fun a x => match a with
                     | ALocation v => evaluate_parameters (rd_address_size rd) (rd_address rd) (place_list v) x
                     | _ => x end) l x = x ++ evaluated (rd_address_size rd) (rd_address rd) (listed l)).
  { induction l as [|a l IH]; intros x; [now rewrite app_nil_r|].
    unfold scan in *. cbn [fold_left]. rewrite IH. unfold listed. cbn [flat_map].
    destruct a; try reflexivity. rewrite evaluate_parameters_fold. unfold evaluated.
    now rewrite flat_map_app, app_assoc. }
  apply H.
Qed.

Lemma fixed_evaluated rd d :
  fixed_at (rd, d) =
  fixed (map snd (evaluated (rd_address_size rd) (rd_address rd) (listed (die_attrs d)))).
Proof.
  unfold fixed_at, fixed. rewrite places_evaluated. generalize (evaluated (rd_address_size rd) (rd_address rd) (listed (die_attrs d))).
  intros l. induction l as [|[r p] l IH]; cbn; [reflexivity|]. now rewrite IH.
Qed.

Lemma evaluate_locals_app size address l1 l2 v :
  evaluate_locals size address (l1 ++ l2) v = evaluate_locals size address l2 (evaluate_locals size address l1 v).
Proof. apply fold_left_app. Qed.
Lemma attr_local_listed rd l :
  attr_local rd l =
  evaluate_locals (rd_address_size rd) (rd_address rd) (listed l) (LocationModel.mkLocal opt64_none opt64_none []).
Proof.
  unfold attr_local. generalize (LocationModel.mkLocal opt64_none opt64_none []).
  induction l as [|a l IH]; intros v; [reflexivity|].
  unfold scan in *. cbn [fold_left]. rewrite IH. unfold listed. cbn [flat_map].
  destruct a; try reflexivity. now rewrite evaluate_locals_app.
Qed.

Lemma local_places rd d :
  proper_places [(rd, d)] ->
  lv_locations (attr_local rd (die_attrs d)) = places_at (rd, d) /\
  opt64_get (lv_address (attr_local rd (die_attrs d))) = address_at (rd, d) /\
  opt64_get (lv_size (attr_local rd (die_attrs d))) = size_at (rd, d).
Proof.
  intros P. rewrite attr_local_listed.
  destruct (evaluate_locals_fold (rd_address_size rd) (rd_address rd) (listed (die_attrs d))
              (LocationModel.mkLocal opt64_none opt64_none [])) as (A & S & L).
  rewrite A, S, L. rewrite places_evaluated. split; [reflexivity|].
  unfold address_at, size_at. rewrite fixed_evaluated.
  assert (Q : forall a n, In (a, n) (fixed (map snd (evaluated (rd_address_size rd) (rd_address rd) (listed (die_attrs d)))))
                          -> a <> u64_max /\ n < two64).
  { rewrite <- fixed_evaluated. intros a n H. apply (P _ _ _ (or_introl eq_refl) H). }
  destruct (use_first (map snd (evaluated (rd_address_size rd) (rd_address rd) (listed (die_attrs d))))
              (LocationModel.mkLocal opt64_none opt64_none []) eq_refl) as [B C].
  { intros a n H. apply (Q a n H). }
  rewrite B, C. destruct fixed as [|[a n] l]; [split; reflexivity|].
  destruct (Q a n (or_introl eq_refl)) as [NA NN]. split.
  - unfold opt64_get, opt64_is_none. change opt64_none with u64_max.
    destruct (N.eqb_spec a u64_max); [contradiction|reflexivity].
  - cbn [lv_size]. destruct (opt64_get n) as [k|] eqn:G; [|reflexivity].
    assert (K : k = n). { unfold opt64_get in G. destruct (opt64_is_none n); [discriminate|]. now injection G. }
    subst k. unfold opt64_get, opt64_is_none.
    destruct (N.eqb_spec (div_ceil n 8) opt64_none) as [E|]; [exfalso|reflexivity].
    pose proof (div_ceil_spec n) as D. change opt64_none with 18446744073709551615 in E.
    assert (T : two64 = 18446744073709551616) by reflexivity.
    rewrite E in D. lia.
Qed.

(** ** Several entries for one item *)

Lemma groups_ext l : forall s1 s2, (forall x, In x s1 <-> In x s2) -> groups s1 l = groups s2 l.
Proof.
  assert (X : forall (p : N -> bool) s1 s2, (forall x, In x s1 <-> In x s2) -> existsb p s1 = existsb p s2).
  { intros p s1 s2 H. apply eq_true_iff_eq. rewrite !existsb_exists.
    split; intros (x & I & P); exists x; split; auto; now apply H. }
  induction l as [|e l IH]; intros s1 s2 H; [reflexivity|]. cbn [groups].
  rewrite (X _ s1 s2 H), (X (N.eqb (e_offset e)) s1 s2 H).
  rewrite (IH s1 s2 H), (IH (e_offset e :: s1) (e_offset e :: s2)); [reflexivity|].
  intros x. cbn [In]. now rewrite H.
Qed.

Section Merge.
  Context {A : Type}.
  Variable key : A -> N.
  Variable make : entry -> A.
  Variable merge : A -> entry -> A.
  Hypothesis key_make : forall e, key (make e) = e_offset e.
  Hypothesis key_merge : forall a e, key (merge a e) = key a.

  Fixpoint amend (origin : N) (e : entry) (l : list A) : option (list A) :=
    match l with
    | [] => None
    | q :: l' => if key q =? origin then Some (merge q e :: l') else option_map (cons q) (amend origin e l')
    end.
  Definition add_entry (l : list A) (e : entry) : list A :=
    match given_origin (e_attrs e) with
    | Some origin => match amend origin e l with Some l' => l' | None => l ++ [make e] end
    | None => l ++ [make e]
    end.

  (** What entries [l] do to the items that are there. *)
  Fixpoint amended (seen : list N) (acc : list A) (l : list entry) : list A :=
    match acc with
    | [] => []
    | a :: acc' =>
        (if existsb (N.eqb (key a)) seen then a else fold_left merge (filter (refers_to (key a)) l) a)
        :: amended (key a :: seen) acc' l
    end.

  Lemma amended_nil acc : forall seen, amended seen acc [] = acc.
  Proof. induction acc as [|a acc IH]; intros seen; [reflexivity|]. cbn. rewrite IH. now destruct existsb. Qed.

  Lemma amended_skip e l acc : forall seen,
    (forall o, In o (map key acc) -> refers_to o e = false) ->
    amended seen acc (e :: l) = amended seen acc l.
  Proof.
    induction acc as [|a acc IH]; intros seen H; [reflexivity|]. cbn [amended filter].
    rewrite (H (key a) (or_introl eq_refl)), IH; [reflexivity|]. intros o I. apply H. now right.
  Qed.

  Lemma amended_app l acc2 acc1 : forall seen,
    amended seen (acc1 ++ acc2) l = amended seen acc1 l ++ amended (rev (map key acc1) ++ seen) acc2 l.
  Proof.
    induction acc1 as [|a acc1 IH]; intros seen; [reflexivity|]. cbn [app amended map rev]. rewrite IH.
    now rewrite <- app_assoc.
  Qed.

  Lemma existsb_eqb x l : existsb (N.eqb x) l = true <-> In x l.
  Proof. rewrite existsb_exists. split; [intros (y & I & E); apply N.eqb_eq in E; now subst|intros I; exists x; now rewrite N.eqb_refl]. Qed.

  Lemma amended_seen o l acc e : forall seen,
    In o seen -> given_origin (e_attrs e) = Some o -> amended seen acc (e :: l) = amended seen acc l.
  Proof.
    induction acc as [|a acc IH]; intros seen I G; [reflexivity|]. cbn [amended filter].
    rewrite IH by (auto; now right). f_equal. unfold refers_to at 1. rewrite G.
    destruct (N.eqb_spec o (key a)) as [->|]; [|reflexivity].
    rewrite (proj2 (existsb_eqb (key a) seen) I). reflexivity.
  Qed.

  Lemma amended_hit o e l acc : forall seen acc',
    given_origin (e_attrs e) = Some o -> ~ In o seen -> amend o e acc = Some acc' ->
    amended seen acc (e :: l) = amended seen acc' l.
  Proof.
    induction acc as [|a acc IH]; intros seen acc' G NI H; [discriminate|]. cbn [amend] in H.
    destruct (N.eqb_spec (key a) o) as [K|K].
    - injection H as <-. cbn [amended]. rewrite key_merge.
      destruct (existsb (N.eqb (key a)) seen) eqn:E; [apply existsb_eqb in E; congruence|].
      rewrite (amended_seen o) by (auto; left; assumption). f_equal.
      cbn [filter]. unfold refers_to at 1. rewrite G, (proj2 (N.eqb_eq o (key a))) by congruence. reflexivity.
    - destruct (amend o e acc) as [l'|] eqn:E; [|discriminate]. injection H as <-.
      cbn [amended]. rewrite (IH (key a :: seen) l') by (auto; intros [X|X]; congruence || contradiction).
      f_equal. cbn [filter]. unfold refers_to at 1. rewrite G.
      destruct (N.eqb_spec o (key a)); [congruence|reflexivity].
  Qed.

  Lemma amend_keys o e acc : forall acc', amend o e acc = Some acc' -> map key acc' = map key acc.
  Proof.
    induction acc as [|a acc IH]; intros acc' H; [discriminate|]. cbn [amend] in H.
    destruct (key a =? o).
    - injection H as <-. cbn [map]. now rewrite key_merge.
    - destruct (amend o e acc) as [l'|]; [|discriminate]. injection H as <-. cbn [map]. now rewrite (IH l').
  Qed.
  Lemma amend_none o e acc : amend o e acc = None <-> ~ In o (map key acc).
  Proof.
    induction acc as [|a acc IH]; cbn [amend map In]; [now split|].
    destruct (N.eqb_spec (key a) o) as [K|K].
    - split; [discriminate|intros N; exfalso; auto].
    - destruct (amend o e acc); cbn [option_map]; split; intros H; try discriminate.
      + exfalso. apply H. right. destruct (in_dec N.eq_dec o (map key acc)) as [I|I]; [exact I|].
        apply IH in I. discriminate.
      + intros [X|X]; [contradiction|]. now apply IH in X.
      + reflexivity.
  Qed.

  Lemma add_entries l : forall acc,
    fold_left add_entry l acc =
    amended [] acc l ++ map (fun g => fold_left merge (snd g) (make (fst g))) (groups (map key acc) l).
  Proof.
    induction l as [|e l IH]; intros acc; [cbn; now rewrite amended_nil, app_nil_r|].
    cbn [fold_left]. rewrite IH. clear IH. unfold add_entry.
    assert (NEW : (forall o, In o (map key acc) -> refers_to o e = false) ->
      amended [] (acc ++ [make e]) l ++
        map (fun g => fold_left merge (snd g) (make (fst g))) (groups (map key (acc ++ [make e])) l) =
      amended [] acc (e :: l) ++
        map (fun g => fold_left merge (snd g) (make (fst g))) (groups (map key acc) (e :: l))).
    { intros H. rewrite amended_skip by exact H. rewrite amended_app, <- app_assoc. f_equal.
      cbn [groups]. destruct (existsb (fun o => refers_to o e) (map key acc)) eqn:E.
      { apply existsb_exists in E. destruct E as (o & I & R). rewrite (H o I) in R. discriminate. }
      cbn [amended app map fst snd]. rewrite key_make, app_nil_r.
      rewrite (groups_ext l (map key (acc ++ [make e])) (e_offset e :: map key acc)).
      2: { intros x. rewrite map_app, in_app_iff. cbn [map In]. rewrite key_make. tauto. }
      f_equal. rewrite (eq_true_iff_eq (existsb (N.eqb (e_offset e)) (rev (map key acc)))
                          (existsb (N.eqb (e_offset e)) (map key acc))).
      2: { rewrite !existsb_eqb. symmetry. apply in_rev. }
      clear E; now destruct (existsb (N.eqb (e_offset e)) (map key acc)). }
    destruct (given_origin (e_attrs e)) as [o|] eqn:G.
    - destruct (amend o e acc) as [acc'|] eqn:E.
      + rewrite (amended_hit o e l acc [] acc' G) by (auto; now intros []). f_equal. f_equal.
        rewrite (amend_keys _ _ _ _ E). cbn [groups].
        assert (I : In o (map key acc)).
        { destruct (in_dec N.eq_dec o (map key acc)) as [I|I]; [exact I|].
          apply (amend_none o e) in I. congruence. }
        rewrite (proj2 (existsb_exists (fun o => refers_to o e) (map key acc))); [reflexivity|].
        exists o. split; [exact I|]. unfold refers_to. rewrite G. apply N.eqb_refl.
      + apply NEW. intros x I. unfold refers_to. rewrite G. apply N.eqb_neq. intros ->.
        now apply amend_none in E.
    - apply NEW. intros x I. unfold refers_to. now rewrite G.
  Qed.

  Lemma add_all l : fold_left add_entry l [] = map (fun g => fold_left merge (snd g) (make (fst g))) (groups [] l).
  Proof. apply (add_entries l []). Qed.
End Merge.

(** ** The latest entry *)

Lemma last_app {A} (l1 l2 : list A) d : last (l1 ++ l2) d = last l2 (last l1 d).
Proof.
  revert d. induction l1 as [|x l1 IH]; intros d; [reflexivity|]. cbn [app]. rewrite !last_cons. apply IH.
Qed.
Lemma latest_snoc {B} (pick : entry -> option B) l e d :
  latest pick (l ++ [e]) d = match pick e with Some v => v | None => latest pick l d end.
Proof.
  unfold latest. rewrite flat_map_app, last_app. cbn [flat_map]. rewrite app_nil_r. now destruct (pick e).
Qed.
Lemma latest_one {B} (pick : entry -> option B) e d :
  latest pick [e] d = match pick e with Some v => v | None => d end.
Proof. apply (latest_snoc pick [] e d). Qed.

Lemma groups_in l : forall seen g, In g (groups seen l) -> In (fst g) l /\ incl (snd g) l.
Proof.
  induction l as [|e l IH]; intros seen g H; [contradiction|]. cbn [groups] in H.
  destruct existsb.
  - destruct (IH _ _ H). split; [now right|]. intros x I. right. auto.
  - destruct H as [<-|H].
    + cbn [fst snd]. split; [now left|]. destruct existsb; [intros x []|].
      intros x I. apply filter_In in I. right. apply I.
    + destruct (IH _ _ H). split; [now right|]. intros x I. right. auto.
Qed.

(** ** Parameters and variables *)

Definition make_parameter (e : entry) : parameter :=
  mkParameter (e_offset e) (attr_name (e_attrs e)) (attr_type (e_attrs e))
    (attr_parameter_locations (fst e) (e_attrs e)).
Definition merge_parameter (q : parameter) (e : entry) : parameter :=
  let p := make_parameter e in
  mkParameter (pa_offset q) (if is_none (pa_name p) then pa_name q else pa_name p)
    (if pa_ty p =? type_offset_none then pa_ty q else pa_ty p) (pa_locations q ++ pa_locations p).
Definition make_variable (e : entry) : variable :=
  let place := attr_local (fst e) (e_attrs e) in
  mkVariableAt (e_offset e) (attr_name (e_attrs e)) (attr_type (e_attrs e)) (attr_source (e_attrs e))
    (lv_address place) (lv_size place) (lv_locations place).
Definition merge_variable (q : variable) (e : entry) : variable :=
  let v := make_variable e in
  mkVariableAt (lc_offset q) (if is_none (lc_name v) then lc_name q else lc_name v)
    (if lc_ty v =? type_offset_none then lc_ty q else lc_ty v)
    (if source_is_none (lc_source v) then lc_source q else lc_source v)
    (if opt64_is_none (lc_address v) then lc_address q else lc_address v)
    (if opt64_is_none (lc_size v) then lc_size q else lc_size v) (lc_locations q ++ lc_locations v).

Definition add_parameter (l : list parameter) (e : entry) : list parameter :=
  parse_parameter (fst e) (e_offset e) (e_attrs e) l.
Definition add_variable (l : list variable) (e : entry) : list variable :=
  parse_local_variable (fst e) (e_offset e) (e_attrs e) l.

Lemma add_parameter_entry l e : add_parameter l e = add_entry pa_offset make_parameter merge_parameter l e.
Proof.
  unfold add_parameter, parse_parameter, add_entry. rewrite attr_abstract_origin_given.
  destruct given_origin as [o|]; [|reflexivity].
  assert (H : forall l, amend_parameter o (make_parameter e) l = amend pa_offset merge_parameter o e l).
  { clear l. induction l as [|q l IH]; [reflexivity|]. cbn [amend_parameter amend]. now rewrite IH. }
  change (mkParameter _ _ _ _) with (make_parameter e). now rewrite H.
Qed.
Lemma add_variable_entry l e : add_variable l e = add_entry lc_offset make_variable merge_variable l e.
Proof.
  unfold add_variable, parse_local_variable, add_entry. rewrite attr_abstract_origin_given.
  destruct given_origin as [o|]; [|reflexivity].
  assert (H : forall l, amend_variable o (make_variable e) l = amend lc_offset merge_variable o e l).
  { clear l. induction l as [|q l IH]; [reflexivity|]. cbn [amend_variable amend]. now rewrite IH. }
  change (mkVariableAt _ _ _ _ _ _ _) with (make_variable e). now rewrite H.
Qed.

Lemma fold_ext {A B} (f g : A -> B -> A) l x : (forall a b, f a b = g a b) -> fold_left f l x = fold_left g l x.
Proof. intros H. revert x. induction l as [|b l IH]; intros x; [reflexivity|]. cbn. now rewrite H, IH. Qed.

Lemma merged_parameter e more : fold_left merge_parameter more (make_parameter e) = parameter_of (e, more).
Proof.
  unfold parameter_of. cbn [fst snd]. induction more as [|x more IH] using rev_ind.
  - cbn [fold_left]. unfold make_parameter, latest_name, latest_type.
    rewrite !latest_one. cbn [flat_map]. rewrite app_nil_r, attr_name_given, attr_type_given.
    destruct e as [rd d]. unfold e_attrs. cbn [fst snd]. rewrite parameter_places.
    f_equal; [now destruct given_name|].
    destruct (N.eqb_spec (given_type (die_attrs d)) type_offset_none); [assumption|reflexivity].
  - rewrite fold_left_app. cbn [fold_left]. rewrite IH. unfold merge_parameter. cbn [pa_offset pa_name pa_ty pa_locations make_parameter].
    unfold latest_name, latest_type. rewrite !app_comm_cons, !latest_snoc, flat_map_app. cbn [flat_map].
    rewrite app_nil_r, attr_name_given, attr_type_given. destruct x as [rd d]. unfold e_attrs. cbn [fst snd].
    rewrite parameter_places. f_equal; [now destruct given_name|].
    now destruct (given_type (die_attrs d) =? type_offset_none).
Qed.

Lemma get_get x : opt64_from (opt64_get x) = x.
Proof.
  unfold opt64_get, opt64_is_none, opt64_from. destruct (N.eqb_spec x opt64_none) as [->|]; reflexivity.
Qed.
Lemma opt64_choice x y : (if opt64_is_none x then y else x) = match opt64_get x with Some n => n | None => y end.
Proof. unfold opt64_get. now destruct opt64_is_none. Qed.

Lemma merged_variable e more :
  proper_places (e :: more) -> fold_left merge_variable more (make_variable e) = variable_of (e, more).
Proof.
  unfold variable_of. cbn [fst snd]. induction more as [|x more IH] using rev_ind; intros P.
  - cbn [fold_left]. unfold make_variable, latest_name, latest_type.
    rewrite !latest_one. cbn [flat_map]. rewrite app_nil_r, attr_name_given, attr_type_given, attr_source_given.
    destruct e as [rd d]. destruct (local_places rd d P) as (L & A & S).
    unfold e_attrs in *. cbn [fst snd] in *.
    rewrite L, <- A, <- S. f_equal; [now destruct given_name| | | |].
    + destruct (N.eqb_spec (given_type (die_attrs d)) type_offset_none); [assumption|reflexivity].
    + now destruct so_file.
    + symmetry. apply get_get.
    + symmetry. apply get_get.
  - rewrite fold_left_app. cbn [fold_left]. rewrite IH.
    2: { intros y a n I. apply P. destruct I as [->|I]; [now left|right; apply in_or_app; now left]. }
    unfold merge_variable. cbn [lc_offset lc_name lc_ty lc_source lc_address lc_size lc_locations make_variable].
    unfold latest_name, latest_type. rewrite !app_comm_cons, !latest_snoc, flat_map_app. cbn [flat_map].
    rewrite app_nil_r, attr_name_given, attr_type_given, attr_source_given. destruct x as [rd d].
    destruct (local_places rd d) as (L & A & S).
    { intros y a n [<-|[]]. apply P. right. apply in_or_app. right. now left. }
    unfold e_attrs in *. cbn [fst snd] in *. rewrite !opt64_choice, L, A, S. f_equal.
    + now destruct given_name.
    + now destruct (given_type (die_attrs d) =? type_offset_none).
    + unfold source_is_none. now destruct so_file.
Qed.

Lemma parameters_grouped l : fold_left add_parameter l [] = map parameter_of (groups [] l).
Proof.
  rewrite (fold_ext _ _ _ _ add_parameter_entry), add_all by reflexivity.
  apply map_ext. intros [e more]. apply merged_parameter.
Qed.
Lemma variables_grouped l : proper_places l -> fold_left add_variable l [] = map variable_of (groups [] l).
Proof.
  intros P. rewrite (fold_ext _ _ _ _ add_variable_entry), add_all by reflexivity.
  apply map_ext_in. intros [e more] I. apply merged_variable.
  apply groups_in in I. cbn [fst snd] in I. intros y a n [<-|J]; apply P; [exact (proj1 I)|exact (proj2 I y J)].
Qed.
