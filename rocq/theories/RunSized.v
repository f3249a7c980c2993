(** Proofs about the report of sizes of a whole file. *)
From Coq Require Import List Arith NArith Bool String Lia Permutation Sorting.Sorted.
From Verif Require Import Base BaseProofs RangeModel TypeModel FileModel FileSpec SymbolProofs FileProofs OptionsModel PrintModel PrintSpec PrintProofs
  PropertiesPrint NameModel CodeModel BloatModel BloatSpec BloatProofs PropertiesBloat ItemSpec ItemShown EntryModel EntrySpec EntryShown
  ReportModel PropertiesDie PropertiesFile WholeModel WholeSpec WholeProofs WholeShown WholeSymbols WholeNumbers DieModel DieSpec DieProofs RunModel RunSpec
  RunNumbers.
Import ListNotations.
Local Open Scope N_scope.
Local Open Scope list_scope.

(** ** Lists *)

Lemma Forall2_flat {A B C D} (R : C -> D -> Prop) (f : A -> list C) (g : B -> list D) : forall l m,
  List.length l = List.length m ->
  (forall i a b, nth_error l i = Some a -> nth_error m i = Some b -> Forall2 R (f a) (g b)) ->
  Forall2 R (flat_map f l) (flat_map g m).
Proof.
  induction l as [|a l IH]; intros [|b m] L H; try discriminate; [constructor|]. cbn [flat_map]. apply Forall2_app.
  - exact (H O a b eq_refl eq_refl).
  - apply IH; [now injection L|]. intros i. exact (H (S i)).
Qed.
Lemma Forall2_filter {A B} (R : A -> B -> Prop) (p : A -> bool) (q : B -> bool) l m :
  Forall2 R l m -> (forall a b, R a b -> p a = q b) -> Forall2 R (filter p l) (filter q m).
Proof.
  intros F H. induction F as [|a b l m X F IH]; [constructor|]. cbn [filter]. rewrite <- (H a b X). destruct (p a); [constructor|]; auto.
Qed.
Lemma Forall2_mapr {A B C} (R : A -> C -> Prop) (f : B -> C) : forall l m, Forall2 (fun a b => R a (f b)) l m <-> Forall2 R l (map f m).
Proof.
  split.
  - induction 1; constructor; auto.
  - revert m. induction l as [|a l IH]; intros [|b m] H; inversion H; subst; constructor; auto.
Qed.
Lemma Forall2_permuted {A B} (R : A -> B -> Prop) m m' : Permutation m m' -> forall l, Forall2 R l m ->
  exists l', Permutation l l' /\ Forall2 R l' m'.
Proof.
  induction 1 as [|x m m' P IH|x y m|m1 m2 m3 P1 IH1 P2 IH2]; intros l F.
  - inversion F. exists []. split; constructor.
  - inversion F as [|a ? l0 ? Ra F0]; subst. destruct (IH l0 F0) as (l' & P' & F'). exists (a :: l'). split; now constructor.
  - inversion F as [|a ? l0 ? Ra F0]; subst. inversion F0 as [|b ? l1 ? Rb F1]; subst. exists (b :: a :: l1).
    split; [apply perm_swap|]. constructor; [exact Rb|]. now constructor.
  - destruct (IH1 l F) as (l2 & Q2 & F2). destruct (IH2 l2 F2) as (l3 & Q3 & F3). exists l3. split; [etransitivity; eauto|exact F3].
Qed.
Lemma Forall2_concat {A B} (R : A -> B -> Prop) : forall ms l, Forall2 R l (List.concat ms) ->
  exists ls, l = List.concat ls /\ Forall2 (Forall2 R) ls ms.
Proof.
  induction ms as [|m ms IH]; intros l F; cbn [List.concat] in F.
  - inversion F. exists []. split; [reflexivity|constructor].
  - apply Forall2_app_inv_r in F. destruct F as (l1 & l2 & F1 & F2 & ->). destruct (IH l2 F2) as (ls & -> & G).
    exists (l1 :: ls). split; [reflexivity|now constructor].
Qed.
Lemma Forall2_uses {A B} (R S : A -> B -> Prop) l m : Forall2 R l m -> (forall a b, In a l -> In b m -> R a b -> S a b) -> Forall2 S l m.
Proof.
  induction 1 as [|a b l m X F IH]; intros H; constructor.
  - apply H; [now left|now left|exact X].
  - apply IH. intros x y I J. apply H; now right.
Qed.
Lemma NoDup_concat {A K} (key : A -> K) (ms : list (K * list A)) :
  NoDup (map fst ms) -> (forall k m, In (k, m) ms -> NoDup m /\ forall x, In x m -> key x = k) -> NoDup (List.concat (map snd ms)).
Proof.
  induction ms as [|[k m] ms IH]; intros D H; cbn [map List.concat fst snd] in *; [constructor|]. inversion D as [|? ? N D']; subst.
  destruct (H k m (or_introl eq_refl)) as (Dm & Km).
  assert (G : NoDup (List.concat (map snd ms))) by (apply IH; [exact D'|intros k' m' I; apply H; now right]).
  revert Km. clear - Dm G H N. induction Dm as [|x m Nx Dm IH]; intros Km; [exact G|]. cbn. constructor.
  - intros I. apply in_app_iff in I. destruct I as [I|I]; [now apply Nx|]. apply in_concat in I. destruct I as (m' & I & J).
    apply in_map_iff in I. destruct I as ([k' m''] & E & I). cbn in E. subst m''.
    destruct (H k' m' (or_intror I)) as (_ & K'). specialize (K' x J). specialize (Km x (or_introl eq_refl)). apply N.
    replace k with k' by congruence. exact (in_map fst _ _ I).
  - apply IH; [|intros y I; apply Km; now right]. intros k' m' [E|I].
    + injection E as <- <-. split; [exact Dm|]. intros y I. apply Km. now right.
    + apply H. now right.
Qed.

Lemma flat_map_mapped {A B C} (f : B -> list C) (g : A -> B) l : flat_map f (map g l) = flat_map (fun x => f (g x)) l.
Proof. induction l as [|a l IH]; [reflexivity|]. cbn. now rewrite IH. Qed.

(** ** Positions *)

Lemma indexed_seq {A} (l : list A) : forall s, map snd (combine (seq s (List.length l)) l) = l.
Proof. induction l as [|a l IH]; intros s; [reflexivity|]. cbn. now rewrite IH. Qed.
Lemma positions_pairs units : map (fun p => (pl_unit p, pl_fun p)) (positions units) = flat_map (fun u => map (pair u) (su_functions u)) units.
Proof.
  unfold positions. unfold indexed at 2.
  generalize O. induction units as [|u units IH]; intros s; [reflexivity|].
  cbn [List.length seq combine flat_map fst snd]. rewrite map_app, IH. f_equal. rewrite map_map.
  cbn [pl_unit pl_fun fst snd]. unfold indexed. rewrite <- (indexed_seq (su_functions u) 0) at 3. now rewrite map_map.
Qed.

(** ** The functions of the report *)

Definition shown_as (x : sized_item) (u : sized_unit) (f : sized_function) : Prop :=
  text_value (ref_value (sf_id f) (sf_namespace f) (sf_name f)) = si_name x /\ source_text (su_dir u) (sf_source f) = si_source x /\
  opt64_get (sf_size f) = si_size x /\ opt64_get (sf_address f) = si_address x /\ sf_ranges f = si_ranges x /\
  txt (unit_ref (su_name u) (su_dir u)) = si_unit x.

Section Sized.
  Variable choice : N -> nat.
  Variable ob : object_input.
  Hypothesis WF : well_formed ob.
  Hypothesis SB : Forall symbol_in_bounds (parse_symbols (ob_symbols ob)).
  Notation symbols := (parse_symbols (ob_symbols ob)).
  Notation units := (sized_units choice ob).

  Lemma symbol_name_shown s id : text_value (ref_value id None (sy_name s)) = name_or "<anon>" (sy_name s).
  Proof. unfold ref_value, qualified, name_or, or_else. cbn [text_value]. reflexivity. Qed.

  Lemma unit_shown i u w : nth_error (ob_units ob) i = Some u -> nth_error (loaded_units choice ob) i = Some w ->
    Forall2 (fun x p => shown_as x (fst p) (snd p)) (map (Described u) (ws_functions (unit_items ob u)))
      (map (pair (sized_unit_of choice ob w)) (map (sized_function_of choice ob) (un_functions w))).
  Proof.
    intros Eu Ew. assert (Iu : In u (ob_units ob)) by now apply nth_error_In in Eu.
    destruct (loaded_at choice ob i u Eu) as (w' & Ew' & LU). rewrite Ew in Ew'. injection Ew' as <-.
    pose proof LU as (NM & _ & _ & F & _). cbn [unit_of un_functions un_name] in F, NM.
    assert (F' : Forall2 (function_for symbols) (ws_functions (unit_items ob u)) (un_functions w)).
    { apply (Forall2_unmap _ _ _ _ _ (function_for_loaded ob)), F. }
    assert (G : Forall2 (fun g f => function_for symbols g f /\ In g (ws_functions (unit_items ob u))) (ws_functions (unit_items ob u)) (un_functions w)).
    { exact (Forall2_uses _ (fun g f => function_for symbols g f /\ In g (ws_functions (unit_items ob u))) _ _ F' (fun a b I _ R => conj R I)). }
    rewrite map_map. clear F F'.
    induction G as [|g f gs fs (R & Ig) G IH]; [constructor|]. cbn [map]. constructor; [|exact IH].
    pose proof R as (R1 & R2 & R3 & R4 & R5 & R6 & R7 & _). unfold shown_as. cbn [fst snd sized_unit_of su_dir su_name sized_function_of sf_id sf_namespace sf_name
      sf_source sf_size sf_address sf_ranges si_name si_source si_size si_address si_ranges si_unit].
    rewrite (dir_at choice ob WF i u w (fu_offset g) Eu Ew) by (right; left; now apply in_map).
    cbn [file_scene sc_function_source]. rewrite R1, (read_function_in ob WF u g Iu Ig), function_name_eq. unfold function_name.
    rewrite R2, R3, R5, R6, R7, NM, attr_name_given. repeat split.
  Qed.

  Lemma functions_shown : exists claimed unclaimed,
    Forall2 (fun x p => shown_as x (pl_unit p) (pl_fun p))
      (flat_map (fun u => map (Described u) (ws_functions (unit_items ob u))) (ob_units ob) ++
       map Unclaimed (filter is_function_symbol unclaimed))
      (positions units) /\
    Permutation symbols (claimed ++ unclaimed) /\
    (forall s, In s claimed -> debug_address (parsed_units ob) (sy_address s)) /\
    (forall s, In s unclaimed -> ~ debug_address (parsed_units ob) (sy_address s)).
  Proof.
    destruct (loaded_last choice ob) as (us & st & unk & E & F & A & B).
    pose proof E as E2. unfold loaded_units, loaded in E2. rewrite normalize_eq in E2. cbn [fl_units file_read fl_symbols] in E2.
    set (l := sort_symbols symbols) in *. set (addrs := flat_map un_addrs (parsed_units ob)) in *.
    change [st; unk] with ([st] ++ [unk])%list in E2. rewrite app_assoc in E2. apply app_inj_tail in E2. destruct E2 as (E2 & EU).
    apply app_inj_tail in E2. destruct E2 as (_ & E2).
    set (unclaimed := filter (unused addrs) l).
    assert (SF : un_functions st = map symbol_function (filter is_function_symbol unclaimed)) by (rewrite <- E2, symtab_unit_spec; reflexivity).
    assert (UF : un_functions unk = []) by (rewrite <- EU; reflexivity).
    assert (SN : un_name st = Some "<symtab>"%string) by (rewrite <- E2, symtab_unit_spec; reflexivity).
    clear EU E2.
    exists (filter (fun s => negb (unused addrs s)) l), unclaimed.
    assert (PS : Permutation symbols (filter (fun s => negb (unused addrs s)) l ++ unclaimed)).
    { etransitivity; [symmetry; apply sort_symbols_perm|]. apply partition_perm. }
    split; [|split; [exact PS|split]].
    2: { intros s H. apply filter_In in H as [_ H]. apply unused_spec. now apply negb_true_iff. }
    2: { intros s H D. apply filter_In in H as [_ H]. apply unused_spec in D. fold addrs in D. congruence. }
    apply (Forall2_mapr (fun x p => shown_as x (fst p) (snd p)) (fun p => (pl_unit p, pl_fun p))). rewrite positions_pairs.
    unfold sized_units. rewrite E, flat_map_mapped, flat_map_app. apply Forall2_app.
    - apply Forall2_flat.
      + pose proof (Forall2_length_eq _ _ _ F) as L. unfold parsed_units in L. rewrite map_length in L. exact L.
      + intros i u w Eu Ew. apply (unit_shown i u w Eu). rewrite E. rewrite nth_error_app1; [exact Ew|]. apply nth_error_Some. congruence.
    - cbn [flat_map su_functions sized_unit_of]. rewrite UF, SF. cbn [map app]. rewrite app_nil_r, !map_map.
      assert (IN : forall s, In s (filter is_function_symbol unclaimed) -> In s symbols).
      { intros s I. apply filter_In in I. apply (Permutation_in _ (Permutation_sym PS)). apply in_app_iff. right. tauto. }
      assert (DIR : filter is_function_symbol unclaimed <> [] -> unit_dir choice ob st = None).
      { intros NE. apply (symtab_dir choice ob WF). left. rewrite SF. destruct (filter is_function_symbol unclaimed); [congruence|]. now left. }
      revert IN DIR. generalize (filter is_function_symbol unclaimed). intros ss. induction ss as [|s ss IH]; intros IN DIR; [constructor|].
      cbn [map]. constructor.
      + rewrite Forall_forall in SB. pose proof (IN s (or_introl eq_refl)) as Is. pose proof (SB s Is) as Bs.
        destruct (symbol_opt64 s Bs) as (OA & OS). unfold shown_as.
        cbn [fst snd sized_unit_of su_dir su_name sized_function_of sf_id sf_namespace sf_name sf_source sf_size sf_address sf_ranges symbol_function fn_namespace
          fn_name fn_address fn_size fn_ranges si_name si_source si_size si_address si_ranges si_unit file_scene sc_function_source fn_offset].
        rewrite (absent_function ob WF), symbol_name_shown, OA, OS, SN, DIR by discriminate.
        destruct (C20_symbols_considered (ob_symbols ob)) as (_ & _ & Z). rewrite Forall_forall in Z. specialize (Z s Is).
        replace (0 <? sy_size s) with true by lia. rewrite (symbol_range_plain s Bs). repeat split.
      + apply IH; [intros x I; apply IN; now right|]. intros _. now apply DIR.
  Qed.

  (** The same for those with a size. *)
  Definition is_sized (x : sized_item) : bool := match si_size x with Some _ => true | None => false end.

  Lemma filter_flat {A B} (p : B -> bool) (f : A -> list B) l : filter p (flat_map f l) = flat_map (fun a => filter p (f a)) l.
  Proof. induction l as [|a l IH]; [reflexivity|]. cbn [flat_map]. now rewrite filter_app, IH. Qed.

  Lemma sized_shown : exists all, sized_functions ob all /\
    Forall2 (fun x p => exists u f, function_at units p u f /\ shown_as x u f) all (map pl_pos (filter sized_place (positions units))).
  Proof.
    destruct functions_shown as (claimed & unclaimed & F & PS & CL & UN).
    set (pairs := filter (fun p => is_sized (Described (fst p) (snd p)))
      (flat_map (fun u => map (pair u) (ws_functions (unit_items ob u))) (ob_units ob))).
    exists (map (fun p => Described (fst p) (snd p)) pairs ++ map Unclaimed (filter is_function_symbol unclaimed)). split.
    - assert (IP : forall u g, In (u, g) pairs <-> In u (ob_units ob) /\ In g (ws_functions (unit_items ob u)) /\ opt64_get (fu_size g) <> None).
      { intros u g. unfold pairs. rewrite filter_In, in_flat_map. unfold is_sized. cbn [fst snd si_size]. split.
        - intros ((v & Iv & I) & S). apply in_map_iff in I. destruct I as (h & [= <- <-] & Ih). split; [exact Iv|]. split; [exact Ih|].
          destruct (opt64_get (fu_size h)); congruence.
        - intros (Iu & Ig & S). split; [exists u; split; [exact Iu|now apply in_map]|]. destruct (opt64_get (fu_size g)); congruence. }
      exists pairs, claimed, unclaimed. split; [reflexivity|]. split; [|split; [|split; [|auto]]].
      + unfold pairs. clear - WF. destruct WF as (ND & _).
        assert (SUB : forall us, (forall u, In u us -> In u (ob_units ob)) -> NoDup (map die_offset (flat_map unit_entries us)) ->
          NoDup (map (fun p => fu_offset (snd p)) (filter (fun p => is_sized (Described (fst p) (snd p)))
            (flat_map (fun u => map (pair u) (ws_functions (unit_items ob u))) us)))).
        { induction us as [|u us IH]; intros I D; [constructor|]. cbn [flat_map] in *. rewrite map_app in D. rewrite filter_app, map_app.
          assert (Iu := I u (or_introl eq_refl)).
          assert (X : forall vs off, (forall v, In v vs -> In v (ob_units ob)) ->
            In off (map (fun p => fu_offset (snd p)) (filter (fun p => is_sized (Described (fst p) (snd p)))
              (flat_map (fun v => map (pair v) (ws_functions (unit_items ob v))) vs))) -> In off (map die_offset (flat_map unit_entries vs))).
          { intros vs off H J. apply in_map_iff in J. destruct J as ([v g] & <- & J). apply filter_In in J. destruct J as (J & _).
            apply in_flat_map in J. destruct J as (v' & Iv & J). apply in_map_iff in J. destruct J as (g' & [= -> ->] & J). cbn [snd].
            destruct (function_entry ob WF v g (H v Iv) J) as (d & Id & _ & ->). apply in_map. apply in_flat_map. eauto. }
          assert (N1 : NoDup (map (fun p : unit_input * dw_function => fu_offset (snd p)) (filter (fun p => is_sized (Described (fst p) (snd p))) (map (pair u) (ws_functions (unit_items ob u)))))).
          { destruct (C35_kept _ _ _ (unit_distinct ob WF u Iu) (items_read ob u)) as (S & _). apply StronglySorted_lt_NoDup in S.
            revert S. generalize (ws_functions (unit_items ob u)). clear. intros l. induction l as [|g l IH]; intros S; [constructor|].
            cbn [map] in S. inversion S as [|? ? N S']; subst. cbn [map filter fst snd].
            destruct (is_sized (Described u g)); [|now apply IH]. cbn [map snd]. constructor; [|now apply IH].
            intros J. apply N. apply in_map_iff in J. destruct J as ([v h] & E & J). apply filter_In in J. destruct J as (J & _).
            apply in_map_iff in J. destruct J as (h' & [= -> ->] & J). cbn [snd] in E. rewrite <- E. now apply in_map. }
          assert (N2 := IH (fun v Iv => I v (or_intror Iv))). 
          assert (D1 : NoDup (map die_offset (unit_entries u)) /\ NoDup (map die_offset (flat_map unit_entries us)) /\
            forall x, In x (map die_offset (unit_entries u)) -> ~ In x (map die_offset (flat_map unit_entries us))).
          { clear - D. induction (map die_offset (unit_entries u)) as [|x l IHl]; [split; [constructor|split; [exact D|intros y []]]|].
            cbn in D. inversion D as [|? ? N D']; subst. destruct (IHl D') as (P & Q & R). split; [|split; [exact Q|]].
            - constructor; [intros J; apply N; apply in_app_iff; now left|exact P].
            - intros y [->|J]; [intros J; apply N; apply in_app_iff; now right|now apply R]. }
          destruct D1 as (_ & D2 & DJ). specialize (N2 D2).
          assert (APP : forall (a b : list N), NoDup a -> NoDup b -> (forall x, In x a -> ~ In x b) -> NoDup (a ++ b)).
          { clear. intros a b Da Db. induction Da as [|x a N Da IH]; intros H; [exact Db|]. cbn. constructor.
            - intros J. apply in_app_iff in J. destruct J as [J|J]; [now apply N|]. apply (H x); [now left|exact J].
            - apply IH. intros y J. apply H. now right. }
          apply APP; [exact N1|exact N2|]. intros x J1 J2.
          apply (X us x (fun v Iv => I v (or_intror Iv))) in J2. apply (DJ x); [|exact J2].
          pose proof (X [u] x (fun v Iv => match Iv with or_introl e => eq_ind u (fun y => In y (ob_units ob)) Iu v e | or_intror f => match f with end end)) as X1.
          cbn [flat_map] in X1. rewrite !app_nil_r in X1. now apply X1. }
        apply SUB; [auto|exact ND].
      + intros u g I. apply IP in I. destruct I as (Iu & Ig & S). split; [exact Iu|]. split; [exact S|].
        destruct (C35_own _ _ _ g (unit_distinct ob WF u Iu) (items_read ob u) Ig) as (t & d & Fd & T & O & _). eauto.
      + intros u d g Iu D S. apply IP. split; [exact Iu|]. split; [|exact S].
        now apply (C35_resolved (unit_context ob u) (ui_children u) _ d g (unit_distinct ob WF u Iu) (items_read ob u)).
    - apply (Forall2_filter _ is_sized sized_place) in F.
      2: { intros x p (_ & _ & S & _). unfold is_sized, sized_place. now rewrite S. }
      rewrite filter_app in F.
      replace (filter is_sized (flat_map _ _)) with (map (fun p => Described (fst p) (snd p)) pairs) in F.
      2: { unfold pairs. rewrite !filter_flat. clear. induction (ob_units ob) as [|u us IH]; [reflexivity|]. cbn [flat_map]. rewrite map_app, IH. f_equal.
           induction (ws_functions (unit_items ob u)) as [|g l IHl]; [reflexivity|]. cbn [map filter fst snd].
           destruct (is_sized (Described u g)); cbn [map fst snd]; [f_equal|]; exact IHl. }
      replace (filter is_sized (map Unclaimed _)) with (map Unclaimed (filter is_function_symbol unclaimed)) in F.
      2: { clear. induction (filter is_function_symbol unclaimed) as [|s l IH]; [reflexivity|]. cbn. now rewrite <- IH. }
      apply Forall2_mapr. refine (Forall2_uses _ _ _ _ F _). intros x p _ I R. apply filter_In in I. destruct I as (I & _).
      apply in_positions in I. eauto.
  Qed.

  (** ** The report *)

  Definition pos_eqb (p q : nat * nat) : bool := (fst p =? fst q)%nat && (snd p =? snd q)%nat.
  Lemma pos_eqb_spec p q : pos_eqb p q = true <-> p = q.
  Proof.
    destruct p, q. unfold pos_eqb. cbn. rewrite andb_true_iff, !Nat.eqb_eq. split; [intros (-> & ->); reflexivity|now intros [= -> ->]].
  Qed.
  Definition item_of (ps : list (nat * nat)) (all : list sized_item) (p : nat * nat) : list sized_item :=
    match find (fun y => pos_eqb (fst y) p) (combine ps all) with Some y => [snd y] | None => [] end.
  Lemma item_of_each (R : sized_item -> nat * nat -> Prop) ps all : NoDup ps -> Forall2 R all ps ->
    Forall2 (fun x p => R x p /\ item_of ps all p = [x]) all ps.
  Proof.
    intros D F. assert (G : forall before, NoDup (map fst before ++ ps) ->
      Forall2 (fun x p => R x p /\ match find (fun y => pos_eqb (fst y) p) (before ++ combine ps all) with Some y => [snd y] | None => [] end = [x]) all ps).
    2: { exact (G [] D). }
    induction F as [|x p all ps Rx F IH]; intros before DB; [constructor|]. cbn [combine]. constructor.
    - split; [exact Rx|]. apply NoDup_remove_2 in DB.
      assert (N : find (fun y => pos_eqb (fst y) p) before = None).
      { destruct (find _ before) as [y|] eqn:E; [|reflexivity]. exfalso. apply find_some in E. destruct E as (I & E). apply pos_eqb_spec in E.
        apply DB, in_app_iff. left. rewrite <- E. now apply in_map. }
      replace (find _ (before ++ _)) with (Some (p, x)); [reflexivity|]. symmetry. clear - N.
      induction before as [|b before IHb]; cbn [app find fst] in *.
      + now rewrite (proj2 (pos_eqb_spec p p) eq_refl).
      + destruct (pos_eqb (fst b) p); [discriminate|]. now apply IHb.
    - inversion D as [|? ? _ D']; subst. specialize (IH D' (before ++ [(p, x)])). rewrite map_app, <- !app_assoc in IH. cbn [map fst app] in IH.
      specialize (IH DB). refine (Forall2_uses _ _ _ _ IH _). intros a b _ _ H. exact H.
  Qed.

  Lemma earlier_nodup l : StronglySorted earlier l -> NoDup l.
  Proof.
    induction 1 as [|p l S IH F]; constructor; [|exact IH]. intros I. rewrite Forall_forall in F. exact (earlier_irrefl p (F p I)).
  Qed.
  Lemma called_items P ps all lookup a k :
    Forall2 (fun x p => (exists u f, function_at units p u f /\ shown_as x u f) /\ lookup p = [x]) all ps ->
    called_from P units a ps k -> called_by P a all (flat_map lookup k).
  Proof.
    intros F C. revert all F. induction C as [|p u f cs l k FA CB C IH]; intros all F.
    - inversion F. constructor.
    - inversion F as [|x ? all' ? ((u' & f' & FA' & SH) & LK) F']; subst. rewrite flat_map_app.
      destruct FA as (A1 & A2), FA' as (B1 & B2). rewrite A1 in B1. injection B1 as <-. rewrite A2 in B2. injection B2 as <-.
      destruct SH as (_ & _ & _ & _ & RG & _).
      replace (flat_map lookup (map (fun _ => p) (filter (fun c => ca_to c =? a) cs))) with (map (fun _ : call => x) (filter (fun c => ca_to c =? a) cs)).
      + apply cb_next; [now rewrite <- RG|now apply IH].
      + clear - LK. induction (filter _ cs) as [|c l IHl]; [reflexivity|]. cbn. now rewrite LK, IHl.
  Qed.

  Lemma all_done_each {A B} (f : A -> outcome B) l bs : all_done (map f l) = Done bs -> Forall2 (fun a b => f a = Done b) l bs.
  Proof.
    revert bs. induction l as [|a l IH]; intros bs E; cbn [map all_done] in E.
    - injection E as <-. constructor.
    - destruct (f a) as [b|] eqn:Ea; [|discriminate]. destruct (all_done (map f l)) as [r|]; [|discriminate].
      injection E as <-. constructor; [exact Ea|]. now apply IH.
  Qed.
  Lemma seq_docs_flat depth i ds : lines depth i (seq_docs ds) = flat_map (lines depth i) ds.
  Proof. induction ds as [|d ds IH]; [reflexivity|]. cbn [seq_docs fold_right lines flat_map]. now rewrite <- IH. Qed.
  Lemma title_text x k : si_name x = fst k -> si_source x = snd k -> si_title x = key_text k.
  Proof. intros A B. unfold si_title, key_text. now rewrite A, B. Qed.
  Lemma line_text depth i v : lines depth i (PLine [] v) = text_line i (text_value v).
  Proof. cbn [lines]. unfold text_line. now destruct (text_value v). Qed.
  Lemma done_eq {A} (a b : A) : Done a = Done b -> a = b.
  Proof. now intros [=]. Qed.
  Lemma tree_lines depth i c h b : lines depth i (PTree c h b) = lines depth i h ++ lines depth (S i) b.
  Proof. reflexivity. Qed.
  Lemma id_lines depth i n h b : lines depth i (PId n h b) = lines depth i h ++ lines depth (S i) b.
  Proof. reflexivity. Qed.
  Lemma dec_text i n t : text_line i (dec n ++ txt " " ++ t) = [Line i (dec n ++ txt " " ++ t)].
  Proof. unfold text_line. destruct (dec n); reflexivity. Qed.

  Variable order : list (function_key * total) -> list (function_key * total).
  Hypothesis ORDER : forall l, Permutation (order l) l.

  Theorem report_shown d depth : size_report choice ob order = Done d ->
    exists all rows who,
      sized_functions ob all /\ Permutation (List.concat rows) all /\
      (forall i j a b x y, nth_error rows i = Some a -> nth_error rows j = Some b -> In x a -> In y b -> (alike x y <-> i = j)) /\
      StronglySorted (fun a b => forall n n', row_total a n -> row_total b n' -> n' <= n) rows /\
      calling ob all who /\ each (row_shown who) rows (lines depth 0 d).
  Proof.
    intros E. unfold size_report in E. destruct (size_callers choice ob) as [m|] eqn:EM; [|discriminate]. unfold size_callers in EM.
    set (totals := size_totals choice ob order) in *.
    assert (PT : Permutation (order (groups units)) (groups units)) by apply ORDER.
    assert (GR : forall k t, In (k, t) totals -> _) by exact (fun k t => C41_groups units _ k t PT).
    assert (CV := fun p u f n => C41_covered units (order (groups units)) p u f n PT).
    assert (SO : StronglySorted (fun a b => to_size (snd b) <= to_size (snd a)) totals) by apply C41_order.
    assert (KD : NoDup (map fst totals)).
    { eapply Permutation_NoDup; [symmetry; apply Permutation_map; unfold totals, size_totals, bloat_totals; etransitivity; [apply stable_sort_perm|exact PT]|].
      apply groups_keys. }
    change (bloat_totals (order (groups units))) with totals in CV. clearbody totals.
    destruct sized_shown as (all & SF & F). set (ps := map pl_pos (filter sized_place (positions units))) in *.
    destruct (places_all units) as (PSO & PIN). fold ps in PSO, PIN.
    assert (DP : NoDup ps) by now apply earlier_nodup.
    set (R := fun x p => exists u f, function_at units p u f /\ shown_as x u f) in *.
    set (tfs := map (fun e => to_functions (snd e)) totals).
    assert (PQ : Permutation ps (List.concat tfs)).
    { apply NoDup_Permutation; [exact DP| |].
      - pose (key := fun p => match at_position units p with Done (u, f) => key_of u f | Panic => ([], []) end).
        replace tfs with (map snd (map (fun e => (fst e, to_functions (snd e))) totals)) by (unfold tfs; rewrite map_map; reflexivity).
        apply (NoDup_concat key); [rewrite map_map; exact KD|]. intros k l I. apply in_map_iff in I. destruct I as ([k' t] & [= -> <-] & I).
        destruct (GR k t I) as ((SR & CO) & _). split; [now apply earlier_nodup|]. intros p J. apply CO in J.
        destruct J as (u & f & n & FA & _ & N1 & N2). unfold key. apply at_position_spec in FA. rewrite FA. unfold key_of, name_text.
        rewrite N1, N2. now destruct k.
      - intros p. rewrite PIN, in_concat. split.
        + intros (u & f & n & FA & S). destruct (CV p u f n FA S) as (t & I & J). exists (to_functions t). split; [|exact J].
          unfold tfs. apply in_map_iff. exists (key_of u f, t). auto.
        + intros (l & I & J). apply in_map_iff in I. destruct I as ([k t] & <- & I). destruct (GR k t I) as ((_ & CO) & _).
          apply CO in J. destruct J as (u & f & n & FA & S & _). eauto. }
    destruct (Forall2_permuted R _ _ PQ all F) as (all' & PA & F').
    destruct (Forall2_concat R tfs all' F') as (rows & -> & FR).
    pose (lookup := item_of ps all).
    assert (FL : Forall2 (fun x p => R x p /\ lookup p = [x]) all ps) by now apply item_of_each.
    pose (who := fun a => flat_map lookup (m a)).
    exists all, rows, who. split; [exact SF|]. split; [now symmetry|].
    (* rows and their lines *)
    assert (FRT : Forall2 (fun row e => Forall2 R row (to_functions (snd e))) rows totals) by (now apply Forall2_mapr).
    assert (KEY : forall row k t x, In (k, t) totals -> Forall2 R row (to_functions t) -> In x row -> si_name x = fst k /\ si_source x = snd k).
    { intros row k t x I FX J. destruct (Forall2_in_l _ _ _ x FX J) as (p & Ip & (u & f & FA & SH)).
      destruct (GR k t I) as ((_ & CO) & _). apply CO in Ip. destruct Ip as (u' & f' & n & FA' & _ & N1 & N2).
      destruct FA as (A1 & A2), FA' as (B1 & B2). rewrite A1 in B1. injection B1 as <-. rewrite A2 in B2. injection B2 as <-.
      destruct SH as (S1 & S2 & _). split; congruence. }
    assert (TOT : forall row k t, In (k, t) totals -> Forall2 R row (to_functions t) -> forall n, row_total row n <-> n = to_size t).
    { intros row k t I FX. destruct (GR k t I) as ((_ & CO) & _ & SZ & _).
      assert (X : exists ns, sizes_of row ns /\ sizes units (to_functions t) ns).
      { assert (CO' : forall p, In p (to_functions t) -> exists u f n, function_at units p u f /\ has_size f n).
        { intros p J. apply CO in J. destruct J as (u & f & n & FA & S & _). eauto. }
        revert CO'. clear - FX. intros CO'. induction FX as [|x p row l (u & f & FA & SH) FX IH]; [exists []; split; constructor|].
        destruct IH as (ns & A & B); [intros q J; apply CO'; now right|]. destruct (CO' p (or_introl eq_refl)) as (u' & f' & n & FA' & S).
        pose proof FA as (A1 & A2). destruct FA' as (B1 & B2). rewrite A1 in B1. injection B1 as <-. rewrite A2 in B2. injection B2 as <-.
        exists (n :: ns). split; [|now apply (sz_cons units p u f n)]. constructor; [|exact A]. destruct SH as (_ & _ & S3 & _). rewrite <- S3. exact S. }
      destruct X as (ns & A & B). specialize (SZ ns B). intros n. split.
      - intros (ns' & A' & ->). rewrite SZ. f_equal. f_equal. clear - A A'. unfold sizes_of in *. revert ns ns' A A'.
        induction row as [|x row IH]; intros ns ns' A A'; inversion A; inversion A'; subst; [reflexivity|]. f_equal; [congruence|now apply IH].
      - intros ->. exists ns. auto. }
    split; [|split; [|split]].
    - intros i j a b x y Ea Eb Ix Iy.
      assert (AT : forall i row, nth_error rows i = Some row -> exists k t, nth_error totals i = Some (k, t) /\ Forall2 R row (to_functions t)).
      { clear - FRT. induction FRT as [|r [k t] rs ts H F IH]; intros [|i] row E; try discriminate; cbn in *.
        - injection E as <-. eauto.
        - now apply IH. }
      destruct (AT i a Ea) as (k & t & E1 & F1). destruct (AT j b Eb) as (k' & t' & E2 & F2).
      destruct (KEY a k t x (nth_error_In _ _ E1) F1 Ix) as (X1 & X2). destruct (KEY b k' t' y (nth_error_In _ _ E2) F2 Iy) as (Y1 & Y2).
      unfold alike. split.
      + intros (N1 & N2). apply (nth_same fst totals i j (k, t) (k', t') KD E1 E2). cbn [fst]. destruct k, k'. cbn [fst snd] in *. congruence.
      + intros <-. rewrite E1 in E2. injection E2 as <- <-. split; congruence.
    - revert SO TOT FRT. clear. intros SO. revert rows. induction SO as [|e l SO IH H]; intros rows TOT F; inversion F as [|row ? rows' ? Fr Fs]; subst; constructor.
      + apply IH; [|exact Fs]. intros r k t I. apply (TOT r k t). now right.
      + apply Forall_forall. intros b Ib n n' Tn Tn'. destruct (Forall2_in_l _ _ _ b Fs Ib) as ([k' t'] & Ie & Fb). destruct e as [k t].
        apply (TOT row k t (or_introl eq_refl) Fr) in Tn. apply (TOT b k' t' (or_intror Ie) Fb) in Tn'.
        rewrite Forall_forall in H. specialize (H _ Ie). cbn [snd] in H. lia.
    - intros a. unfold who. destruct (ob_program ob) as [pg|]; cbn [option_map] in EM.
      + apply (called_items _ ps); [exact FL|]. now apply (callers_spec _ units m ps a EM), places_all.
      + destruct (m a) as [|p l] eqn:Em; [reflexivity|]. exfalso.
        assert (G : forall l m0, add_callers None l m0 = Done m -> m = m0).
        { clear. induction l as [|[[[ui fi] u] f] l IH]; intros m0 X; cbn [add_callers] in X; [congruence|]. destruct (opt64_get (sf_size f)); now apply IH. }
        unfold callers in EM. apply G in EM. subst m. discriminate.
    - unfold bloat_doc in E. destruct (all_done (map (total_doc units m) totals)) as [ds|] eqn:ED; [|discriminate]. injection E as <-.
      apply all_done_each in ED. rewrite seq_docs_flat.
      assert (L : forall rs ts, Forall2 (fun row e => Forall2 R row (to_functions (snd e))) rs ts -> forall ds,
        (forall e, In e ts -> In e totals) -> Forall2 (fun e b => total_doc units m e = Done b) ts ds ->
        each (row_shown who) rs (flat_map (lines depth 0) ds)).
      2: { exact (L rows totals FRT ds (fun e I => I) ED). }
      clear ds ED FRT. intros rs0 ts0 FRT. induction FRT as [|row e rs ts' FX FRT IH]; intros ds IN ED; inversion ED as [|? dd ? ds' TD ED']; subst; [constructor|].
      cbn [flat_map]. constructor; [|apply IH; [intros x I; apply IN; now right|exact ED']].
      destruct e as [k t]. assert (I : In (k, t) totals) by (apply IN; now left). cbn [snd] in FX.
      unfold total_doc in TD. cbn [fst snd] in TD. destruct (all_done (map (copy_doc units m) (to_functions t))) as [cs|] eqn:EC; [|discriminate].
      apply done_eq in TD. rewrite <- TD. rewrite tree_lines, line_text. cbn [text_value]. rewrite dec_text, seq_docs_flat.
      destruct (GR k t I) as (_ & NE & _). assert (X : exists x, In x row).
      { destruct FX as [|x p row' l _ _]; [congruence|]. exists x. now left. }
      destruct X as (x & Ix). destruct (KEY row k t x I FX Ix) as (N1 & N2). rewrite <- (title_text x k N1 N2).
      cbn [app]. apply rs_intro; [exact Ix|now apply (TOT row k t I FX)|].
      apply all_done_each in EC. revert EC. clear - FX FL PIN EM. revert cs.
      induction FX as [|x p row l (u & f & FA & SH) FX IH]; intros cs EC; inversion EC as [|? c ? cs' CD EC']; subst; [constructor|].
      cbn [flat_map]. constructor; [|now apply IH]. unfold copy_doc in CD. rewrite (proj2 (at_position_spec units p u f) FA) in CD.
      destruct (opt64_get (sf_address f)) as [a|] eqn:OA; [|discriminate]. destruct (opt64_get (sf_size f)) as [n|] eqn:OS; [|discriminate].
      unfold bloat_callers in CD. destruct (all_done (map (caller_line units) (m a))) as [ls|] eqn:EL; [|discriminate]. apply done_eq in CD. rewrite <- CD.
      destruct SH as (S1 & S2 & S3 & S4 & S5 & S6). rewrite id_lines, line_text. cbn [text_value]. rewrite S6, dec_text, seq_docs_flat.
      replace (flat_map (lines depth 2) ls) with (flat_map (fun y => text_line 2 (si_title y)) (who a)); [apply cs_intro; congruence|].
      unfold who. apply all_done_each in EL. assert (MI : forall q, In q (m a) -> In q ps).
      { intros q J. destruct (ob_program ob) as [pg|]; cbn [option_map] in EM.
        - exact (called_in_file _ _ _ _ _ q (callers_spec _ units m ps a EM (places_all units)) J).
        - exfalso. assert (G : forall l m0, add_callers None l m0 = Done m -> m = m0).
          { clear. induction l as [|[[[ui fi] u] f] l IH]; intros m0 X; cbn [add_callers] in X; [congruence|]. destruct (opt64_get (sf_size f)); now apply IH. }
          unfold callers in EM. apply G in EM. subst m. destruct J. }
      revert EL MI. generalize (m a). clear - FL. intros qs EL MI. induction EL as [|q b qs bs CL EL IH]; [reflexivity|].
      cbn [flat_map]. rewrite flat_map_app, IH by (intros z J; apply MI; now right). f_equal.
      destruct (Forall2_in_r _ _ _ q FL (MI q (or_introl eq_refl))) as (y & _ & (u & f & FA & SH) & LK). rewrite LK. cbn [flat_map].
      rewrite app_nil_r. unfold caller_line in CL. rewrite (proj2 (at_position_spec units q u f) FA) in CL. apply done_eq in CL. rewrite <- CL.
      rewrite line_text. f_equal. destruct SH as (S1 & S2 & _). unfold si_title. rewrite <- S1, <- S2. reflexivity.
  Qed.
End Sized.
