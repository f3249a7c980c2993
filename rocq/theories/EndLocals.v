(** What is printed inside a function, from the values of attributes: proofs. *)
From Coq Require Import List Arith NArith ZArith Bool String Lia Sorting.Sorted.
From Verif Require Import CodeProofs DescribeProofs Base BaseProofs RangeModel NamespaceModel NamespaceSpec TypeModel TypeSpec TypeProofs FileModel FileSpec LocationModel LocationProofs
  OptionsModel ReadModel ReadSpec PrintModel PrintSpec NameModel ItemModel ItemSpec EntryModel EntrySpec DetailModel DetailSpec DetailProofs DetailShown DetailMore
  MemberSpec WholeModel WholeSpec WholeProofs WholeDepth PropertiesFile SymbolProofs PairItems PropertiesWhole RawModel RawSpec RawProofs PropertiesRaw EndSpec EndProofs
  WholeShown PropertiesDie EndTypes EndItems PropertiesEnd EndLocalSpec.
From Verif Require Import DieModel DieSpec DieProofs.
Import ListNotations.
Local Open Scope N_scope.

(** ** Entries in blocks *)

Lemma raw_die_ind' (P : raw_die -> Prop) : (forall t o a c, Forall P c -> P (RawDie t o a c)) -> forall d, P d.
Proof. intros H. fix IH 1. intros [t o a c]. apply H. induction c as [|x c IHc]; constructor; auto. Qed.
Lemma through_read rf u (w : tag -> bool) wanted : (forall n, w (read_tag n) = wanted n) -> forall d,
  through_blocks w (read_die rf u d) = map (read_die rf u) (inside_block wanted d).
Proof.
  intros W. induction d as [t o a c IH] using raw_die_ind'. cbn [read_die through_blocks inside_block]. rewrite W.
  destruct (wanted t); [reflexivity|]. destruct (N.eqb_spec t 0x0b) as [->|NE].
  - change (read_tag 11) with TagLexicalBlock. cbv iota. induction IH as [|x l H _ IH']; [reflexivity|]. cbn [map flat_map]. now rewrite map_app, H, IH'.
  - destruct (read_tag t) eqn:T; try reflexivity. destruct NE. now apply (tag_iff 0x0b TagLexicalBlock eq_refl eq_refl).
Qed.
Lemma inside_any rf u (w : tag -> bool) wanted d : (forall n, w (read_tag n) = wanted n) ->
  flat_map (through_blocks w) (die_children (read_die rf u d)) = map (read_die rf u) (flat_map (inside_block wanted) (rd_children d)).
Proof.
  intros W. rewrite read_children. induction (rd_children d) as [|x l IH]; [reflexivity|].
  cbn [map flat_map]. now rewrite map_app, IH, (through_read rf u w wanted W).
Qed.
Lemma inside_read rf u (w : tag -> bool) code d : (forall n, w (read_tag n) = (n =? code)) ->
  flat_map (through_blocks w) (die_children (read_die rf u d)) = map (read_die rf u) (inside code d).
Proof. apply inside_any. Qed.
Lemma call_tag n : is_call (read_tag n) = (n =? 0x48) || (n =? 0x4109).
Proof.
  destruct C91_numbers as (_ & _ & A & _). specialize (A n). destruct (N.eqb_spec n 0x48) as [->|N1]; [reflexivity|]. destruct (N.eqb_spec n 0x4109) as [->|N2]; [reflexivity|].
  destruct (read_tag n); try reflexivity. destruct gnu; cbn in A; destruct A as [A|[]]; congruence.
Qed.
Lemma argument_tag n : (match read_tag n with TagCallParameter => true | _ => false end) = (n =? 0x49) || (n =? 0x410a).
Proof.
  destruct C91_numbers as (_ & _ & A & _). specialize (A n). destruct (N.eqb_spec n 0x49) as [->|N1]; [reflexivity|]. destruct (N.eqb_spec n 0x410a) as [->|N2]; [reflexivity|].
  destruct (read_tag n); try reflexivity. cbn in A. destruct A as [A|[A|[]]]; congruence.
Qed.
Lemma variable_tag n : is_variable (read_tag n) = (n =? 0x34).
Proof.
  pose proof (tag_iff 0x34 TagVariable eq_refl eq_refl n) as H. destruct (N.eqb_spec n 0x34) as [->|NE]; [reflexivity|].
  destruct (read_tag n); try reflexivity. destruct NE. now apply H.
Qed.
Lemma inlined_tag n : DetailSpec.is_inlined (read_tag n) = (n =? 0x1d).
Proof.
  pose proof (tag_iff 0x1d TagInlined eq_refl eq_refl n) as H. destruct (N.eqb_spec n 0x1d) as [->|NE]; [reflexivity|].
  destruct (read_tag n); try reflexivity. destruct NE. now apply H.
Qed.
Lemma parameters_read rf u d : filter is_parameter (die_children (read_die rf u d)) = map (read_die rf u) (with_raw_tag 0x05 d).
Proof.
  rewrite read_children. unfold with_raw_tag. apply filter_read. intros e. unfold is_parameter. rewrite read_tag_of.
  pose proof (tag_iff 0x05 TagParameter eq_refl eq_refl (rd_tag e)) as H. destruct (N.eqb_spec (rd_tag e) 0x05) as [->|NE]; [reflexivity|].
  destruct (read_tag (rd_tag e)); try reflexivity. destruct NE. now apply H.
Qed.

(** ** Where something is *)

Definition reading_of (rf : raw_file) (u : raw_unit) : reading := mkReading (ui_address_size (read_unit rf u)) (ui_address (read_unit rf u)).
Definition piece_like (h : held) (p : piece) : Prop :=
  pc_bit_size p = opt64_none /\
  match h with
  | InRegister r => pc_is_value p = false /\ pc_location p = LRegister r
  | OnStack z => pc_is_value p = false /\ (pc_location p = LFrameOffset z \/ pc_location p = LCfaOffset z)
  | AtAddress a => pc_is_value p = false /\ pc_location p = LAddress a /\ a < u64_max
  | Elsewhere => pc_is_value p = true \/ exists r z, pc_location p = LRegisterOffset r z
  end.
Lemma held_piece rf u ops h : held_by u ops h -> exists p, evaluate (rd_address_size (reading_of rf u)) (rd_address (reading_of rf u)) ops = Some [p] /\ piece_like h p.
Proof.
  intros [r|z| |a L|i a A L|r z|n|z| |r z]; try (eexists; split; [reflexivity|]; split; [reflexivity|]; cbn; eauto; fail).
  apply attr_address_iff in A. cbn [attr_address] in A. unfold evaluate. cbn [run step reading_of rd_address read_unit ui_address]. rewrite A.
  eexists; split; [reflexivity|]; split; [reflexivity|]; cbn; auto.
Qed.
Definition places_like (l : list held) (ps : list (range * piece)) : Prop := Forall2 (fun h x => piece_like h (snd x)) l ps.
Lemma listed_lacks rf u attrs : lacks 0x02 attrs -> listed (map (read_attr rf u) attrs) = [].
Proof.
  unfold lacks, listed. induction attrs as [|b attrs IH]; intros L; [reflexivity|]. cbn [map flat_map]. rewrite IH by (intros I; apply L; now right).
  assert (O : (match read_attr rf u b with ALocation v => Some v | _ => None end) = None).
  { apply (read_attr_other rf u (fun a => match a with ALocation v => Some v | _ => None end) [0x02]); [attribute_table|reflexivity|].
    intros [X|[]]. apply L. now left. }
  destruct (read_attr rf u b); try reflexivity. discriminate.
Qed.
Lemma listed_gives rf u attrs v : gives 0x02 attrs v -> listed (map (read_attr rf u) attrs) = place_list (raw_place u v).
Proof.
  intros (b & a & -> & N). rewrite map_app in N. unfold listed. rewrite map_app, flat_map_app. fold (listed (map (read_attr rf u) b)).
  rewrite listed_lacks by (intros I; apply N; apply in_app_iff; now left). cbn [map flat_map app].
  rewrite (read_attr_at rf u 0x02 (fun v => ALocation (raw_place u v)) v) by (cbn; tauto). fold (listed (map (read_attr rf u) a)).
  rewrite (listed_lacks rf u a), app_nil_r; [reflexivity|]. intros I. apply N. apply in_app_iff. now right.
Qed.
Lemma held_evaluated rf u attrs hs : held_at u attrs hs ->
  places_like hs (evaluated (rd_address_size (reading_of rf u)) (rd_address (reading_of rf u)) (listed (map (read_attr rf u) attrs))).
Proof.
  intros [L|m ps ops h G H|v l hs' G LS F].
  - rewrite listed_lacks by exact L. constructor.
  - rewrite (listed_gives rf u attrs _ G). cbn [raw_place place_list]. unfold evaluated. cbn [flat_map fst snd].
    destruct (held_piece rf u ops h H) as (p & E & PL). rewrite E. cbn [map app]. constructor; [exact PL|constructor].
  - rewrite (listed_gives rf u attrs _ G), (locations_listed u v l LS). cbn [place_list]. unfold evaluated. clear G LS.
    induction F as [|x h l hs0 H F IH]; [constructor|]. cbn [flat_map].
    destruct (held_piece rf u _ h H) as (p & E & PL). rewrite E. cbn [map app]. constructor; [exact PL|exact IH].
Qed.

(** ** Parameters and local variables *)

Section Locals.
  Variable rf : raw_file.
  Variable ob : object_input.
  Hypothesis WF : raw_well_formed rf.
  Hypothesis AC : raw_acyclic rf.
  Hypothesis RD : read_file rf = Some ob.

  Definition type_in (p : option N) (ty : type_offset) : Prop := ty = opt64_from p /\ forall n, p = Some n -> n < u64_max.
  Definition local_like (name : option string) (ty : type_offset) (places : list (range * piece)) (q : raw_local) : Prop :=
    name = rl_name q /\ type_in (rl_type_spot q) ty /\ writes ob ty (rl_type q) (rl_size q) /\ places_like (rl_held q) places.
  Definition parameter_like (p : parameter) (q : raw_local) : Prop :=
    pa_offset p = rl_spot q /\ local_like (pa_name p) (pa_ty p) (pa_locations p) q.
  Definition variable_like (v : variable) (q : raw_local) : Prop :=
    lc_offset v = rl_spot q /\ local_like (lc_name v) (lc_ty v) (lc_locations v) q /\
    lc_address v = opt64_from (rl_address q) /\ (forall a, rl_address q = Some a -> a < u64_max) /\ lc_size v = opt64_none.

  Section Unit.
    Variable u : raw_unit.
    Hypothesis I : In u (rf_units rf).
    Local Notation entry_for d := (reading_of rf u, read_die rf u d).

    Lemma type_spot_is attrs p : type_spot rf u attrs p -> type_in p (given_type (map (read_attr rf u) attrs)).
    Proof.
      intros [L|v x e G R J]; split.
      - now apply type_none.
      - discriminate.
      - exact (type_is rf u attrs v x e G R).
      - intros n [= <-]. assert (Ix : In x (rf_units rf)) by (destruct R; [exact I|assumption]). destruct WF as (_ & W). destruct (W x Ix) as (B & _ & W').
        destruct (W' e) as (_ & W2); [destruct R; assumption|]. unfold spot_in. lia.
    Qed.
    Lemma type_spot_given attrs p : type_spot rf u attrs p -> ~ lacks 0x49 attrs -> given_type (map (read_attr rf u) attrs) <> type_offset_none.
    Proof. intros [L|v x e G R J] NL; [now destruct NL|]. exact (referred_type rf ob WF RD u I attrs v x e G R J). Qed.

    Section Fold.
      Context {A : Type}.
      Variable key : A -> N.
      Variable make : DetailSpec.entry -> A.
      Variable merge : A -> DetailSpec.entry -> A.
      Variable like : A -> raw_local -> Prop.
      Hypothesis like_key : forall a q, like a q -> key a = rl_spot q.
      Hypothesis like_make : forall d n t s p hs, named rf u is_name (rd_attrs d) n -> type_text rf u 0x49 (rd_attrs d) t ->
        type_bytes rf u (rd_attrs d) s -> type_spot rf u (rd_attrs d) p -> held_at u (rd_attrs d) hs ->
        like (make (entry_for d)) (mkRawLocal (spot_in u d) n t s p (first_address hs) hs).
      Hypothesis like_merge : forall a q d n t s p hs, like a q -> name_or_else rf u is_name (rd_attrs d) (rl_name q) n ->
        lacks 0x49 (rd_attrs d) /\ t = rl_type q /\ s = rl_size q /\ p = rl_type_spot q \/
        ~ lacks 0x49 (rd_attrs d) /\ type_text rf u 0x49 (rd_attrs d) t /\ type_bytes rf u (rd_attrs d) s /\ type_spot rf u (rd_attrs d) p ->
        held_at u (rd_attrs d) hs ->
        like (merge a (entry_for d))
          (mkRawLocal (rl_spot q) n t s p (match first_address hs with Some a => Some a | None => rl_address q end) (rl_held q ++ hs)).
      Lemma locals_folded ps ds qs : locals_of rf u ps ds qs -> forall l, Forall2 like l ps ->
        Forall2 like (fold_left (add_entry key make merge) (map (pair (reading_of rf u)) (map (read_die rf u) ds)) l) qs.
      Proof.
        induction 1 as [ps|ps d n t s p hs ds qs L N TT TB TS H _ IH|ps1 q ps2 d v x e n t s p hs ds qs G R E NI N T H _ IH]; intros l F; [exact F| |].
        - cbn [map fold_left]. apply IH. unfold add_entry, e_attrs. cbn [snd]. rewrite read_attrs, origin_none by exact L.
          apply Forall2_app; [exact F|]. constructor; [|constructor]. now apply like_make.
        - cbn [map fold_left]. apply IH. unfold add_entry, e_attrs. cbn [snd]. rewrite read_attrs, (origin_is rf u _ v x e G R).
          apply Forall2_app_inv_r in F. destruct F as (l1 & l' & F1 & F2 & ->). inversion F2 as [|a ? l2 ? K F3]; subst. clear F2.
          fold (spot_in x e). rewrite E.
          assert (AM : amend key merge (rl_spot q) (entry_for d) (l1 ++ a :: l2) = Some (l1 ++ merge a (entry_for d) :: l2)).
          { clear - F1 NI K like_key. induction F1 as [|b p l ps B F IH]; cbn [app amend].
            - now rewrite (like_key _ _ K), N.eqb_refl.
            - inversion NI as [|? ? NE NI']; subst. rewrite (like_key _ _ B), (proj2 (N.eqb_neq _ _) NE), IH by exact NI'. reflexivity. }
          rewrite AM. apply Forall2_app; [exact F1|]. constructor; [|exact F3]. now apply like_merge.
      Qed.
    End Fold.

    Lemma local_made d n t s p hs : named rf u is_name (rd_attrs d) n -> type_text rf u 0x49 (rd_attrs d) t ->
      type_bytes rf u (rd_attrs d) s -> type_spot rf u (rd_attrs d) p -> held_at u (rd_attrs d) hs -> forall so a,
      local_like (attr_name (die_attrs (read_die rf u d))) (attr_type (die_attrs (read_die rf u d)))
        (evaluated (rd_address_size (reading_of rf u)) (rd_address (reading_of rf u)) (listed (die_attrs (read_die rf u d)))) (mkRawLocal so n t s p a hs).
    Proof.
      intros N TT TB TS H so a. rewrite attr_name_given, attr_type_given, (named_is rf u d n N), read_attrs. split; [reflexivity|].
      split; [now apply type_spot_is|]. split; [now apply writes_given|]. now apply held_evaluated.
    Qed.
    Lemma local_merged name ty places q d n t s p hs so a : local_like name ty places q -> name_or_else rf u is_name (rd_attrs d) (rl_name q) n ->
      lacks 0x49 (rd_attrs d) /\ t = rl_type q /\ s = rl_size q /\ p = rl_type_spot q \/
      ~ lacks 0x49 (rd_attrs d) /\ type_text rf u 0x49 (rd_attrs d) t /\ type_bytes rf u (rd_attrs d) s /\ type_spot rf u (rd_attrs d) p ->
      held_at u (rd_attrs d) hs ->
      local_like (if is_none (attr_name (die_attrs (read_die rf u d))) then name else attr_name (die_attrs (read_die rf u d)))
        (if attr_type (die_attrs (read_die rf u d)) =? type_offset_none then ty else attr_type (die_attrs (read_die rf u d)))
        (places ++ evaluated (rd_address_size (reading_of rf u)) (rd_address (reading_of rf u)) (listed (die_attrs (read_die rf u d))))
        (mkRawLocal so n t s p a (rl_held q ++ hs)).
    Proof.
      intros (E1 & E2 & E3 & E4) N T H. pose proof (name_else rf u d _ n N) as EN. rewrite attr_name_given, attr_type_given. split; [|split; [|split]].
      - cbn [rl_name]. rewrite <- EN, E1. now destruct given_name.
      - cbn [rl_type_spot]. rewrite read_attrs. destruct T as [(L & -> & -> & ->)|(NL & TT & TB & TS)].
        + now rewrite type_none by exact L.
        + rewrite (proj2 (N.eqb_neq _ _) (type_spot_given _ p TS NL)). now apply type_spot_is.
      - cbn [rl_type rl_size]. rewrite read_attrs. destruct T as [(L & -> & -> & ->)|(NL & TT & TB & TS)].
        + now rewrite type_none by exact L.
        + rewrite (proj2 (N.eqb_neq _ _) (type_spot_given _ p TS NL)). now apply writes_given.
      - cbn [rl_held]. apply Forall2_app; [exact E4|]. rewrite read_attrs. now apply held_evaluated.
    Qed.

    Lemma parameters_like ps ds qs l : locals_of rf u ps ds qs -> Forall2 parameter_like l ps ->
      Forall2 parameter_like (fold_left add_parameter (map (pair (reading_of rf u)) (map (read_die rf u) ds)) l) qs.
    Proof.
      intros LO F. assert (E : forall es l, fold_left add_parameter es l = fold_left (add_entry pa_offset make_parameter merge_parameter) es l).
      { clear. induction es as [|e es IH]; intros l; [reflexivity|]. cbn [fold_left]. now rewrite IH, add_parameter_entry. }
      rewrite E. eapply locals_folded; [| | |exact LO|exact F].
      - intros a q (H & _). exact H.
      - intros d n t s p hs N TT TB TS H. split; [apply read_offset|]. unfold make_parameter, e_attrs. cbn [pa_name pa_ty pa_locations fst snd].
        rewrite parameter_places, places_evaluated. now apply local_made.
      - intros a q d n t s p hs (K & LL) N T H. split; [exact K|]. unfold merge_parameter, make_parameter, e_attrs. cbn [pa_name pa_ty pa_locations fst snd].
        rewrite parameter_places, places_evaluated. now apply local_merged.
    Qed.

    Lemma local_place hs l : places_like hs l -> let v := fold_left use_piece (map snd l) (LocationModel.mkLocal opt64_none opt64_none []) in
      lv_address v = opt64_from (first_address hs) /\ lv_size v = opt64_none /\ forall a, first_address hs = Some a -> a < u64_max.
    Proof.
      intros P. set (v0 := LocationModel.mkLocal opt64_none opt64_none []).
      assert (S : forall (l : list (range * piece)) v, Forall (fun x => pc_bit_size (snd x) = opt64_none) l -> lv_size v = opt64_none -> lv_size (fold_left use_piece (map snd l) v) = opt64_none).
      { clear. induction l as [|x l IH]; intros v F E; [exact E|]. inversion F as [|? ? B F']; subst. cbn [map fold_left]. apply IH; [exact F'|].
        unfold use_piece. destruct (pc_is_value (snd x)); [exact E|]. destruct (pc_location (snd x)); try exact E. destruct negb; [exact E|]. cbn [lv_size]. rewrite B. exact E. }
      assert (A : forall hs l, places_like hs l -> forall v, lv_address v = opt64_none ->
        lv_address (fold_left use_piece (map snd l) v) = opt64_from (first_address hs) /\ forall a, first_address hs = Some a -> a < u64_max).
      { clear. induction 1 as [|h x hs l (B & H) F IH]; intros v E; [split; [exact E|discriminate]|]. cbn [map fold_left].
        assert (KEEP : forall l v, lv_address v <> opt64_none -> lv_address (fold_left use_piece l v) = lv_address v).
        { clear. induction l as [|p l IH]; intros v NE; [reflexivity|]. cbn [fold_left].
          assert (X : use_piece v p = v). { unfold use_piece. destruct (pc_is_value p); [reflexivity|]. destruct (pc_location p); try reflexivity.
            unfold opt64_is_none. now rewrite (proj2 (N.eqb_neq _ _) NE). }
          rewrite X. now apply IH. }
        unfold use_piece at 2. destruct h as [r|z|a|].
        - destruct H as (-> & ->). exact (IH v E).
        - destruct H as (-> & [->| ->]); exact (IH v E).
        - destruct H as (-> & -> & LT). unfold opt64_is_none. rewrite E, N.eqb_refl. cbn [negb].
          split; [|intros b [= <-]; exact LT]. rewrite KEEP; [reflexivity|]. cbn [lv_address]. unfold opt64_none. lia.
        - destruct H as [->|(r & z & ->)]; [exact (IH v E)|]. destruct (pc_is_value (snd x)); exact (IH v E). }
      destruct (A hs l P v0 eq_refl) as (A1 & A2). split; [exact A1|]. split; [|exact A2]. apply S; [|reflexivity].
      clear - P. induction P as [|h x hs l (B & _) _ IH]; constructor; assumption.
    Qed.
    Lemma variables_like ps ds qs l : locals_of rf u ps ds qs -> Forall2 variable_like l ps ->
      Forall2 variable_like (fold_left add_variable (map (pair (reading_of rf u)) (map (read_die rf u) ds)) l) qs.
    Proof.
      intros LO F. assert (E : forall es l, fold_left add_variable es l = fold_left (add_entry lc_offset make_variable merge_variable) es l).
      { clear. induction es as [|e es IH]; intros l; [reflexivity|]. cbn [fold_left]. now rewrite IH, add_variable_entry. }
      assert (PL : forall d hs, held_at u (rd_attrs d) hs -> let place := attr_local (reading_of rf u) (die_attrs (read_die rf u d)) in
        lv_address place = opt64_from (first_address hs) /\ lv_size place = opt64_none /\ (forall a, first_address hs = Some a -> a < u64_max) /\
        lv_locations place = evaluated (rd_address_size (reading_of rf u)) (rd_address (reading_of rf u)) (listed (die_attrs (read_die rf u d)))).
      { intros d hs H. cbn zeta. rewrite attr_local_listed.
        destruct (evaluate_locals_fold (rd_address_size (reading_of rf u)) (rd_address (reading_of rf u)) (listed (die_attrs (read_die rf u d)))
          (LocationModel.mkLocal opt64_none opt64_none [])) as (A & S & L). rewrite A, S, L.
        apply (held_evaluated rf) in H. rewrite <- read_attrs in H. destruct (local_place _ _ H) as (A' & S' & B). auto. }
      rewrite E. eapply locals_folded; [| | |exact LO|exact F].
      - intros a q (H & _). exact H.
      - intros d n t s p hs N TT TB TS H. destruct (PL d hs H) as (P1 & P2 & P3 & P4). split; [apply read_offset|].
        unfold make_variable, e_attrs. cbn [lc_name lc_ty lc_locations lc_address lc_size fst snd]. rewrite P1, P2, P4.
        split; [now apply local_made|]. auto.
      - intros a q d n t s p hs (K & LL & LA & LB & LS) N T H. destruct (PL d hs H) as (P1 & P2 & P3 & P4). split; [exact K|].
        unfold merge_variable, make_variable, e_attrs. cbn [lc_name lc_ty lc_locations lc_address lc_size fst snd]. rewrite P1, P2, P4.
        split; [now apply local_merged|]. cbn [rl_address]. unfold opt64_is_none. rewrite N.eqb_refl. split; [|split; [|exact LS]].
        + destruct (first_address hs) as [b|]; cbn [opt64_from]; [|now rewrite N.eqb_refl]. destruct (N.eqb_spec b opt64_none) as [X|_]; [|reflexivity].
          specialize (P3 b eq_refl). unfold opt64_none in X. lia.
        + intros b. destruct (first_address hs) as [c|]; [intros [= <-]; now apply P3|apply LB].
    Qed.
  End Unit.
End Locals.

(** ** The extent of code and the source of a call *)

Lemma inlined_bytes_is rf u attrs size : inlined_bytes u attrs size ->
  fst (inlined_extent (map (read_attr rf u) attrs)) = opt64_from size /\ forall n, size = Some n -> n < u64_max.
Proof.
  assert (T64 : two64 = u64_max + 1) by reflexivity.
  intros H. unfold inlined_extent. rewrite attr_ranges_given, attr_extent_given, attr_low_given, attr_high_pc_given.
  destruct H as [L1 L2|address size ranges C].
  - rewrite ranges_none by exact L1. split; [|discriminate].
    assert (E : given_extent (map (read_attr rf u) attrs) = None).
    { unfold given_extent. apply (given_lacks rf u _ 0x12); [exact L2|attribute_table|reflexivity]. }
    assert (F : given_high_pc (map (read_attr rf u) attrs) = None).
    { unfold given_high_pc. apply (given_lacks rf u _ 0x12); [exact L2|attribute_table|reflexivity]. }
    rewrite E, F. now destruct given_low.
  - inversion C as [|low n L D|v l rs s G LS F E Z LT]; subst.
    + rewrite ranges_none by exact L.
      assert (LOW : forall v a, gives 0x11 attrs v -> addresses u v a -> given_low (map (read_attr rf u) attrs) = Some a).
      { intros v a G A. apply attr_address_iff in A. unfold given_low.
        apply (given_gives rf u _ 0x11 (fun v => ALowPc (attr_address u v)) attrs v); [cbn; tauto|exact G|now rewrite A|attribute_table|reflexivity]. }
      clear C. destruct D as [v a m G A NZ H NE LT|v a w h G A NZ H B L1 L2].
      * rewrite (LOW v a G A).
        assert (E : given_extent (map (read_attr rf u) attrs) = Some m).
        { unfold given_extent. apply (given_gives rf u _ 0x12 (raw_high_pc u) attrs (RwConst (UnsignedData m))); [cbn; tauto|exact H|reflexivity|attribute_table|reflexivity]. }
        rewrite E. split; [reflexivity|]. intros n [= <-]. lia.
      * rewrite (LOW v a G A). assert (NU : forall n, w <> RwConst (UnsignedData n)) by (intros n ->; inversion B).
        assert (RH : raw_high_pc u w = AHighPcAddress (attr_address u w)).
        { destruct w as [ | | [] | | | | | | | | | | | | | | | | | | ]; try reflexivity. now destruct (NU n). }
        assert (E : given_extent (map (read_attr rf u) attrs) = None).
        { unfold given_extent. apply given_skip. intros b I. apply in_map_iff in I. destruct I as ((c, x) & <- & I).
          destruct (N.eq_dec c 0x12) as [->|NC].
          - rewrite (gives_only _ _ _ _ H I). rewrite (read_attr_at rf u 0x12 (raw_high_pc u) w) by (cbn; tauto). now rewrite RH.
          - apply (read_attr_other rf u (fun a => match a with AHighPcSize n => Some (Some n) | _ => None end) [0x12]); [attribute_table|reflexivity|].
            intros [X|[]]. now apply NC. }
        assert (HI : given_high_pc (map (read_attr rf u) attrs) = Some h).
        { unfold given_high_pc. apply attr_address_iff in B.
          apply (given_gives rf u _ 0x12 (raw_high_pc u) attrs w); [cbn; tauto|exact H|now rewrite RH, B|attribute_table|reflexivity]. }
        rewrite E, HI. cbn [fst opt64_from]. split; [|intros n [= <-]; lia]. apply DescribeProofs.sub64_below; lia.
    + assert (R : given_ranges (map (read_attr rf u) attrs) = Some l).
      { unfold given_ranges. apply (given_gives rf u _ 0x55 (fun v => ARanges (RawModel.attr_ranges u v)) attrs v); [cbn; tauto|exact G| |attribute_table|reflexivity].
        apply ranges_listed in LS. now rewrite LS. }
      rewrite R. cbn [fst opt64_from]. split; [|intros n [= <-]; exact LT].
      assert (Q : nonempty_ranges l = map (fun p => mkRange (fst p) (snd p)) (filter (fun p => fst p <? snd p) l)).
      { clear. unfold nonempty_ranges. induction l as [|p l IH]; [reflexivity|]. cbn [flat_map filter]. destruct (fst p <? snd p); cbn [map app]; now rewrite IH. }
      rewrite DescribeProofs.total_size_sum, Q by exact F. apply N.mod_small. lia.
Qed.

Lemma call_source_is rf u d s : call_source_at rf u (rd_attrs d) s -> attr_call_source (die_attrs (read_die rf u d)) = s.
Proof.
  intros [file dir line column F L C]. rewrite attr_call_source_given, read_attrs. unfold given_call_source.
  assert (POS : forall code f (pick : attr -> option N) m, In (code, f) (attribute_table rf u) -> (forall v, pick (f v) = udata_only v) ->
    (forall b, fst b <> code -> pick (read_attr rf u b) = None) -> number_at code (rd_attrs d) m ->
    given_position pick (map (read_attr rf u) (rd_attrs d)) = m).
  { intros code f pick m I E O N. destruct (position_given rf u code f (rd_attrs d) pick I E O) as (A & B). destruct N as [N|m G LE].
    - apply B. apply (lacks_none _ code); [exact N|]. intros b (X & _). exact X.
    - assert (Q : last_such (is_position code) (rd_attrs d) (code, RwConst (UnsignedData m))).
      { apply gives_last; [exact G| |intros b (X & _); exact X]. split; [reflexivity|now exists m]. }
      specialize (A _ Q). cbn [snd] in A. congruence. }
  rewrite (POS 0x59 (fun v => ACallLine (udata_only v)) _ line); [|cbn; tauto|reflexivity| |exact L].
  2: { intros b N. apply (read_attr_other rf u (fun a => match a with ACallLine v => v | _ => None end) [0x59]); [attribute_table|reflexivity|]. intros [X|[]]. now apply N. }
  rewrite (POS 0x57 (fun v => ACallColumn (udata_only v)) _ column); [|cbn; tauto|reflexivity| |exact C].
  2: { intros b N. apply (read_attr_other rf u (fun a => match a with ACallColumn v => v | _ => None end) [0x57]); [attribute_table|reflexivity|]. intros [X|[]]. now apply N. }
  destruct F as [N|v path dv p q G A B P Q].
  - rewrite !(given_lacks rf u _ 0x58) by (exact N || attribute_table || reflexivity). reflexivity.
  - destruct (source_file_path u rf v path A) as (dr & S & D1 & _). specialize (D1 dv B). subst dr.
    rewrite (given_gives rf u (fun a => match a with ACallFile (Some (_, Some dir)) => Some dir | _ => None end) 0x58 (fun v => ACallFile (source_file rf u v)) (rd_attrs d) v (attr_string rf u dv));
      [|cbn; tauto|exact G|now rewrite S|attribute_table|reflexivity].
    rewrite (given_gives rf u (fun a => match a with ACallFile (Some (file, _)) => Some file | _ => None end) 0x58 (fun v => ACallFile (source_file rf u v)) (rd_attrs d) v (attr_string rf u path));
      [|cbn; tauto|exact G|now rewrite S|attribute_table|reflexivity].
    f_equal; [apply (maybe_same rf u dv)|apply (maybe_same rf u path)]; assumption || apply string_maybe.
Qed.

(** ** Functions by the place of their entry *)

Section Found.
  Variable choice : N -> nat.
  Variable ob : object_input.
  Hypothesis WF : well_formed ob.

  Lemma units_loaded w : In w (loaded_units choice ob) ->
    (exists u, In u (ob_units ob) /\ loaded_unit (parse_symbols (ob_symbols ob)) (unit_of ob u) w) \/
    (forall f, In f (un_functions w) -> fn_offset f = u64_max) /\ forall v, In v (un_variables w) -> va_offset v = u64_max.
  Proof.
    destruct (loaded_split choice ob) as (us & st & unk & E & F). rewrite E. intros I. apply in_app_iff in I. destruct I as [I|I].
    - left. destruct (Forall2_in_r _ _ _ w F I) as (x & Ix & L). unfold parsed_units in Ix. apply in_map_iff in Ix. destruct Ix as (u & <- & Iu). eauto.
    - right. clear F. unfold loaded_units, loaded in E. rewrite normalize_eq in E. cbn [fl_units file_read fl_symbols] in E.
      rewrite <- app_assoc in E. cbn [app] in E.
      match type of E with (_ ++ [?x; ?y])%list = _ => assert (H : [x; y] = [st; unk]) end.
      { match type of E with (?l ++ ?p)%list = (?l' ++ ?q)%list => change [st; unk] with q;
          assert (R : rev (l ++ p) = rev (l' ++ q)) by now rewrite E end.
        rewrite !rev_app_distr in R. cbn [rev app] in R. injection R as R1 R2 _. now rewrite <- R1, <- R2. }
      injection H as <- <-. rewrite symtab_unit_spec in I. destruct I as [<-|[<-|[]]]; [|split; intros f []].
      cbn [un_functions un_variables]. split; intros f J; apply in_map_iff in J; destruct J as (s & <- & _); reflexivity.
  Qed.
  Lemma function_only u d g f : In u (ob_units ob) -> describes (unit_base u) (ui_children u) d g ->
    In f (all_functions (loaded_units choice ob)) -> fn_offset f = fu_offset g -> function_for (parse_symbols (ob_symbols ob)) g f.
  Proof.
    intros I D J K. destruct (located_entry (unit_base u) (ui_children u)) as (_ & EN). destruct (EN d g D) as (Id & Og).
    pose proof (C35_resolved (unit_context ob u) (ui_children u) _ d g (unit_distinct ob WF u I) (items_read ob u) D) as Ig.
    assert (NE : fu_offset g <> u64_max).
    { rewrite Og. destruct WF as [_ F]. rewrite Forall_forall in F. apply F. unfold all_entries. apply in_flat_map. eauto. }
    apply in_flat_map in J. destruct J as (w' & Iw' & J). destruct (units_loaded w' Iw') as [(v & Iv & L')|(X & _)]; [|destruct NE; rewrite <- K; now apply X].
    destruct (Forall2_in_r _ _ _ f (functions_for ob v w' L') J) as (g' & Ig' & FF').
    destruct (function_entry ob WF v g' Iv Ig') as (d' & Id' & _ & Od').
    assert (OO : die_offset d' = die_offset d) by (rewrite <- Od', <- Og, <- K; symmetry; apply FF').
    assert (v = u) as -> by (apply (owner ob WF v u (die_offset d)); [exact Iv|exact I|rewrite <- OO; now apply in_map|now apply in_map]).
    destruct (C35_kept _ _ _ (unit_distinct ob WF u I) (items_read ob u)) as (SS & _).
    assert (g' = g) as <-; [|exact FF'].
    apply (NoDup_map_eq fu_offset _ _ _ (StronglySorted_lt_NoDup _ SS)); auto. rewrite Od', OO. now rewrite Og.
  Qed.
  Lemma function_somewhere u d g : In u (ob_units ob) -> describes (unit_base u) (ui_children u) d g ->
    fu_offset g <> u64_max /\ exists f, In f (all_functions (loaded_units choice ob)) /\ fn_offset f = fu_offset g.
  Proof.
    intros I D. destruct (located_entry (unit_base u) (ui_children u)) as (_ & EN). destruct (EN d g D) as (Id & Og).
    destruct (In_nth_error _ _ I) as (i & Ei). destruct (loaded_at choice ob i u Ei) as (w & Ew & L). apply nth_error_In in Ew.
    destruct (described_in ob WF u w d g I L D) as (f & If & FF & Ig). split.
    - rewrite Og. destruct WF as [_ F]. rewrite Forall_forall in F. apply F. unfold all_entries. apply in_flat_map. eauto.
    - exists f. split; [apply in_flat_map; eauto|apply FF].
  Qed.
  Lemma function_by_place u d g : In u (ob_units ob) -> describes (unit_base u) (ui_children u) d g ->
    exists f, function_from_offset (loaded_units choice ob) (fu_offset g) = Some f /\ function_for (parse_symbols (ob_symbols ob)) g f.
  Proof.
    intros I D. destruct (function_somewhere u d g I D) as (NE & f & If & Ef). unfold function_from_offset. rewrite (proj2 (N.eqb_neq _ _) NE).
    destruct (functions_by_offset (loaded_units choice ob) (fu_offset g)) as [f'|] eqn:E.
    - exists f'. split; [reflexivity|]. apply C21_functions_by_offset in E. destruct E as (b & a & EQ & K & _). injection K as K.
      apply (function_only u d); [exact I|exact D| |exact K]. rewrite EQ. apply in_app_iff. right. now left.
    - exfalso. destruct (C21_absent (loaded_units choice ob) (fu_offset g)) as (_ & A & _). now apply (proj1 A E f).
  Qed.
  Lemma index_some {A} (key : A -> N) l off : (forall a, index_by key l off = Some a -> In a l /\ key a = off) /\
    (index_by key l off = None -> forall a, In a l -> key a <> off).
  Proof.
    unfold index_by. split.
    - intros a. enough (G : forall x, fold_left (fun x a => if key a =? off then Some a else x) l x = Some a -> In a l /\ key a = off \/ x = Some a).
      { intros E. destruct (G None E) as [H|H]; [exact H|discriminate]. }
      induction l as [|b l IH]; intros x E; [now right|]. cbn [fold_left] in E. apply IH in E. destruct E as [(I & K)|E]; [left; split; [now right|exact K]|].
      destruct (N.eqb_spec (key b) off) as [K|_]; [|now right]. injection E as <-. left. split; [now left|exact K].
    - enough (G : forall x, fold_left (fun x a => if key a =? off then Some a else x) l x = None -> x = None /\ forall a, In a l -> key a <> off).
      { intros E. now apply (G None). }
      induction l as [|b l IH]; intros x E; [split; [exact E|intros a []]|]. cbn [fold_left] in E. apply IH in E. destruct E as (E & F).
      destruct (N.eqb_spec (key b) off) as [K|K]; [discriminate|]. split; [exact E|]. intros a [<-|I]; [exact K|now apply F].
  Qed.
  Lemma function_indexed u d g : In u (ob_units ob) -> describes (unit_base u) (ui_children u) d g ->
    exists f, of_function (file_offsets (loaded choice ob)) (fu_offset g) = Some f /\ function_for (parse_symbols (ob_symbols ob)) g f.
  Proof.
    intros I D. destruct (function_somewhere u d g I D) as (NE & f & If & Ef). cbn [file_offsets of_function]. fold (loaded_units choice ob).
    destruct (index_some fn_offset (flat_map un_functions (loaded_units choice ob)) (fu_offset g)) as (A & B).
    destruct (index_by _ _ _) as [f'|]; [|destruct (B eq_refl f If Ef)]. destruct (A f' eq_refl) as (If' & Ef'). exists f'. split; [reflexivity|].
    now apply (function_only u d).
  Qed.
  (** The same for variables. *)
  Lemma variable_place v : In v (all_variables (loaded_units choice ob)) -> va_offset v <> u64_max ->
    exists u g d, In u (ob_units ob) /\ In g (ws_variables (unit_items ob u)) /\ variable_for (parse_symbols (ob_symbols ob)) g v /\
      In d (unit_entries u) /\ has_variable (unit_context ob u) (ui_children u) d /\ va_offset v = die_offset d.
  Proof.
    intros J NE. apply in_flat_map in J. destruct J as (w & Iw & J). destruct (units_loaded w Iw) as [(u & Iu & L)|(_ & X)]; [|destruct NE; now apply X].
    destruct (Forall2_in_r _ _ _ v (variables_for ob u w L) J) as (g & Ig & FF). destruct (variable_entry_of ob WF u g Iu Ig) as (d & Id & Hd & Od).
    exists u, g, d. repeat (split; [assumption|]). rewrite <- Od. apply FF.
  Qed.
  Lemma variable_indexed u d g : In u (ob_units ob) -> no_rust_statics (unit_context ob u) -> describes_variable (unit_base u) (ui_children u) d g ->
    In d (unit_entries u) -> vr_offset g = die_offset d ->
    exists v, of_variable (file_offsets (loaded choice ob)) (vr_offset g) = Some v /\ variable_for (parse_symbols (ob_symbols ob)) g v.
  Proof.
    intros I NR D Id Og. destruct (In_nth_error _ _ I) as (i & Ei). destruct (loaded_at choice ob i u Ei) as (w & Ew & L). apply nth_error_In in Ew.
    pose proof (C36_resolved (unit_context ob u) (ui_children u) _ d g (unit_distinct ob WF u I) NR (items_read ob u) D) as Ig.
    destruct (Forall2_in_l _ _ _ g (variables_for ob u w L) Ig) as (v & Iv & FF).
    assert (NE : vr_offset g <> u64_max).
    { rewrite Og. destruct WF as [_ F]. rewrite Forall_forall in F. apply F. unfold all_entries. apply in_flat_map. eauto. }
    cbn [file_offsets of_variable]. fold (loaded_units choice ob).
    destruct (index_some va_offset (flat_map un_variables (loaded_units choice ob)) (vr_offset g)) as (A & B).
    destruct (index_by _ _ _) as [v'|]; [|destruct (B eq_refl v)]. 2: { apply in_flat_map. eauto. } 2: { apply FF. }
    destruct (A v' eq_refl) as (Iv' & Ev'). exists v'. split; [reflexivity|].
    destruct (variable_place v' Iv') as (x & g' & d' & Ix & Ig' & FF' & Id' & _ & Od'); [congruence|].
    assert (OO : die_offset d' = die_offset d) by congruence.
    assert (x = u) as -> by (apply (owner ob WF x u (die_offset d)); [exact Ix|exact I|rewrite <- OO; now apply in_map|now apply in_map]).
    destruct (C36_kept _ _ _ (unit_distinct ob WF u I) (items_read ob u)) as (SS & _).
    assert (g' = g) as <-; [|exact FF']. apply (NoDup_map_eq vr_offset _ _ _ (StronglySorted_lt_NoDup _ SS)); auto.
    transitivity (va_offset v'); [symmetry; apply FF'|exact Ev'].
  Qed.
  Lemma variable_not_indexed u d : In u (ob_units ob) -> In d (unit_entries u) -> ~ has_variable (unit_context ob u) (ui_children u) d ->
    of_variable (file_offsets (loaded choice ob)) (die_offset d) = None.
  Proof.
    intros I Id N. cbn [file_offsets of_variable]. fold (loaded_units choice ob).
    destruct (index_some va_offset (flat_map un_variables (loaded_units choice ob)) (die_offset d)) as (A & _).
    destruct (index_by _ _ _) as [v|]; [|reflexivity]. destruct (A v eq_refl) as (Iv & Ev). exfalso.
    destruct (variable_place v Iv) as (x & g' & d' & Ix & _ & _ & Id' & Hd & Od').
    { rewrite Ev. destruct WF as [_ F]. rewrite Forall_forall in F. apply F. unfold all_entries. apply in_flat_map. eauto. }
    assert (OO : die_offset d' = die_offset d) by congruence.
    assert (x = u) as -> by (apply (owner ob WF x u (die_offset d)); [exact Ix|exact I|rewrite <- OO; now apply in_map|now apply in_map]).
    assert (d' = d) as ->; [|now apply N]. apply (NoDup_map_eq die_offset (unit_entries u)); auto. apply (unit_distinct ob WF u I).
  Qed.
End Found.

