(** Inlined functions and the whole of a function, from the values of attributes: proofs. *)
From Coq Require Import List Arith NArith ZArith Bool String Lia Sorting.Sorted.
From Verif Require Import CodeProofs DescribeProofs Base BaseProofs RangeModel NamespaceModel NamespaceSpec TypeModel TypeSpec TypeProofs FileModel FileSpec LocationModel LocationProofs
  OptionsModel ReadModel ReadSpec PrintModel PrintSpec NameModel ItemModel ItemSpec EntryModel EntrySpec DetailModel DetailSpec DetailProofs DetailShown DetailMore
  MemberSpec WholeModel WholeSpec WholeProofs WholeDepth PropertiesFile SymbolProofs PairItems PropertiesWhole RawModel RawSpec RawProofs PropertiesRaw EndSpec EndProofs
  WholeShown PropertiesDie EndTypes EndItems PropertiesEnd EndLocalSpec EndLocals EndCalls.
From Verif Require Import DieModel DieSpec DieProofs.
Import ListNotations.
Local Open Scope N_scope.

Section Inside.
  Variable choice : N -> nat.
  Variable rf : raw_file.
  Variable ob : object_input.
  Hypothesis WF : raw_well_formed rf.
  Hypothesis AC : raw_acyclic rf.
  Hypothesis RD : read_file rf = Some ob.

  Definition formal_like (p : formal) (q : raw_local) : Prop := local_like ob (fo_name p) (fo_ty p) (fo_locations p) q.
  Definition slot_like (v : slot) (q : raw_local) : Prop :=
    local_like ob (sl_name v) (sl_ty v) (sl_locations v) q /\ sl_address v = opt64_from (rl_address q) /\
    (forall a, rl_address q = Some a -> a < u64_max) /\ sl_size v = opt64_none.
  Inductive inlined_like : inlined -> raw_inlined -> Prop :=
  | ilk_intro x size words call ps vs sites inner : il_size x = opt64_from size -> (forall n, size = Some n -> n < u64_max) ->
      match function_from_offset (loaded_units choice ob) (il_origin x) with Some f => function_name f | None => txt "<anon>" end = words ->
      il_source x = call -> Forall2 formal_like (il_parameters x) ps -> Forall2 slot_like (il_variables x) vs ->
      match sites with Some l => Forall2 (site_like choice ob) (il_calls x) l | None => True end ->
      Forall2 inlined_like (il_inlined x) inner -> inlined_like x (mkRawInlined size words call ps vs sites inner).
  Lemma formals_like l qs : Forall2 (parameter_like ob) l qs -> Forall2 formal_like (map formal_of l) qs.
  Proof. induction 1 as [|p q l qs (_ & H) _ IH]; constructor; assumption. Qed.
  Lemma slots_like l qs : Forall2 (variable_like ob) l qs -> Forall2 slot_like (map slot_of l) qs.
  Proof. induction 1 as [|p q l qs (_ & H) _ IH]; constructor; assumption. Qed.

  Local Notation h := (file_offsets (loaded choice ob)).
  Section Unit.
    Variable u : raw_unit.
    Hypothesis I : In u (rf_units rf).
    Local Notation visited d s0 := (fold_left (fun st c => visit_details (entry_space ob) h (reading_of rf u) false c st) (die_children (read_die rf u d)) s0).

    Lemma copied_like attrs ps vs : copied rf u attrs ps vs ->
      let st := abstract_details (entry_space ob) (attr_function_origin (map (read_attr rf u) attrs)) in
      Forall2 (parameter_like ob) (fd_parameters st) ps /\ Forall2 (variable_like ob) (fd_variables st) vs /\ fd_inlined st = [] /\ fd_calls st = [].
    Proof.
      intros C. cbn zeta. rewrite abstract_start. unfold abstract_origin. destruct C as [L|v x e ps vs G R J LP LV].
      - rewrite origin_none by exact L. cbn. auto.
      - assert (Ix : In x (rf_units rf)) by (destruct R; [exact I|assumption]).
        rewrite (origin_is rf u attrs v x e G R). fold (spot_in x e). destruct (space_at rf ob WF RD x e Ix J) as (SP & NE).
        rewrite (proj2 (N.eqb_neq _ _) NE), SP. cbn [fd_parameters fd_variables fd_inlined fd_calls].
        rewrite parameters_read, (inside_read rf x is_variable 0x34 e variable_tag). split; [|split; [|split; reflexivity]].
        + apply (parameters_like rf ob WF AC RD x Ix [] _ ps []); [exact LP|constructor].
        + apply (variables_like rf ob WF AC RD x Ix [] _ vs []); [exact LV|constructor].
    Qed.
    Lemma details_like d ps vs : locals_in rf u d ps vs ->
      let st := visited d (abstract_details (entry_space ob) (attr_function_origin (die_attrs (read_die rf u d)))) in
      Forall2 (parameter_like ob) (fd_parameters st) ps /\ Forall2 (variable_like ob) (fd_variables st) vs /\
      fd_inlined st = map (item_inlined (entry_space ob) h (reading_of rf u)) (map (read_die rf u) (inside 0x1d d)) /\
      fd_calls st = map (item_call (entry_space ob) h (reading_of rf u)) (map (read_die rf u) (calls_inside d)).
    Proof.
      intros [ps0 vs0 C LP LV]. cbn zeta. rewrite (read_attrs rf u d). destruct (copied_like _ _ _ C) as (A & B & E & E').
      destruct (visit_list (entry_space ob) h (reading_of rf u) false (die_children (read_die rf u d))
        (abstract_details (entry_space ob) (attr_function_origin (map (read_attr rf u) (rd_attrs d))))) as (V1 & V2 & V3).
      rewrite visit_parameters, V1, V2, V3, E, E', parameters_read, (inside_read rf u is_variable 0x34 d variable_tag), (inside_read rf u DetailSpec.is_inlined 0x1d d inlined_tag), (inside_any rf u is_call _ d call_tag).
      split; [|split; [|split; reflexivity]].
      - now apply (parameters_like rf ob WF AC RD u I ps0).
      - now apply (variables_like rf ob WF AC RD u I vs0).
    Qed.
    Lemma function_words_found x e y : In x (rf_units rf) -> gives_function rf x e y ->
      exists f, function_from_offset (loaded_units choice ob) (spot_in x e) = Some f /\ function_name f = function_words y.
    Proof.
      intros Ix G. destruct (function_given rf ob WF AC RD x Ix e y G) as (g & D & H).
      unfold function_holds in H. destruct H as (HO & PO & TX & HN & _).
      destruct (function_by_place choice ob (C88_well_formed rf ob WF RD) (read_unit rf x) _ g (unit_in rf ob RD x Ix) D) as (f & E & FF).
      unfold spot_in. rewrite <- HO. exists f. split; [exact E|]. unfold function_name, function_words. destruct FF as (_ & E1 & E2 & _).
      now rewrite E1, E2, HN, <- TX.
    Qed.
    Lemma sites_read ds l : Forall2 (gives_site rf u) ds l ->
      Forall2 (site_like choice ob) (map site_of (map (item_call (entry_space ob) h (reading_of rf u)) (map (read_die rf u) ds))) l.
    Proof. induction 1 as [|e y ds l G F IH]; cbn [map]; constructor; [now apply site_read|exact IH]. Qed.
    Lemma inlined_read d x : gives_inlined rf u d x -> inlined_like (inlined_of (item_inlined (entry_space ob) h (reading_of rf u) (read_die rf u d))) x.
    Proof.
      revert d x. fix IH 3. intros d x G. destruct G as [d size words call ps vs sites inner T B W C L ST F].
      destruct (details_like d ps vs L) as (A1 & A2 & A3 & A4).
      destruct (inlined_bytes_is rf u _ _ B) as (B1 & B2). apply call_source_is in C.
      unfold item_inlined. cbn [inlined_of]. constructor; cbn [il_size il_origin il_source il_parameters il_variables il_inlined il_calls if_size if_origin if_source if_parameters if_variables if_inlined if_calls].
      - now rewrite read_attrs.
      - exact B2.
      - rewrite read_attrs, attr_function_origin_given. destruct W as [LA|v x e y G R GF].
        + now rewrite origin_none by exact LA.
        + rewrite (origin_is rf u _ v x e G R). assert (Ix : In x (rf_units rf)) by (destruct R; [exact I|assumption]).
          destruct (function_words_found x e y Ix GF) as (f & E & N). fold (spot_in x e). now rewrite E.
      - exact C.
      - now apply formals_like.
      - now apply slots_like.
      - rewrite A4. destruct sites as [l|]; [|exact Logic.I]. cbn [gives_sites] in ST. now apply sites_read.
      - rewrite A3. clear - IH F. induction F as [|e y l ys G F IH']; cbn [map]; constructor; [exact (IH e y G)|exact IH'].
    Qed.
    Lemma function_like d ps vs sites inner : In d (raw_below u) -> locals_in rf u d ps vs -> gives_sites rf u d sites -> Forall2 (gives_inlined rf u) (inside 0x1d d) inner ->
      let st := get_function_details (entry_space ob) h (spot_in u d) in
      Forall2 formal_like (de_parameters (details_of st)) ps /\ Forall2 slot_like (de_variables (details_of st)) vs /\
      Forall2 inlined_like (de_inlined (details_of st)) inner /\
      match sites with Some l => Forall2 (site_like choice ob) (de_calls (details_of st)) l | None => True end.
    Proof.
      intros J L ST F. cbn zeta. destruct (space_at rf ob WF RD u d I J) as (SP & NE). rewrite (get_ok _ h _ _ _ SP NE).
      destruct (details_like d ps vs L) as (A1 & A2 & A3 & A4). unfold details_of. cbn [de_parameters de_variables de_inlined de_calls].
      split; [now apply formals_like|]. split; [now apply slots_like|]. rewrite A3, A4. split.
      2: { destruct sites as [l|]; [|exact Logic.I]. now apply sites_read. }
      clear - F WF AC RD I. induction F as [|e y l ys G F IH]; cbn [map]; constructor; [now apply inlined_read|exact IH].
    Qed.
  End Unit.
End Inside.

(** ** The lines *)

Lemma registers_like hs l : places_like hs l -> registers_of l = in_registers hs.
Proof.
  unfold registers_of, registers, in_registers. induction 1 as [|h x hs l (B & H) F IH]; [reflexivity|]. cbn [flat_map]. rewrite map_app, IH. f_equal.
  destruct h as [r|z|a|].
  - now destruct H as (-> & ->).
  - now destruct H as (-> & [->| ->]).
  - now destruct H as (-> & -> & _).
  - destruct H as [->|(r & z & ->)]; [reflexivity|]. now destruct (pc_is_value (snd x)).
Qed.
Lemma frames_like hs l : places_like hs l -> frames_of l = map (fun z => mkFrame z opt64_none) (on_stack hs).
Proof.
  unfold frames_of, frame_locations, on_stack. induction 1 as [|h x hs l (B & H) F IH]; [reflexivity|]. cbn [flat_map]. rewrite !map_app, IH. f_equal. rewrite B.
  destruct h as [r|z|a|].
  - now destruct H as (-> & ->).
  - now destruct H as (-> & [->| ->]).
  - now destruct H as (-> & -> & _).
  - destruct H as [->|(r & z & ->)]; [reflexivity|]. now destruct (pc_is_value (snd x)).
Qed.
Lemma sorted_map {A B} (P : A -> A -> Prop) (Q : B -> B -> Prop) (f : A -> B) l :
  (forall a b, In a l -> In b l -> P a b -> Q (f a) (f b)) -> StronglySorted P l -> StronglySorted Q (map f l).
Proof.
  intros H S. induction S as [|a l S IH F]; cbn [map]; constructor.
  - apply IH. intros x y X Y. apply H; now right.
  - rewrite Forall_forall in *. intros y Y. apply in_map_iff in Y. destruct Y as (x & <- & X). apply H; [now left|now right|now apply F].
Qed.

Lemma known_from a : (forall n, a = Some n -> n < u64_max) -> known (opt64_from a) = a.
Proof. intros H. destruct a as [n|]; cbn [opt64_from]; unfold known; [|reflexivity]. specialize (H n eq_refl). destruct (N.eqb_spec n u64_max); [lia|reflexivity]. Qed.

Section Lines.
  Variable choice : N -> nat.
  Variable rf : raw_file.
  Variable ob : object_input.
  Hypothesis RD : read_file rf = Some ob.
  Variable o : options.
  Local Notation sc := (file_scene choice ob).

  Lemma held_shown i hs l ls : places_like hs l -> places_shown o sc i l ls -> held_lines rf o i hs ls.
  Proof.
    intros P [H|rs fs H D1 (D2 & D3)]; [now constructor|]. rewrite (registers_like hs l P) in D1.
    assert (FE : fs = map (fun z => mkFrame z opt64_none) (map fl_offset fs)).
    { rewrite map_map. rewrite <- (map_id fs) at 1. apply map_ext_in. intros x X. apply D3 in X. rewrite (frames_like hs l P) in X.
      apply in_map_iff in X. destruct X as (z & <- & _). reflexivity. }
    assert (DZ : distinct_in_order Z.lt (on_stack hs) (map fl_offset fs)).
    { split.
      - apply (sorted_map frame_before); [|exact D2]. rewrite FE. intros a b A B. apply in_map_iff in A, B. destruct A as (x & <- & _), B as (y & <- & _).
        intros [X|(_ & X)]; [exact X|]. cbn [fl_bit_size] in X. lia.
      - intros z. split.
        + intros I. change z with (fl_offset (mkFrame z opt64_none)). apply in_map. apply D3. rewrite (frames_like hs l P). apply in_map_iff. eauto.
        + intros I. apply in_map_iff in I. destruct I as (x & <- & X). apply D3 in X. rewrite (frames_like hs l P) in X. apply in_map_iff in X.
          destruct X as (w & <- & W). exact W. }
    assert (SH : forall z, frame_shown (mkFrame z opt64_none) = signed z) by (intros z; unfold frame_shown; cbn [fl_offset fl_bit_size]; apply app_nil_r).
    assert (Q : match fs with [] => [] | [x] => labelled_line i "stack frame" (frame_shown x) | _ => under i "stack frame" (map (fun x => Line (S i) (frame_shown x)) fs) end =
      match map fl_offset fs with [] => [] | [z] => labelled_line i "stack frame" (signed z) | _ => under i "stack frame" (map (fun z => Line (S i) (signed z)) (map fl_offset fs)) end).
    { assert (K : forall zs, let fs := map (fun z => mkFrame z opt64_none) zs in
        match fs with [] => [] | [x] => labelled_line i "stack frame" (frame_shown x) | _ => under i "stack frame" (map (fun x => Line (S i) (frame_shown x)) fs) end =
        match zs with [] => [] | [z] => labelled_line i "stack frame" (signed z) | _ => under i "stack frame" (map (fun z => Line (S i) (signed z)) zs) end).
      { intros [|z [|w zs]]; cbv zeta; cbn [map]; [reflexivity|now rewrite SH|]. rewrite !SH, map_map. do 3 f_equal. apply map_ext. intros a. now rewrite SH. }
      specialize (K (map fl_offset fs)). cbv zeta in K. now rewrite <- FE in K. }
    rewrite Q.
    assert (R : flat_map (fun r => text_line (S i) (register_shown sc r)) rs = flat_map (fun r => text_line (S i) (register_word rf r)) rs).
    { clear - RD. induction rs as [|r rs IH]; [reflexivity|]. cbn [flat_map]. now rewrite IH, (register_words choice rf ob RD). }
    rewrite R. now constructor.
  Qed.
  Lemma formals_shown i fs qs ls : Forall2 (formal_like ob) fs qs -> each (formal_shown o sc i) fs ls -> each (parameter_lines rf o i) qs ls.
  Proof.
    intros F. revert ls. induction F as [|p q fs qs (E1 & (E2 & _) & E3 & E4) F IH]; intros ls H; inversion H as [|? ? l1 l2 S H']; subst; constructor; [|now apply IH].
    destruct S as [l S]. destruct (E3 choice) as (W1 & W2). unfold name_and_type. cbn [file_scene sc_view] in *. rewrite W1, W2, E1. constructor.
    now apply (held_shown _ _ _ _ E4).
  Qed.
  Lemma slot_size v q : slot_like ob v q -> slot_bytes sc v = Some (rl_size q).
  Proof. intros ((_ & _ & E3 & _) & _ & _ & S). unfold slot_bytes. rewrite S, N.eqb_refl. destruct (E3 choice) as (_ & W). exact W. Qed.
  Lemma slots_shown i fs qs ls : Forall2 (slot_like ob) fs qs -> each (slot_shown o sc i) fs ls -> each (local_lines rf o i) qs ls.
  Proof.
    intros F. revert ls. induction F as [|p q fs qs L F IH]; intros ls H; inversion H as [|? ? l1 l2 S H']; subst; constructor; [|now apply IH].
    pose proof (slot_size p q L) as SZ. destruct L as ((E1 & (E2 & _) & E3 & E4) & A & B & _).
    destruct S as [l S]. destruct (E3 choice) as (W1 & _). rewrite SZ. unfold name_and_type. cbn [file_scene sc_view] in *. rewrite W1, E1, A, known_from by exact B.
    rewrite <- app_assoc. constructor. now apply (held_shown _ _ _ _ E4).
  Qed.
  Lemma optional_same {b} {P Q : list line -> Prop} {ls} : (forall l, P l -> Q l) -> optional b P ls -> optional b Q ls.
  Proof. intros H [E|l E X]; [now constructor|]. constructor; [exact E|now apply H]. Qed.
  Lemma inner_given dir depth : forall i l qs ls, Forall2 (inlined_like choice ob) l qs -> inner_shown o sc dir depth i l ls -> inlined_all_lines rf o dir depth i qs ls.
  Proof.
    induction depth as [|depth IHd]; intros i l qs ls F; revert ls.
    - intros ls H. inversion H; subst. constructor.
    - induction F as [|x y l qs L F IH]; intros ls H; inversion H as [| |? ? ? ? l1 l2 S H']; subst; constructor; [|now apply IH].
      destruct L as [x size words call ps vs sites inner L1 L2 L3 L4 L5 L6 LS L7]. inversion S as [? ? ? lp lv li P1 P2 P3]; subst.
      rewrite L1, known_from by exact L2. cbn [file_scene sc_function]. constructor.
      + exact (optional_same (fun k => formals_shown _ _ _ k L5) P1).
      + exact (optional_same (fun k => slots_shown _ _ _ k L6) P2).
      + split; [now intros ->|]. intros -> k ->. f_equal. now apply sites_same.
      + now apply (IHd _ (il_inlined x)).
  Qed.
End Lines.

(** ** The stack frame *)

Section Frame.
  Variable choice : N -> nat.
  Variable ob : object_input.
  Local Notation sc := (file_scene choice ob).

  Definition spot_of (e : frame_variable) : raw_spot :=
    mkRawSpot (fv_offset e) (match fv_size e with Some n => n | None => 0 end) (fv_name e) (written_type (file_view choice ob) (fv_ty e)) (known (fv_ty e)).
  (** An entry of the frame for a parameter or variable. *)
  Definition frame_of (p : raw_local) (e : frame_variable) : Prop :=
    exists z, In z (on_stack (rl_held p)) /\ e = mkFrameVariable None z (Some (rl_size p)) (rl_name p) (opt64_from (rl_type_spot p)) /\
      (forall n, rl_type_spot p = Some n -> n < u64_max) /\ written_type (file_view choice ob) (opt64_from (rl_type_spot p)) = rl_type p.
  Lemma place_like name ty l q size e : local_like ob name ty l q -> size = Some (rl_size q) -> (place_of size name ty l e <-> frame_of q e).
  Proof.
    intros (E1 & (E2 & B) & E3 & E4) ->. unfold place_of, frame_of. rewrite (frames_like _ _ E4). split.
    - intros (fl & I & ->). apply in_map_iff in I. destruct I as (z & <- & I). exists z. split; [exact I|]. cbn [fl_offset fl_bit_size].
      change (known opt64_none) with (@None N). rewrite E1, E2. split; [reflexivity|]. split; [exact B|]. rewrite <- E2. apply (E3 choice).
    - intros (z & I & -> & _). exists (mkFrame z opt64_none). split; [apply in_map_iff; eauto|]. cbn [fl_offset fl_bit_size].
      change (known opt64_none) with (@None N). now rewrite E1, E2.
  Qed.
  Lemma formal_place p q e : formal_like ob p q -> (place_of_formal sc p e <-> frame_of q e).
  Proof. intros L. apply place_like; [exact L|]. destruct L as (_ & _ & W & _). apply (W choice). Qed.
  Lemma slot_place v q e : slot_like ob v q -> (place_of_slot sc v e <-> frame_of q e).
  Proof. intros L. apply place_like; [apply L|]. now apply slot_size. Qed.
  Lemma formal_places l qs e : Forall2 (formal_like ob) l qs -> ((exists p, In p l /\ place_of_formal sc p e) <-> exists q, In q qs /\ frame_of q e).
  Proof.
    induction 1 as [|p q l qs L F IH]; [split; intros (x & [] & _)|]. split.
    - intros (x & [<-|I] & P); [exists q; split; [now left|now apply (formal_place p q)]|]. destruct (proj1 IH) as (y & J & Q); [eauto|]. exists y. split; [now right|exact Q].
    - intros (x & [<-|I] & P); [exists p; split; [now left|now apply (formal_place p q)]|]. destruct (proj2 IH) as (y & J & Q); [eauto|]. exists y. split; [now right|exact Q].
  Qed.
  Lemma slot_places l qs e : Forall2 (slot_like ob) l qs -> ((exists p, In p l /\ place_of_slot sc p e) <-> exists q, In q qs /\ frame_of q e).
  Proof.
    induction 1 as [|p q l qs L F IH]; [split; intros (x & [] & _)|]. split.
    - intros (x & [<-|I] & P); [exists q; split; [now left|now apply (slot_place p q)]|]. destruct (proj1 IH) as (y & J & Q); [eauto|]. exists y. split; [now right|exact Q].
    - intros (x & [<-|I] & P); [exists p; split; [now left|now apply (slot_place p q)]|]. destruct (proj2 IH) as (y & J & Q); [eauto|]. exists y. split; [now right|exact Q].
  Qed.
  Lemma inlined_places_in x e : in_inlined sc x e -> forall y, inlined_like choice ob x y -> exists p, local_of y p /\ frame_of p e.
  Proof.
    induction 1 as [x e p I P|x e v I P|x e z I _ IH]; intros y L; destruct L as [x size words call ps vs sites inner _ _ _ _ L5 L6 _ L7].
    - destruct (proj1 (formal_places _ _ e L5)) as (q & J & Q); [eauto|]. exists q. split; [|exact Q]. eapply lf_own; [reflexivity|]. apply in_app_iff. now left.
    - destruct (proj1 (slot_places _ _ e L6)) as (q & J & Q); [eauto|]. exists q. split; [|exact Q]. eapply lf_own; [reflexivity|]. apply in_app_iff. now right.
    - destruct (Forall2_in_l _ _ _ z L7 I) as (w & J & L). destruct (IH w L) as (q & LO & Q). exists q. split; [|exact Q]. now apply (lf_inner _ _ size words call ps vs sites inner w).
  Qed.
  Lemma inlined_places_out y p : local_of y p -> forall x e, inlined_like choice ob x y -> frame_of p e -> in_inlined sc x e.
  Proof.
    induction 1 as [y p size words call ps vs sites inner -> I|y p size words call ps vs sites inner w -> I _ IH]; intros x e L Q; inversion L as [? ? ? ? ? ? ? ? _ _ _ _ L5 L6 _ L7]; subst.
    - apply in_app_iff in I. destruct I as [I|I].
      + destruct (proj2 (formal_places _ _ e L5)) as (z & J & P); [eauto|]. now apply (in_inlined_formal sc x e z).
      + destruct (proj2 (slot_places _ _ e L6)) as (z & J & P); [eauto|]. now apply (in_inlined_slot sc x e z).
    - destruct (Forall2_in_r _ _ _ w L7 I) as (z & J & Lz). apply (in_inlined_inner sc x e z J). now apply IH.
  Qed.
  Definition among (ps vs : list raw_local) (inner : list raw_inlined) (p : raw_local) : Prop := In p (ps ++ vs) \/ exists y, In y inner /\ local_of y p.
  Lemma frame_places d ps vs inner e : Forall2 (formal_like ob) (de_parameters d) ps -> Forall2 (slot_like ob) (de_variables d) vs ->
    Forall2 (inlined_like choice ob) (de_inlined d) inner -> (in_frame sc d e <-> exists p, among ps vs inner p /\ frame_of p e).
  Proof.
    intros L5 L6 L7. split.
    - intros [p I P|v I P|y I P].
      + destruct (proj1 (formal_places _ _ e L5)) as (q & J & Q); [eauto|]. exists q. split; [left; apply in_app_iff; now left|exact Q].
      + destruct (proj1 (slot_places _ _ e L6)) as (q & J & Q); [eauto|]. exists q. split; [left; apply in_app_iff; now right|exact Q].
      + destruct (Forall2_in_l _ _ _ y L7 I) as (w & J & L). destruct (inlined_places_in y e P w L) as (q & LO & Q). exists q. split; [right; eauto|exact Q].
    - intros (p & [I|(y & I & LO)] & Q).
      + apply in_app_iff in I. destruct I as [I|I].
        * destruct (proj2 (formal_places _ _ e L5)) as (z & J & P); [eauto|]. now apply (in_frame_formal sc d e z).
        * destruct (proj2 (slot_places _ _ e L6)) as (z & J & P); [eauto|]. now apply (in_frame_slot sc d e z).
      + destruct (Forall2_in_r _ _ _ y L7 I) as (z & J & Lz). apply (in_frame_inlined sc d e z J). now apply (inlined_places_out y p LO).
  Qed.
  Definition typed (p : raw_local) : Prop :=
    (forall n, rl_type_spot p = Some n -> n < u64_max) /\ written_type (file_view choice ob) (opt64_from (rl_type_spot p)) = rl_type p.
  Lemma local_typed name ty l q : local_like ob name ty l q -> typed q.
  Proof. intros (_ & (E & B) & W & _). split; [exact B|]. rewrite <- E. apply (W choice). Qed.
  Lemma inlined_typed y p : local_of y p -> forall x, inlined_like choice ob x y -> typed p.
  Proof.
    induction 1 as [y p size words call ps vs sites inner -> I|y p size words call ps vs sites inner w -> I _ IH]; intros x L; inversion L as [? ? ? ? ? ? ? ? _ _ _ _ L5 L6 _ L7]; subst.
    - apply in_app_iff in I. destruct I as [I|I].
      + destruct (Forall2_in_r _ _ _ p L5 I) as (z & _ & K). exact (local_typed _ _ _ _ K).
      + destruct (Forall2_in_r _ _ _ p L6 I) as (z & _ & K & _). exact (local_typed _ _ _ _ K).
    - destruct (Forall2_in_r _ _ _ w L7 I) as (z & J & Lz). now apply (IH z).
  Qed.
  Lemma among_typed d ps vs inner p : Forall2 (formal_like ob) (de_parameters d) ps -> Forall2 (slot_like ob) (de_variables d) vs ->
    Forall2 (inlined_like choice ob) (de_inlined d) inner -> among ps vs inner p -> typed p.
  Proof.
    intros L5 L6 L7 [I|(y & I & LO)].
    - apply in_app_iff in I. destruct I as [I|I].
      + destruct (Forall2_in_r _ _ _ p L5 I) as (z & _ & K). exact (local_typed _ _ _ _ K).
      + destruct (Forall2_in_r _ _ _ p L6 I) as (z & _ & K & _). exact (local_typed _ _ _ _ K).
    - destruct (Forall2_in_r _ _ _ y L7 I) as (z & J & Lz). exact (inlined_typed y p LO z Lz).
  Qed.
  Lemma frame_of_spot p e : frame_of p e -> spot_of e = mkRawSpot (fv_offset e) (rl_size p) (rl_name p) (rl_type p) (rl_type_spot p) /\ In (fv_offset e) (on_stack (rl_held p)) /\
    fv_size e = Some (rl_size p) /\ fv_ty e <= u64_max.
  Proof.
    intros (z & I & -> & B & W). unfold spot_of. cbn [fv_offset fv_size fv_name fv_ty]. rewrite W, known_from by exact B. split; [reflexivity|]. split; [exact I|]. split; [reflexivity|].
    destruct (rl_type_spot p) as [n|]; cbn [opt64_from]; [specialize (B n eq_refl)|unfold opt64_none]; lia.
  Qed.
  Definition modest_entry (e : frame_variable) : Prop := (- 2 ^ 61 < fv_offset e < 2 ^ 61)%Z /\ exists n, fv_size e = Some n /\ n < 2 ^ 61.
  Lemma entries_lines i es : Forall modest_entry es -> forall last, (forall z, last = Some z -> (- 2 ^ 62 < z < 2 ^ 62)%Z) ->
    entries_shown sc i last es = frame_lines i last (map spot_of es).
  Proof.
    induction 1 as [|e es (B & n & E & LN) F IH]; intros last L; [reflexivity|]. cbn [entries_shown map frame_lines].
    assert (P61 : (2 ^ 61)%N = Z.to_N (2 ^ 61)) by reflexivity. assert (LZ : (0 <= Z.of_N n < 2 ^ 61)%Z) by lia.
    assert (Z1 : (2 ^ 62 = 2 * 2 ^ 61)%Z) by reflexivity. assert (Z2 : (2 ^ 63 = 4 * 2 ^ 61)%Z) by reflexivity.
    unfold spot_of at 1 2 3 4 5 6 7. cbn [rs_offset rs_size rs_name rs_type]. rewrite E. rewrite CodeProofs.as_i64_small by lia. rewrite IH by (intros z [= <-]; lia).
    f_equal.
    - unfold gap_shown. destruct last as [z|]; [|reflexivity]. specialize (L z eq_refl). now rewrite CodeProofs.as_i64_small by lia.
    - unfold spot_of at 2 3. cbn [rs_offset rs_size]. rewrite E. f_equal. f_equal. unfold name_and_type. cbn [file_scene sc_view]. now rewrite <- !app_assoc.
  Qed.
  Lemma frame_lines_given d ps vs inner es : Forall2 (formal_like ob) (de_parameters d) ps -> Forall2 (slot_like ob) (de_variables d) vs ->
    Forall2 (inlined_like choice ob) (de_inlined d) inner -> moderate_frame ps vs inner ->
    StronglySorted entry_before es -> (forall e, In e es <-> in_frame sc d e) -> frame_given ps vs inner (entries_shown sc 2 None es).
  Proof.
    intros L5 L6 L7 MF SS IN. assert (IN' : forall e, In e es <-> exists p, among ps vs inner p /\ frame_of p e) by (intros e; rewrite IN; now apply frame_places).
    clear IN. rewrite entries_lines; [|rewrite Forall_forall|discriminate].
    2: { intros e I. apply IN' in I. destruct I as (p & A & Q). destruct (frame_of_spot p e Q) as (_ & J & E & _). destruct (MF p _ A J) as (B1 & B2). split; [exact B1|]. eauto. }
    constructor.
    - apply (sorted_map entry_before); [|exact SS]. intros a b A B X. apply IN' in A, B. destruct A as (p & _ & P), B as (q & _ & Q).
      destruct (frame_of_spot p a P) as (_ & _ & E1 & T1), (frame_of_spot q b Q) as (_ & _ & E2 & T2). clear P Q.
      unfold entry_before in X. unfold spot_before, spot_of. cbn [rs_offset rs_size rs_name rs_type_spot]. rewrite E1, E2 in *. cbn [option_before] in X.
      destruct X as [X|(X1 & X)]; [now left|]. right. split; [exact X1|]. destruct X as [X|(X2 & X)]; [now left|]. right. split; [congruence|].
      destruct X as [X|(X3 & X)]; [now left|]. right. split; [exact X3|]. unfold known. destruct (N.eqb_spec (fv_ty a) u64_max); [lia|]. now destruct (N.eqb_spec (fv_ty b) u64_max).
    - intros e. split.
      + intros I. apply in_map_iff in I. destruct I as (x & <- & I). apply IN' in I. destruct I as (p & A & Q). exists p. split; [exact A|].
        destruct (frame_of_spot p x Q) as (E & J & _). rewrite E. cbn [rs_offset]. auto.
      + intros (p & A & J & E). assert (LL : exists x, frame_of p x /\ fv_offset x = rs_offset e).
        { destruct (among_typed d ps vs inner p L5 L6 L7 A) as (W1 & W2). eexists. split; [exists (rs_offset e); split; [exact J|]; split; [reflexivity|]; split; [exact W1|exact W2]|reflexivity]. }
        destruct LL as (x & Q & EO). apply in_map_iff. exists x. destruct (frame_of_spot p x Q) as (E' & _). split; [|apply IN'; eauto]. rewrite E', EO. now symmetry.
  Qed.
End Frame.
