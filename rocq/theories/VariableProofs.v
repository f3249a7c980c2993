(** Proofs about DieModel.v, fifth part: the variables of a unit. *)
From Coq Require Import List Arith NArith ZArith Bool String Lia Permutation Sorted.
From Verif Require Import Base RangeModel NamespaceModel TypeModel LocationModel DieModel DieSpec
  DieProofs FixupProofs DescribeProofs KeptProofs.
Import ListNotations.
Local Open Scope N_scope.

(** ** The loop over the waiting variables *)

(** The offsets that end up in the map. *)
Inductive reached (start : list N) (waiting : list (N * N)) : N -> Prop :=
| reached_start o : In o start -> reached start waiting o
| reached_next t o : In (t, o) waiting -> reached start waiting t -> reached start waiting o.

Definition links (l : list (N * dw_variable)) : list (N * N) := map (fun p => (fst p, vr_offset (snd p))) l.

Lemma resolve_variables_step fuel m l :
  resolve_variables (S fuel) m l
  = let '(m', defer, progress) := fold_left resolve_variable l (m, [], false) in
    match defer with
    | [] => Some m'
    | _ => if progress then resolve_variables fuel m' defer else Some m'
    end.
Proof. reflexivity. Qed.

(** [pass m defer l m' defer']: what one pass does. *)
Lemma variable_pass l : forall m defer b m' defer' b',
  fold_left resolve_variable l (m, defer, b) = (m', defer', b') ->
  (ordered vr_offset m -> ordered vr_offset m')
  /\ (forall o, In o (map vr_offset m) -> In o (map vr_offset m'))
  /\ (forall p, In p l -> In p defer' \/
        (In (fst p) (map vr_offset m') /\ In (vr_offset (snd p)) (map vr_offset m')))
  /\ (incl defer defer' /\ forall p, In p defer' -> In p defer \/ In p l)
  /\ (forall o, In o (map vr_offset m') -> reached (map vr_offset m) (links l) o)
  /\ (b' = false -> b = false /\ m' = m /\ defer' = defer ++ l
        /\ Forall (fun p => map_get vr_offset (fst p) m = None) l)
  /\ (List.length defer' + Nat.b2n b' <= List.length defer + List.length l + Nat.b2n b)%nat.
Proof.
  induction l as [|p l IH]; intros m defer b m' defer' b' E; cbn [fold_left] in E.
  - injection E as E1 E2 E3; subst. repeat split; auto using incl_refl; try (now intros ? []).
    + intros o H. now constructor.
    + now rewrite app_nil_r.
    + lia.
  - unfold resolve_variable at 2 in E. destruct (map_get vr_offset (fst p) m) as [origin|] eqn:M.
    + apply IH in E. destruct E as (A1 & A2 & A3 & (A4 & A5) & A6 & A7 & A8).
      destruct (map_get_some _ _ _ _ M) as (Ho & Eo).
      assert (K : forall o, In o (map vr_offset m) ->
                  In o (map vr_offset (map_insert vr_offset (inherit_variable origin (snd p)) m))).
      { intros o H. apply map_insert_key. now right. }
      repeat split; auto.
      * intros H. apply A1. now apply map_insert_ordered.
      * intros q [<-|Hq]; [|auto]. right. split; apply A2.
        -- apply K. rewrite <- Eo. now apply in_map.
        -- apply map_insert_key. now left.
      * intros q Hq. destruct (A5 q Hq); [now left|]. right. now right.
      * intros o H. apply A6 in H. induction H as [o H|t o H1 H2 IH2].
        -- apply map_insert_key in H. destruct H as [->|H]; [|now constructor].
           apply (reached_next _ _ (fst p)); [now left|]. constructor. rewrite <- Eo. now apply in_map.
        -- apply (reached_next _ _ t); [|assumption]. now right.
      * destruct b'; [discriminate|]. destruct (A7 eq_refl). discriminate.
      * destruct b'; [discriminate|]. destruct (A7 eq_refl). discriminate.
      * destruct b'; [discriminate|]. destruct (A7 eq_refl). discriminate.
      * destruct b'; [discriminate|]. destruct (A7 eq_refl). discriminate.
      * cbn [List.length Nat.b2n] in *. lia.
    + apply IH in E. destruct E as (A1 & A2 & A3 & (A4 & A5) & A6 & A7 & A8).
      repeat split; auto.
      * intros q [<-|Hq]; [|auto]. left. apply A4. apply in_or_app. right. now left.
      * intros q Hq. apply A4. apply in_or_app. now left.
      * intros q Hq. destruct (A5 q Hq) as [H|H]; [|right; now right].
        apply in_app_or in H. destruct H as [H|[<-|[]]]; [now left|right; now left].
      * intros o H. apply A6 in H. induction H as [o H|t o H1 H2 IH2]; [now constructor|].
        apply (reached_next _ _ t); [|assumption]. now right.
      * apply A7. assumption.
      * apply A7. assumption.
      * destruct A7 as (_ & _ & -> & _); [assumption|]. now rewrite <- app_assoc.
      * destruct A7 as (_ & _ & _ & A7); [assumption|]. now constructor.
      * rewrite app_length in A8. cbn [List.length] in *. lia.
Qed.

Lemma resolve_variables_total fuel : forall m l,
  (List.length l < fuel)%nat -> exists m', resolve_variables fuel m l = Some m'.
Proof.
  induction fuel as [|fuel IH]; intros m l L; [lia|]. rewrite resolve_variables_step.
  destruct (fold_left resolve_variable l (m, [], false)) as [[m' defer] b] eqn:E.
  apply variable_pass in E. destruct E as (_ & _ & _ & _ & _ & _ & A).
  destruct defer as [|p defer]; [eauto|]. destruct b; [|eauto].
  apply IH. cbn [List.length Nat.b2n] in *. lia.
Qed.

Lemma resolve_variables_keys fuel : forall m l m',
  resolve_variables fuel m l = Some m' ->
  (ordered vr_offset m -> ordered vr_offset m')
  /\ forall o, In o (map vr_offset m') <-> reached (map vr_offset m) (links l) o.
Proof.
  induction fuel as [|fuel IH]; intros m l m' E; [discriminate|]. rewrite resolve_variables_step in E.
  destruct (fold_left resolve_variable l (m, [], false)) as [[m1 defer] b] eqn:F.
  apply variable_pass in F. destruct F as (A1 & A2 & A3 & (A4 & A5) & A6 & A7 & A8).
  assert (X : forall o, reached (map vr_offset m1) (links defer) o <-> reached (map vr_offset m) (links l) o).
  { intros o. split.
    - induction 1 as [o H|t o H1 H2 IH2]; [now apply A6|].
      apply (reached_next _ _ t); [|assumption]. unfold links in *. apply in_map_iff in H1.
      destruct H1 as (p & Ep & Hp). apply in_map_iff. exists p. split; [assumption|].
      destruct (A5 p Hp) as [[]|]; assumption.
    - induction 1 as [o H|t o H1 H2 IH2]; [constructor; now apply A2|].
      unfold links in H1. apply in_map_iff in H1. destruct H1 as (p & Ep & Hp). inversion Ep; subst.
      destruct (A3 p Hp) as [H|(_ & H)]; [|now constructor].
      apply (reached_next _ _ (fst p)); [|assumption]. unfold links. apply in_map_iff. now exists p. }
  assert (Y : (defer = [] \/ b = false) -> m' = m1 ->
    (ordered vr_offset m -> ordered vr_offset m')
    /\ forall o, In o (map vr_offset m') <-> reached (map vr_offset m) (links l) o).
  { intros Hd ->. split; [assumption|]. intros o. rewrite <- X. split; [now constructor|].
    intros H. induction H as [o H|t o H1 H2 IH2]; [assumption|].
    destruct Hd as [-> | ->]; [destruct H1|].
    destruct (A7 eq_refl) as (_ & -> & -> & A9). cbn [app] in *. unfold links in H1.
    apply in_map_iff in H1. destruct H1 as (p & Ep & Hp). inversion Ep; subst.
    rewrite Forall_forall in A9. specialize (A9 p Hp). exfalso.
    apply in_map_iff in IH2. destruct IH2 as (v & Ev & Hv). apply (map_get_none _ _ _ v A9 Hv). assumption. }
  destruct defer as [|p defer].
  - inversion E; subst. apply Y; auto.
  - destruct b.
    + apply IH in E. destruct E as (B1 & B2). split; [auto|]. intros o. rewrite B2. apply X.
    + inversion E; subst. apply Y; auto.
Qed.

(** ** Which variables are kept *)

Section Variables.
  Variable cx : context.
  Variable top : list die.

  Lemma statics_spec o l :
    In o (map vr_offset (statics_of None l)) <-> exists d, In d l /\ static_member d /\ die_offset d = o.
  Proof.
    unfold statics_of. rewrite in_map_iff. split.
    - intros (v & Ev & Hv). apply in_flat_map in Hv. destruct Hv as ([t off a c] & Hd & Hv).
      destruct t; try destruct Hv. destruct (is_static a) eqn:Es; [|destruct Hv].
      destruct Hv as [<-|[]]. exists (Die TagMember off a c). repeat split; auto.
      cbn [die_attrs]. now rewrite <- is_static_declared.
    - intros ([t off a c] & Hd & (Ht & Hs) & Eo). cbn [die_tag die_attrs die_offset] in *. subst.
      exists (parse_variable None o a). split; [reflexivity|]. apply in_flat_map.
      exists (Die TagMember o a c). split; [assumption|]. rewrite is_static_declared, Hs. now left.
  Qed.

  Lemma members_only l :
    map (fun m => (m_offset m, m_ty m)) (members_of cx l)
    = map (fun d => (die_offset d, given_type (die_attrs d)))
        (filter (fun c => match die_tag c with TagMember => negb (declared_only (die_attrs c)) | _ => false end) l).
  Proof.
    unfold members_of. induction l as [|[t off a c] l IH]; [reflexivity|].
    cbn [flat_map filter die_tag die_attrs]. rewrite map_app, IH.
    destruct t; try reflexivity. rewrite is_static_declared. destruct (declared_only a); cbn [negb app map]; [reflexivity|].
    unfold parse_member. cbn [m_offset m_ty die_offset die_attrs]. now rewrite attr_type_given.
  Qed.

  Lemma variant_structure_spec v s :
    variant_structure cx (members_of cx (die_children v)) = Some s <->
    cx_rust cx = true /\ die_tag s = TagStructure /\
    exists m, only_member v m /\ given_type (die_attrs m) <> type_offset_none
      /\ cx_tree cx (given_type (die_attrs m)) = Some s.
  Proof.
    pose proof (members_only (die_children v)) as E. unfold variant_structure, only_member.
    set (F := filter _ (die_children v)) in *.
    split.
    - destruct (cx_rust cx); [|discriminate].
      destruct (members_of cx (die_children v)) as [|m [|? ?]]; try discriminate.
      destruct F as [|d [|? ?]]; try discriminate. cbn [map] in E. inversion E as [[E1 E2]]. rewrite E2.
      destruct (N.eqb_spec (given_type (die_attrs d)) type_offset_none) as [H|H]; [discriminate|].
      destruct (cx_tree cx (given_type (die_attrs d))) as [[t o a c]|] eqn:Et; [|discriminate].
      destruct t; try discriminate. intros X. inversion X; subst. split; [reflexivity|]. split; [reflexivity|].
      exists d. auto.
    - intros (-> & Ht & m & -> & Hn & Et). cbn [map] in E.
      destruct (members_of cx (die_children v)) as [|m' [|? ?]]; try discriminate.
      inversion E as [[E1 E2]]. rewrite E2. apply N.eqb_neq in Hn. rewrite Hn, Et.
      destruct s as [t o a c]. cbn in Ht. now subst.
  Qed.

  Lemma variant_statics_spec o v :
    In o (map vr_offset (variant_statics cx None (die_children v))) <->
    (exists d, In d (die_children v) /\ static_member d /\ die_offset d = o)
    \/ exists m s d, cx_rust cx = true /\ only_member v m /\ given_type (die_attrs m) <> type_offset_none
         /\ cx_tree cx (given_type (die_attrs m)) = Some s /\ die_tag s = TagStructure
         /\ In d (die_children s) /\ static_member d /\ die_offset d = o.
  Proof.
    unfold variant_statics. rewrite map_app, in_app_iff, statics_spec.
    destruct (variant_structure cx (members_of cx (die_children v))) as [s|] eqn:E.
    - rewrite statics_spec. apply variant_structure_spec in E.
      destruct E as (E1 & E2 & m & E3 & E4 & E5). split.
      + intros [H|(d & H)]; [now left|]. right. exists m, s, d. tauto.
      + intros [H|(m' & s' & d & G1 & G2 & G3 & G4 & G5 & G6)]; [now left|]. right. exists d.
        assert (m' = m) by (unfold only_member in *; congruence). subst. rewrite E5 in G4.
        inversion G4; subst. tauto.
    - cbn [map In]. split; [intros [H|[]]; now left|].
      intros [H|(m' & s' & d & G1 & G2 & G3 & G4 & G5 & G6)]; [now left|].
      assert (X : variant_structure cx (members_of cx (die_children v)) = Some s').
      { apply variant_structure_spec. split; [assumption|]. split; [assumption|]. now exists m'. }
      congruence.
  Qed.

  Lemma variant_part_spec o p :
    In o (map vr_offset (variant_part_statics cx None (die_children p))) <->
    (exists d, In d (die_children p) /\ static_member d /\ die_offset d = o)
    \/ exists v, In v (die_children p) /\ die_tag v = TagVariant
         /\ In o (map vr_offset (variant_statics cx None (die_children v))).
  Proof.
    unfold variant_part_statics. split.
    - rewrite in_map_iff. intros (v & Ev & Hv). apply in_flat_map in Hv. destruct Hv as (d & Hd & Hv).
      assert (G : In v (statics_of None [d]) -> exists d, In d (die_children p) /\ static_member d /\ die_offset d = o).
      { intros H. assert (H2 : In o (map vr_offset (statics_of None [d]))) by (rewrite <- Ev; now apply in_map).
        apply statics_spec in H2. destruct H2 as (x & [<-|[]] & H2). exists d. tauto. }
      destruct d as [t off a c]. destruct t; try (left; now apply G).
      right. exists (Die TagVariant off a c). repeat split; auto. cbn [die_children]. rewrite <- Ev. now apply in_map.
    - intros [(d & Hd & Hs & Eo)|(v & Hv & Ht & H)].
      + assert (H2 : In o (map vr_offset (statics_of None [d]))).
        { apply statics_spec. exists d. split; [now left|]. auto. }
        apply in_map_iff in H2. destruct H2 as (v & Ev & Hv). apply in_map_iff. exists v. split; [assumption|].
        apply in_flat_map. exists d. split; [assumption|]. destruct Hs as (Ht & _).
        destruct d as [t off a c]. cbn in Ht. now subst t.
      + apply in_map_iff in H. destruct H as (w & Ew & Hw). apply in_map_iff. exists w. split; [assumption|].
        apply in_flat_map. exists v. split; [assumption|]. destruct v as [t off a c]. cbn in Ht. now subst t.
  Qed.

  Lemma in_ivar_map o sp l :
    In (IVar o sp) (map (fun v => IVar (vr_offset v) None) l) <-> sp = None /\ In o (map vr_offset l).
  Proof.
    rewrite !in_map_iff. split.
    - intros (v & E & H). inversion E; subst. split; [reflexivity|]. now exists v.
    - intros (-> & v & <- & H). now exists v.
  Qed.

  (** The items of the walk are the entries of variables. *)
  Lemma variable_items o sp :
    In (IVar o sp) (items_in cx TagNamespace top) <->
    exists d, variable_entry cx top d sp /\ die_offset d = o.
  Proof.
    rewrite in_items. split.
    - intros (t & [u off a c] & Hf & Hi). pose proof (found_scope _ _ _ Hf) as Hs.
      cbn [item_of] in Hi.
      destruct u; try (destruct t; try destruct Hs; cbn [parent_of] in Hi; cbn in Hi; intuition discriminate).
      + destruct t; try destruct Hs; cbn [parent_of] in Hi; try (now destruct Hi).
        destruct Hi as [E|[]]. inversion E; subst. exists (Die TagVariable o a c). split; [|reflexivity].
        rewrite attr_variable_specification_given. now apply (var_plain cx top (Die TagVariable o a c)).
      + rewrite is_static_declared in Hi.
        destruct t; try destruct Hs; cbn [parent_of] in Hi; try (now destruct Hi);
          destruct (declared_only a) eqn:Ed; try (now destruct Hi); destruct Hi as [E|[]]; inversion E; subst;
          exists (Die TagMember o a c); (split; [|reflexivity]);
          eapply var_static; try exact Hf; cbn [In]; auto 6; split; auto.
      + assert (St : In t [TagStructure; TagClass] /\
          In (IVar o sp) (map (fun v => IVar (vr_offset v) None) (variant_part_statics cx None c))).
        { destruct t; try destruct Hs; cbn [parent_of] in Hi; try (now destruct Hi); cbn [In]; auto. }
        clear Hi. destruct St as (Ht & Hi). apply in_ivar_map in Hi. destruct Hi as (-> & Hi).
        apply (variant_part_spec o (Die TagVariantPart off a c)) in Hi.
        destruct Hi as [(d & H1 & H2 & H3)|(v & H1 & H2 & H3)].
        * exists d. split; [|assumption]. eapply var_part; try exact Hf; eauto.
        * apply variant_statics_spec in H3. destruct H3 as [(d & G1 & G2 & G3)|(m & s & d & G1 & G2 & G3 & G4 & G5 & G6 & G7 & G8)].
          -- exists d. split; [|assumption]. eapply var_variant; try exact Hf; eauto.
          -- exists d. split; [|assumption]. eapply var_rust; try exact Hf; eauto.
    - intros (d & Hv & Eo).
      destruct Hv as [d Hf Ht|t d Hf Ht (Hm & Hd)|t p d Hf Ht Hp Hc Hst|t p v d Hf Ht Hp Hc Hv Hd Hst|t p v m s d Hf Ht Hp Hc Hv Hr Ho Hty Htr Hs Hd Hst].
      + exists TagNamespace, d. split; [assumption|]. destruct d as [u off a c]. cbn in *. subst.
        rewrite attr_variable_specification_given. now left.
      + exists t, d. split; [assumption|]. destruct d as [u off a c]. cbn [die_tag die_attrs die_offset] in *. subst.
        cbn [item_of]. rewrite is_static_declared, Hd. cbn in Ht. destruct Ht as [<-|[<-|[<-|[]]]]; now left.
      + exists t, p. split; [assumption|]. destruct p as [u off a c]. cbn in Hp. subst u.
        assert (G : In (IVar o None) (map (fun v => IVar (vr_offset v) None) (variant_part_statics cx None c))).
        { apply in_ivar_map. split; [reflexivity|]. apply (variant_part_spec o (Die TagVariantPart off a c)).
          left. exists d. auto. }
        cbn in Ht. destruct Ht as [<-|[<-|[]]]; exact G.
      + exists t, p. split; [assumption|]. destruct p as [u off a c]. cbn in Hp. subst u.
        assert (G : In (IVar o None) (map (fun v => IVar (vr_offset v) None) (variant_part_statics cx None c))).
        { apply in_ivar_map. split; [reflexivity|]. apply (variant_part_spec o (Die TagVariantPart off a c)).
          right. exists v. split; [assumption|]. split; [assumption|]. apply variant_statics_spec. left. exists d. auto. }
        cbn in Ht. destruct Ht as [<-|[<-|[]]]; exact G.
      + exists t, p. split; [assumption|]. destruct p as [u off a c]. cbn in Hp. subst u.
        assert (G : In (IVar o None) (map (fun v => IVar (vr_offset v) None) (variant_part_statics cx None c))).
        { apply in_ivar_map. split; [reflexivity|]. apply (variant_part_spec o (Die TagVariantPart off a c)).
          right. exists v. split; [assumption|]. split; [assumption|]. apply variant_statics_spec. right.
          exists m, s, d. tauto. }
        cbn in Ht. destruct Ht as [<-|[<-|[]]]; exact G.
  Qed.

  Hypothesis Hdistinct : distinct_offsets top.

  Lemma final_variables m s :
    resolve cx (S (dies_count top)) (start_map cx top, start_state cx top) = Some (m, s) ->
    (forall o, In o (map vr_offset (ws_variables s)) <-> exists d, variable_entry cx top d None /\ die_offset d = o)
    /\ (forall t o, In (t, o) (links (ws_deferred s))
                    <-> exists d, variable_entry cx top d (Some t) /\ die_offset d = o).
  Proof.
    intros E.
    assert (X : forall o sp, In (IVar o sp) (items cx s) <-> exists d, variable_entry cx top d sp /\ die_offset d = o).
    { intros o sp. rewrite <- variable_items.
      destruct (fixup_items cx top (distinct_funs cx top Hdistinct) m s (IVar o sp) E) as (_ & W & F & C).
      assert (Z1 : cnt (IVar o sp) (fun_items m) = 0%nat).
      { apply (count_occ_not_In item_eq_dec). intros H. apply in_map_iff in H. destruct H as (? & H & _). discriminate. }
      rewrite Z1 in C. cbn [Nat.add] in C. unfold cnt in C.
      rewrite (count_occ_In item_eq_dec), C, <- (count_occ_In item_eq_dec). reflexivity. }
    destruct (fixup_items cx top (distinct_funs cx top Hdistinct) m s (IFun 0) E) as (_ & W & F & _).
    split.
    - intros o. rewrite <- X. unfold items. rewrite F, W. cbn [map flat_map app]. rewrite app_nil_r, !in_app_iff.
      rewrite in_ivar_map, !in_map_iff. split.
      + intros (v & Ev & Hv). right. left. split; [reflexivity|]. now exists v.
      + intros [(? & H & _)|[(_ & v & Ev & Hv)|(? & H & _)]]; try discriminate. now exists v.
    - intros t o. rewrite <- X. unfold items, links. rewrite F, W. cbn [map flat_map app]. rewrite app_nil_r, !in_app_iff.
      rewrite in_ivar_map, !in_map_iff. split.
      + intros (p & Ep & Hp). right. right. exists p. split; [congruence|assumption].
      + intros [(? & H & _)|[(H & _)|(p & Ep & Hp)]]; try discriminate. exists p. split; [congruence|assumption].
  Qed.

  Lemma reached_has_variable m s :
    resolve cx (S (dies_count top)) (start_map cx top, start_state cx top) = Some (m, s) ->
    forall o, reached (map vr_offset (ws_variables s)) (links (ws_deferred s)) o
              <-> exists d, has_variable cx top d /\ die_offset d = o.
  Proof.
    intros E. destruct (final_variables m s E) as (A & B). intros o. split.
    - induction 1 as [o H|t o H1 H2 (e & He & Ee)].
      + apply A in H. destruct H as (d & Hd & Ed). exists d. split; [now constructor|assumption].
      + apply B in H1. destruct H1 as (d & Hd & Ed). exists d. split; [|assumption].
        now apply (has_reference cx top d e t).
    - intros (d & Hd & Ed). revert o Ed. induction Hd as [d Hd|d e t Hd He IH Ee]; intros o Ed.
      + constructor. apply A. now exists d.
      + apply (reached_next _ _ t); [|now apply IH]. apply B. now exists d.
  Qed.

  (** ** What they are *)

  Definition var_offsets (l : list item) : list N :=
    flat_map (fun i => match i with IVar o _ => [o] | _ => [] end) l.

  Lemma var_offsets_app l k : var_offsets (l ++ k) = var_offsets l ++ var_offsets k.
  Proof. apply flat_map_app. Qed.

  Lemma var_offsets_map l : var_offsets (map (fun v => IVar (vr_offset v) None) l) = map vr_offset l.
  Proof. induction l as [|v l IH]; [reflexivity|]. cbn [map var_offsets flat_map app]. f_equal. exact IH. Qed.

  Local Notation count := (count_occ N.eq_dec).

  Lemma statics_once ns l o : (count (map vr_offset (statics_of ns l)) o <= count (map die_offset l) o)%nat.
  Proof.
    unfold statics_of. induction l as [|[t off a c] l IH]; [cbn; lia|].
    cbn [flat_map]. rewrite map_app, count_occ_app, count_offset_cons. cbn [die_offset].
    destruct t; cbn [map count_occ]; try lia.
    destruct (is_static a); cbn [map count_occ vr_offset parse_variable]; destruct (N.eq_dec off o); lia.
  Qed.

  Lemma entries_offsets l o : (count (map die_offset l) o <= count (map die_offset (flat_map entries l)) o)%nat.
  Proof.
    induction l as [|d l IH]; [cbn; lia|]. cbn [flat_map]. rewrite map_app, count_occ_app, count_offset_cons.
    destruct d as [t off a c]. cbn [entries]. rewrite count_offset_cons. lia.
  Qed.

  Hypothesis Hrust : no_rust_statics cx.

  Lemma variant_statics_once ns l o :
    (count (map vr_offset (variant_statics cx ns l)) o <= count (map die_offset (flat_map entries l)) o)%nat.
  Proof.
    unfold variant_statics. rewrite map_app, count_occ_app.
    pose proof (statics_once ns l o). pose proof (entries_offsets l o).
    enough (Z : match variant_structure cx (members_of cx l) with
                | Some d => statics_of ns (die_children d) | None => [] end = []) by (rewrite Z; cbn; lia).
    destruct (variant_structure cx (members_of cx l)) as [s|] eqn:E; [|reflexivity].
    apply (variant_structure_spec (Die TagVariant 0 [] l)) in E. destruct E as (E1 & _ & m & _ & _ & E2).
    unfold statics_of.
    assert (G : forall d, In d (die_children s) -> ~ static_member d).
    { intros d. exact (Hrust E1 _ s d E2). }
    induction (die_children s) as [|[t off a c] k IH]; [reflexivity|]. cbn [flat_map].
    rewrite IH by (intros; apply G; now right). rewrite app_nil_r.
    destruct t; try reflexivity. destruct (is_static a) eqn:Es; [|reflexivity].
    exfalso. apply (G (Die TagMember off a c)); [now left|]. split; [reflexivity|].
    cbn [die_attrs]. now rewrite <- is_static_declared.
  Qed.

  Lemma variant_part_once ns l o :
    (count (map vr_offset (variant_part_statics cx ns l)) o <= count (map die_offset (flat_map entries l)) o)%nat.
  Proof.
    unfold variant_part_statics. induction l as [|d l IH]; [cbn; lia|].
    cbn [flat_map]. rewrite !map_app, !count_occ_app.
    enough (G : (count (map vr_offset match d with
        | Die TagVariant _ _ c => variant_statics cx ns c
        | _ => statics_of ns [d] end) o <= count (map die_offset (entries d)) o)%nat) by lia.
    assert (G1 : (count (map vr_offset (statics_of ns [d])) o <= count (map die_offset (entries d)) o)%nat).
    { pose proof (statics_once ns [d] o). pose proof (entries_offsets [d] o) as H2. cbn [flat_map] in H2.
      rewrite app_nil_r in H2. lia. }
    destruct d as [t off a c]. destruct t; try exact G1.
    pose proof (variant_statics_once ns c o). cbn [entries die_children]. rewrite count_offset_cons. lia.
  Qed.

  Lemma inner_vars_once o d : forall outer, scope outer ->
    (count (var_offsets (flat_map (item_of cx) (inner outer d))) o
     <= count (map die_offset (entries d)) o)%nat.
  Proof.
    induction d as [t off a c IH] using die_ind'. intros outer Hs.
    cbn [inner flat_map entries die_children]. rewrite var_offsets_app, count_occ_app, count_offset_cons.
    cbn [die_offset].
    assert (H2 : looks outer t = true -> (count (var_offsets (flat_map (item_of cx) (flat_map (inner t) c))) o
            <= count (map die_offset (flat_map entries c)) o)%nat).
    { intros Hl. apply looks_scope in Hl.
      induction IH as [|d c Hd Hc IHc]; cbn [flat_map]; [cbn; lia|].
      rewrite flat_map_app, var_offsets_app, map_app, !count_occ_app. specialize (Hd t Hl). lia. }
    assert (H1 : t <> TagVariantPart -> (count (var_offsets (item_of cx (outer, Die t off a c))) o
       <= if N.eq_dec off o then 1 else 0)%nat).
    { intros Ht. cbn [item_of]. destruct t; try congruence; destruct (parent_of outer); try destruct (is_static a);
        cbn [var_offsets flat_map app count_occ]; try lia; destruct (N.eq_dec off o); lia. }
    destruct (looks outer t) eqn:El.
    - assert (Ht : t <> TagVariantPart) by (intros ->; discriminate). specialize (H1 Ht). specialize (H2 eq_refl). lia.
    - cbn [flat_map var_offsets count_occ]. rewrite Nat.add_0_r.
      assert (Ht : t = TagVariantPart \/ t <> TagVariantPart) by (destruct t; auto; right; discriminate).
      destruct Ht as [->|Ht]; [|specialize (H1 Ht); lia]. clear H1 H2 IH.
      assert (G : (count (var_offsets (map (fun v => IVar (vr_offset v) None) (variant_part_statics cx None c))) o
          <= (if N.eq_dec off o then 1 else 0) + count (map die_offset (flat_map entries c)) o)%nat).
      { rewrite var_offsets_map. pose proof (variant_part_once None c o). lia. }
      destruct outer; try destruct Hs; cbn [item_of parent_of]; try exact G; cbn [var_offsets flat_map count_occ]; lia.
  Qed.

  Lemma variables_once o outer l : scope outer ->
    (count (var_offsets (items_in cx outer l)) o <= count (map die_offset (flat_map entries l)) o)%nat.
  Proof.
    intros Hs. induction l as [|d l IH]; [cbn; lia|]. rewrite items_in_cons, var_offsets_app, count_occ_app.
    cbn [flat_map]. rewrite map_app, count_occ_app. pose proof (inner_vars_once o d outer Hs). lia.
  Qed.

  Lemma final_nodup m s :
    resolve cx (S (dies_count top)) (start_map cx top, start_state cx top) = Some (m, s) ->
    NoDup (map vr_offset (ws_variables s ++ map snd (ws_deferred s))).
  Proof.
    intros E.
    assert (P : Permutation (fun_items m ++ items cx s) (items_in cx TagNamespace top)).
    { apply (Permutation_count_occ item_eq_dec). intros x.
      destruct (fixup_items cx top (distinct_funs cx top Hdistinct) m s x E) as (_ & _ & _ & C).
      rewrite <- (cnt_app x) in C. exact C. }
    destruct (fixup_items cx top (distinct_funs cx top Hdistinct) m s (IFun 0) E) as (_ & W & F & _).
    apply (Permutation_flat_map (fun i => match i with IVar o _ => [o] | _ => [] end)) in P.
    change (Permutation (var_offsets (fun_items m ++ items cx s)) (var_offsets (items_in cx TagNamespace top))) in P.
    assert (Q : NoDup (var_offsets (items_in cx TagNamespace top))).
    { apply (NoDup_count_occ N.eq_dec). intros o. etransitivity; [apply (variables_once o TagNamespace top I)|].
      apply (NoDup_count_occ N.eq_dec). exact Hdistinct. }
    apply (Permutation_NoDup (Permutation_sym P)) in Q.
    assert (Eq : var_offsets (fun_items m ++ items cx s)
              = map vr_offset (ws_variables s) ++ map vr_offset (map snd (ws_deferred s))).
    { unfold items. rewrite F, W, !var_offsets_app. cbn [map flat_map].
      assert (Z1 : forall k, var_offsets (fun_items k) = []).
      { induction k as [|x k IH]; [reflexivity|]. exact IH. }
      assert (Z2 : forall k, var_offsets (map (fun t => ITyp (t_offset t)) k) = []).
      { induction k as [|x k IH]; [reflexivity|]. exact IH. }
      assert (Z3 : forall k, var_offsets (map (fun p => IVar (vr_offset (snd p)) (Some (fst p))) k)
                             = map vr_offset (map (@snd N dw_variable) k)).
      { induction k as [|x k IH]; [reflexivity|]. cbn [map var_offsets flat_map app]. f_equal. exact IH. }
      rewrite Z1, Z2, Z3, var_offsets_map. cbn [var_offsets flat_map app]. now rewrite app_nil_r. }
    rewrite Eq in Q. now rewrite map_app.
  Qed.
End Variables.

(** The map with nothing overwritten. *)
Definition joined (m : list dw_variable) (l : list (N * dw_variable)) : list N := map vr_offset (m ++ map snd l).

Definition met (m : list dw_variable) (p : N * dw_variable) : Prop :=
  exists origin, In origin m /\ vr_offset origin = fst p /\ In (inherit_variable origin (snd p)) m.

Lemma met_incl m m' p : incl m m' -> met m p -> met m' p.
Proof. intros H (origin & A & B & C). exists origin. auto. Qed.

Lemma variable_pass_met l : forall m defer b m' defer' b',
  fold_left resolve_variable l (m, defer, b) = (m', defer', b') ->
  NoDup (joined m (defer ++ l)) ->
  NoDup (joined m' defer') /\ incl m m' /\ forall p, In p l -> In p defer' \/ met m' p.
Proof.
  induction l as [|p l IH]; intros m defer b m' defer' b' E N; cbn [fold_left] in E.
  - injection E as E1 E2 E3; subst. rewrite app_nil_r in N. split; [assumption|]. split; [apply incl_refl|].
    now intros ? [].
  - unfold resolve_variable at 2 in E. destruct (map_get vr_offset (fst p) m) as [origin|] eqn:M.
    + destruct (map_get_some _ _ _ _ M) as (Ho & Eo).
      unfold joined in N. rewrite !map_app in N. cbn [map] in N.
      assert (K : ~ In (vr_offset (inherit_variable origin (snd p))) (map vr_offset m)).
      { cbn [inherit_variable vr_offset]. rewrite app_assoc in N. apply NoDup_remove_2 in N.
        intros H. apply N. apply in_or_app. left. apply in_or_app. now left. }
      assert (P : Permutation (map_insert vr_offset (inherit_variable origin (snd p)) m)
                    (inherit_variable origin (snd p) :: m)) by now apply map_insert_perm.
      assert (N2 : NoDup (joined (map_insert vr_offset (inherit_variable origin (snd p)) m) (defer ++ l))).
      { unfold joined. rewrite !map_app. rewrite P. cbn [map app]. cbn [inherit_variable vr_offset].
        rewrite app_assoc in N. apply (Permutation_NoDup (Permutation_sym (Permutation_middle _ _ _))) in N.
        now rewrite <- app_assoc in N. }
      specialize (IH _ _ _ _ _ _ E N2). destruct IH as (A & B & C).
      assert (Hin : incl m (map_insert vr_offset (inherit_variable origin (snd p)) m)).
      { intros v Hv. apply (Permutation_in v (Permutation_sym P)). now right. }
      split; [assumption|]. split; [eapply incl_tran; eassumption|].
      intros q [<-|Hq]; [|now apply C]. right. apply (met_incl _ _ _ B). exists origin. repeat split; auto.
      apply (Permutation_in _ (Permutation_sym P)). now left.
    + assert (N2 : NoDup (joined m ((defer ++ [p]) ++ l))) by now rewrite <- app_assoc.
      pose proof (variable_pass _ _ _ _ _ _ _ E) as (_ & _ & _ & (D & _) & _).
      specialize (IH _ _ _ _ _ _ E N2). destruct IH as (A & B & C).
      split; [assumption|]. split; [assumption|]. intros q [<-|Hq]; [|now apply C].
      left. apply D. apply in_or_app. right. now left.
Qed.

Lemma resolve_variables_met fuel : forall m l m',
  resolve_variables fuel m l = Some m' -> NoDup (joined m l) ->
  incl m m' /\ forall p, In p l -> met m' p \/ forall v, In v m' -> vr_offset v <> fst p.
Proof.
  induction fuel as [|fuel IH]; intros m l m' E N; [discriminate|]. rewrite resolve_variables_step in E.
  destruct (fold_left resolve_variable l (m, [], false)) as [[m1 defer] b] eqn:F.
  destruct (variable_pass_met _ _ _ _ _ _ _ F N) as (A & B & C).
  destruct defer as [|q defer].
  - inversion E; subst. split; [assumption|]. intros p Hp. left. destruct (C p Hp) as [[]|]; assumption.
  - destruct b.
    + destruct (IH _ _ _ E A) as (D1 & D2). split; [eapply incl_tran; eassumption|].
      intros p Hp. destruct (C p Hp) as [H|H]; [now apply D2|]. left. eapply met_incl; eassumption.
    + apply variable_pass in F. destruct F as (_ & _ & _ & _ & _ & F & _).
      destruct (F eq_refl) as (_ & F1 & F2 & F3). inversion E; subst. split; [assumption|].
      intros p Hp. right. intros v Hv. rewrite Forall_forall in F3. apply (map_get_none _ _ _ v (F3 p Hp) Hv).
Qed.

Lemma attr_variable_location_given l :
  attr_variable_location l = (given_address l, given_size l).
Proof.
  unfold attr_variable_location, given_address, given_size.
  match goal with
  | |- scan ?F l _ = (given ?p1 l _, given ?p2 l _) =>
      enough (H : forall a b, scan F l (a, b) = (given p1 l a, given p2 l b)) by apply H
  end.
  induction l as [|x l IH]; intros a b; [reflexivity|]. rewrite !given_cons. unfold scan in *. cbn [fold_left].
  destruct x; try apply IH. destruct v; try apply IH.
  destruct (variable_location pieces) as [[address size]|]; [|apply IH]. cbn [option_map fst snd].
  destruct (opt64_is_some size); apply IH.
Qed.

Lemma parse_variable_fields ns o l :
  parse_variable ns o l
  = mkVariable o ns (given_name l) (given_linkage_name l) (given_type l) (given_source l)
      (given_address l) (given_size l) (given_declaration l).
Proof.
  unfold parse_variable. now rewrite attr_variable_location_given, attr_name_given, attr_linkage_name_given,
    attr_type_given, attr_source_given, attr_declaration_given.
Qed.

Lemma variables_described cx top s fuel m :
  (forall outer ns d, located (cx_low_pc cx) top outer ns d -> placed cx s outer ns d) ->
  NoDup (map vr_offset (ws_variables s ++ map snd (ws_deferred s))) ->
  resolve_variables fuel (map_insert_all vr_offset (ws_variables s) []) (ws_deferred s) = Some m ->
  forall d v, describes_variable (cx_low_pc cx) top d v -> In v m.
Proof.
  intros Hp N E.
  set (m0 := map_insert_all vr_offset (ws_variables s) []) in *.
  assert (P0 : Permutation m0 (ws_variables s)).
  { unfold m0. rewrite map_insert_all_perm; rewrite app_nil_r; [reflexivity|].
    rewrite map_app in N. clear -N. induction (map vr_offset (ws_variables s)) as [|x l IH]; [constructor|].
    cbn [app] in N. inversion N; subst. constructor; [|auto]. intros H. apply H1. apply in_or_app. now left. }
  assert (O0 : ordered vr_offset m0) by (apply map_insert_all_ordered; constructor).
  assert (N0 : NoDup (joined m0 (ws_deferred s))).
  { unfold joined. rewrite P0. exact N. }
  destruct (resolve_variables_met _ _ _ _ E N0) as (A & B).
  destruct (resolve_variables_keys _ _ _ _ E) as (O & _). specialize (O O0).
  intros d v H.
  assert (G : In v m /\ vr_offset v = die_offset d); [|tauto].
  induction H as [outer ns d attrs Hl -> Hcase|ns d attrs target e g Hl -> Ht Hs He (IH1 & IH2) Ee].
  - split; [|reflexivity]. apply A. apply (Permutation_in _ (Permutation_sym P0)).
    rewrite <- parse_variable_fields. destruct (Hp _ _ _ Hl) as (_ & P1 & P2).
    destruct Hcase as [(H1 & H2 & H3)|(H1 & H2)].
    + specialize (P1 H2 H1). now rewrite attr_variable_specification_given, H3 in P1.
    + now apply P2.
  - split; [|reflexivity]. destruct (Hp _ _ _ Hl) as (_ & P1 & _). specialize (P1 Ht eq_refl).
    rewrite attr_variable_specification_given, Hs in P1. rewrite parse_variable_fields in P1.
    destruct (B _ P1) as [(origin & G1 & G2 & G3)|G].
    + cbn [fst snd] in *. assert (origin = g) by (apply (ordered_unique _ _ _ _ O G1 IH1); congruence). subst origin.
      unfold inherit_variable in G3.
      cbn [vr_offset vr_namespace vr_name vr_linkage_name vr_ty vr_source vr_address vr_size vr_declaration] in G3.
      assert (OE : forall (x y : option string), (if is_none x then y else x) = or_else x y) by now intros [].
      now rewrite !OE in G3.
    + exfalso. apply (G g IH1). cbn [fst]. congruence.
Qed.
