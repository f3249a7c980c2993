(** Proofs about DieModel.v, second part: the loops that resolve references between functions. *)
From Coq Require Import List Arith NArith ZArith Bool String Lia Permutation Sorted.
From Verif Require Import Base RangeModel NamespaceModel TypeModel LocationModel DieModel DieSpec
  DieProofs.
Import ListNotations.
Local Open Scope N_scope.

Definition fun_items (l : list dw_function) : list item := map (fun f => IFun (fu_offset f)) l.

Lemma cnt_fun_items l o :
  cnt (IFun o) (fun_items l) = count_occ N.eq_dec (map fu_offset l) o.
Proof.
  induction l as [|f l IH]; [reflexivity|].
  unfold cnt, fun_items in *. cbn [map count_occ].
  destruct (item_eq_dec (IFun (fu_offset f)) (IFun o)) as [E|E], (N.eq_dec (fu_offset f) o) as [E2|E2];
    try congruence; now rewrite IH.
Qed.

Lemma fun_items_nodup l : (forall o, cnt (IFun o) (fun_items l) <= 1)%nat -> NoDup (map fu_offset l).
Proof.
  intros H. apply (NoDup_count_occ N.eq_dec). intros o. rewrite <- cnt_fun_items. apply H.
Qed.

Lemma cnt_perm x l m : Permutation l m -> cnt x l = cnt x m.
Proof. intros P. unfold cnt. apply (proj1 (Permutation_count_occ item_eq_dec l m) P). Qed.

Lemma cnt_cons x y l : cnt x (y :: l) = (cnt x [y] + cnt x l)%nat.
Proof. change (y :: l) with ([y] ++ l). apply cnt_app. Qed.

Section Fixup.
  Variable cx : context.

  (** ** The number of passes *)

  Definition weight (l : list pending) : nat :=
    list_sum (map (fun p => S (dies_count (pe_children p))) l).

  Lemma weight_app l m : weight (l ++ m) = (weight l + weight m)%nat.
  Proof. unfold weight. now rewrite map_app, list_sum_app. Qed.

  Lemma parse_child_weight d : forall p ns s,
    (weight (ws_subprograms (parse_child cx p ns d s)) <= weight (ws_subprograms s) + die_count d)%nat.
  Proof.
    induction d as [t o a l IH] using die_ind'. intros p ns s.
    assert (IHl : forall q ns s,
      (weight (ws_subprograms (fold_left (fun s c => parse_child cx q ns c s) l s))
       <= weight (ws_subprograms s) + list_sum (map die_count l))%nat).
    { intros q ns'. induction IH as [|d l Hd Hl IHl]; intros s'; cbn [fold_left map].
      - cbn. lia.
      - etransitivity; [apply IHl|]. change (list_sum (die_count d :: map die_count l))
          with (die_count d + list_sum (map die_count l))%nat. specialize (Hd q ns' s'). lia. }
    clear IH. cbn [die_count].
    assert (T : forall ty s', ws_subprograms (push_type ty s') = ws_subprograms s') by reflexivity.
    assert (V : forall ty s', ws_subprograms (push_variables ty s') = ws_subprograms s') by reflexivity.
    destruct t, p; cbn [parse_child]; rewrite ?T, ?V; try (etransitivity; [apply IHl|]; lia); try lia.
    all: try (destruct (attr_variable_specification a); cbn [push_deferred push_variables ws_subprograms]; lia).
    all: destruct (attr_specification a) as [[o0 ab]|];
      [ cbn [push_subprogram ws_subprograms]; rewrite weight_app; unfold weight at 2, list_sum at 1, dies_count;
        cbn [map pe_children fold_right]; lia
      | cbn [push_function ws_subprograms]; etransitivity; [apply IHl|]; lia ].
  Qed.

  Lemma parse_children_weight l p ns s :
    (weight (ws_subprograms (parse_children cx p ns l s)) <= weight (ws_subprograms s) + dies_count l)%nat.
  Proof.
    unfold parse_children, dies_count. revert s. induction l as [|d l IH]; intros s; cbn [fold_left map].
    - cbn. lia.
    - etransitivity; [apply IH|]. change (list_sum (die_count d :: map die_count l))
        with (die_count d + list_sum (map die_count l))%nat. pose proof (parse_child_weight d p ns s). lia.
  Qed.

  Lemma add_subprogram_weight f l m s :
    (weight (ws_subprograms (snd (add_subprogram cx f l (m, s)))) <= weight (ws_subprograms s) + dies_count l)%nat.
  Proof. cbn [add_subprogram snd set_functions ws_subprograms]. apply parse_children_weight. Qed.

  Lemma weight_cons p l : weight (p :: l) = (S (dies_count (pe_children p)) + weight l)%nat.
  Proof. reflexivity. Qed.

  Lemma resolve_fold_weight waiting : forall m s b m' s' b',
    fold_left (resolve_one cx) waiting (m, s, b) = (m', s', b') ->
    (weight (ws_subprograms s') + Nat.b2n b' <= weight (ws_subprograms s) + weight waiting + Nat.b2n b)%nat.
  Proof.
    induction waiting as [|p l IH]; intros m s b m' s' b' H; cbn [fold_left] in H.
    - inversion H; subst. cbn. lia.
    - unfold resolve_one at 2 in H. rewrite weight_cons.
      destruct (map_get fu_offset (pe_specification p) m) as [origin|].
      + destruct (add_subprogram cx _ (pe_children p) (m, s)) as [m1 s1] eqn:E in H.
        apply IH in H. pose proof (add_subprogram_weight (inherit_function origin (pe_function p)
          (pe_abstract_origin p)) (pe_children p) m s) as W. rewrite E in W. cbn [snd] in W.
        cbn [Nat.b2n] in *. lia.
      + apply IH in H. cbn [push_subprogram ws_subprograms] in H.
        rewrite weight_app, weight_cons in H. cbn [weight map list_sum fold_right] in H. unfold weight in *.
        cbn in H. lia.
  Qed.

  Lemma resolve_fold_stuck waiting : forall m s b m' s',
    fold_left (resolve_one cx) waiting (m, s, b) = (m', s', false) ->
    b = false /\ m' = m /\ s' = set_subprograms (ws_subprograms s ++ waiting) s
    /\ Forall (fun p => map_get fu_offset (pe_specification p) m = None) waiting.
  Proof.
    assert (T : forall l m s m' s', fold_left (resolve_one cx) l (m, s, true) = (m', s', false) -> False).
    { induction l as [|p l IH]; intros m s m' s' H; cbn [fold_left] in H; [discriminate|].
      unfold resolve_one at 2 in H. destruct (map_get fu_offset (pe_specification p) m).
      - destruct (add_subprogram cx _ (pe_children p) (m, s)) in H. now apply IH in H.
      - now apply IH in H. }
    induction waiting as [|p l IH]; intros m s b m' s' H; cbn [fold_left] in H.
    - inversion H; subst. rewrite app_nil_r. now destruct s'.
    - unfold resolve_one at 2 in H. destruct (map_get fu_offset (pe_specification p) m) eqn:G.
      + destruct (add_subprogram cx _ (pe_children p) (m, s)) in H. now apply T in H.
      + apply IH in H. destruct H as (Hb & Hm & Hs & Hf). split; [assumption|]. split; [assumption|].
        split; [|now constructor]. rewrite Hs. unfold push_subprogram, set_subprograms.
        cbn [ws_subprograms ws_types ws_functions ws_variables ws_deferred]. now rewrite <- app_assoc.
  Qed.

  Lemma force_fold_weight l : forall m s,
    (weight (ws_subprograms (snd (fold_left
        (fun st p => add_subprogram cx (pe_function p) (pe_children p) st) l (m, s))))
     + List.length l <= weight (ws_subprograms s) + weight l)%nat.
  Proof.
    induction l as [|p l IH]; intros m s; cbn [fold_left List.length].
    - cbn. lia.
    - destruct (add_subprogram cx (pe_function p) (pe_children p) (m, s)) as [m1 s1] eqn:E.
      specialize (IH m1 s1). pose proof (add_subprogram_weight (pe_function p) (pe_children p) m s) as W.
      rewrite E in W. cbn [snd] in W. rewrite weight_cons. lia.
  Qed.

  Lemma resolve_step fuel m s p l :
    ws_subprograms s = p :: l ->
    resolve cx (S fuel) (m, s)
    = let '(m', s', progress) :=
        fold_left (resolve_one cx) (p :: l) (m, set_subprograms [] s, false) in
      if progress then resolve cx fuel (m', s')
      else resolve cx fuel
             (fold_left (fun st p => add_subprogram cx (pe_function p) (pe_children p) st)
                (ws_subprograms s') (m', set_subprograms [] s')).
  Proof. intros E. cbn [resolve fst snd]. rewrite E. reflexivity. Qed.

  Lemma resolve_total fuel : forall m s,
    (weight (ws_subprograms s) <= fuel)%nat -> exists st, resolve cx fuel (m, s) = Some st.
  Proof.
    induction fuel as [|fuel IH]; intros m s W.
    - cbn [resolve snd]. destruct (ws_subprograms s) as [|p l] eqn:E; [eauto|]. rewrite weight_cons in W. lia.
    - destruct (ws_subprograms s) as [|p l] eqn:E.
      { cbn [resolve snd]. rewrite E. eauto. }
      rewrite (resolve_step _ _ _ _ _ E).
      destruct (fold_left (resolve_one cx) (p :: l) (m, set_subprograms [] s, false))
        as [[m' s'] b] eqn:F.
      pose proof (resolve_fold_weight _ _ _ _ _ _ _ F) as W2.
      cbn [set_subprograms ws_subprograms] in W2. change (weight []) with 0%nat in W2.
      destruct b; cbn [Nat.b2n] in W2.
      + apply IH. lia.
      + apply resolve_fold_stuck in F. destruct F as (_ & -> & -> & _).
        pose proof (force_fold_weight (p :: l) m (set_subprograms [] s)) as W3.
        change (ws_subprograms (set_subprograms [] s)) with (@nil pending) in *.
        change (ws_subprograms (set_subprograms ([] ++ p :: l) (set_subprograms [] s))) with (p :: l).
        change (set_subprograms [] (set_subprograms ([] ++ p :: l) (set_subprograms [] s)))
          with (set_subprograms [] s).
        destruct (fold_left (fun st p => add_subprogram cx (pe_function p) (pe_children p) st) (p :: l)
          (m, set_subprograms [] s)) as [m2 s2].
        apply IH. cbn [snd List.length] in W3. change (weight []) with 0%nat in W3. lia.
  Qed.

  (** ** Every function is kept *)

  Definition all_items (m : list dw_function) (s : walk_state) (rest : list pending) : list item :=
    fun_items m ++ items cx s ++ flat_map (pending_items cx) rest.

  Lemma cnt_items_functions x s :
    cnt x (items cx s) = (cnt x (fun_items (ws_functions s)) + cnt x (items cx (set_functions [] s)))%nat.
  Proof. unfold items. rewrite cnt_app. reflexivity. Qed.

  Definition good (m : list dw_function) (s : walk_state) (rest : list pending) : Prop :=
    ordered fu_offset m /\ ws_functions s = [] /\
    forall o, (cnt (IFun o) (all_items m s rest) <= 1)%nat.

  (** [later m s rest m' s' rest']: how one state follows from another. *)
  Definition later (m : list dw_function) (s : walk_state) (rest : list pending)
      (m' : list dw_function) (s' : walk_state) (rest' : list pending) : Prop :=
    (forall x, cnt x (all_items m' s' rest') = cnt x (all_items m s rest))
    /\ incl m m' /\ incl (ws_types s) (ws_types s') /\ incl (ws_variables s) (ws_variables s')
    /\ incl (ws_deferred s) (ws_deferred s').

  Lemma later_refl m s rest : later m s rest m s rest.
  Proof. repeat split; auto using incl_refl. Qed.

  Lemma later_trans m1 s1 r1 m2 s2 r2 m3 s3 r3 :
    later m1 s1 r1 m2 s2 r2 -> later m2 s2 r2 m3 s3 r3 -> later m1 s1 r1 m3 s3 r3.
  Proof.
    intros (A1 & A2 & A3 & A4 & A5) (B1 & B2 & B3 & B4 & B5).
    repeat split; try (eapply incl_tran; eassumption). intros x. now rewrite B1.
  Qed.

  (** The walk only ever adds. *)
  Definition grows (s s' : walk_state) : Prop :=
    incl (ws_types s) (ws_types s') /\ incl (ws_functions s) (ws_functions s')
    /\ incl (ws_variables s) (ws_variables s') /\ incl (ws_subprograms s) (ws_subprograms s')
    /\ incl (ws_deferred s) (ws_deferred s').

  Lemma grows_refl s : grows s s.
  Proof. repeat split; apply incl_refl. Qed.
  Lemma grows_trans s1 s2 s3 : grows s1 s2 -> grows s2 s3 -> grows s1 s3.
  Proof. intros (? & ? & ? & ? & ?) (? & ? & ? & ? & ?). repeat split; eapply incl_tran; eassumption. Qed.

  Lemma grows_push s :
    (forall t, grows s (push_type t s)) /\ (forall f, grows s (push_function f s))
    /\ (forall l, grows s (push_variables l s)) /\ (forall p, grows s (push_subprogram p s))
    /\ (forall v, grows s (push_deferred v s)).
  Proof.
    repeat split; cbn [push_type push_function push_variables push_subprogram push_deferred
      ws_types ws_functions ws_variables ws_subprograms ws_deferred];
      try apply incl_refl; apply incl_appl, incl_refl.
  Qed.

  Lemma parse_child_grows d : forall p ns s, grows s (parse_child cx p ns d s).
  Proof.
    induction d as [t o a l IH] using die_ind'. intros p ns s.
    assert (IHl : forall q ns s, grows s (fold_left (fun s c => parse_child cx q ns c s) l s)).
    { intros q ns'. induction IH as [|d l Hd Hl IHl]; intros s'; cbn [fold_left]; [apply grows_refl|].
      eapply grows_trans; [apply Hd|apply IHl]. }
    clear IH.
    assert (T : forall s' ty, grows s s' -> grows s (push_type ty s')).
    { intros s' ty G. eapply grows_trans; [exact G|]. apply (grows_push s'). }
    destruct t, p; cbn [parse_child]; try apply T; try apply IHl; try apply grows_refl;
      try apply (grows_push s).
    all: try (destruct (attr_variable_specification a); apply (grows_push s)).
    all: destruct (attr_specification a) as [[o0 ab]|]; [apply (grows_push s)|].
    all: eapply grows_trans; [apply IHl|]; apply grows_push.
  Qed.

  Lemma parse_children_grows l p ns s : grows s (parse_children cx p ns l s).
  Proof.
    unfold parse_children. revert s. induction l as [|d l IH]; intros s; cbn [fold_left]; [apply grows_refl|].
    eapply grows_trans; [apply parse_child_grows|apply IH].
  Qed.

  Lemma all_items_cnt x m s rest :
    cnt x (all_items m s rest)
    = (cnt x (fun_items m) + cnt x (items cx s) + cnt x (flat_map (pending_items cx) rest))%nat.
  Proof. unfold all_items. rewrite !cnt_app. lia. Qed.

  Lemma fun_items_perm l m : Permutation l m -> Permutation (fun_items l) (fun_items m).
  Proof. apply Permutation_map. Qed.

  (** Adding a function, with what is inside its entry. *)
  Lemma add_subprogram_later p f m s rest m' s' :
    good m s (p :: rest) -> fu_offset f = fu_offset (pe_function p) ->
    add_subprogram cx f (pe_children p) (m, s) = (m', s') ->
    good m' s' rest /\ later m s (p :: rest) m' s' rest
    /\ In (with_parameters f (parse_parameter_types (pe_children p) (fu_parameters f))) m'
    /\ incl (ws_functions (parse_children cx InSubprogram (function_namespace f) (pe_children p) s)) m'
    /\ s' = set_functions [] (parse_children cx InSubprogram (function_namespace f) (pe_children p) s).
  Proof.
    intros (Ho & Hf & Hc) Eo E. cbn [add_subprogram] in E. injection E as E1 E2.
    set (s1 := parse_children cx InSubprogram (function_namespace f) (pe_children p) s) in *.
    set (f' := with_parameters f (parse_parameter_types (pe_children p) (fu_parameters f))) in *.
    assert (I1 : forall x, cnt x (items cx s1)
       = (cnt x (items cx s) + cnt x (items_in cx TagSubprogram (pe_children p)))%nat).
    { intros x. unfold s1. change InSubprogram with (parent_of TagSubprogram).
      apply parse_children_items. exact I. }
    assert (P0 : forall x, cnt x (flat_map (pending_items cx) (p :: rest))
       = (cnt x [IFun (fu_offset f)] + cnt x (items_in cx TagSubprogram (pe_children p))
          + cnt x (flat_map (pending_items cx) rest))%nat).
    { intros x. cbn [flat_map]. rewrite cnt_app. unfold pending_items at 1. rewrite cnt_cons, Eo. lia. }
    assert (F1 : forall x, cnt x (fun_items (f' :: m)) = (cnt x [IFun (fu_offset f)] + cnt x (fun_items m))%nat).
    { intros x. unfold fun_items. cbn [map]. rewrite cnt_cons. reflexivity. }
    assert (F2 : forall x, cnt x (fun_items (ws_functions s1 ++ f' :: m))
       = (cnt x (fun_items (ws_functions s1)) + cnt x (fun_items (f' :: m)))%nat).
    { intros x. unfold fun_items. rewrite map_app, cnt_app. reflexivity. }
    assert (P1 : Permutation m' (ws_functions s1 ++ f' :: m)).
    { assert (N1 : NoDup (map fu_offset (ws_functions s1 ++ f' :: m))).
      { apply fun_items_nodup. intros o. specialize (Hc o). rewrite all_items_cnt, P0 in Hc.
        rewrite F2, F1. specialize (I1 (IFun o)). rewrite cnt_items_functions in I1. lia. }
      rewrite <- E1.
      assert (P2 : Permutation (map_insert fu_offset f' m) (f' :: m)).
      { apply map_insert_perm. rewrite map_app in N1. cbn [map] in N1. apply NoDup_remove_2 in N1.
        intros H. apply N1. apply in_or_app. now right. }
      rewrite map_insert_all_perm.
      - now rewrite P2.
      - now rewrite P2. }
    assert (C1 : forall x, cnt x (all_items m' s' rest) = cnt x (all_items m s (p :: rest))).
    { intros x. rewrite !all_items_cnt, P0. rewrite (cnt_perm _ _ _ (fun_items_perm _ _ P1)), F2, F1.
      rewrite <- E2. specialize (I1 x). rewrite cnt_items_functions in I1. lia. }
    assert (G : grows s s1) by apply parse_children_grows.
    destruct G as (G1 & G2 & G3 & G4 & G5).
    repeat apply conj.
    - rewrite <- E1. apply map_insert_all_ordered. now apply map_insert_ordered.
    - rewrite <- E2. reflexivity.
    - intros o. rewrite C1. apply Hc.
    - exact C1.
    - intros g Hg. apply (Permutation_in g (Permutation_sym P1)). apply in_or_app. right. now right.
    - rewrite <- E2. exact G1.
    - rewrite <- E2. exact G3.
    - rewrite <- E2. exact G5.
    - apply (Permutation_in f' (Permutation_sym P1)). apply in_or_app. right. now left.
    - intros g Hg. apply (Permutation_in g (Permutation_sym P1)). apply in_or_app. now left.
    - now rewrite E2.
  Qed.

  Lemma keep_later p m s rest :
    good m s (p :: rest) -> good m (push_subprogram p s) rest
    /\ later m s (p :: rest) m (push_subprogram p s) rest.
  Proof.
    intros (Ho & Hf & Hc).
    assert (C : forall x, cnt x (all_items m (push_subprogram p s) rest) = cnt x (all_items m s (p :: rest))).
    { intros x. rewrite !all_items_cnt, cnt_push_subprogram. cbn [flat_map]. rewrite cnt_app. lia. }
    repeat apply conj; auto; try apply incl_refl. intros o. now rewrite C.
  Qed.

  Lemma swap_later m s : good m s [] ->
    good m (set_subprograms [] s) (ws_subprograms s)
    /\ later m s [] m (set_subprograms [] s) (ws_subprograms s).
  Proof.
    intros (Ho & Hf & Hc).
    assert (C : forall x, cnt x (all_items m (set_subprograms [] s) (ws_subprograms s))
                = cnt x (all_items m s [])).
    { intros x. rewrite !all_items_cnt. unfold items. rewrite !cnt_app. cbn [set_subprograms
        ws_functions ws_types ws_variables ws_deferred ws_subprograms flat_map cnt count_occ]. lia. }
    repeat apply conj; auto; try apply incl_refl. intros o. now rewrite C.
  Qed.

  (** ** Invariants of the loop *)

  Section Invariant.
    Variable P : list dw_function -> walk_state -> list pending -> Prop.
    Definition inv_resolve : Prop := forall p m s rest origin m' s',
      good m s (p :: rest) -> P m s (p :: rest) ->
      map_get fu_offset (pe_specification p) m = Some origin ->
      add_subprogram cx (inherit_function origin (pe_function p) (pe_abstract_origin p))
        (pe_children p) (m, s) = (m', s') -> P m' s' rest.
    Definition inv_keep : Prop := forall p m s rest,
      good m s (p :: rest) -> P m s (p :: rest) -> P m (push_subprogram p s) rest.
    Definition inv_swap : Prop := forall m s,
      good m s [] -> P m s [] -> P m (set_subprograms [] s) (ws_subprograms s).
    Definition inv_force : Prop := forall p m s rest m' s',
      good m s (p :: rest) -> P m s (p :: rest) ->
      add_subprogram cx (pe_function p) (pe_children p) (m, s) = (m', s') -> P m' s' rest.

    Lemma pass_keeps waiting : forall m s b m' s' b',
      inv_resolve -> inv_keep -> good m s waiting -> P m s waiting ->
      fold_left (resolve_one cx) waiting (m, s, b) = (m', s', b') ->
      good m' s' [] /\ later m s waiting m' s' [] /\ P m' s' [].
    Proof.
      induction waiting as [|p l IH]; intros m s b m' s' b' HR HK G HP E; cbn [fold_left] in E.
      - injection E as E1 E2 E3; subst. auto using later_refl.
      - unfold resolve_one at 2 in E. destruct (map_get fu_offset (pe_specification p) m) as [origin|] eqn:M.
        + destruct (add_subprogram cx _ (pe_children p) (m, s)) as [m1 s1] eqn:A in E.
          destruct (add_subprogram_later p (inherit_function origin (pe_function p) (pe_abstract_origin p))
            m s l m1 s1 G eq_refl A) as (G1 & L1 & _).
          destruct (IH m1 s1 true m' s' b' HR HK G1 (HR _ _ _ _ _ _ _ G HP M A) E) as (G2 & L2 & P2).
          eauto using later_trans.
        + destruct (keep_later p m s l G) as (G1 & L1).
          destruct (IH _ _ _ _ _ _ HR HK G1 (HK _ _ _ _ G HP) E) as (G2 & L2 & P2).
          eauto using later_trans.
    Qed.

    Lemma force_keeps waiting : forall m s m' s',
      inv_force -> good m s waiting -> P m s waiting ->
      fold_left (fun st p => add_subprogram cx (pe_function p) (pe_children p) st) waiting (m, s) = (m', s') ->
      good m' s' [] /\ later m s waiting m' s' [] /\ P m' s' [].
    Proof.
      induction waiting as [|p l IH]; intros m s m' s' HF G HP E; cbn [fold_left] in E.
      - injection E as E1 E2; subst. auto using later_refl.
      - destruct (add_subprogram cx (pe_function p) (pe_children p) (m, s)) as [m1 s1] eqn:A in E.
        destruct (add_subprogram_later p _ m s l m1 s1 G eq_refl A) as (G1 & L1 & _).
        destruct (IH m1 s1 m' s' HF G1 (HF _ _ _ _ _ _ G HP A) E) as (G2 & L2 & P2).
        eauto using later_trans.
    Qed.

    Lemma resolve_keeps fuel : forall m s m' s',
      inv_resolve -> inv_keep -> inv_swap -> inv_force -> good m s [] -> P m s [] ->
      resolve cx fuel (m, s) = Some (m', s') ->
      good m' s' [] /\ later m s [] m' s' [] /\ P m' s' [] /\ ws_subprograms s' = [].
    Proof.
      induction fuel as [|fuel IH]; intros m s m' s' HR HK HS HF G HP E.
      - cbn [resolve snd] in E. destruct (ws_subprograms s) eqn:W; [|discriminate].
        injection E as E1 E2; subst. auto using later_refl.
      - destruct (ws_subprograms s) as [|p l] eqn:W.
        { cbn [resolve snd] in E. rewrite W in E. injection E as E1 E2; subst. auto using later_refl. }
        rewrite (resolve_step _ _ _ _ _ W) in E. rewrite <- W in E.
        destruct (swap_later m s G) as (G0 & L0).
        destruct (fold_left (resolve_one cx) (ws_subprograms s) (m, set_subprograms [] s, false))
          as [[m1 s1] b] eqn:F.
        destruct (pass_keeps _ _ _ _ _ _ _ HR HK G0 (HS _ _ G HP) F) as (G1 & L1 & P1).
        destruct b.
        + destruct (IH m1 s1 m' s' HR HK HS HF G1 P1 E) as (G2 & L2 & P2 & W2).
          split; [assumption|]. split; [eauto using later_trans|]. auto.
        + destruct (fold_left (fun st p => add_subprogram cx (pe_function p) (pe_children p) st)
            (ws_subprograms s1) (m1, set_subprograms [] s1)) as [m2 s2] eqn:F2.
          destruct (swap_later m1 s1 G1) as (G1' & L1').
          destruct (force_keeps _ _ _ _ _ HF G1' (HS _ _ G1 P1) F2) as (G2 & L2 & P2).
          destruct (IH m2 s2 m' s' HR HK HS HF G2 P2 E) as (G3 & L3 & P3 & W3).
          split; [assumption|]. split; [eauto 6 using later_trans|]. auto.
    Qed.
  End Invariant.

  Lemma resolve_later fuel m s m' s' :
    good m s [] -> resolve cx fuel (m, s) = Some (m', s') ->
    good m' s' [] /\ later m s [] m' s' [] /\ ws_subprograms s' = [].
  Proof.
    intros G E.
    destruct (resolve_keeps (fun _ _ _ => True) fuel m s m' s') as (A & B & _ & D); auto;
      repeat intro; exact I.
  Qed.

  (** What holds once no waiting function refers to one that is there holds at the end. *)
  Lemma resolve_reaches (P : list dw_function -> walk_state -> list pending -> Prop)
      (R : list dw_function -> walk_state -> Prop) :
    inv_resolve P -> inv_keep P -> inv_swap P ->
    (forall m s rest, good m s rest -> ws_subprograms s = [] ->
       Forall (fun p => map_get fu_offset (pe_specification p) m = None) rest -> P m s rest -> R m s) ->
    (forall m s rest m' s' rest', later m s rest m' s' rest' -> R m s -> R m' s') ->
    forall fuel m s m' s', good m s [] -> P m s [] ->
      resolve cx fuel (m, s) = Some (m', s') -> R m' s'.
  Proof.
    intros HR HK HS Hstuck Hlater. induction fuel as [|fuel IH]; intros m s m' s' G HP E.
    - cbn [resolve snd] in E. destruct (ws_subprograms s) eqn:W; [|discriminate].
      injection E as E1 E2; subst. apply (Hstuck _ _ [] G W (Forall_nil _) HP).
    - destruct (ws_subprograms s) as [|p l] eqn:W.
      { cbn [resolve snd] in E. rewrite W in E. injection E as E1 E2; subst.
        apply (Hstuck _ _ [] G W (Forall_nil _) HP). }
      rewrite (resolve_step _ _ _ _ _ W) in E. rewrite <- W in E.
      destruct (swap_later m s G) as (G0 & L0).
      destruct (fold_left (resolve_one cx) (ws_subprograms s) (m, set_subprograms [] s, false))
        as [[m1 s1] b] eqn:F.
      destruct (pass_keeps _ _ _ _ _ _ _ _ HR HK G0 (HS _ _ G HP) F) as (G1 & L1 & P1).
      destruct b; [now apply (IH m1 s1)|].
      destruct (swap_later m1 s1 G1) as (G1' & L1').
      assert (R1 : R m1 (set_subprograms [] s1)).
      { apply (Hstuck _ _ (ws_subprograms s1) G1'); [reflexivity| |now apply HS].
        apply resolve_fold_stuck in F. destruct F as (_ & -> & -> & F).
        change (ws_subprograms (set_subprograms (ws_subprograms (set_subprograms [] s) ++ ws_subprograms s)
           (set_subprograms [] s))) with (ws_subprograms s). exact F. }
      destruct (fold_left (fun st p => add_subprogram cx (pe_function p) (pe_children p) st)
          (ws_subprograms s1) (m1, set_subprograms [] s1)) as [m2 s2] eqn:F2.
      destruct (force_keeps (fun _ _ _ => True) _ _ _ _ _ ltac:(repeat intro; exact I) G1' I F2)
        as (G2 & L2 & _).
      destruct (resolve_later _ _ _ _ _ G2 E) as (_ & L3 & _).
      eapply Hlater; [exact L3|]. eapply Hlater; [exact L2|]. exact R1.
  Qed.

  (** ** The start of the loop *)

  Variable top : list die.
  Hypothesis distinct : forall o, (cnt (IFun o) (items_in cx TagNamespace top) <= 1)%nat.

  Definition walked : walk_state := parse_children cx InNamespace None top no_items.
  Definition start_map : list dw_function := map_insert_all fu_offset (ws_functions walked) [].
  Definition start_state : walk_state := set_functions [] walked.

  Lemma walked_items x : cnt x (items cx walked) = cnt x (items_in cx TagNamespace top).
  Proof.
    unfold walked. change InNamespace with (parent_of TagNamespace).
    rewrite parse_children_items by exact I. reflexivity.
  Qed.

  Lemma start_perm : Permutation start_map (ws_functions walked).
  Proof.
    unfold start_map. rewrite map_insert_all_perm; rewrite app_nil_r; [reflexivity|].
    apply fun_items_nodup. intros o. specialize (distinct o). rewrite <- walked_items, cnt_items_functions in distinct.
    lia.
  Qed.

  Lemma start_items x : cnt x (all_items start_map start_state []) = cnt x (items_in cx TagNamespace top).
  Proof.
    rewrite all_items_cnt, (cnt_perm _ _ _ (fun_items_perm _ _ start_perm)).
    unfold start_state. rewrite <- walked_items, (cnt_items_functions x walked). cbn [flat_map cnt count_occ]. lia.
  Qed.

  Lemma start_good : good start_map start_state [].
  Proof.
    repeat split.
    - apply map_insert_all_ordered. constructor.
    - intros o. rewrite start_items. apply distinct.
  Qed.

  Lemma start_weight : (weight (ws_subprograms start_state) <= dies_count top)%nat.
  Proof.
    unfold start_state, walked. cbn [set_functions ws_subprograms].
    pose proof (parse_children_weight top InNamespace None no_items) as W. cbn in W. cbn. lia.
  Qed.

  Lemma fixup_subprograms_runs : exists m s,
    resolve cx (S (dies_count top)) (start_map, start_state) = Some (m, s)
    /\ fixup_subprograms cx (S (dies_count top)) walked = Some (set_functions m s).
  Proof.
    destruct (resolve_total (S (dies_count top)) start_map start_state) as [[m s] E].
    - pose proof start_weight. lia.
    - exists m, s. split; [assumption|]. unfold fixup_subprograms. unfold start_map, start_state in E.
      now rewrite E.
  Qed.

  Lemma fixup_items m s x :
    resolve cx (S (dies_count top)) (start_map, start_state) = Some (m, s) ->
    ordered fu_offset m /\ ws_subprograms s = [] /\ ws_functions s = []
    /\ (cnt x (fun_items m) + cnt x (items cx s))%nat = cnt x (items_in cx TagNamespace top).
  Proof.
    intros E. destruct (resolve_later _ _ _ _ _ start_good E) as ((G1 & G2 & G3) & (L1 & _) & W).
    repeat split; auto. rewrite <- start_items, <- L1, all_items_cnt. cbn [flat_map cnt count_occ]. lia.
  Qed.
End Fixup.
