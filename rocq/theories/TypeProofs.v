From Coq Require Import List Arith NArith ZArith Bool String Lia.
From Coq Require Import ZifyBool ZifyNat ZifyN.
From Verif Require Import Base BaseProofs NamespaceModel NamespaceSpec NamespaceProofs
  TypeModel TypeSpec.
Import ListNotations.
Local Open Scope N_scope.

(** ** A uniform comparison on unfolded types *)

Definition node := (type_env * type)%type.

Definition child (h : type_env) (off : type_offset) : option node :=
  option_map (fun u => (h, u)) (from_offset h off).

Definition node_disc (x : node) : N := kind_discriminant (t_kind (snd x)).

Definition node_item (x : node) : list (option string) * option string :=
  match t_kind (snd x) with
  | TBase y => ([], b_name y)
  | TDef y => (ns_path_opt (d_namespace y), d_name y)
  | TStruct y => (ns_path_opt (s_namespace y), s_name y)
  | TUnion y => (ns_path_opt (u_namespace y), u_name y)
  | TEnum y => (ns_path_opt (e_namespace y), e_name y)
  | TUnspecified y => (ns_path_opt (us_namespace y), us_name y)
  | _ => ([], None)
  end.

Definition node_refs1 (x : node) : list (option node) :=
  match t_kind (snd x) with
  | TArray y => [child (fst x) (a_ty y)]
  | TFunction y => map (child (fst x)) (f_parameters y)
  | TPtrToMember y => [child (fst x) (pm_containing y)]
  | TModifier y => [child (fst x) (mo_ty y)]
  | TSubrange y => [child (fst x) (sr_ty y)]
  | _ => []
  end.

Definition node_refs2 (x : node) : list (option node) :=
  match t_kind (snd x) with
  | TFunction y => [child (fst x) (f_return y)]
  | TPtrToMember y => [child (fst x) (pm_ty y)]
  | _ => []
  end.

Definition node_pay (x : node) : list (option N) :=
  match t_kind (snd x) with
  | TArray y => [Some (a_count y)]
  | TModifier y => [Some (modifier_discriminant (mo_kind y))]
  | TSubrange y => [sr_lower y; sr_upper y]
  | _ => []
  end.

(** Unresolved references come last. *)
Definition cmp_last {A} (cmp : A -> A -> comparison) (x y : option A) : comparison :=
  match x, y with
  | Some a, Some b => cmp a b
  | Some _, None => Lt
  | None, Some _ => Gt
  | None, None => Eq
  end.

Lemma cmp_last_tp {A} (cmp : A -> A -> comparison) :
  total_preorder cmp -> total_preorder (cmp_last cmp).
Proof.
  intros H. split.
  - intros [x|]; cbn; auto. apply (tp_refl _ H).
  - intros [x|] [y|]; cbn; auto. apply (tp_sym _ H).
  - intros [x|] [y|] [z|]; cbn; try congruence. apply (tp_trans _ H).
Qed.

Fixpoint cmp_n (n : nat) (x y : node) : comparison :=
  match n with
  | O => Eq
  | S n' =>
      then_with (N.compare (node_disc x) (node_disc y))
        (then_with (cmp_item (node_item x) (node_item y))
           (then_with (cmp_list (cmp_last (cmp_n n')) (node_refs1 x) (node_refs1 y))
              (then_with (cmp_list (cmp_last (cmp_n n')) (node_refs2 x) (node_refs2 y))
                 (cmp_list (cmp_option N.compare) (node_pay x) (node_pay y)))))
  end.

Lemma cmp_n_tp n : total_preorder (cmp_n n).
Proof.
  induction n; cbn.
  - split; cbn; congruence.
  - apply then_with_tp; [apply (cmp_on_tp node_disc), N_compare_tp|].
    apply then_with_tp; [apply (cmp_on_tp node_item), cmp_item_tp|].
    apply then_with_tp; [apply (cmp_on_tp node_refs1), cmp_list_tp, cmp_last_tp, IHn|].
    apply then_with_tp; [apply (cmp_on_tp node_refs2), cmp_list_tp, cmp_last_tp, IHn|].
    apply (cmp_on_tp node_pay), cmp_list_tp, cmp_option_tp, N_compare_tp.
Qed.

(** ** Depth *)

Fixpoint bounded (n : nat) (h : type_env) (t : type) : Prop :=
  match n with
  | O => False
  | S n' => forall off u, identity_ref t off -> from_offset h off = Some u -> bounded n' h u
  end.

Lemma bounded_mono n : forall m h t, (n <= m)%nat -> bounded n h t -> bounded m h t.
Proof.
  induction n; intros [|m] h t L; cbn; try lia; try tauto.
  intros H off u R E. apply (IHn m h u); [lia|]. eauto.
Qed.

Lemma bounded_refs h (refs : list type_offset) :
  (forall off u, In off refs -> from_offset h off = Some u -> exists n, bounded n h u) ->
  exists n, forall off u, In off refs -> from_offset h off = Some u -> bounded n h u.
Proof.
  induction refs as [|r refs IH]; intros H.
  - exists 0%nat. intros ? ? [].
  - destruct IH as [n1 H1]; [intros; eapply H; eauto; now right|].
    destruct (from_offset h r) as [u|] eqn:E.
    + destruct (H r u (or_introl eq_refl) E) as [n2 H2].
      exists (Nat.max n1 n2). intros off v [->|I] F.
      * rewrite E in F. injection F as <-. eapply bounded_mono; [|eassumption]. lia.
      * eapply bounded_mono; [|eauto]. lia.
    + exists n1. intros off v [->|I] F; [congruence|eauto].
Qed.

Definition refs_list (t : type) : list type_offset :=
  match t_kind t with
  | TArray x => [a_ty x]
  | TFunction x => f_return x :: f_parameters x
  | TPtrToMember x => [pm_containing x; pm_ty x]
  | TModifier x => [mo_ty x]
  | TSubrange x => [sr_ty x]
  | _ => []
  end.

Lemma refs_list_spec t off : identity_ref t off <-> In off (refs_list t).
Proof.
  split.
  - destruct 1; cbn; auto.
  - destruct t as [o []]; cbn; try tauto; intros H;
      repeat (destruct H as [H|H]; [subst; auto using identity_ref|]); try tauto;
      auto using identity_ref.
Qed.

Lemma acyclic_bounded h t : acyclic h t -> exists n, bounded n h t.
Proof.
  induction 1 as [t _ IH]. 
  destruct (bounded_refs h (refs_list t)) as [n H].
  - intros off u I E. eapply IH; eauto. now apply refs_list_spec.
  - exists (S n). cbn. intros off u R E. eapply H; eauto. now apply refs_list_spec.
Qed.

Lemma bounded_acyclic n : forall h t, bounded n h t -> acyclic h t.
Proof.
  induction n; cbn; [tauto|]. intros h t H. constructor. eauto.
Qed.

(** ** The algorithm computes the uniform comparison *)

Lemma cmp_found_last n ha hb p q :
  (forall a b, from_offset ha p = Some a -> from_offset hb q = Some b ->
     cmp_id false n ha a hb b = Ord (cmp_n n (ha, a) (hb, b))) ->
  cmp_found (fun x y => cmp_id false n ha x hb y) (from_offset ha p) (from_offset hb q)
  = Ord (cmp_last (cmp_n n) (child ha p) (child hb q)).
Proof.
  intros H. unfold cmp_found, child.
  destruct (from_offset ha p), (from_offset hb q); cbn; auto.
Qed.

Lemma cmp_params_spec n ha hb ps : forall qs,
  (forall p q a b, In p ps -> In q qs -> from_offset ha p = Some a -> from_offset hb q = Some b ->
     cmp_id false n ha a hb b = Ord (cmp_n n (ha, a) (hb, b))) ->
  cthen (cmp_params (fun x y => cmp_id false n ha x hb y) ha hb ps qs)
    (Ord (Nat.compare (List.length ps) (List.length qs)))
  = Ord (cmp_list (cmp_last (cmp_n n)) (map (child ha) ps) (map (child hb) qs)).
Proof.
  induction ps as [|p ps IH]; intros [|q qs] H; cbn [cmp_params map cmp_list List.length]; auto.
  rewrite cmp_found_last by (intros; eapply H; eauto; now left).
  destruct (cmp_last _ _ _); cbn; auto.
  apply IH. intros; eapply H; eauto; now right.
Qed.

Lemma cthen_ord o k : cthen (Ord o) (Ord k) = Ord (then_with o k).
Proof. destruct o; reflexivity. Qed.

Lemma cthen_assoc a b c : cthen (cthen a b) c = cthen a (cthen b c).
Proof. destruct a as [[]| |]; reflexivity. Qed.

Lemma cmp_item_refl x : cmp_item x x = Eq.
Proof. apply (tp_refl _ cmp_item_tp). Qed.

Lemma cmp_item_name a b : cmp_item ([], a) ([], b) = cmp_name a b.
Proof. reflexivity. Qed.

Lemma cres_of_item n1 a n2 b :
  cres_of (cmp_ns_and_name n1 a n2 b) = Ord (cmp_item (ns_path_opt n1, a) (ns_path_opt n2, b)).
Proof. now rewrite cmp_ns_and_name_spec. Qed.

Lemma then_with_Eq o : then_with o Eq = o.
Proof. destruct o; reflexivity. Qed.

Opaque cmp_item.

Lemma cmp_id_step n ha a hb b :
  (forall p q x y, identity_ref a p -> identity_ref b q ->
     from_offset ha p = Some x -> from_offset hb q = Some y ->
     cmp_id false n ha x hb y = Ord (cmp_n n (ha, x) (hb, y))) ->
  cmp_id false (S n) ha a hb b = Ord (cmp_n (S n) (ha, a) (hb, b)).
Proof.
  intros H.
  assert (F : forall p q, identity_ref a p -> identity_ref b q ->
     cmp_found (fun x y => cmp_id false n ha x hb y) (from_offset ha p) (from_offset hb q)
     = Ord (cmp_last (cmp_n n) (child ha p) (child hb q))).
  { intros p q R1 R2. apply cmp_found_last. eauto. }
  destruct a as [oa ka], b as [ob kb].
  destruct ka as [|xa|xa|xa|xa|xa|xa|xa|xa|xa|xa|xa], kb as [|xb|xb|xb|xb|xb|xb|xb|xb|xb|xb|xb];
    try reflexivity.
  all: cbn [cmp_id t_kind cmp_n];
    unfold node_disc, node_item, node_refs1, node_refs2, node_pay; cbn [snd fst t_kind kind_discriminant].
  - change (N.compare 2 2) with Eq. cbn. rewrite cmp_item_name, then_with_Eq. reflexivity.
  - rewrite cres_of_item. cbn. now rewrite then_with_Eq.
  - rewrite cres_of_item. cbn. now rewrite then_with_Eq.
  - rewrite cres_of_item. cbn. now rewrite then_with_Eq.
  - rewrite cres_of_item. cbn. now rewrite then_with_Eq.
  - rewrite F by constructor. rewrite cthen_ord, cmp_item_refl. cbn.
    rewrite !then_with_Eq. reflexivity.
  - rewrite <- cthen_assoc. rewrite cmp_params_spec.
    2: { intros; eapply H; eauto; constructor; auto. }
    rewrite F by constructor. rewrite cthen_ord, cmp_item_refl. cbn.
    rewrite !then_with_Eq. reflexivity.
  - rewrite cres_of_item. cbn. now rewrite then_with_Eq.
  - rewrite !F by constructor. rewrite cthen_ord, cmp_item_refl. cbn.
    rewrite !then_with_Eq. reflexivity.
  - rewrite F by constructor. rewrite cthen_ord, cmp_item_refl. cbn.
    rewrite !then_with_Eq. reflexivity.
  - rewrite F by constructor. rewrite cthen_ord, cmp_item_refl. cbn.
    rewrite !then_with_Eq. reflexivity.
Qed.

Lemma cmp_id_spec n : forall ha a hb b, bounded n ha a \/ bounded n hb b ->
  cmp_id false n ha a hb b = Ord (cmp_n n (ha, a) (hb, b)).
Proof.
  induction n; intros ha a hb b B; [cbn in B; tauto|].
  apply cmp_id_step. intros p q x y R1 R2 E1 E2. apply IHn. cbn in B.
  destruct B as [B|B]; [left|right]; eauto.
Qed.

Lemma compares_bounded n x y : (bounded n (fst x) (snd x) \/ bounded n (fst y) (snd y)) ->
  compares false x y (cmp_n n x y).
Proof.
  intros B. exists n. intros fuel L.
  assert (E : forall m, (n <= m)%nat -> cmp_n m x y = cmp_n n x y).
  { clear fuel L. intros m L. revert m L. revert x y B.
    induction n as [|k IH]; intros x y B m L; [cbn in B; tauto|].
    destruct m as [|m]; [lia|]. cbn [cmp_n].
    assert (G : forall xs ys,
      (forall u, In (Some u) xs -> forall v, In (Some v) ys ->
         bounded k (fst u) (snd u) \/ bounded k (fst v) (snd v)) ->
      cmp_list (cmp_last (cmp_n m)) xs ys = cmp_list (cmp_last (cmp_n k)) xs ys).
    { induction xs as [|u xs IHxs]; intros [|v ys] Hb; cbn; auto.
      rewrite IHxs by (intros; apply Hb; right; auto).
      f_equal. destruct u as [u|], v as [v|]; cbn; auto.
      apply IH; [|lia]. apply Hb; left; auto. }
    assert (C : forall z r, In (Some r) (node_refs1 z ++ node_refs2 z) ->
              exists off, identity_ref (snd z) off /\ child (fst z) off = Some r).
    { intros [h [o []]] r; cbn; try tauto; intros I.
      all: try solve [destruct I as [I|[]]; eauto using identity_ref].
      - apply in_app_or in I as [I|[I|[]]].
        + apply in_map_iff in I as (p & E & I). eauto using identity_ref.
        + eauto using identity_ref.
      - destruct I as [I|[I|[]]]; eauto using identity_ref. }
    assert (D : forall u v, In (Some u) (node_refs1 x ++ node_refs2 x) ->
       In (Some v) (node_refs1 y ++ node_refs2 y) ->
       bounded k (fst u) (snd u) \/ bounded k (fst v) (snd v)).
    { intros u v Hu Hv. apply C in Hu as (p & R1 & E1). apply C in Hv as (q & R2 & E2).
      unfold child in *. destruct (from_offset (fst x) p) eqn:F1; [|discriminate].
      destruct (from_offset (fst y) q) eqn:F2; [|discriminate].
      injection E1 as <-. injection E2 as <-. cbn.
      destruct B as [B|B]; [left|right]; eapply B; eauto. }
    rewrite !G; auto; intros; apply D; apply in_or_app; auto. }
  rewrite cmp_id_spec.
  - rewrite <- !surjective_pairing. now rewrite E.
  - destruct B; [left|right]; eapply bounded_mono; eauto.
Qed.

Lemma compares_fun debug x y o o' : compares debug x y o -> compares debug x y o' -> o = o'.
Proof.
  intros [n H] [m H']. specialize (H (n + m)%nat). specialize (H' (n + m)%nat).
  rewrite H in H' by lia. specialize (H' ltac:(lia)). congruence.
Qed.

Lemma compares_iff x y o n : bounded n (fst x) (snd x) \/ bounded n (fst y) (snd y) ->
  (compares false x y o <-> o = cmp_n n x y).
Proof.
  intros B. split; [|intros ->; now apply compares_bounded].
  intros H. eapply compares_fun; [apply H|now apply compares_bounded].
Qed.

Lemma compares_total x y : acyclic (fst x) (snd x) \/ acyclic (fst y) (snd y) ->
  exists o, compares false x y o.
Proof.
  intros [H|H]; apply acyclic_bounded in H as [n H]; eexists; apply (compares_bounded n); auto.
Qed.

Lemma compares_refl x : acyclic (fst x) (snd x) -> compares false x x Eq.
Proof.
  intros H. apply acyclic_bounded in H as [n H].
  apply (compares_iff x x Eq n); auto. symmetry. apply (tp_refl _ (cmp_n_tp n)).
Qed.

Lemma compares_sym x y o : acyclic (fst x) (snd x) \/ acyclic (fst y) (snd y) ->
  compares false x y o -> compares false y x (CompOpp o).
Proof.
  intros [H|H]; apply acyclic_bounded in H as [n H]; intros C;
    (apply (compares_iff x y o n) in C; [|tauto]); subst o;
    (apply (compares_iff y x _ n); [tauto|]); symmetry; apply (tp_sym _ (cmp_n_tp n)).
Qed.

Lemma compares_trans x y z o1 o2 o3 :
  acyclic (fst x) (snd x) -> acyclic (fst y) (snd y) ->
  compares false x y o1 -> compares false y z o2 -> compares false x z o3 ->
  o1 <> Gt -> o2 <> Gt -> o3 <> Gt.
Proof.
  intros Hx Hy C1 C2 C3.
  apply acyclic_bounded in Hx as [n Hx]. apply acyclic_bounded in Hy as [m Hy].
  assert (Bx : bounded (n + m) (fst x) (snd x)) by (eapply bounded_mono; [|eauto]; lia).
  assert (By : bounded (n + m) (fst y) (snd y)) by (eapply bounded_mono; [|eauto]; lia).
  apply (compares_iff _ _ _ (n + m)) in C1; auto.
  apply (compares_iff _ _ _ (n + m)) in C2; auto.
  apply (compares_iff _ _ _ (n + m)) in C3; auto.
  subst. apply (tp_trans _ (cmp_n_tp (n + m))).
Qed.

(** ** Equality *)

Lemma same_path_iff n m : same_path n m <-> ns_path_opt n = ns_path_opt m.
Proof.
  unfold same_path. split.
  - intros (p & A & B). apply path_opt_ns_path in A, B. congruence.
  - intros E. exists (ns_path_opt n). rewrite !path_opt_ns_path. auto.
Qed.

Lemma then_with_eq a b : then_with a b = Eq <-> a = Eq /\ b = Eq.
Proof. destruct a; cbn; intuition congruence. Qed.

Lemma modifier_discriminant_inj a b : modifier_discriminant a = modifier_discriminant b -> a = b.
Proof. destruct a, b; cbn; congruence. Qed.

Lemma cmp_last_child n ha hb p q :
  (forall a b, from_offset ha p = Some a -> from_offset hb q = Some b ->
     (cmp_n n (ha, a) (hb, b) = Eq <-> same_id ha hb a b)) ->
  (cmp_last (cmp_n n) (child ha p) (child hb q) = Eq <-> same_ref ha hb p q).
Proof.
  intros H. unfold child.
  destruct (from_offset ha p) as [a|] eqn:A, (from_offset hb q) as [b|] eqn:B; cbn.
  - rewrite H by auto. split; [intros; eapply same_resolved; eauto|].
    inversion 1; congruence.
  - split; [discriminate|]. inversion 1; congruence.
  - split; [discriminate|]. inversion 1; congruence.
  - split; auto. intros. now apply same_unresolved.
Qed.

Lemma cmp_list_children n ha hb ps : forall qs,
  (forall p q, In p ps -> In q qs ->
     (cmp_last (cmp_n n) (child ha p) (child hb q) = Eq <-> same_ref ha hb p q)) ->
  (cmp_list (cmp_last (cmp_n n)) (map (child ha) ps) (map (child hb) qs) = Eq <->
   List.length ps = List.length qs /\
   forall i p q, nth_error ps i = Some p -> nth_error qs i = Some q -> same_ref ha hb p q).
Proof.
  induction ps as [|p ps IH]; intros [|q qs] H; cbn.
  - split; auto. intros _. split; auto. intros [|i]; discriminate.
  - split; [discriminate|intros [? _]; discriminate].
  - split; [discriminate|intros [? _]; discriminate].
  - rewrite then_with_eq, H by (cbn; auto). rewrite IH by (intros; apply H; cbn; auto). split.
    + intros (A & B & C). split; [lia|]. intros [|i] p' q'; cbn.
      * congruence.
      * eauto.
    + intros (A & B). split; [apply (B 0%nat); auto|]. split; [lia|].
      intros i. apply (B (S i)).
Qed.

Lemma cmp_n_eq n : forall ha a hb b, bounded n ha a \/ bounded n hb b ->
  (cmp_n n (ha, a) (hb, b) = Eq <-> same_id ha hb a b).
Proof.
  induction n as [|n IH]; intros ha a hb b B; [cbn in B; tauto|].
  assert (F : forall p q, identity_ref a p -> identity_ref b q ->
    (cmp_last (cmp_n n) (child ha p) (child hb q) = Eq <-> same_ref ha hb p q)).
  { intros p q R1 R2. apply cmp_last_child. intros. apply IH. cbn in B.
    destruct B as [B|B]; [left|right]; eauto. }
  cbn [cmp_n]. rewrite !then_with_eq. clear B IH.
  destruct a as [oa ka], b as [ob kb].
  destruct ka as [|xa|xa|xa|xa|xa|xa|xa|xa|xa|xa|xa], kb as [|xb|xb|xb|xb|xb|xb|xb|xb|xb|xb|xb];
    unfold node_disc, node_item, node_refs1, node_refs2, node_pay;
    cbn [snd fst t_kind kind_discriminant];
    try (split; [intros (E & _); discriminate E|intros S; inversion S; fail]).
  all: rewrite cmp_item_eq.
  1: { split; [constructor|cbn; auto]. }
  1: { split; [intros (_ & [= E] & _); now constructor|].
       inversion 1; subst; cbn; intuition congruence. }
  1-4: split;
    [intros (_ & [= E1 E2] & _); constructor; auto; now apply same_path_iff
    |inversion 1; subst; cbn;
     match goal with S : same_path _ _ |- _ => apply same_path_iff in S end; intuition congruence].
  - cbn [cmp_list]. rewrite !then_with_Eq, F by constructor. cbn [cmp_option].
    rewrite (N.compare_eq_iff (a_count xa)). split.
    + intros (_ & _ & S & _ & E). now constructor.
    + inversion 1; subst. cbn. auto.
  - cbn [cmp_list]. rewrite !then_with_Eq, F by constructor.
    rewrite cmp_list_children by (intros; apply F; constructor; auto). split.
    + intros (_ & _ & [L S] & R & _). constructor; auto.
    + inversion 1; subst. cbn. auto 7.
  - split.
    + intros (_ & [= E1 E2] & _). constructor; auto; now apply same_path_iff.
    + inversion 1; subst; cbn.
      match goal with S : same_path _ _ |- _ => apply same_path_iff in S end; intuition congruence.
  - cbn [cmp_list]. rewrite !then_with_Eq, !F by constructor. split.
    + intros (_ & _ & S & R & _). constructor; auto.
    + inversion 1; subst. cbn. auto.
  - cbn [cmp_list]. rewrite !then_with_Eq, F by constructor. cbn [cmp_option].
    rewrite (N.compare_eq_iff (modifier_discriminant _)). split.
    + intros (_ & _ & S & _ & E). constructor; auto using modifier_discriminant_inj.
    + inversion 1; subst. cbn. repeat split; auto. congruence.
  - cbn [cmp_list]. rewrite !then_with_Eq, F by constructor.
    rewrite then_with_eq, !cmp_option_eq by (intros; apply N.compare_eq_iff). split.
    + intros (_ & _ & S & _ & E1 & E2). now constructor.
    + inversion 1; subst. cbn. auto 7.
Qed.

Lemma compares_eq x y : acyclic (fst x) (snd x) \/ acyclic (fst y) (snd y) ->
  (compares false x y Eq <-> same_id (fst x) (fst y) (snd x) (snd y)).
Proof.
  destruct x as [ha a], y as [hb b]. cbn.
  intros [H|H]; apply acyclic_bounded in H as [n H];
    rewrite (compares_iff _ _ _ n) by (cbn; auto);
    rewrite <- (cmp_n_eq n) by auto; split; congruence.
Qed.

(** ** Debug assertions *)

Lemma cmp_id_debug n : forall ha a hb b,
  cmp_id true n ha a hb b = AssertFail \/ cmp_id true n ha a hb b = cmp_id false n ha a hb b.
Proof.
  induction n as [|n IH]; intros ha a hb b; [cbn; auto|].
  assert (F : forall p q,
    let r d := cmp_found (fun x y => cmp_id d n ha x hb y) (from_offset ha p) (from_offset hb q) in
    r true = AssertFail \/ r true = r false).
  { intros p q r. unfold r, cmp_found. destruct (from_offset ha p), (from_offset hb q); auto. }
  assert (T : forall x x' k k', x = AssertFail \/ x = x' -> k = AssertFail \/ k = k' ->
              cthen x k = AssertFail \/ cthen x k = cthen x' k').
  { intros x x' k k' [->| ->] [->| ->]; cbn; auto; destruct x' as [[]| |]; cbn; auto. }
  assert (P : forall ps qs,
    let r d := cmp_params (fun x y => cmp_id d n ha x hb y) ha hb ps qs in
    r true = AssertFail \/ r true = r false).
  { induction ps as [|p ps IHps]; intros [|q qs]; cbn; auto. }
  destruct a as [oa ka], b as [ob kb]; destruct ka, kb; cbn [cmp_id t_kind andb]; auto.
  all: repeat match goal with |- cthen _ _ = AssertFail \/ _ => apply T end; auto;
    try apply F; try apply P.
Qed.

Lemma compares_debug x y o : compares true x y o -> compares false x y o.
Proof.
  intros [n H]. exists n. intros fuel L. specialize (H fuel L).
  destruct (cmp_id_debug fuel (fst x) (snd x) (fst y) (snd y)); congruence.
Qed.
