(** Lemmas about [Base.v]. *)
From Coq Require Import List Permutation Sorted Lia Arith NArith ZArith String Ascii Bool.
From Coq Require Import ZifyBool ZifyNat ZifyN.
From Verif Require Import Base.
Import ListNotations.

Lemma wrap64_small x : (x < two64)%N -> wrap64 x = x.
Proof. intros H. unfold wrap64. now apply N.mod_small. Qed.

Lemma CompOpp_Gt c : CompOpp c = Gt <-> c = Lt.
Proof. destruct c; cbn; split; congruence. Qed.

Section TP.
  Context {A : Type}.
  Variable cmp : A -> A -> comparison.
  Hypothesis TP : total_preorder cmp.

  Lemma tp_eq_sym x y : cmp x y = Eq -> cmp y x = Eq.
  Proof. intros H. rewrite (tp_sym _ TP), H. reflexivity. Qed.

  Lemma tp_lt_gt x y : cmp x y = Lt <-> cmp y x = Gt.
  Proof. rewrite (tp_sym _ TP x y). destruct (cmp x y); cbn; split; congruence. Qed.

  Lemma tp_total x y : cmp x y <> Gt \/ cmp y x <> Gt.
  Proof. rewrite (tp_sym _ TP x y). destruct (cmp x y); [left|left|right]; cbn; congruence. Qed.

  Lemma tp_eq_le x y : cmp x y = Eq <-> cmp x y <> Gt /\ cmp y x <> Gt.
  Proof.
    rewrite (tp_sym _ TP x y). destruct (cmp x y); cbn; intuition congruence.
  Qed.

  Lemma tp_eq_trans x y z : cmp x y = Eq -> cmp y z = Eq -> cmp x z = Eq.
  Proof.
    rewrite !tp_eq_le. intros [] []. split; eapply (tp_trans _ TP); eauto.
  Qed.

  Lemma tp_eq_l x y z : cmp x y = Eq -> cmp x z = cmp y z.
  Proof.
    intros E.
    assert (E' := tp_eq_sym _ _ E).
    pose proof (tp_trans _ TP x y z) as T1.
    pose proof (tp_trans _ TP y x z) as T2.
    pose proof (tp_trans _ TP z x y) as T3.
    pose proof (tp_trans _ TP z y x) as T4.
    rewrite (tp_sym _ TP x z) in T3, T4. rewrite (tp_sym _ TP y z) in T3, T4.
    destruct (cmp x z) eqn:Exz, (cmp y z) eqn:Eyz; cbn in *;
      try reflexivity; exfalso; intuition congruence.
  Qed.

  Lemma tp_eq_r x y z : cmp y z = Eq -> cmp x y = cmp x z.
  Proof.
    intros E. rewrite (tp_sym _ TP y x), (tp_sym _ TP z x).
    f_equal. now apply tp_eq_l.
  Qed.

  Lemma tp_lt_le_trans x y z : cmp x y = Lt -> cmp y z <> Gt -> cmp x z = Lt.
  Proof.
    intros H1 H2.
    assert (cmp x z <> Gt) by (eapply (tp_trans _ TP); eauto; congruence).
    destruct (cmp x z) eqn:E; try congruence.
    rewrite (tp_eq_l _ _ y E) in H1. apply tp_lt_gt in H1. congruence.
  Qed.

  Lemma tp_le_lt_trans x y z : cmp x y <> Gt -> cmp y z = Lt -> cmp x z = Lt.
  Proof.
    intros H1 H2.
    assert (cmp x z <> Gt) by (eapply (tp_trans _ TP); eauto; congruence).
    destruct (cmp x z) eqn:E; try congruence.
    exfalso. apply tp_eq_sym in E. rewrite (tp_eq_r y z x E) in H2.
    apply tp_lt_gt in H2. congruence.
  Qed.

  (** ** Sorting *)

  Lemma insert_perm x l : Permutation (insert cmp x l) (x :: l).
  Proof.
    induction l as [|y l IH]; cbn; [reflexivity|].
    destruct (cmp x y); try reflexivity.
    rewrite IH. apply perm_swap.
  Qed.

  Lemma stable_sort_perm l : Permutation (stable_sort cmp l) l.
  Proof.
    induction l as [|x l IH]; cbn; [reflexivity|].
    rewrite insert_perm. now constructor.
  Qed.

  Lemma insert_sorted x l :
    StronglySorted (le_cmp cmp) l -> StronglySorted (le_cmp cmp) (insert cmp x l).
  Proof.
    induction l as [|y l IH]; cbn; intros H.
    - repeat constructor.
    - inversion H as [|? ? H1 H2]; subst.
      destruct (cmp x y) eqn:E.
      + constructor; [assumption|]. constructor; [unfold le_cmp; congruence|].
        eapply Forall_impl; [|exact H2]. intros z Hz. unfold le_cmp in *.
        eapply (tp_trans _ TP); eauto; congruence.
      + constructor; [assumption|]. constructor; [unfold le_cmp; congruence|].
        eapply Forall_impl; [|exact H2]. intros z Hz. unfold le_cmp in *.
        eapply (tp_trans _ TP); eauto; congruence.
      + constructor; [now apply IH|].
        assert (P := insert_perm x l).
        apply (Permutation_Forall (Permutation_sym P)).
        constructor; [|assumption]. unfold le_cmp. apply tp_lt_gt in E. congruence.
  Qed.

  Lemma stable_sort_sorted l : StronglySorted (le_cmp cmp) (stable_sort cmp l).
  Proof.
    induction l as [|x l IH]; cbn; [constructor|]. now apply insert_sorted.
  Qed.

  Lemma stable_sort_id l : StronglySorted (le_cmp cmp) l -> stable_sort cmp l = l.
  Proof.
    induction 1 as [|x l H1 IH H2]; cbn; [reflexivity|]. rewrite IH.
    destruct l as [|y l]; cbn; [reflexivity|].
    inversion H2; subst. unfold le_cmp in *. destruct (cmp x y); congruence.
  Qed.

  (** Elements of one equivalence class keep their relative order. *)
  Lemma insert_filter_eq k x l :
    StronglySorted (le_cmp cmp) l ->
    filter (fun y => match cmp k y with Eq => true | _ => false end) (insert cmp x l) =
    filter (fun y => match cmp k y with Eq => true | _ => false end) (x :: l).
  Proof.
    induction l as [|y l IH]; intros S; [reflexivity|].
    inversion S as [|? ? S1 S2]; subst.
    cbn [insert]. destruct (cmp x y) eqn:E; try reflexivity.
    cbn [filter]. rewrite IH by assumption. cbn [filter].
    destruct (cmp k y) eqn:Ey; destruct (cmp k x) eqn:Ex; try reflexivity.
    assert (cmp x y = Eq); [|congruence].
    apply tp_eq_trans with k; auto using tp_eq_sym.
  Qed.

  Lemma stable_sort_stable k l :
    filter (fun y => match cmp k y with Eq => true | _ => false end) (stable_sort cmp l) =
    filter (fun y => match cmp k y with Eq => true | _ => false end) l.
  Proof.
    induction l as [|x l IH]; [reflexivity|].
    cbn [stable_sort]. rewrite insert_filter_eq by apply stable_sort_sorted.
    cbn [filter]. now rewrite IH.
  Qed.

  (** Any sorted list with the same per-class subsequences is the same list:
      the result of a stable sort does not depend on the algorithm. *)
  Lemma stable_sort_unique l1 l2 :
    StronglySorted (le_cmp cmp) l1 -> StronglySorted (le_cmp cmp) l2 ->
    Permutation l1 l2 ->
    (forall k, filter (fun y => match cmp k y with Eq => true | _ => false end) l1 =
               filter (fun y => match cmp k y with Eq => true | _ => false end) l2) ->
    l1 = l2.
  Proof.
    revert l2. induction l1 as [|x l1 IH]; intros l2 S1 S2 P F.
    - apply Permutation_nil in P. now subst.
    - destruct l2 as [|y l2].
      { symmetry in P. apply Permutation_nil in P. discriminate. }
      inversion S1 as [|? ? S1a S1b]; inversion S2 as [|? ? S2a S2b]; subst.
      assert (Exy : cmp x y = Eq).
      { apply tp_eq_le. split.
        - assert (In y (x :: l1)) as [->|Hin].
          { eapply Permutation_in; [symmetry; exact P|now left]. }
          + rewrite (tp_refl _ TP). congruence.
          + rewrite Forall_forall in S1b. now apply S1b.
        - assert (In x (y :: l2)) as [->|Hin].
          { eapply Permutation_in; [exact P|now left]. }
          + rewrite (tp_refl _ TP). congruence.
          + rewrite Forall_forall in S2b. now apply S2b. }
      assert (x = y).
      { specialize (F x). cbn in F. rewrite (tp_refl _ TP), Exy in F. now inversion F. }
      subst y. f_equal. apply IH; auto.
      + now apply Permutation_cons_inv in P.
      + intros k. specialize (F k). cbn in F.
        destruct (cmp k x); now inversion F.
  Qed.
End TP.

(** ** Standard comparisons are total preorders *)

Lemma N_compare_tp : total_preorder N.compare.
Proof.
  split.
  - apply N.compare_refl.
  - intros x y. now rewrite N.compare_antisym.
  - intros x y z. rewrite !N.compare_le_iff. lia.
Qed.

Lemma Z_compare_tp : total_preorder Z.compare.
Proof.
  split.
  - apply Z.compare_refl.
  - intros x y. now rewrite Z.compare_antisym.
  - intros x y z. rewrite !Z.compare_le_iff. lia.
Qed.

Lemma Nat_compare_tp : total_preorder Nat.compare.
Proof.
  split.
  - apply Nat.compare_refl.
  - intros x y. now rewrite Nat.compare_antisym.
  - intros x y z. rewrite !Nat.compare_le_iff. lia.
Qed.

Lemma cmp_option_tp {A} (cmp : A -> A -> comparison) :
  total_preorder cmp -> total_preorder (cmp_option cmp).
Proof.
  intros TP. split.
  - intros [x|]; cbn; [apply (tp_refl _ TP)|reflexivity].
  - intros [x|] [y|]; cbn; auto. apply (tp_sym _ TP).
  - intros [x|] [y|] [z|]; cbn; try congruence. apply (tp_trans _ TP).
Qed.

(** Comparing by a key. *)
Lemma cmp_on_tp {A B} (f : A -> B) cmp :
  total_preorder cmp -> total_preorder (fun x y => cmp (f x) (f y)).
Proof.
  intros TP. split; intros.
  - apply (tp_refl _ TP).
  - apply (tp_sym _ TP).
  - eapply (tp_trans _ TP); eauto.
Qed.

(** Lexicographic combination. *)
Lemma then_with_tp {A} (c1 c2 : A -> A -> comparison) :
  total_preorder c1 -> total_preorder c2 ->
  total_preorder (fun x y => then_with (c1 x y) (c2 x y)).
Proof.
  intros T1 T2. split.
  - intros x. now rewrite (tp_refl _ T1), (tp_refl _ T2).
  - intros x y. rewrite (tp_sym _ T1 x y), (tp_sym _ T2 x y).
    destruct (c1 x y); reflexivity.
  - intros x y z H1 H2.
    destruct (c1 x y) eqn:E1, (c1 y z) eqn:E2; cbn in *; try congruence.
    + rewrite (tp_eq_l _ T1 _ _ _ E1), E2. cbn. eapply (tp_trans _ T2); eauto.
    + rewrite (tp_eq_l _ T1 _ _ _ E1), E2. cbn. congruence.
    + rewrite <- (tp_eq_r _ T1 _ _ _ E2), E1. cbn. congruence.
    + rewrite (tp_lt_le_trans _ T1 _ _ _ E1); cbn; congruence.
Qed.

Lemma cmp_string_eq x y : cmp_string x y = Eq <-> x = y.
Proof.
  revert y. induction x as [|a x IH]; intros [|b y]; cbn; try (split; congruence).
  destruct (N.compare_spec (N_of_ascii a) (N_of_ascii b)) as [E|E|E]; cbn.
  - rewrite IH. assert (a = b) as ->.
    { rewrite <- (ascii_N_embedding a), E. apply ascii_N_embedding. }
    split; congruence.
  - split; [congruence|]. intros [= -> ->]. lia.
  - split; [congruence|]. intros [= -> ->]. lia.
Qed.

Lemma cmp_string_tp : total_preorder cmp_string.
Proof.
  split.
  - intros x. now apply cmp_string_eq.
  - induction x as [|a x IH]; intros [|b y]; cbn; auto.
    rewrite N.compare_antisym, IH. destruct (N.compare (N_of_ascii a) (N_of_ascii b)); reflexivity.
  - induction x as [|a x IH]; intros [|b y] [|c z]; cbn; try congruence.
    intros H1 H2.
    destruct (N.compare_spec (N_of_ascii a) (N_of_ascii b)) as [E1|E1|E1],
             (N.compare_spec (N_of_ascii b) (N_of_ascii c)) as [E2|E2|E2],
             (N.compare_spec (N_of_ascii a) (N_of_ascii c)) as [E3|E3|E3];
      cbn in *; try congruence; try lia.
    eauto.
Qed.

Lemma cmp_option_eq {A} (cmp : A -> A -> comparison) :
  (forall x y, cmp x y = Eq <-> x = y) ->
  forall x y, cmp_option cmp x y = Eq <-> x = y.
Proof.
  intros H [x|] [y|]; cbn; try (split; congruence).
  rewrite H. split; congruence.
Qed.

Lemma cmp_list_tp {A} (cmp : A -> A -> comparison) :
  total_preorder cmp -> total_preorder (cmp_list cmp).
Proof.
  intros H. split.
  - induction x; cbn; auto. rewrite (tp_refl _ H); auto.
  - induction x; destruct y; cbn; auto.
    rewrite (tp_sym _ H a a0), IHx. destruct (cmp a a0); reflexivity.
  - induction x as [|a x IH]; intros [|b y] [|c z]; cbn; try congruence.
    destruct (cmp a b) eqn:E1; cbn; [| |congruence];
      (destruct (cmp b c) eqn:E2; cbn; [| |congruence]); intros.
    + rewrite (tp_eq_trans _ H a b c E1 E2). cbn. eauto.
    + assert (cmp a c = Lt) as -> by (rewrite (tp_eq_l _ H a b c E1); auto). cbn; congruence.
    + assert (cmp a c = Lt) as -> by (rewrite <- (tp_eq_r _ H a b c E2); auto). cbn; congruence.
    + assert (cmp a c = Lt) as ->; [|cbn; congruence].
      eapply tp_lt_le_trans; eauto. congruence.
Qed.

Lemma cmp_list_eq {A} (cmp : A -> A -> comparison) :
  (forall x y, cmp x y = Eq <-> x = y) ->
  forall l m, cmp_list cmp l m = Eq <-> l = m.
Proof.
  intros H. induction l as [|a l IH]; destruct m as [|b m]; cbn; split; try congruence; auto.
  - destruct (cmp a b) eqn:E; cbn; try congruence. apply H in E. intros F. apply IH in F. congruence.
  - intros [= -> ->]. assert (cmp b b = Eq) as -> by (apply H; auto). apply IH; auto.
Qed.

Lemma cmp_list_app {A} (cmp : A -> A -> comparison) l m l' m' :
  List.length l = List.length m ->
  cmp_list cmp (l ++ l') (m ++ m') = then_with (cmp_list cmp l m) (cmp_list cmp l' m').
Proof.
  revert m. induction l as [|a l IH]; destruct m as [|b m]; cbn; try discriminate; auto.
  intros [= E]. rewrite (IH _ E). destruct (cmp a b); reflexivity.
Qed.
