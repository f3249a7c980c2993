(** Proofs about merging. *)
From Coq Require Import List Arith NArith Bool Lia Sorted Permutation.
From Verif Require Import Base BaseProofs DiffModel DiffSpec.
Import ListNotations.

Lemma pairs_left {T U} x (l : list (merge_result T U)) : pairs (MLeft x :: l) = pairs l.
Proof. reflexivity. Qed.
Lemma pairs_right {T U} x (l : list (merge_result T U)) : pairs (MRight x :: l) = pairs l.
Proof. reflexivity. Qed.
Lemma pairs_both {T U} x y (l : list (merge_result T U)) : pairs (MBoth x y :: l) = (x, y) :: pairs l.
Proof. reflexivity. Qed.

Section Merge.
  Context {T U : Type}.
  Variable cmp : T -> U -> comparison.

  (** The merge as a recursive function. *)
  Fixpoint merge (l : list T) : list U -> list (merge_result T U) :=
    fix merge_r (r : list U) : list (merge_result T U) :=
      match l, r with
      | [], [] => []
      | x :: l', [] => MLeft x :: merge l' []
      | [], y :: r' => MRight y :: merge_r r'
      | x :: l', y :: r' =>
          match cmp x y with
          | Eq => MBoth x y :: merge l' r'
          | Lt => MLeft x :: merge l' (y :: r')
          | Gt => MRight y :: merge_r r'
          end
      end.

  Lemma merge_eq l r :
    merge l r =
      match l, r with
      | [], [] => []
      | x :: l', [] => MLeft x :: merge l' []
      | [], y :: r' => MRight y :: merge l r'
      | x :: l', y :: r' =>
          match cmp x y with
          | Eq => MBoth x y :: merge l' r'
          | Lt => MLeft x :: merge l' (y :: r')
          | Gt => MRight y :: merge l r'
          end
      end.
  Proof. destruct l, r; reflexivity. Qed.

  Lemma merge_collect_eq fuel l r :
    length l + length r < fuel -> merge_collect cmp fuel (merge_new l r) = Some (merge l r).
  Proof.
    revert l r. induction fuel as [|fuel IH]; intros l r L; [lia|].
    rewrite merge_eq. cbn [merge_collect].
    destruct l as [|x l], r as [|y r]; cbn in L; unfold merge_new, merge_next; cbn [next iter_left iter_right item_left item_right].
    - reflexivity.
    - specialize (IH [] r). unfold merge_new in IH. cbn in IH. destruct (next r) as (z, r').
      rewrite IH by lia. reflexivity.
    - specialize (IH l []). unfold merge_new in IH. cbn [next] in IH. destruct (next l) as (z, l').
      rewrite IH by (cbn; lia). reflexivity.
    - destruct (cmp x y).
      + specialize (IH l r). unfold merge_new in IH. destruct (next l), (next r).
        rewrite IH by lia. reflexivity.
      + specialize (IH l (y :: r)). unfold merge_new in IH. cbn [next] in IH. destruct (next l).
        rewrite IH by (cbn; lia). reflexivity.
      + specialize (IH (x :: l) r). unfold merge_new in IH. cbn [next] in IH. destruct (next r).
        rewrite IH by (cbn; lia). reflexivity.
  Qed.

  Lemma merge_ind (P : list T -> list U -> Prop) :
    P [] [] -> (forall x l, P l [] -> P (x :: l) []) -> (forall y r, P [] r -> P [] (y :: r)) ->
    (forall x l y r, cmp x y = Eq -> P l r -> P (x :: l) (y :: r)) ->
    (forall x l y r, cmp x y = Lt -> P l (y :: r) -> P (x :: l) (y :: r)) ->
    (forall x l y r, cmp x y = Gt -> P (x :: l) r -> P (x :: l) (y :: r)) ->
    forall l r, P l r.
  Proof.
    intros H1 H2 H3 H4 H5 H6 l. induction l as [|x l IHl]; intros r.
    - induction r; auto.
    - induction r as [|y r IHr]; auto. destruct (cmp x y) eqn:E; auto.
  Qed.

  Lemma merge_lefts l r : lefts (merge l r) = l.
  Proof.
    unfold lefts, rights. revert l r. apply merge_ind; intros; rewrite merge_eq; rewrite ?H;
      cbn [flat_map app]; congruence.
  Qed.
  Lemma merge_rights l r : rights (merge l r) = r.
  Proof.
    unfold lefts, rights. revert l r. apply merge_ind; intros; rewrite merge_eq; rewrite ?H;
      cbn [flat_map app]; congruence.
  Qed.
  Lemma merge_pairs l r x y : In (x, y) (pairs (merge l r)) -> cmp x y = Eq.
  Proof.
    revert l r. apply (merge_ind (fun l r => In (x, y) (pairs (merge l r)) -> cmp x y = Eq));
      intros; match goal with H : In _ _ |- _ => rewrite merge_eq in H end;
      repeat match goal with H : cmp _ _ = _ , H' : In _ _ |- _ => rewrite H in H' end; cbn in *;
      intuition congruence.
  Qed.

  Lemma merge_in_key {K} (kl : T -> K) (kr : U -> K) l r z :
    In z (merge l r) ->
    (exists x, In x l /\ result_key kl kr z = kl x) \/ (exists y, In y r /\ result_key kl kr z = kr y).
  Proof.
    intros I. destruct z as [x|y|x y]; cbn.
    - left. exists x. split; auto. rewrite <- (merge_lefts l r). apply in_flat_map.
      exists (MLeft x). cbn. auto.
    - right. exists y. split; auto. rewrite <- (merge_rights l r). apply in_flat_map.
      exists (MRight y). cbn. auto.
    - left. exists x. split; auto. rewrite <- (merge_lefts l r). apply in_flat_map.
      exists (MBoth x y). cbn. auto.
  Qed.
End Merge.

Section Sorted.
  Context {K T U : Type}.
  Variable kcmp : K -> K -> comparison.
  Hypothesis TP : total_preorder kcmp.
  Variables (kl : T -> K) (kr : U -> K).
  Let cmp := fun x y => kcmp (kl x) (kr y).
  Let le := fun x y => kcmp x y <> Gt.

  Lemma merge_sorted l r :
    StronglySorted (fun x y => le (kl x) (kl y)) l -> StronglySorted (fun x y => le (kr x) (kr y)) r ->
    StronglySorted (fun x y => le (result_key kl kr x) (result_key kl kr y)) (merge cmp l r).
  Proof.
    revert l r.
    apply (merge_ind cmp (fun l r => StronglySorted (fun x y => le (kl x) (kl y)) l ->
      StronglySorted (fun x y => le (kr x) (kr y)) r ->
      StronglySorted (fun x y => le (result_key kl kr x) (result_key kl kr y)) (merge cmp l r))).
    - constructor.
    - intros x l IH S1 S2. rewrite merge_eq. inversion S1; subst. constructor; auto.
      apply Forall_forall. intros z I. apply (merge_in_key cmp kl kr) in I.
      destruct I as [(w & I & ->)|(w & [] & _)]. rewrite Forall_forall in *. cbn. auto.
    - intros y r IH S1 S2. rewrite merge_eq. inversion S2; subst. constructor; auto.
      apply Forall_forall. intros z I. apply (merge_in_key cmp kl kr) in I.
      destruct I as [(w & [] & _)|(w & I & ->)]. rewrite Forall_forall in *. cbn. auto.
    - intros x l y r E IH S1 S2. rewrite merge_eq, E. inversion S1; inversion S2; subst.
      constructor; auto. apply Forall_forall. intros z I. apply (merge_in_key cmp kl kr) in I.
      rewrite !Forall_forall in *. cbn. unfold le in *.
      destruct I as [(w & I & ->)|(w & I & ->)]; auto.
      apply (tp_trans _ TP _ (kr y)); auto. unfold cmp in E. congruence.
    - intros x l y r E IH S1 S2. rewrite merge_eq, E. inversion S1; subst.
      constructor; auto. apply Forall_forall. intros z I. apply (merge_in_key cmp kl kr) in I.
      inversion S2; subst. rewrite !Forall_forall in *. cbn. unfold le in *. unfold cmp in E.
      destruct I as [(w & I & ->)|(w & [<-|I] & ->)]; auto; try congruence.
      apply (tp_trans _ TP _ (kr y)); auto. congruence.
    - intros x l y r E IH S1 S2. rewrite merge_eq, E. inversion S2; subst.
      constructor; auto. apply Forall_forall. intros z I. apply (merge_in_key cmp kl kr) in I.
      inversion S1; subst. rewrite !Forall_forall in *. cbn. unfold le in *. unfold cmp in E.
      assert (kcmp (kr y) (kl x) <> Gt). { rewrite (tp_sym _ TP (kl x)), E. discriminate. }
      destruct I as [(w & [<-|I] & ->)|(w & I & ->)]; auto.
      apply (tp_trans _ TP _ (kl x)); auto.
  Qed.

  Notation cl := (count_key kcmp kl).
  Notation cr := (count_key kcmp kr).

  Lemma count_zero {X} (key : X -> K) k l :
    (forall x, In x l -> kcmp (key x) k <> Eq) -> count_key kcmp key k l = 0.
  Proof.
    unfold count_key. induction l as [|x l IH]; intros H; [reflexivity|]. cbn.
    destruct (kcmp (key x) k) eqn:E.
    - exfalso. apply (H x); cbn; auto.
    - apply IH. intros; apply H; cbn; auto.
    - apply IH. intros; apply H; cbn; auto.
  Qed.

  Lemma merge_count l r k :
    StronglySorted (fun x y => le (kl x) (kl y)) l -> StronglySorted (fun x y => le (kr x) (kr y)) r ->
    length (filter (fun p => match kcmp (kl (fst p)) k with Eq => true | _ => false end)
      (pairs (merge cmp l r))) = Nat.min (cl k l) (cr k r).
  Proof.
    revert l r.
    apply (merge_ind cmp (fun l r => StronglySorted (fun x y => le (kl x) (kl y)) l ->
      StronglySorted (fun x y => le (kr x) (kr y)) r ->
      length (filter (fun p => match kcmp (kl (fst p)) k with Eq => true | _ => false end)
        (pairs (merge cmp l r))) = Nat.min (cl k l) (cr k r))).
    - reflexivity.
    - intros x l IH S1 S2. rewrite merge_eq. inversion S1; subst.
      rewrite pairs_left, IH by auto. change (cr k []) with 0. lia.
    - intros y r IH S1 S2. rewrite merge_eq. inversion S2; subst.
      rewrite pairs_right, IH by auto. change (cl k []) with 0. lia.
    - intros x l y r E IH S1 S2. rewrite merge_eq, E. inversion S1; inversion S2; subst.
      unfold cmp in E. rewrite pairs_both. unfold count_key in *. cbn [filter fst].
      rewrite <- (tp_eq_l kcmp TP _ _ k E).
      destruct (kcmp (kl x) k); cbn [length]; rewrite IH; auto.
    - intros x l y r E IH S1 S2. rewrite merge_eq, E. inversion S1; subst.
      rewrite pairs_left, IH by auto. unfold cmp in E.
      destruct (kcmp (kl x) k) eqn:X; try (unfold count_key; cbn; rewrite X; reflexivity).
      rewrite (count_zero kr k (y :: r)); [lia|].
      intros z I Q.
      assert (L : kcmp (kr y) (kr z) <> Gt).
      { destruct I as [<-|I]; [rewrite (tp_refl _ TP); discriminate|].
        inversion S2; subst. rewrite Forall_forall in *. now apply H4. }
      assert (C : kcmp (kl x) (kr z) = Lt) by (eapply tp_lt_le_trans; eauto).
      assert (C2 : kcmp (kl x) (kr z) = Eq).
      { eapply tp_eq_trans; eauto. now apply tp_eq_sym. }
      congruence.
    - intros x l y r E IH S1 S2. rewrite merge_eq, E. inversion S2; subst.
      rewrite pairs_right, IH by auto. unfold cmp in E.
      destruct (kcmp (kr y) k) eqn:X; try (unfold count_key; cbn; rewrite X; reflexivity).
      rewrite (count_zero kl k (x :: l)); [lia|].
      assert (E' : kcmp (kr y) (kl x) = Lt).
      { rewrite (tp_sym _ TP (kl x)), E. reflexivity. }
      intros z I Q.
      assert (L : kcmp (kl x) (kl z) <> Gt).
      { destruct I as [<-|I]; [rewrite (tp_refl _ TP); discriminate|].
        inversion S1; subst. rewrite Forall_forall in *. now apply H4. }
      assert (C : kcmp (kr y) (kl z) = Lt) by (eapply tp_lt_le_trans; eauto).
      assert (C2 : kcmp (kr y) (kl z) = Eq).
      { eapply tp_eq_trans; eauto. now apply tp_eq_sym. }
      congruence.
  Qed.
End Sorted.
