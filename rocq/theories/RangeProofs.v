(** Proofs about range lists. *)
From Coq Require Import List Permutation Sorted Lia Arith NArith ZArith Bool.
From Coq Require Import ZifyBool ZifyNat ZifyN.
From Verif Require Import Base BaseProofs RangeModel RangeSpec.
Import ListNotations.
Local Open Scope N_scope.
Ltac Zify.zify_post_hook ::= Z.div_mod_to_equations.

Lemma ldiff_15 b : N.ldiff b 15 = b - b mod 16.
Proof.
  change 15 with (N.ones 4). rewrite N.ldiff_ones_r.
  rewrite N.shiftl_mul_pow2, N.shiftr_div_pow2. change (2^4) with 16. lia.
Qed.

Lemma align_padding_spec b : align_padding b = if b mod 16 =? 0 then 15 else 0.
Proof.
  unfold align_padding. rewrite ldiff_15.
  destruct (N.eqb_spec b (b - b mod 16)), (N.eqb_spec (b mod 16) 0); try reflexivity; lia.
Qed.

Lemma two64_eq : two64 = 2 ^ 64. Proof. reflexivity. Qed.

(** Merge test without wrap-around. *)
Definition mergeable (p r : range) : Prop :=
  rbegin p <= rbegin r /\
  (rbegin r <= rend p \/ (rbegin r mod 16 = 0 /\ rbegin r <= rend p + 15)).

Lemma merge_test p r :
  in_bounds p ->
  (rbegin p <=? rbegin r) && (rbegin r <=? add64 (rend p) (align_padding (rbegin r))) = true
  <-> mergeable p r.
Proof.
  unfold in_bounds, mergeable. intros H. rewrite align_padding_spec.
  unfold add64. rewrite wrap64_small.
  2:{ rewrite two64_eq. destruct (_ =? 0); lia. }
  rewrite andb_true_iff, !N.leb_le.
  destruct (N.eqb_spec (rbegin r mod 16) 0); lia.
Qed.

Definition merged (p r : range) : range :=
  mkRange (rbegin p) (if rend p <? rend r then rend r else rend p).

Lemma rend_merged p r : rend (merged p r) = N.max (rend p) (rend r).
Proof. cbn. destruct (N.ltb_spec (rend p) (rend r)); lia. Qed.

(** Characterisation of [push] on a non-empty list split at its last element. *)
Lemma push_last_snoc l p r :
  push_last (l ++ [p]) r =
  l ++ if (rbegin p <=? rbegin r) && (rbegin r <=? add64 (rend p) (align_padding (rbegin r)))
       then [merged p r] else [p; r].
Proof.
  induction l as [|x l IH]; [reflexivity|].
  cbn [app]. rewrite <- IH. cbn [push_last].
  destruct (l ++ [p]) eqn:E; [|reflexivity]. now destruct l.
Qed.

Inductive push_case (r : range) : range_list -> range_list -> Prop :=
| pc_nil : push_case r [] [r]
| pc_merge l p : mergeable p r -> push_case r (l ++ [p]) (l ++ [merged p r])
| pc_app l p : ~ mergeable p r -> push_case r (l ++ [p]) (l ++ [p; r]).

Lemma push_last_case l r : Forall in_bounds l -> push_case r l (push_last l r).
Proof.
  intros B. destruct l as [|x l0] using rev_ind; [constructor|].
  rewrite push_last_snoc.
  apply Forall_app in B as [_ B]. inversion B; subst.
  pose proof (merge_test x r H1) as M.
  destruct (_ && _); constructor; rewrite <- M; congruence.
Qed.

(** ** Coverage *)

Lemma covers_nil a : ~ covers [] a.
Proof. intros (r & [] & _). Qed.

Lemma covers_cons r l a : covers (r :: l) a <-> rbegin r <= a < rend r \/ covers l a.
Proof.
  split.
  - intros (x & [->|H] & ?); [now left|right; exists x; auto].
  - intros [H|(x & ? & ?)]; [exists r; cbn; auto|exists x; cbn; auto].
Qed.

Lemma covers_app l1 l2 a : covers (l1 ++ l2) a <-> covers l1 a \/ covers l2 a.
Proof.
  split.
  - intros (x & H & ?). apply in_app_iff in H as [H|H]; [left|right]; exists x; auto.
  - intros [(x & ? & ?)|(x & ? & ?)]; exists x; rewrite in_app_iff; auto.
Qed.

Lemma covers_perm l1 l2 a : Permutation l1 l2 -> covers l1 a -> covers l2 a.
Proof. intros P (r & H & ?). exists r. split; [|assumption]. eapply Permutation_in; eauto. Qed.

Record coverage_inv (rs : list range) (l : range_list) : Prop := {
  ci_nonempty : Forall nonempty l;
  ci_bounds : Forall in_bounds l;
  ci_end : forall p, In p l -> exists q, In q rs /\ nonempty q /\ rend q = rend p;
  ci_begin : forall p, In p l -> exists q, In q rs /\ nonempty q /\ rbegin q = rbegin p;
  ci_lower : forall a, covers rs a -> covers l a;
  ci_upper : forall a, covers l a -> covers rs a \/ alignment_padding rs a
}.

Lemma coverage_inv_nil : coverage_inv [] [].
Proof. split; try constructor; cbn; try tauto. Qed.

Lemma alignment_padding_incl rs rs' a :
  incl rs rs' -> alignment_padding rs a -> alignment_padding rs' a.
Proof. intros I (p & q & ? & ? & ?). exists p, q. auto. Qed.

Lemma push_inv rs l r :
  in_bounds r -> coverage_inv rs l -> coverage_inv (rs ++ [r]) (push l r).
Proof.
  intros Br [Hn Hb He Hg Hlo Hup].
  assert (I : incl rs (rs ++ [r])) by (intros x; rewrite in_app_iff; auto).
  assert (Ir : In r (rs ++ [r])) by (apply in_app_iff; cbn; auto).
  unfold push. destruct (N.leb_spec (rend r) (rbegin r)) as [E|E].
  - split; auto.
    + intros p Hp. destruct (He p Hp) as (q & ? & ? & ?). exists q; auto.
    + intros p Hp. destruct (Hg p Hp) as (q & ? & ? & ?). exists q; auto.
    + intros a. rewrite covers_app, covers_cons. intros [H|[H|H]]; auto; [lia|].
      now apply covers_nil in H.
    + intros a Ha. rewrite covers_app.
      destruct (Hup a Ha); eauto using alignment_padding_incl.
  - assert (Hr : nonempty r) by exact E.
    destruct (push_last_case l r Hb) as [|l p M|l p M].
    + split.
      * repeat constructor; auto.
      * repeat constructor; auto.
      * intros p [<-|[]]. exists r; auto.
      * intros p [<-|[]]. exists r; auto.
      * intros a. rewrite covers_app. intros [H|H]; auto.
        apply Hlo in H. now apply covers_nil in H.
      * intros a H. left. rewrite covers_app. auto.
    + apply Forall_app in Hn as [Hn1 Hn2]. apply Forall_app in Hb as [Hb1 Hb2].
      inversion Hn2 as [|? ? Hp _]; subst. inversion Hb2 as [|? ? Hpb _]; subst.
      unfold nonempty, in_bounds in *. destruct M as [M1 M2].
      split.
      * apply Forall_app; split; auto. constructor; [|constructor]; cbv beta; unfold nonempty, in_bounds in *.
        rewrite rend_merged. cbn. lia.
      * apply Forall_app; split; auto. constructor; [|constructor]; cbv beta; unfold nonempty, in_bounds in *.
        rewrite rend_merged. lia.
      * intros x Hx. apply in_app_iff in Hx as [Hx|[<-|[]]].
        -- destruct (He x) as (q & ? & ? & ?); [apply in_app_iff; auto|]. exists q; auto.
        -- rewrite rend_merged. destruct (N.le_gt_cases (rend r) (rend p)).
           ++ destruct (He p) as (q & ? & ? & ?); [apply in_app_iff; cbn; auto|].
              exists q; repeat split; auto; lia.
           ++ exists r. repeat split; auto; lia.
      * intros x Hx. apply in_app_iff in Hx as [Hx|[<-|[]]].
        -- destruct (Hg x) as (q & ? & ? & ?); [apply in_app_iff; auto|]. exists q; auto.
        -- destruct (Hg p) as (q & ? & ? & ?); [apply in_app_iff; cbn; auto|]. exists q; auto.
      * intros a. rewrite !covers_app, !covers_cons, rend_merged. cbn [rbegin merged].
        intros [H|[H|H]].
        -- apply Hlo in H. rewrite covers_app, covers_cons in H.
           destruct H as [H|[H|H]]; auto. right; left; lia.
        -- right; left; lia.
        -- auto.
      * intros a. rewrite covers_app, covers_cons, rend_merged. cbn [rbegin merged].
        intros [H|[H|H]].
        -- destruct (Hup a) as [?|?]; [apply covers_app; auto| |].
           ++ left. apply covers_app; auto.
           ++ right. eauto using alignment_padding_incl.
        -- destruct (N.lt_ge_cases a (rend p)) as [L|L].
           ++ destruct (Hup a) as [?|?].
              ** apply covers_app. right. apply covers_cons. left. lia.
              ** left. apply covers_app; auto.
              ** right. eauto using alignment_padding_incl.
           ++ destruct (N.lt_ge_cases a (rbegin r)) as [L'|L'].
              ** right. destruct (He p) as (q & Hq1 & Hq2 & Hq3); [apply in_app_iff; cbn; auto|].
                 exists q, r. unfold nonempty. repeat split; auto; try lia.
              ** left. apply covers_app. right. apply covers_cons. left. lia.
        -- now apply covers_nil in H.
    + split.
      * apply Forall_app in Hn as [Hn1 Hn2]. inversion Hn2; subst.
        apply Forall_app; split; auto.
      * apply Forall_app in Hb as [Hb1 Hb2]. inversion Hb2; subst.
        apply Forall_app; split; auto.
      * intros x Hx. change (l ++ [p; r]) with (l ++ [p] ++ [r]) in Hx.
        rewrite app_assoc in Hx. apply in_app_iff in Hx as [Hx|[<-|[]]].
        -- destruct (He x Hx) as (q & ? & ? & ?). exists q; auto.
        -- exists r; auto.
      * intros x Hx. change (l ++ [p; r]) with (l ++ [p] ++ [r]) in Hx.
        rewrite app_assoc in Hx. apply in_app_iff in Hx as [Hx|[<-|[]]].
        -- destruct (Hg x Hx) as (q & ? & ? & ?). exists q; auto.
        -- exists r; auto.
      * intros a. change (l ++ [p; r]) with (l ++ [p] ++ [r]).
        rewrite app_assoc, !(covers_app _ [r]). intros [H|H]; auto.
      * intros a. change (l ++ [p; r]) with (l ++ [p] ++ [r]).
        rewrite app_assoc, !(covers_app _ [r]). intros [H|H]; auto.
        destruct (Hup a H); auto. right. eauto using alignment_padding_incl.
Qed.

Lemma push_all_inv rs rs0 l :
  Forall in_bounds rs -> coverage_inv rs0 l -> coverage_inv (rs0 ++ rs) (push_all l rs).
Proof.
  intros B. revert rs0 l. induction B as [|r rs Br B IH]; intros rs0 l I.
  - now rewrite app_nil_r.
  - change (r :: rs) with ([r] ++ rs) at 1. rewrite app_assoc.
    cbn [push_all fold_left]. apply IH. now apply push_inv.
Qed.

Lemma coverage_inv_perm rs rs' l :
  Permutation rs rs' -> coverage_inv rs l -> coverage_inv rs' l.
Proof.
  intros P [Hn Hb He Hg Hlo Hup].
  assert (Hin : forall x, In x rs -> In x rs') by (intros; eapply Permutation_in; eauto).
  split; auto.
  - intros p Hp. destruct (He p Hp) as (q & ? & ? & ?). exists q; auto.
  - intros p Hp. destruct (Hg p Hp) as (q & ? & ? & ?). exists q; auto.
  - intros a Ha. apply Hlo. eapply covers_perm; [symmetry|]; eauto.
  - intros a Ha. destruct (Hup a Ha) as [H|H].
    + left. eapply covers_perm; eauto.
    + right. eapply alignment_padding_incl; eauto.
Qed.

Lemma coverage_inv_trans rs l l' :
  coverage_inv rs l -> coverage_inv l l' -> coverage_inv rs l'.
Proof.
  intros [Hn Hb He Hg Hlo Hup] [Hn' Hb' He' Hg' Hlo' Hup'].
  split; auto.
  - intros p Hp. destruct (He' p Hp) as (q & Hq & ? & <-). eauto.
  - intros p Hp. destruct (Hg' p Hp) as (q & Hq & ? & <-). eauto.
  - intros a Ha. destruct (Hup' a Ha) as [H|H]; auto.
    right. destruct H as (p & q & Hp & Hq & Np & Nq & H1 & H2 & H3).
    destruct (He p Hp) as (p' & ? & ? & E1). destruct (Hg q Hq) as (q' & ? & ? & E2).
    exists p', q'. rewrite E1, E2. auto 8.
Qed.

Definition begin_le (a b : range) := N.compare (rbegin a) (rbegin b).

Lemma begin_le_tp : total_preorder begin_le.
Proof. apply (cmp_on_tp rbegin). apply N_compare_tp. Qed.

Lemma rl_sort_inv l : Forall in_bounds l -> coverage_inv l (rl_sort l).
Proof.
  intros B. unfold rl_sort.
  pose proof (stable_sort_perm begin_le l) as P.
  eapply coverage_inv_perm; [exact P|].
  apply (push_all_inv _ [] []).
  - eapply Permutation_Forall; [symmetry; exact P|exact B].
  - apply coverage_inv_nil.
Qed.

Lemma push_sort_inv rs : Forall in_bounds rs -> coverage_inv rs (rl_sort (push_all [] rs)).
Proof.
  intros B.
  assert (I : coverage_inv rs (push_all [] rs)) by (apply (push_all_inv _ [] []); auto using coverage_inv_nil).
  eapply coverage_inv_trans; [exact I|]. apply rl_sort_inv. apply (ci_bounds _ _ I).
Qed.

(** ** Canonical form *)

Lemma StronglySorted_app {A} (R : A -> A -> Prop) l1 l2 :
  StronglySorted R (l1 ++ l2) <->
  StronglySorted R l1 /\ StronglySorted R l2 /\ (forall x y, In x l1 -> In y l2 -> R x y).
Proof.
  induction l1 as [|x l1 IH]; cbn.
  - split; [|tauto]. intros H. repeat split; auto; try constructor. tauto.
  - split.
    + intros H. inversion H as [|? ? H1 H2]; subst. apply IH in H1 as (H1 & H3 & H4).
      apply Forall_app in H2 as [H2 H5]. repeat split; auto.
      * constructor; auto.
      * intros a b [->|Ha] Hb; auto. rewrite Forall_forall in H5. auto.
    + intros (H & H3 & H4). inversion H as [|? ? H1 H2]; subst. constructor.
      * apply IH. auto.
      * apply Forall_app. split; auto. apply Forall_forall. auto.
Qed.

Lemma push_canonical l r :
  Forall in_bounds l -> canonical l -> (forall p, In p l -> rbegin p <= rbegin r) ->
  canonical (push l r).
Proof.
  intros Hb [Hn Hs] Hle. unfold push.
  destruct (N.leb_spec (rend r) (rbegin r)) as [E|E]; [split; auto|].
  destruct (push_last_case l r Hb) as [|l p M|l p M].
  - split; repeat constructor; auto.
  - apply Forall_app in Hn as [Hn1 Hn2]. inversion Hn2 as [|? ? Hp _]; subst.
    apply StronglySorted_app in Hs as (S1 & S2 & S3). split.
    + apply Forall_app; split; auto. constructor; [|constructor]; cbv beta; unfold nonempty, in_bounds in *.
      unfold nonempty in *. rewrite rend_merged. cbn. lia.
    + apply StronglySorted_app. split; [assumption|split; [repeat constructor|]].
      intros x y Hx [<-|[]]. exact (S3 x p Hx (or_introl eq_refl)).
  - apply Forall_app in Hn as [Hn1 Hn2]. inversion Hn2 as [|? ? Hp _]; subst.
    assert (Hpr : rbegin p <= rbegin r) by (apply Hle; apply in_app_iff; cbn; auto).
    assert (Spr : separated p r).
    { unfold mergeable, separated in *. lia. }
    apply StronglySorted_app in Hs as (S1 & S2 & S3). split.
    + apply Forall_app; split; auto.
    + apply StronglySorted_app. split; [assumption|split; [repeat constructor; apply Spr|]].
      intros x y Hx [<-|[<-|[]]].
      * apply (S3 x p Hx). cbn; auto.
      * pose proof (S3 x p Hx (or_introl eq_refl)) as Sx. unfold separated, nonempty in *. lia.
Qed.

Lemma push_all_canonical rs l rs0 :
  Forall in_bounds rs -> coverage_inv rs0 l -> canonical l ->
  StronglySorted (le_cmp begin_le) rs ->
  (forall p r, In p l -> In r rs -> rbegin p <= rbegin r) ->
  canonical (push_all l rs).
Proof.
  intros B. revert l rs0. induction B as [|r rs Br B IH]; intros l rs0 I C S H; [exact C|].
  inversion S as [|? ? S1 S2]; subst.
  pose proof (push_inv rs0 l r Br I) as I'.
  cbn [push_all fold_left]. apply (IH _ (rs0 ++ [r])); auto.
  - apply push_canonical; auto. apply (ci_bounds _ _ I). intros p Hp. apply H; cbn; auto.
  - intros p x Hp Hx.
    assert (rbegin r <= rbegin x).
    { rewrite Forall_forall in S2. specialize (S2 x Hx). unfold le_cmp, begin_le in S2.
      now apply N.compare_le_iff in S2. }
    revert Hp. unfold push. destruct (_ <=? _).
    { intros Hp. apply H; cbn; auto. }
    destruct (push_last_case l r (ci_bounds _ _ I)) as [|l p' M|l p' M]; intros Hp.
    + destruct Hp as [<-|[]]; auto.
    + apply in_app_iff in Hp as [Hp|[<-|[]]].
      * apply H; cbn; auto. apply in_app_iff; auto.
      * cbn. apply H; cbn; auto. apply in_app_iff; cbn; auto.
    + apply in_app_iff in Hp as [Hp|[<-|[<-|[]]]]; auto.
      * apply H; cbn; auto. apply in_app_iff; auto.
      * apply H; cbn; auto. apply in_app_iff; cbn; auto.
Qed.

Lemma canonical_nil : canonical [].
Proof. split; constructor. Qed.

Lemma rl_sort_canonical l : Forall in_bounds l -> canonical (rl_sort l).
Proof.
  intros B. unfold rl_sort.
  pose proof (stable_sort_perm begin_le l) as P.
  apply (push_all_canonical _ [] []); auto using coverage_inv_nil, canonical_nil.
  - eapply Permutation_Forall; [symmetry; exact P|exact B].
  - apply stable_sort_sorted, begin_le_tp.
  - intros ? ? [].
Qed.

Lemma push_sort_canonical rs : Forall in_bounds rs -> canonical (rl_sort (push_all [] rs)).
Proof.
  intros B. apply rl_sort_canonical.
  apply (ci_bounds rs). apply (push_all_inv _ [] []); auto using coverage_inv_nil.
Qed.

(** Lists of separated ranges are determined by what they cover. *)
Lemma separated_unique l1 l2 :
  canonical l1 -> canonical l2 -> (forall a, covers l1 a <-> covers l2 a) -> l1 = l2.
Proof.
  revert l2. induction l1 as [|p l1 IH]; intros l2 [N1 S1] [N2 S2] H.
  - destruct l2 as [|q l2]; [reflexivity|]. exfalso.
    inversion N2; subst. unfold nonempty in *.
    apply (covers_nil (rbegin q)). apply H, covers_cons. left; lia.
  - destruct l2 as [|q l2].
    { exfalso. inversion N1; subst. unfold nonempty in *.
      apply (covers_nil (rbegin p)). apply H, covers_cons. left; lia. }
    inversion N1 as [|? ? Np N1']; inversion N2 as [|? ? Nq N2']; subst.
    inversion S1 as [|? ? S1' F1]; inversion S2 as [|? ? S2' F2]; subst.
    unfold nonempty in *. rewrite Forall_forall in F1, F2.
    assert (A1 : forall a, covers l1 a -> rend p < a).
    { intros a (r & Hr & ?). apply F1 in Hr. unfold separated in Hr. lia. }
    assert (A2 : forall a, covers l2 a -> rend q < a).
    { intros a (r & Hr & ?). apply F2 in Hr. unfold separated in Hr. lia. }
    assert (Hb : rbegin p = rbegin q).
    { destruct (H (rbegin p)) as [Hp _]. destruct (H (rbegin q)) as [_ Hq].
      rewrite !covers_cons in *.
      destruct Hp as [Hp|Hp]; [left; lia| |]; destruct Hq as [Hq|Hq]; try (left; lia);
        try apply A1 in Hq; try apply A2 in Hp; lia. }
    assert (He : rend p = rend q).
    { destruct (N.lt_trichotomy (rend p) (rend q)) as [L|[L|L]]; auto; exfalso.
      - assert (C : covers (p :: l1) (rend p)) by (apply H, covers_cons; left; lia).
        apply covers_cons in C as [C|C]; [lia|]. apply A1 in C. lia.
      - assert (C : covers (q :: l2) (rend q)) by (apply H, covers_cons; left; lia).
        apply covers_cons in C as [C|C]; [lia|]. apply A2 in C. lia. }
    assert (p = q) by (destruct p, q; cbn in *; congruence). subst q.
    f_equal. apply IH; [split; auto|split; auto|].
    intros a. specialize (H a). rewrite !covers_cons in H.
    split; intros C.
    + destruct H as [H _]. destruct H; auto. apply A1 in C. lia.
    + destruct H as [_ H]. destruct H; auto. apply A2 in C. lia.
Qed.

Lemma StronglySorted_trichotomy {A} (R : A -> A -> Prop) l x y :
  StronglySorted R l -> In x l -> In y l -> x = y \/ R x y \/ R y x.
Proof.
  induction 1 as [|z l S IH F]; cbn; [tauto|].
  rewrite Forall_forall in F. intros [->|Hx] [->|Hy]; auto.
Qed.

Lemma canonical_no_padding l a : canonical l -> ~ alignment_padding l a.
Proof.
  intros [N S] (p & q & Hp & Hq & Np & Nq & H1 & H2 & H3).
  unfold nonempty in *.
  destruct (StronglySorted_trichotomy _ _ p q S Hp Hq) as [->|[H|H]];
    unfold separated in *; lia.
Qed.

Lemma rl_sort_id l : Forall in_bounds l -> canonical l -> rl_sort l = l.
Proof.
  intros B C. apply separated_unique; auto using rl_sort_canonical.
  pose proof (rl_sort_inv l B) as I. intros a. split; [|apply (ci_lower _ _ I)].
  intros H. apply (ci_upper _ _ I) in H as [H|H]; auto.
  now apply canonical_no_padding in H.
Qed.

Lemma push_sort_idem rs :
  Forall in_bounds rs ->
  rl_sort (rl_sort (push_all [] rs)) = rl_sort (push_all [] rs).
Proof.
  intros B. apply rl_sort_id; [|now apply push_sort_canonical].
  apply (ci_bounds rs). now apply push_sort_inv.
Qed.

(** ** Order independence *)

Definition unaligned (r : range) : Prop := rbegin r mod 16 <> 0.

Lemma unaligned_exact rs a :
  Forall in_bounds rs -> Forall unaligned rs ->
  covers (rl_sort (push_all [] rs)) a <-> covers rs a.
Proof.
  intros B U. pose proof (push_sort_inv rs B) as I. split; [|apply (ci_lower _ _ I)].
  intros H. apply (ci_upper _ _ I) in H as [H|H]; auto.
  destruct H as (p & q & Hp & Hq & _ & _ & _ & _ & H).
  rewrite Forall_forall in U. now apply U in Hq.
Qed.

Lemma push_order_unaligned rs rs' :
  Forall in_bounds rs -> Forall unaligned rs -> Permutation rs rs' ->
  rl_sort (push_all [] rs) = rl_sort (push_all [] rs').
Proof.
  intros B U P.
  assert (B' : Forall in_bounds rs') by (eapply Permutation_Forall; eauto).
  assert (U' : Forall unaligned rs') by (eapply Permutation_Forall; eauto).
  apply separated_unique; auto using push_sort_canonical.
  intros a. rewrite !unaligned_exact by assumption.
  split; apply covers_perm; auto. now symmetry.
Qed.

Lemma push_order_padding rs rs' a :
  Forall in_bounds rs -> Permutation rs rs' ->
  covers (rl_sort (push_all [] rs)) a ->
  covers (rl_sort (push_all [] rs')) a \/ alignment_padding rs a.
Proof.
  intros B P H.
  assert (B' : Forall in_bounds rs') by (eapply Permutation_Forall; eauto).
  apply (ci_upper _ _ (push_sort_inv rs B)) in H as [H|H]; auto.
  left. apply (ci_lower _ _ (push_sort_inv rs' B')). eapply covers_perm; eauto.
Qed.

(** ** Size *)

Definition addrs_of (r : range) : list N :=
  map (fun i => rbegin r + N.of_nat i) (seq 0 (N.to_nat (rend r - rbegin r))).

Lemma addrs_of_in r a : In a (addrs_of r) <-> rbegin r <= a < rend r.
Proof.
  unfold addrs_of. rewrite in_map_iff. split.
  - intros (i & <- & H). apply in_seq in H. lia.
  - intros H. exists (N.to_nat (a - rbegin r)). rewrite in_seq. lia.
Qed.

Lemma addrs_of_nodup r : NoDup (addrs_of r).
Proof.
  unfold addrs_of. apply FinFun.Injective_map_NoDup; [|apply seq_NoDup].
  intros i j H. lia.
Qed.

Lemma flat_addrs_in l a : In a (flat_map addrs_of l) <-> covers l a.
Proof.
  rewrite in_flat_map. split; intros (r & H & H'); exists r; split; auto;
    now apply addrs_of_in.
Qed.

Lemma NoDup_app_intro {A} (l1 l2 : list A) :
  NoDup l1 -> NoDup l2 -> (forall x, In x l1 -> ~ In x l2) -> NoDup (l1 ++ l2).
Proof.
  induction 1 as [|x l1 H1 H2 IH]; intros N2 D; [assumption|]. cbn. constructor.
  - rewrite in_app_iff. intros [H|H]; [auto|]. apply (D x); cbn; auto.
  - apply IH; auto. intros y Hy. apply D. cbn; auto.
Qed.

Lemma flat_addrs_nodup l :
  StronglySorted (fun p q => rend p <= rbegin q) l -> NoDup (flat_map addrs_of l).
Proof.
  induction 1 as [|r l S IH F]; cbn; [constructor|].
  apply NoDup_app_intro; auto using addrs_of_nodup.
  intros a Ha H. apply flat_addrs_in in H as (q & Hq & ?). apply addrs_of_in in Ha.
  rewrite Forall_forall in F. apply F in Hq. lia.
Qed.

Definition plain_size (l : list range) : N :=
  fold_right (fun r s => (rend r - rbegin r) + s) 0 l.

Lemma flat_addrs_length l : N.of_nat (length (flat_map addrs_of l)) = plain_size l.
Proof.
  induction l as [|r l IH]; cbn [flat_map plain_size fold_right]; [reflexivity|].
  rewrite app_length. unfold plain_size in IH. rewrite <- IH.
  unfold addrs_of. rewrite map_length, seq_length. lia.
Qed.

Lemma plain_size_bound l b e :
  StronglySorted (fun p q => rend p <= rbegin q) l ->
  (forall r, In r l -> b <= rbegin r <= rend r /\ rend r <= e) ->
  b <= e -> plain_size l <= e - b.
Proof.
  intros S. revert b. induction S as [|r l S IH F]; intros b H Hbe; cbn; [lia|].
  rewrite Forall_forall in F.
  assert (plain_size l <= e - rend r).
  { apply IH.
    - intros q Hq. specialize (F q Hq). specialize (H q (or_intror Hq)). lia.
    - specialize (H r (or_introl eq_refl)). lia. }
  unfold plain_size in *. specialize (H r (or_introl eq_refl)). lia.
Qed.

Lemma range_size_plain r :
  rbegin r <= rend r -> rend r < 2^64 -> range_size r = rend r - rbegin r.
Proof.
  intros H B. unfold range_size, sub64, wrap64. rewrite two64_eq.
  rewrite (N.mod_small (rbegin r)) by lia.
  replace (rend r + 2^64 - rbegin r) with ((rend r - rbegin r) + 1 * 2^64) by lia.
  rewrite N.mod_add by lia. apply N.mod_small. lia.
Qed.

Lemma rl_size_plain_aux l acc :
  (forall r, In r l -> rbegin r <= rend r /\ rend r < 2^64) ->
  acc + plain_size l < 2^64 ->
  fold_left (fun size r => add64 size (range_size r)) l acc = acc + plain_size l.
Proof.
  revert acc. induction l as [|r l IH]; intros acc H B; cbn [fold_left plain_size fold_right];
    [lia|].
  cbn [plain_size fold_right] in B. fold (plain_size l) in *.
  destruct (H r (or_introl eq_refl)).
  rewrite range_size_plain by lia.
  unfold add64. rewrite wrap64_small by (rewrite two64_eq; lia).
  rewrite IH; [lia| |lia]. intros q Hq. apply H. cbn; auto.
Qed.

Lemma ascending_size l addrs :
  Forall (fun r => rend r < 2^64) l -> ascending l ->
  NoDup addrs -> (forall a, In a addrs <-> covers l a) ->
  rl_size l = N.of_nat (length addrs).
Proof.
  intros B [N S] ND H.
  rewrite Forall_forall in B, N.
  assert (B' : plain_size l <= (2^64 - 1) - 0).
  { apply plain_size_bound; auto; [|lia]. intros r Hr.
    specialize (B r Hr). specialize (N r Hr). unfold nonempty in N. lia. }
  unfold rl_size. rewrite rl_size_plain_aux.
  - rewrite N.add_0_l, <- flat_addrs_length. f_equal.
    apply Permutation_length. apply NoDup_Permutation; auto using flat_addrs_nodup.
    intros a. rewrite H. apply flat_addrs_in.
  - intros r Hr. specialize (B r Hr). specialize (N r Hr). unfold nonempty in N. lia.
  - lia.
Qed.

Lemma canonical_ascending l : canonical l -> ascending l.
Proof.
  intros [N S]. split; auto. clear N.
  induction S as [|r l S IH F]; constructor; auto.
  eapply Forall_impl; [|exact F]. unfold separated. intros; lia.
Qed.

Lemma push_sort_size rs addrs :
  Forall in_bounds rs -> NoDup addrs ->
  (forall a, In a addrs <-> covers (rl_sort (push_all [] rs)) a) ->
  rl_size (rl_sort (push_all [] rs)) = N.of_nat (length addrs).
Proof.
  intros B. apply ascending_size.
  - eapply Forall_impl; [|apply (ci_bounds rs _ (push_sort_inv rs B))].
    unfold in_bounds. intros; lia.
  - now apply canonical_ascending, push_sort_canonical.
Qed.

(** ** Subtraction *)

(** The pieces pushed by the inner loop. *)
Fixpoint sub_pieces (rng : range) (other : list range) : list range * list range :=
  match other with
  | [] => ([], [rng])
  | r :: other' =>
      if rend r <=? rbegin rng then sub_pieces rng other'
      else if rend rng <=? rbegin r then (other, [rng])
      else
        let head := if rbegin rng <? rbegin r then [mkRange (rbegin rng) (rbegin r)] else [] in
        if rend r <? rend rng
        then let '(o, ps) := sub_pieces (mkRange (rend r) (rend rng)) other' in (o, head ++ ps)
        else (other, head)
  end.

Fixpoint loop_pieces (self other : list range) : list range :=
  match self with
  | [] => []
  | rng :: self' =>
      let '(o, ps) := sub_pieces rng other in ps ++ loop_pieces self' o
  end.

Lemma push_all_app out a b : push_all out (a ++ b) = push_all (push_all out a) b.
Proof. apply fold_left_app. Qed.

Lemma subtract_one_pieces rng other out :
  subtract_one rng other out =
  (fst (sub_pieces rng other), push_all out (snd (sub_pieces rng other))).
Proof.
  revert rng out. induction other as [|r other IH]; intros rng out; cbn; [reflexivity|].
  destruct (rend r <=? rbegin rng); [apply IH|].
  destruct (rend rng <=? rbegin r); [reflexivity|].
  destruct (rend r <? rend rng).
  - rewrite IH. destruct (sub_pieces _ other) as [o ps]. cbn.
    destruct (rbegin rng <? rbegin r); reflexivity.
  - destruct (rbegin rng <? rbegin r); reflexivity.
Qed.

Lemma subtract_loop_pieces self other out :
  subtract_loop self other out = push_all out (loop_pieces self other).
Proof.
  revert other out. induction self as [|rng self IH]; intros other out; [reflexivity|].
  cbn [subtract_loop loop_pieces].
  rewrite subtract_one_pieces. destruct (sub_pieces rng other) as [o ps]; cbn [fst snd].
  now rewrite IH, push_all_app.
Qed.

Definition inside (r : range) (a : N) : Prop := rbegin r <= a < rend r.

Lemma sub_pieces_spec other rng :
  ascending other -> nonempty rng ->
  let '(o', ps) := sub_pieces rng other in
  (forall a, covers ps a <-> inside rng a /\ ~ covers other a) /\
  (exists d, other = d ++ o' /\ forall r, In r d -> rend r <= rend rng) /\
  (forall q, In q ps -> nonempty q /\ rbegin rng <= rbegin q /\ rend q <= rend rng /\
     (rbegin q = rbegin rng \/ exists r, In r other /\ rbegin q = rend r)).
Proof.
  intros [N S]. revert rng N. induction S as [|r other S IH F]; intros rng N Nr.
  - cbn. split; [|split].
    + intros a. rewrite covers_cons. unfold inside.
      pose proof (covers_nil a). tauto.
    + exists []. cbn. split; [reflexivity|tauto].
    + intros q [<-|[]]. repeat split; auto; lia.
  - inversion N as [|? ? N1 N2]; subst. rewrite Forall_forall in F.
    assert (Later : forall a, covers other a -> rend r <= a).
    { intros a (q & Hq & ?). apply F in Hq. lia. }
    unfold nonempty in *. cbn [sub_pieces].
    destruct (N.leb_spec (rend r) (rbegin rng)) as [E1|E1].
    { specialize (IH rng N2 Nr). destruct (sub_pieces rng other) as [o' ps].
      destruct IH as (I1 & (d & I2 & I3) & I4). split; [|split].
      - intros a. rewrite I1, covers_cons. unfold inside. split.
        + intros [? ?]. split; auto. intros [?|?]; [lia|auto].
        + intros [? ?]. split; auto.
      - exists (r :: d). split; [cbn; congruence|]. intros x [<-|Hx]; [lia|auto].
      - intros q Hq. destruct (I4 q Hq) as (? & ? & ? & [?|(x & ? & ?)]);
          repeat split; auto. right. exists x. cbn; auto. }
    destruct (N.leb_spec (rend rng) (rbegin r)) as [E2|E2].
    { split; [|split].
      - intros a. rewrite !covers_cons. pose proof (covers_nil a). unfold inside. split.
        + intros [H0|H0]; [|tauto]. split; auto. intros [?|H1]; [lia|].
          apply Later in H1. lia.
        + intros [? ?]. auto.
      - exists []. split; [reflexivity|cbn; tauto].
      - intros q [<-|[]]. repeat split; auto; lia. }
    set (head := if rbegin rng <? rbegin r then [mkRange (rbegin rng) (rbegin r)] else []).
    assert (Hhead : forall a, covers head a <-> rbegin rng <= a < rbegin r).
    { intros a. unfold head. destruct (N.ltb_spec (rbegin rng) (rbegin r)).
      - rewrite covers_cons. cbn. pose proof (covers_nil a). tauto.
      - split; [intros H0; now apply covers_nil in H0|lia]. }
    assert (Hheadp : forall q, In q head -> q = mkRange (rbegin rng) (rbegin r) /\ rbegin rng < rbegin r).
    { intros q. unfold head. destruct (N.ltb_spec (rbegin rng) (rbegin r)); cbn; [|tauto].
      intros [<-|[]]. auto. }
    destruct (N.ltb_spec (rend r) (rend rng)) as [E3|E3].
    + specialize (IH (mkRange (rend r) (rend rng)) N2). cbn [rbegin rend] in IH.
      specialize (IH E3). destruct (sub_pieces _ other) as [o' ps].
      destruct IH as (I1 & (d & I2 & I3) & I4). split; [|split].
      * intros a. rewrite covers_app, Hhead, I1, covers_cons. unfold inside. cbn [rbegin rend].
        split.
        -- intros [H|[H H']].
           ++ split; [lia|]. intros [?|H1]; [lia|]. apply Later in H1. lia.
           ++ split; [lia|]. intros [?|H1]; [lia|]. auto.
        -- intros [H H']. destruct (N.lt_ge_cases a (rbegin r)); [left; lia|].
           right. split; [|auto].
           destruct (N.lt_ge_cases a (rend r)); [|lia]. exfalso. apply H'. left. lia.
      * exists (r :: d). split; [cbn; congruence|]. intros x [<-|Hx]; [lia|auto].
      * intros q Hq. apply in_app_iff in Hq as [Hq|Hq].
        -- apply Hheadp in Hq as [-> ?]. cbn. repeat split; auto; lia.
        -- destruct (I4 q Hq) as (? & ? & ? & [H|(x & ? & ?)]); repeat split; auto; try lia.
           ++ right. exists r. cbn; auto.
           ++ right. exists x. cbn; auto.
    + split; [|split].
      * intros a. rewrite Hhead, covers_cons. unfold inside. split.
        -- intros H. split; [lia|]. intros [?|H1]; [lia|]. apply Later in H1. lia.
        -- intros [H H']. destruct (N.lt_ge_cases a (rbegin r)); [lia|].
           exfalso. apply H'. left. lia.
      * exists []. split; [reflexivity|cbn; tauto].
      * intros q Hq. apply Hheadp in Hq as [-> ?]. cbn. repeat split; auto; lia.
Qed.

Lemma ascending_suffix d l : ascending (d ++ l) -> ascending l.
Proof.
  intros [N S]. apply Forall_app in N as [_ N]. apply StronglySorted_app in S as (_ & S & _).
  split; auto.
Qed.

Lemma loop_pieces_spec self other :
  ascending self -> ascending other ->
  (forall a, covers (loop_pieces self other) a <-> kept self other a) /\
  (forall q, In q (loop_pieces self other) ->
     nonempty q /\
     (exists s, In s self /\ rbegin s <= rbegin q /\ rend q <= rend s /\
        (rbegin q = rbegin s \/ exists r, In r other /\ rbegin q = rend r))).
Proof.
  intros [N S]. revert other N. induction S as [|rng self S IH F]; intros other N Ao.
  - cbn. split; [|tauto]. intros a. unfold kept. pose proof (covers_nil a). tauto.
  - inversion N as [|? ? N1 N2]; subst. rewrite Forall_forall in F.
    cbn [loop_pieces]. pose proof (sub_pieces_spec other rng Ao N1) as H.
    destruct (sub_pieces rng other) as [o' ps]. destruct H as (I1 & (d & -> & I3) & I4).
    pose proof (ascending_suffix _ _ Ao) as Ao'.
    destruct (IH o' N2 Ao') as (J1 & J2). split.
    + intros a. rewrite covers_app, I1, J1. unfold kept. rewrite covers_cons, covers_app.
      unfold inside. split.
      * intros [[H1 H2]|[H1 H2]]; split; auto. intros [H3|H3]; auto.
        destruct H1 as (s & Hs & ?). destruct H3 as (r & Hr & ?).
        apply F in Hs. apply I3 in Hr. lia.
      * intros [[H1|H1] H2]; [left|right]; split; tauto.
    + intros q Hq. apply in_app_iff in Hq as [Hq|Hq].
      * destruct (I4 q Hq) as (? & ? & ? & ?). split; auto. exists rng. cbn; auto.
      * destruct (J2 q Hq) as (? & s & ? & ? & ? & H3). split; auto. exists s. cbn.
        repeat split; auto. destruct H3 as [H3|(r & ? & ?)]; auto.
        right. exists r. rewrite in_app_iff. auto.
Qed.

Lemma pieces_in_bounds self other :
  ascending self -> ascending other -> Forall in_bounds self ->
  Forall in_bounds (loop_pieces self other).
Proof.
  intros As Ao B. apply Forall_forall. intros q Hq.
  apply (loop_pieces_spec self other As Ao) in Hq as (_ & s & Hs & _ & ? & _).
  rewrite Forall_forall in B. apply B in Hs. unfold in_bounds in *. lia.
Qed.

Lemma pieces_padding self other a :
  ascending self -> ascending other ->
  alignment_padding (loop_pieces self other) a -> kept_padding self other a.
Proof.
  intros As Ao (p & q & Hp & Hq & Np & Nq & H1 & H2 & H3).
  destruct (loop_pieces_spec self other As Ao) as [C _].
  unfold nonempty in *. exists (rend p), (rbegin q).
  rewrite <- !C. repeat split; auto; try lia.
  - exists p. split; auto. lia.
  - exists q. split; auto. lia.
Qed.

Lemma subtract_inv self other :
  ascending self -> ascending other -> Forall in_bounds self ->
  coverage_inv (loop_pieces self other) (subtract self other).
Proof.
  intros As Ao B. unfold subtract. rewrite subtract_loop_pieces.
  apply push_sort_inv. now apply pieces_in_bounds.
Qed.

Lemma subtract_lower self other a :
  ascending self -> ascending other -> Forall in_bounds self ->
  kept self other a -> covers (subtract self other) a.
Proof.
  intros As Ao B K. apply (ci_lower _ _ (subtract_inv self other As Ao B)).
  now apply (loop_pieces_spec self other As Ao).
Qed.

Lemma subtract_upper self other a :
  ascending self -> ascending other -> Forall in_bounds self ->
  covers (subtract self other) a -> kept self other a \/ kept_padding self other a.
Proof.
  intros As Ao B C. apply (ci_upper _ _ (subtract_inv self other As Ao B)) in C as [C|C].
  - left. now apply (loop_pieces_spec self other As Ao).
  - right. now apply pieces_padding.
Qed.

Lemma subtract_canonical self other :
  ascending self -> ascending other -> Forall in_bounds self ->
  canonical (subtract self other).
Proof.
  intros As Ao B. unfold subtract. rewrite subtract_loop_pieces.
  apply push_sort_canonical. now apply pieces_in_bounds.
Qed.

Lemma subtract_exact self other a :
  canonical self -> ascending other -> Forall in_bounds self ->
  (forall r, In r other -> rend r mod 16 = 0 -> rbegin r + 16 <= rend r) ->
  covers (subtract self other) a <-> kept self other a.
Proof.
  intros Cs Ao B A. pose proof (canonical_ascending _ Cs) as As.
  split; [|now apply subtract_lower].
  intros C. apply (ci_upper _ _ (subtract_inv self other As Ao B)) in C as [C|C].
  { now apply (loop_pieces_spec self other As Ao). }
  exfalso. destruct (loop_pieces_spec self other As Ao) as [K P].
  destruct C as (p & q & Hp & Hq & Np & Nq & H1 & H2 & H3). unfold nonempty in *.
  assert (Kp : kept self other (rend p - 1)) by (apply K; exists p; split; auto; lia).
  destruct (P q Hq) as (_ & s & Hs & Hs1 & Hs2 & [E|(r & Hr & E)]).
  - destruct (P p Hp) as (_ & s' & Hs' & Hs1' & Hs2' & _).
    destruct Cs as [_ Ss].
    destruct (StronglySorted_trichotomy _ _ s s' Ss Hs Hs') as [->|[H|H]];
      unfold separated in *; lia.
  - assert (rend p - 1 < rbegin r).
    { destruct Kp as [_ Kp]. destruct (N.lt_ge_cases (rend p - 1) (rbegin r)); auto.
      exfalso. apply Kp. exists r. split; auto. lia. }
    specialize (A r Hr). lia.
Qed.

Lemma subtract_empty self other :
  ascending self -> ascending other -> Forall in_bounds self ->
  (forall a, covers self a -> covers other a) -> subtract self other = [].
Proof.
  intros As Ao B H.
  destruct (subtract self other) as [|r l] eqn:E; [reflexivity|exfalso].
  pose proof (subtract_canonical self other As Ao B) as [N _]. rewrite E in N.
  inversion N; subst. unfold nonempty in *.
  destruct (subtract_upper self other (rbegin r) As Ao B) as [[K1 K2]|K].
  - rewrite E. apply covers_cons. left. lia.
  - auto.
  - destruct K as (e & b & _ & [K1 K2] & _). auto.
Qed.
