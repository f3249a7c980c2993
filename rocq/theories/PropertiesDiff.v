(** Property theorems C11, C12, C13, C14: merging and diffing lists. *)
From Coq Require Import List Arith NArith Bool Lia Sorted Permutation.
From Coq Require Import ZifyBool ZifyNat ZifyN.
From Verif Require Import Base BaseProofs DiffModel DiffSpec MergeProofs PathProofs.
Import ListNotations.

(** C11: merging keeps every item of both lists, once and in order, and pairs only
    items that compare equal; for any comparison function and any lists. *)
Theorem C11_merge_conserves :
  forall T U (cmp : T -> U -> comparison) l r fuel,
    length l + length r < fuel ->
    exists out, merge_collect cmp fuel (merge_new l r) = Some out /\
      lefts out = l /\ rights out = r /\ (forall x y, In (x, y) (pairs out) -> cmp x y = Eq).
Proof.
  intros T U cmp l r fuel L. exists (merge cmp l r).
  split; [now apply merge_collect_eq|]. split; [apply merge_lefts|]. split; [apply merge_rights|].
  intros x y. apply merge_pairs.
Qed.
Print Assumptions C11_merge_conserves.

(** When both lists are sorted by a key, every key is paired as often as possible
    and the result is sorted by the key. *)
Theorem C11_merge_complete :
  forall K T U (kcmp : K -> K -> comparison) (kl : T -> K) (kr : U -> K) l r fuel,
    total_preorder kcmp ->
    StronglySorted (fun x y => kcmp (kl x) (kl y) <> Gt) l ->
    StronglySorted (fun x y => kcmp (kr x) (kr y) <> Gt) r ->
    length l + length r < fuel ->
    exists out, merge_collect (fun x y => kcmp (kl x) (kr y)) fuel (merge_new l r) = Some out /\
      (forall k, count_key kcmp (fun p => kl (fst p)) k (pairs out) =
         Nat.min (count_key kcmp kl k l) (count_key kcmp kr k r)) /\
      StronglySorted (fun x y => kcmp (result_key kl kr x) (result_key kl kr y) <> Gt) out.
Proof.
  intros K T U kcmp kl kr l r fuel TP S1 S2 L. exists (merge (fun x y => kcmp (kl x) (kr y)) l r).
  split; [now apply merge_collect_eq|]. split.
  - intros k. now apply merge_count.
  - now apply merge_sorted.
Qed.
Print Assumptions C11_merge_complete.

Example C11_example :
  let kcmp := Nat.compare in
  StronglySorted (fun x y : nat * nat => kcmp (fst x) (fst y) <> Gt) [(1, 10); (2, 11); (2, 12); (5, 13)] /\
  merge_collect (fun x y : nat * nat => kcmp (fst x) (fst y)) 9
    (merge_new [(1, 10); (2, 11); (2, 12); (5, 13)] [(2, 20); (3, 21); (5, 22); (5, 23)]) =
  Some [MLeft (1, 10); MBoth (2, 11) (2, 20); MLeft (2, 12); MRight (3, 21); MBoth (5, 13) (5, 22);
        MRight (5, 23)].
Proof. split; [|reflexivity]. repeat constructor; discriminate. Qed.

(** Without sorted input a matching pair may be reported as deleted and added. *)
Theorem C11_unsorted_refuted :
  exists l r out x, merge_collect Nat.compare 9 (merge_new l r) = Some out /\
    In (MLeft x) out /\ In (MRight x) out.
Proof. exists [2; 1], [1], [MRight 1; MLeft 2; MLeft 1], 1. cbn. auto 10. Qed.
Print Assumptions C11_unsorted_refuted.

(** C12: for every way of breaking ties, the path computation ends without a
    panic, and the path is a complete edit script.  The costs of all items
    together must fit in a [usize]. *)
Theorem C12_path_complete :
  forall A (l1 l2 : list A) c1 c2 dc pick fuel,
    (total_cost c1 l1 + total_cost c2 l2 < 2 ^ 64 - 1)%N ->
    3 * (S (length l1) * S (length l2)) + 1 < fuel ->
    exists p c, shortest_path l1 l2 c1 c2 dc fuel pick = SPath p /\
      script c1 c2 dc (cheaper c1 c2 dc) l1 l2 p c.
Proof.
  intros A l1 l2 c1 c2 dc pick fuel B L.
  destruct (shortest_path_correct l1 l2 c1 c2 dc B pick fuel) as (p & c & E & S & _).
  { unfold len1, len2. lia. }
  eauto.
Qed.
Print Assumptions C12_path_complete.

(** The actions taken by the list diff: every item of both lists once, in order. *)
Theorem C12_list_consumed :
  forall A (l1 l2 : list A) c1 c2 dc pick fuel,
    (total_cost c1 l1 + total_cost c2 l2 < 2 ^ 64 - 1)%N ->
    3 * (S (length l1) * S (length l2)) + 1 < fuel ->
    exists out, diff_list l1 l2 c1 c2 dc fuel pick = Some out /\
      lefts out = l1 /\ rights out = l2 /\
      (forall a b, In (a, b) (pairs out) -> (dc a b < c1 a + c2 b)%N).
Proof.
  intros A l1 l2 c1 c2 dc pick fuel B L.
  destruct (C12_path_complete A l1 l2 c1 c2 dc pick fuel B L) as (p & c & E & S).
  unfold diff_list. rewrite E. eexists. split; [reflexivity|].
  destruct (follow_script _ _ _ _ _ _ _ _ S) as (H1 & H2 & _ & F). split; auto. split; auto.
  intros a b I. apply in_flat_map in I. destruct I as (r & Ir & I).
  rewrite Forall_forall in F. specialize (F r Ir). destruct r; cbn in I; try easy.
  destruct I as [[= -> ->]|[]]. exact F.
Qed.
Print Assumptions C12_list_consumed.

(** Every cheapest heap element is returned for some choice, so quantifying over
    [pick] covers every behaviour of the heap. *)
Theorem C12_choices_cover_heap :
  forall h c i j, In (c, i, j) h -> (forall c' i' j', In (c', i', j') h -> (c <= c')%N) ->
    exists k h', heap_pop k h = Some ((c, i, j), h') /\ Permutation h ((c, i, j) :: h').
Proof.
  intros h c i j I MIN.
  assert (E : heap_min h = Some c).
  { destruct (heap_min h) as [m|] eqn:E.
    - apply heap_min_spec in E. destruct E as ((i' & j' & I') & L).
      specialize (MIN _ _ _ I'). specialize (L _ _ _ I). f_equal. lia.
    - apply heap_min_none in E. subst. easy. }
  assert (exists k h', k < length (filter (fun e => N.eqb (fst (fst e)) c) h) /\
    heap_remove c k h = Some ((c, i, j), h') /\ Permutation h ((c, i, j) :: h')) as (k & h' & L & R & P).
  { clear E MIN. induction h as [|((c0, i0), j0) h IH]; [easy|].
    cbn [filter fst heap_remove]. destruct I as [[= -> -> ->]|I].
    - rewrite N.eqb_refl. exists 0, h. cbn. split; [lia|]. auto.
    - destruct (IH I) as (k & h' & L & R & P). destruct (N.eqb_spec c0 c) as [->|NE].
      + exists (S k), ((c, i0, j0) :: h'). cbn. rewrite R. split; [lia|]. split; auto.
        rewrite P. apply perm_swap.
      + exists k, ((c0, i0, j0) :: h'). rewrite R. split; auto. split; auto. rewrite P. apply perm_swap. }
  exists k, h'. unfold heap_pop. rewrite E, Nat.mod_small by lia. auto.
Qed.
Print Assumptions C12_choices_cover_heap.

(** If the costs do not fit, the computation panics. *)
Theorem C12_overflow_refuted :
  exists (l1 l2 : list nat) c1 c2 dc, forall fuel pick, 3 < fuel ->
    shortest_path l1 l2 c1 c2 dc fuel pick = SPanic.
Proof.
  exists [0], [], (fun _ => u64_max), (fun _ => 1%N), (fun _ _ => 0%N).
  intros fuel pick L. do 3 (destruct fuel as [|fuel]; [lia|]). reflexivity.
Qed.
Print Assumptions C12_overflow_refuted.

(** C13: no edit script is cheaper than the path, whatever the tie-breaking. *)
Theorem C13_path_minimal :
  forall A (l1 l2 : list A) c1 c2 dc pick fuel,
    (total_cost c1 l1 + total_cost c2 l2 < 2 ^ 64 - 1)%N ->
    3 * (S (length l1) * S (length l2)) + 1 < fuel ->
    exists p c, shortest_path l1 l2 c1 c2 dc fuel pick = SPath p /\
      script c1 c2 dc (cheaper c1 c2 dc) l1 l2 p c /\
      (forall p' c', script c1 c2 dc (fun _ _ => True) l1 l2 p' c' -> (c <= c')%N).
Proof.
  intros A l1 l2 c1 c2 dc pick fuel B L.
  destruct (shortest_path_correct l1 l2 c1 c2 dc B pick fuel) as (p & c & E & S & M).
  { unfold len1, len2. lia. }
  exists p, c. split; auto. split; auto. intros p' c' S'. apply script_any in S'.
  destruct S' as (p'' & c'' & S'' & Q). specialize (M _ _ S''). lia.
Qed.
Print Assumptions C13_path_minimal.

Example C13_example :
  let c := fun x : nat => 1%N in
  let dc := fun a b : nat => if a =? b then 0%N else 2%N in
  (total_cost c [1; 2; 3; 4]%nat + total_cost c [2; 3; 5; 4]%nat < 2 ^ 64 - 1)%N /\
  shortest_path [1; 2; 3; 4] [2; 3; 5; 4] c c dc 80 (fun _ => 0) =
    SPath [DHorizontal; DDiagonal; DDiagonal; DVertical; DDiagonal] /\
  diff_list [1; 2; 3; 4] [2; 3; 5; 4] c c dc 80 (fun n => n) =
    Some [MLeft 1; MBoth 2 2; MBoth 3 3; MRight 5; MBoth 4 4].
Proof. repeat split. Qed.

(** C14: a list diffed against itself is paired item by item. *)
Theorem C14_self_diff :
  forall A (l : list A) c1 c2 dc pick fuel,
    (total_cost c1 l + total_cost c2 l < 2 ^ 64 - 1)%N ->
    3 * (S (length l) * S (length l)) + 1 < fuel ->
    (forall a, In a l -> dc a a = 0%N /\ (0 < c1 a)%N /\ (0 < c2 a)%N) ->
    shortest_path l l c1 c2 dc fuel pick = SPath (repeat DDiagonal (length l)) /\
    diff_list l l c1 c2 dc fuel pick = Some (map (fun a => MBoth a a) l).
Proof.
  intros A l c1 c2 dc pick fuel B L H.
  destruct (shortest_path_correct l l c1 c2 dc B pick fuel) as (p & c & E & S & M).
  { unfold len1, len2. lia. }
  assert (c = 0%N).
  { assert (D : script c1 c2 dc (cheaper c1 c2 dc) l l (repeat DDiagonal (length l)) 0).
    { apply diagonal_script. intros a I. apply H in I. lia. }
    apply M in D. lia. }
  subst c. assert (p = repeat DDiagonal (length l)) as ->.
  { apply (zero_script c1 c2 dc (cheaper c1 c2 dc) l l p); auto; intros a I; apply H in I; lia. }
  split; auto. unfold diff_list. rewrite E. f_equal. clear.
  induction l as [|a l IH]; cbn; auto. now rewrite IH.
Qed.
Print Assumptions C14_self_diff.

(** Distinct items with distinct step costs, equal only to themselves. *)
Example C14_example :
  let c := fun x : nat => N.of_nat (S x) in
  let dc := fun a b : nat => if a =? b then 0%N else 1%N in
  (forall a, In a [3; 0; 3] -> dc a a = 0%N /\ (0 < c a)%N /\ (0 < c a)%N) /\
  diff_list [3; 0; 3] [3; 0; 3] c c dc 50 (fun n => n) = Some [MBoth 3 3; MBoth 0 0; MBoth 3 3].
Proof. split; [|reflexivity]. intros a _. cbn. rewrite Nat.eqb_refl. lia. Qed.
