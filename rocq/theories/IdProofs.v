(** Proofs about ids. *)
From Coq Require Import List Arith NArith Bool Lia Sorted Permutation.
From Coq Require Import ZifyBool ZifyNat ZifyN.
From Verif Require Import Base BaseProofs TypeModel LayoutModel FileModel DiffModel DiffSpec MergeProofs
  OptionsModel FilterModel FilterSpec OptionsProofs FilterProofs IdModel.
Import ListNotations.

Lemma item_id_eqb_iff x y : item_id_eqb x y = true <-> x = y.
Proof.
  destruct x as [|a|a i|a i|a i], y as [|b|b j|b j|b j]; cbn [item_id_eqb];
    try (split; [discriminate|intros H; discriminate H]); [split; reflexivity|..].
  - rewrite Nat.eqb_eq. split; [intros ->; reflexivity|intros H; injection H; auto].
  - rewrite andb_true_iff, !Nat.eqb_eq. split; [intros [-> ->]; reflexivity|intros H; injection H; auto].
  - rewrite andb_true_iff, !Nat.eqb_eq. split; [intros [-> ->]; reflexivity|intros H; injection H; auto].
  - rewrite andb_true_iff, !Nat.eqb_eq. split; [intros [-> ->]; reflexivity|intros H; injection H; auto].
Qed.

Lemma find_first {A} (f : A -> bool) l x :
  In x l -> f x = true -> (forall y, In y l -> f y = true -> y = x) -> find f l = Some x.
Proof.
  induction l as [|y l IH]; intros I F U; [destruct I|]. cbn. destruct (f y) eqn:E.
  - f_equal. apply U; cbn; auto.
  - apply IH; auto.
    + destruct I as [->|I]; [congruence|assumption].
    + intros; apply U; cbn; auto.
Qed.
Lemma nodup_fst {A B} (l : list (A * B)) x n m :
  NoDup (map fst l) -> In (x, n) l -> In (x, m) l -> n = m.
Proof.
  induction l as [|[y k] l IH]; cbn; intros N I J; [destruct I|]. inversion N as [|? ? NI N']; subst.
  destruct I as [I|I], J as [J|J].
  - congruence.
  - injection I as -> ->. exfalso. apply NI. apply (in_map fst) in J. exact J.
  - injection J as -> ->. exfalso. apply NI. apply (in_map fst) in I. exact I.
  - auto.
Qed.
Lemma id_of_in log x n : NoDup (map fst log) -> In (x, n) log -> id_of log x = n.
Proof.
  intros N I. unfold id_of. rewrite (find_first _ _ (x, n)); [reflexivity| | |].
  - now apply -> in_rev.
  - cbn. now apply item_id_eqb_iff.
  - intros [y m] J F. apply in_rev in J. cbn in F. apply item_id_eqb_iff in F. subst y.
    f_equal. eapply nodup_fst; eauto.
Qed.
Lemma id_of_none log x : ~ In x (map fst log) -> id_of log x = 0.
Proof.
  intros N. unfold id_of. destruct (find _ (rev log)) as [[y m]|] eqn:E; [|reflexivity].
  apply find_some in E. destruct E as [I F]. cbn in F. apply item_id_eqb_iff in F. subst y.
  exfalso. apply N. apply in_rev in I. apply (in_map fst) in I. exact I.
Qed.

Lemma nth_error_enumerate {A} (l : list A) i x :
  nth_error (enumerate l) i = Some x <-> exists y, x = (i, y) /\ nth_error l i = Some y.
Proof.
  assert (N : forall i p, nth_error (enumerate l) i = Some p -> fst p = i).
  { intros j p E. apply (map_nth_error fst) in E. rewrite enumerate_fst in E.
    assert (j < List.length l).
    { rewrite <- (seq_length (List.length l) 0). apply nth_error_Some. congruence. }
    rewrite nth_error_nth' with (d := 0) in E by (now rewrite seq_length).
    rewrite seq_nth in E by assumption. injection E as <-. lia. }
  split.
  - intros E. destruct x as [j y]. pose proof (N _ _ E) as F. cbn in F. subst j. exists y.
    split; [reflexivity|]. apply enumerate_in. eapply nth_error_In; eauto.
  - intros (y & -> & E). apply enumerate_in in E. apply In_nth_error in E. destruct E as [j E].
    pose proof (N _ _ E) as F. cbn in F. now subst j.
Qed.

(** ** One file *)

Definition unit_ids (ui : nat) (u : unit) : list item_id :=
  IdUnit ui :: map (IdType ui) (seq 0 (List.length (un_types u)))
    ++ map (IdFunction ui) (seq 0 (List.length (un_functions u)))
    ++ map (IdVariable ui) (seq 0 (List.length (un_variables u))).
Definition all_ids (units : list unit) : list item_id :=
  flat_map (fun p => unit_ids (fst p) (snd p)) (enumerate units).

Lemma fold_left_map {A B C} (f : C -> B -> C) (g : A -> B) l s :
  fold_left (fun s p => f s (g p)) l s = fold_left f (map g l) s.
Proof. revert s. induction l; intros s; cbn; auto. Qed.
Lemma enum_ids {A} (f : nat -> item_id) (l : list A) :
  map (fun p => f (fst p)) (enumerate l) = map f (seq 0 (List.length l)).
Proof. rewrite <- enumerate_fst, map_map. reflexivity. Qed.

Lemma assign_ids_fold units : assign_ids units = fold_left push_id (all_ids units) ([], []).
Proof.
  unfold assign_ids, all_ids. generalize (@nil item_id, @nil (item_id * nat)) as s.
  induction (enumerate units) as [|[i u] l IH]; intros s; [reflexivity|].
  cbn [fold_left flat_map fst snd]. rewrite IH, fold_left_app. f_equal.
  unfold assign_ids_in_unit, unit_ids.
  rewrite (fold_left_map push_id (fun p => IdType i (fst p))), (enum_ids (IdType i)),
    (fold_left_map push_id (fun p => IdFunction i (fst p))), (enum_ids (IdFunction i)),
    (fold_left_map push_id (fun p => IdVariable i (fst p))), (enum_ids (IdVariable i)).
  cbn [fold_left app]. rewrite !fold_left_app. reflexivity.
Qed.

Lemma fold_push_id l : forall ids log, fold_left push_id l (ids, log) =
  (ids ++ l, log ++ map (fun p => (snd p, List.length ids + fst p)) (enumerate l)).
Proof.
  induction l as [|x l IH] using rev_ind; intros ids log; cbn [fold_left].
  - cbn. now rewrite !app_nil_r.
  - rewrite fold_left_app, IH. cbn [fold_left push_id]. f_equal; [now rewrite app_assoc|].
    rewrite <- app_assoc. f_equal. unfold enumerate.
    replace (List.length (l ++ [x])) with (S (List.length l)) by (rewrite app_length; cbn; lia).
    rewrite seq_S. cbn [Nat.add].
    assert (C : forall A B (a a' : list A) (b b' : list B), List.length a = List.length b ->
      combine (a ++ a') (b ++ b') = combine a b ++ combine a' b').
    { clear. intros A B a. induction a as [|x a IH]; intros a' [|y b] b' L; cbn in *;
        try discriminate; auto. f_equal. apply IH. lia. }
    rewrite C by (now rewrite seq_length). rewrite map_app. cbn. now rewrite app_length.
Qed.
Lemma assign_ids_eq units :
  assign_ids units = (all_ids units, map (fun p => (snd p, fst p)) (enumerate (all_ids units))).
Proof. rewrite assign_ids_fold, fold_push_id. reflexivity. Qed.

Lemma all_ids_in units x : In x (all_ids units) <-> item_at units x <> None.
Proof.
  unfold all_ids. rewrite in_flat_map. split.
  - intros ([i u] & I & J). apply enumerate_in in I. cbn [fst snd] in J. unfold unit_ids in J.
    cbn [In] in J. rewrite !in_app_iff, !in_map_iff in J.
    destruct J as [<-|[(k & <- & K)|[(k & <- & K)|(k & <- & K)]]]; cbn; rewrite I; cbn;
      try discriminate; apply in_seq in K; cbn in K; destruct K as [_ K];
      apply nth_error_Some in K; destruct (nth_error _ k); cbn; congruence.
  - intros H.
    assert (X : exists i u, nth_error units i = Some u /\ In x (unit_ids i u)).
    { destruct x as [|i|i k|i k|i k]; cbn in H; [congruence| | | |];
        destruct (nth_error units i) as [u|] eqn:E; cbn in H; try congruence;
        exists i, u; (split; [exact E|]); unfold unit_ids; cbn [In].
      - auto.
      - right. rewrite !in_app_iff. left. apply in_map. apply in_seq. split; [lia|].
        apply nth_error_Some. destruct (nth_error (un_types u) k); cbn in H; congruence.
      - right. rewrite !in_app_iff. right. left. apply in_map. apply in_seq. split; [lia|].
        apply nth_error_Some. destruct (nth_error (un_functions u) k); cbn in H; congruence.
      - right. rewrite !in_app_iff. right. right. apply in_map. apply in_seq. split; [lia|].
        apply nth_error_Some. destruct (nth_error (un_variables u) k); cbn in H; congruence. }
    destruct X as (i & u & E & I). exists (i, u). split; [now apply enumerate_in|exact I].
Qed.

Definition unit_of (x : item_id) : option nat :=
  match x with
  | IdNone => None
  | IdUnit i => Some i
  | IdType i _ | IdFunction i _ | IdVariable i _ => Some i
  end.

Lemma nodup_app {A} (l m : list A) :
  NoDup l -> NoDup m -> (forall x, In x l -> In x m -> False) -> NoDup (l ++ m).
Proof.
  induction 1 as [|x l N1 N2 IH]; intros M D; cbn; [assumption|]. constructor.
  - rewrite in_app_iff. intros [I|I]; [auto|]. apply (D x); cbn; auto.
  - apply IH; auto. intros y I J. apply (D y); cbn; auto.
Qed.
Lemma nodup_map {A B} (f : A -> B) l :
  (forall x y, f x = f y -> x = y) -> NoDup l -> NoDup (map f l).
Proof.
  intros INJ. induction 1 as [|x l N1 N2 IH]; cbn; constructor; auto.
  intros I. apply in_map_iff in I. destruct I as (y & E & I). apply INJ in E. now subst y.
Qed.

Lemma unit_ids_of ui u x : In x (unit_ids ui u) -> unit_of x = Some ui.
Proof.
  unfold unit_ids. cbn [In]. rewrite !in_app_iff, !in_map_iff.
  intros [<-|[(k & <- & _)|[(k & <- & _)|(k & <- & _)]]]; reflexivity.
Qed.
Lemma unit_ids_nodup ui u : NoDup (unit_ids ui u).
Proof.
  unfold unit_ids. constructor.
  - rewrite !in_app_iff, !in_map_iff. intros [(k & E & _)|[(k & E & _)|(k & E & _)]]; discriminate.
  - apply nodup_app; [apply nodup_map; [congruence|apply seq_NoDup]| |].
    + apply nodup_app; [apply nodup_map; [congruence|apply seq_NoDup]| |].
      * apply nodup_map; [congruence|apply seq_NoDup].
      * intros x. rewrite !in_map_iff. intros (k & <- & _) (j & E & _). discriminate.
    + intros x. rewrite !in_app_iff, !in_map_iff.
      intros (k & <- & _) [(j & E & _)|(j & E & _)]; discriminate.
Qed.

(** Concatenating lists that belong to increasing units. *)
Lemma flat_map_nodup {A B} (f : nat * A -> list B) (own : B -> option nat) l :
  StronglySorted (fun p q => fst p < fst q) l ->
  (forall p x, In p l -> In x (f p) -> own x = Some (fst p)) ->
  (forall p, In p l -> NoDup (f p)) -> NoDup (flat_map f l).
Proof.
  induction 1 as [|p l S IH F]; intros O N; cbn; [constructor|].
  apply nodup_app; [apply N; cbn; auto| |].
  - apply IH; intros; [apply O|apply N]; cbn; auto.
  - intros x I J. apply in_flat_map in J. destruct J as (q & Q & J).
    apply (O p) in I; [|cbn; auto]. apply (O q) in J; [|cbn; auto].
    rewrite Forall_forall in F. specialize (F _ Q). rewrite I in J. injection J. lia.
Qed.
Lemma all_ids_nodup units : NoDup (all_ids units).
Proof.
  unfold all_ids. apply (flat_map_nodup (fun p : nat * unit => unit_ids (fst p) (snd p)) unit_of).
  - apply enumerate_sorted.
  - intros p x _. apply unit_ids_of.
  - intros. apply unit_ids_nodup.
Qed.

(** Positions follow the order of units; a unit comes before its items. *)
Lemma all_ids_order units i j x y a b :
  nth_error (all_ids units) i = Some x -> nth_error (all_ids units) j = Some y ->
  unit_of x = Some a -> unit_of y = Some b -> a < b -> i < j.
Proof.
  intros X Y A B L.
  assert (S : StronglySorted (fun x y => match unit_of x, unit_of y with
                Some a, Some b => a <= b | _, _ => False end) (all_ids units)).
  { unfold all_ids. induction (enumerate_sorted units) as [|p l S IH F]; cbn; [constructor|].
    assert (G : forall m, (forall x, In x m -> unit_of x = Some (fst p)) ->
      StronglySorted (fun x y => match unit_of x, unit_of y with
        Some a, Some b => a <= b | _, _ => False end)
        (m ++ flat_map (fun p => unit_ids (fst p) (snd p)) l)).
    { intros m. induction m as [|z m IHm]; intros H; cbn; [exact IH|].
      constructor; [apply IHm; intros; apply H; cbn; auto|]. apply Forall_forall. intros w W.
      rewrite (H z) by (cbn; auto). apply in_app_iff in W. destruct W as [W|W].
      - rewrite (H w) by (cbn; auto). lia.
      - apply in_flat_map in W. destruct W as (q & Q & W). apply unit_ids_of in W. rewrite W.
        rewrite Forall_forall in F. specialize (F _ Q). lia. }
    apply (G (unit_ids (fst p) (snd p))). intros x0. apply unit_ids_of. }
  destruct (Nat.lt_ge_cases i j) as [|GE]; [assumption|]. exfalso.
  destruct (Nat.eq_dec i j) as [->|N]; [rewrite X in Y; injection Y as ->; rewrite A in B; injection B; lia|].
  revert i j X Y GE N. induction S as [|z l S IH F]; intros i j X Y GE N; [destruct i; discriminate|].
  destruct i as [|i]; [lia|]. destruct j as [|j].
  - cbn in X, Y. injection Y as ->. apply nth_error_In in X. rewrite Forall_forall in F.
    specialize (F _ X). rewrite A, B in F. lia.
  - apply (IH i j); auto; lia.
Qed.

(** ** Two files *)

From Verif Require Import IdSpec.

Lemma names_iff units x i : names units x i <-> item_at units x = Some i.
Proof.
  split.
  - intros [a u U|a k u t U K|a k u t U K|a k u t U K]; cbn; rewrite U; cbn; rewrite ?K;
      reflexivity.
  - destruct x as [|a|a k|a k|a k]; cbn; [discriminate| | | |];
      destruct (nth_error units a) as [u|] eqn:E; cbn; try discriminate.
    + intros H. injection H as <-. now constructor.
    + destruct (nth_error (un_types u) k) eqn:F; cbn; [|discriminate].
      intros H. injection H as <-. now constructor.
    + destruct (nth_error (un_functions u) k) eqn:F; cbn; [|discriminate].
      intros H. injection H as <-. now constructor.
    + destruct (nth_error (un_variables u) k) eqn:F; cbn; [|discriminate].
      intros H. injection H as <-. now constructor.
Qed.
Lemma in_unit_iff x i : in_unit x i <-> unit_of x = Some i.
Proof.
  split; [intros []; reflexivity|]. destruct x; cbn; intros H; try discriminate;
    injection H as <-; constructor.
Qed.

(** One side of a row: [true] is the first file. *)
Definition pick {A} (b : bool) (r : merge_result A A) : list A :=
  match r with
  | MLeft x => if b then [x] else []
  | MRight y => if b then [] else [y]
  | MBoth x y => if b then [x] else [y]
  end.
Lemma pick_merge {A} (cmp : A -> A -> comparison) b l r :
  flat_map (pick b) (merge_all cmp l r) = if b then l else r.
Proof.
  rewrite merge_all_total. destruct b.
  - exact (merge_lefts cmp l r).
  - exact (merge_rights cmp l r).
Qed.
Lemma pick_map {A B} (f g : A -> B) b r :
  pick b (map_result f g r) = map (if b then f else g) (pick b r).
Proof. destruct r, b; reflexivity. Qed.
Lemma pick_map_all {A B} (f g : A -> B) b l :
  flat_map (pick b) (map (map_result f g) l) = map (if b then f else g) (flat_map (pick b) l).
Proof.
  induction l as [|r l IH]; cbn; [reflexivity|]. rewrite map_app, <- IH, pick_map. reflexivity.
Qed.

Definition row_pair (r : merge_result item_id item_id) : item_id * item_id :=
  match r with MBoth x y => (x, y) | MLeft x => (x, IdNone) | MRight y => (IdNone, y) end.
Definition side_log (b : bool) (s : merged_state) : id_log := if b then ms_a s else ms_b s.
Definition start := mkMerged [] [] [].

Lemma enumerate_snoc {A} (l : list A) x : enumerate (l ++ [x]) = enumerate l ++ [(List.length l, x)].
Proof.
  unfold enumerate.
  replace (List.length (l ++ [x])) with (S (List.length l)) by (rewrite app_length; cbn; lia).
  rewrite seq_S. cbn [Nat.add].
  assert (C : forall A B (a a' : list A) (b b' : list B), List.length a = List.length b ->
    combine (a ++ a') (b ++ b') = combine a b ++ combine a' b').
  { clear. intros A B a. induction a as [|x a IH]; intros a' [|y b] b' L; cbn in *;
      try discriminate; auto. f_equal. apply IH. lia. }
  rewrite C by (now rewrite seq_length). reflexivity.
Qed.

Lemma fold_push_row b rows :
  ms_ids (fold_left push_row rows start) = map row_pair rows /\
  side_log b (fold_left push_row rows start) =
    flat_map (fun p => map (fun x => (x, fst p)) (pick b (snd p))) (enumerate rows).
Proof.
  induction rows as [|r rows [IH1 IH2]] using rev_ind; [destruct b; split; reflexivity|].
  rewrite fold_left_app, enumerate_snoc, flat_map_app, map_app. cbn [fold_left].
  set (s := fold_left push_row rows start) in *. rewrite <- IH1, <- IH2.
  assert (L : List.length rows = List.length (ms_ids s)) by (now rewrite IH1, map_length).
  cbn [flat_map fst snd map]. rewrite app_nil_r, L.
  destruct r, b; cbn; rewrite ?app_nil_r; auto.
Qed.

Section Log.
  Variables (b : bool) (rows : list (merge_result item_id item_id)).
  Let s := fold_left push_row rows start.
  Hypothesis ND : NoDup (flat_map (pick b) rows).

  Lemma side_log_fst : map fst (side_log b s) = flat_map (pick b) rows.
  Proof.
    unfold s. rewrite (proj2 (fold_push_row b rows)).
    rewrite <- (enumerate_snd rows) at 2. induction (enumerate rows) as [|p l IH]; [reflexivity|].
    cbn. rewrite map_app, map_map, IH. cbn. now rewrite map_id.
  Qed.
  Lemma side_log_in x n :
    In (x, n) (side_log b s) <-> exists r, nth_error rows n = Some r /\ In x (pick b r).
  Proof.
    unfold s. rewrite (proj2 (fold_push_row b rows)), in_flat_map. split.
    - intros ([m r] & I & J). apply enumerate_in in I. apply in_map_iff in J. cbn in J.
      destruct J as (y & E & J). injection E as -> ->. eauto.
    - intros (r & N & I). exists (n, r). split; [now apply enumerate_in|].
      apply in_map_iff. exists x. auto.
  Qed.
  Lemma side_id x n r : nth_error rows n = Some r -> In x (pick b r) -> id_of (side_log b s) x = n.
  Proof.
    intros N I. apply id_of_in; [now rewrite side_log_fst|]. apply side_log_in. eauto.
  Qed.
  Lemma side_id_none x : ~ In x (flat_map (pick b) rows) -> id_of (side_log b s) x = 0.
  Proof. intros N. apply id_of_none. now rewrite side_log_fst. Qed.
End Log.

(** The rows that are pushed. *)
Definition unmerged_rows (left : bool) (ui : nat) (u : unit) : list (merge_result item_id item_id) :=
  map (unmerged_row left) (tl (unit_ids ui u)).

Definition type_rows o ha (ua : unit) hb (ub : unit) : list (merge_result (nat * type) (nat * type)) :=
  merge_all (fun a b => type_cmp_id ha (snd a) hb (snd b))
    (stable_sort (fun x y => type_cmp_id ha (snd x) ha (snd y)) (enumerate_and_filter_types o ha true ua))
    (stable_sort (fun x y => type_cmp_id hb (snd x) hb (snd y)) (enumerate_and_filter_types o hb true ub)).
Definition function_rows o pc ha (ua : unit) hb (ub : unit)
  : list (merge_result (nat * func) (nat * func)) :=
  merge_all (fun a b => function_cmp_id (snd a) (snd b))
    (stable_sort (fun x y => function_cmp_for_sort pc ha (snd x) ha (snd y))
       (enumerate_and_filter_functions o ua))
    (stable_sort (fun x y => function_cmp_for_sort pc hb (snd x) hb (snd y))
       (enumerate_and_filter_functions o ub)).
Definition variable_rows o (ua ub : unit) : list (merge_result (nat * var) (nat * var)) :=
  merge_all (fun a b => variable_cmp_id (snd a) (snd b))
    (stable_sort (fun x y => variable_cmp_id (snd x) (snd y)) (enumerate_and_filter_variables o ua))
    (stable_sort (fun x y => variable_cmp_id (snd x) (snd y)) (enumerate_and_filter_variables o ub)).
Definition unit_rows o (fa fb : list unit) : list (merge_result (nat * unit) (nat * unit)) :=
  merge_all (fun a b => unit_cmp_id o (snd a) (snd b))
    (stable_sort (fun x y => unit_cmp_id o (snd x) (snd y)) (enumerate_and_filter_units o fa))
    (stable_sort (fun x y => unit_cmp_id o (snd x) (snd y)) (enumerate_and_filter_units o fb)).

Definition merged_unit_rows o pc ha uia ua hb uib ub : list (merge_result item_id item_id) :=
  map (map_result (fun p => IdType uia (fst p)) (fun p => IdType uib (fst p)))
    (type_rows o ha ua hb ub) ++
  map (map_result (fun p => IdFunction uia (fst p)) (fun p => IdFunction uib (fst p)))
    (filter (fun r => negb (enum_inlined r)) (function_rows o pc ha ua hb ub) ++
     filter enum_inlined (function_rows o pc ha ua hb ub)) ++
  map (map_result (fun p => IdVariable uia (fst p)) (fun p => IdVariable uib (fst p)))
    (variable_rows o ua ub).

Definition rows_of_unit o pc ha hb (r : merge_result (nat * unit) (nat * unit))
  : list (merge_result item_id item_id) :=
  map_result (fun p => IdUnit (fst p)) (fun p => IdUnit (fst p)) r ::
  match r with
  | MBoth (uia, a) (uib, b) => merged_unit_rows o pc ha uia a hb uib b
  | MLeft (ui, u) => unmerged_rows true ui u
  | MRight (ui, u) => unmerged_rows false ui u
  end.
Definition all_rows o pc ha fa hb fb : list (merge_result item_id item_id) :=
  flat_map (rows_of_unit o pc ha hb) (unit_rows o fa fb).

Lemma assign_unmerged_fold left ui u s :
  assign_unmerged_ids_in_unit ui u left s = fold_left push_row (unmerged_rows left ui u) s.
Proof.
  unfold assign_unmerged_ids_in_unit, unmerged_rows, unit_ids. cbn [tl].
  rewrite !map_app, !map_map, !fold_left_app.
  assert (E : forall A (f : nat -> merge_result item_id item_id) (l : list A) s,
     fold_left (fun s p => push_row s (f (fst p))) (enumerate l) s =
     fold_left push_row (map f (seq 0 (List.length l))) s).
  { intros A f l s0. rewrite <- enumerate_fst, map_map.
    rewrite (fold_left_map push_row (fun p => f (fst p))). reflexivity. }
  rewrite (E type (fun k => unmerged_row left (IdType ui k))),
    (E func (fun k => unmerged_row left (IdFunction ui k))),
    (E var (fun k => unmerged_row left (IdVariable ui k))). reflexivity.
Qed.
Lemma assign_merged_fold o pc ha fa hb fb :
  assign_merged_ids o pc ha fa hb fb = fold_left push_row (all_rows o pc ha fa hb fb) start.
Proof.
  unfold assign_merged_ids, all_rows. fold (unit_rows o fa fb). fold start. generalize start as s.
  induction (unit_rows o fa fb) as [|r l IH]; intros s; [reflexivity|].
  cbn [fold_left flat_map]. rewrite IH, fold_left_app. f_equal.
  unfold rows_of_unit. cbn [fold_left].
  destruct r as [[ui u]|[ui u]|[uia a] [uib b]].
  - apply assign_unmerged_fold.
  - apply assign_unmerged_fold.
  - unfold assign_merged_ids_in_unit, merged_unit_rows. cbv zeta.
    fold (type_rows o ha a hb b) (function_rows o pc ha a hb b) (variable_rows o a b).
    rewrite !map_app, !fold_left_app.
    rewrite !(fold_left_map push_row (map_result (fun p : nat * type => IdType uia (fst p))
               (fun p => IdType uib (fst p)))).
    rewrite !(fold_left_map push_row (map_result (fun p : nat * func => IdFunction uia (fst p))
               (fun p => IdFunction uib (fst p)))).
    rewrite !(fold_left_map push_row (map_result (fun p : nat * var => IdVariable uia (fst p))
               (fun p => IdVariable uib (fst p)))).
    reflexivity.
Qed.

(** ** Every item is in at most one row *)

Lemma flat_map_nodup_key {A B} (f : A -> list B) (own : B -> option nat) (key : A -> list nat) l :
  NoDup (flat_map key l) ->
  (forall p x, In p l -> In x (f p) -> exists k, own x = Some k /\ In k (key p)) ->
  (forall p, In p l -> NoDup (f p)) -> NoDup (flat_map f l).
Proof.
  induction l as [|p l IH]; intros ND O N; cbn; [constructor|].
  cbn in ND.
  assert (ND2 : NoDup (flat_map key l)).
  { clear - ND. induction (key p); cbn in ND; [assumption|]. inversion ND; auto. }
  apply nodup_app; [apply N; cbn; auto| |].
  - apply IH; [assumption| |]; intros; [apply O|apply N]; cbn; auto.
  - intros x I J. apply in_flat_map in J. destruct J as (q & Q & J).
    apply (O p) in I; [|cbn; auto]. apply (O q) in J; [|cbn; auto].
    destruct I as (k & K1 & K2), J as (k' & K3 & K4). rewrite K1 in K3. injection K3 as <-.
    clear - ND K2 K4 Q. induction (key p) as [|z m IHm]; [destruct K2|]. cbn in ND.
    inversion ND as [|? ? N1 N2]; subst. destruct K2 as [->|K2]; [|auto].
    apply N1. apply in_app_iff. right. apply in_flat_map. eauto.
Qed.

Lemma enum_sorted_nodup {A} (c : nat * A -> nat * A -> comparison) f (l : list A) :
  NoDup (map fst (stable_sort c (filter f (enumerate l)))).
Proof.
  apply (Permutation_NoDup (l := map fst (filter f (enumerate l)))).
  - apply Permutation_map, Permutation_sym, stable_sort_perm.
  - pose proof (filter_sorted _ f _ (enumerate_sorted l)) as S.
    induction S as [|p m S IH F]; cbn; constructor; auto. intros I. apply in_map_iff in I.
    destruct I as (q & E & I). rewrite Forall_forall in F. specialize (F _ I). lia.
Qed.
Lemma enum_sorted_in {A} (c : nat * A -> nat * A -> comparison) f (l : list A) k x :
  In (k, x) (stable_sort c (filter f (enumerate l))) -> nth_error l k = Some x /\ f (k, x) = true.
Proof.
  intros I. apply (Permutation_in _ (stable_sort_perm _ _)) in I. apply filter_In in I.
  destruct I as [I F]. apply enumerate_in in I. auto.
Qed.

Lemma filter_partition {A} (f : A -> bool) l :
  Permutation (filter (fun x => negb (f x)) l ++ filter f l) l.
Proof.
  induction l as [|x l IH]; cbn; [constructor|]. destruct (f x); cbn.
  - rewrite <- Permutation_middle. now constructor.
  - now constructor.
Qed.

Lemma row_kinds_nodup b o pc ha uia ua hb uib ub :
  NoDup (flat_map (pick b) (merged_unit_rows o pc ha uia ua hb uib ub)).
Proof.
  unfold merged_unit_rows. rewrite !flat_map_app, !pick_map_all.
  assert (K : forall A (mk : nat -> item_id) (l : list (nat * A)), (forall i j, mk i = mk j -> i = j) ->
    NoDup (map fst l) -> NoDup (map (fun p => mk (fst p)) l)).
  { intros A mk l INJ N. rewrite <- (map_map fst mk). now apply nodup_map. }
  apply nodup_app; [|apply nodup_app|].
  - replace (if b then _ else _) with (fun p : nat * type => IdType (if b then uia else uib) (fst p))
      by (destruct b; reflexivity).
    apply K; [congruence|]. unfold type_rows. rewrite pick_merge. destruct b; apply enum_sorted_nodup.
  - replace (if b then _ else _) with (fun p : nat * func => IdFunction (if b then uia else uib) (fst p))
      by (destruct b; reflexivity).
    apply K; [congruence|].
    apply (Permutation_NoDup (l := map fst (flat_map (pick b) (function_rows o pc ha ua hb ub)))).
    + apply Permutation_map, Permutation_sym, Permutation_flat_map, filter_partition.
    + unfold function_rows. rewrite pick_merge. destruct b; apply enum_sorted_nodup.
  - replace (if b then _ else _) with (fun p : nat * var => IdVariable (if b then uia else uib) (fst p))
      by (destruct b; reflexivity).
    apply K; [congruence|]. unfold variable_rows. rewrite pick_merge. destruct b; apply enum_sorted_nodup.
  - intros x I J. apply in_map_iff in I, J. destruct I as (p & <- & _), J as (q & E & _).
    destruct b; discriminate.
  - intros x I J. rewrite in_app_iff in J. apply in_map_iff in I. destruct I as (p & <- & _).
    destruct J as [J|J]; apply in_map_iff in J; destruct J as (q & E & _); destruct b; discriminate.
Qed.

Lemma unmerged_pick b left l :
  flat_map (pick b) (map (unmerged_row left) l) = if Bool.eqb b left then l else [].
Proof.
  induction l as [|x l IH]; cbn; [now destruct (Bool.eqb b left)|]. rewrite IH.
  destruct b, left; reflexivity.
Qed.

(** The unit of every item in the rows of a unit. *)
Lemma rows_of_unit_own b o pc ha hb r x :
  In x (flat_map (pick b) (rows_of_unit o pc ha hb r)) ->
  exists k, unit_of x = Some k /\ In k (map fst (pick b r)).
Proof.
  unfold rows_of_unit. cbn [flat_map]. rewrite in_app_iff, pick_map. intros [I|I].
  - apply in_map_iff in I. destruct I as (p & <- & I). exists (fst p).
    split; [destruct b; reflexivity|]. now apply in_map.
  - assert (TL : forall ui u, In x (tl (unit_ids ui u)) -> unit_of x = Some ui).
    { intros ui u J. apply (unit_ids_of ui u). right. exact J. }
    destruct r as [[ui u]|[ui u]|[uia a] [uib ub]].
    + unfold unmerged_rows in I. rewrite unmerged_pick in I.
      destruct b; [|destruct I]. exists ui. split; [|cbn; auto]. now apply (TL ui u).
    + unfold unmerged_rows in I. rewrite unmerged_pick in I.
      destruct b; [destruct I|]. exists ui. split; [|cbn; auto]. now apply (TL ui u).
    + exists (if b then uia else uib). split; [|destruct b; cbn; auto].
      unfold merged_unit_rows in I. rewrite !flat_map_app, !in_app_iff, !pick_map_all in I.
      destruct I as [I|[I|I]]; apply in_map_iff in I; destruct I as (p & <- & _);
        destruct b; reflexivity.
Qed.
Lemma rows_of_unit_nodup b o pc ha hb r : NoDup (flat_map (pick b) (rows_of_unit o pc ha hb r)).
Proof.
  unfold rows_of_unit. cbn [flat_map]. rewrite pick_map. apply nodup_app.
  - destruct r, b; repeat constructor; intros [].
  - destruct r as [[ui u]|[ui u]|[uia a] [uib ub]].
    + unfold unmerged_rows. rewrite unmerged_pick. pose proof (unit_ids_nodup ui u) as N.
      inversion N. destruct (Bool.eqb b true); [assumption|constructor].
    + unfold unmerged_rows. rewrite unmerged_pick. pose proof (unit_ids_nodup ui u) as N.
      inversion N. destruct (Bool.eqb b false); [assumption|constructor].
    + apply row_kinds_nodup.
  - intros x I J. apply in_map_iff in I. destruct I as (p & <- & _).
    assert (TL : forall ui u, ~ In (IdUnit (fst p)) (tl (unit_ids ui u))).
    { intros ui u K. unfold unit_ids in K. cbn [tl] in K. rewrite !in_app_iff, !in_map_iff in K.
      destruct K as [(k & E & _)|[(k & E & _)|(k & E & _)]]; discriminate. }
    assert (E : (if b then fun p : nat * unit => IdUnit (fst p) else fun p => IdUnit (fst p)) p
                = IdUnit (fst p)) by (destruct b; reflexivity).
    rewrite E in J. clear E. destruct r as [[ui u]|[ui u]|[uia a] [uib ub]].
    + unfold unmerged_rows in J. rewrite unmerged_pick in J.
      destruct (Bool.eqb b true); [exact (TL _ _ J)|destruct J].
    + unfold unmerged_rows in J. rewrite unmerged_pick in J.
      destruct (Bool.eqb b false); [exact (TL _ _ J)|destruct J].
    + unfold merged_unit_rows in J. rewrite !flat_map_app, !in_app_iff, !pick_map_all in J.
      destruct J as [J|[J|J]]; apply in_map_iff in J; destruct J as (q & E & _);
        destruct b; discriminate.
Qed.

Lemma flat_map_flat_map {A B C} (f : B -> list C) (g : A -> list B) l :
  flat_map f (flat_map g l) = flat_map (fun x => flat_map f (g x)) l.
Proof. induction l; cbn; [reflexivity|]. rewrite flat_map_app. congruence. Qed.
Lemma map_flat_map {A B C} (f : B -> C) (g : A -> list B) l :
  map f (flat_map g l) = flat_map (fun x => map f (g x)) l.
Proof. induction l; cbn; [reflexivity|]. rewrite map_app. congruence. Qed.

Lemma all_rows_nodup b o pc ha fa hb fb : NoDup (flat_map (pick b) (all_rows o pc ha fa hb fb)).
Proof.
  unfold all_rows. rewrite flat_map_flat_map.
  apply (flat_map_nodup_key _ unit_of (fun r => map fst (pick b r))).
  - rewrite <- map_flat_map. unfold unit_rows. rewrite pick_merge. destruct b; apply enum_sorted_nodup.
  - intros r x _. apply rows_of_unit_own.
  - intros r _. apply rows_of_unit_nodup.
Qed.

(** ** The items in a row *)

Lemma pick_in_row {A} b (r : merge_result A A) rows x :
  In r rows -> In x (pick b r) -> In x (flat_map (pick b) rows).
Proof. intros. apply in_flat_map. eauto. Qed.

Lemma row_sides {A} (cmp : A -> A -> comparison) l r row :
  In row (merge_all cmp l r) ->
  match row with
  | MLeft x => In x l
  | MRight y => In y r
  | MBoth x y => In x l /\ In y r /\ cmp x y = Eq
  end.
Proof.
  intros I.
  assert (L : forall x, In x (pick true row) -> In x l).
  { intros x J. rewrite <- (pick_merge cmp true l r). now apply (pick_in_row true row). }
  assert (R : forall x, In x (pick false row) -> In x r).
  { intros x J. rewrite <- (pick_merge cmp false l r) at 1. now apply (pick_in_row false row). }
  destruct row as [x|y|x y]; cbn in L, R; auto. repeat split; auto.
  rewrite merge_all_total in I. apply (merge_pairs cmp l r). unfold pairs.
  apply in_flat_map. exists (MBoth x y). split; [assumption|]. cbn. auto.
Qed.

Definition row_ok (given : list (String.string * String.string)) (fa fb : list unit)
    (r : merge_result item_id item_id) : Prop :=
  match r with
  | MLeft x => exists i, names fa x i
  | MRight y => exists j, names fb y j
  | MBoth x y => exists i j, names fa x i /\ names fb y j /\ same_item given i j
  end.

Lemma unit_rows_ok o fa fb r : In r (unit_rows o fa fb) ->
  match r with
  | MLeft (i, u) => nth_error fa i = Some u
  | MRight (i, u) => nth_error fb i = Some u
  | MBoth (i, a) (j, b) => nth_error fa i = Some a /\ nth_error fb j = Some b /\ unit_cmp_id o a b = Eq
  end.
Proof.
  intros I. apply row_sides in I. destruct r as [[i a]|[i b]|[i a] [j b]].
  - now apply enum_sorted_in in I.
  - now apply enum_sorted_in in I.
  - destruct I as (A & B & C). apply enum_sorted_in in A, B. tauto.
Qed.
Lemma unmerged_rows_in left ui u r : In r (unmerged_rows left ui u) ->
  exists x, r = unmerged_row left x /\ In x (unit_ids ui u).
Proof.
  unfold unmerged_rows. rewrite in_map_iff. intros (x & <- & I). exists x. split; [reflexivity|].
  right. exact I.
Qed.
Lemma unit_ids_names units ui u x : nth_error units ui = Some u -> In x (unit_ids ui u) ->
  exists i, names units x i.
Proof.
  intros U I.
  assert (J : In x (all_ids units)).
  { unfold all_ids. apply in_flat_map. exists (ui, u). split; [now apply enumerate_in|exact I]. }
  apply all_ids_in in J. destruct (item_at units x) as [i|] eqn:E; [|congruence].
  exists i. now apply names_iff.
Qed.

Lemma filter_types_listable o h u k t :
  (fun a : nat * type => filter_type o true (inline_types u h) (snd a)) (k, t) = true -> is_listable t.
Proof. cbn. intros F. apply filter_type_iff in F. eapply listed_listable; eauto. Qed.

Lemma merged_unit_row_ok given o pc ha fa uia ua hb fb uib ub r : maps given o ->
  nth_error fa uia = Some ua -> nth_error fb uib = Some ub -> unit_cmp_id o ua ub = Eq ->
  In r (merged_unit_rows o pc ha uia ua hb uib ub) -> row_ok given fa fb r.
Proof.
  intros M UA UB EQ. pose proof (proj2 (same_unit_iff given o ua ub M) EQ) as SU.
  unfold merged_unit_rows. rewrite !in_app_iff. intros [I|[I|I]].
  - apply in_map_iff in I. destruct I as (q & <- & I). apply row_sides in I.
    destruct q as [[k t]|[k t]|[k t] [k' t']]; cbn.
    + apply enum_sorted_in in I. eexists. econstructor; [eassumption|apply I].
    + apply enum_sorted_in in I. eexists. econstructor; [eassumption|apply I].
    + destruct I as (A & B & C). apply enum_sorted_in in A, B.
      destruct A as [A LA], B as [B LB]. apply filter_types_listable in LA, LB.
      do 2 eexists. split; [|split]; [econstructor; eassumption|econstructor; eassumption|].
      constructor; [assumption|]. apply same_type_iff; auto. cbn in C.
      rewrite type_cmp_id_key in C; auto. 
  - apply in_map_iff in I. destruct I as (q & <- & I).
    apply (Permutation_in _ (filter_partition _ _)) in I. apply row_sides in I.
    destruct q as [[k t]|[k t]|[k t] [k' t']]; cbn.
    + apply enum_sorted_in in I. eexists. econstructor; [eassumption|apply I].
    + apply enum_sorted_in in I. eexists. econstructor; [eassumption|apply I].
    + destruct I as (A & B & C). apply enum_sorted_in in A, B.
      destruct A as [A LA], B as [B LB].
      do 2 eexists. split; [|split]; [econstructor; eassumption|econstructor; eassumption|].
      constructor; [assumption|]. now apply same_function_iff.
  - apply in_map_iff in I. destruct I as (q & <- & I). apply row_sides in I.
    destruct q as [[k t]|[k t]|[k t] [k' t']]; cbn.
    + apply enum_sorted_in in I. eexists. econstructor; [eassumption|apply I].
    + apply enum_sorted_in in I. eexists. econstructor; [eassumption|apply I].
    + destruct I as (A & B & C). apply enum_sorted_in in A, B.
      destruct A as [A LA], B as [B LB].
      do 2 eexists. split; [|split]; [econstructor; eassumption|econstructor; eassumption|].
      constructor; [assumption|]. now apply same_variable_iff.
Qed.

Lemma all_rows_ok given o pc ha fa hb fb r : maps given o ->
  In r (all_rows o pc ha fa hb fb) -> row_ok given fa fb r.
Proof.
  intros M I. unfold all_rows in I. apply in_flat_map in I. destruct I as (q & Q & I).
  apply unit_rows_ok in Q. unfold rows_of_unit in I. destruct I as [<-|I].
  - destruct q as [[i a]|[i b]|[i a] [j b]]; cbn.
    + eexists. constructor. eassumption.
    + eexists. constructor. eassumption.
    + destruct Q as (A & B & C). do 2 eexists. split; [|split]; [constructor; eassumption..|].
      constructor. now apply (same_unit_iff given o).
  - destruct q as [[i a]|[i b]|[i a] [j b]].
    + apply unmerged_rows_in in I. destruct I as (x & -> & I). cbn.
      now apply (unit_ids_names fa i a).
    + apply unmerged_rows_in in I. destruct I as (x & -> & I). cbn.
      now apply (unit_ids_names fb i b).
    + destruct Q as (A & B & C). eapply merged_unit_row_ok; eauto.
Qed.

(** ** The rows that are shown *)

Lemma insert_map {A B} (g : A -> B) (c : B -> B -> comparison) x l :
  map g (insert (fun x y => c (g x) (g y)) x l) = insert c (g x) (map g l).
Proof.
  induction l as [|y l IH]; cbn; [reflexivity|]. destruct (c (g x) (g y)); cbn; congruence.
Qed.
Lemma stable_sort_map {A B} (g : A -> B) (c : B -> B -> comparison) l :
  map g (stable_sort (fun x y => c (g x) (g y)) l) = stable_sort c (map g l).
Proof. induction l as [|x l IH]; cbn; [reflexivity|]. now rewrite insert_map, IH. Qed.
Lemma merge_map {A B} (g : A -> B) (c : B -> B -> comparison) l r :
  map (map_result g g) (merge_all (fun x y => c (g x) (g y)) l r) = merge_all c (map g l) (map g r).
Proof.
  rewrite !merge_all_total. revert l r.
  apply (merge_ind (fun x y => c (g x) (g y))
    (fun l r => map (map_result g g) (merge (fun x y => c (g x) (g y)) l r) =
                merge c (map g l) (map g r))).
  - reflexivity.
  - intros x l IH. rewrite merge_eq. cbn [map]. rewrite (merge_eq c). cbn [map map_result].
    f_equal. exact IH.
  - intros y r IH. rewrite merge_eq. cbn [map]. rewrite (merge_eq c). cbn [map map_result].
    f_equal. exact IH.
  - intros x l y r E IH. rewrite merge_eq, E. cbn [map]. rewrite (merge_eq c), E. cbn [map map_result].
    f_equal. exact IH.
  - intros x l y r E IH. rewrite merge_eq, E. cbn [map]. rewrite (merge_eq c), E. cbn [map map_result].
    f_equal. exact IH.
  - intros x l y r E IH. rewrite merge_eq, E. cbn [map]. rewrite (merge_eq c), E. cbn [map map_result].
    f_equal. exact IH.
Qed.

Lemma unit_rows_shown o fa fb : map (map_result snd snd) (unit_rows o fa fb) = merged_units o fa fb.
Proof.
  unfold unit_rows, merged_units. rewrite (merge_map snd (unit_cmp_id o)).
  rewrite !(stable_sort_map snd (unit_cmp_id o)).
  unfold enumerate_and_filter_units, filter_units. now rewrite !filter_map_snd, !enumerate_snd.
Qed.
Lemma type_rows_shown o ha ua hb ub :
  map (map_result snd snd) (type_rows o ha ua hb ub) = merged_types o ha ua hb ub.
Proof.
  unfold type_rows, merged_types. rewrite (merge_map snd (fun x y => type_cmp_id ha x hb y)).
  rewrite (stable_sort_map snd (fun x y => type_cmp_id ha x ha y)).
  rewrite (stable_sort_map snd (fun x y => type_cmp_id hb x hb y)).
  unfold enumerate_and_filter_types, filter_types. now rewrite !filter_map_snd, !enumerate_snd.
Qed.
Lemma function_rows_shown o pc ha ua hb ub :
  map (map_result snd snd) (filter (fun r => negb (enum_inlined r)) (function_rows o pc ha ua hb ub)) =
    fst (merged_functions o pc ha ua hb ub) /\
  map (map_result snd snd) (filter enum_inlined (function_rows o pc ha ua hb ub)) =
    snd (merged_functions o pc ha ua hb ub).
Proof.
  unfold merged_functions. cbn [fst snd].
  assert (F : forall f (l : list (merge_result (nat * func) (nat * func))),
    map (map_result snd snd) (filter (fun r => f (map_result snd snd r)) l) =
    filter f (map (map_result snd snd) l)).
  { clear. intros f l. induction l as [|r l IH]; cbn; [reflexivity|].
    destruct (f (map_result snd snd r)); cbn; congruence. }
  assert (R : map (map_result snd snd) (function_rows o pc ha ua hb ub) =
    merge_all function_cmp_id
      (stable_sort (fun x y => function_cmp_for_sort pc ha x ha y) (filter_functions o ua))
      (stable_sort (fun x y => function_cmp_for_sort pc hb x hb y) (filter_functions o ub))).
  { unfold function_rows. rewrite (merge_map snd function_cmp_id).
    rewrite (stable_sort_map snd (fun x y => function_cmp_for_sort pc ha x ha y)).
    rewrite (stable_sort_map snd (fun x y => function_cmp_for_sort pc hb x hb y)).
    unfold enumerate_and_filter_functions, filter_functions.
    now rewrite !filter_map_snd, !enumerate_snd. }
  rewrite <- R. split; [exact (F (fun r => negb (row_inlined r)) _)|exact (F row_inlined _)].
Qed.
Lemma variable_rows_shown o ua ub :
  map (map_result snd snd) (variable_rows o ua ub) = merged_variables o ua ub.
Proof.
  unfold variable_rows, merged_variables. rewrite (merge_map snd variable_cmp_id).
  rewrite !(stable_sort_map snd variable_cmp_id).
  unfold enumerate_and_filter_variables, filter_variables.
  now rewrite !filter_map_snd, !enumerate_snd.
Qed.
