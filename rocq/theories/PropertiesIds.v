(** Property theorems C23, C24: ids of the items of one file, and of the rows of a
    comparison of two files. *)
From Coq Require Import List Arith NArith Bool String Ascii Lia Sorted Permutation.
From Verif Require Import Base BaseProofs TypeModel LayoutModel FileModel DiffModel DiffSpec MergeProofs
  OptionsModel FilterModel FilterSpec OptionsProofs FilterProofs PropertiesFilter PropertiesListing
  IdModel IdSpec IdProofs.
Import ListNotations.
Local Open Scope string_scope.
Local Open Scope list_scope.
Local Open Scope nat_scope.

(** ** C23: ids of the items of one file *)

Lemma assigned units ids log : assign_ids units = (ids, log) ->
  ids = all_ids units /\ map fst log = ids /\
  (forall x n, In (x, n) log <-> nth_error ids n = Some x).
Proof.
  intros E. rewrite assign_ids_eq in E. injection E as <- <-. split; [reflexivity|]. split.
  - rewrite map_map. exact (enumerate_snd _).
  - intros x n. rewrite in_map_iff. split.
    + intros ([m y] & F & I). injection F as -> ->. now apply enumerate_in.
    + intros N. exists (n, x). split; [reflexivity|]. now apply enumerate_in.
Qed.
Lemma assigned_id units ids log x n : assign_ids units = (ids, log) ->
  nth_error ids n = Some x -> id_of log x = n.
Proof.
  intros E N. destruct (assigned _ _ _ E) as (-> & F & L). apply id_of_in.
  - rewrite F. apply all_ids_nodup.
  - now apply L.
Qed.
Lemma named_at units ids log x i : assign_ids units = (ids, log) -> names units x i ->
  nth_error ids (id_of log x) = Some x.
Proof.
  intros E N. apply names_iff in N.
  assert (I : In x ids).
  { destruct (assigned _ _ _ E) as (-> & _). apply all_ids_in. congruence. }
  apply In_nth_error in I. destruct I as (n & I). now rewrite (assigned_id _ _ _ _ _ E I).
Qed.

(** Every unit, type, function and variable has an id that leads back to it, every
    number below the length of the table is the id of an item, other numbers lead
    nowhere, and no two items share an id. *)
Theorem C23_bijection :
  forall units ids log, assign_ids units = (ids, log) ->
    (forall x i, names units x i ->
       id_of log x < List.length ids /\ print_id_item units ids (id_of log x) = Some i) /\
    (forall n, n < List.length ids -> exists x i, names units x i /\ id_of log x = n) /\
    (forall n, List.length ids <= n -> print_id_item units ids n = None) /\
    (forall x y i j, names units x i -> names units y j -> id_of log x = id_of log y -> x = y).
Proof.
  intros units ids log E. conjs.
  - intros x i N. pose proof (named_at _ _ _ _ _ E N) as P. split.
    + apply nth_error_Some. congruence.
    + unfold print_id_item. rewrite P. now apply names_iff.
  - intros n L. destruct (nth_error ids n) as [x|] eqn:N;
      [|apply nth_error_None in N; lia].
    assert (I : In x (all_ids units)).
    { destruct (assigned _ _ _ E) as (<- & _). now apply nth_error_In in N. }
    apply all_ids_in in I. destruct (item_at units x) as [i|] eqn:F; [|congruence].
    exists x, i. split; [now apply names_iff|]. now apply (assigned_id _ _ _ _ _ E).
  - intros n L. unfold print_id_item. apply nth_error_None in L. now rewrite L.
  - intros x y i j X Y H. apply (named_at _ _ _ _ _ E) in X, Y. congruence.
Qed.
Print Assumptions C23_bijection.

Lemma unit_first units i u : nth_error units i = Some u ->
  exists p q, all_ids units = p ++ unit_ids i u ++ q /\
    (forall y, In y p -> exists k, unit_of y = Some k /\ k < i).
Proof.
  intros U. unfold all_ids.
  assert (N : nth_error (enumerate units) i = Some (i, u)) by (apply nth_error_enumerate; eauto).
  apply nth_error_split in N. destruct N as (p & q & E & L). rewrite E.
  exists (flat_map (fun p => unit_ids (fst p) (snd p)) p),
    (flat_map (fun p => unit_ids (fst p) (snd p)) q).
  split; [rewrite flat_map_app; reflexivity|].
  intros y I. apply in_flat_map in I. destruct I as ([k v] & I & J).
  exists k. split; [now apply (unit_ids_of k v)|].
  apply In_nth_error in I. destruct I as (m & I).
  assert (m < List.length p) by (apply nth_error_Some; congruence).
  assert (M : nth_error (enumerate units) m = Some (k, v)) by (rewrite E, nth_error_app1; auto).
  apply nth_error_enumerate in M. destruct M as (w & M & _). injection M as -> _. lia.
Qed.

(** Ids follow the order of the units, and a unit comes before what is in it. *)
Theorem C23_order :
  forall units ids log, assign_ids units = (ids, log) ->
    (forall x y i j a b, names units x i -> names units y j -> in_unit x a -> in_unit y b -> a < b ->
       id_of log x < id_of log y) /\
    (forall x i a, names units x i -> in_unit x a -> x <> IdUnit a ->
       id_of log (IdUnit a) < id_of log x).
Proof.
  intros units ids log E. destruct (assigned _ _ _ E) as (IDS & _). split.
  - intros x y i j a b X Y A B L. apply (named_at _ _ _ _ _ E) in X, Y. rewrite IDS in X, Y.
    apply in_unit_iff in A, B. exact (all_ids_order units _ _ x y a b X Y A B L).
  - intros x i a X A D.
    assert (U : exists u, nth_error units a = Some u).
    { destruct X; inversion A; subst; eauto. }
    destruct U as (u & U). destruct (unit_first units a u U) as (p & q & F & P).
    pose proof (named_at _ _ _ _ _ E X) as NX. 
    pose proof (named_at _ _ _ _ _ E (nm_unit _ _ _ U)) as NU.
    rewrite IDS, F in NX.
    assert (NU' : id_of log (IdUnit a) = List.length p).
    { apply (assigned_id _ _ _ _ _ E). rewrite IDS, F, nth_error_app2, Nat.sub_diag by lia.
      reflexivity. }
    rewrite NU'. destruct (lt_eq_lt_dec (id_of log x) (List.length p)) as [[L|L]|L]; [| |exact L].
    + rewrite nth_error_app1 in NX by exact L. apply nth_error_In in NX.
      destruct (P _ NX) as (k & K & K2). apply in_unit_iff in A. rewrite A in K. injection K as <-. lia.
    + rewrite L, nth_error_app2, Nat.sub_diag in NX by lia. cbn in NX. injection NX as <-. congruence.
Qed.
Print Assumptions C23_order.

(** The parent of an item within a unit is that unit; a unit has none. *)
Theorem C23_parent :
  forall units ids log, assign_ids units = (ids, log) ->
    (forall x i a, names units x i -> in_unit x a -> x <> IdUnit a ->
       print_parent units ids log (id_of log x) = Some (id_of log (IdUnit a))) /\
    (forall a u, names units (IdUnit a) (ItUnit u) ->
       print_parent units ids log (id_of log (IdUnit a)) = None).
Proof.
  intros units ids log E. split.
  - intros x i a X A D. pose proof (named_at _ _ _ _ _ E X) as N. unfold print_parent. rewrite N.
    destruct X as [b u U|b k u t U K|b k u t U K|b k u t U K]; inversion A; subst;
      [congruence|rewrite U; reflexivity..].
  - intros a u N. unfold print_parent. now rewrite (named_at _ _ _ _ _ E N).
Qed.
Print Assumptions C23_parent.

(** Id 0, which the output does not link, belongs to the first unit only. *)
Theorem C23_zero :
  forall units ids log, assign_ids units = (ids, log) ->
    forall x i, names units x i -> (id_of log x = 0 <-> x = IdUnit 0).
Proof.
  intros units ids log E x i N. destruct (C23_order units ids log E) as (O1 & O2).
  assert (B : exists a u, nth_error units a = Some u /\ in_unit x a).
  { destruct N; do 2 eexists; (split; [eassumption|constructor]). }
  destruct B as (a & u & U & A). split.
  - intros Z. destruct a as [|a].
    + destruct x as [|b|b k|b k|b k]; inversion A; subst; auto;
        specialize (O2 _ _ 0 N A ltac:(discriminate)); lia.
    + assert (V : exists v, nth_error units 0 = Some v).
      { destruct units; [discriminate|]. cbn. eauto. }
      destruct V as (v & V). specialize (O1 (IdUnit 0) x _ i 0 (S a) (nm_unit _ _ _ V) N
        (iu_unit 0) A ltac:(lia)). lia.
  - intros ->. apply (assigned_id _ _ _ _ _ E). destruct (assigned _ _ _ E) as (-> & _).
    inversion N as [? w W| | |]; subst. destruct units as [|w' units]; [discriminate|]. reflexivity.
Qed.
Print Assumptions C23_zero.

Definition ex_t (n : string) : type := mkType 0%N (TUnspecified (mkUnspecified None (Some n))).
Example C23_example :
  let u1 := mkUnit (Some "a") [] [] [] [] in
  let u2 := mkUnit (Some "b") [] [ex_t "t"; ex_t "t"] [ex_func 1 [] "f" 1 4 false]%N [] in
  let '(ids, log) := assign_ids [u1; u2] in
  ids = [IdUnit 0; IdUnit 1; IdType 1 0; IdType 1 1; IdFunction 1 0] /\
  id_of log (IdType 1 1) = 3 /\ print_id_item [u1; u2] ids 3 = Some (ItType u2 (ex_t "t")) /\
  print_parent [u1; u2] ids log 3 = Some 1 /\ names [u1; u2] (IdType 1 1) (ItType u2 (ex_t "t")).
Proof. repeat split; try reflexivity. now constructor. Qed.

(** Not every item has an id that the output links: the first unit has id 0. *)
Theorem C23_never_zero_refuted :
  exists units ids log x i, assign_ids units = (ids, log) /\ names units x i /\ id_of log x = 0.
Proof.
  exists [mkUnit None [] [] [] []]. do 2 eexists. exists (IdUnit 0). eexists.
  split; [reflexivity|]. split; [constructor; reflexivity|reflexivity].
Qed.
Print Assumptions C23_never_zero_refuted.

(** ** C24: ids of the rows of a comparison *)

Section Merged.
  Variables (o : options) (pc : param_cmp) (ha : hash) (fa : list unit) (hb : hash) (fb : list unit).
  Let s := assign_merged_ids o pc ha fa hb fb.
  Let rows := all_rows o pc ha fa hb fb.

  Lemma merged_ids : ms_ids s = map row_pair rows.
  Proof. unfold s. rewrite assign_merged_fold. exact (proj1 (fold_push_row true rows)). Qed.
  Lemma merged_id b x n r : nth_error rows n = Some r -> In x (pick b r) ->
    id_of (side_log b s) x = n.
  Proof.
    unfold s. rewrite assign_merged_fold. apply side_id. apply all_rows_nodup.
  Qed.
  Lemma merged_nth n p : nth_error (ms_ids s) n = Some p ->
    exists r, nth_error rows n = Some r /\ row_pair r = p.
  Proof.
    rewrite merged_ids. intros N. rewrite nth_error_map in N.
    destruct (nth_error rows n) as [r|]; [|discriminate]. injection N as <-. eauto.
  Qed.
  Lemma merged_at n r : nth_error rows n = Some r -> nth_error (ms_ids s) n = Some (row_pair r).
  Proof. intros N. rewrite merged_ids. now apply map_nth_error. Qed.
End Merged.

Lemma names_some units x i : names units x i -> x <> IdNone.
Proof. intros []; discriminate. Qed.

(** An entry of the table is about one item of the first file, one item of the second,
    or two items that are the same kind of thing with the same name in the same unit.
    Each of them carries the number of the entry as its id, and looking the number up
    shows exactly these items. *)
Theorem C24_rows :
  forall c o given pc ha fa hb fb n x y, configured c o given ->
    let s := assign_merged_ids o pc ha fa hb fb in
    nth_error (ms_ids s) n = Some (x, y) ->
    (exists i j, names fa x i /\ names fb y j /\ same_item given i j /\
       id_of (ms_a s) x = n /\ id_of (ms_b s) y = n /\
       diff_id_target fa fb (ms_ids s) n = DTwo i j) \/
    (exists i, names fa x i /\ y = IdNone /\ id_of (ms_a s) x = n /\
       diff_id_target fa fb (ms_ids s) n = DOld i) \/
    (exists j, x = IdNone /\ names fb y j /\ id_of (ms_b s) y = n /\
       diff_id_target fa fb (ms_ids s) n = DNew j).
Proof.
  intros c o given pc ha fa hb fb n x y M s N. apply configured_maps in M.
  destruct (merged_nth _ _ _ _ _ _ _ _ N) as (r & R & E).
  pose proof (all_rows_ok given o pc ha fa hb fb r M (nth_error_In _ _ R)) as OK.
  pose proof (fun b z => merged_id o pc ha fa hb fb b z n r R) as ID. fold s in ID.
  unfold diff_id_target. rewrite N.
  destruct r as [z|z|z w]; injection E as <- <-; cbn in OK.
  - right. left. destruct OK as (i & OK). exists i. conjs; auto.
    + apply (ID true). cbn. auto.
    + apply names_iff in OK. rewrite OK. destruct z; try reflexivity. discriminate.
  - right. right. destruct OK as (i & OK). exists i. conjs; auto.
    + apply (ID false). cbn. auto.
    + apply names_iff in OK. now rewrite OK.
  - left. destruct OK as (i & j & A & B & S). exists i, j. conjs; auto.
    + apply (ID true). cbn. auto.
    + apply (ID false). cbn. auto.
    + pose proof A as A'. pose proof B as B'. apply names_iff in A', B'. rewrite A', B'.
      destruct S; inversion A; subst; inversion B; subst; reflexivity.
Qed.
Print Assumptions C24_rows.

(** No item is in two rows. *)
Theorem C24_once :
  forall o pc ha fa hb fb n m x y z w,
    let ids := ms_ids (assign_merged_ids o pc ha fa hb fb) in
    nth_error ids n = Some (x, y) -> nth_error ids m = Some (z, w) ->
    (x = z /\ x <> IdNone) \/ (y = w /\ y <> IdNone) -> n = m.
Proof.
  intros o pc ha fa hb fb n m x y z w ids N M H. unfold ids in *. clear ids.
  apply merged_nth in N, M. destruct N as (r & R & E), M as (q & Q & F).
  destruct H as [[<- D]|[<- D]].
  - rewrite <- (merged_id o pc ha fa hb fb true x n r R).
    + rewrite <- (merged_id o pc ha fa hb fb true x m q Q); [reflexivity|].
      destruct q; injection F as <- <-; cbn; auto.
    + destruct r; injection E as <- <-; cbn; auto.
  - rewrite <- (merged_id o pc ha fa hb fb false y n r R).
    + rewrite <- (merged_id o pc ha fa hb fb false y m q Q); [reflexivity|].
      destruct q; injection F as <- <-; cbn; auto.
    + destruct r; injection E as <- <-; cbn; auto.
Qed.
Print Assumptions C24_once.

Lemma row_listed o pc ha fa hb fb r q : In r (unit_rows o fa fb) -> In q (rows_of_unit o pc ha hb r) ->
  exists n, nth_error (ms_ids (assign_merged_ids o pc ha fa hb fb)) n = Some (row_pair q).
Proof.
  intros R Q.
  assert (I : In q (all_rows o pc ha fa hb fb)) by (apply in_flat_map; eauto).
  apply In_nth_error in I. destruct I as (n & I). exists n. now apply merged_at.
Qed.

(** Every row that a comparison shows has an entry with exactly its items: the rows of
    units, ... *)
Theorem C24_unit_rows :
  forall o pc ha fa hb fb r, In r (merged_units o fa fb) ->
    exists n, row_at fa fb (ms_ids (assign_merged_ids o pc ha fa hb fb)) n (map_result ItUnit ItUnit r).
Proof.
  intros o pc ha fa hb fb r I. rewrite <- unit_rows_shown in I. apply in_map_iff in I.
  destruct I as (q & <- & Q).
  destruct (row_listed o pc ha fa hb fb q _ Q (or_introl eq_refl)) as (n & N). exists n.
  apply unit_rows_ok in Q. destruct q as [[i a]|[i a]|[i a] [j b]]; cbn in *.
  - eexists. split; [exact N|]. now constructor.
  - eexists. split; [exact N|]. now constructor.
  - do 2 eexists. split; [exact N|]. split; now constructor.
Qed.
Print Assumptions C24_unit_rows.

(** ... the rows of types, functions and variables of two units shown together, ... *)
Theorem C24_item_rows :
  forall o pc ha fa hb fb ua ub, In (MBoth ua ub) (merged_units o fa fb) ->
    let ids := ms_ids (assign_merged_ids o pc ha fa hb fb) in
    (forall r, In r (merged_types o ha ua hb ub) ->
       exists n, row_at fa fb ids n (map_result (ItType ua) (ItType ub) r)) /\
    (forall r, In r (fst (merged_functions o pc ha ua hb ub)) \/
               In r (snd (merged_functions o pc ha ua hb ub)) ->
       exists n, row_at fa fb ids n (map_result (ItFunction ua) (ItFunction ub) r)) /\
    (forall r, In r (merged_variables o ua ub) ->
       exists n, row_at fa fb ids n (map_result (ItVariable ua) (ItVariable ub) r)).
Proof.
  intros o pc ha fa hb fb ua ub I ids. rewrite <- unit_rows_shown in I. apply in_map_iff in I.
  destruct I as (q & E & Q). destruct q as [?|?|[i a] [j b]]; try discriminate.
  cbn in E. injection E as -> ->.
  pose proof (fun p => row_listed o pc ha fa hb fb _ p Q) as L. fold ids in L.
  apply unit_rows_ok in Q. destruct Q as (A & B & _).
  assert (K : forall p, In p (merged_unit_rows o pc ha i ua hb j ub) ->
    exists n, nth_error ids n = Some (row_pair p)).
  { intros p P. apply L. right. exact P. }
  clear L. unfold merged_unit_rows in K. conjs.
  - intros r I. rewrite <- type_rows_shown in I. apply in_map_iff in I. destruct I as (q & <- & Q).
    edestruct K as (n & N).
    { apply in_app_iff. left. apply in_map_iff. exists q. split; [reflexivity|exact Q]. }
    exists n. apply row_sides in Q.
    destruct q as [[k t]|[k t]|[k t] [l t']]; cbn in *.
    + apply enum_sorted_in in Q. eexists. split; [exact N|]. now constructor.
    + apply enum_sorted_in in Q. eexists. split; [exact N|]. now constructor.
    + destruct Q as (X & Y & _). apply enum_sorted_in in X, Y. do 2 eexists. split; [exact N|].
      split; now constructor.
  - intros r I.
    assert (I' : exists q, In q (filter (fun r => negb (enum_inlined r)) (function_rows o pc ha ua hb ub)
                  ++ filter enum_inlined (function_rows o pc ha ua hb ub)) /\ map_result snd snd q = r).
    { destruct (function_rows_shown o pc ha ua hb ub) as (F & G). rewrite <- F, <- G in I.
      destruct I as [I|I]; apply in_map_iff in I; destruct I as (q & E & Q); exists q;
        rewrite in_app_iff; auto. }
    destruct I' as (q & Q & <-). edestruct K as (n & N).
    { rewrite !in_app_iff. right. left. apply in_map_iff. exists q. split; [reflexivity|exact Q]. }
    exists n. apply (Permutation_in _ (filter_partition _ _)) in Q. apply row_sides in Q.
    destruct q as [[k t]|[k t]|[k t] [l t']]; cbn in *.
    + apply enum_sorted_in in Q. eexists. split; [exact N|]. now constructor.
    + apply enum_sorted_in in Q. eexists. split; [exact N|]. now constructor.
    + destruct Q as (X & Y & _). apply enum_sorted_in in X, Y. do 2 eexists. split; [exact N|].
      split; now constructor.
  - intros r I. rewrite <- variable_rows_shown in I. apply in_map_iff in I. destruct I as (q & <- & Q).
    edestruct K as (n & N).
    { rewrite !in_app_iff. right. right. apply in_map_iff. exists q. split; [reflexivity|exact Q]. }
    exists n. apply row_sides in Q.
    destruct q as [[k t]|[k t]|[k t] [l t']]; cbn in *.
    + apply enum_sorted_in in Q. eexists. split; [exact N|]. now constructor.
    + apply enum_sorted_in in Q. eexists. split; [exact N|]. now constructor.
    + destruct Q as (X & Y & _). apply enum_sorted_in in X, Y. do 2 eexists. split; [exact N|].
      split; now constructor.
Qed.
Print Assumptions C24_item_rows.

Lemma unit_ids_items ui u :
  (forall t, In t (un_types u) -> exists k, In (IdType ui k) (tl (unit_ids ui u)) /\ nth_error (un_types u) k = Some t) /\
  (forall f, In f (un_functions u) -> exists k, In (IdFunction ui k) (tl (unit_ids ui u)) /\ nth_error (un_functions u) k = Some f) /\
  (forall v, In v (un_variables u) -> exists k, In (IdVariable ui k) (tl (unit_ids ui u)) /\ nth_error (un_variables u) k = Some v).
Proof.
  unfold unit_ids. cbn [tl]. conjs; intros z I; apply In_nth_error in I; destruct I as (k & I);
    exists k; (split; [|assumption]); rewrite !in_app_iff, !in_map_iff;
    (match type of I with ?e = _ =>
       assert (J : e <> None) by (rewrite I; discriminate); apply nth_error_Some in J end).
  - left. exists k. split; [reflexivity|]. apply in_seq. lia.
  - right. left. exists k. split; [reflexivity|]. apply in_seq. lia.
  - right. right. exists k. split; [reflexivity|]. apply in_seq. lia.
Qed.

(** ... and all items of a unit that only one of the files has. *)
Theorem C24_unmatched_units :
  forall o pc ha fa hb fb u,
    let ids := ms_ids (assign_merged_ids o pc ha fa hb fb) in
    (In (MLeft u) (merged_units o fa fb) ->
       (forall t, In t (un_types u) -> exists n, row_at fa fb ids n (MLeft (ItType u t))) /\
       (forall f, In f (un_functions u) -> exists n, row_at fa fb ids n (MLeft (ItFunction u f))) /\
       (forall v, In v (un_variables u) -> exists n, row_at fa fb ids n (MLeft (ItVariable u v)))) /\
    (In (MRight u) (merged_units o fa fb) ->
       (forall t, In t (un_types u) -> exists n, row_at fa fb ids n (MRight (ItType u t))) /\
       (forall f, In f (un_functions u) -> exists n, row_at fa fb ids n (MRight (ItFunction u f))) /\
       (forall v, In v (un_variables u) -> exists n, row_at fa fb ids n (MRight (ItVariable u v)))).
Proof.
  intros o pc ha fa hb fb u ids. split; intros I; rewrite <- unit_rows_shown in I;
    apply in_map_iff in I; destruct I as (q & E & Q).
  - destruct q as [[ui v]|?|? ?]; try discriminate. cbn in E. injection E as ->.
    assert (K : forall x, In x (tl (unit_ids ui u)) -> exists n, nth_error ids n = Some (x, IdNone)).
    { intros x X. destruct (row_listed o pc ha fa hb fb _ (MLeft x) Q) as (n & N); eauto.
      right. unfold unmerged_rows. change (MLeft x) with (unmerged_row true x). now apply in_map. }
    apply unit_rows_ok in Q. destruct (unit_ids_items ui u) as (T & F & V).
    conjs; intros z Z; [apply T in Z|apply F in Z|apply V in Z]; destruct Z as (k & Z & W);
      apply K in Z; destruct Z as (n & N); exists n; eexists; (split; [exact N|now constructor]).
  - destruct q as [?|[ui v]|? ?]; try discriminate. cbn in E. injection E as ->.
    assert (K : forall x, In x (tl (unit_ids ui u)) -> exists n, nth_error ids n = Some (IdNone, x)).
    { intros x X. destruct (row_listed o pc ha fa hb fb _ (MRight x) Q) as (n & N); eauto.
      right. unfold unmerged_rows. change (MRight x) with (unmerged_row false x). now apply in_map. }
    apply unit_rows_ok in Q. destruct (unit_ids_items ui u) as (T & F & V).
    conjs; intros z Z; [apply T in Z|apply F in Z|apply V in Z]; destruct Z as (k & Z & W);
      apply K in Z; destruct Z as (n & N); exists n; eexists; (split; [exact N|now constructor]).
Qed.
Print Assumptions C24_unmatched_units.

(** Entry 0, which the output does not link, is a row of units. *)
Theorem C24_zero :
  forall o pc ha fa hb fb x y,
    nth_error (ms_ids (assign_merged_ids o pc ha fa hb fb)) 0 = Some (x, y) ->
    (forall i, names fa x i -> exists u, i = ItUnit u) /\
    (forall j, names fb y j -> exists u, j = ItUnit u).
Proof.
  intros o pc ha fa hb fb x y N. apply merged_nth in N. destruct N as (r & R & E).
  unfold all_rows in R. destruct (unit_rows o fa fb) as [|q l]; [discriminate|].
  cbn in R. injection R as <-.
  destruct q as [[i a]|[i a]|[i a] [j b]]; cbn in E; injection E as <- <-; split; intros z Z;
    inversion Z; subst; eauto.
Qed.
Print Assumptions C24_zero.

(** A comparison of two files with one unit in common (a function in both and one only
    in the new file) and one unit only in the old file. *)
Example C24_example :
  let f n a := ex_func a [] n a 4 false in
  let ua := mkUnit (Some "m") [] [] [f "x" 1]%N [] in
  let uc := mkUnit (Some "n") [] [ex_t "t"] [] [] in
  let ub := mkUnit (Some "m") [] [] [f "w" 5; f "x" 7]%N [] in
  match parse_options (ex_cli None None [] [] None [] []) with
  | Some o =>
      let s := assign_merged_ids o ex_pc ex_hash [uc; ua] ex_hash [ub] in
      ms_ids s = [(IdUnit 1, IdUnit 0); (IdNone, IdFunction 0 0); (IdFunction 1 0, IdFunction 0 1);
                  (IdUnit 0, IdNone); (IdType 0 0, IdNone)] /\
      id_of (ms_a s) (IdFunction 1 0) = 2 /\ id_of (ms_b s) (IdFunction 0 1) = 2 /\
      diff_id_target [uc; ua] [ub] (ms_ids s) 2 = DTwo (ItFunction ua (f "x" 1%N)) (ItFunction ub (f "x" 7%N))
  | None => False
  end.
Proof. repeat split; reflexivity. Qed.

(** The id that the output gives for a row of functions is not the id of that row: it
    is the id of the unit. *)
Theorem C24_function_link_refuted :
  exists o pc ha fa hb fb n x y m i,
    let s := assign_merged_ids o pc ha fa hb fb in
    nth_error (ms_ids s) n = Some (x, y) /\ names fa x i /\ row_id (ms_a s) x = Some m /\
    n <> m /\ diff_id_target fa fb (ms_ids s) n <> diff_id_target fa fb (ms_ids s) m.
Proof.
  destruct (parse_options (ex_cli None None [] [] None [] [])) as [o|] eqn:E; [|discriminate].
  set (f := ex_func 1%N [] "f" 1%N 4%N false).
  set (u := mkUnit None [] [] [f] []).
  exists o, ex_pc, ex_hash, [u], ex_hash, [u], 1, (IdFunction 0 0), (IdFunction 0 0), 0.
  exists (ItFunction u f). injection E as <-. cbv zeta.
  split; [reflexivity|]. split; [constructor; reflexivity|]. split; [reflexivity|].
  split; [discriminate|]. discriminate.
Qed.
Print Assumptions C24_function_link_refuted.

(** Looking up a number that is no id is not answered with "nothing" as for one file,
    but is a panic. *)
Theorem C24_unknown_id_panics :
  forall fa fb ids n, List.length ids <= n -> diff_id_target fa fb ids n = DPanic.
Proof. intros fa fb ids n L. unfold diff_id_target. apply nth_error_None in L. now rewrite L. Qed.
Print Assumptions C24_unknown_id_panics.
