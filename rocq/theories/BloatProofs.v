(** Proofs about the report of function sizes. *)
From Coq Require Import List NArith ZArith Bool Lia String Permutation Sorted.
From Verif Require Import Base BaseProofs RangeModel TypeModel NamespaceModel DieModel FileModel FileSpec
  CfiModel LocationModel PrintModel NameModel CodeModel CodeSpec CodeProofs BloatModel BloatSpec.
Import ListNotations.
Local Open Scope N_scope.

(** ** Groups *)

Lemma text_eqb_spec a : forall b, text_eqb a b = true <-> a = b.
Proof.
  induction a as [|x a IH]; intros [|y b]; cbn; try easy. rewrite andb_true_iff, N.eqb_eq, IH.
  split; [intros [-> ->]; reflexivity|now intros [= -> ->]].
Qed.
Lemma key_eqb_spec a b : key_eqb a b = true <-> a = b.
Proof.
  unfold key_eqb. rewrite andb_true_iff, !text_eqb_spec. destruct a, b; cbn. split; [intros [-> ->]|intros [= -> ->]]; auto.
Qed.
Lemma key_eqb_refl a : key_eqb a a = true.
Proof. now apply key_eqb_spec. Qed.

Definition item := (function_key * N * (nat * nat))%type.
Definition i_key (x : item) := fst (fst x).
Definition i_size (x : item) := snd (fst x).
Definition i_pos (x : item) := snd x.
Definition add_item (l : list (function_key * total)) (x : item) := add_total (i_key x) (i_size x) (i_pos x) l.
Definition with_key (k : function_key) (l : list item) : list item := filter (fun x => key_eqb (i_key x) k) l.

Definition entry_ok (l : list item) (e : function_key * total) : Prop :=
  to_functions (snd e) = map i_pos (with_key (fst e) l) /\
  to_size (snd e) = sum (map i_size (with_key (fst e) l)) mod two64.

Lemma sum_app a b : sum (a ++ b) = sum a + sum b.
Proof. unfold sum. induction a as [|x a IH]; [reflexivity|]. cbn [fold_right app]. rewrite IH. lia. Qed.

Lemma add64_mod x y : add64 (x mod two64) y = (x + y) mod two64.
Proof. unfold add64, wrap64. apply N.add_mod_idemp_l. discriminate. Qed.

Lemma with_key_app k l x : with_key k (l ++ [x]) =
  if key_eqb (i_key x) k then with_key k l ++ [x] else with_key k l.
Proof.
  unfold with_key. rewrite filter_app. cbn [filter]. destruct (key_eqb (i_key x) k); [reflexivity|apply app_nil_r].
Qed.

Lemma entry_ok_other l x e : i_key x <> fst e -> entry_ok l e -> entry_ok (l ++ [x]) e.
Proof.
  intros N [A B]. unfold entry_ok. rewrite with_key_app.
  destruct (key_eqb (i_key x) (fst e)) eqn:E; [apply key_eqb_spec in E; congruence|]. now split.
Qed.

Lemma add_item_keys g x k : In k (map fst (add_item g x)) <-> k = i_key x \/ In k (map fst g).
Proof.
  unfold add_item. induction g as [|[k' t] g IH]; cbn [add_total map fst]; [cbn; intuition|].
  destruct (key_eqb (i_key x) k') eqn:E.
  - apply key_eqb_spec in E as <-. cbn. intuition.
  - cbn [map fst]. cbn. rewrite IH. intuition.
Qed.

Lemma add_item_nodup g x : NoDup (map fst g) -> NoDup (map fst (add_item g x)).
Proof.
  induction g as [|[k t] g IH]; intros H; [repeat constructor; intros []|].
  unfold add_item. cbn [add_total]. inversion H as [|? ? H1 H2]; subst.
  destruct (key_eqb (i_key x) k) eqn:E; [exact H|]. cbn [map fst]. constructor; [|now apply IH].
  fold (add_item g x). rewrite add_item_keys. intros [->|I]; [rewrite key_eqb_refl in E; discriminate|]. exact (H1 I).
Qed.

Lemma add_item_ok l g x : NoDup (map fst g) -> Forall (entry_ok l) g ->
  (~ In (i_key x) (map fst g) -> with_key (i_key x) l = []) -> Forall (entry_ok (l ++ [x])) (add_item g x).
Proof.
  unfold add_item. intros D F N. induction F as [|[k t] g [A B] F IH].
  - cbn [add_total]. constructor; [|constructor]. unfold entry_ok. cbn [fst snd to_functions to_size].
    rewrite with_key_app, key_eqb_refl, (N ltac:(intros [])). cbn. split; [reflexivity|].
    unfold add64, wrap64. now rewrite N.add_0_r.
  - inversion D as [|? ? D1 D2]; subst. cbn [add_total fst snd] in *.
    destruct (key_eqb (i_key x) k) eqn:E.
    + apply key_eqb_spec in E as <-. constructor.
      * unfold entry_ok. cbn [fst snd to_functions to_size]. rewrite with_key_app, key_eqb_refl, !map_app, sum_app.
        rewrite A, B, add64_mod. cbn. split; [reflexivity|]. f_equal. lia.
      * rewrite Forall_forall in F |- *. intros e He. apply entry_ok_other; [|now apply F].
        intros Ek. apply D1. apply in_map_iff. exists e. split; [now symmetry|exact He].
    + assert (Nk : i_key x <> k) by (intros Ek; rewrite Ek, key_eqb_refl in E; discriminate).
      constructor; [now apply entry_ok_other|]. apply IH; [exact D2|]. intros Ni. apply N.
      cbn. intros [Ek|I]; [now apply Nk|now apply Ni].
Qed.

Definition fold_items (l : list item) := fold_left add_item l [].

Lemma fold_items_spec l :
  NoDup (map fst (fold_items l)) /\ Forall (entry_ok l) (fold_items l) /\
  forall k, In k (map fst (fold_items l)) <-> exists x, In x l /\ i_key x = k.
Proof.
  unfold fold_items. induction l as [|x l (D & F & K)] using rev_ind.
  - split; [constructor|]. split; [constructor|]. intros k. split; [intros []|intros (x & [] & _)].
  - rewrite fold_left_app. cbn [fold_left]. split; [now apply add_item_nodup|]. split.
    + apply add_item_ok; [exact D|exact F|]. intros N. unfold with_key.
      assert (X : forall y, In y l -> key_eqb (i_key y) (i_key x) = false).
      { intros y Hy. destruct (key_eqb (i_key y) (i_key x)) eqn:E; [|reflexivity].
        exfalso. apply N, K. exists y. split; [exact Hy|now apply key_eqb_spec]. }
      clear - X. induction l as [|y l IH]; [reflexivity|]. cbn [filter]. rewrite (X y (or_introl eq_refl)).
      apply IH. intros z Hz. apply X. now right.
    + intros k. rewrite add_item_keys, K. split.
      * intros [->|(y & Hy & E)]; [exists x; split; [apply in_or_app; right; now left|reflexivity]|].
        exists y. split; [apply in_or_app; now left|exact E].
      * intros (y & Hy & E). apply in_app_or in Hy as [Hy|[<-|[]]]; [right; now exists y|left; now symmetry].
Qed.

(** ** Positions *)

Definition place := (nat * nat * sized_unit * sized_function)%type.
Definition pl_pos (x : place) : nat * nat := fst (fst x).
Definition pl_unit (x : place) : sized_unit := snd (fst x).
Definition pl_fun (x : place) : sized_function := snd x.

Lemma in_indexed {A} (l : list A) i x : In (i, x) (indexed l) <-> nth_error l i = Some x.
Proof.
  unfold indexed.
  assert (G : forall s, In (i, x) (combine (seq s (List.length l)) l) <-> (s <= i)%nat /\ nth_error l (i - s) = Some x).
  { induction l as [|y l IH]; intros s; cbn [List.length seq combine].
    - split; [intros []|]. intros [_ H]. destruct (i - s)%nat; discriminate.
    - cbn [In]. rewrite IH. split.
      + intros [[= -> ->]|[L H]].
        * split; [lia|]. now rewrite Nat.sub_diag.
        * split; [lia|]. replace (i - s)%nat with (S (i - S s)) by lia. exact H.
      + intros [L H]. destruct (Nat.eq_dec i s) as [->|N].
        * left. rewrite Nat.sub_diag in H. cbn in H. congruence.
        * right. split; [lia|]. replace (i - s)%nat with (S (i - S s)) in H by lia. exact H. }
  rewrite G. rewrite Nat.sub_0_r. split; [now intros []|]. intros H. split; [lia|exact H].
Qed.

Lemma in_positions units x : In x (positions units) <-> function_at units (pl_pos x) (pl_unit x) (pl_fun x).
Proof.
  unfold positions, function_at. rewrite in_flat_map. destruct x as [[[ui fi] u] f]. cbn [pl_pos pl_unit pl_fun fst snd]. split.
  - intros ([i v] & H1 & H2). apply in_map_iff in H2 as ([j g] & [= <- <- <- <-] & H2).
    apply in_indexed in H1, H2. now split.
  - intros [H1 H2]. exists (ui, u). split; [now apply in_indexed|]. apply in_map_iff. exists (fi, f).
    split; [reflexivity|now apply in_indexed].
Qed.

Lemma seq_sorted s n : StronglySorted lt (seq s n).
Proof.
  revert s. induction n as [|n IH]; intros s; [constructor|]. cbn [seq]. constructor; [apply IH|].
  apply Forall_forall. intros x Hx. apply in_seq in Hx. lia.
Qed.

Lemma indexed_sorted {A} (l : list A) : StronglySorted lt (map fst (indexed l)).
Proof.
  unfold indexed. assert (E : map fst (combine (seq 0 (List.length l)) l) = seq 0 (List.length l)).
  { generalize 0%nat. induction l as [|x l IH]; intros s; [reflexivity|]. cbn. now rewrite IH. }
  rewrite E. apply seq_sorted.
Qed.

Lemma sorted_app {A} (R : A -> A -> Prop) l m : StronglySorted R l -> StronglySorted R m ->
  (forall x y, In x l -> In y m -> R x y) -> StronglySorted R (l ++ m).
Proof.
  intros Hl Hm H. induction Hl as [|x l Hl IH Hx]; [exact Hm|]. cbn. constructor.
  - apply IH. intros a b Ha Hb. apply H; [now right|exact Hb].
  - apply Forall_app. split; [exact Hx|]. apply Forall_forall. intros y Hy. apply H; [now left|exact Hy].
Qed.

Lemma positions_sorted units : StronglySorted earlier (map pl_pos (positions units)).
Proof.
  unfold positions. pose proof (indexed_sorted units) as S. induction (indexed units) as [|[i u] l IH]; [constructor|].
  cbn [flat_map map fst snd] in *. inversion S as [|? ? S1 S2]; subst. rewrite map_app. apply sorted_app.
  - rewrite map_map. cbn [pl_pos fst]. pose proof (indexed_sorted (su_functions u)) as T.
    induction (indexed (su_functions u)) as [|[j f] m IHm]; [constructor|].
    cbn [map fst] in *. inversion T as [|? ? T1 T2]; subst. constructor; [now apply IHm|].
    apply Forall_forall. intros p Hp. apply in_map_iff in Hp as ([j' f'] & <- & Hp).
    right. cbn. split; [reflexivity|]. rewrite Forall_forall in T2. apply T2. now apply (in_map fst m (j', f')).
  - now apply IH.
  - intros p q Hp Hq. rewrite map_map in Hp. apply in_map_iff in Hp as ([j f] & <- & _).
    apply in_map_iff in Hq as ([[[i' j'] u'] f'] & <- & Hq). apply in_flat_map in Hq as ([i2 u2] & H1 & H2).
    apply in_map_iff in H2 as ([j2 f2] & [= <- <- <- <-] & _). left. cbn.
    rewrite Forall_forall in S2. apply S2. now apply (in_map fst l (i2, u2)).
Qed.

Lemma earlier_irrefl p : ~ earlier p p.
Proof. unfold earlier. lia. Qed.
Lemma earlier_asym p q : earlier p q -> ~ earlier q p.
Proof. unfold earlier. lia. Qed.

Lemma sorted_unique l m : StronglySorted earlier l -> StronglySorted earlier m ->
  (forall p, In p l <-> In p m) -> l = m.
Proof.
  intros Hl. revert m. induction Hl as [|x l Hl IH Hx]; intros m Hm E.
  { destruct m as [|y m]; [reflexivity|]. destruct (proj2 (E y) (or_introl eq_refl)). }
  destruct Hm as [|y m Hm Hy]; [destruct (proj1 (E x) (or_introl eq_refl))|].
  rewrite Forall_forall in Hx, Hy.
  assert (x = y) as <-.
  { destruct (proj1 (E x) (or_introl eq_refl)) as [|I1]; [now symmetry|].
    destruct (proj2 (E y) (or_introl eq_refl)) as [|I2]; [assumption|].
    exfalso. exact (earlier_asym x y (Hx y I2) (Hy x I1)). }
  f_equal. apply (IH m Hm). intros p. split; intros Hp.
  - destruct (proj1 (E p) (or_intror Hp)) as [<-|]; [|assumption]. exfalso. exact (earlier_irrefl x (Hx x Hp)).
  - destruct (proj2 (E p) (or_intror Hp)) as [<-|]; [|assumption]. exfalso. exact (earlier_irrefl x (Hy x Hp)).
Qed.

(** ** The items of a file *)

Definition to_item (x : place) : list item :=
  match opt64_get (sf_size (pl_fun x)) with
  | Some n => [(key_of (pl_unit x) (pl_fun x), n, pl_pos x)]
  | None => []
  end.
Definition items (units : list sized_unit) : list item := flat_map to_item (positions units).

Lemma groups_items units : groups units = fold_items (items units).
Proof.
  unfold groups, fold_items, items. generalize (@nil (function_key * total)) as g.
  induction (positions units) as [|[[[ui fi] u] f] l IH]; intros g; [reflexivity|].
  cbn [fold_left flat_map]. rewrite fold_left_app, <- IH. f_equal. unfold to_item. cbn [add_function pl_fun pl_unit pl_pos fst snd].
  now destruct (opt64_get (sf_size f)).
Qed.

Lemma in_items units x : In x (items units) <->
  exists u f, function_at units (i_pos x) u f /\ has_size f (i_size x) /\ key_of u f = i_key x.
Proof.
  unfold items, has_size. rewrite in_flat_map. destruct x as [[k n] p]. cbn [i_pos i_size i_key fst snd]. split.
  - intros (y & Hy & H). apply in_positions in Hy. unfold to_item in H.
    destruct (opt64_get (sf_size (pl_fun y))) as [n'|] eqn:E; [|destruct H]. destruct H as [[= <- <- <-]|[]].
    now exists (pl_unit y), (pl_fun y).
  - intros (u & f & H & E & <-). exists (p, u, f). split; [now apply in_positions|].
    unfold to_item. cbn [pl_fun pl_unit pl_pos fst snd]. rewrite E. now left.
Qed.

Lemma sub_sorted {A} (g : A -> list item) (q : A -> nat * nat) l : StronglySorted earlier (map q l) ->
  (forall x, map i_pos (g x) = [q x] \/ g x = []) -> StronglySorted earlier (map i_pos (flat_map g l)).
Proof.
  intros S H. induction l as [|x l IH]; [constructor|]. cbn [map flat_map] in *.
  inversion S as [|? ? S1 S2]; subst. rewrite map_app. specialize (IH S1).
  destruct (H x) as [-> | ->]; [|exact IH]. cbn. constructor; [exact IH|].
  rewrite Forall_forall in S2 |- *. intros p Hp. apply S2.
  apply in_map_iff in Hp as (i & <- & Hi). apply in_flat_map in Hi as (y & Hy & Hi).
  destruct (H y) as [E|E]; [|rewrite E in Hi; destruct Hi].
  apply (in_map i_pos) in Hi. rewrite E in Hi. destruct Hi as [<-|[]]. now apply in_map.
Qed.

Lemma items_sorted units : StronglySorted earlier (map i_pos (items units)).
Proof.
  unfold items. apply (sub_sorted to_item pl_pos); [apply positions_sorted|].
  intros x. unfold to_item. destruct (opt64_get _); [now left|now right].
Qed.

Lemma filter_sorted (f : item -> bool) l : StronglySorted earlier (map i_pos l) -> StronglySorted earlier (map i_pos (filter f l)).
Proof.
  intros S. induction l as [|x l IH]; [constructor|]. cbn [map filter] in *. inversion S as [|? ? S1 S2]; subst.
  destruct (f x); [|now apply IH]. cbn [map]. constructor; [now apply IH|]. rewrite Forall_forall in S2 |- *.
  intros p Hp. apply S2. apply in_map_iff in Hp as (y & <- & Hy). apply filter_In in Hy as [Hy _]. now apply in_map.
Qed.

Lemma items_sizes units l : (forall x, In x l -> In x (items units)) -> sizes units (map i_pos l) (map i_size l).
Proof.
  induction l as [|x l IH]; intros H; [constructor|]. cbn [map].
  destruct (proj1 (in_items units x) (H x (or_introl eq_refl))) as (u & f & F & S & _).
  apply (sz_cons units _ u f); [exact F|exact S|]. apply IH. intros y Hy. apply H. now right.
Qed.

Lemma sizes_unique units l m n : sizes units l m -> sizes units l n -> m = n.
Proof.
  intros H. revert n. induction H as [|p u f s l m [F1 F2] S H IH]; intros n Hn; inversion Hn as [|? u' f' s' ? m' [G1 G2] T]; subst; [reflexivity|].
  rewrite F1 in G1. injection G1 as <-. rewrite F2 in G2. injection G2 as <-. unfold has_size in *.
  rewrite S in T. injection T as <-. f_equal. now apply IH.
Qed.

Lemma items_all units : all_sized units (map i_pos (items units)).
Proof.
  split; [apply items_sorted|]. intros p. rewrite in_map_iff. split.
  - intros (x & <- & Hx). apply in_items in Hx as (u & f & F & S & _). now exists u, f, (i_size x).
  - intros (u & f & n & F & S). exists (key_of u f, n, p). split; [reflexivity|]. apply in_items. now exists u, f.
Qed.

Lemma groups_ok units k t : In (k, t) (groups units) ->
  copies units (fst k) (snd k) (to_functions t) /\ to_functions t <> [] /\
  forall ns, sizes units (to_functions t) ns -> to_size t = sum ns mod 2 ^ 64.
Proof.
  rewrite groups_items. destruct (fold_items_spec (items units)) as (D & F & K). intros H.
  pose proof (proj1 (Forall_forall _ _) F _ H) as [A B]. cbn [fst snd] in A, B. rewrite A.
  split; [split|split].
  - apply filter_sorted, items_sorted.
  - intros p. rewrite in_map_iff. unfold copy_of. split.
    + intros (x & <- & Hx). apply filter_In in Hx as [Hx E]. apply key_eqb_spec in E.
      apply in_items in Hx as (u & f & Fx & S & Ek). exists u, f, (i_size x). split; [exact Fx|]. split; [exact S|].
      rewrite <- E, <- Ek. now split.
    + intros (u & f & n & Fx & S & E1 & E2). exists (key_of u f, n, p). split; [reflexivity|]. apply filter_In.
      split; [apply in_items; now exists u, f|]. apply key_eqb_spec. destruct k. cbn in *. now rewrite <- E1, <- E2.
  - destruct (proj1 (K k) (in_map fst _ _ H)) as (x & Hx & <-).
    assert (I : In x (with_key (i_key x) (items units))) by (apply filter_In; split; [exact Hx|apply key_eqb_refl]).
    destruct (with_key (i_key x) (items units)); [destruct I|discriminate].
  - intros ns Hn. rewrite B. f_equal. f_equal.
    apply (sizes_unique units (map i_pos (with_key k (items units)))); [|exact Hn].
    apply items_sizes. intros x Hx. now apply filter_In in Hx.
Qed.

Lemma groups_keys units : NoDup (map fst (groups units)).
Proof. rewrite groups_items. apply (fold_items_spec (items units)). Qed.

Lemma groups_cover units p u f n : function_at units p u f -> has_size f n ->
  exists t, In (key_of u f, t) (groups units) /\ In p (to_functions t).
Proof.
  intros F S. rewrite groups_items. destruct (fold_items_spec (items units)) as (D & G & K).
  assert (I : In (key_of u f, n, p) (items units)) by (apply in_items; now exists u, f).
  assert (Hk : In (key_of u f) (map fst (fold_items (items units)))) by (apply K; now exists (key_of u f, n, p)).
  apply in_map_iff in Hk as ([k t] & Ek & H). cbn in Ek. subst k. exists t. split; [exact H|].
  pose proof (proj1 (Forall_forall _ _) G _ H) as [A _]. cbn [fst snd] in A. rewrite A.
  apply (in_map i_pos _ (key_of u f, n, p)). apply filter_In. split; [exact I|apply key_eqb_refl].
Qed.

(** The sum over the groups. *)
Lemma partition_sum (l : list item) (ks : list function_key) : NoDup ks -> (forall x, In x l -> In (i_key x) ks) ->
  sum (map (fun k => sum (map i_size (with_key k l))) ks) = sum (map i_size l).
Proof.
  intros D. induction l as [|x l IH]; intros H.
  { clear H. induction ks as [|k ks IHk]; [reflexivity|]. cbn in *. inversion D; subst. now apply IHk. }
  cbn [map]. change (sum (i_size x :: map i_size l)) with (i_size x + sum (map i_size l)).
  rewrite <- IH by (intros y Hy; apply H; now right).
  assert (I : In (i_key x) ks) by (apply H; now left). clear H IH.
  induction D as [|k ks Hk D IHk]; [destruct I|]. cbn [map]. unfold sum in *. cbn [fold_right].
  unfold with_key at 1. cbn [filter]. fold (with_key k l).
  destruct (key_eqb (i_key x) k) eqn:E.
  - apply key_eqb_spec in E as <-. cbn [map fold_right].
    assert (X : map (fun k => fold_right N.add 0 (map i_size (with_key k (x :: l)))) ks =
                map (fun k => fold_right N.add 0 (map i_size (with_key k l))) ks).
    { apply map_ext_in. intros k' Hk'. do 2 f_equal. unfold with_key. cbn [filter].
      destruct (key_eqb (i_key x) k') eqn:E; [|reflexivity]. apply key_eqb_spec in E as <-. contradiction. }
    rewrite X. lia.
  - destruct I as [->|I]; [rewrite key_eqb_refl in E; discriminate|]. rewrite (IHk I). fold (with_key k l). lia.
Qed.

Lemma sum_mod l : (sum (map (fun x => x mod two64) l)) mod two64 = sum l mod two64.
Proof.
  unfold sum. induction l as [|x l IH]; [reflexivity|]. cbn [map fold_right].
  rewrite N.add_mod by discriminate. rewrite IH, N.mod_mod by discriminate. now rewrite <- N.add_mod by discriminate.
Qed.

Lemma sum_perm l m : Permutation l m -> sum l = sum m.
Proof. unfold sum. induction 1; cbn [fold_right]; lia. Qed.

Lemma sum_le x l : In x l -> x <= sum l.
Proof. unfold sum. induction l as [|y l IH]; intros []; cbn [fold_right]; [subst; lia|specialize (IH H); lia]. Qed.

Lemma groups_sum units ps ns : all_sized units ps -> sizes units ps ns ->
  exists exact, sum exact = sum ns /\ map (fun e => to_size (snd e)) (groups units) = map (fun x => x mod two64) exact.
Proof.
  intros [S A] Hn. destruct (items_all units) as [S' A'].
  assert (ps = map i_pos (items units)) as -> by (apply sorted_unique; [exact S|exact S'|]; intros p; rewrite A, A'; reflexivity).
  assert (ns = map i_size (items units)) as ->.
  { apply (sizes_unique units (map i_pos (items units))); [exact Hn|]. now apply items_sizes. }
  exists (map (fun k => sum (map i_size (with_key k (items units)))) (map fst (groups units))).
  rewrite groups_items. destruct (fold_items_spec (items units)) as (D & F & K). split.
  - apply partition_sum; [exact D|]. intros x Hx. apply K. now exists x.
  - rewrite !map_map. apply map_ext_in. intros e He. rewrite Forall_forall in F. now apply F.
Qed.

Lemma by_size_preorder : total_preorder by_size.
Proof.
  constructor; unfold by_size.
  - intros x. apply N.compare_refl.
  - intros x y. apply N.compare_antisym.
  - intros x y z. repeat rewrite N.compare_le_iff. lia.
Qed.

(** ** Callers *)

Lemma push_all_callers p cs : forall m a,
  fold_left (fun m c => push_caller m p c) cs m a = m a ++ map (fun _ => p) (filter (fun c => ca_to c =? a) cs).
Proof.
  induction cs as [|c cs IH]; intros m a; cbn [fold_left filter map]; [now rewrite app_nil_r|].
  rewrite IH. unfold push_caller. rewrite N.eqb_sym. destruct (ca_to c =? a); [|reflexivity].
  cbn [map]. now rewrite <- app_assoc.
Qed.

Lemma add_ranges_spec code p l : forall m m', add_ranges code p l m = Done m' ->
  exists cs, calls_by (fun r cs => code r = Done cs) l cs /\
    forall a, m' a = m a ++ map (fun _ => p) (filter (fun c => ca_to c =? a) cs).
Proof.
  induction l as [|r l IH]; intros m m' E; cbn [add_ranges] in E.
  - injection E as <-. exists []. split; [constructor|]. intros a. cbn. now rewrite app_nil_r.
  - destruct (code r) as [cs|] eqn:C; [|discriminate]. destruct (IH _ _ E) as (ds & B & H).
    exists (cs ++ ds). split; [now constructor|]. intros a.
    rewrite H, push_all_callers, filter_app, map_app. now rewrite app_assoc.
Qed.

Lemma add_ranges_done code p l : (forall r, In r l -> code r <> Panic) -> forall m, add_ranges code p l m <> Panic.
Proof.
  intros H. induction l as [|r l IH]; intros m; [discriminate|]. cbn [add_ranges].
  pose proof (H r (or_introl eq_refl)) as Hr. destruct (code r); [|congruence]. apply IH.
  intros q Hq. apply H. now right.
Qed.

Definition sized_place (x : place) : bool := match opt64_get (sf_size (pl_fun x)) with Some _ => true | None => false end.

Lemma add_callers_spec code units l : (forall x, In x l -> In x (positions units)) -> forall m m',
  add_callers (Some code) l m = Done m' -> forall a, exists k,
    called_from (fun r cs => code r = Done cs) units a (map pl_pos (filter sized_place l)) k /\ m' a = m a ++ k.
Proof.
  intros H. induction l as [|x l IH]; intros m m' E a.
  { cbn in E. injection E as <-. exists []. split; [constructor|now rewrite app_nil_r]. }
  specialize (IH (fun y Hy => H y (or_intror Hy))). pose proof (H x (or_introl eq_refl)) as Hx.
  apply in_positions in Hx. destruct x as [[[ui fi] u] f]. cbn [add_callers] in E. cbn [filter].
  unfold sized_place at 1. cbn [pl_fun pl_pos pl_unit fst snd] in *.
  destruct (opt64_get (sf_size f)) as [n|] eqn:S; [|exact (IH _ _ E a)].
  destruct (add_ranges code (ui, fi) (sf_ranges f) m) as [m1|] eqn:R; [|discriminate].
  destruct (add_ranges_spec _ _ _ _ _ R) as (cs & B & Hm). destruct (IH _ _ E a) as (k & C & Hk).
  eexists. split; [cbn [map]; apply (cf_cons _ _ _ _ u f cs); [exact Hx|exact B|exact C]|].
  rewrite Hk, Hm. now rewrite app_assoc.
Qed.

Lemma filter_places f l : StronglySorted earlier (map pl_pos l) -> StronglySorted earlier (map pl_pos (filter f l)).
Proof.
  intros S. induction l as [|x l IH]; [constructor|]. cbn [map filter] in *. inversion S as [|? ? S1 S2]; subst.
  destruct (f x); [|now apply IH]. cbn [map]. constructor; [now apply IH|]. rewrite Forall_forall in S2 |- *.
  intros p Hp. apply S2. apply in_map_iff in Hp as (y & <- & Hy). apply filter_In in Hy as [Hy _]. now apply in_map.
Qed.

Lemma places_all units : all_sized units (map pl_pos (filter sized_place (positions units))).
Proof.
  split; [apply filter_places, positions_sorted|]. intros p. rewrite in_map_iff. unfold has_size. split.
  - intros (x & <- & Hx). apply filter_In in Hx as [Hx S]. apply in_positions in Hx. unfold sized_place in S.
    destruct (opt64_get (sf_size (pl_fun x))) as [n|] eqn:E; [|discriminate]. now exists (pl_unit x), (pl_fun x), n.
  - intros (u & f & n & F & S). exists (p, u, f). split; [reflexivity|]. apply filter_In. split; [now apply in_positions|].
    unfold sized_place. cbn [pl_fun snd]. now rewrite S.
Qed.

Lemma all_sized_unique units l m : all_sized units l -> all_sized units m -> l = m.
Proof. intros [S A] [S' A']. apply sorted_unique; [exact S|exact S'|]. intros p. now rewrite A, A'. Qed.

Lemma callers_spec code units m ps a : callers (Some code) units = Done m -> all_sized units ps ->
  called_from (fun r cs => code r = Done cs) units a ps (m a).
Proof.
  intros E A. rewrite (all_sized_unique units ps _ A (places_all units)).
  destruct (add_callers_spec code units (positions units) (fun x H => H) _ _ E a) as (k & C & ->). exact C.
Qed.

Lemma calls_by_impl (P Q : range -> list call -> Prop) (R : range -> Prop) l cs : Forall R l ->
  (forall r c, R r -> P r c -> Q r c) -> calls_by P l cs -> calls_by Q l cs.
Proof.
  intros F H B. induction B as [|r l a b Pr B IH]; [constructor|]. inversion F; subst.
  constructor; [now apply H|now apply IH].
Qed.

Definition ranges_ok (units : list sized_unit) : Prop :=
  forall p u f, function_at units p u f -> Forall range_ok (sf_ranges f).

Lemma called_impl (P Q : range -> list call -> Prop) units a l m : ranges_ok units ->
  (forall r c, range_ok r -> P r c -> Q r c) -> called_from P units a l m -> called_from Q units a l m.
Proof.
  intros R H C. induction C as [|p u f cs l m F B C IH]; [constructor|].
  apply (cf_cons Q units a p u f cs); [exact F| |exact IH]. exact (calls_by_impl P Q range_ok _ _ (R p u f F) H B).
Qed.

Lemma callers_done code units : ranges_ok units -> (forall r, range_ok r -> code r <> Panic) ->
  callers (Some code) units <> Panic.
Proof.
  intros R H. unfold callers.
  assert (G : forall l, (forall x, In x l -> In x (positions units)) -> forall m, add_callers (Some code) l m <> Panic).
  { induction l as [|[[[ui fi] u] f] l IH]; intros I m; [discriminate|]. cbn [add_callers].
    specialize (IH (fun y Hy => I y (or_intror Hy))).
    pose proof (I _ (or_introl eq_refl)) as Hx. apply in_positions in Hx. cbn [pl_pos pl_unit pl_fun fst snd] in Hx.
    destruct (opt64_get (sf_size f)); [|apply IH].
    pose proof (R _ _ _ Hx) as Fr. rewrite Forall_forall in Fr.
    pose proof (add_ranges_done code (ui, fi) (sf_ranges f) (fun r Hr => H r (Fr r Hr)) m) as D.
    destruct (add_ranges _ _ _ _); [apply IH|congruence]. }
  now apply G.
Qed.

(** ** Printing *)

Definition in_file (units : list sized_unit) (p : nat * nat) : Prop := exists u f, function_at units p u f.

Lemma at_position_spec units p u f : at_position units p = Done (u, f) <-> function_at units p u f.
Proof.
  unfold at_position, function_at. destruct (nth_error units (fst p)) as [v|]; [|split; [discriminate|intros []; discriminate]].
  destruct (nth_error (su_functions v) (snd p)) as [g|] eqn:E.
  - split; [intros [= -> ->]; auto|]. intros [[= ->] H]. rewrite E in H. congruence.
  - split; [discriminate|]. intros [[= ->] H]. congruence.
Qed.

Lemma called_in_file P units a l m p : called_from P units a l m -> In p m -> In p l.
Proof.
  induction 1 as [|q u f cs l m F B C IH]; [intros []|]. intros H. apply in_app_or in H as [H|H]; [|right; now apply IH].
  apply in_map_iff in H as (c & <- & _). now left.
Qed.

Lemma callers_in_file code units m a p : callers code units = Done m -> In p (m a) -> in_file units p.
Proof.
  intros E H. destruct code as [code|].
  - pose proof (callers_spec code units m _ a E (places_all units)) as C.
    pose proof (called_in_file _ _ _ _ _ p C H) as I. apply (proj2 (places_all units)) in I as (u & f & n & F & _).
    now exists u, f.
  - exfalso. unfold callers in E. assert (G : forall l m', add_callers None l m' = Done m -> m = m').
    { induction l as [|[[[ui fi] u] f] l IH]; intros m' X; cbn in X; [congruence|].
      destruct (opt64_get (sf_size f)); now apply IH. }
    rewrite (G _ _ E) in H. exact H.
Qed.

Lemma bloat_callers_done units m a : (forall p, In p (m a) -> in_file units p) -> bloat_callers units m a <> Panic.
Proof.
  intros H. unfold bloat_callers.
  assert (G : all_done (map (caller_line units) (m a)) <> Panic).
  { apply all_done_spec. intros p Hp. destruct (H p Hp) as (u & f & F). apply at_position_spec in F.
    unfold caller_line. rewrite F. discriminate. }
  destruct (all_done _); [discriminate|congruence].
Qed.

Lemma all_done_panic {A B} (f : A -> outcome B) l x : In x l -> f x = Panic -> all_done (map f l) = Panic.
Proof.
  induction l as [|y l IH]; intros [] E; cbn [map all_done].
  - subst. now rewrite E.
  - destruct (f y); [|reflexivity]. now rewrite IH.
Qed.

Lemma all_done_where {A B} (f : A -> outcome B) l : all_done (map f l) = Panic -> exists x, In x l /\ f x = Panic.
Proof.
  induction l as [|y l IH]; [discriminate|]. cbn [map all_done]. destruct (f y) as [b|] eqn:E.
  - destruct (all_done (map f l)); [discriminate|]. intros _. destruct (IH eq_refl) as (x & Hx & Ex).
    exists x. split; [now right|exact Ex].
  - intros _. exists y. split; [now left|exact E].
Qed.

Lemma copy_done units code m p u f : callers code units = Done m -> function_at units p u f ->
  (copy_doc units m p = Panic <-> opt64_get (sf_address f) = None \/ opt64_get (sf_size f) = None).
Proof.
  intros C F. apply at_position_spec in F. unfold copy_doc. rewrite F.
  destruct (opt64_get (sf_address f)) as [a|]; [|tauto]. destruct (opt64_get (sf_size f)) as [n|]; [|tauto].
  pose proof (bloat_callers_done units m a (fun p => callers_in_file code units m a p C)) as D.
  destruct (bloat_callers units m a); [|congruence]. split; [discriminate|intros []; discriminate].
Qed.

Lemma bloat_done units order code m : Permutation order (groups units) -> callers code units = Done m ->
  (bloat_doc units (bloat_totals order) m = Panic <->
   exists p u f n, function_at units p u f /\ has_size f n /\ opt64_get (sf_address f) = None).
Proof.
  intros P C. unfold bloat_doc, bloat_totals.
  assert (P' : Permutation (stable_sort by_size order) (groups units)) by now rewrite stable_sort_perm.
  split.
  - intros H. assert (H1 : all_done (map (total_doc units m) (stable_sort by_size order)) = Panic)
      by (destruct (all_done _); [discriminate|reflexivity]).
    apply all_done_where in H1 as ([k t] & I & E). apply (Permutation_in _ P') in I.
    destruct (groups_ok units k t I) as ((_ & A) & _ & _). unfold total_doc in E. cbn [snd fst] in E.
    assert (H2 : all_done (map (copy_doc units m) (to_functions t)) = Panic)
      by (destruct (all_done (map (copy_doc units m) (to_functions t))); [discriminate|reflexivity]).
    apply all_done_where in H2 as (p & Hp & Ep). apply A in Hp as (u & f & n & F & S & _).
    apply (copy_done units code m p u f C F) in Ep as [Ea|Es]; [now exists p, u, f, n|]. unfold has_size in S. congruence.
  - intros (p & u & f & n & F & S & Ea). destruct (groups_cover units p u f n F S) as (t & It & Ip).
    assert (E : copy_doc units m p = Panic) by (apply (copy_done units code m p u f C F); now left).
    rewrite (all_done_panic (total_doc units m) (stable_sort by_size order) (key_of u f, t)); [reflexivity| |].
    + apply (Permutation_in _ (Permutation_sym P')). exact It.
    + unfold total_doc. cbn [snd]. now rewrite (all_done_panic _ _ p Ip E).
Qed.
