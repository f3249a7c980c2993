(** Correctness of [shortest_path]. *)
From Coq Require Import List Arith NArith Bool Lia Permutation.
From Coq Require Import ZifyBool ZifyNat ZifyN.
From Verif Require Import Base BaseProofs DiffModel DiffSpec.
Import ListNotations.

Lemma nth_error_set_nth {A} (l : list A) i j x :
  i < length l -> nth_error (set_nth l i x) j = if j =? i then Some x else nth_error l j.
Proof.
  revert i j. induction l as [|y l IH]; intros [|i] [|j] L; cbn in *; try lia; try reflexivity.
  rewrite IH by lia. reflexivity.
Qed.

Lemma set_nth_length {A} (l : list A) i x : length (set_nth l i x) = length l.
Proof. revert i. induction l as [|y l IH]; intros [|i]; cbn; auto. Qed.

(** ** The heap *)

Lemma heap_min_spec h m : heap_min h = Some m ->
  (exists i j, In (m, i, j) h) /\ (forall c i j, In (c, i, j) h -> (m <= c)%N).
Proof.
  revert m. induction h as [|((c, i), j) h IH]; intros m; cbn; [discriminate|].
  destruct (heap_min h) as [m'|] eqn:E.
  - destruct (IH m' eq_refl) as ((i' & j' & I) & L). intros [= <-]. split.
    + destruct (N.min_spec c m') as [(_ & ->)|(_ & ->)]; [exists i, j|exists i', j']; auto.
    + intros c' i2 j2 [[= <- <- <-]|I']; [lia|]. specialize (L _ _ _ I'). lia.
  - intros [= <-]. split; [exists i, j; auto|].
    intros c' i2 j2 [[= <- <- <-]|I']; [lia|].
    destruct h as [|((c'', ?), ?) h]; [easy|]. cbn in E. destruct (heap_min h); discriminate.
Qed.

Lemma heap_min_none h : heap_min h = None -> h = [].
Proof. destruct h as [|((c, i), j) h]; cbn; auto. destruct (heap_min h); discriminate. Qed.

Lemma heap_remove_spec m k h :
  k < length (filter (fun e => N.eqb (fst (fst e)) m) h) ->
  exists i j h', heap_remove m k h = Some ((m, i, j), h') /\ Permutation h ((m, i, j) :: h').
Proof.
  revert k. induction h as [|((c, i), j) h IH]; intros k L; cbn in L; [lia|].
  cbn [heap_remove]. destruct (N.eqb_spec c m) as [->|NE].
  - destruct k as [|k].
    + exists i, j, h. split; auto.
    + cbn in L. destruct (IH k) as (i' & j' & h' & E & P); [lia|]. rewrite E.
      exists i', j', ((m, i, j) :: h'). split; auto. rewrite P. apply perm_swap.
  - destruct (IH k L) as (i' & j' & h' & E & P). rewrite E.
    exists i', j', ((c, i, j) :: h'). split; auto. rewrite P. apply perm_swap.
Qed.

Lemma heap_pop_spec k h : h <> [] ->
  exists c i j h', heap_pop k h = Some ((c, i, j), h') /\ Permutation h ((c, i, j) :: h') /\
    (forall c' i' j', In (c', i', j') h -> (c <= c')%N).
Proof.
  intros NE. unfold heap_pop. destruct (heap_min h) as [m|] eqn:E; [|now apply heap_min_none in E].
  apply heap_min_spec in E. destruct E as ((i0 & j0 & I) & L).
  assert (0 < length (filter (fun e => N.eqb (fst (fst e)) m) h)).
  { destruct (filter (fun e => N.eqb (fst (fst e)) m) h) eqn:F; cbn; [|lia].
    assert (In (m, i0, j0) []) as []. { rewrite <- F. apply filter_In. cbn. rewrite N.eqb_refl. auto. } }
  destruct (heap_remove_spec m (k mod length (filter (fun e => N.eqb (fst (fst e)) m) h)) h)
    as (i & j & h' & R & P).
  { apply Nat.mod_upper_bound. lia. }
  exists m, i, j, h'. auto.
Qed.

Lemma total_cons {A} (c : A -> N) a l : total_cost c (a :: l) = (c a + total_cost c l)%N.
Proof. reflexivity. Qed.

Section Path.
  Context {A : Type}.
  Variables item1 item2 : list A.
  Variables c1 c2 : A -> N.
  Variable dc : A -> A -> N.
  Hypothesis BOUND : (total_cost c1 item1 + total_cost c2 item2 < u64_max)%N.

  Notation n1 := (length item1).
  Notation n2 := (length item2).
  Notation l1 := (len1 item1).
  Notation l2 := (len2 item2).
  Notation MAX := u64_max.
  Notation scr := (script c1 c2 dc (cheaper c1 c2 dc)).

  (** The nodes as a function of the two indices. *)
  Definition rep (nodes : list node) (f : nat -> nat -> node) : Prop :=
    length nodes = l1 * l2 /\
    forall i j, i <= n1 -> j <= n2 -> nth_error nodes (i + j * l1) = Some (f i j).

  Definition upd (f : nat -> nat -> node) (i j : nat) (x : node) : nat -> nat -> node :=
    fun i' j' => if (i' =? i) && (j' =? j) then x else f i' j'.

  Lemma idx_inj i j i' j' : i <= n1 -> i' <= n1 -> i + j * l1 = i' + j' * l1 -> i = i' /\ j = j'.
  Proof.
    intros L L' E. unfold len1 in E.
    assert (j = j').
    { apply (f_equal (fun x => x / (n1 + 1))) in E.
      rewrite !Nat.div_add in E by lia. rewrite !Nat.div_small in E by lia. lia. }
    subst. lia.
  Qed.

  Lemma idx_bound i j : i <= n1 -> j <= n2 -> i + j * l1 < l1 * l2.
  Proof. intros. unfold len1, len2. nia. Qed.

  Lemma rep_upd nodes f i j x : rep nodes f -> i <= n1 -> j <= n2 ->
    rep (set_nth nodes (i + j * l1) x) (upd f i j x).
  Proof.
    intros (L & R) Hi Hj. split; [now rewrite set_nth_length|].
    intros i' j' Hi' Hj'. rewrite nth_error_set_nth by (rewrite L; now apply idx_bound).
    unfold upd. destruct (Nat.eqb_spec (i' + j' * l1) (i + j * l1)) as [E|E].
    - apply idx_inj in E; auto. destruct E as (-> & ->). now rewrite !Nat.eqb_refl.
    - rewrite R by auto.
      destruct (Nat.eqb_spec i' i), (Nat.eqb_spec j' j); try reflexivity. subst. lia.
  Qed.

  Lemma upd_same f i j x : upd f i j x i j = x.
  Proof. unfold upd. now rewrite !Nat.eqb_refl. Qed.
  Lemma upd_other f i j x i' j' : (i', j') <> (i, j) -> upd f i j x i' j' = f i' j'.
  Proof.
    unfold upd. intros H. destruct (Nat.eqb_spec i' i), (Nat.eqb_spec j' j); auto. congruence.
  Qed.

  (** One step of the grid: from [(i, j)] to [(i', j')]. *)
  Inductive edge : direction -> nat -> nat -> nat -> nat -> N -> Prop :=
  | e_vertical : forall i j b, nth_error item2 j = Some b -> edge DVertical i (S j) i j (c2 b)
  | e_horizontal : forall i j a, nth_error item1 i = Some a -> edge DHorizontal (S i) j i j (c1 a)
  | e_diagonal : forall i j a b, nth_error item1 i = Some a -> nth_error item2 j = Some b ->
      cheaper c1 c2 dc a b -> edge DDiagonal (S i) (S j) i j (dc a b).

  Record inv0 (f : nat -> nat -> node) (heap : list heap_state) : Prop := {
    iA : forall i j, i <= n1 -> j <= n2 -> (n_cost (f i j) < MAX)%N ->
      (n_from (f i j) = DNone /\ i = n1 /\ j = n2 /\ n_cost (f i j) = 0%N) \/
      (exists d i0 j0 w, n_from (f i j) = d /\ edge d i0 j0 i j w /\ i0 <= n1 /\ j0 <= n2 /\
         n_done (f i0 j0) = true /\ n_cost (f i j) = (n_cost (f i0 j0) + w)%N);
    iB : forall i j, i <= n1 -> j <= n2 -> n_done (f i j) = true -> (n_cost (f i j) < MAX)%N;
    iD : forall c i j, In (c, i, j) heap ->
      i <= n1 /\ j <= n2 /\ (n_cost (f i j) <= c)%N /\ (c < MAX)%N;
    iE : forall i j, i <= n1 -> j <= n2 -> (n_cost (f i j) < MAX)%N -> n_done (f i j) = false ->
      In (n_cost (f i j), i, j) heap;
    iM : forall i j c i' j', i <= n1 -> j <= n2 -> n_done (f i j) = true -> In (c, i', j') heap ->
      (n_cost (f i j) <= c)%N;
    iZ : n_done (f 0 0) = false;
    iS : n_cost (f n1 n2) = 0%N;
    iL : forall i j, i <= n1 -> j <= n2 -> (n_cost (f i j) <= MAX)%N
  }.

  Definition relaxed (f : nat -> nat -> node) (i j : nat) : Prop :=
    forall d i' j' w, edge d i j i' j' w -> (n_cost (f i' j') <= n_cost (f i j) + w)%N.

  Definition inv (f : nat -> nat -> node) (heap : list heap_state) : Prop :=
    inv0 f heap /\
    forall i j, i <= n1 -> j <= n2 -> n_done (f i j) = true -> relaxed f i j.

  (** ** Costs stay in range *)

  Lemma script_bound x y p c : scr x y p c -> (c <= total_cost c1 x + total_cost c2 y)%N.
  Proof.
    induction 1 as [|a x y p c S IH|b x y p c S IH|a b x y p c S IH H]; unfold cheaper in *;
      rewrite ?total_cons; lia.
  Qed.

  Lemma total_skipn c (l : list A) i : (total_cost c (skipn i l) <= total_cost c l)%N.
  Proof.
    revert i. induction l as [|a l IH]; intros [|i]; cbn [skipn]; try lia.
    specialize (IH i). rewrite total_cons. lia.
  Qed.

  Lemma skipn_cons {X} (l : list X) i x : nth_error l i = Some x -> skipn i l = x :: skipn (S i) l.
  Proof.
    revert i. induction l as [|y l IH]; intros [|i]; cbn; try discriminate.
    - now intros [= ->].
    - apply IH.
  Qed.

  Lemma nth_lt {X} (l : list X) i x : nth_error l i = Some x -> i < length l.
  Proof. intros H. apply nth_error_Some. congruence. Qed.

  Lemma edge_bounds d i j i' j' w : edge d i j i' j' w ->
    i' <= i /\ j' <= j /\ i' + j' < i + j /\ (j' < j -> j' < n2) /\ (i' < i -> i' < n1).
  Proof.
    destruct 1 as [i j b E|i j a E|i j a b E1 E2 _];
      repeat match goal with H : nth_error _ _ = Some _ |- _ => apply nth_lt in H end; lia.
  Qed.

  Lemma edge_script d i j i' j' w p c : edge d i j i' j' w ->
    scr (skipn i item1) (skipn j item2) p c ->
    scr (skipn i' item1) (skipn j' item2) (d :: p) (w + c).
  Proof.
    destruct 1 as [i j b E|i j a E|i j a b E1 E2 Ch]; intros S.
    - rewrite (skipn_cons _ _ _ E). now constructor.
    - rewrite (skipn_cons _ _ _ E). now constructor.
    - rewrite (skipn_cons _ _ _ E1), (skipn_cons _ _ _ E2). now constructor.
  Qed.

  Lemma edge_read d i j i' j' w : edge d i j i' j' w ->
    (d = DDiagonal /\ i = i' + 1 /\ j = j' + 1) \/ (d = DHorizontal /\ i = i' + 1 /\ j = j') \/
    (d = DVertical /\ i = i' /\ j = j' + 1).
  Proof. destruct 1; intuition lia. Qed.

  (** Following the back pointers from a reached node gives a script of that cost. *)
  Lemma reached_script f heap nodes : inv0 f heap -> rep nodes f ->
    forall k i j, n1 - i + (n2 - j) <= k -> i <= n1 -> j <= n2 -> (n_cost (f i j) < MAX)%N ->
    exists p, scr (skipn i item1) (skipn j item2) p (n_cost (f i j)) /\
      (forall fuel, k < fuel -> sp_read item1 fuel nodes i j = SPath p).
  Proof.
    intros I (RL & R) k. induction k as [k IH] using lt_wf_ind. intros i j Lk Hi Hj C.
    destruct (iA _ _ I i j Hi Hj C) as [(F & -> & -> & Z)|(d & i0 & j0 & w & F & E & Hi0 & Hj0 & D & Z)].
    - exists []. rewrite !skipn_all, Z. split; [constructor|].
      intros [|fuel] L; [lia|]. cbn [sp_read]. rewrite R, F by auto. reflexivity.
    - pose proof (edge_bounds _ _ _ _ _ _ E).
      destruct (IH (k - 1) ltac:(lia) i0 j0 ltac:(lia) Hi0 Hj0 (iB _ _ I _ _ Hi0 Hj0 D)) as (p & S & RD).
      exists (d :: p). rewrite Z, N.add_comm. split; [now apply (edge_script _ _ _ _ _ _ _ _ E)|].
      intros [|fuel] L; [lia|]. cbn [sp_read]. rewrite R, F by auto.
      apply edge_read in E.
      destruct E as [(-> & -> & ->)|[(-> & -> & ->)|(-> & -> & ->)]]; rewrite RD by lia; reflexivity.
  Qed.

  Lemma reached_script' f heap : inv0 f heap -> forall i j, i <= n1 -> j <= n2 ->
    (n_cost (f i j) < MAX)%N -> exists p, scr (skipn i item1) (skipn j item2) p (n_cost (f i j)).
  Proof.
    intros I. assert (forall k i j, n1 - i + (n2 - j) <= k -> i <= n1 -> j <= n2 ->
      (n_cost (f i j) < MAX)%N -> exists p, scr (skipn i item1) (skipn j item2) p (n_cost (f i j))); eauto.
    intros k. induction k as [k IH] using lt_wf_ind. intros i j Lk Hi Hj C.
    destruct (iA _ _ I i j Hi Hj C) as [(F & -> & -> & Z)|(d & i0 & j0 & w & F & E & Hi0 & Hj0 & D & Z)].
    - exists []. rewrite !skipn_all, Z. constructor.
    - pose proof (edge_bounds _ _ _ _ _ _ E).
      destruct (IH (k - 1) ltac:(lia) i0 j0 ltac:(lia) Hi0 Hj0 (iB _ _ I _ _ Hi0 Hj0 D)) as (p & S).
      exists (d :: p). rewrite Z, N.add_comm. now apply (edge_script _ _ _ _ _ _ _ _ E).
  Qed.

  (** No addition wraps around. *)
  Lemma edge_cost f heap d i j i' j' w : inv0 f heap -> i <= n1 -> j <= n2 ->
    (n_cost (f i j) < MAX)%N -> edge d i j i' j' w ->
    (n_cost (f i j) + w < MAX)%N /\ add64 (n_cost (f i j)) w = (n_cost (f i j) + w)%N.
  Proof.
    intros I Hi Hj C E. destruct (reached_script' _ _ I i j Hi Hj C) as (p & S).
    apply (edge_script _ _ _ _ _ _ _ _ E) in S. apply script_bound in S.
    pose proof (total_skipn c1 item1 i'). pose proof (total_skipn c2 item2 j').
    assert (n_cost (f i j) + w < MAX)%N by lia. split; auto.
    apply wrap64_small. change two64 with (MAX + 1)%N. lia.
  Qed.

  Lemma step_sum i j a b : nth_error item1 i = Some a -> nth_error item2 j = Some b ->
    add64 (c1 a) (c2 b) = (c1 a + c2 b)%N.
  Proof.
    intros Ea Eb. apply wrap64_small. change two64 with (MAX + 1)%N.
    pose proof (total_skipn c1 item1 i) as H1. pose proof (total_skipn c2 item2 j) as H2.
    rewrite (skipn_cons _ _ _ Ea), total_cons in H1.
    rewrite (skipn_cons _ _ _ Eb), total_cons in H2. lia.
  Qed.

  (** ** Lower bound *)

  Lemma lower_bound f heap m : inv f heap -> (m <= MAX)%N ->
    (forall c i j, In (c, i, j) heap -> (m <= c)%N) ->
    forall x y p c, scr x y p c -> forall i j, x = skipn i item1 -> y = skipn j item2 ->
    i <= n1 -> j <= n2 -> (n_cost (f i j) <= c)%N \/ (m <= c)%N.
  Proof.
    intros (I & RX) MM HM.
    assert (STEP : forall d i0 j0 i j w c, edge d i0 j0 i j w -> i0 <= n1 -> j0 <= n2 ->
      (n_cost (f i0 j0) <= c)%N \/ (m <= c)%N -> (n_cost (f i j) <= w + c)%N \/ (m <= w + c)%N).
    { intros d i0 j0 i j w c E Hi Hj [H|H]; [|lia].
      destruct (n_done (f i0 j0)) eqn:D.
      - pose proof (RX _ _ Hi Hj D _ _ _ _ E). lia.
      - destruct (N.lt_ge_cases (n_cost (f i0 j0)) MAX) as [L|L]; [|lia].
        pose proof (HM _ _ _ (iE _ _ I _ _ Hi Hj L D)). lia. }
    assert (SK : forall (l : list A) i x r, x :: r = skipn i l ->
      nth_error l i = Some x /\ r = skipn (S i) l /\ S i <= length l).
    { induction l as [|y l IH]; intros [|i] x r; cbn [skipn nth_error length]; try discriminate.
      - intros [= -> ->]. repeat split. lia.
      - intros H. apply IH in H. intuition lia. }
    induction 1 as [|a x y p c S IH|b x y p c S IH|a b x y p c S IH Ch]; intros i j Ei Ej Hi Hj.
    - left. assert (i = n1) as ->.
      { apply (f_equal (@length A)) in Ei. rewrite skipn_length in Ei. cbn in Ei. lia. }
      assert (j = n2) as ->.
      { apply (f_equal (@length A)) in Ej. rewrite skipn_length in Ej. cbn in Ej. lia. }
      rewrite (iS _ _ I). lia.
    - apply SK in Ei. destruct Ei as (Ea & -> & Li).
      apply (STEP _ _ _ _ _ _ _ (e_horizontal i j a Ea)); auto.
    - apply SK in Ej. destruct Ej as (Eb & -> & Lj).
      apply (STEP _ _ _ _ _ _ _ (e_vertical i j b Eb)); auto.
    - apply SK in Ei. destruct Ei as (Ea & -> & Li). apply SK in Ej. destruct Ej as (Eb & -> & Lj).
      apply (STEP _ _ _ _ _ _ _ (e_diagonal i j a b Ea Eb Ch)); auto.
  Qed.

  (** ** Pushing *)

  Definition frame (f f' : nat -> nat -> node) : Prop :=
    forall i j, n_done (f' i j) = n_done (f i j) /\ (n_cost (f' i j) <= n_cost (f i j))%N /\
      (n_done (f i j) = true -> f' i j = f i j).

  Definition count_open (nodes : list node) : nat :=
    length (filter (fun n => negb (n_done n)) nodes).

  Lemma count_open_set nodes i x y : nth_error nodes i = Some y ->
    count_open (set_nth nodes i x) + Nat.b2n (negb (n_done y)) =
    count_open nodes + Nat.b2n (negb (n_done x)).
  Proof.
    unfold count_open. revert i. induction nodes as [|z nodes IH]; intros [|i]; cbn; try discriminate.
    - intros [= ->]. destruct (n_done x), (n_done y); cbn; lia.
    - intros E. specialize (IH _ E). destruct (n_done z); cbn; lia.
  Qed.

  Lemma push_spec nodes heap f i j i' j' d w :
    rep nodes f -> inv0 f heap -> edge d i j i' j' w -> i <= n1 -> j <= n2 ->
    n_done (f i j) = true -> n_done (f i' j') = false ->
    (forall a b, a <= n1 -> b <= n2 -> n_done (f a b) = true -> (n_cost (f a b) <= n_cost (f i j))%N) ->
    exists nodes' heap' f',
      sp_push (nodes, heap) (i' + j' * l1) i' j' (add64 (n_cost (f i j)) w) d = Some (nodes', heap') /\
      rep nodes' f' /\ inv0 f' heap' /\ frame f f' /\
      (n_cost (f' i' j') <= n_cost (f i j) + w)%N /\
      length heap' <= S (length heap) /\ count_open nodes' = count_open nodes.
  Proof.
    intros R I E Hi Hj D ND HM. pose proof (edge_bounds _ _ _ _ _ _ E) as EB.
    assert (Hi' : i' <= n1) by lia. assert (Hj' : j' <= n2) by lia.
    pose proof (iB _ _ I _ _ Hi Hj D) as CR.
    destruct (edge_cost _ _ _ _ _ _ _ _ I Hi Hj CR E) as (B & ->).
    unfold sp_push. pose proof (proj2 R _ _ Hi' Hj') as NE. rewrite NE.
    destruct (N.ltb_spec (n_cost (f i j) + w) (n_cost (f i' j'))) as [L|L].
    2: { exists nodes, heap, f. split; [reflexivity|]. split; auto. split; auto.
         split; [intros a b; repeat split; lia|]. auto. }
    set (x := mkNode (n_cost (f i j) + w) d (n_done (f i' j'))).
    exists (set_nth nodes (i' + j' * l1) x), ((n_cost (f i j) + w, i', j') :: heap)%N, (upd f i' j' x).
    split; [reflexivity|]. split; [now apply rep_upd|].
    assert (FR : frame f (upd f i' j' x)).
    { intros a b. unfold upd. destruct (Nat.eqb_spec a i'), (Nat.eqb_spec b j'); cbn; subst;
        repeat split; try lia; auto; congruence. }
    assert (OT : forall a b, n_done (f a b) = true -> upd f i' j' x a b = f a b)
      by (intros a b H; now apply FR).
    split; [|split; [exact FR|split; [|split; [cbn; lia|]]]].
    - constructor.
      + intros a b Ha Hb C. destruct (Nat.eq_dec a i') as [->|NA].
        1: destruct (Nat.eq_dec b j') as [->|NB].
        { rewrite upd_same in *. right. exists d, i, j, w. cbn [n_from n_cost].
          repeat split; auto; rewrite OT by auto; auto. }
        all: rewrite upd_other in * by congruence;
          (destruct (iA _ _ I _ _ Ha Hb C) as [H|(d' & i0 & j0 & w' & H1 & H2 & H3 & H4 & H5 & H6)];
          [left; exact H|right; exists d', i0, j0, w'; repeat split; auto; rewrite OT by auto; auto]).
      + intros a b Ha Hb H. rewrite (proj1 (FR a b)) in H. rewrite OT by auto.
        now apply (iB _ _ I).
      + intros c a b [[= <- <- <-]|H].
        * rewrite upd_same. repeat split; auto. cbn. lia.
        * apply (iD _ _ I) in H. pose proof (FR a b). intuition lia.
      + intros a b Ha Hb C H. destruct (Nat.eq_dec a i') as [->|NA].
        1: destruct (Nat.eq_dec b j') as [->|NB].
        { rewrite upd_same. left. reflexivity. }
        all: rewrite upd_other in * by congruence; right; now apply (iE _ _ I).
      + intros a b c a' b' Ha Hb H. rewrite (proj1 (FR a b)) in H. rewrite OT by auto.
        intros [[= <- _ _]|IN].
        * specialize (HM _ _ Ha Hb H). lia.
        * eapply (iM _ _ I); eauto.
      + rewrite (proj1 (FR 0 0)). apply (iZ _ _ I).
      + pose proof (FR n1 n2). pose proof (iS _ _ I). lia.
      + intros a b Ha Hb. pose proof (FR a b). pose proof (iL _ _ I _ _ Ha Hb). lia.
    - rewrite upd_same. cbn. lia.
    - pose proof (count_open_set _ _ x _ NE). subst x. cbn [n_done] in *. lia.
  Qed.

  (** What one of the three relaxations achieves. *)
  Definition relax_ok (nodes : list node) (heap : list heap_state) (f : nat -> nat -> node) (i j : nat)
      (d : direction) (r : option (sp_state)) : Prop :=
    exists nodes' heap' f', r = Some (nodes', heap') /\ rep nodes' f' /\ inv0 f' heap' /\ frame f f' /\
      (forall i' j' w, edge d i j i' j' w -> (n_cost (f' i' j') <= n_cost (f i j) + w)%N) /\
      length heap' <= S (length heap) /\ count_open nodes' = count_open nodes.

  Definition ready (f : nat -> nat -> node) (i j : nat) : Prop :=
    i <= n1 /\ j <= n2 /\ n_done (f i j) = true /\
    (forall a b, a <= n1 -> b <= n2 -> n_done (f a b) = true -> (n_cost (f a b) <= n_cost (f i j))%N).

  Lemma ready_frame f f' i j : frame f f' -> ready f i j -> ready f' i j.
  Proof.
    intros FR (H1 & H2 & H3 & H4). split; auto. split; auto.
    destruct (FR i j) as (F1 & _ & F3). split; [congruence|].
    intros a b Ha Hb H. rewrite (F3 H3). destruct (FR a b) as (G1 & _ & G3). rewrite G1 in H.
    rewrite (G3 H). auto.
  Qed.

  Lemma relax_none nodes heap f i j d : rep nodes f -> inv0 f heap ->
    (forall i' j' w, edge d i j i' j' w -> (n_cost (f i' j') <= n_cost (f i j) + w)%N) ->
    relax_ok nodes heap f i j d (Some (nodes, heap)).
  Proof.
    intros R I H. exists nodes, heap, f. split; auto. split; auto. split; auto.
    split; [intros a b; repeat split; lia|]. auto.
  Qed.

  Lemma vertical_ok nodes heap f i j : rep nodes f -> inv0 f heap -> ready f i j ->
    relax_ok nodes heap f i j DVertical (sp_vertical item1 item2 c2 (nodes, heap) (i + j * l1) i j).
  Proof.
    intros R I (Hi & Hj & D & HM). unfold sp_vertical.
    destruct j as [|j]; cbn [Nat.ltb Nat.leb].
    { apply relax_none; auto. intros i' j' w E. inversion E. }
    replace (S j - 1) with j by lia. replace (i + S j * l1 - l1) with (i + j * l1) by lia.
    cbn [fst]. rewrite (proj2 R i j), (proj2 R i (S j)) by lia.
    destruct (nth_error item2 j) as [b|] eqn:Eb.
    2: { apply nth_error_None in Eb. lia. }
    destruct (n_done (f i j)) eqn:DN.
    { apply relax_none; auto. intros i' j' w E. inversion E; subst.
      specialize (HM i' j'). assert (j' <= n2) by lia. specialize (HM Hi H DN). lia. }
    destruct (push_spec nodes heap f i (S j) i j DVertical (c2 b)) as (n' & h' & f' & H1 & H2 & H3 & H4 & H5 & H6); auto.
    { now constructor. }
    exists n', h', f'. split; auto. split; auto. split; auto. split; auto. split; auto.
    intros i' j' w E. inversion E; subst. replace b0 with b in * by congruence. auto.
  Qed.

  Lemma horizontal_ok nodes heap f i j : rep nodes f -> inv0 f heap -> ready f i j ->
    relax_ok nodes heap f i j DHorizontal (sp_horizontal item1 c1 (nodes, heap) (i + j * l1) i j).
  Proof.
    intros R I (Hi & Hj & D & HM). unfold sp_horizontal.
    destruct i as [|i]; cbn [Nat.ltb Nat.leb].
    { apply relax_none; auto. intros i' j' w E. inversion E. }
    replace (S i - 1) with i by lia. replace (S i + j * l1 - 1) with (i + j * l1) by lia.
    cbn [fst]. rewrite (proj2 R i j), (proj2 R (S i) j) by lia.
    destruct (nth_error item1 i) as [b|] eqn:Eb.
    2: { apply nth_error_None in Eb. lia. }
    destruct (n_done (f i j)) eqn:DN.
    { apply relax_none; auto. intros i' j' w E. inversion E; subst.
      specialize (HM i' j'). assert (i' <= n1) by lia. specialize (HM H Hj DN). lia. }
    destruct (push_spec nodes heap f (S i) j i j DHorizontal (c1 b)) as (n' & h' & f' & H1 & H2 & H3 & H4 & H5 & H6); auto.
    { now constructor. }
    exists n', h', f'. split; auto. split; auto. split; auto. split; auto. split; auto.
    intros i' j' w E. inversion E; subst. replace a with b in * by congruence. auto.
  Qed.

  Lemma diagonal_ok nodes heap f i j : rep nodes f -> inv0 f heap -> ready f i j ->
    relax_ok nodes heap f i j DDiagonal
      (sp_diagonal item1 item2 c1 c2 dc (nodes, heap) (i + j * l1) i j).
  Proof.
    intros R I (Hi & Hj & D & HM). unfold sp_diagonal.
    destruct i as [|i]; cbn [Nat.ltb Nat.leb andb].
    { apply relax_none; auto. intros i' j' w E. inversion E. }
    destruct j as [|j].
    { apply relax_none; auto. intros i' j' w E. inversion E. }
    replace (S i - 1) with i by lia. replace (S j - 1) with j by lia.
    replace (S i + S j * l1 - l1 - 1) with (i + j * l1) by lia.
    cbn [fst]. rewrite (proj2 R i j), (proj2 R (S i) (S j)) by lia.
    destruct (nth_error item1 i) as [a|] eqn:Ea.
    2: { apply nth_error_None in Ea. lia. }
    destruct (nth_error item2 j) as [b|] eqn:Eb.
    2: { apply nth_error_None in Eb. lia. }
    rewrite (step_sum i j a b) by auto.
    destruct (n_done (f i j)) eqn:DN.
    { apply relax_none; auto. intros i' j' w E. inversion E; subst.
      specialize (HM i' j'). assert (i' <= n1) by lia. assert (j' <= n2) by lia.
      specialize (HM H H0 DN). lia. }
    destruct (N.ltb_spec (dc a b) (c1 a + c2 b)) as [L|L].
    2: { apply relax_none; auto. intros i' j' w E. inversion E; subst.
         replace a0 with a in * by congruence. replace b0 with b in * by congruence.
         unfold cheaper in *. lia. }
    destruct (push_spec nodes heap f (S i) (S j) i j DDiagonal (dc a b)) as (n' & h' & f' & H1 & H2 & H3 & H4 & H5 & H6); auto.
    { now constructor. }
    exists n', h', f'. split; auto. split; auto. split; auto. split; auto. split; auto.
    intros i' j' w E. inversion E; subst.
    replace a0 with a in * by congruence. replace b0 with b in * by congruence. auto.
  Qed.

  (** Taking the popped node as done. *)
  Lemma mark_done nodes heap heap' f c i j :
    rep nodes f -> inv f heap -> Permutation heap ((c, i, j) :: heap') ->
    (forall c' i' j', In (c', i', j') heap -> (c <= c')%N) -> (i, j) <> (0, 0) ->
    n_done (f i j) = false ->
    let x := mkNode (n_cost (f i j)) (n_from (f i j)) true in
    i <= n1 /\ j <= n2 /\
    inv0 (upd f i j x) heap' /\ ready (upd f i j x) i j /\
    (forall a b, a <= n1 -> b <= n2 -> n_done (upd f i j x a b) = true -> (a, b) <> (i, j) ->
       relaxed (upd f i j x) a b).
  Proof.
    intros R (I & RX) P MIN NZ ND x.
    assert (IN : In (c, i, j) heap) by (rewrite P; left; reflexivity).
    destruct (iD _ _ I _ _ _ IN) as (Hi & Hj & C1 & C2).
    assert (EC : n_cost (f i j) = c).
    { pose proof (MIN _ _ _ (iE _ _ I i j Hi Hj ltac:(lia) ND)). lia. }
    assert (COST : forall a b, n_cost (upd f i j x a b) = n_cost (f a b)).
    { intros a b. unfold upd. destruct (Nat.eqb_spec a i), (Nat.eqb_spec b j); subst; reflexivity. }
    assert (FROM : forall a b, n_from (upd f i j x a b) = n_from (f a b)).
    { intros a b. unfold upd. destruct (Nat.eqb_spec a i), (Nat.eqb_spec b j); subst; reflexivity. }
    assert (DONE : forall a b, n_done (f a b) = true -> n_done (upd f i j x a b) = true).
    { intros a b. unfold upd. destruct (Nat.eqb_spec a i), (Nat.eqb_spec b j); subst; auto. }
    assert (DONE' : forall a b, n_done (upd f i j x a b) = true -> n_done (f a b) = true \/ (a, b) = (i, j)).
    { intros a b. unfold upd. destruct (Nat.eqb_spec a i), (Nat.eqb_spec b j); subst; auto. }
    assert (SUB : forall e, In e heap' -> In e heap) by (intros e H; rewrite P; now right).
    split; auto. split; auto. split; [|split].
    - constructor.
      + intros a b Ha Hb. rewrite COST, FROM. intros C.
        destruct (iA _ _ I _ _ Ha Hb C) as [H|(d' & i0 & j0 & w' & H1 & H2 & H3 & H4 & H5 & H6)];
          [left; exact H|right; exists d', i0, j0, w'; rewrite COST; auto 10].
      + intros a b Ha Hb H. rewrite COST. apply DONE' in H. destruct H as [H|[= -> ->]]; [|lia].
        now apply (iB _ _ I).
      + intros c' a b H. rewrite COST. apply SUB in H. now apply (iD _ _ I).
      + intros a b Ha Hb. rewrite COST. intros C H.
        assert (H' : n_done (f a b) = false).
        { destruct (n_done (f a b)) eqn:X; auto. apply DONE in X. congruence. }
        pose proof (iE _ _ I a b Ha Hb C H') as Q. rewrite P in Q. destruct Q as [[= _ <- <-]|Q]; auto.
        rewrite upd_same in H. discriminate.
      + intros a b c' a' b' Ha Hb H Q. rewrite COST. apply SUB in Q.
        apply DONE' in H. destruct H as [H|[= -> ->]].
        * eapply (iM _ _ I); eauto.
        * apply MIN in Q. lia.
      + rewrite upd_other by congruence. apply (iZ _ _ I).
      + rewrite COST. apply (iS _ _ I).
      + intros a b Ha Hb. rewrite COST. now apply (iL _ _ I).
    - split; auto. split; auto. rewrite upd_same. split; [reflexivity|].
      intros a b Ha Hb H. rewrite COST. cbn [n_cost x]. apply DONE' in H.
      destruct H as [H|[= -> ->]]; [|lia]. rewrite EC. eapply (iM _ _ I); eauto.
    - intros a b Ha Hb H NE d i' j' w E. rewrite !COST. apply DONE' in H.
      destruct H as [H|H]; [|congruence]. eapply RX; eauto.
  Qed.

  Lemma frame_trans f g h : frame f g -> frame g h -> frame f h.
  Proof.
    intros H1 H2 i j. destruct (H1 i j) as (A1 & A2 & A3), (H2 i j) as (B1 & B2 & B3).
    split; [congruence|]. split; [lia|]. intros D. rewrite B3 by congruence. auto.
  Qed.

  Lemma relaxed_frame f f' i j : frame f f' -> n_done (f i j) = true -> relaxed f i j -> relaxed f' i j.
  Proof.
    intros FR D RX d i' j' w E. specialize (RX _ _ _ _ E). destruct (FR i j) as (_ & _ & F).
    rewrite (F D). pose proof (FR i' j'). lia.
  Qed.

  (** The three relaxations together. *)
  Lemma relax_all nodes heap f i j : rep nodes f -> inv0 f heap -> ready f i j ->
    (forall a b, a <= n1 -> b <= n2 -> n_done (f a b) = true -> (a, b) <> (i, j) -> relaxed f a b) ->
    exists nodes' heap' f',
      obind (sp_vertical item1 item2 c2 (nodes, heap) (i + j * l1) i j) (fun st2 =>
        obind (sp_horizontal item1 c1 st2 (i + j * l1) i j) (fun st3 =>
        sp_diagonal item1 item2 c1 c2 dc st3 (i + j * l1) i j)) = Some (nodes', heap') /\
      rep nodes' f' /\ inv f' heap' /\ length heap' <= 3 + length heap /\
      count_open nodes' = count_open nodes.
  Proof.
    intros R I RD RX.
    destruct (vertical_ok _ _ _ _ _ R I RD) as (na & ha & fa & -> & Ra & Ia & Fa & Ea & La & Ca).
    cbn [obind].
    pose proof (ready_frame _ _ _ _ Fa RD) as RDa.
    destruct (horizontal_ok _ _ _ _ _ Ra Ia RDa) as (nb & hb & fb & -> & Rb & Ib & Fb & Eb & Lb & Cb).
    cbn [obind].
    pose proof (ready_frame _ _ _ _ Fb RDa) as RDb.
    destruct (diagonal_ok _ _ _ _ _ Rb Ib RDb) as (nc & hc & fc & -> & Rc & Ic & Fc & Ec & Lc & Cc).
    exists nc, hc, fc. split; auto. split; auto. split; [|split; [lia|congruence]].
    pose proof (frame_trans _ _ _ (frame_trans _ _ _ Fa Fb) Fc) as F.
    split; auto. intros a b Ha Hb H.
    destruct (F a b) as (F1 & F2 & F3). assert (D : n_done (f a b) = true) by congruence.
    assert (X : (a, b) = (i, j) \/ (a, b) <> (i, j)).
    { destruct (Nat.eq_dec a i), (Nat.eq_dec b j); [left; congruence|right; congruence..]. }
    destruct X as [[= -> ->]|NE].
    - intros d i' j' w E. rewrite (F3 D).
      assert (Da : n_done (fa i j) = true) by (rewrite (proj1 (Fa i j)); auto).
      assert (EQa : fa i j = f i j) by now apply Fa.
      assert (EQb : fb i j = f i j) by (rewrite <- EQa; now apply Fb).
      pose proof (Fb i' j'). pose proof (Fc i' j').
      inversion E; subst.
      + specialize (Ea _ _ _ E). lia.
      + specialize (Eb _ _ _ E). rewrite EQa in Eb. lia.
      + specialize (Ec _ _ _ E). rewrite EQb in Ec. lia.
    - eapply relaxed_frame; [exact F|exact D|]. auto.
  Qed.

  Lemma full_script (x y : list A) : exists p, scr x y p (total_cost c1 x + total_cost c2 y).
  Proof.
    induction x as [|a x (p & IH)].
    - induction y as [|b y (p & IH)].
      + exists []. constructor.
      + exists (DVertical :: p). rewrite total_cons. now constructor.
    - exists (DHorizontal :: p). rewrite total_cons, <- N.add_assoc. now constructor.
  Qed.

  Definition correct (r : sp_result) : Prop :=
    exists p c, r = SPath p /\ scr item1 item2 p c /\
      (forall p' c', scr item1 item2 p' c' -> (c <= c')%N).

  Lemma loop_correct pick fuel : forall nodes heap f, rep nodes f -> inv f heap ->
    length heap + 3 * count_open nodes < fuel ->
    correct (sp_loop item1 item2 c1 c2 dc fuel pick (nodes, heap)).
  Proof.
    induction fuel as [|fuel IH]; intros nodes heap f R I L; [lia|]. cbn [sp_loop].
    destruct heap as [|e0 heap0] eqn:HE.
    { exfalso. destruct (full_script item1 item2) as (p & S).
      assert (HE' : forall c i j, In (c, i, j) (@nil heap_state) -> (MAX <= c)%N) by easy.
      destruct (lower_bound f [] MAX I (N.le_refl _) HE' _ _ _ _ S 0 0 eq_refl eq_refl
        ltac:(lia) ltac:(lia)) as [H|H]; [|lia].
      destruct I as (I & _). pose proof (iE _ _ I 0 0 ltac:(lia) ltac:(lia) ltac:(lia) (iZ _ _ I)) as [].
    }
    rewrite <- HE in *. assert (NE : heap <> []) by (rewrite HE; discriminate). clear e0 heap0 HE.
    destruct (heap_pop_spec (pick fuel) heap NE) as (c & i & j & heap' & -> & P & MIN).
    pose proof (Permutation_length P) as PL. cbn in PL.
    destruct ((i =? 0) && (j =? 0)) eqn:Z.
    - assert (i = 0) as -> by lia. assert (j = 0) as -> by lia.
      assert (IN : In (c, 0, 0) heap) by (rewrite P; left; reflexivity).
      destruct (iD _ _ (proj1 I) _ _ _ IN) as (_ & _ & C1 & C2).
      destruct (reached_script f heap nodes (proj1 I) R (n1 + n2) 0 0) as (p & S & RD); try lia.
      exists p, (n_cost (f 0 0)). split; [apply RD; unfold len1, len2; lia|].
      split; [exact S|]. intros p' c' S'.
      destruct (lower_bound f heap c I ltac:(lia) MIN _ _ _ _ S' 0 0 eq_refl eq_refl
        ltac:(lia) ltac:(lia)) as [H|H]; lia.
    - assert (NZ : (i, j) <> (0, 0)) by (intros [= -> ->]; discriminate).
      assert (IN : In (c, i, j) heap) by (rewrite P; left; reflexivity).
      destruct (iD _ _ (proj1 I) _ _ _ IN) as (Hi & Hj & C1 & C2).
      pose proof (proj2 R _ _ Hi Hj) as NE'. rewrite NE'.
      destruct (n_done (f i j)) eqn:D.
      + apply (IH _ _ f); auto; [|lia].
        destruct I as (I & RX). split; auto.
        assert (SUB : forall e, In e heap' -> In e heap) by (intros e H; rewrite P; now right).
        destruct I. constructor; auto.
        * intros a b Ha Hb H1 H2. specialize (iE0 a b Ha Hb H1 H2). rewrite P in iE0.
          destruct iE0 as [[= _ <- <-]|Q]; auto. congruence.
        * intros; eapply iM0; eauto.
      + destruct (mark_done nodes heap heap' f c i j R I P MIN NZ D) as (_ & _ & I1 & RD & RX).
        set (x := mkNode (n_cost (f i j)) (n_from (f i j)) true) in *.
        pose proof (rep_upd nodes f i j x R Hi Hj) as R1.
        destruct (relax_all _ _ _ _ _ R1 I1 RD RX) as (n' & h' & f' & E & R2 & I2 & L2 & K2).
        rewrite E. apply (IH _ _ f'); auto.
        pose proof (count_open_set nodes _ x _ NE') as K. rewrite D in K. cbn in K. lia.
  Qed.

  Lemma count_open_repeat n : count_open (repeat (mkNode MAX DNone false) n) = n.
  Proof. unfold count_open. induction n; cbn; auto. Qed.

  Lemma shortest_path_correct pick fuel : 3 * (l1 * l2) + 1 < fuel ->
    correct (shortest_path item1 item2 c1 c2 dc fuel pick).
  Proof.
    intros L. unfold shortest_path, sp_push.
    set (nodes := repeat (mkNode MAX DNone false) (l1 * l2)).
    set (f0 := fun _ _ : nat => mkNode MAX DNone false).
    assert (R0 : rep nodes f0).
    { split; [apply repeat_length|]. intros i j Hi Hj. pose proof (idx_bound i j Hi Hj).
      unfold nodes. rewrite nth_error_repeat by auto. reflexivity. }
    assert (IDX : l1 * l2 - 1 = n1 + n2 * l1) by (unfold len1, len2; nia).
    rewrite IDX, (proj2 R0) by lia. unfold f0 at 1. cbn [n_cost n_done].
    change (0 <? MAX)%N with true. cbn iota.
    replace (l1 - 1) with n1 by (unfold len1; lia). replace (l2 - 1) with n2 by (unfold len2; lia).
    set (x := mkNode 0 DNone (n_done (f0 0 0))).
    apply (loop_correct pick fuel _ _ (upd f0 n1 n2 x)).
    - now apply rep_upd.
    - assert (ND : forall i j, n_done (upd f0 n1 n2 x i j) = false).
      { intros i j. unfold upd. now destruct ((i =? n1) && (j =? n2)). }
      assert (CS : forall i j, (i, j) <> (n1, n2) -> n_cost (upd f0 n1 n2 x i j) = MAX).
      { intros i j H. now rewrite upd_other. }
      assert (DEC : forall i j, (i, j) = (n1, n2) \/ (i, j) <> (n1, n2)).
      { intros i j. destruct (Nat.eq_dec i n1), (Nat.eq_dec j n2); [left; congruence|right; congruence..]. }
      split; [constructor|].
      + intros i j Hi Hj C. left. destruct (DEC i j) as [[= -> ->]|NE].
        * rewrite upd_same. auto.
        * rewrite CS in C by auto. lia.
      + intros i j _ _ H. rewrite ND in H. discriminate.
      + intros c i j [[= <- <- <-]|[]]. rewrite upd_same. cbn [n_cost x]. repeat split; auto; try lia.
      + intros i j Hi Hj C _. destruct (DEC i j) as [[= -> ->]|NE].
        * rewrite upd_same. left. reflexivity.
        * rewrite CS in C by auto. lia.
      + intros i j c i' j' _ _ H. rewrite ND in H. discriminate.
      + apply ND.
      + rewrite upd_same. reflexivity.
      + intros i j _ _. destruct (DEC i j) as [[= -> ->]|NE].
        * rewrite upd_same. cbn. lia.
        * rewrite CS; auto. lia.
      + intros i j _ _ H. rewrite ND in H. discriminate.
    - assert (K : count_open (set_nth nodes (n1 + n2 * l1) x) = l1 * l2).
      { pose proof (count_open_set nodes (n1 + n2 * l1) x (f0 n1 n2) (proj2 R0 _ _ (le_n _) (le_n _))) as K.
        unfold nodes in *. rewrite count_open_repeat in K. cbn in K. lia. }
      unfold f0 in *. cbn [n_done] in *. subst x. cbn [length]. rewrite K. lia.
  Qed.
End Path.

(** ** Consequences *)

Lemma script_weaken {A} c1 c2 dc (R R' : A -> A -> Prop) x y p c :
  (forall a b, R a b -> R' a b) -> script c1 c2 dc R x y p c -> script c1 c2 dc R' x y p c.
Proof. intros H. induction 1; constructor; auto. Qed.

(** Pairings that are not cheaper than deleting and adding never help. *)
Lemma script_any {A} (c1 c2 : A -> N) dc x y p c :
  script c1 c2 dc (fun _ _ => True) x y p c ->
  exists p' c', script c1 c2 dc (cheaper c1 c2 dc) x y p' c' /\ (c' <= c)%N.
Proof.
  induction 1 as [|a x y p c S (p' & c' & S' & L)|b x y p c S (p' & c' & S' & L)|a b x y p c S (p' & c' & S' & L) _].
  - exists [], 0%N. split; [constructor|lia].
  - exists (DHorizontal :: p'), (c1 a + c')%N. split; [now constructor|lia].
  - exists (DVertical :: p'), (c2 b + c')%N. split; [now constructor|lia].
  - destruct (N.lt_ge_cases (dc a b) (c1 a + c2 b)) as [Q|Q].
    + exists (DDiagonal :: p'), (dc a b + c')%N. split; [now constructor|lia].
    + exists (DHorizontal :: DVertical :: p'), (c1 a + (c2 b + c'))%N.
      split; [constructor; now constructor|lia].
Qed.

Lemma follow_script {A} c1 c2 dc R (x y : list A) p c : script c1 c2 dc R x y p c ->
  lefts (follow_path p x y) = x /\ rights (follow_path p x y) = y /\
  length (follow_path p x y) = length p /\
  Forall (fun r => match r with MBoth a b => R a b | _ => True end) (follow_path p x y).
Proof.
  induction 1 as [|a x y p c S (H1 & H2 & H3 & H4)|b x y p c S (H1 & H2 & H3 & H4)|a b x y p c S (H1 & H2 & H3 & H4) Q];
    cbn [follow_path]; unfold lefts, rights in *; cbn [flat_map app length].
  - repeat split; auto.
  - rewrite H1, H2, H3. repeat split; auto.
  - rewrite H1, H2, H3. repeat split; auto.
  - rewrite H1, H2, H3. repeat split; auto.
Qed.

Lemma zero_script {A} c1 c2 dc R (x y : list A) p :
  (forall a, In a x -> (0 < c1 a)%N) -> (forall b, In b y -> (0 < c2 b)%N) ->
  script c1 c2 dc R x y p 0 -> p = repeat DDiagonal (length x) /\ length x = length y.
Proof.
  assert (G : forall z, script c1 c2 dc R x y p z -> (forall a, In a x -> (0 < c1 a)%N) ->
    (forall b, In b y -> (0 < c2 b)%N) -> z = 0%N -> p = repeat DDiagonal (length x) /\ length x = length y).
  2: { intros H1 H2 S. now apply (G 0%N). }
  intros z S. induction S as [|a x y p c S IH|b x y p c S IH|a b x y p c S IH Q]; intros H1 H2 Z.
  - split; reflexivity.
  - specialize (H1 a (or_introl eq_refl)). lia.
  - specialize (H2 b (or_introl eq_refl)). lia.
  - destruct IH as (-> & E).
    + intros; apply H1; cbn; auto.
    + intros; apply H2; cbn; auto.
    + lia.
    + cbn. split; auto.
Qed.

Lemma diagonal_script {A} (c1 c2 : A -> N) dc (x : list A) :
  (forall a, In a x -> dc a a = 0%N /\ (0 < c1 a + c2 a)%N) ->
  script c1 c2 dc (cheaper c1 c2 dc) x x (repeat DDiagonal (length x)) 0.
Proof.
  induction x as [|a x IH]; intros H; cbn; [constructor|].
  destruct (H a (or_introl eq_refl)) as (H1 & H2).
  rewrite <- (N.add_0_l 0). rewrite <- H1 at 1. constructor.
  - apply IH. intros; apply H; cbn; auto.
  - unfold cheaper. lia.
Qed.
