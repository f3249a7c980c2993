(** Proofs about listings: filters on types, orders, and rows of a comparison. *)
From Coq Require Import List Arith NArith Bool String Ascii Lia Sorted Permutation.
From Coq Require Import ZifyBool ZifyNat ZifyN.
From Verif Require Import Base BaseProofs NamespaceModel NamespaceSpec NamespaceProofs TypeModel LayoutModel
  FileModel DiffModel DiffSpec MergeProofs OptionsModel FilterModel FilterSpec OptionsProofs.
Import ListNotations.

(** ** Selecting *)

Lemma filter_selects {A} (f : A -> bool) (P : A -> Prop) l :
  (forall x, In x l -> (f x = true <-> P x)) -> selects P l (filter f l).
Proof.
  induction l as [|x l IH]; intros H; cbn; [constructor|].
  assert (H' : f x = true <-> P x) by (apply H; cbn; auto).
  destruct (f x).
  - apply sel_keep; [now apply H'|]. apply IH. intros; apply H; cbn; auto.
  - apply sel_drop; [intros X; apply H' in X; discriminate|]. apply IH. intros; apply H; cbn; auto.
Qed.
Lemma selects_fun {A} (P : A -> Prop) l a b : selects P l a -> selects P l b -> a = b.
Proof.
  intros H. revert b. induction H; intros b K; inversion K; subst; try contradiction; auto.
  f_equal. auto.
Qed.

Lemma enumerate_in {A} (l : list A) i x : In (i, x) (enumerate l) <-> nth_error l i = Some x.
Proof.
  unfold enumerate.
  assert (G : forall k, In (i, x) (combine (seq k (List.length l)) l) <->
                        k <= i /\ nth_error l (i - k) = Some x).
  { induction l as [|y l IH]; intros k; cbn.
    - split; [tauto|]. intros [_ H]. destruct (i - k); discriminate.
    - rewrite IH. split.
      + intros [E|[L E]].
        * injection E as -> ->. rewrite Nat.sub_diag. auto.
        * split; [lia|]. replace (i - k) with (S (i - S k)) by lia. exact E.
      + intros [L E]. destruct (Nat.eq_dec k i) as [->|N].
        * left. rewrite Nat.sub_diag in E. cbn in E. congruence.
        * right. split; [lia|]. replace (i - k) with (S (i - S k)) in E by lia. exact E. }
  rewrite G, Nat.sub_0_r. split; [tauto|]. split; [lia|assumption].
Qed.
Lemma enumerate_fst {A} (l : list A) : map fst (enumerate l) = seq 0 (List.length l).
Proof.
  unfold enumerate. generalize 0. induction l as [|x l IH]; intros k; cbn; [reflexivity|].
  f_equal. apply IH.
Qed.
Lemma enumerate_snd {A} (l : list A) : map snd (enumerate l) = l.
Proof.
  unfold enumerate. generalize 0. induction l as [|x l IH]; intros k; cbn; [reflexivity|].
  f_equal. apply IH.
Qed.
Lemma enumerate_sorted {A} (l : list A) :
  StronglySorted (fun x y => fst x < fst y) (enumerate l).
Proof.
  unfold enumerate. generalize 0. induction l as [|x l IH]; intros k; cbn; constructor; auto.
  apply Forall_forall. intros [i y] I. cbn. apply in_combine_l, in_seq in I. lia.
Qed.
Lemma filter_sorted {A} (R : A -> A -> Prop) f l :
  StronglySorted R l -> StronglySorted R (filter f l).
Proof.
  induction 1 as [|x l S IH F]; cbn; [constructor|]. destruct (f x); [|assumption].
  constructor; [assumption|]. rewrite Forall_forall in *. intros y I. apply filter_In in I. apply F, I.
Qed.
Lemma filter_map_snd {A} (f : A -> bool) (l : list (nat * A)) :
  map snd (filter (fun p => f (snd p)) l) = filter f (map snd l).
Proof. induction l as [|p l IH]; cbn; [reflexivity|]. destruct (f (snd p)); cbn; congruence. Qed.

(** ** Types *)

Lemma ns_is_anon_iff n : ns_is_anon_type' n = true <-> in_unnamed_type n.
Proof.
  induction n as [n k|p n k IHn] using namespace_ind'.
  - cbn. destruct k, n; cbn; split; try discriminate; try (intros H; inversion H; fail).
    + constructor.
    + reflexivity.
  - cbn. destruct k; cbn; try (split; [discriminate|intros H; inversion H; fail]).
    destruct n; cbn.
    + rewrite IHn. split; [apply iut_up|]. intros H. inversion H; assumption.
    + split; [constructor|reflexivity].
Qed.
Lemma anon_iff (name : option string) ns :
  is_none name || ns_is_anon_type ns = true <->
  name = None \/ (exists n : namespace, ns = Some n /\ in_unnamed_type n).
Proof.
  rewrite orb_true_iff, (@is_none_iff string). unfold ns_is_anon_type. destruct ns as [n|].
  - rewrite ns_is_anon_iff. split; intros [?|H]; auto; right; [eauto|].
    destruct H as (m & E & H). injection E as ->. exact H.
  - split; intros [?|H]; auto; [discriminate|]. destruct H as (m & E & H). discriminate.
Qed.
Lemma is_anon_iff t : is_anon t = true <-> anonymous t.
Proof.
  destruct t as [o k]. unfold is_anon. cbn.
  destruct k; try (split; [discriminate|intros H; inversion H; fail]).
  - rewrite anon_iff. split; [apply an_struct|]. intros H. inversion H; assumption.
  - rewrite anon_iff. split; [apply an_union|]. intros H. inversion H; assumption.
Qed.

Lemma member_is_inline_iff h m : member_is_inline h m = true <-> inline_member (h_env h) m.
Proof.
  unfold member_is_inline, inline_member. destruct (m_name m) as [s|]; [|split; auto].
  destruct (strip_prefix "RUST$ENCODED$ENUM$" s) as [r|] eqn:E; cbn [is_none negb].
  - apply strip_prefix_spec in E. split; [|reflexivity]. intros _. right. left. exists r.
    now f_equal.
  - unfold from_offset, type_offset_none. destruct (N.eqb_spec (m_ty m) u64_max) as [Q|Q].
    + split; [discriminate|]. intros [?|[(r & X)|(t & X & _)]]; try discriminate; try contradiction.
      injection X as ->. exfalso. apply (proj1 (strip_prefix_none _ _) E). now exists r.
    + destruct (h_env h (m_ty m)) as [t|].
      * rewrite is_anon_iff. split; [eauto 10|]. intros [?|[(r & X)|(t' & _ & X & H)]].
        -- discriminate.
        -- injection X as ->. exfalso. apply (proj1 (strip_prefix_none _ _) E). now exists r.
        -- injection X as <-. exact H.
      * split; [discriminate|]. intros [?|[(r & X)|(t' & _ & X & H)]]; try discriminate.
        injection X as ->. exfalso. apply (proj1 (strip_prefix_none _ _) E). now exists r.
Qed.
Lemma type_members_iff t m : In m (type_members t) <-> member_of t m.
Proof.
  destruct t as [o k]. unfold type_members. cbn.
  destruct k; try (split; [intros []|intros H; inversion H; fail]).
  - split; [apply mo_struct|]. intros H. inversion H; assumption.
  - split; [apply mo_union|]. intros H. inversion H; assumption.
Qed.

Lemma inline_types_iff h u off :
  off <> u64_max -> (In off (inline_types u h) <-> shown_inside (h_env h) u off).
Proof.
  intros N. unfold inline_types, shown_inside. rewrite in_flat_map.
  assert (NB : forall x, x <> u64_max -> negb (N.eqb x type_offset_none) = true).
  { intros x X. unfold type_offset_none. destruct (N.eqb_spec x u64_max); [contradiction|reflexivity]. }
  split.
  - intros (t & I & J). exists t. split; [assumption|]. apply in_app_or in J. destruct J as [J|J].
    + left. destruct (is_anon t) eqn:A; [|destruct J]. apply is_anon_iff in A. cbn in J.
      destruct (negb _); [|destruct J]. destruct J as [J|[]]. auto.
    + right. apply in_flat_map in J. destruct J as (m & K & J).
      destruct (member_is_inline h m) eqn:A; [|destruct J]. cbn in J.
      destruct (negb _); [|destruct J]. destruct J as [J|[]]. exists m.
      split; [now apply type_members_iff|]. split; [now apply member_is_inline_iff|auto].
  - intros (t & I & [[A ->]|(m & K & A & ->)]); exists t; (split; [assumption|]); apply in_or_app.
    + left. apply is_anon_iff in A. rewrite A, NB by assumption. cbn. auto.
    + right. apply in_flat_map. exists m. split; [now apply type_members_iff|].
      apply member_is_inline_iff in A. rewrite A, NB by assumption. cbn. auto.
Qed.

Lemma opt_string_eqb_iff x y : opt_string_eqb x y = true <-> x = y.
Proof.
  destruct x as [x|], y as [y|]; cbn; try (split; congruence).
  rewrite String.eqb_eq. split; congruence.
Qed.

Lemma filter_type_iff o h diff u t :
  filter_type o diff (inline_types u h) t = true <-> type_listed o (h_env h) diff u t.
Proof.
  unfold filter_type, type_listed. rewrite !andb_true_iff, !negb_true_iff.
  assert (OFF : N.eqb (t_offset t) type_offset_none = false <-> t_offset t <> u64_max)
    by (apply N.eqb_neq).
  assert (INL : t_offset t <> u64_max ->
     (existsb (N.eqb (t_offset t)) (inline_types u h) = false <->
      ~ shown_inside (h_env h) u (t_offset t))).
  { intros N. rewrite <- inline_types_iff by assumption. rewrite <- not_true_iff_false, existsb_exists.
    split; intros H X; apply H.
    - exists (t_offset t). split; [assumption|apply N.eqb_refl].
    - destruct X as (x & I & E). apply N.eqb_eq in E. now subst x. }
  assert (KIND : forall a b, (a = true /\ b = true <->
      exists rank ns name, listable t rank ns name /\ name_matches (f_name (o_filter o)) name /\
        namespace_matches (f_namespace (o_filter o)) ns /\
        (diff = true -> rank = 3 -> name <> Some "closure"%string)) ->
     (((a = true /\ b = true) /\ N.eqb (t_offset t) type_offset_none = false) /\
       existsb (N.eqb (t_offset t)) (inline_types u h) = false <->
      t_offset t <> u64_max /\ ~ shown_inside (h_env h) u (t_offset t) /\
      exists rank ns name, listable t rank ns name /\ name_matches (f_name (o_filter o)) name /\
        namespace_matches (f_namespace (o_filter o)) ns /\
        (diff = true -> rank = 3 -> name <> Some "closure"%string))).
  { intros a b H. rewrite H, OFF. tauto. }
  apply KIND. clear KIND INL OFF. destruct t as [off k]. cbn [t_kind].
  destruct k;
    try (split; [intros [_ ?]; discriminate|
                 intros (? & ? & ? & L & _); inversion L; fail]);
    rewrite andb_true_iff, filter_name_iff, filter_namespace_iff.
  1,2,4,5: split; [intros [[H1 H2] _]; do 3 eexists; split; [constructor|]; repeat split; auto;
                   intros; discriminate
                  |intros (? & ? & ? & L & H1 & H2 & _); inversion L; subst; auto].
  rewrite negb_true_iff, <- not_true_iff_false, andb_true_iff, opt_string_eqb_iff. split.
  - intros [[H1 H2] H3]. do 3 eexists. split; [constructor|]. repeat split; auto.
  - intros (? & ? & ? & L & H1 & H2 & H3). inversion L; subst. repeat split; auto.
    intros [X Y]. exact (H3 X eq_refl Y).
Qed.

(** The key by which listed types are compared. *)
Definition type_key (t : type) : nat * (list (option string) * option string) :=
  match t_kind t with
  | TBase x => (1, ([], b_name x))
  | TDef x => (2, (ns_path_opt (d_namespace x), d_name x))
  | TStruct x => (3, (ns_path_opt (s_namespace x), s_name x))
  | TUnion x => (4, (ns_path_opt (u_namespace x), u_name x))
  | TEnum x => (5, (ns_path_opt (e_namespace x), e_name x))
  | _ => (0, ([], None))
  end.
Definition cmp_key (x y : nat * (list (option string) * option string)) : comparison :=
  then_with (Nat.compare (fst x) (fst y)) (cmp_item (snd x) (snd y)).
Lemma cmp_key_tp : total_preorder cmp_key.
Proof.
  unfold cmp_key. apply then_with_tp.
  - apply (cmp_on_tp fst), Nat_compare_tp.
  - apply (cmp_on_tp snd), cmp_item_tp.
Qed.
Lemma cmp_key_eq x y : cmp_key x y = Eq <-> x = y.
Proof.
  destruct x as [a x], y as [b y]. unfold cmp_key. cbn [fst snd]. split.
  - destruct (Nat.compare_spec a b) as [->| |]; cbn [then_with]; try discriminate.
    intros H. apply cmp_item_eq in H. congruence.
  - intros H. injection H as -> ->. rewrite Nat.compare_refl. now apply cmp_item_eq.
Qed.
Lemma cmp_key_lt x y :
  cmp_key x y = Lt <-> fst x < fst y \/ (fst x = fst y /\ item_lt (snd x) (snd y)).
Proof.
  destruct x as [a x], y as [b y]. unfold cmp_key. cbn [fst snd].
  destruct (Nat.compare_spec a b) as [->|L|L]; cbn [then_with].
  - rewrite cmp_item_lt. split; [auto|]. intros [H|[_ H]]; [lia|exact H].
  - split; auto.
  - split; [discriminate|]. intros [H|[H _]]; lia.
Qed.

Definition is_listable (t : type) : Prop := exists k ns n, listable t k ns n.

Lemma type_identity_iff t k i : is_listable t -> (type_identity t k i <-> (k, i) = type_key t).
Proof.
  intros (k0 & ns0 & n0 & L0). unfold type_identity. destruct i as [p n]. cbn [fst snd]. split.
  - intros (ns & L & P). apply path_opt_ns_path in P. subst p. inversion L; subst; reflexivity.
  - intros E. inversion L0; subst; injection E as -> -> ->; eexists;
      (split; [constructor|now apply path_opt_ns_path]).
Qed.
Lemma listed_listable o h diff u t : type_listed o h diff u t -> is_listable t.
Proof. intros (_ & _ & k & ns & n & L & _). exists k, ns, n. exact L. Qed.

(** Comparing listed types needs no recursion and violates no assertion. *)
Lemma type_cmp_id_exact debug fuel ha a hb b : is_listable a -> is_listable b ->
  cmp_id debug (S fuel) ha a hb b = Ord (cmp_key (type_key a) (type_key b)).
Proof.
  intros (k1 & ns1 & n1 & L1) (k2 & ns2 & n2 & L2).
  inversion L1; inversion L2; subst; unfold cmp_key, type_key; cbn;
    rewrite ?cmp_ns_and_name_spec; try reflexivity; destruct debug; reflexivity.
Qed.
Lemma type_cmp_id_key ha a hb b : is_listable a -> is_listable b ->
  type_cmp_id ha a hb b = cmp_key (type_key a) (type_key b).
Proof. intros H1 H2. unfold type_cmp_id. now rewrite type_cmp_id_exact. Qed.

(** ** Identities of functions and variables *)

Definition function_key (f : func) := (ns_path_opt (fn_namespace f), fn_name f).
Definition variable_key (v : var) := (ns_path_opt (va_namespace v), va_name v).
Lemma function_cmp_id_key a b : function_cmp_id a b = cmp_item (function_key a) (function_key b).
Proof. unfold function_cmp_id, ns_name_cmp. now rewrite cmp_ns_and_name_spec. Qed.
Lemma variable_cmp_id_key a b : variable_cmp_id a b = cmp_item (variable_key a) (variable_key b).
Proof. unfold variable_cmp_id, ns_name_cmp. now rewrite cmp_ns_and_name_spec. Qed.
Lemma function_identity_iff f i : function_identity f i <-> i = function_key f.
Proof.
  destruct i as [p n]. unfold function_identity, function_key. cbn [fst snd].
  rewrite path_opt_ns_path. split; [intros [-> ->]; reflexivity|].
  intros H. injection H. auto.
Qed.
Lemma variable_identity_iff f i : variable_identity f i <-> i = variable_key f.
Proof.
  destruct i as [p n]. unfold variable_identity, variable_key. cbn [fst snd].
  rewrite path_opt_ns_path. split; [intros [-> ->]; reflexivity|].
  intros H. injection H. auto.
Qed.
Lemma same_function_iff a b : same_function a b <-> function_cmp_id a b = Eq.
Proof.
  rewrite function_cmp_id_key, cmp_item_eq. unfold same_function.
  setoid_rewrite function_identity_iff. split; [intros (i & -> & ->)|]; eauto.
Qed.
Lemma same_variable_iff a b : same_variable a b <-> variable_cmp_id a b = Eq.
Proof.
  rewrite variable_cmp_id_key, cmp_item_eq. unfold same_variable.
  setoid_rewrite variable_identity_iff. split; [intros (i & -> & ->)|]; eauto.
Qed.
Lemma same_type_iff a b : is_listable a -> is_listable b ->
  (same_type a b <-> cmp_key (type_key a) (type_key b) = Eq).
Proof.
  intros H1 H2. rewrite cmp_key_eq. unfold same_type. split.
  - intros (k & i & A & B). apply type_identity_iff in A, B; auto. congruence.
  - intros E. destruct (type_key a) as [k i] eqn:K. exists k, i.
    split; apply type_identity_iff; auto.
Qed.
Lemma same_unit_iff given o a b : maps given o -> (same_unit given a b <-> unit_cmp_id o a b = Eq).
Proof.
  intros M. rewrite unit_cmp_id_path, cmp_string_eq. unfold same_unit.
  split.
  - intros (p & A & B). apply (match_path_iff given o) in A, B; auto. congruence.
  - intros E. exists (unit_path o a). split; apply (match_path_iff given o); auto.
Qed.

(** ** Sorting *)

Lemma insert_ext {A} (c d : A -> A -> comparison) x l :
  (forall y, In y l -> c x y = d x y) -> insert c x l = insert d x l.
Proof.
  induction l as [|y l IH]; intros H; cbn; [reflexivity|].
  rewrite H by (cbn; auto). rewrite IH by (intros; apply H; cbn; auto). reflexivity.
Qed.
Lemma stable_sort_ext {A} (c d : A -> A -> comparison) l :
  (forall x y, In x l -> In y l -> c x y = d x y) -> stable_sort c l = stable_sort d l.
Proof.
  induction l as [|x l IH]; intros H; cbn; [reflexivity|].
  rewrite IH by (intros; apply H; cbn; auto). apply insert_ext. intros y I.
  apply H; [cbn; auto|]. right. eapply Permutation_in; [apply stable_sort_perm|exact I].
Qed.

Lemma filter_filter {A} (f g : A -> bool) l :
  (forall x, In x l -> f x = true -> g x = true) -> filter f (filter g l) = filter f l.
Proof.
  induction l as [|x l IH]; intros H; cbn; [reflexivity|].
  assert (IH' : filter f (filter g l) = filter f l) by (apply IH; intros; apply H; cbn; auto).
  destruct (g x) eqn:G; cbn; rewrite IH'; [reflexivity|].
  destruct (f x) eqn:F; [|reflexivity]. rewrite (H x) in G by (cbn; auto). discriminate.
Qed.
Lemma filter_none {A} (f : A -> bool) l : (forall x, In x l -> f x = false) -> filter f l = [].
Proof.
  induction l as [|x l IH]; intros H; cbn; [reflexivity|].
  rewrite H by (cbn; auto). apply IH. intros; apply H; cbn; auto.
Qed.

Lemma sort_ordered {A} (c d : A -> A -> comparison) (lt : A -> A -> Prop) l :
  total_preorder d -> (forall x y, In x l -> In y l -> c x y = d x y) ->
  (forall x y, In x l -> In y l -> (lt x y <-> d x y = Lt)) ->
  ordered lt l (stable_sort c l).
Proof.
  intros TP CD LT. rewrite (stable_sort_ext c d) by assumption.
  pose proof (stable_sort_perm d l) as P. split; [exact P|]. split.
  - pose proof (stable_sort_sorted d TP l) as S.
    assert (I : forall x, In x (stable_sort d l) -> In x l) by (intros x; now apply Permutation_in).
    clear P. induction S as [|x m S IH F]; constructor.
    + apply IH. intros; apply I; cbn; auto.
    + rewrite Forall_forall in *. intros y J. rewrite LT by (apply I; cbn; auto).
      specialize (F _ J). unfold le_cmp in F. intros X. apply (tp_lt_gt d TP) in X. congruence.
  - intros f F.
    destruct (filter f l) as [|k r] eqn:E.
    + apply filter_none. intros x I. apply (Permutation_in x P) in I.
      destruct (f x) eqn:Q; [|reflexivity]. exfalso.
      assert (J : In x (filter f l)) by (apply filter_In; auto). rewrite E in J. destruct J.
    + assert (K : In k l /\ f k = true) by (apply filter_In; rewrite E; cbn; auto).
      destruct K as [K1 K2]. pose proof (stable_sort_stable d TP k l) as ST.
      set (g := fun y => match d k y with Eq => true | _ => false end) in *.
      assert (G : forall x, In x l -> f x = true -> g x = true).
      { intros x I Q. unfold g. destruct (d k x) eqn:X; [reflexivity| |].
        - exfalso. apply (F k x); auto. now apply LT.
        - exfalso. apply (F x k); auto. apply LT; auto. now apply (tp_lt_gt d TP). }
      rewrite <- (filter_filter f g).
      * rewrite ST, filter_filter by assumption. exact E.
      * intros x I. apply G. eapply Permutation_in; eauto.
Qed.

Lemma opt_lt_iff x y : opt_lt x y <-> cmp_option N.compare x y = Lt.
Proof.
  destruct x as [x|], y as [y|]; cbn [opt_lt cmp_option].
  - symmetry. apply N.compare_lt_iff.
  - split; [tauto|discriminate].
  - split; auto.
  - split; [tauto|discriminate].
Qed.

(** ** Merging *)

Lemma merge_all_total {T U} (cmp : T -> U -> comparison) l r : merge_all cmp l r = merge cmp l r.
Proof. unfold merge_all. rewrite merge_collect_eq by lia. reflexivity. Qed.
Lemma merge_ext {T U} (c d : T -> U -> comparison) : forall l r,
  (forall x y, In x l -> In y r -> c x y = d x y) -> merge c l r = merge d l r.
Proof.
  apply (merge_ind c (fun l r => (forall x y, In x l -> In y r -> c x y = d x y) ->
    merge c l r = merge d l r)).
  - reflexivity.
  - intros x l IH H. rewrite merge_eq, (merge_eq d), IH; [reflexivity|]. intros ? ? ? [].
  - intros y r IH H. rewrite merge_eq, (merge_eq d), IH; [reflexivity|]. intros ? ? [].
  - intros x l y r E IH H. rewrite merge_eq, (merge_eq d), E.
    rewrite <- H, E by (cbn; auto). f_equal. apply IH. intros; apply H; cbn; auto.
  - intros x l y r E IH H. rewrite merge_eq, (merge_eq d), E.
    rewrite <- H, E by (cbn; auto). f_equal. apply IH. intros; apply H; cbn; auto.
  - intros x l y r E IH H. rewrite merge_eq, (merge_eq d), E.
    rewrite <- H, E by (cbn; auto). f_equal. apply IH. intros; apply H; cbn; auto.
Qed.

Section Matched.
  Context {K T U : Type}.
  Variable kcmp : K -> K -> comparison.
  Hypothesis TP : total_preorder kcmp.
  Variables (kl : T -> K) (kr : U -> K).

  Lemma count_lefts k (out : list (merge_result T U)) :
    count_key kcmp kl k (lefts out) =
    count_key kcmp (fun p => kl (fst p)) k (pairs out) +
    List.length (filter (fun r => match r with
                        | MLeft x => match kcmp (kl x) k with Eq => true | _ => false end
                        | _ => false end) out).
  Proof.
    unfold count_key, lefts, pairs. induction out as [|[x|y|x y] out IH]; cbn; auto.
    - destruct (kcmp (kl x) k); cbn; lia.
    - destruct (kcmp (kl x) k); cbn; lia.
  Qed.
  Lemma count_rights k (out : list (merge_result T U)) :
    (forall x y, In (x, y) (pairs out) -> kcmp (kl x) (kr y) = Eq) ->
    count_key kcmp kr k (rights out) =
    count_key kcmp (fun p => kl (fst p)) k (pairs out) +
    List.length (filter (fun r => match r with
                        | MRight y => match kcmp (kr y) k with Eq => true | _ => false end
                        | _ => false end) out).
  Proof.
    unfold count_key, rights, pairs. induction out as [|[x|y|x y] out IH]; cbn; intros P; auto.
    - specialize (IH P). destruct (kcmp (kr y) k); cbn; lia.
    - rewrite (tp_eq_l kcmp TP (kl x) (kr y) k) by auto.
      specialize (IH (fun x y I => P x y (or_intror I))). destruct (kcmp (kr y) k); cbn; lia.
  Qed.

  Lemma merge_matched (same : T -> U -> Prop) la lb sa sb :
    Permutation sa la -> Permutation sb lb ->
    StronglySorted (fun x y => kcmp (kl x) (kl y) <> Gt) sa ->
    StronglySorted (fun x y => kcmp (kr x) (kr y) <> Gt) sb ->
    (forall x y, In x la -> In y lb -> (same x y <-> kcmp (kl x) (kr y) = Eq)) ->
    matched same la lb (merge (fun x y => kcmp (kl x) (kr y)) sa sb).
  Proof.
    intros PA PB SA SB SM. set (cmp := fun x y => kcmp (kl x) (kr y)). set (out := merge cmp sa sb).
    assert (LA : lefts out = sa) by apply merge_lefts.
    assert (LB : rights out = sb) by apply merge_rights.
    assert (IA : forall x, In x (lefts out) -> In x la).
    { intros x. rewrite LA. now apply Permutation_in. }
    assert (IB : forall x, In x (rights out) -> In x lb).
    { intros x. rewrite LB. now apply Permutation_in. }
    split; [now rewrite LA|]. split; [now rewrite LB|]. split.
    - intros x y I. apply SM.
      + apply IA. apply in_flat_map. exists (MBoth x y). cbn. auto.
      + apply IB. apply in_flat_map. exists (MBoth x y). cbn. auto.
      + apply (merge_pairs cmp sa sb). apply in_flat_map. exists (MBoth x y). cbn. auto.
    - intros x y I J S.
      assert (E : kcmp (kl x) (kr y) = Eq).
      { apply SM; auto.
        - apply IA. apply in_flat_map. exists (MLeft x). cbn. auto.
        - apply IB. apply in_flat_map. exists (MRight y). cbn. auto. }
      pose proof (merge_count kcmp TP kl kr sa sb (kl x) SA SB) as C.
      pose proof (count_lefts (kl x) out) as CL. pose proof (count_rights (kl x) out) as CR.
      rewrite LA in CL. rewrite LB in CR.
      specialize (CR (fun x y => merge_pairs cmp sa sb x y)).
      unfold count_key in C, CL, CR. fold cmp out in C.
      set (fl := filter _ out) in CL. set (fr := filter _ out) in CR.
      assert (In (MLeft x) fl).
      { apply filter_In. split; [assumption|]. now rewrite (tp_refl _ TP). }
      assert (In (MRight y) fr).
      { apply filter_In. split; [assumption|]. now rewrite (tp_eq_sym kcmp TP _ _ E). }
      destruct fl; [contradiction|]. destruct fr; [contradiction|]. cbn in CL, CR. lia.
  Qed.
End Matched.

(** ** Rows *)

Section Rows.
  Context {A : Type}.
  Variables (ha hb : hash) (f g : hash -> A -> hash -> A -> comparison).
  Variable before : hash -> A -> hash -> A -> Prop.
  Variable P : A -> Prop.
  Hypothesis TP : total_preorder (fun x y : hash * A => g (fst x) (snd x) (fst y) (snd y)).
  Hypothesis FG : forall h x k y, P x -> P y -> f h x k y = g h x k y.
  Hypothesis LT : forall h x k y, P x -> P y -> (before h x k y <-> g h x k y = Lt).

  Definition rep (r : merge_result A A) : hash * A :=
    match r with MBoth _ y => (hb, y) | MRight y => (hb, y) | MLeft x => (ha, x) end.
  Lemma row_item_iff r h x : row_item ha hb r h x <-> rep r = (h, x).
  Proof.
    split.
    - intros []; reflexivity.
    - destruct r; cbn; intros H; injection H as <- <-; constructor.
  Qed.
  Lemma merge_result_cmp_rep r s :
    merge_result_cmp f ha hb r s = f (fst (rep r)) (snd (rep r)) (fst (rep s)) (snd (rep s)).
  Proof. destruct r, s; reflexivity. Qed.

  Lemma rows_ordered rows : (forall r, In r rows -> P (snd (rep r))) ->
    ordered (row_before before ha hb) rows (stable_sort (merge_result_cmp f ha hb) rows).
  Proof.
    intros PR.
    apply (sort_ordered _ (fun r s => g (fst (rep r)) (snd (rep r)) (fst (rep s)) (snd (rep s)))).
    - exact (cmp_on_tp rep _ TP).
    - intros r s I J. rewrite merge_result_cmp_rep. auto.
    - intros r s I J. unfold row_before. rewrite <- LT by auto. split.
      + intros (h & x & k & y & R & S & B). apply row_item_iff in R, S. rewrite R, S. exact B.
      + intros B. exists (fst (rep r)), (snd (rep r)), (fst (rep s)), (snd (rep s)).
        rewrite !row_item_iff, <- !surjective_pairing. auto.
  Qed.
End Rows.

Lemma row_in_side {A} (rows : list (merge_result A A)) ha hb r :
  In r rows -> In (snd (rep ha hb r)) (lefts rows) \/ In (snd (rep ha hb r)) (rights rows).
Proof.
  intros I. destruct r as [x|y|x y]; cbn; [left|right|right]; apply in_flat_map; eexists;
    (split; [exact I|cbn; auto]).
Qed.
