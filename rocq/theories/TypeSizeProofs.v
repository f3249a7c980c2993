From Coq Require Import List Arith NArith ZArith Bool String Lia.
From Coq Require Import ZifyBool ZifyNat ZifyN.
From Verif Require Import Base BaseProofs NamespaceModel TypeModel TypeSpec.
Import ListNotations.
Local Open Scope N_scope.
Opaque u64_max two64.

Lemma explicit_some s : explicit s <-> opt64_is_some s = true.
Proof.
  unfold explicit, opt64_is_some, opt64_none. destruct (N.eqb_spec s u64_max); cbn; intuition congruence.
Qed.

Lemma not_explicit s : ~ explicit s <-> opt64_is_some s = false.
Proof. rewrite explicit_some. destruct (opt64_is_some s); intuition congruence. Qed.

Lemma explicit_get s : explicit s -> opt64_get s = Some s.
Proof.
  unfold explicit, opt64_get, opt64_is_none, opt64_none. intros H.
  destruct (N.eqb_spec s u64_max); congruence.
Qed.

Lemma not_explicit_get s : ~ explicit s -> opt64_get s = None.
Proof.
  unfold explicit, opt64_get, opt64_is_none, opt64_none. intros H.
  destruct (N.eqb_spec s u64_max); tauto.
Qed.

Lemma explicit_dec s : explicit s \/ ~ explicit s.
Proof. unfold explicit. destruct (N.eq_dec s u64_max); tauto. Qed.

Lemma pointer_size_dec k : has_pointer_size k <-> is_pointer_like k = true.
Proof. unfold has_pointer_size. destruct k; cbn; intuition congruence. Qed.

(** ** [is_function] *)

Lemma is_function_spec h t : function_well_founded h t ->
  exists n b, (forall fuel, (n <= fuel)%nat -> is_function fuel h t = Done b) /\
              (b = true <-> function_like h t).
Proof.
  induction 1 as [t _ IH].
  destruct t as [o []];
    try (exists 1%nat, false; split;
         [intros [|f] L; [lia|reflexivity]|split; [discriminate|inversion 1]]).
  - destruct (from_offset h (d_ty x)) as [u|] eqn:E.
    + destruct (IH _ u (fr_def o x) E) as (n & b & H & B).
      exists (S n), b. split.
      * intros [|f] L; [lia|]. cbn. rewrite E. apply H. lia.
      * rewrite B. split; [intros; eapply fl_def; eauto|inversion 1; congruence].
    + exists 1%nat, false. split.
      * intros [|f] L; [lia|]. cbn. now rewrite E.
      * split; [discriminate|inversion 1; congruence].
  - exists 1%nat, true. split.
    + intros [|f] L; [lia|reflexivity].
    + split; auto. constructor.
  - destruct (from_offset h (mo_ty x)) as [u|] eqn:E.
    + destruct (IH _ u (fr_mod o x) E) as (n & b & H & B).
      exists (S n), b. split.
      * intros [|f] L; [lia|]. cbn. rewrite E. apply H. lia.
      * rewrite B. split; [intros; eapply fl_modifier; eauto|inversion 1; congruence].
    + exists 1%nat, false. split.
      * intros [|f] L; [lia|]. cbn. now rewrite E.
      * split; [discriminate|inversion 1; congruence].
Qed.

(** ** Products of dimensions *)

Definition cong (a b : N) : Prop := a mod two64 = b mod two64.

Lemma two64_nz : two64 <> 0.
Proof. discriminate. Qed.

Lemma cong_mul64 a b c : cong a b -> cong (mul64 a c) (b * c).
Proof.
  unfold cong, mul64, wrap64. intros E. rewrite N.mod_mod by apply two64_nz.
  rewrite N.mul_mod, E, <- N.mul_mod by apply two64_nz. reflexivity.
Qed.

Lemma mul_counts_spec cs : forall size size', cs <> [] -> cong size size' ->
  match mul_counts size cs with
  | Some b => exists n, element_count cs n /\ cong b (size' * n)
  | None => forall n, ~ element_count cs n
  end.
Proof.
  induction cs as [|c cs IH]; intros size size' NE E; [congruence|]. cbn.
  destruct (explicit_dec c) as [X|X].
  - rewrite explicit_get by auto.
    destruct cs as [|c' cs].
    + cbn. exists c. split; [now constructor|]. now apply cong_mul64.
    + specialize (IH (mul64 size c) (size' * c) ltac:(discriminate) (cong_mul64 _ _ c E)).
      destruct (mul_counts (mul64 size c) (c' :: cs)) as [b|].
      * destruct IH as (n & H & C). exists (c * n). split.
        -- constructor; auto. discriminate.
        -- rewrite N.mul_assoc. auto.
      * intros n H. inversion H; subst. eapply IH; eauto.
  - rewrite not_explicit_get by auto. intros n H. inversion H; subst; auto.
Qed.

Lemma counts_dimensions x d : dimensions x d <-> d = counts_as_slice x.
Proof.
  unfold dimensions, counts_as_slice. destruct (a_counts x); intuition (subst; auto; try congruence).
Qed.

Lemma counts_nonempty x : counts_as_slice x <> [].
Proof. unfold counts_as_slice. destruct (a_counts x); discriminate. Qed.

(** ** Sizes *)

Definition size_answer (h : type_env) (t : type) (r : option N) : Prop :=
  match r with
  | Some b => exists s, size_is h t s /\ cong b s
  | None => forall s, ~ size_is h t s
  end.

Lemma reports_leaf h t r : (forall f, byte_size (S f) h t = Done r) -> reports_size h t r.
Proof. intros H. exists 1%nat. intros [|f] L; [lia|auto]. Qed.

Lemma size_spec h t : size_well_founded h t -> exists r, reports_size h t r /\ size_answer h t r.
Proof.
  induction 1 as [t _ IH FN].
  (* references to another type *)
  assert (REF : forall off, size_ref t off ->
    (forall f, byte_size (S f) h t =
       match from_offset h off with Some u => byte_size f h u | None => Done None end) ->
    (forall u s, from_offset h off = Some u -> (size_is h t s <-> size_is h u s)) ->
    (from_offset h off = None -> forall s, ~ size_is h t s) ->
    exists r, reports_size h t r /\ size_answer h t r).
  { intros off R B S1 S2. destruct (from_offset h off) as [u|] eqn:E.
    - destruct (IH off u R E) as (r & [n H] & A). exists r. split.
      + exists (S n). intros [|f] L; [lia|]. rewrite B. apply H. lia.
      + destruct r as [b|]; cbn in *.
        * destruct A as (s & S & C). exists s. split; auto. now apply (S1 u).
        * intros s S. apply (A s). now apply (S1 u s eq_refl).
    - exists None. split; [now apply reports_leaf|]. cbn. auto. }
  (* an explicit size or nothing *)
  assert (LEAF : forall sz, (forall f, byte_size (S f) h t = Done (opt64_get sz)) ->
    (explicit sz -> size_is h t sz) -> (forall s, size_is h t s -> explicit sz) ->
    exists r, reports_size h t r /\ size_answer h t r).
  { intros sz B S1 S2. exists (opt64_get sz). split; [now apply reports_leaf|].
    destruct (explicit_dec sz) as [X|X].
    - rewrite explicit_get by auto. exists sz. split; [auto|reflexivity].
    - rewrite not_explicit_get by auto. intros s S. apply X. eauto. }
  (* an explicit size *)
  assert (EXP : forall sz, explicit sz -> (forall f, byte_size (S f) h t = Done (opt64_get sz)) ->
    size_is h t sz -> exists r, reports_size h t r /\ size_answer h t r).
  { intros sz X B S. exists (Some sz). split.
    - apply reports_leaf. intros f. rewrite B. now rewrite explicit_get.
    - exists sz. split; [auto|reflexivity]. }
  destruct t as [o [|x|x|x|x|x|x|x|x|x|x|x]].
  - exists (Some 0). split; [now apply reports_leaf|]. exists 0. split; [constructor|reflexivity].
  - apply (LEAF (b_byte_size x)); [reflexivity|now constructor|now inversion 1].
  - apply (REF (d_ty x)); [constructor|reflexivity| |].
    + intros u s E. split; [inversion 1; congruence|econstructor; eauto].
    + intros E s. inversion 1; congruence.
  - apply (LEAF (s_byte_size x)); [reflexivity|now constructor|now inversion 1].
  - apply (LEAF (u_byte_size x)); [reflexivity|now constructor|now inversion 1].
  - destruct (explicit_dec (e_byte_size x)) as [X|X].
    + apply (EXP (e_byte_size x)); auto; [|now constructor].
      intros f. cbn. apply explicit_some in X as Y. now rewrite Y.
    + apply (REF (e_ty x)); [now constructor| | |].
      * intros f. cbn. apply not_explicit in X as Y. now rewrite Y.
      * intros u s E. split; [inversion 1; [tauto|congruence]|eapply sz_enum_ty; eauto].
      * intros E s. inversion 1; [tauto|congruence].
  - destruct (explicit_dec (a_byte_size x)) as [X|X].
    + apply (EXP (a_byte_size x)); auto; [|now constructor].
      intros f. cbn. apply explicit_some in X as Y. now rewrite Y.
    + assert (B : forall f, byte_size (S f) h (mkType o (TArray x)) =
         match match from_offset h (a_ty x) with
               | Some u => byte_size f h u | None => Done None end with
         | NoFuel => NoFuel
         | Done None => Done None
         | Done (Some size) => Done (mul_counts size (counts_as_slice x))
         end).
      { intros f. cbn. apply not_explicit in X as Y. rewrite Y.
        destruct (match from_offset h (a_ty x) with Some u => _ | None => _ end) as [[s|]|]; auto.
        pose proof (counts_nonempty x). destruct (counts_as_slice x) eqn:Q; [congruence|reflexivity]. }
      destruct (from_offset h (a_ty x)) as [u|] eqn:E.
      * destruct (IH (a_ty x) u ltac:(now constructor) E) as ([b|] & [n H] & A).
        -- destruct A as (s & S & C).
           pose proof (mul_counts_spec (counts_as_slice x) b s (counts_nonempty x) C) as M.
           exists (mul_counts b (counts_as_slice x)). split.
           ++ exists (Datatypes.S n). intros [|f] L; [lia|]. rewrite B, H by lia. reflexivity.
           ++ destruct (mul_counts b (counts_as_slice x)) as [r|].
              ** destruct M as (m & EC & C'). exists (s * m). split; auto.
                 eapply sz_array_ty; eauto. now apply counts_dimensions.
              ** intros s' S'. inversion S'; subst; [tauto|].
                 match goal with D : dimensions _ _ |- _ => apply counts_dimensions in D; subst end.
                 eapply M; eauto.
        -- exists None. split.
           ++ exists (S n). intros [|f] L; [lia|]. rewrite B, H by lia. reflexivity.
           ++ intros s' S'. inversion S'; subst; [tauto|].
              match goal with F : from_offset _ _ = Some ?v, G : size_is h ?v _ |- _ =>
                rewrite E in F; injection F as <-; apply A in G; auto end.
      * exists None. split; [apply reports_leaf; intros; now rewrite B|].
        intros s' S'. inversion S'; subst; [tauto|congruence].
  - apply (LEAF (f_byte_size x)); [reflexivity|now constructor|now inversion 1].
  - exists None. split; [now apply reports_leaf|]. intros s. inversion 1.
  - destruct (explicit_dec (pm_byte_size x)) as [X|X].
    + apply (EXP (pm_byte_size x)); auto; [|now constructor].
      intros f. cbn. apply explicit_some in X as Y. now rewrite Y.
    + apply not_explicit in X as Y.
      destruct (from_offset h (pm_ty x)) as [u|] eqn:E.
      * destruct (is_function_spec h u (FN o x u eq_refl X E)) as (n & b & H & FL).
        exists (if b then option_map (fun v => mul64 v 2) (pm_address_size x) else pm_address_size x).
        split.
        -- exists (S n). intros [|f] L; [lia|]. cbn. rewrite Y, E, H by lia. now destruct b.
        -- destruct (pm_address_size x) as [a|] eqn:P; destruct b; cbn.
           ++ exists (a * 2). split.
              ** eapply sz_ptm_function; eauto. now apply FL.
              ** apply cong_mul64. reflexivity.
           ++ exists a. split; [|reflexivity]. eapply sz_ptm_data; eauto.
              rewrite <- FL. discriminate.
           ++ intros s S. inversion S; try congruence; tauto.
           ++ intros s S. inversion S; try congruence; tauto.
      * exists None. split.
        -- apply reports_leaf. intros f. cbn. now rewrite Y, E.
        -- intros s S. inversion S; try congruence; tauto.
  - destruct (explicit_dec (mo_byte_size x)) as [X|X].
    + apply (EXP (mo_byte_size x)); auto; [|now constructor].
      intros f. cbn. apply explicit_some in X as Y. now rewrite Y.
    + apply not_explicit in X as Y.
      destruct (is_pointer_like (mo_kind x)) eqn:P.
      * exists (mo_address_size x). split.
        -- apply reports_leaf. intros f. cbn. now rewrite Y, P.
        -- apply pointer_size_dec in P. destruct (mo_address_size x) as [a|] eqn:A; cbn.
           ++ exists a. split; [|reflexivity]. now apply sz_pointer.
           ++ intros s S. inversion S; try congruence; tauto.
      * assert (NP : ~ has_pointer_size (mo_kind x)) by (rewrite pointer_size_dec; congruence).
        apply (REF (mo_ty x)); [now constructor| | |].
        -- intros f. cbn. now rewrite Y, P.
        -- intros u s E. split; [inversion 1; try tauto; congruence|eapply sz_modified; eauto].
        -- intros E s. inversion 1; try tauto; congruence.
  - destruct (explicit_dec (sr_byte_size x)) as [X|X].
    + apply (EXP (sr_byte_size x)); auto; [|now constructor].
      intros f. cbn. apply explicit_some in X as Y. now rewrite Y.
    + apply (REF (sr_ty x)); [now constructor| | |].
      * intros f. cbn. apply not_explicit in X as Y. now rewrite Y.
      * intros u s E. split; [inversion 1; [tauto|congruence]|eapply sz_subrange_ty; eauto].
      * intros E s. inversion 1; [tauto|congruence].
Qed.

Lemma element_count_fun cs : forall n m, element_count cs n -> element_count cs m -> n = m.
Proof.
  induction cs as [|c cs IH]; intros n m H1 H2; inversion H1; inversion H2; subst; try congruence.
  f_equal. eauto.
Qed.

Lemma size_is_fun h t s : size_is h t s -> forall s', size_is h t s' -> s = s'.
Proof.
  induction 1; intros s' S'; inversion S'; subst; try tauto; try congruence;
    try (match goal with F : from_offset h ?p = Some _, G : from_offset h ?p = Some _ |- _ =>
      rewrite F in G; injection G as <- end; eauto; fail).
  match goal with F : from_offset h ?p = Some _, G : from_offset h ?p = Some _ |- _ =>
      rewrite F in G; injection G as <- end.
  f_equal; [eauto|].
  match goal with F : dimensions _ _, G : dimensions _ _ |- _ =>
    apply counts_dimensions in F, G; subst end.
  eauto using element_count_fun.
Qed.

Lemma reports_size_fun h t a b : reports_size h t a -> reports_size h t b -> a = b.
Proof.
  intros [n H] [m G]. specialize (H (n + m)%nat ltac:(lia)). specialize (G (n + m)%nat ltac:(lia)).
  congruence.
Qed.

(** Answers are 64-bit values. *)
Lemma wrap64_lt x : wrap64 x < two64.
Proof. apply N.mod_lt, two64_nz. Qed.

Lemma mul_counts_lt cs : forall size b, size < two64 -> mul_counts size cs = Some b -> b < two64.
Proof.
  induction cs as [|c cs IH]; cbn; intros size b L.
  - congruence.
  - destruct (opt64_get c); [|discriminate]. apply IH. apply wrap64_lt.
Qed.

Lemma opt64_get_some s b : opt64_get s = Some b -> b = s.
Proof. unfold opt64_get. destruct (opt64_is_none s); congruence. Qed.

Lemma byte_size_lt h : (forall off u, h off = Some u -> sizes_u64 u) ->
  forall fuel t b, sizes_u64 t -> byte_size fuel h t = Done (Some b) -> b < two64.
Proof.
  intros HE. induction fuel as [|f IH]; intros t b HT; [discriminate|].
  change (2 ^ 64) with two64 in *.
  assert (HF : forall off u, from_offset h off = Some u -> sizes_u64 u).
  { intros off u. unfold from_offset. destruct (off =? type_offset_none); eauto.
    intros [= <-]. exact I. }
  assert (OF : forall off, match from_offset h off with Some u => byte_size f h u | None => Done None end
            = Done (Some b) -> b < two64).
  { intros off. destruct (from_offset h off) eqn:E; [|discriminate]. eapply IH. eauto. }
  assert (G : forall s, s < two64 -> Done (opt64_get s) = Done (Some b) -> b < two64).
  { intros s L [= E]. apply opt64_get_some in E. congruence. }
  destruct t as [o []]; cbn in HT |- *; change (2 ^ 64) with two64 in *; eauto.
  - intros [= <-]. reflexivity.
  - destruct (opt64_is_some _); eauto.
  - destruct (opt64_is_some _); eauto.
    destruct (from_offset h (a_ty x)) as [u|] eqn:E; [|discriminate].
    destruct (byte_size f h u) as [[s|]|] eqn:B; try discriminate.
    destruct (counts_as_slice x) eqn:C; [discriminate|]. intros [= M].
    apply (mul_counts_lt (o0 :: l) s); [eapply IH; eauto|exact M].
  - discriminate.
  - destruct HT as [H1 H2]. destruct (opt64_is_some _); eauto.
    destruct (from_offset h (pm_ty x)) as [u|]; [|discriminate].
    destruct (is_function f h u) as [[]|]; try discriminate; intros [= E].
    + destruct (pm_address_size x); [|discriminate]. injection E as <-. apply wrap64_lt.
    + auto.
  - destruct HT as [H1 H2]. destruct (opt64_is_some _); eauto.
    destruct (is_pointer_like _); eauto. intros [= E]; auto.
  - destruct (opt64_is_some _); eauto.
Qed.

Lemma size_exact h t s :
  (forall off u, h off = Some u -> sizes_u64 u) -> sizes_u64 t ->
  size_well_founded h t -> size_is h t s -> s < 2 ^ 64 -> reports_size h t (Some s).
Proof.
  intros HE HT W S L. destruct (size_spec h t W) as ([b|] & R & A); cbn in A.
  - destruct A as (s' & S' & C). rewrite <- (size_is_fun _ _ _ S _ S') in C.
    assert (b = s); [|congruence].
    destruct R as [n R]. specialize (R n (le_n n)).
    apply byte_size_lt in R; auto. unfold cong in C.
    rewrite !N.mod_small in C; auto.
  - exfalso. eapply A; eauto.
Qed.

(** ** [Address] and [Size] *)

Lemma opt64_round_trip v : v <> Some u64_max -> opt64_get (opt64_from v) = v.
Proof.
  destruct v as [n|]; cbn; intros H.
  - apply explicit_get. unfold explicit. congruence.
  - reflexivity.
Qed.

Lemma opt64_cmp_spec v w : v <> Some u64_max -> w <> Some u64_max ->
  (forall x, v = Some x -> x < 2 ^ 64) -> (forall x, w = Some x -> x < 2 ^ 64) ->
  opt64_cmp (opt64_from v) (opt64_from w) =
  match v, w with
  | Some a, Some b => N.compare a b
  | Some _, None => Lt
  | None, Some _ => Gt
  | None, None => Eq
  end.
Proof.
  unfold opt64_cmp, opt64_from, opt64_none.
  intros H1 H2 L1 L2. destruct v as [a|], w as [b|]; auto.
  - apply N.compare_lt_iff. specialize (L1 a eq_refl).
    assert (a <> u64_max) by congruence. change (2 ^ 64) with (N.succ u64_max) in L1. lia.
  - apply N.compare_gt_iff. specialize (L2 b eq_refl).
    assert (b <> u64_max) by congruence. change (2 ^ 64) with (N.succ u64_max) in L2. lia.
Qed.
