(** Types that are not built from themselves are not deeper than [depth_limit]. *)
From Coq Require Import List Arith NArith ZArith Bool String Lia Permutation Relations Wellfounded.
From Verif Require Import Base BaseProofs NamespaceModel TypeModel TypeSpec TypeProofs TypeSizeProofs FileModel FileSpec
  FilterModel PrintModel RefModel RefProofs ItemModel ItemSpec OptionsModel PropertiesListing PropertiesFile PropertiesDie
  DieModel DieSpec WholeModel WholeSpec WholeProofs.
Import ListNotations.
Local Open Scope N_scope.

(** ** Chains in a finite set *)

Section Chains.
  Variable R : N -> N -> Prop.

  Fixpoint within (n : nat) (x : N) : Prop :=
    match n with O => False | S n' => forall y, R y x -> within n' y end.
  Lemma within_mono n : forall m x, (n <= m)%nat -> within n x -> within m x.
  Proof.
    induction n as [|n IH]; intros m x L H; [destruct H|]. destruct m as [|m]; [lia|]. cbn in *. intros y Ry.
    apply IH; [lia|auto].
  Qed.

  Lemma acc_irreflexive x : Acc R x -> ~ clos_trans N R x x.
  Proof.
    intros A. apply Acc_clos_trans in A. induction A as [x _ IH]. intros H. exact (IH x H H).
  Qed.

  Lemma within_list n : forall L x, (List.length L <= n)%nat -> Acc R x -> (forall y, clos_trans N R y x -> In y L) ->
    within (S n) x.
  Proof.
    induction n as [|n IH]; intros L x LE A H; cbn [within]; intros y Ry.
    - destruct L; [|cbn in LE; lia]. destruct (H y). now apply t_step.
    - assert (Iy : In y L) by (apply H; now apply t_step).
      apply (IH (remove N.eq_dec y L) y).
      + pose proof (remove_length_lt N.eq_dec L y Iy). lia.
      + now apply (Acc_inv A).
      + intros z Hz. apply in_in_remove.
        * intros ->. now apply (acc_irreflexive y (Acc_inv A _ Ry)).
        * apply H. apply t_trans with y; [exact Hz|now apply t_step].
  Qed.
End Chains.

(** ** Identities, functions and sizes *)

Section Env.
  Variable h : type_env.
  Variable L : list N.
  Hypothesis DOM : forall off t, from_offset h off = Some t -> In off L.

  Definition refers (ref : type -> type_offset -> Prop) (y x : N) : Prop :=
    exists t u, from_offset h x = Some t /\ ref t y /\ from_offset h y = Some u.

  Lemma refers_within ref x t : from_offset h x = Some t -> Acc (refers ref) x -> within (refers ref) (S (List.length L)) x.
  Proof.
    intros _ A. apply (within_list _ _ L); [lia|exact A|].
    intros y H.
    assert (X : exists u, from_offset h y = Some u).
    { clear A. induction H as [y x (? & u & _ & _ & E)|y z x H1 [u IH1] _ _]; eauto. }
    destruct X as (u & E). now apply DOM in E.
  Qed.

  Lemma acyclic_acc t : acyclic h t -> forall x, from_offset h x = Some t -> Acc (refers identity_ref) x.
  Proof.
    induction 1 as [t _ IH]. intros x E. constructor. intros y (t' & u & E' & R & F). rewrite E in E'. injection E' as <-.
    now apply (IH y u).
  Qed.
  Lemma within_bounded n : forall x t, within (refers identity_ref) n x -> from_offset h x = Some t -> bounded n h t.
  Proof.
    induction n as [|n IH]; intros x t W E; [destruct W|]. cbn in *. intros off u R F. apply (IH off); [|exact F].
    apply W. exists t, u. auto.
  Qed.
  Lemma found_bounded x t : from_offset h x = Some t -> acyclic h t -> bounded (S (List.length L)) h t.
  Proof. intros E A. apply (within_bounded _ x); [|exact E]. apply (refers_within _ x t E). now apply (acyclic_acc t). Qed.
  Lemma any_bounded t : (forall x u, from_offset h x = Some u -> acyclic h u) -> bounded (S (S (List.length L))) h t.
  Proof. intros A. cbn [bounded]. intros off u _ E. now apply (found_bounded off u E), (A off). Qed.

  Lemma function_acc t : function_well_founded h t -> forall x, from_offset h x = Some t -> Acc (refers function_ref) x.
  Proof.
    induction 1 as [t _ IH]. intros x E. constructor. intros y (t' & u & E' & R & F). rewrite E in E'. injection E' as <-.
    now apply (IH y u).
  Qed.
  Lemma within_function n : forall x t f, within (refers function_ref) n x -> from_offset h x = Some t -> (n <= f)%nat ->
    exists b, is_function f h t = Done b.
  Proof.
    induction n as [|n IH]; intros x t f W E LE; [destruct W|]. destruct f as [|f]; [lia|]. cbn [is_function].
    assert (STEP : forall off, function_ref t off ->
      exists b, match from_offset h off with Some u => is_function f h u | None => Done false end = Done b).
    { intros off R. destruct (from_offset h off) as [u|] eqn:F; [|eauto]. apply (IH off); [|exact F|lia].
      cbn in W. apply W. exists t, u. auto. }
    destruct t as [o []]; cbn [t_kind]; eauto; apply STEP; constructor.
  Qed.
  Lemma found_function x t f : from_offset h x = Some t -> function_well_founded h t -> (S (List.length L) <= f)%nat ->
    exists b, is_function f h t = Done b.
  Proof.
    intros E A LE. apply (within_function (S (List.length L)) x); [|exact E|exact LE].
    apply (refers_within _ x t E). now apply (function_acc t).
  Qed.

  Lemma size_acc t : size_well_founded h t -> forall x, from_offset h x = Some t -> Acc (refers size_ref) x.
  Proof.
    induction 1 as [t _ IH]. intros x E. constructor. intros y (t' & u & E' & R & F). rewrite E in E'. injection E' as <-.
    now apply (IH y u).
  Qed.

  (** One step: a size is known if the sizes that it depends on are. *)
  Lemma size_step t f : size_well_founded h t -> (S (List.length L) <= f)%nat ->
    (forall off u, size_ref t off -> from_offset h off = Some u -> exists r, byte_size f h u = Done r) ->
    exists r, byte_size (S f) h t = Done r.
  Proof.
    intros [_ FN] LE H. cbn [byte_size].
    assert (STEP : forall off, size_ref t off ->
      exists r, match from_offset h off with Some u => byte_size f h u | None => Done None end = Done r).
    { intros off R. destruct (from_offset h off) as [u|] eqn:F; eauto. }
    destruct t as [o []]; cbn [t_kind]; eauto.
    - apply STEP. constructor.
    - destruct (opt64_is_some (e_byte_size x)) eqn:X; [eauto|]. apply STEP. constructor. now apply not_explicit.
    - destruct (opt64_is_some (a_byte_size x)) eqn:X; [eauto|].
      destruct (STEP (a_ty x)) as (r & ->); [constructor; now apply not_explicit|].
      destruct r; [|eauto]. destruct (counts_as_slice x); eauto.
    - destruct (opt64_is_some (pm_byte_size x)) eqn:X; [eauto|].
      destruct (from_offset h (pm_ty x)) as [u|] eqn:F; [|eauto].
      destruct (found_function (pm_ty x) u f F) as (b & ->); [|exact LE|destruct b; eauto].
      apply (FN o x u); auto. now apply not_explicit.
    - destruct (opt64_is_some (mo_byte_size x)) eqn:X; [eauto|].
      destruct (is_pointer_like (mo_kind x)) eqn:K; [eauto|]. apply STEP. constructor; [now apply not_explicit|].
      rewrite pointer_size_dec. congruence.
    - destruct (opt64_is_some (sr_byte_size x)) eqn:X; [eauto|]. apply STEP. constructor. now apply not_explicit.
  Qed.

  Lemma within_size n : forall x t f, within (refers size_ref) n x -> from_offset h x = Some t -> size_well_founded h t ->
    (n + S (List.length L) <= f)%nat -> exists r, byte_size f h t = Done r.
  Proof.
    induction n as [|n IH]; intros x t f W E SW LE; [destruct W|]. destruct f as [|f]; [lia|].
    apply size_step; [exact SW|lia|]. intros off u R F. apply (IH off); [|exact F| |lia].
    - cbn in W. apply W. exists t, u. auto.
    - destruct SW as [SW _]. now apply (SW off).
  Qed.
  Lemma found_size x t f : from_offset h x = Some t -> size_well_founded h t -> (2 * S (List.length L) <= f)%nat ->
    exists r, byte_size f h t = Done r.
  Proof.
    intros E SW LE. apply (within_size (S (List.length L)) x); [|exact E|exact SW|lia].
    apply (refers_within _ x t E). now apply (size_acc t).
  Qed.
End Env.

(** A size that is found does not depend on the depth. *)
Lemma is_function_le h f : forall g t b, (f <= g)%nat -> is_function f h t = Done b -> is_function g h t = Done b.
Proof.
  induction f as [|f IH]; intros g t b LE; [discriminate|]. destruct g as [|g]; [lia|]. cbn [is_function].
  destruct (t_kind t); auto; (destruct (from_offset h _); [apply IH; lia|auto]).
Qed.
Lemma byte_size_le h f : forall g t r, (f <= g)%nat -> byte_size f h t = Done r -> byte_size g h t = Done r.
Proof.
  induction f as [|f IH]; intros g t r LE; [discriminate|]. destruct g as [|g]; [lia|]. cbn [byte_size].
  assert (REC : forall off r, match from_offset h off with Some u => byte_size f h u | None => Done None end = Done r ->
    match from_offset h off with Some u => byte_size g h u | None => Done None end = Done r).
  { intros off r'. destruct (from_offset h off); [apply IH; lia|auto]. }
  destruct (t_kind t); auto.
  - destruct (opt64_is_some _); auto.
  - destruct (opt64_is_some _); [auto|].
    destruct (match from_offset h (a_ty x) with Some u => byte_size f h u | None => Done None end) eqn:E; [|discriminate].
    now rewrite (REC _ _ E).
  - destruct (opt64_is_some _); [auto|]. destruct (from_offset h (pm_ty x)) as [u|]; [|auto].
    destruct (is_function f h u) eqn:E; [|discriminate]. rewrite (is_function_le h f g u x0) by (auto; lia). auto.
  - destruct (opt64_is_some _); [auto|]. destruct (is_pointer_like _); auto.
  - destruct (opt64_is_some _); auto.
Qed.

(** ** The types of a file *)

Lemma count_entries d : List.length (entries d) = die_count d.
Proof.
  induction d as [d IH] using (well_founded_induction (Wf_nat.well_founded_ltof _ die_count)).
  destruct d as [t o a l]. cbn [entries die_children die_count List.length]. f_equal.
  assert (H : forall c, In c l -> List.length (entries c) = die_count c).
  { intros c I. apply IH. now apply count_child. }
  clear IH. induction l as [|c l IHl]; [reflexivity|]. cbn [flat_map map]. rewrite app_length.
  rewrite (H c (or_introl eq_refl)), IHl by (intros; apply H; now right). reflexivity.
Qed.
Lemma count_all ob : List.length (all_entries ob) = list_sum (map (fun u => dies_count (ui_children u)) (ob_units ob)).
Proof.
  unfold all_entries. induction (ob_units ob) as [|u us IH]; [reflexivity|]. cbn [flat_map map].
  rewrite app_length, IH. change (list_sum (?a :: ?b)) with (a + list_sum b)%nat. f_equal.
  unfold unit_entries, dies_count. induction (ui_children u) as [|c l IHl]; [reflexivity|]. cbn [flat_map map].
  rewrite app_length, count_entries, IHl. reflexivity.
Qed.

Definition places (ob : object_input) : list N := type_offset_none :: map die_offset (all_entries ob).
Lemma places_length ob : List.length (places ob) = S (List.length (all_entries ob)).
Proof. unfold places. cbn [List.length]. now rewrite map_length. Qed.
Lemma depth_limit_eq ob : depth_limit ob = (2 * List.length (all_entries ob) + 8)%nat.
Proof. unfold depth_limit. now rewrite count_all. Qed.

Section Types.
  Variable ob : object_input.
  Hypothesis WF : well_formed ob.

  Lemma parsed_types : all_types (parsed_units ob) = flat_map (fun u => ws_types (unit_items ob u)) (ob_units ob).
  Proof.
    unfold all_types, parsed_units. induction (ob_units ob) as [|u l IH]; [reflexivity|]. cbn [map flat_map]. now rewrite IH.
  Qed.

  Lemma type_at_place off t : from_offset (type_at ob) off = Some t -> In off (places ob).
  Proof.
    unfold from_offset. destruct (N.eqb_spec off type_offset_none) as [->|N]; [left; reflexivity|].
    unfold type_at. intros E. right. unfold all_entries. rewrite map_flat_map. apply in_flat_map.
    destruct (types_by_offset (parsed_units ob) off) as [t'|] eqn:F.
    - apply C21_types_by_offset in F. destruct F as (b & a & P & K & _). injection K as K. injection E as ->.
      assert (I : In t (all_types (parsed_units ob))) by (rewrite P; apply in_app_iff; right; now left).
      rewrite parsed_types in I. apply in_flat_map in I. destruct I as (u & Iu & It).
      destruct (type_entry ob WF u t Iu It) as (d & Id & _ & Eo). exists u. split; [exact Iu|].
      rewrite <- K, Eo. now apply in_map.
    - unfold unnamed_type in E. destruct (entry_in (ob_units ob) off) as [[u d]|] eqn:G; [|discriminate].
      apply (entry_in_sound ob) in G; [|auto]. destruct G as (Iu & Id & <-). exists u. split; [exact Iu|]. now apply in_map.
  Qed.

  Lemma type_at_named u t : In u (ob_units ob) -> In t (ws_types (unit_items ob u)) ->
    type_at ob (t_offset t) = Some t /\ t_offset t <> type_offset_none.
  Proof.
    intros Iu It. split.
    - unfold type_at. destruct (types_by_offset (parsed_units ob) (t_offset t)) as [t'|] eqn:F.
      + apply C21_types_by_offset in F. destruct F as (b & a & P & K & _). injection K as K.
        assert (I : In t' (all_types (parsed_units ob))) by (rewrite P; apply in_app_iff; right; now left).
        rewrite parsed_types in I. apply in_flat_map in I. destruct I as (v & Iv & Jv).
        destruct (type_entry ob WF u t Iu It) as (d & Id & _ & Eo). destruct (type_entry ob WF v t' Iv Jv) as (e & Ie & _ & Fo).
        assert (u = v) as <-.
        { apply (owner ob WF u v (t_offset t)); auto; [rewrite Eo|rewrite <- K, Fo]; now apply in_map. }
        f_equal. apply (NoDup_map_eq t_offset (ws_types (unit_items ob u))); auto.
        exact (proj1 (C49_kept _ _ _ (unit_distinct ob WF u Iu) (items_read ob u))).
      + exfalso. pose proof (proj1 (proj2 (proj2 (proj2 (proj2 (C21_absent _ _))))) F) as G. apply (G t); [|reflexivity]. rewrite parsed_types. apply in_flat_map. eauto.
    - destruct (type_entry ob WF u t Iu It) as (d & Id & _ & ->). destruct WF as [_ FA]. rewrite Forall_forall in FA.
      apply FA. apply in_flat_map. exists u. auto.
  Qed.

  Section Acyclic.
    Hypothesis AC : acyclic_types ob.
    Lemma type_bounded t : bounded (S (S (List.length (places ob)))) (type_at ob) t.
    Proof. apply (any_bounded _ (places ob) type_at_place). exact AC. Qed.

    Lemma ref_found tid t : exists v, type_ref (type_at ob) tid (parameter_names ob) (depth_limit ob) t = Some v.
    Proof.
      destruct t as [t|].
      - apply (ref_some _ _ _ (S (S (List.length (places ob))))); [apply type_bounded|].
        rewrite places_length, depth_limit_eq. lia.
      - rewrite depth_limit_eq. replace (2 * _ + 8)%nat with (S (2 * List.length (all_entries ob) + 7)) by lia. eexists. reflexivity.
    Qed.

    Lemma type_compare_eq a b n : (S (S (List.length (places ob))) <= n)%nat ->
      type_compare ob a b = cmp_n n (type_at ob, a) (type_at ob, b).
    Proof.
      intros LE. unfold type_compare.
      assert (B : forall m t, (S (S (List.length (places ob))) <= m)%nat -> bounded m (type_at ob) t).
      { intros m t Lm. apply (bounded_mono _ _ _ _ Lm). apply type_bounded. }
      assert (LD : (S (S (List.length (places ob))) <= depth_limit ob)%nat) by (rewrite places_length, depth_limit_eq; lia).
      rewrite cmp_id_spec by (left; now apply B).
      pose proof (compares_bounded _ (type_at ob, a) (type_at ob, b) (or_introl (B _ a LD))) as X.
      pose proof (compares_bounded _ (type_at ob, a) (type_at ob, b) (or_introl (B _ a LE))) as Y.
      exact (compares_fun _ _ _ _ _ X Y).
    Qed.

    Lemma compares_file vw : h_env (vw_hash vw) = type_at ob -> compares_types (mkSides vw vw (type_compare ob)).
    Proof.
      intros E a b c H. cbn [sd_a sd_b sd_cmp] in *. rewrite E in H. rewrite (type_compare_eq a b _ (le_n _)).
      symmetry. apply (compares_iff _ _ c (S (S (List.length (places ob))))); [|exact H]. left. apply type_bounded.
    Qed.

    Lemma type_compare_tp : total_preorder (type_compare ob).
    Proof.
      pose proof (cmp_n_tp (S (S (List.length (places ob))))) as T.
      split; intros; rewrite ?(type_compare_eq _ _ _ (le_n _)) in *.
      - apply (tp_refl _ T).
      - apply (tp_sym _ T).
      - eapply (tp_trans _ T); eauto.
    Qed.
  End Acyclic.
End Types.
