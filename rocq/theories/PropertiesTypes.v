(** Property theorems C09, C10, C18, C19: type identity, type sizes, optional values. *)
From Coq Require Import List NArith ZArith Bool String Lia.
From Verif Require Import Base BaseProofs NamespaceModel NamespaceSpec TypeModel TypeSpec
  TypeProofs TypeSizeProofs.
Import ListNotations.
Local Open Scope string_scope.
Local Open Scope N_scope.

(** A small type graph used in the examples: a struct [node] with a pointer to
    itself, arrays, a function type, a pointer to a member function, and [void*]. *)
Definition none := type_offset_none.
Definition ex_env : type_env := fun off =>
  match off with
  | 1 => Some (mkType 1 (TBase (mkBase (Some "int") 4)))
  | 2 => Some (mkType 2 (TStruct (mkStruct None (Some "node") 16 false [] [] [])))
  | 3 => Some (mkType 3 (TModifier (mkModifier MPointer 2 None none (Some 8))))
  | 4 => Some (mkType 4 (TArray (mkArray 1 none [3; 5] none)))
  | 5 => Some (mkType 5 (TArray (mkArray 1 none [3; 7] none)))
  | 6 => Some (mkType 6 (TFunction (mkFunctionType [1; 3] none none)))
  | 7 => Some (mkType 7 (TPtrToMember (mkPtrToMember 6 2 none (Some 8))))
  | 8 => Some (mkType 8 (TModifier (mkModifier MPointer none None none (Some 8))))
  | 9 => Some (mkType 9 (TDef (mkDef None (Some "cint") 10)))
  | 10 => Some (mkType 10 (TModifier (mkModifier MConst 1 None none None)))
  | 11 => Some (mkType 11 (TModifier (mkModifier MConst 11 None none None)))
  | _ => None
  end.
Definition ex (off : N) : type_env * type :=
  (ex_env, match ex_env off with Some t => t | None => void_type end).

Lemma ex_acyclic_1 : acyclic ex_env (snd (ex 1)).
Proof. constructor. intros off u H. inversion H. Qed.
Lemma ex_acyclic_2 : acyclic ex_env (snd (ex 2)).
Proof. constructor. intros off u H. inversion H. Qed.
Lemma ex_acyclic_3 : acyclic ex_env (snd (ex 3)).
Proof.
  constructor. intros off u H. inversion H; subst. intros [= <-]. apply ex_acyclic_2.
Qed.
Lemma ex_acyclic_void : acyclic ex_env void_type.
Proof. constructor. intros off u H. inversion H. Qed.
Lemma ex_acyclic_6 : acyclic ex_env (snd (ex 6)).
Proof.
  constructor. intros off u H. inversion H; subst.
  - match goal with I : In _ _ |- _ => cbn in I; destruct I as [<-|[<-|[]]] end; intros [= <-].
    + apply ex_acyclic_1.
    + apply ex_acyclic_3.
  - intros [= <-]. apply ex_acyclic_void.
Qed.
Lemma ex_acyclic_7 : acyclic ex_env (snd (ex 7)).
Proof.
  constructor. intros off u H. inversion H; subst; intros [= <-].
  - apply ex_acyclic_2.
  - apply ex_acyclic_6.
Qed.

(** C09: the comparison terminates as soon as one of the two types is acyclic
    (without debug assertions; see C10 for those). *)
Theorem C09_compare_terminates :
  forall x y, acyclic (fst x) (snd x) \/ acyclic (fst y) (snd y) ->
    exists o, compares false x y o.
Proof. exact compares_total. Qed.
Print Assumptions C09_compare_terminates.

Theorem C09_compare_deterministic :
  forall debug x y o o', compares debug x y o -> compares debug x y o' -> o = o'.
Proof. exact compares_fun. Qed.
Print Assumptions C09_compare_deterministic.

Theorem C09_compare_reflexive :
  forall x, acyclic (fst x) (snd x) -> compares false x x Eq.
Proof. exact compares_refl. Qed.
Print Assumptions C09_compare_reflexive.

Theorem C09_compare_antisymmetric :
  forall x y o, acyclic (fst x) (snd x) \/ acyclic (fst y) (snd y) ->
    compares false x y o -> compares false y x (CompOpp o).
Proof. exact compares_sym. Qed.
Print Assumptions C09_compare_antisymmetric.

Theorem C09_compare_transitive :
  forall x y z o1 o2 o3, acyclic (fst x) (snd x) -> acyclic (fst y) (snd y) ->
    compares false x y o1 -> compares false y z o2 -> compares false x z o3 ->
    o1 <> Gt -> o2 <> Gt -> o3 <> Gt.
Proof. exact compares_trans. Qed.
Print Assumptions C09_compare_transitive.

(** C09: equal means same identity, defined independently of the comparison. *)
Theorem C09_equal_iff_same_identity :
  forall x y, acyclic (fst x) (snd x) \/ acyclic (fst y) (snd y) ->
    (compares false x y Eq <-> same_id (fst x) (fst y) (snd x) (snd y)).
Proof. exact compares_eq. Qed.
Print Assumptions C09_equal_iff_same_identity.

(** C09: with debug assertions the comparison gives the same answer when it
    gives one at all. *)
Theorem C09_debug_agrees :
  forall x y o, compares true x y o -> compares false x y o.
Proof. exact compares_debug. Qed.
Print Assumptions C09_debug_agrees.

(** C09: acyclicity is needed: on a cyclic type no answer is ever reached. *)
Theorem C09_cyclic_diverges_refuted :
  exists x, forall o, ~ compares false x x o.
Proof.
  exists (ex 11). intros o [n H]. specialize (H n (le_n n)). revert H.
  cut (cmp_id false n (fst (ex 11)) (snd (ex 11)) (fst (ex 11)) (snd (ex 11)) = OutOfFuel);
    [congruence|].
  induction n; [reflexivity|].
  change (cthen (cmp_id false n (fst (ex 11)) (snd (ex 11)) (fst (ex 11)) (snd (ex 11))) (Ord Eq)
          = OutOfFuel).
  now rewrite IHn.
Qed.
Print Assumptions C09_cyclic_diverges_refuted.

Example C09_example :
  acyclic (fst (ex 7)) (snd (ex 7)) /\
  cmp_id false 4 ex_env (snd (ex 7)) ex_env (snd (ex 7)) = Ord Eq /\
  cmp_id false 4 ex_env (snd (ex 3)) ex_env (snd (ex 8)) = Ord Gt /\
  cmp_id false 4 ex_env (snd (ex 6)) ex_env (snd (ex 7)) = Ord Lt.
Proof. split; [apply ex_acyclic_7|repeat split]. Qed.

(** C10: arrays with different dimensions compare equal. *)
Theorem C10_array_dimensions_refuted :
  exists h x y d e, acyclic h (mkType 4 (TArray x)) /\ acyclic h (mkType 5 (TArray y)) /\
    compares false (h, mkType 4 (TArray x)) (h, mkType 5 (TArray y)) Eq /\
    dimensions x d /\ dimensions y e /\ d <> e.
Proof.
  exists ex_env, (mkArray 1 none [3; 5] none), (mkArray 1 none [3; 7] none), [3; 5], [3; 7].
  assert (A : forall o x, a_ty x = 1 -> acyclic ex_env (mkType o (TArray x))).
  { intros o x E. constructor. intros off u H. inversion H; subst. rewrite E.
    intros [= <-]. apply ex_acyclic_1. }
  split; [now apply A|]. split; [now apply A|]. split.
  - exists 2%nat. intros [|[|f]] L; try lia. reflexivity.
  - split; [left; cbn; split; congruence|]. split; [left; cbn; split; congruence|]. discriminate.
Qed.
Print Assumptions C10_array_dimensions_refuted.

(** C10: comparing two [void*] fails a debug assertion. *)
Theorem C10_void_assertion_refuted :
  exists x, acyclic (fst x) (snd x) /\
    forall fuel, (2 <= fuel)%nat ->
      cmp_id true fuel (fst x) (snd x) (fst x) (snd x) = AssertFail.
Proof.
  exists (ex 8). split.
  - constructor. intros off u H. inversion H; subst. intros [= <-]. apply ex_acyclic_void.
  - intros [|[|f]] L; try lia. reflexivity.
Qed.
Print Assumptions C10_void_assertion_refuted.

(** C10: for arrays with a single dimension the documented equality holds. *)
Theorem C10_single_dimension_equality :
  forall ha hb oa ob x y, a_counts x = [] -> a_counts y = [] ->
    acyclic ha (mkType oa (TArray x)) ->
    compares false (ha, mkType oa (TArray x)) (hb, mkType ob (TArray y)) Eq ->
    forall d e, dimensions x d -> dimensions y e -> d = e.
Proof.
  intros ha hb oa ob x y Cx Cy A C d e Dx Dy.
  apply compares_eq in C; [|now left]. cbn in C. inversion C; subst.
  destruct Dx as [[? _]|[_ ->]]; [congruence|]. destruct Dy as [[? _]|[_ ->]]; [congruence|].
  congruence.
Qed.
Print Assumptions C10_single_dimension_equality.

(** C18: when the references are well founded a size is computed; it is the
    specified size up to 64-bit wrap-around, and absent exactly when no size is
    specified. *)
Theorem C18_size_follows_graph :
  forall h t, size_well_founded h t ->
    (exists b s, reports_size h t (Some b) /\ size_is h t s /\ b mod 2 ^ 64 = s mod 2 ^ 64) \/
    (reports_size h t None /\ forall s, ~ size_is h t s).
Proof.
  intros h t W. destruct (size_spec h t W) as ([b|] & R & A); [left|right; auto].
  destruct A as (s & S & C). exists b, s. auto.
Qed.
Print Assumptions C18_size_follows_graph.

(** C18: the size is exact when it fits in 64 bits. *)
Theorem C18_size_exact :
  forall h t s, (forall off u, h off = Some u -> sizes_u64 u) -> sizes_u64 t ->
    size_well_founded h t -> size_is h t s -> s < 2 ^ 64 -> reports_size h t (Some s).
Proof. exact size_exact. Qed.
Print Assumptions C18_size_exact.

(** C18: the specified size and the reported one are unique. *)
Theorem C18_size_unique :
  forall h t, (forall s s', size_is h t s -> size_is h t s' -> s = s') /\
    (forall r r', reports_size h t r -> reports_size h t r' -> r = r').
Proof. split; [intros; eapply size_is_fun; eauto|apply reports_size_fun]. Qed.
Print Assumptions C18_size_unique.

Example C18_example :
  byte_size 3 ex_env (snd (ex 4)) = Done (Some 60) /\
  byte_size 3 ex_env (snd (ex 3)) = Done (Some 8) /\
  byte_size 3 ex_env (snd (ex 7)) = Done (Some 16) /\
  byte_size 3 ex_env (snd (ex 9)) = Done (Some 4) /\
  byte_size 3 ex_env (snd (ex 6)) = Done None /\
  size_is ex_env (snd (ex 4)) 60.
Proof.
  repeat split. change 60 with (4 * (3 * 5)).
  apply sz_array_ty with (u := snd (ex 1)) (d := [3; 5]).
  - intros H. now apply H.
  - reflexivity.
  - apply (sz_base ex_env 1 (mkBase (Some "int") 4)). discriminate.
  - left. split; [discriminate|reflexivity].
  - constructor; [discriminate|discriminate|]. constructor. discriminate.
Qed.

(** C18: a product too large for 64 bits wraps. *)
Example C18_wraps :
  byte_size 2 ex_env (mkType 12 (TArray (mkArray 1 9223372036854775808 [] none))) = Done (Some 0).
Proof. reflexivity. Qed.

(** C19: round trip of optional addresses and sizes. *)
Theorem C19_round_trip :
  forall v, v <> Some (2 ^ 64 - 1) -> opt64_get (opt64_from v) = v.
Proof. exact opt64_round_trip. Qed.
Print Assumptions C19_round_trip.

(** C19: the stored order is the order of the values, absent last. *)
Theorem C19_order :
  forall v w, v <> Some (2 ^ 64 - 1) -> w <> Some (2 ^ 64 - 1) ->
    (forall x, v = Some x -> x < 2 ^ 64) -> (forall x, w = Some x -> x < 2 ^ 64) ->
    opt64_cmp (opt64_from v) (opt64_from w) =
    match v, w with
    | Some a, Some b => N.compare a b
    | Some _, None => Lt
    | None, Some _ => Gt
    | None, None => Eq
    end.
Proof. exact opt64_cmp_spec. Qed.
Print Assumptions C19_order.

(** C19: creating a known value with the all-ones bit pattern fails the debug
    assertion, and no other value does; and the tests agree with the value. *)
Theorem C19_new_and_tests :
  forall x, (opt64_new x = None <-> x = 2 ^ 64 - 1) /\
    (forall y, opt64_new x = Some y -> opt64_get y = Some x) /\
    (opt64_is_some x = true <-> exists v, opt64_get x = Some v) /\
    (opt64_is_none x = true <-> opt64_get x = None).
Proof.
  intros x. change (2 ^ 64 - 1) with u64_max.
  unfold opt64_new, opt64_get, opt64_is_some, opt64_is_none, opt64_none.
  destruct (N.eqb_spec x u64_max) as [->|NE]; cbn [negb].
  - rewrite ?N.eqb_refl. repeat split; auto; try discriminate. intros [v H]. discriminate.
  - split; [split; congruence|]. split.
    + intros y [= <-]. destruct (N.eqb_spec x u64_max); [contradiction|reflexivity].
    + split; [split; eauto|split; congruence].
Qed.
Print Assumptions C19_new_and_tests.

(** C19: the all-ones value is read back as absent. *)
Theorem C19_round_trip_all_ones_refuted :
  exists v, opt64_get (opt64_from (Some v)) <> Some v.
Proof. exists u64_max. discriminate. Qed.
Print Assumptions C19_round_trip_all_ones_refuted.
