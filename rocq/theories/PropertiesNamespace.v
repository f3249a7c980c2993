(** Property theorems C07-C08: namespaces. *)
From Coq Require Import List NArith Bool String.
From Verif Require Import Base BaseProofs NamespaceModel NamespaceSpec NamespaceProofs.
Import ListNotations.
Local Open Scope string_scope.

Definition ns_a := Ns None (Some "a") KNamespace.
Definition ns_ab := Ns (Some ns_a) (Some "b") KFunction.
Definition ns_abc := Ns (Some ns_ab) (Some "c") KType.
Definition ns_a_anon := Ns (Some ns_a) None KNamespace.
Definition ns_aa := Ns (Some ns_a) (Some "a") KNamespace.

(** C07: within a filter path iff the filter is a prefix of the path from the
    root; an anonymous component ([None]) never matches. *)
Theorem C07_is_within_iff_prefix :
  forall ns path filter, path_of ns path ->
    (ns_is_within ns filter = true <-> exists rest, path = (map Some filter ++ rest)%list).
Proof.
  intros ns path filter P. apply path_of_ns_path in P. subst path. apply is_within_spec.
Qed.
Print Assumptions C07_is_within_iff_prefix.

Example C07_example :
  ns_is_within ns_abc ["a"; "b"] = true /\ ns_is_within ns_abc ["b"] = false /\
  ns_is_within ns_a ["a"; "b"] = false /\ ns_is_within ns_a_anon [""] = false /\
  path_of ns_abc [Some "a"; Some "b"; Some "c"].
Proof. repeat split. apply path_of_ns_path. reflexivity. Qed.

(** C08: comparing never violates the debug assertion and decides dictionary
    order on (path, name). *)
Theorem C08_compare_less :
  forall n1 a n2 b p1 p2, path_opt n1 p1 -> path_opt n2 p2 ->
    (cmp_ns_and_name n1 a n2 b = Some Lt <-> item_lt (p1, a) (p2, b)).
Proof.
  intros n1 a n2 b p1 p2 P1 P2. apply path_opt_ns_path in P1, P2. subst.
  rewrite cmp_ns_and_name_spec, <- cmp_item_lt. split; congruence.
Qed.
Print Assumptions C08_compare_less.

Theorem C08_compare_equal :
  forall n1 a n2 b p1 p2, path_opt n1 p1 -> path_opt n2 p2 ->
    (cmp_ns_and_name n1 a n2 b = Some Eq <-> p1 = p2 /\ a = b).
Proof.
  intros n1 a n2 b p1 p2 P1 P2. apply path_opt_ns_path in P1, P2. subst.
  rewrite cmp_ns_and_name_spec.
  transitivity (cmp_item (ns_path_opt n1, a) (ns_path_opt n2, b) = Eq); [split; congruence|].
  rewrite cmp_item_eq. split; [intros [= -> ->]; auto|intros [-> ->]; auto].
Qed.
Print Assumptions C08_compare_equal.

Theorem C08_compare_greater :
  forall n1 a n2 b p1 p2, path_opt n1 p1 -> path_opt n2 p2 ->
    (cmp_ns_and_name n1 a n2 b = Some Gt <-> item_lt (p2, b) (p1, a)).
Proof.
  intros n1 a n2 b p1 p2 P1 P2. apply path_opt_ns_path in P1, P2. subst.
  rewrite cmp_ns_and_name_spec, <- cmp_item_lt, (tp_sym _ cmp_item_tp (ns_path_opt n1, a)).
  destruct (cmp_item _ _); cbn; split; congruence.
Qed.
Print Assumptions C08_compare_greater.

(** C08: the comparison is total: every item has a path and some order results. *)
Theorem C08_compare_total :
  forall n1 a n2 b, exists p1 p2 o, path_opt n1 p1 /\ path_opt n2 p2 /\
    cmp_ns_and_name n1 a n2 b = Some o.
Proof.
  intros n1 a n2 b. exists (ns_path_opt n1), (ns_path_opt n2), (cmp_item (ns_path_opt n1, a) (ns_path_opt n2, b)).
  rewrite !path_opt_ns_path. auto using cmp_ns_and_name_spec.
Qed.
Print Assumptions C08_compare_total.

(** C08: it is a total preorder. *)
Theorem C08_total_preorder :
  exists cmp, total_preorder cmp /\
    forall n1 a n2 b, cmp_ns_and_name n1 a n2 b = Some (cmp (n1, a) (n2, b)).
Proof.
  exists (fun x y => cmp_item (ns_path_opt (fst x), snd x) (ns_path_opt (fst y), snd y)). split.
  - apply (cmp_on_tp (fun x => (ns_path_opt (fst x), snd x))), cmp_item_tp.
  - intros. apply cmp_ns_and_name_spec.
Qed.
Print Assumptions C08_total_preorder.

Example C08_example :
  cmp_ns_and_name (Some ns_ab) (Some "z") (Some ns_abc) (Some "a") = Some Lt /\
  cmp_ns_and_name (Some ns_aa) (Some "x") (Some ns_ab) (Some "a") = Some Lt /\
  cmp_ns_and_name (Some ns_abc) None (Some ns_aa) (Some "z") = Some Gt /\
  cmp_ns_and_name None (Some "z") (Some ns_a_anon) None = Some Lt /\
  cmp_ns_and_name (Some ns_a) (Some "x") (Some (Ns None (Some "a") KType)) (Some "x") = Some Eq.
Proof. repeat split. Qed.
