(** Property theorems C01-C05: address range lists. *)
From Coq Require Import List Permutation NArith Lia.
From Verif Require Import Base RangeModel RangeSpec RangeProofs.
Import ListNotations.
Local Open Scope N_scope.

(** A history used as a concrete instance below: an inverted range, an overlap,
    an aligned successor and an out-of-order range. *)
Definition example_history : list range :=
  [mkRange 64 80; mkRange 9 3; mkRange 0 10; mkRange 5 12; mkRange 16 20; mkRange 33 40].

Lemma example_history_bounds : Forall in_bounds example_history.
Proof. repeat constructor. Qed.

(** C01: after any pushes, sorting gives the canonical form. *)
Theorem C01_sorted_range_list_canonical :
  forall rs, Forall in_bounds rs -> canonical (rl_sort (push_all [] rs)).
Proof. exact push_sort_canonical. Qed.
Print Assumptions C01_sorted_range_list_canonical.

(** C01: sorting again changes nothing. *)
Theorem C01_sort_idempotent :
  forall rs, Forall in_bounds rs ->
    rl_sort (rl_sort (push_all [] rs)) = rl_sort (push_all [] rs).
Proof. exact push_sort_idem. Qed.
Print Assumptions C01_sort_idempotent.

Example C01_example :
  rl_sort (push_all [] example_history) = [mkRange 0 20; mkRange 33 40; mkRange 64 80].
Proof. reflexivity. Qed.

(** C02: every pushed address is covered. *)
Theorem C02_no_address_lost :
  forall rs a, Forall in_bounds rs -> covers rs a -> covers (rl_sort (push_all [] rs)) a.
Proof. exact (fun rs a B => ci_lower _ _ (push_sort_inv rs B) a). Qed.
Print Assumptions C02_no_address_lost.

(** C02: everything else that is covered is alignment padding. *)
Theorem C02_only_alignment_padding_added :
  forall rs a, Forall in_bounds rs -> covers (rl_sort (push_all [] rs)) a ->
    covers rs a \/ alignment_padding rs a.
Proof. exact (fun rs a B => ci_upper _ _ (push_sort_inv rs B) a). Qed.
Print Assumptions C02_only_alignment_padding_added.

Example C02_example : alignment_padding example_history 13.
Proof.
  exists (mkRange 5 12), (mkRange 16 20). unfold nonempty; cbn.
  repeat split; auto 8; try lia.
Qed.

(** C03: the reported size is the number of distinct covered addresses. *)
Theorem C03_size_counts_addresses :
  forall rs addrs, Forall in_bounds rs -> NoDup addrs ->
    (forall a, In a addrs <-> covers (rl_sort (push_all [] rs)) a) ->
    rl_size (rl_sort (push_all [] rs)) = N.of_nat (length addrs).
Proof. exact push_sort_size. Qed.
Print Assumptions C03_size_counts_addresses.

Example C03_example : rl_size (rl_sort (push_all [] example_history)) = 43.
Proof. reflexivity. Qed.

(** Without sorting, the size double counts. *)
Example C03_unsorted_double_counts :
  rl_size (push_all [] [mkRange 5 9; mkRange 4 9]) = 9.
Proof. reflexivity. Qed.

(** C04: subtraction keeps what it should. *)
Theorem C04_subtract_keeps :
  forall self other a, ascending self -> ascending other -> Forall in_bounds self ->
    covers self a -> ~ covers other a -> covers (subtract self other) a.
Proof. exact (fun s o a As Ao B H1 H2 => subtract_lower s o a As Ao B (conj H1 H2)). Qed.
Print Assumptions C04_subtract_keeps.

(** C04: what else remains is padding between two kept addresses. *)
Theorem C04_subtract_adds_only_padding :
  forall self other a, ascending self -> ascending other -> Forall in_bounds self ->
    covers (subtract self other) a -> kept self other a \/ kept_padding self other a.
Proof. exact subtract_upper. Qed.
Print Assumptions C04_subtract_adds_only_padding.

(** C04: the result is again in canonical form. *)
Theorem C04_subtract_canonical :
  forall self other, ascending self -> ascending other -> Forall in_bounds self ->
    canonical (subtract self other).
Proof. exact subtract_canonical. Qed.
Print Assumptions C04_subtract_canonical.

(** C04: subtraction is exact set difference when no subtracted range shorter
    than 16 bytes ends on a 16-byte boundary. *)
Theorem C04_subtract_exact :
  forall self other a, canonical self -> ascending other -> Forall in_bounds self ->
    (forall r, In r other -> rend r mod 16 = 0 -> rbegin r + 16 <= rend r) ->
    (covers (subtract self other) a <-> covers self a /\ ~ covers other a).
Proof. exact subtract_exact. Qed.
Print Assumptions C04_subtract_exact.

(** C04: exact set difference fails in general: a removed address comes back. *)
Theorem C04_subtract_exact_refuted :
  exists self other a, canonical self /\ canonical other /\ Forall in_bounds self /\
    covers (subtract self other) a /\ covers other a.
Proof.
  exists [mkRange 0 32], [mkRange 5 16], 7.
  split; [repeat constructor|]. split; [repeat constructor|]. split; [repeat constructor|].
  split; eexists; (split; [left; reflexivity|cbn; lia]).
Qed.
Print Assumptions C04_subtract_exact_refuted.

Example C04_example :
  subtract [mkRange 0 10; mkRange 20 40; mkRange 50 60] [mkRange 5 25; mkRange 30 35; mkRange 39 70]
  = [mkRange 0 5; mkRange 25 30; mkRange 35 39].
Proof. reflexivity. Qed.

(** C05: without 16-byte aligned begins the result does not depend on the order. *)
Theorem C05_order_irrelevant_unaligned :
  forall rs rs', Forall in_bounds rs -> Forall (fun r => rbegin r mod 16 <> 0) rs ->
    Permutation rs rs' ->
    rl_sort (push_all [] rs) = rl_sort (push_all [] rs').
Proof. exact push_order_unaligned. Qed.
Print Assumptions C05_order_irrelevant_unaligned.

(** C05: in general the results agree up to alignment padding. *)
Theorem C05_order_irrelevant_up_to_padding :
  forall rs rs' a, Forall in_bounds rs -> Permutation rs rs' ->
    covers (rl_sort (push_all [] rs)) a ->
    covers (rl_sort (push_all [] rs')) a \/ alignment_padding rs a.
Proof. exact push_order_padding. Qed.
Print Assumptions C05_order_irrelevant_up_to_padding.

(** C05: the result does depend on the order in general. *)
Theorem C05_order_irrelevant_refuted :
  exists rs rs', Forall in_bounds rs /\ Permutation rs rs' /\
    rl_sort (push_all [] rs) <> rl_sort (push_all [] rs').
Proof.
  exists [mkRange 0 5; mkRange 7 8; mkRange 16 20], [mkRange 0 5; mkRange 16 20; mkRange 7 8].
  split; [repeat constructor|]. split; [constructor; constructor|]. discriminate.
Qed.
Print Assumptions C05_order_irrelevant_refuted.

(** Near the top of the address space the padding sum wraps, and two
    overlapping ranges stay separate: the bound on the inputs is needed. *)
Theorem C01_canonical_unbounded_refuted :
  exists rs, Forall (fun r => rend r < 2 ^ 64) rs /\ ~ canonical (rl_sort (push_all [] rs)).
Proof.
  exists [mkRange 18446744073709551584 18446744073709551614;
          mkRange 18446744073709551600 18446744073709551615].
  split; [repeat constructor|]. intros [_ S]. vm_compute in S.
  inversion S as [|? ? _ F]; subst. inversion F as [|? ? [G _] _]; subst. discriminate G.
Qed.
Print Assumptions C01_canonical_unbounded_refuted.
