(** Specification vocabulary for address ranges: independent of the
    algorithms in [RangeModel.v]. *)
From Coq Require Import List NArith Sorted.
From Verif Require Import RangeModel.
Import ListNotations.
Local Open Scope N_scope.

(** Address [a] lies in one of the ranges of [l]. *)
Definition covers (l : list range) (a : N) : Prop :=
  exists r, In r l /\ rbegin r <= a < rend r.

Definition nonempty (r : range) : Prop := rbegin r < rend r.

(** [q] lies strictly after [p], with a gap that is not alignment padding:
    the gap is not empty, and if [q] starts on a 16-byte boundary the gap has
    at least 16 bytes. *)
Definition separated (p q : range) : Prop :=
  rend p < rbegin q /\ (rbegin q mod 16 = 0 -> rend p + 16 <= rbegin q).

(** The normal form of range lists: non-empty ranges, every earlier range
    separated from every later one. *)
Definition canonical (l : list range) : Prop :=
  Forall nonempty l /\ StronglySorted separated l.

(** Ascending and disjoint, but neighbours may touch. *)
Definition ascending (l : list range) : Prop :=
  Forall nonempty l /\ StronglySorted (fun p q => rend p <= rbegin q) l.

(** [a] is alignment padding with respect to the ranges [rs]: it lies in a gap
    of at most 15 bytes between the end of one range and the 16-byte aligned
    begin of another. *)
Definition alignment_padding (rs : list range) (a : N) : Prop :=
  exists p q, In p rs /\ In q rs /\ nonempty p /\ nonempty q /\
    rend p <= a < rbegin q /\ rbegin q <= rend p + 15 /\ rbegin q mod 16 = 0.

(** No 64-bit overflow in the padding comparison. *)
Definition in_bounds (r : range) : Prop := rend r + 15 < 2 ^ 64.

(** The addresses that survive a subtraction. *)
Definition kept (s o : list range) (a : N) : Prop := covers s a /\ ~ covers o a.

(** [a] lies in a gap of at most 15 bytes between two kept addresses, the
    second of which is 16-byte aligned. *)
Definition kept_padding (s o : list range) (a : N) : Prop :=
  exists e b, kept s o (e - 1) /\ kept s o b /\ 0 < e /\
    e <= a < b /\ b <= e + 15 /\ b mod 16 = 0.
