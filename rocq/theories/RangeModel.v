(** Model of /repo/parser/src/range.rs: address ranges and range lists. *)
From Coq Require Import List NArith Bool.
From Verif Require Import Base.
Import ListNotations.
Local Open Scope N_scope.

(** parser/src/range.rs:4-11, [struct Range]. *)
Record range := mkRange { rbegin : N; rend : N }.

(** parser/src/range.rs:15-17, [Range::all]. *)
Definition range_all : range := mkRange 0 u64_max.

(** parser/src/range.rs:21-23, [Range::size]; [u64] subtraction, wrapping in
    release mode. *)
Definition range_size (r : range) : N := sub64 (rend r) (rbegin r).

(** parser/src/range.rs:27-29, [Range::contains]. *)
Definition range_contains (r : range) (addr : N) : bool :=
  (rbegin r <=? addr) && (addr <? rend r).

(** parser/src/range.rs:34-36, [struct RangeList]: the vector of ranges. *)
Definition range_list := list range.

(** parser/src/range.rs:46-52, [RangeList::size]. *)
Definition rl_size (l : range_list) : N :=
  fold_left (fun size r => add64 size (range_size r)) l 0.

(** parser/src/range.rs:65-69: the padding allowed before [range.begin]. *)
Definition align_padding (b : N) : N := if b =? N.ldiff b 15 then 15 else 0.

(** parser/src/range.rs:60-81: the part of [RangeList::push] after the
    empty-range check.  The recursion walks to [self.ranges.last_mut()]. *)
Fixpoint push_last (l : range_list) (r : range) : range_list :=
  match l with
  | [] => [r]
  | [prev] =>
      if (rbegin prev <=? rbegin r) && (rbegin r <=? add64 (rend prev) (align_padding (rbegin r)))
      then [mkRange (rbegin prev) (if rend prev <? rend r then rend r else rend prev)]
      else [prev; r]
  | x :: l' => x :: push_last l' r
  end.

(** parser/src/range.rs:55-81, [RangeList::push]. *)
Definition push (l : range_list) (r : range) : range_list :=
  if rend r <=? rbegin r then l else push_last l r.

(** Pushing a sequence of ranges, as in [for range in ranges { self.push(range) }]
    (parser/src/range.rs:89-91 and the callers in unit.rs and file/mod.rs). *)
Definition push_all (l : range_list) (rs : list range) : range_list := fold_left push rs l.

(** parser/src/range.rs:84-92, [RangeList::sort]. *)
Definition rl_sort (l : range_list) : range_list :=
  push_all [] (stable_sort (fun a b => N.compare (rbegin a) (rbegin b)) l).

(** parser/src/range.rs:103-136: the inner [loop] of [RangeList::subtract] for
    one [range].  [other] holds [other_range] followed by the rest of
    [other_ranges]; the result is the remaining [other] and the output list. *)
Fixpoint subtract_one (rng : range) (other : list range) (out : range_list)
  : list range * range_list :=
  match other with
  | [] => ([], push out rng)
  | r :: other' =>
      if rend r <=? rbegin rng then subtract_one rng other' out
      else if rend rng <=? rbegin r then (other, push out rng)
      else
        let out' :=
          if rbegin rng <? rbegin r then push out (mkRange (rbegin rng) (rbegin r)) else out in
        if rend r <? rend rng
        then subtract_one (mkRange (rend r) (rend rng)) other' out'
        else (other, out')
  end.

(** parser/src/range.rs:98-137: the outer loop of [RangeList::subtract]. *)
Fixpoint subtract_loop (self : list range) (other : list range) (out : range_list)
  : range_list :=
  match self with
  | [] => out
  | rng :: self' =>
      let '(other', out') := subtract_one rng other out in
      subtract_loop self' other' out'
  end.

(** parser/src/range.rs:97-140, [RangeList::subtract]. *)
Definition subtract (self other : range_list) : range_list :=
  rl_sort (subtract_loop self other []).
