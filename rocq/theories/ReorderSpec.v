(** The parts of the output of a comparison, and what sorting does to them. *)
From Coq Require Import List Bool String Permutation.
From Verif Require Import Base TypeModel DiffModel FileModel PrintModel PrintSpec SelectSpec.
Import ListNotations.
Local Open Scope list_scope.

(** What is written for a unit, or for two that are compared: the lines of the unit itself, and each item or pair of items with its
    lines; functions without code come after those with code if two units are compared. *)
Record compared_lines := mkComparedLines {
  co_units : merge_result unit unit; co_own : list (mark * line);
  co_types : list (merge_result type type * list (mark * line));
  co_functions : list (merge_result func func * list (mark * line));
  co_inlined : list (merge_result func func * list (mark * line));
  co_variables : list (merge_result var var * list (mark * line)) }.
Definition lines_compared (x : compared_lines) : list (mark * line) :=
  co_own x ++ flat_map snd (co_types x) ++ flat_map snd (co_functions x) ++ flat_map snd (co_inlined x) ++ flat_map snd (co_variables x).

(** The same with the items in another order. *)
Record reordered (x y : compared_lines) : Prop := {
  ro_units : co_units y = co_units x;
  ro_own : co_own y = co_own x;
  ro_types : Permutation (co_types x) (co_types y);
  ro_functions : Permutation (co_functions x) (co_functions y);
  ro_inlined : Permutation (co_inlined x) (co_inlined y);
  ro_variables : Permutation (co_variables x) (co_variables y) }.

(** A unit of only one of the files: everything in it is of this file too. *)
Definition one_sided {T} (side : T -> merge_result T T) (m : mark) (l : list (T * list line)) : list (merge_result T T * list (mark * line)) :=
  map (fun x => (side (fst x), with_mark m (snd x))) l.
Definition unit_left (x : unit_lines) : compared_lines :=
  mkComparedLines (MLeft (ul_unit x)) (with_mark Old (ul_own x)) (one_sided (fun t => MLeft t) Old (ul_types x))
    (one_sided (fun f => MLeft f) Old (ul_functions x)) [] (one_sided (fun v => MLeft v) Old (ul_variables x)).
Definition unit_right (x : unit_lines) : compared_lines :=
  mkComparedLines (MRight (ul_unit x)) (with_mark New (ul_own x)) (one_sided (fun t => MRight t) New (ul_types x))
    (one_sided (fun f => MRight f) New (ul_functions x)) [] (one_sided (fun v => MRight v) New (ul_variables x)).
