(** Specification vocabulary for what is looked up in a file while it is printed. *)
From Coq Require Import List Arith NArith Bool String.
From Verif Require Import Base DieModel DieSpec FileModel WholeModel WholeSpec.
Import ListNotations.
Local Open Scope N_scope.

(** How the entries of a unit are read: with the properties of its header, and references that lead to the entries of
    the unit. *)
Definition reading_context (ob : object_input) (u : unit_input) (ctx : context) : Prop :=
  cx_low_pc ctx = unit_base u /\ cx_rust ctx = ui_rust u /\ cx_big_endian ctx = ob_big_endian ob /\
  cx_version ctx = ui_version u /\ cx_address_size ctx = ui_address_size u /\
  forall off d, cx_tree ctx off = Some d <-> In d (unit_entries u) /\ die_offset d = off.
