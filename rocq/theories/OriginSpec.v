(** Where the lines of a comparison come from. *)
From Coq Require Import List String.
From Verif Require Import Base PrintModel PrintSpec.
Import ListNotations.
Local Open Scope string_scope.
Local Open Scope list_scope.

(** The titles of the lists that are written for types, functions and variables. *)
Definition titles : list string :=
  ["inherits"; "members"; "enumerators"; "addresses"; "return type"; "parameters"; "variables"; "stack frame"; "registers";
   "inlined functions"; "call sites"; "calls"; "instructions"; "target"; "location"; "value"; "data_location"; "data_value_location"].
(** A line that is only the title of a list. *)
Definition heading (x : line) : Prop := exists i t, In t titles /\ x = Line i (txt t ++ txt ":").
(** A line that is not marked as added is one of the first file, one that is not marked as deleted one of the second. *)
Definition from_files (la lb : list line) (p : mark * line) : Prop :=
  (fst p <> New -> In (snd p) la \/ heading (snd p)) /\ (fst p <> Old -> In (snd p) lb \/ heading (snd p)).
