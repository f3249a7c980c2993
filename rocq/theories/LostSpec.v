(** What a comparison must not leave out. *)
From Coq Require Import List String.
From Verif Require Import TypeModel FileModel.
Import ListNotations.

(** Types named like the closures of Rust are left out of every comparison. *)
Definition no_closures (u : unit) : Prop :=
  forall t x, In t (un_types u) -> t_kind t = TStruct x -> s_name x <> Some "closure"%string.
