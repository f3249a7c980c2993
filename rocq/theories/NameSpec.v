(** Specification of paths. *)
From Coq Require Import List NArith Bool String Ascii.
From Verif Require Import Base DieModel NameModel.
Import ListNotations.
Local Open Scope string_scope.

(** The parts of a path between slashes; repeated slashes count as one. *)
Fixpoint pieces (s : string) : list string :=
  match s with
  | "" => [""]
  | String "/" r => "" :: pieces r
  | String c r => match pieces r with h :: t => String c h :: t | [] => [] end
  end.
Definition components (s : string) : list string := filter (fun c => negb (c =? "")) (pieces s).

(** Absolute paths start with a slash; directories from Windows also with a drive. *)
Definition rooted (s : string) : Prop := exists r, s = String "/" r.
Definition with_drive (s : string) : Prop := exists c r, s = String c (String ":" r).

Definition components_of (s : option string) : list string :=
  match s with Some s => components s | None => [] end.

(** The directory that a source file is in, for compilation directory [unit_dir]. *)
Inductive directory_of (unit_dir : option string) : option string -> list string -> Prop :=
| do_absolute d : rooted d \/ with_drive d -> directory_of unit_dir (Some d) (components d)
| do_relative d : ~ rooted d -> ~ with_drive d ->
    directory_of unit_dir (Some d) (components_of unit_dir ++ components d)
| do_none : directory_of unit_dir None [].
