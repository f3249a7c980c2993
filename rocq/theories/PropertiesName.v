(** Properties of paths. *)
From Coq Require Import List NArith Bool String Ascii.
From Verif Require Import Base DieModel NameModel NameSpec NameProofs.
Import ListNotations.
Local Open Scope string_scope.

(** ** C55: paths *)

(** The path shown for a source position names the file in its directory; a relative directory
    is one in the compilation directory. *)
Theorem C55_path unit_dir s file :
  so_file s = Some file ->
  exists path dir, source_path unit_dir s = Some path /\ directory_of unit_dir (so_directory s) dir /\
    components path = (dir ++ components file)%list.
Proof. apply source_path_spec. Qed.
Print Assumptions C55_path.

(** It is absolute if the directory is, or if that is relative to an absolute compilation
    directory. *)
Theorem C55_absolute unit_dir s file path :
  so_file s = Some file -> file <> "" -> so_directory s <> Some "" -> unit_dir <> Some "" ->
  source_path unit_dir s = Some path ->
  (rooted path <->
   match so_directory s with
   | Some d => rooted d \/ (~ with_drive d /\ exists u, unit_dir = Some u /\ rooted u)
   | None => rooted file
   end).
Proof. apply source_rooted. Qed.
Print Assumptions C55_absolute.

(** The name shown for a unit. *)
Theorem C55_unit name dir :
  (rooted name -> components (unit_ref (Some name) dir) = components name) /\
  (~ rooted name -> components (unit_ref (Some name) dir) = (components_of dir ++ components name)%list).
Proof.
  rewrite unit_ref_spec. rewrite <- first_rooted. destruct (first_is slash name).
  - split; [reflexivity|]. intros N. now contradiction N.
  - split; [discriminate|reflexivity].
Qed.
Print Assumptions C55_unit.

Example C55_example :
  source_path (Some "/build/") (mkSource (Some "src/lib") (Some "a.c") 3 7) = Some "/build/src/lib/a.c" /\
  source_path (Some "/build") (mkSource (Some "/usr/include") (Some "a.h") 3 7) = Some "/usr/include/a.h" /\
  components "/build/src//lib/a.c" = ["build"; "src"; "lib"; "a.c"] /\
  unit_ref (Some "a.c") (Some "/build") = "/build/a.c".
Proof. repeat split. Qed.

(** A file with an absolute name is shown inside the directory. *)
Theorem C55_absolute_file_refuted : exists unit_dir s file path,
  so_file s = Some file /\ rooted file /\ source_path unit_dir s = Some path /\ components path <> components file.
Proof.
  exists (Some "/build"), (mkSource (Some "src") (Some "/usr/include/a.h") 0 0), "/usr/include/a.h".
  eexists. split; [reflexivity|]. split; [now eexists|]. split; [reflexivity|]. discriminate.
Qed.
Print Assumptions C55_absolute_file_refuted.

(** An empty directory makes a relative path absolute. *)
Theorem C55_empty_refuted : exists s file path,
  so_directory s = Some "" /\ so_file s = Some file /\ ~ rooted file /\
  source_path None s = Some path /\ rooted path.
Proof.
  exists (mkSource (Some "") (Some "a.c") 0 0), "a.c". eexists. split; [reflexivity|]. split; [reflexivity|].
  split; [intros [r E]; discriminate|]. split; [reflexivity|]. now eexists.
Qed.
Print Assumptions C55_empty_refuted.
