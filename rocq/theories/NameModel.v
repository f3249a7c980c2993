(** Model of how names, references and source positions are written:
    /repo/main/src/print/namespace.rs, source.rs, register.rs, range.rs, the functions
    [print_ref] of function.rs, variable.rs and unit.rs, and [Source::path] of
    /repo/parser/src/source.rs.

    Names are Coq strings, taken as sequences of characters. *)
From Coq Require Import List NArith ZArith Bool String Ascii.
From Verif Require Import Base RangeModel NamespaceModel TypeModel DieModel PrintModel.
Import ListNotations.
Local Open Scope N_scope.

Definition or_else (default : string) (x : option string) : string :=
  match x with Some s => s | None => default end.

(** main/src/print/namespace.rs:6-16. *)
Fixpoint namespace_value (n : namespace) : value :=
  match n with
  | Ns parent name kind =>
      VSeq (match parent with Some p => namespace_value p | None => VNil end)
        (VSeq (VName (txt (or_else "<anon>" name)))
           (VSeq (match kind with KFunction => VText (txt "()") | _ => VNil end)
              (VText (txt "::"))))
  end.

(** A name with its namespace, as in main/src/print/function.rs:16-19 and
    variable.rs:10-13. *)
Definition qualified (ns : option namespace) (name : option string) : value :=
  VSeq (match ns with Some n => namespace_value n | None => VNil end)
    (VName (txt (or_else "<anon>" name))).

(** main/src/print/function.rs:14-22 and variable.rs:8-16, [print_ref]. *)
Definition ref_value (id : nat) (ns : option namespace) (name : option string) : value :=
  VLink id (qualified ns name).

(** [str::ends_with] for a character. *)
Fixpoint last_is (c : ascii) (s : string) : bool :=
  match s with
  | EmptyString => false
  | String a EmptyString => Ascii.eqb a c
  | String _ s' => last_is c s'
  end.
Definition slash : ascii := "/".
Definition first_is (c : ascii) (s : string) : bool :=
  match s with String a _ => Ascii.eqb a c | EmptyString => false end.
Definition second_is (c : ascii) (s : string) : bool :=
  match s with String _ (String a _) => Ascii.eqb a c | _ => false end.

(** main/src/print/unit.rs:78-92, [print_ref]. *)
Definition unit_ref (name dir : option string) : string :=
  let name := or_else "<anon>" name in
  (if first_is slash name then ""
   else
     let dir := or_else "" dir in
     match dir with
     | EmptyString => ""
     | _ => dir ++ (if last_is slash dir then "" else "/")
     end) ++ name.

(** parser/src/source.rs:41-43: [is_absolute]. *)
Definition is_absolute (directory : string) : bool :=
  first_is slash directory || second_is ":" directory.

(** parser/src/source.rs:40-62, [Source::path]. *)
Definition source_path (unit_dir : option string) (s : source) : option string :=
  match so_file s with
  | None => None
  | Some file =>
      Some (match so_directory s with
            | None => ""
            | Some directory =>
                (if is_absolute directory then ""
                 else match unit_dir with
                      | None => ""
                      | Some d => d ++ (if last_is slash d then "" else "/")
                      end) ++
                directory ++ (if last_is slash directory then "" else "/")
            end ++ file)%string
  end.

(** main/src/print/source.rs:6-17. *)
Definition source_text (unit_dir : option string) (s : source) : text :=
  match source_path unit_dir s with
  | None => []
  | Some path =>
      (txt path ++
       (if so_line s =? 0 then []
        else txt ":" ++ dec (so_line s) ++
             (if so_column s =? 0 then [] else txt ":" ++ dec (so_column s))))%list
  end.

(** main/src/print/register.rs:30-36, where [name] is what [Register::name] gives. *)
Definition register_text (name : N -> option string) (r : N) : text :=
  match name r with Some s => txt s | None => (txt "r" ++ dec r)%list end.

(** main/src/print/range.rs:6-13, [print_address], and 15-28, [print_address_and_size]. *)
Definition range_text (r : range) : text :=
  (if rbegin r <? rend r
   then txt "0x" ++ hex (rbegin r) ++ txt "-0x" ++ hex (rend r - 1)
   else txt "0x" ++ hex (rbegin r))%list.
Definition range_size_text (r : range) : text :=
  (if rbegin r <? rend r
   then txt "0x" ++ hex (rbegin r) ++ txt "-0x" ++ hex (rend r - 1) ++ txt " (" ++
        dec (rend r - rbegin r) ++ txt ")"
   else txt "0x" ++ hex (rbegin r))%list.
