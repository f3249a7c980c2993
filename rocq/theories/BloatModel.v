(** Model of the report of function sizes, /repo/main/src/print/file.rs:744-915.

    [HashMap::into_iter] gives the groups in any order: [bloat_totals] is given that order.
    Lookups in the map of callers do not depend on its order.  Additions wrap as in release
    mode. *)
From Coq Require Import List NArith ZArith Bool String Permutation.
From Verif Require Import Base RangeModel TypeModel NamespaceModel DieModel FileModel CfiModel LocationModel
  PrintModel NameModel CodeModel.
Import ListNotations.
Local Open Scope N_scope.

(** What is read of a function, a unit and a file. *)
Record sized_function := mkSized {
  sf_id : nat; sf_namespace : option namespace; sf_name : option string; sf_source : source;
  sf_address : opt64; sf_size : opt64; sf_ranges : list range }.
Record sized_unit := mkSizedUnit {
  su_name : option string; su_dir : option string; su_functions : list sized_function }.

(** file.rs:750-756, [FunctionId]: name and source as printed (784-788). *)
Definition function_key := (text * text)%type.
Definition name_text (f : sized_function) : text :=
  text_value (ref_value (sf_id f) (sf_namespace f) (sf_name f)).
Definition key_of (u : sized_unit) (f : sized_function) : function_key :=
  (name_text f, source_text (su_dir u) (sf_source f)).
Definition key_eqb (a b : function_key) : bool := text_eqb (fst a) (fst b) && text_eqb (snd a) (snd b).

(** file.rs:758-762, [FunctionTotal]. *)
Record total := mkTotal { to_size : N; to_functions : list (nat * nat) }.
(** file.rs:764-768, [Caller]: where the function is; the address is not used. *)
Definition caller := (nat * nat)%type.

(** file.rs:789-793: the entry of the map for the key, or a new one. *)
Fixpoint add_total (k : function_key) (size : N) (position : nat * nat)
    (l : list (function_key * total)) : list (function_key * total) :=
  match l with
  | [] => [(k, mkTotal (add64 0 size) [position])]
  | (k', t) :: l' =>
      if key_eqb k k'
      then (k', mkTotal (add64 (to_size t) size) (to_functions t ++ [position])) :: l'
      else (k', t) :: add_total k size position l'
  end.

(** file.rs:780-810: the functions with their positions. *)
Definition indexed {A} (l : list A) : list (nat * A) := combine (seq 0 (List.length l)) l.
Definition positions (units : list sized_unit) : list (nat * nat * sized_unit * sized_function) :=
  flat_map (fun u => map (fun f => (fst u, fst f, snd u, snd f)) (indexed (su_functions (snd u))))
    (indexed units).

(** file.rs:782-793. *)
Definition add_function (l : list (function_key * total)) (p : nat * nat * sized_unit * sized_function)
  : list (function_key * total) :=
  let '(ui, fi, u, f) := p in
  match opt64_get (sf_size f) with
  | Some size => add_total (key_of u f) size (ui, fi) l
  | None => l
  end.
Definition groups (units : list sized_unit) : list (function_key * total) :=
  fold_left add_function (positions units) [].

(** file.rs:813-814: the groups in the order [order] of the map, sorted. *)
Definition by_size (a b : function_key * total) : comparison :=
  N.compare (to_size (snd b)) (to_size (snd a)).
Definition bloat_totals (order : list (function_key * total))
  : list (function_key * total) := stable_sort by_size order.

Section Callers.
  (** [Code::calls], if there is code. *)
  Variable calls : option (range -> outcome (list call)).

  Definition push_caller (m : N -> list caller) (p : caller) (c : call) : N -> list caller :=
    fun a => if a =? ca_to c then m a ++ [p] else m a.

  (** file.rs:796-806. *)
  Fixpoint add_ranges (code : range -> outcome (list call)) (p : caller) (l : list range)
      (m : N -> list caller) : outcome (N -> list caller) :=
    match l with
    | [] => Done m
    | r :: l' =>
        match code r with
        | Panic => Panic
        | Done cs => add_ranges code p l' (fold_left (fun m c => push_caller m p c) cs m)
        end
    end.
  Fixpoint add_callers (l : list (nat * nat * sized_unit * sized_function)) (m : N -> list caller)
    : outcome (N -> list caller) :=
    match l with
    | [] => Done m
    | (ui, fi, u, f) :: l' =>
        match opt64_get (sf_size f), calls with
        | Some _, Some code =>
            match add_ranges code (ui, fi) (sf_ranges f) m with
            | Panic => Panic
            | Done m' => add_callers l' m'
            end
        | _, _ => add_callers l' m
        end
    end.
  Definition callers (units : list sized_unit) : outcome (N -> list caller) :=
    add_callers (positions units) (fun _ => []).
End Callers.

(** ** Printing *)

(** Indexing [file.units()] and [unit.functions()]. *)
Definition at_position (units : list sized_unit) (p : nat * nat) : outcome (sized_unit * sized_function) :=
  match nth_error units (fst p) with
  | None => Panic
  | Some u => match nth_error (su_functions u) (snd p) with None => Panic | Some f => Done (u, f) end
  end.

(** A name, and a source if it is known. *)
Definition key_text (k : function_key) : text :=
  (fst k ++ match snd k with [] => [] | s => txt " " ++ s end)%list.

(** file.rs:867-893, [bloat_callers].  The name of a caller is a link. *)
Definition caller_line (units : list sized_unit) (p : caller) : outcome pdoc :=
  match at_position units p with
  | Panic => Panic
  | Done (u, f) =>
      Done (PLine [] (VSeq (ref_value (sf_id f) (sf_namespace f) (sf_name f))
        (VText match source_text (su_dir u) (sf_source f) with [] => [] | s => (txt " " ++ s)%list end)))
  end.
Definition bloat_callers (units : list sized_unit) (m : N -> list caller) (address : N) : outcome pdoc :=
  match all_done (map (caller_line units) (m address)) with
  | Panic => Panic
  | Done l => Done (seq_docs l)
  end.

(** file.rs:844-858: one copy of a function. *)
Definition copy_doc (units : list sized_unit) (m : N -> list caller) (p : nat * nat) : outcome pdoc :=
  match at_position units p with
  | Panic => Panic
  | Done (u, f) =>
      match opt64_get (sf_address f), opt64_get (sf_size f) with
      | Some address, Some size =>
          match bloat_callers units m address with
          | Panic => Panic
          | Done d =>
              Done (PId (sf_id f)
                (PLine [] (VText (dec size ++ txt " " ++ txt (unit_ref (su_name u) (su_dir u)))%list)) d)
          end
      | _, _ => Panic
      end
  end.

(** file.rs:823-865, [bloat]. *)
Definition total_doc (units : list sized_unit) (m : N -> list caller) (t : function_key * total)
  : outcome pdoc :=
  match all_done (map (copy_doc units m) (to_functions (snd t))) with
  | Panic => Panic
  | Done l =>
      Done (PTree true
        (PLine [] (VText (dec (to_size (snd t)) ++ txt " " ++ key_text (fst t))%list)) (seq_docs l))
  end.
Definition bloat_doc (units : list sized_unit) (totals : list (function_key * total)) (m : N -> list caller)
  : outcome pdoc :=
  match all_done (map (total_doc units m) totals) with
  | Panic => Panic
  | Done l => Done (seq_docs l)
  end.

(** file.rs:895-915, [bloat_id], for an id of a function; [None] for other ids. *)
Definition bloat_id (units : list sized_unit) (m : N -> list caller) (p : nat * nat) : option (outcome pdoc) :=
  match nth_error units (fst p) with
  | None => None
  | Some u =>
      match nth_error (su_functions u) (snd p) with
      | None => None
      | Some f =>
          Some match opt64_get (sf_address f) with
               | None => Panic
               | Some a => bloat_callers units m a
               end
      end
  end.
