(** Specification of the report of function sizes. *)
From Coq Require Import List NArith ZArith Bool String Permutation Sorted.
From Verif Require Import Base RangeModel TypeModel NamespaceModel DieModel FileModel
  PrintModel PrintSpec NameModel CodeModel CodeSpec BloatModel.
Import ListNotations.
Local Open Scope N_scope.

(** The function at a position. *)
Definition function_at (units : list sized_unit) (p : nat * nat) (u : sized_unit) (f : sized_function) : Prop :=
  nth_error units (fst p) = Some u /\ nth_error (su_functions u) (snd p) = Some f.
Definition has_size (f : sized_function) (n : N) : Prop := opt64_get (sf_size f) = Some n.

(** Positions are in the order of the file. *)
Definition earlier (p q : nat * nat) : Prop := (fst p < fst q)%nat \/ (fst p = fst q /\ snd p < snd q)%nat.

(** The copies of a function: the sized functions with the name and the source that are
    shown. *)
Definition copy_of (units : list sized_unit) (name source : text) (p : nat * nat) : Prop :=
  exists u f n, function_at units p u f /\ has_size f n /\
    text_value (ref_value (sf_id f) (sf_namespace f) (sf_name f)) = name /\
    source_text (su_dir u) (sf_source f) = source.
Definition copies (units : list sized_unit) (name source : text) (l : list (nat * nat)) : Prop :=
  StronglySorted earlier l /\ forall p, In p l <-> copy_of units name source p.

Inductive sizes (units : list sized_unit) : list (nat * nat) -> list N -> Prop :=
| sz_nil : sizes units [] []
| sz_cons p u f n l m : function_at units p u f -> has_size f n -> sizes units l m ->
    sizes units (p :: l) (n :: m).
Definition sum (l : list N) : N := fold_right N.add 0 l.

(** All sized functions, in order. *)
Definition all_sized (units : list sized_unit) (l : list (nat * nat)) : Prop :=
  StronglySorted earlier l /\ forall p, In p l <-> exists u f n, function_at units p u f /\ has_size f n.

(** The calls made by each function, and for an address how often it is called by which: once
    for each call. *)
Inductive calls_by (calls : range -> list call -> Prop) : list range -> list call -> Prop :=
| cb_nil : calls_by calls [] []
| cb_cons r l a b : calls r a -> calls_by calls l b -> calls_by calls (r :: l) (a ++ b).
Inductive called_from (calls : range -> list call -> Prop) (units : list sized_unit) (a : N)
  : list (nat * nat) -> list (nat * nat) -> Prop :=
| cf_nil : called_from calls units a [] []
| cf_cons p u f cs l m : function_at units p u f -> calls_by calls (sf_ranges f) cs ->
    called_from calls units a l m ->
    called_from calls units a (p :: l) (map (fun _ => p) (filter (fun c => ca_to c =? a) cs) ++ m).

(** The lines of the report: for each group the total size, the name and the source, below that for each copy its size
    and its unit, and below that the callers.  There is no line without text. *)
Definition with_source (name source : text) : text :=
  name ++ match source with [] => [] | _ => txt " " ++ source end.
Definition line_unless_empty (indent : nat) (t : text) : list line :=
  match t with [] => [] | _ => [Line indent t] end.
Definition caller_lines (units : list sized_unit) (q : nat * nat) (ls : list line) : Prop :=
  exists u f, function_at units q u f /\
    ls = line_unless_empty 2 (with_source (text_value (ref_value (sf_id f) (sf_namespace f) (sf_name f)))
                                (source_text (su_dir u) (sf_source f))).
Definition copy_lines (units : list sized_unit) (callers_of : N -> list (nat * nat)) (p : nat * nat) (ls : list line) : Prop :=
  exists u f a n below, function_at units p u f /\ opt64_get (sf_address f) = Some a /\ has_size f n /\
    Forall2 (caller_lines units) (callers_of a) below /\
    ls = Line 1 (dec n ++ txt " " ++ txt (unit_ref (su_name u) (su_dir u))) :: List.concat below.
Definition total_lines (units : list sized_unit) (callers_of : N -> list (nat * nat)) (t : function_key * total)
    (ls : list line) : Prop :=
  exists below, Forall2 (copy_lines units callers_of) (to_functions (snd t)) below /\
    ls = Line 0 (dec (to_size (snd t)) ++ txt " " ++ with_source (fst (fst t)) (snd (fst t))) :: List.concat below.
