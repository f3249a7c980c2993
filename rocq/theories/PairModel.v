(** Model of a whole run over two files: from what is read of them to the text of the comparison.
    /repo/main/src/main.rs:521-532 and 548-565, main/src/print/function.rs:302-322, parser/src/types.rs:1493-1507.

    Simplified as in WholeModel.v: a comparison of types that does not end is equal here. The program tells the files apart by
    reference, here it is by path; two files with one path are taken to be one. *)
From Coq Require Import List Arith NArith Bool String.
From Verif Require Import Base NamespaceModel TypeModel FileModel OptionsModel FilterModel DiffModel PrintModel DieModel RefModel
  ItemModel EntryModel ReportModel WholeModel.
Import ListNotations.
Local Open Scope N_scope.

Section Pair.
  Variables a b : object_input.

  (** [Type::cmp_id] of types of two files. *)
  Definition pair_limit : nat := (depth_limit a + depth_limit b)%nat.
  Definition types_compare (x : object_input) (s : type) (y : object_input) (t : type) : comparison :=
    match cmp_id false pair_limit (type_at x) s (type_at y) t with Ord c => c | _ => Eq end.
  (** types.rs:1493-1507, [ParameterType::cmp_id]. *)
  Definition parameter_compare_in (x : object_input) (p : parameter_type) (y : object_input) (q : parameter_type) : comparison :=
    match from_offset (type_at x) (pt_ty p), from_offset (type_at y) (pt_ty q) with
    | Some s, Some t => types_compare x s y t
    | Some _, None => Lt
    | None, Some _ => Gt
    | None, None => Eq
    end.
  (** function.rs:312-321. *)
  Fixpoint parameters_compare_in (x : object_input) (l : list parameter_type) (y : object_input) (m : list parameter_type) : comparison :=
    match l, m with
    | p :: l', q :: m' => match parameter_compare_in x p y q with Eq => parameters_compare_in x l' y m' | c => c end
    | [], [] => Eq
    | [], _ :: _ => Lt
    | _ :: _, [] => Gt
    end.
  (** The file that a [FileHash] is for. *)
  Definition side_of (h : hash) : object_input := if String.eqb (h_path h) (ob_path a) then a else b.
  Definition compare_parameters_in : param_cmp :=
    fun h f k g =>
      parameters_compare_in (side_of h) (parameters_of (side_of h) f) (side_of k) (parameters_of (side_of k) g).

  Definition load_two (ca cb : N -> nat) : images :=
    mkImages (load ca a) (load cb b) (fun s t => types_compare a s b t).

  (** main.rs:521-532, [diff_file]: what is written to standard output, and whether the run has seen a difference;
      [None] if an error is reported. *)
  Definition compare_output (choose : list N -> list N -> list (list N) -> nat -> nat) (fuel : nat) (ca cb : N -> nat)
      (o : options) : option (text * bool) :=
    option_map (fun d =>
        let r := diff_doc text_printer false false d (text_start (N.to_nat (o_inline_depth o))) false in
        (fst (fst r), snd r))
      (diff_file choose o compare_parameters_in fuel (load_two ca cb)).
End Pair.
