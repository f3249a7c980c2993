(** Model of how types are written where they are used: [print_ref] and [ref_id] of
    /repo/main/src/print/types.rs, and the functions [print_name] and [print_ref] of
    struct_type.rs, union_type.rs, enumeration.rs, type_def.rs and base_type.rs.

    The fields of types that [TypeModel] leaves out are given by functions of the type:
    its id, and the names of the parameters of a function type. *)
From Coq Require Import List NArith Bool String.
From Verif Require Import Base NamespaceModel TypeModel PrintModel NameModel.
Import ListNotations.
Local Open Scope N_scope.

Definition vtxt (s : string) : value := VText (txt s).

(** The value written by one call after the other. *)
Fixpoint vcat (l : list value) : value :=
  match l with [] => VNil | v :: l' => VSeq v (vcat l') end.

Definition in_namespace (ns : option namespace) : value :=
  match ns with Some n => namespace_value n | None => VNil end.

(** struct_type.rs:6-13, union_type.rs:6-13, enumeration.rs:6-13, [print_name]. *)
Definition kind_name (kind : string) (ns : option namespace) (name : option string) : value :=
  vcat [vtxt kind; in_namespace ns; VName (txt (or_else "<anon>" name))].
(** type_def.rs:6-12, [print_name]. *)
Definition def_name (d : type_def) : value :=
  vcat [in_namespace (d_namespace d); VName (txt (or_else "<anon-typedef>" (d_name d)))].

(** types.rs:97-111: the dimensions of an array; [counts] (parser/src/types.rs:1290-1292)
    gives [counts_as_slice] as options. *)
Definition count_text (c : opt64) : text :=
  match opt64_get c with Some n => dec n | None => txt "??" end.
Fixpoint counts_text (sep : string) (l : list opt64) : text :=
  match l with
  | [] => []
  | c :: l' => txt sep ++ count_text c ++ counts_text ", " l'
  end.

(** types.rs:168-178: what a modifier without a name puts before its type. *)
Definition modifier_text (k : modifier_kind) : text :=
  match k with
  | MPointer => txt "* "
  | MReference | MRvalueReference => txt "& "
  | MConst => txt "const "
  | MVolatile => txt "volatile "
  | MRestrict => txt "restrict "
  | MPacked | MShared | MAtomic | MOther => []
  end.

(** types.rs:195-200: the bounds of a subrange. *)
Definition bounds_text (lower upper : option N) : text :=
  match lower, upper with
  | Some l, Some u => txt " " ++ dec l ++ txt ".." ++ dec u
  | Some l, None => txt " " ++ dec l ++ txt ".."
  | None, Some u => txt " .." ++ dec u
  | None, None => []
  end.

Section Ref.
  Variable env : type_env.
  (** [Type::id], and the names of the parameters of a function type, in order. *)
  Variable type_id : type -> nat.
  Variable parameter_names : type -> list (option string).

  (** types.rs:70-87, [ref_id]; [None] if the recursion is deeper than [fuel]. *)
  Fixpoint ref_id (fuel : nat) (t : option type) : option (option nat) :=
    match fuel with
    | O => None
    | S fuel' =>
        match t with
        | None => Some None
        | Some t =>
            match t_kind t with
            | TVoid | TFunction _ | TUnspecified _ | TPtrToMember _ => Some None
            | TBase _ | TDef _ | TStruct _ | TUnion _ | TEnum _ => Some (Some (type_id t))
            | TArray x => ref_id fuel' (from_offset env (a_ty x))
            | TModifier x => ref_id fuel' (from_offset env (mo_ty x))
            | TSubrange x => ref_id fuel' (from_offset env (sr_ty x))
            end
        end
    end.

  (** types.rs:162-166 and 186-190: a name, with a link to the type it stands for if there
      is one. *)
  Definition named_ref (id : option nat) (name : string) : value :=
    match id with Some i => VLink i (VName (txt name)) | None => VName (txt name) end.

  Definition bind {A B} (x : option A) (f : A -> option B) : option B :=
    match x with Some y => f y | None => None end.

  (** types.rs:117-130: the parameters of a function type; [rec] writes a type. *)
  Fixpoint parameter_refs (rec : option type -> option value) (first : bool)
      (names : list (option string)) (tys : list type_offset) : option value :=
    match tys with
    | [] => Some VNil
    | ty :: tys' =>
        bind (rec (from_offset env ty)) (fun v =>
        bind (parameter_refs rec false (tl names) tys') (fun rest =>
        Some (vcat [if first then VNil else vtxt ", ";
                    match hd None names with Some n => VText (txt n ++ txt ": ") | None => VNil end;
                    v; rest])))
    end.

  (** types.rs:40-68, [print_ref], with the functions per kind (89-202) inlined; [None] if
      the recursion is deeper than [fuel]. *)
  Fixpoint type_ref (fuel : nat) (t : option type) : option value :=
    match fuel with
    | O => None
    | S fuel' =>
        match t with
        | None => Some (vtxt "<invalid-type>")
        | Some t =>
            match t_kind t with
            | TVoid => Some (vtxt "void")
            | TBase x => Some (VLink (type_id t) (vtxt (or_else "<anon-base-type>" (b_name x))))
            | TDef x => Some (VLink (type_id t) (def_name x))
            | TStruct x => Some (VLink (type_id t) (kind_name "struct " (s_namespace x) (s_name x)))
            | TUnion x => Some (VLink (type_id t) (kind_name "union " (u_namespace x) (u_name x)))
            | TEnum x => Some (VLink (type_id t) (kind_name "enum " (e_namespace x) (e_name x)))
            | TArray x =>
                bind (type_ref fuel' (from_offset env (a_ty x))) (fun v =>
                Some (vcat [vtxt "["; v; VText (counts_text "; " (counts_as_slice x)); vtxt "]"]))
            | TFunction x =>
                bind (parameter_refs (type_ref fuel') true (parameter_names t) (f_parameters x)) (fun ps =>
                bind (match from_offset env (f_return x) with
                      | Some r =>
                          match t_kind r with
                          | TVoid => Some VNil
                          | _ => bind (type_ref fuel' (Some r)) (fun v => Some (VSeq (vtxt " -> ") v))
                          end
                      | None => Some VNil
                      end) (fun r =>
                Some (vcat [vtxt "("; ps; vtxt ")"; r])))
            | TUnspecified x =>
                Some (vcat [in_namespace (us_namespace x); VName (txt (or_else "<void>" (us_name x)))])
            | TPtrToMember x =>
                bind (type_ref fuel' (from_offset env (pm_containing x))) (fun c =>
                bind (type_ref fuel' (from_offset env (pm_ty x))) (fun m =>
                Some (vcat [c; vtxt "::* "; m])))
            | TModifier x =>
                match mo_name x with
                | Some name =>
                    bind (ref_id fuel' (from_offset env (mo_ty x))) (fun id => Some (named_ref id name))
                | None =>
                    bind (type_ref fuel' (from_offset env (mo_ty x))) (fun v =>
                    Some (VSeq (VText (modifier_text (mo_kind x))) v))
                end
            | TSubrange x =>
                bind (match sr_name x with
                      | Some name =>
                          bind (ref_id fuel' (from_offset env (sr_ty x))) (fun id =>
                          Some (named_ref id name))
                      | None => type_ref fuel' (from_offset env (sr_ty x))
                      end) (fun v =>
                Some (VSeq v (VText (bounds_text (sr_lower x) (sr_upper x)))))
            end
        end
    end.
End Ref.
