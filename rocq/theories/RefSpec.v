(** Specification vocabulary for how types are written. *)
From Coq Require Import List NArith Bool String.
From Verif Require Import Base NamespaceModel TypeModel TypeSpec PrintModel NameModel.
Import ListNotations.
Local Open Scope N_scope.

Definition or_name (default : string) (name : option string) : text :=
  txt (match name with Some n => n | None => default end).
(** A name after its namespace. *)
Definition qualified_text (ns : option namespace) (default : string) (name : option string) : text :=
  match ns with Some n => text_value (namespace_value n) | None => [] end ++ or_name default name.

(** Texts with a separator between them. *)
Fixpoint join (sep : text) (l : list text) : text :=
  match l with
  | [] => []
  | [t] => t
  | t :: l' => t ++ sep ++ join sep l'
  end.

Definition number_or_unknown (c : opt64) : text := if c =? u64_max then txt "??" else dec c.
Definition bound (b : option N) : text := match b with Some n => dec n | None => [] end.
(** The bounds of a subrange, if there is one. *)
Definition range_suffix (lower upper : option N) : text :=
  match lower, upper with
  | None, None => []
  | _, _ => txt " " ++ bound lower ++ txt ".." ++ bound upper
  end.

Section Spelled.
  Variable env : type_env.
  (** The names of the parameters of a function type, in order. *)
  Variable names : type -> list (option string).
  Local Notation at_offset off := (from_offset env off).

  (** The text for a type. *)
  Inductive spelled : option type -> text -> Prop :=
  | sp_invalid : spelled None (txt "<invalid-type>")
  | sp_void : forall t, t_kind t = TVoid -> spelled (Some t) (txt "void")
  | sp_base : forall t x, t_kind t = TBase x -> spelled (Some t) (or_name "<anon-base-type>" (b_name x))
  | sp_def : forall t x, t_kind t = TDef x ->
      spelled (Some t) (qualified_text (d_namespace x) "<anon-typedef>" (d_name x))
  | sp_struct : forall t x, t_kind t = TStruct x ->
      spelled (Some t) (txt "struct " ++ qualified_text (s_namespace x) "<anon>" (s_name x))
  | sp_union : forall t x, t_kind t = TUnion x ->
      spelled (Some t) (txt "union " ++ qualified_text (u_namespace x) "<anon>" (u_name x))
  | sp_enum : forall t x, t_kind t = TEnum x ->
      spelled (Some t) (txt "enum " ++ qualified_text (e_namespace x) "<anon>" (e_name x))
  | sp_array : forall t x e dims, t_kind t = TArray x -> spelled (at_offset (a_ty x)) e ->
      dimensions x dims ->
      spelled (Some t) (txt "[" ++ e ++ txt "; " ++ join (txt ", ") (map number_or_unknown dims) ++ txt "]")
  | sp_function : forall t x ps r, t_kind t = TFunction x ->
      parameters_spelled (names t) (f_parameters x) ps -> return_spelled (at_offset (f_return x)) r ->
      spelled (Some t) (txt "(" ++ join (txt ", ") ps ++ txt ")" ++ r)
  | sp_unspecified : forall t x, t_kind t = TUnspecified x ->
      spelled (Some t) (qualified_text (us_namespace x) "<void>" (us_name x))
  | sp_ptr_to_member : forall t x c m, t_kind t = TPtrToMember x ->
      spelled (at_offset (pm_containing x)) c -> spelled (at_offset (pm_ty x)) m ->
      spelled (Some t) (c ++ txt "::* " ++ m)
  | sp_modifier : forall t x m, t_kind t = TModifier x -> mo_name x = None ->
      spelled (at_offset (mo_ty x)) m ->
      spelled (Some t)
        (match mo_kind x with
         | MPointer => txt "* " | MReference | MRvalueReference => txt "& "
         | MConst => txt "const " | MVolatile => txt "volatile " | MRestrict => txt "restrict "
         | MPacked | MShared | MAtomic | MOther => []
         end ++ m)
  | sp_named_modifier : forall t x n, t_kind t = TModifier x -> mo_name x = Some n ->
      spelled (Some t) (txt n)
  | sp_subrange : forall t x s, t_kind t = TSubrange x ->
      (forall n, sr_name x = Some n -> s = txt n) ->
      (sr_name x = None -> spelled (at_offset (sr_ty x)) s) ->
      spelled (Some t) (s ++ range_suffix (sr_lower x) (sr_upper x))
  with parameters_spelled : list (option string) -> list type_offset -> list text -> Prop :=
  | ps_nil : forall ns, parameters_spelled ns [] []
  | ps_cons : forall ns ty tys s ps, spelled (at_offset ty) s -> parameters_spelled (tl ns) tys ps ->
      parameters_spelled ns (ty :: tys)
        ((match hd None ns with Some n => txt n ++ txt ": " | None => [] end ++ s) :: ps)
  with return_spelled : option type -> text -> Prop :=
  | rs_none : return_spelled None []
  | rs_void : forall t, t_kind t = TVoid -> return_spelled (Some t) []
  | rs_type : forall t s, t_kind t <> TVoid -> spelled (Some t) s ->
      return_spelled (Some t) (txt " -> " ++ s).

  (** [u] is reached from [t] through types that are part of how [t] is written. *)
  Inductive part : type -> type -> Prop :=
  | part_self : forall t, part t t
  | part_step : forall t off u v, identity_ref t off -> at_offset off = Some u -> part u v -> part t v.
End Spelled.

(** The links in a value: their targets and their texts. *)
Fixpoint links (v : value) : list (nat * text) :=
  match v with
  | VSeq a b => links a ++ links b
  | VLink id v => (id, text_value v) :: links v
  | _ => []
  end.
(** Types that have an entry to link to. *)
Definition has_entry (t : type) : Prop :=
  match t_kind t with
  | TBase _ | TDef _ | TStruct _ | TUnion _ | TEnum _ => True
  | _ => False
  end.
