(** Specification vocabulary for types: references, identity and size.  Uses
    the data types and the lookup of [TypeModel.v], not its algorithms. *)
From Coq Require Import List NArith String.
From Verif Require Import Base NamespaceModel NamespaceSpec TypeModel.
Import ListNotations.
Local Open Scope N_scope.

(** The references that the identity of an unnamed type is built from. *)
Inductive identity_ref : type -> type_offset -> Prop :=
| ir_array : forall o x, identity_ref (mkType o (TArray x)) (a_ty x)
| ir_param : forall o x p, In p (f_parameters x) -> identity_ref (mkType o (TFunction x)) p
| ir_return : forall o x, identity_ref (mkType o (TFunction x)) (f_return x)
| ir_containing : forall o x, identity_ref (mkType o (TPtrToMember x)) (pm_containing x)
| ir_member : forall o x, identity_ref (mkType o (TPtrToMember x)) (pm_ty x)
| ir_modified : forall o x, identity_ref (mkType o (TModifier x)) (mo_ty x)
| ir_subrange : forall o x, identity_ref (mkType o (TSubrange x)) (sr_ty x).

(** No infinite chain of such references starts at the type. *)
Inductive acyclic (h : type_env) (t : type) : Prop :=
| acyclic_intro :
    (forall off u, identity_ref t off -> from_offset h off = Some u -> acyclic h u) ->
    acyclic h t.

(** Two optional namespaces denote the same path. *)
Definition same_path (n m : option namespace) : Prop :=
  exists p, path_opt n p /\ path_opt m p.

(** Two types have the same identity.  (Array dimensions other than the first
    count field are not part of it; see [C10].) *)
Inductive same_id (ha hb : type_env) : type -> type -> Prop :=
| same_void : forall o o', same_id ha hb (mkType o TVoid) (mkType o' TVoid)
| same_base : forall o o' x y, b_name x = b_name y ->
    same_id ha hb (mkType o (TBase x)) (mkType o' (TBase y))
| same_def : forall o o' x y, same_path (d_namespace x) (d_namespace y) -> d_name x = d_name y ->
    same_id ha hb (mkType o (TDef x)) (mkType o' (TDef y))
| same_struct : forall o o' x y, same_path (s_namespace x) (s_namespace y) -> s_name x = s_name y ->
    same_id ha hb (mkType o (TStruct x)) (mkType o' (TStruct y))
| same_union : forall o o' x y, same_path (u_namespace x) (u_namespace y) -> u_name x = u_name y ->
    same_id ha hb (mkType o (TUnion x)) (mkType o' (TUnion y))
| same_enum : forall o o' x y, same_path (e_namespace x) (e_namespace y) -> e_name x = e_name y ->
    same_id ha hb (mkType o (TEnum x)) (mkType o' (TEnum y))
| same_unspecified : forall o o' x y,
    same_path (us_namespace x) (us_namespace y) -> us_name x = us_name y ->
    same_id ha hb (mkType o (TUnspecified x)) (mkType o' (TUnspecified y))
| same_array : forall o o' x y, same_ref ha hb (a_ty x) (a_ty y) -> a_count x = a_count y ->
    same_id ha hb (mkType o (TArray x)) (mkType o' (TArray y))
| same_function : forall o o' x y,
    List.length (f_parameters x) = List.length (f_parameters y) ->
    (forall i p q, nth_error (f_parameters x) i = Some p -> nth_error (f_parameters y) i = Some q ->
       same_ref ha hb p q) ->
    same_ref ha hb (f_return x) (f_return y) ->
    same_id ha hb (mkType o (TFunction x)) (mkType o' (TFunction y))
| same_ptr_to_member : forall o o' x y,
    same_ref ha hb (pm_containing x) (pm_containing y) -> same_ref ha hb (pm_ty x) (pm_ty y) ->
    same_id ha hb (mkType o (TPtrToMember x)) (mkType o' (TPtrToMember y))
| same_modifier : forall o o' x y, same_ref ha hb (mo_ty x) (mo_ty y) -> mo_kind x = mo_kind y ->
    same_id ha hb (mkType o (TModifier x)) (mkType o' (TModifier y))
| same_subrange : forall o o' x y, same_ref ha hb (sr_ty x) (sr_ty y) ->
    sr_lower x = sr_lower y -> sr_upper x = sr_upper y ->
    same_id ha hb (mkType o (TSubrange x)) (mkType o' (TSubrange y))
with same_ref (ha hb : type_env) : type_offset -> type_offset -> Prop :=
| same_unresolved : forall p q, from_offset ha p = None -> from_offset hb q = None ->
    same_ref ha hb p q
| same_resolved : forall p q a b, from_offset ha p = Some a -> from_offset hb q = Some b ->
    same_id ha hb a b -> same_ref ha hb p q.

(** The comparison terminates with [o]: at every large enough recursion depth
    [cmp_id] answers [o].  [debug] says whether debug assertions are enabled. *)
Definition compares (debug : bool) (x y : type_env * type) (o : comparison) : Prop :=
  exists n, forall fuel, (n <= fuel)%nat ->
    cmp_id debug fuel (fst x) (snd x) (fst y) (snd y) = Ord o.

(** ** Sizes *)

Definition explicit (s : opt64) : Prop := s <> u64_max.

(** The type is a function type, possibly through aliases and modifiers. *)
Inductive function_like (h : type_env) : type -> Prop :=
| fl_function : forall o x, function_like h (mkType o (TFunction x))
| fl_def : forall o x u, from_offset h (d_ty x) = Some u -> function_like h u ->
    function_like h (mkType o (TDef x))
| fl_modifier : forall o x u, from_offset h (mo_ty x) = Some u -> function_like h u ->
    function_like h (mkType o (TModifier x)).

(** The number of elements of an array: the product of its known dimensions. *)
Inductive element_count : list opt64 -> N -> Prop :=
| ec_one : forall c, explicit c -> element_count [c] c
| ec_more : forall c cs n, explicit c -> cs <> [] -> element_count cs n ->
    element_count (c :: cs) (c * n).

(** The dimensions: the list of counts, or the single count when that is empty. *)
Definition dimensions (x : array_type) (d : list opt64) : Prop :=
  (a_counts x <> [] /\ d = a_counts x) \/ (a_counts x = [] /\ d = [a_count x]).

Definition has_pointer_size (k : modifier_kind) : Prop :=
  k = MPointer \/ k = MReference \/ k = MRvalueReference.

(** [size_is h t s]: the size of [t] in bytes, as an unbounded number, is [s]. *)
Inductive size_is (h : type_env) : type -> N -> Prop :=
| sz_void : forall o, size_is h (mkType o TVoid) 0
| sz_base : forall o x, explicit (b_byte_size x) -> size_is h (mkType o (TBase x)) (b_byte_size x)
| sz_struct : forall o x, explicit (s_byte_size x) ->
    size_is h (mkType o (TStruct x)) (s_byte_size x)
| sz_union : forall o x, explicit (u_byte_size x) -> size_is h (mkType o (TUnion x)) (u_byte_size x)
| sz_function : forall o x, explicit (f_byte_size x) ->
    size_is h (mkType o (TFunction x)) (f_byte_size x)
| sz_def : forall o x u s, from_offset h (d_ty x) = Some u -> size_is h u s ->
    size_is h (mkType o (TDef x)) s
| sz_enum : forall o x, explicit (e_byte_size x) -> size_is h (mkType o (TEnum x)) (e_byte_size x)
| sz_enum_ty : forall o x u s, ~ explicit (e_byte_size x) ->
    from_offset h (e_ty x) = Some u -> size_is h u s -> size_is h (mkType o (TEnum x)) s
| sz_subrange : forall o x, explicit (sr_byte_size x) ->
    size_is h (mkType o (TSubrange x)) (sr_byte_size x)
| sz_subrange_ty : forall o x u s, ~ explicit (sr_byte_size x) ->
    from_offset h (sr_ty x) = Some u -> size_is h u s -> size_is h (mkType o (TSubrange x)) s
| sz_array : forall o x, explicit (a_byte_size x) -> size_is h (mkType o (TArray x)) (a_byte_size x)
| sz_array_ty : forall o x u s d n, ~ explicit (a_byte_size x) ->
    from_offset h (a_ty x) = Some u -> size_is h u s -> dimensions x d -> element_count d n ->
    size_is h (mkType o (TArray x)) (s * n)
| sz_modifier : forall o x, explicit (mo_byte_size x) ->
    size_is h (mkType o (TModifier x)) (mo_byte_size x)
| sz_pointer : forall o x s, ~ explicit (mo_byte_size x) -> has_pointer_size (mo_kind x) ->
    mo_address_size x = Some s -> size_is h (mkType o (TModifier x)) s
| sz_modified : forall o x u s, ~ explicit (mo_byte_size x) -> ~ has_pointer_size (mo_kind x) ->
    from_offset h (mo_ty x) = Some u -> size_is h u s -> size_is h (mkType o (TModifier x)) s
| sz_ptm : forall o x, explicit (pm_byte_size x) ->
    size_is h (mkType o (TPtrToMember x)) (pm_byte_size x)
| sz_ptm_function : forall o x u s, ~ explicit (pm_byte_size x) ->
    from_offset h (pm_ty x) = Some u -> function_like h u -> pm_address_size x = Some s ->
    size_is h (mkType o (TPtrToMember x)) (s * 2)
| sz_ptm_data : forall o x u s, ~ explicit (pm_byte_size x) ->
    from_offset h (pm_ty x) = Some u -> ~ function_like h u -> pm_address_size x = Some s ->
    size_is h (mkType o (TPtrToMember x)) s.

(** References that decide the size of a type. *)
Inductive size_ref : type -> type_offset -> Prop :=
| sr_def : forall o x, size_ref (mkType o (TDef x)) (d_ty x)
| sr_enum : forall o x, ~ explicit (e_byte_size x) -> size_ref (mkType o (TEnum x)) (e_ty x)
| sr_array : forall o x, ~ explicit (a_byte_size x) -> size_ref (mkType o (TArray x)) (a_ty x)
| sr_mod : forall o x, ~ explicit (mo_byte_size x) -> ~ has_pointer_size (mo_kind x) ->
    size_ref (mkType o (TModifier x)) (mo_ty x)
| sr_sub : forall o x, ~ explicit (sr_byte_size x) -> size_ref (mkType o (TSubrange x)) (sr_ty x).

(** References that decide whether a type is a function. *)
Inductive function_ref : type -> type_offset -> Prop :=
| fr_def : forall o x, function_ref (mkType o (TDef x)) (d_ty x)
| fr_mod : forall o x, function_ref (mkType o (TModifier x)) (mo_ty x).

Inductive function_well_founded (h : type_env) (t : type) : Prop :=
| fwf_intro :
    (forall off u, function_ref t off -> from_offset h off = Some u ->
       function_well_founded h u) ->
    function_well_founded h t.

Inductive size_well_founded (h : type_env) (t : type) : Prop :=
| swf_intro :
    (forall off u, size_ref t off -> from_offset h off = Some u -> size_well_founded h u) ->
    (forall o x u, t = mkType o (TPtrToMember x) -> ~ explicit (pm_byte_size x) ->
       from_offset h (pm_ty x) = Some u -> function_well_founded h u) ->
    size_well_founded h t.

(** [byte_size] answers [s] at every large enough recursion depth. *)
Definition reports_size (h : type_env) (t : type) (s : option N) : Prop :=
  exists n, forall fuel, (n <= fuel)%nat -> byte_size fuel h t = Done s.

(** The sizes recorded in a type are 64-bit values, as in the Rust types. *)
Definition sizes_u64 (t : type) : Prop :=
  match t_kind t with
  | TBase x => b_byte_size x < 2 ^ 64
  | TStruct x => s_byte_size x < 2 ^ 64
  | TUnion x => u_byte_size x < 2 ^ 64
  | TEnum x => e_byte_size x < 2 ^ 64
  | TArray x => a_byte_size x < 2 ^ 64
  | TFunction x => f_byte_size x < 2 ^ 64
  | TPtrToMember x =>
      pm_byte_size x < 2 ^ 64 /\ forall s, pm_address_size x = Some s -> s < 2 ^ 64
  | TModifier x =>
      mo_byte_size x < 2 ^ 64 /\ forall s, mo_address_size x = Some s -> s < 2 ^ 64
  | TSubrange x => sr_byte_size x < 2 ^ 64
  | TVoid | TDef _ | TUnspecified _ => True
  end.
