(** Specification vocabulary for the lines that are printed for types, in terms of the values that the attributes of a file have. *)
From Coq Require Import List Arith NArith ZArith Bool String Sorting.Sorted Permutation.
From Verif Require Import Base NamespaceModel TypeModel LocationModel DieModel ReadModel CodeModel PrintModel PrintSpec NameModel ItemSpec EntrySpec
  ItemModel WholeModel ReadSpec RawModel RawSpec EndSpec WholeSpec OptionsModel.
Import ListNotations.
Local Open Scope N_scope.

(** ** Positions and sizes *)

(** No attribute is there twice, and none is an extension (0x2000 and above). *)
Definition plain (attrs : list (N * raw_value)) : Prop :=
  NoDup (map fst attrs) /\ Forall (fun a => fst a < 0x2000) attrs.

(** Where a base class starts, in bits: the number of bytes (0x38) is given as such, by an expression, or in version 3 by a number
    that has the form of a place in another section. *)
Inductive bytes_at (u : raw_unit) (attrs : list (N * raw_value)) : N -> Prop :=
| ba_none : lacks 0x38 attrs -> bytes_at u attrs 0
| ba_number v n : gives 0x38 attrs v -> counts v (Z.of_N n) -> (forall k m, v <> RwConst (FixedData k m)) -> 8 * n < two64 ->
    bytes_at u attrs (8 * n)
| ba_section n : gives 0x38 attrs (RwLocations n) -> ru_version u = 3 -> 8 * n < two64 -> bytes_at u attrs (8 * n)
| ba_expression n size pieces ops : gives 0x38 attrs (RwExpression [(GAddress n, size)] pieces ops) -> 8 * n < two64 ->
    bytes_at u attrs (8 * n).
(** Where a member starts: so many bytes; so many bits (0x6b); or, for fields of bits before version 4, by what is to the left of
    the field (0x0c) in an object with a size (0x0b). *)
Inductive starts (rf : raw_file) (u : raw_unit) (attrs : list (N * raw_value)) : N -> Prop :=
| sts_bytes p : lacks 0x0c attrs -> lacks 0x6b attrs -> bytes_at u attrs p -> starts rf u attrs p
| sts_bits n : lacks 0x0c attrs -> lacks 0x38 attrs -> gives_number 0x6b attrs n -> starts rf u attrs n
| sts_field place skip width size :
    gives 0x38 attrs (RwConst (UnsignedData place)) -> gives_number 0x0c attrs skip -> gives_number 0x0d attrs width ->
    gives_number 0x0b attrs size -> lacks 0x6b attrs -> skip + width <= 8 * size -> 8 * (place + size) < two64 ->
    starts rf u attrs (8 * place + if rf_big_endian rf then skip else 8 * size - (skip + width)).
Inductive has_width (rf : raw_file) (u : raw_unit) (attrs : list (N * raw_value)) : N -> Prop :=
| hw_bits n : gives_number 0x0d attrs n -> has_width rf u attrs n
| hw_bytes s : lacks 0x0d attrs -> type_bytes rf u attrs s -> 8 * s < two64 -> has_width rf u attrs (8 * s).

(** ** Lines for members *)

(** Bytes, and remaining bits. *)
Definition bit_text (n : N) : text := dec (n / 8) ++ (if n mod 8 =? 0 then [] else txt "." ++ dec (n mod 8)).
Definition row (i : nat) (p w : N) (what : text) : line := Line i (bit_text p ++ txt "[" ++ bit_text w ++ txt "]" ++ [9] ++ what).
Definition hole (i : nat) (from to : N) : list line := if from <? to then [row i from (to - from) (txt "<padding>")] else [].
(** What is in a structure, with its position, its width and its lines; what is left free is shown too. *)
Definition shape : Type := N * N * list line.
Fixpoint filled (i : nat) (from : N) (total : option N) (l : list shape) : list line :=
  match l with
  | [] => match total with Some n => hole i from n | None => [] end
  | (p, w, ls) :: rest => hole i from p ++ ls ++ filled i (p + w) total rest
  end.
Definition laid_out (i : nat) (total : option N) (l : list shape) : list line :=
  match l with [] => [] | _ => filled i 0 total l end.
(** By position, then by width; what has the same place in the order given. *)
Definition no_later (a b : shape) : Prop :=
  let '(p, w, _) := a in let '(p', w', _) := b in p < p' \/ p = p' /\ w <= w'.
Definition at_spot (p w : N) (a : shape) : bool := let '(p', w', _) := a in (p =? p') && (w =? w').
Definition in_order (given shapes : list shape) : Prop :=
  Permutation given shapes /\ StronglySorted no_later shapes /\ forall p w, filter (at_spot p w) given = filter (at_spot p w) shapes.
Definition first_bit (a : shape) : N := let '(p, _, _) := a in p.
Definition last_bit (a : shape) : N := let '(p, w, _) := a in p + w.
Definition bounded (a : shape) : Prop := last_bit a < u64_max.
Definition seen_from (base : N) (a : shape) : shape := let '(p, w, ls) := a in (p - base, w, ls).
(** The least and the greatest of some numbers, or 0 if there are none. *)
Definition least (l : list N) (n : N) : Prop := l = [] /\ n = 0 \/ In n l /\ Forall (N.le n) l.
Definition greatest (l : list N) (n : N) : Prop := l = [] /\ n = 0 \/ In n l /\ Forall (fun m => m <= n) l.

(** Members other than static ones (0x3c) and base classes. *)
Definition is_field (c : raw_die) : bool := (rd_tag c =? 0x0d) && negb (existsb (N.eqb 0x3c) (map fst (rd_attrs c))).
(** The members of a structure: its own and those that are beside its variants (0x33). *)
Definition fields (d : raw_die) : list raw_die :=
  flat_map (fun c => if is_field c then [c] else if rd_tag c =? 0x33 then filter is_field (rd_children c) else []) (rd_children d).
Definition takes_place (d : raw_die) : list raw_die := fields d ++ with_raw_tag 0x1c d ++ with_raw_tag 0x33 d.
Definition encoded_enum (n : string) : Prop := exists rest, n = ("RUST$ENCODED$ENUM$" ++ rest)%string.
Definition size_at (attrs : list (N * raw_value)) (size : option N) : Prop :=
  match size with Some s => gives_number 0x0b attrs s /\ 8 * s < two64 | None => lacks 0x0b attrs end.

(** The value that stands for a variant: one that is not negative, if there is one. *)
Inductive discriminant_at (attrs : list (N * raw_value)) : option N -> Prop :=
| dia_none : lacks 0x16 attrs -> discriminant_at attrs None
| dia_negative v z : gives 0x16 attrs v -> counts v z -> (z < 0)%Z -> discriminant_at attrs None
| dia_number v n : gives 0x16 attrs v -> counts v (Z.of_N n) -> discriminant_at attrs (Some n).
Inductive language_at (u : raw_unit) : option N -> Prop :=
| lga_none : lacks 0x13 (rd_attrs (ru_root u)) -> language_at u None
| lga_code c : gives 0x13 (rd_attrs (ru_root u)) (RwLanguage c) -> language_at u (Some c).

Section Lines.
  Variable rf : raw_file.

  (** The name of a variant and its members.  If in Rust (0x1c) its only member is a structure of the same unit then they are those of
      the structure. *)
  Inductive variant_holds (u : raw_unit) (d : raw_die) : option string -> list raw_die -> Prop :=
  | vh_language l : language_at u l -> l <> Some 0x1c -> variant_holds u d None (filter is_field (rd_children d))
  | vh_several : List.length (filter is_field (rd_children d)) <> 1%nat -> variant_holds u d None (filter is_field (rd_children d))
  | vh_void m : filter is_field (rd_children d) = [m] -> lacks 0x49 (rd_attrs m) -> variant_holds u d None [m]
  | vh_other m v x s : filter is_field (rd_children d) = [m] -> gives 0x49 (rd_attrs m) v -> refers rf u v x s -> In s (raw_below x) ->
      x <> u \/ rd_tag s <> 0x13 -> variant_holds u d None [m]
  | vh_structure m v s name : language_at u (Some 0x1c) -> filter is_field (rd_children d) = [m] -> gives 0x49 (rd_attrs m) v ->
      refers rf u v u s -> In s (raw_below u) -> rd_tag s = 0x13 -> named rf u is_name (rd_attrs s) name ->
      variant_holds u d name (filter is_field (rd_children s)).

  (** The type that an attribute refers to is a structure or union that has no name. *)
  Definition type_unnamed (u : raw_unit) (attrs : list (N * raw_value)) : Prop :=
    exists v x e b path, gives 0x49 attrs v /\ refers rf u v x e /\ In (rd_tag e) [0x13; 0x02; 0x17] /\ placed rf x b path e /\
      named rf x is_name (rd_attrs e) None.
  (** If it is a structure or union then it and all that it is in has a name. *)
  Definition type_named (u : raw_unit) (attrs : list (N * raw_value)) : Prop :=
    forall v x e, gives 0x49 attrs v -> refers rf u v x e -> In (rd_tag e) [0x13; 0x02; 0x17] ->
      exists b path n, placed rf x b path e /\ Forall (fun m => m <> None) path /\ named rf x is_name (rd_attrs e) (Some n).

  (** The lines for what is in a structure or union, at an indentation.  Members without a name, members whose type has no name
      and encoded enumerations are followed by what is in their type. *)
  Inductive members_lines : nat -> raw_unit -> raw_die -> list line -> Prop :=
  | ml_struct i u d b path size given shapes :
      In (rd_tag d) [0x13; 0x02] -> placed rf u b path d -> size_at (rd_attrs d) size ->
      parts_lines i u (takes_place d) given -> in_order given shapes -> Forall bounded given ->
      members_lines i u d (laid_out i (option_map (N.mul 8) size) shapes)
  | ml_union i u d b path shapes : rd_tag d = 0x17 -> placed rf u b path d ->
      parts_lines i u (filter is_field (rd_children d)) shapes -> members_lines i u d (flat_map snd shapes)
  | ml_other i u d : ~ In (rd_tag d) [0x13; 0x02; 0x17] -> members_lines i u d []
  with parts_lines : nat -> raw_unit -> list raw_die -> list shape -> Prop :=
  | pls_nil i u : parts_lines i u [] []
  | pls_cons i u e p w ls es shapes : part_lines i u e p w ls -> parts_lines i u es shapes ->
      parts_lines i u (e :: es) ((p, w, ls) :: shapes)
  with part_lines : nat -> raw_unit -> raw_die -> N -> N -> list line -> Prop :=
  | ptl_named i u e n p w t : rd_tag e = 0x0d -> plain (rd_attrs e) ->
      named rf u is_name (rd_attrs e) (Some n) -> ~ encoded_enum n -> type_named u (rd_attrs e) ->
      starts rf u (rd_attrs e) p -> has_width rf u (rd_attrs e) w -> type_text rf u 0x49 (rd_attrs e) t ->
      part_lines i u e p w [row i p w (txt n ++ txt ": " ++ t)]
  | ptl_shown i u e n p w t ls : rd_tag e = 0x0d -> plain (rd_attrs e) ->
      named rf u is_name (rd_attrs e) n -> n = None \/ (exists s, n = Some s /\ encoded_enum s) \/ type_unnamed u (rd_attrs e) ->
      starts rf u (rd_attrs e) p -> has_width rf u (rd_attrs e) w -> type_text rf u 0x49 (rd_attrs e) t ->
      inner_lines (S i) u (rd_attrs e) ls ->
      part_lines i u e p w (row i p w (name_or "<anon>" n ++ txt ": " ++ t) :: ls)
  | ptl_base i u e p s t : rd_tag e = 0x1c -> plain (rd_attrs e) ->
      bytes_at u (rd_attrs e) p -> type_bytes rf u (rd_attrs e) s -> 8 * s < two64 -> type_text rf u 0x49 (rd_attrs e) t ->
      part_lines i u e p (8 * s) [row i p (8 * s) (txt "<inherit>: " ++ t)]
  | ptl_variants i u e p w spans ls : rd_tag e = 0x33 -> variants_lines (S i) u p w (with_raw_tag 0x19 e) spans ls ->
      least (map fst spans) p -> greatest (map snd spans) (p + w) ->
      part_lines i u e p w (row i p w (txt "<variant part>") :: ls)
  (** Where each variant starts and ends, and the lines; what is left free in one is shown with its place in the variants' part. *)
  with variants_lines : nat -> raw_unit -> N -> N -> list raw_die -> list (N * N) -> list line -> Prop :=
  | vls_nil i u p w : variants_lines i u p w [] [] []
  | vls_cons i u p w d name members value given shapes first last ds spans ls :
      variant_holds u d name members -> discriminant_at (rd_attrs d) value ->
      parts_lines (S i) u members given -> in_order (map (seen_from p) given) shapes -> Forall bounded given ->
      least (map first_bit given) first -> greatest (map last_bit given) last ->
      variants_lines i u p w ds spans ls ->
      variants_lines i u p w (d :: ds) ((first, last) :: spans)
        (Line i (match name with Some n => txt n ++ txt ": " | None => [] end ++
                 match value with Some n => txt "<" ++ dec n ++ txt ">" | None => txt "<default>" end) ::
         laid_out (S i) (Some w) shapes ++ ls)
  with inner_lines : nat -> raw_unit -> list (N * raw_value) -> list line -> Prop :=
  | inl_void i u attrs : lacks 0x49 attrs -> inner_lines i u attrs []
  | inl_entry i u attrs v x e ls : gives 0x49 attrs v -> refers rf u v x e -> In e (raw_below x) -> members_lines i x e ls ->
      inner_lines i u attrs ls.

  (** ** What is listed *)

  (** No member that is shown together with its type has this one. *)
  Definition shown_alone (u : raw_unit) (d : raw_die) : Prop :=
    forall e v, In e (raw_below u) -> is_field e = true -> In (0x49, v) (rd_attrs e) -> points rf u v u d ->
      exists n, named rf u is_name (rd_attrs e) (Some n) /\ ~ encoded_enum n.
  (** The types of the base classes, as they are shown above the members. *)
  Definition bases_lines (ts : list text) : list line :=
    match ts with
    | [] => []
    | [t] => labelled_line 1 "inherits" t
    | _ => under 1 "inherits" (flat_map (text_line 2) ts)
    end.
  (** The members of a type without a name that a typedef names. *)
  Inductive typedef_lines (u : raw_unit) (attrs : list (N * raw_value)) : list line -> Prop :=
  | tdl_none : type_named u attrs -> typedef_lines u attrs []
  | tdl_members ls : type_unnamed u attrs -> inner_lines 2 u attrs ls -> typedef_lines u attrs ls.
  (** How the values of the base type with an entry are meant, by a number (0x3e), and the order of its bytes (0x65). *)
  Inductive encoding_at (attrs : list (N * raw_value)) : option string -> Prop :=
  | ea_none : lacks 0x3e attrs -> encoding_at attrs None
  | ea_code c : gives 0x3e attrs (RwEncoding c) -> encoding_at attrs
      (match c with 1 => Some "address" | 2 => Some "boolean" | 4 => Some "floating-point" | 5 => Some "signed" | 6 => Some "signed char"
       | 7 => Some "unsigned" | 8 => Some "unsigned char" | _ => None end)%string.
  Inductive endianity_at (attrs : list (N * raw_value)) : option string -> Prop :=
  | na_default : lacks 0x65 attrs -> endianity_at attrs None
  | na_code c : gives 0x65 attrs (RwEndianity c) -> endianity_at attrs
      (match c with 1 => Some "big" | 2 => Some "little" | _ => None end)%string.
  (** Whether the constants of an enumeration have no sign: its type is a base type for addresses (1), booleans (2), numbers (7)
      or characters (8) without a sign. *)
  Inductive enum_unsigned (u : raw_unit) (attrs : list (N * raw_value)) : bool -> Prop :=
  | eu_none : lacks 0x49 attrs -> enum_unsigned u attrs false
  | eu_other v x e : gives 0x49 attrs v -> refers rf u v x e -> In e (raw_below x) -> rd_tag e <> 0x24 -> enum_unsigned u attrs false
  | eu_plain v x e : gives 0x49 attrs v -> refers rf u v x e -> In e (raw_below x) -> lacks 0x3e (rd_attrs e) -> enum_unsigned u attrs false
  | eu_base v x e b path c : gives 0x49 attrs v -> refers rf u v x e -> rd_tag e = 0x24 -> placed rf x b path e ->
      gives 0x3e (rd_attrs e) (RwEncoding c) -> enum_unsigned u attrs (existsb (N.eqb c) [1; 2; 7; 8]).
  Inductive enumerator_text (u : raw_unit) (unsigned : bool) (d : raw_die) : text -> Prop :=
  | ent_name n : named rf u is_name (rd_attrs d) n -> lacks 0x1c (rd_attrs d) -> enumerator_text u unsigned d (name_or "<anon>" n)
  | ent_signed n c z : named rf u is_name (rd_attrs d) n -> gives 0x1c (rd_attrs d) (RwConst c) -> const_means unsigned c (EvSigned z) ->
      enumerator_text u unsigned d (name_or "<anon>" n ++ txt "(" ++ signed z ++ txt ")")
  | ent_unsigned n c v : named rf u is_name (rd_attrs d) n -> gives 0x1c (rd_attrs d) (RwConst c) -> const_means unsigned c (EvUnsigned v) ->
      enumerator_text u unsigned d (name_or "<anon>" n ++ txt "(" ++ dec v ++ txt ")").
  (** The size of a structure, union or base type, as given. *)
  Definition own_size (attrs : list (N * raw_value)) (size : option N) : Prop :=
    match size with Some s => gives_number 0x0b attrs s | None => lacks 0x0b attrs end.
  Definition size_text (size : option N) : text := match size with Some s => dec s | None => [] end.

  (** ** All lines for a type *)

  Inductive gives_type (o : options) (u : raw_unit) (d : raw_die) (path : list (option string)) : option string -> list line -> Prop :=
  | gt_structure b name dir source declared size inherits members :
      In (rd_tag d) [0x13; 0x02] -> placed rf u b path d -> Forall (fun n => n <> None) path ->
      named rf u is_comp_dir (rd_attrs (ru_root u)) dir -> named rf u is_name (rd_attrs d) (Some name) ->
      source_at rf u (rd_attrs d) source -> is_declared (rd_attrs d) declared -> own_size (rd_attrs d) size ->
      Forall2 (fun e t => type_text rf u 0x49 (rd_attrs e) t) (with_raw_tag 0x1c d) inherits ->
      members_lines 2 u d members ->
      gives_type o u d path (Some name)
        (Line 0 (txt "struct " ++ path_text path ++ txt name) ::
         (if p_source (o_print o) then labelled_line 1 "source" (source_text dir source) else []) ++
         labelled_line 1 "declaration" (yes declared) ++ labelled_line 1 "size" (size_text size) ++
         bases_lines inherits ++ under 1 "members" members ++ [Blank])
  | gt_union b name dir source declared size members :
      rd_tag d = 0x17 -> placed rf u b path d -> Forall (fun n => n <> None) path ->
      named rf u is_comp_dir (rd_attrs (ru_root u)) dir -> named rf u is_name (rd_attrs d) (Some name) ->
      source_at rf u (rd_attrs d) source -> is_declared (rd_attrs d) declared -> own_size (rd_attrs d) size ->
      members_lines 2 u d members ->
      gives_type o u d path (Some name)
        (Line 0 (txt "union " ++ path_text path ++ txt name) ::
         (if p_source (o_print o) then labelled_line 1 "source" (source_text dir source) else []) ++
         labelled_line 1 "declaration" (yes declared) ++ labelled_line 1 "size" (size_text size) ++
         under 1 "members" members ++ [Blank])
  | gt_enumeration b name dir source declared size unsigned enumerators :
      rd_tag d = 0x04 -> placed rf u b path d ->
      named rf u is_comp_dir (rd_attrs (ru_root u)) dir -> named rf u is_name (rd_attrs d) name ->
      source_at rf u (rd_attrs d) source -> is_declared (rd_attrs d) declared -> entry_bytes rf u d size ->
      (forall e a k, In e (rd_children d) -> In a (rd_attrs e) -> snd a = RwConst k -> const_sane k) ->
      enum_unsigned u (rd_attrs d) unsigned -> Forall2 (enumerator_text u unsigned) (with_raw_tag 0x28 d) enumerators ->
      gives_type o u d path name
        (Line 0 (txt "enum " ++ path_text path ++ name_or "<anon>" name) ::
         (if p_source (o_print o) then labelled_line 1 "source" (source_text dir source) else []) ++
         labelled_line 1 "declaration" (yes declared) ++ [Line 1 (txt "size: " ++ dec size)] ++
         under 1 "enumerators" (flat_map (EntrySpec.text_line 2) enumerators) ++ [Blank])
  | gt_typedef b name dir source t size members :
      rd_tag d = 0x16 -> placed rf u b path d ->
      named rf u is_comp_dir (rd_attrs (ru_root u)) dir -> named rf u is_name (rd_attrs d) name ->
      source_at rf u (rd_attrs d) source -> type_text rf u 0x49 (rd_attrs d) t -> type_bytes rf u (rd_attrs d) size ->
      typedef_lines u (rd_attrs d) members ->
      gives_type o u d path name
        (Line 0 (txt "type " ++ path_text path ++ name_or "<anon-typedef>" name ++ txt " = " ++ t) ::
         (if p_source (o_print o) then labelled_line 1 "source" (source_text dir source) else []) ++
         [Line 1 (txt "size: " ++ dec size)] ++ under 1 "members" members ++ [Blank])
  | gt_base b name size encoding endianity :
      rd_tag d = 0x24 -> placed rf u b path d -> named rf u is_name (rd_attrs d) name ->
      own_size (rd_attrs d) size -> encoding_at (rd_attrs d) encoding -> endianity_at (rd_attrs d) endianity ->
      gives_type o u d path name
        (Line 0 (txt "base " ++ name_or "<anon>" name) :: labelled_line 1 "size" (size_text size) ++
         labelled_line 1 "encoding" (optional_name encoding) ++ labelled_line 1 "endianity" (optional_name endianity) ++ [Blank]).
  (** Base types are in nothing. *)
  Definition type_path (d : raw_die) (path : list (option string)) : list (option string) := if rd_tag d =? 0x24 then [] else path.
End Lines.
