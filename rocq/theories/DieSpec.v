(** What the items of a unit should be: a specification that refers to the tree of entries and
    to nothing of the walk over it. *)
From Coq Require Import List NArith ZArith Bool String.
From Verif Require Import Base RangeModel NamespaceModel TypeModel LocationModel DieModel.
Import ListNotations.
Local Open Scope N_scope.

(** ** Attributes *)

(** The value given for an attribute; the last one if it is given several times. *)
Definition given {A} (pick : attr -> option A) (l : list attr) (default : A) : A :=
  last (flat_map (fun a => match pick a with Some v => [v] | None => [] end) l) default.

Definition given_name := fun l => given (fun a => match a with AName v => Some v | _ => None end) l None.
Definition given_linkage_name :=
  fun l => given (fun a => match a with ALinkageName v => Some v | _ => None end) l None.
(** References that cannot be decoded do not count. *)
Definition given_type :=
  fun l => given (fun a => match a with AType v => v | _ => None end) l type_offset_none.
Definition given_specification :=
  fun l => given (fun a => match a with
                           | ASpecification (Some o) => Some (Some (o, false))
                           | AAbstractOrigin (Some o) => Some (Some (o, true))
                           | _ => None
                           end) l None.
Definition given_origin :=
  fun l => given (fun a => match a with AAbstractOrigin (Some o) => Some (Some o) | _ => None end) l None.
Definition given_declaration :=
  fun l => given (fun a => match a with ADeclaration v => v | _ => None end) l false.
Definition given_inline :=
  fun l => given (fun a => match a with AInline v => v | _ => None end) l false.
Definition given_ranges :=
  fun l => given (fun a => match a with ARanges v => Some v | _ => None end) l None.
(** An address of 0 counts only in a unit that starts at 0, and a size of 0 does not count. *)
Definition given_low_pc (unit_low_pc : option N) :=
  fun l => given (fun a => match a with
                           | ALowPc (Some n) =>
                               if n =? 0
                               then match unit_low_pc with Some 0 => Some (Some 0) | _ => None end
                               else Some (Some n)
                           | _ => None
                           end) l None.
Definition given_high_pc :=
  fun l => given (fun a => match a with AHighPcAddress v => Some v | _ => None end) l None.
Definition given_length :=
  fun l => given (fun a => match a with
                           | AHighPcSize n => if n =? 0 then None else Some (Some n)
                           | _ => None
                           end) l None.

(** Where something is declared: each part as given; lines and columns of 0 and those that do not
    fit 32 bits do not count. *)
Definition given_position (pick : attr -> option N) (l : list attr) : N :=
  given (fun a => match pick a with
                  | Some n => if (0 <? n) && (n <? 4294967296) then Some n else None
                  | None => None
                  end) l 0.
Definition given_source (l : list attr) : source :=
  mkSource
    (given (fun a => match a with ADeclFile (Some (_, Some dir)) => Some dir | _ => None end) l None)
    (given (fun a => match a with ADeclFile (Some (file, _)) => Some file | _ => None end) l None)
    (given_position (fun a => match a with ADeclLine v => v | _ => None end) l)
    (given_position (fun a => match a with ADeclColumn v => v | _ => None end) l).

(** ** The entries that count *)

(** Whether the entries inside an entry with tag [inner] count, given the tag of the entry
    that it is itself in.  (The unit's own tag counts as a namespace here.) *)
Inductive looks_into (outer : tag) : tag -> Prop :=
| into_namespace : outer = TagNamespace -> looks_into outer TagNamespace
| into_subprogram : looks_into outer TagSubprogram
| into_block : outer = TagSubprogram \/ outer = TagLexicalBlock -> looks_into outer TagLexicalBlock
| into_structure : outer <> TagEnumeration -> looks_into outer TagStructure
| into_class : outer <> TagEnumeration -> looks_into outer TagClass
| into_union : outer <> TagEnumeration -> looks_into outer TagUnion
| into_enumeration : outer <> TagEnumeration -> looks_into outer TagEnumeration.

(** The entries of a unit that count, with the tag of the entry they are in. *)
Inductive found (top : list die) : tag -> die -> Prop :=
| found_top d : In d top -> found top TagNamespace d
| found_inside t d c :
    found top t d -> looks_into t (die_tag d) -> In c (die_children d) -> found top (die_tag d) c.

Definition is_type_tag (t : tag) : bool :=
  match t with
  | TagBase | TagTypedef | TagStructure | TagClass | TagUnion | TagEnumeration | TagUnspecified => true
  | _ => false
  end.

(** All the entries of a tree. *)
Fixpoint entries (d : die) : list die :=
  d :: flat_map entries (die_children d).

(** No two entries are at the same offset. *)
Definition distinct_offsets (top : list die) : Prop :=
  NoDup (map die_offset (flat_map entries top)).

(** ** What a function is *)

(** Where the code of a function is: address, size and ranges. *)
Inductive occupies (low_pc : option N) (l : list attr) : opt64 -> opt64 -> list range -> Prop :=
| occ_ranges rs kept size :
    given_ranges l = Some rs -> Forall (fun p => snd p < two64) rs ->
    kept = map (fun p => mkRange (fst p) (snd p)) (filter (fun p => fst p <? snd p) rs) ->
    size = fold_right N.add 0 (map (fun r => rend r - rbegin r) kept) mod two64 ->
    occupies low_pc l (hd 0 (map rbegin kept)) size kept
| occ_nowhere :
    given_ranges l = None -> given_low_pc low_pc l = None -> occupies low_pc l opt64_none opt64_none []
| occ_up_to a h :
    given_ranges l = None -> given_low_pc low_pc l = Some a -> a <> opt64_none ->
    given_high_pc l = Some h -> a < h -> h < two64 ->
    occupies low_pc l a (h - a) [mkRange a h]
| occ_empty a h :
    given_ranges l = None -> given_low_pc low_pc l = Some a ->
    given_high_pc l = Some h -> h <= a ->
    occupies low_pc l a opt64_none []
| occ_length a n :
    given_ranges l = None -> given_low_pc low_pc l = Some a -> a <> opt64_none ->
    given_high_pc l = None -> given_length l = Some n ->
    occupies low_pc l a n [mkRange a ((a + n) mod two64)]
| occ_start a :
    given_ranges l = None -> given_low_pc low_pc l = Some a ->
    given_high_pc l = None -> given_length l = None ->
    occupies low_pc l a opt64_none [].

Definition or_else {A} (x y : option A) : option A := match x with Some _ => x | None => y end.

(** The parameters of a function: those it starts with, extended by the parameters among the
    children of its entry.  One that refers to a parameter already there amends it. *)
Inductive extends : list parameter_type -> list die -> list parameter_type -> Prop :=
| ext_done ps : extends ps [] ps
| ext_skip ps d ds qs : die_tag d <> TagParameter -> extends ps ds qs -> extends ps (d :: ds) qs
| ext_amend ps1 p ps2 off attrs c ds origin qs :
    given_origin attrs = Some origin -> pt_offset p = origin ->
    Forall (fun q => pt_offset q <> origin) ps1 ->
    extends (ps1
             ++ mkParameterType (pt_offset p) (or_else (given_name attrs) (pt_name p))
                  (if given_type attrs =? type_offset_none then pt_ty p else given_type attrs)
             :: ps2) ds qs ->
    extends (ps1 ++ p :: ps2) (Die TagParameter off attrs c :: ds) qs
| ext_new ps off attrs c ds qs :
    (forall origin, given_origin attrs = Some origin -> Forall (fun q => pt_offset q <> origin) ps) ->
    extends (ps ++ [mkParameterType off (given_name attrs) (given_type attrs)]) ds qs ->
    extends ps (Die TagParameter off attrs c :: ds) qs.

Section Items.
  Variable low_pc : option N.
  Variable top : list die.

  (** The function that an entry describes: an entry that refers to no other describes one by
      itself, in the namespace that it is in; one that refers to another takes from the
      function of that one the namespace and whatever it does not give itself.
      [located outer ns d]: the entry [d] counts, is in an entry with tag [outer], and the items
      there are in the namespace [ns].  There is no function for an entry that refers, directly or
      indirectly, to itself or to no entry of a function. *)
  Inductive located : tag -> option namespace -> die -> Prop :=
  | loc_top d : In d top -> located TagNamespace None d
  | loc_namespace ns off attrs children d :
      located TagNamespace ns (Die TagNamespace off attrs children) -> In d children ->
      located TagNamespace (Some (Ns ns (given_name attrs) KNamespace)) d
  | loc_type outer ns t off attrs children d :
      located outer ns (Die t off attrs children) -> outer <> TagEnumeration ->
      In t [TagStructure; TagClass; TagUnion; TagEnumeration] -> In d children ->
      located t (Some (Ns ns (given_name attrs) KType)) d
  | loc_block outer ns off attrs children d :
      located outer ns (Die TagLexicalBlock off attrs children) ->
      outer = TagSubprogram \/ outer = TagLexicalBlock -> In d children ->
      located TagLexicalBlock ns d
  | loc_function off attrs children d f :
      describes (Die TagSubprogram off attrs children) f -> In d children ->
      located TagSubprogram (Some (Ns (fu_namespace f) (fu_name f) KFunction)) d
  with describes : die -> dw_function -> Prop :=
  | desc_own outer ns off attrs children address size ranges ps :
      located outer ns (Die TagSubprogram off attrs children) ->
      given_specification attrs = None ->
      occupies low_pc attrs address size ranges ->
      extends [] children ps ->
      describes (Die TagSubprogram off attrs children)
        (mkFunction off ns (given_name attrs) (given_linkage_name attrs) (given_source attrs)
           address size ranges (given_inline attrs) (given_declaration attrs) ps (given_type attrs))
  | desc_refer outer ns off attrs children target abstract_origin d g address size ranges ps :
      located outer ns (Die TagSubprogram off attrs children) ->
      given_specification attrs = Some (target, abstract_origin) ->
      describes d g -> die_offset d = target ->
      occupies low_pc attrs address size ranges ->
      extends (if abstract_origin then fu_parameters g else []) children ps ->
      describes (Die TagSubprogram off attrs children)
        (mkFunction off (fu_namespace g)
           (or_else (given_name attrs) (fu_name g))
           (or_else (given_linkage_name attrs) (fu_linkage_name g))
           (if is_none (so_file (given_source attrs)) then fu_source g else given_source attrs)
           address size ranges (given_inline attrs) (given_declaration attrs) ps
           (if given_type attrs =? type_offset_none then fu_return g else given_type attrs)).
End Items.

(** ** Which variables there are *)

(** A member that is declared only: a static one. *)
Definition declared_only (l : list attr) : bool :=
  existsb (fun a => match a with ADeclaration _ => true | _ => false end) l.
Definition static_member (d : die) : Prop :=
  die_tag d = TagMember /\ declared_only (die_attrs d) = true.

Definition given_variable_specification :=
  fun l => given (fun a => match a with ASpecification (Some o) => Some (Some o) | _ => None end) l None.

(** The member of a variant that is not static, if there is just one. *)
Definition only_member (d m : die) : Prop :=
  filter (fun c => match die_tag c with TagMember => negb (declared_only (die_attrs c)) | _ => false end)
    (die_children d) = [m].

(** The entries of variables, with what they refer to.  The members of the structure that stands for a
    Rust variant count as members of the variant, too. *)
Inductive variable_entry (cx : context) (top : list die) : die -> option N -> Prop :=
| var_plain d :
    found top TagNamespace d -> die_tag d = TagVariable ->
    variable_entry cx top d (given_variable_specification (die_attrs d))
| var_static t d :
    found top t d -> In t [TagStructure; TagClass; TagUnion] -> static_member d ->
    variable_entry cx top d None
| var_part t p d :
    found top t p -> In t [TagStructure; TagClass] -> die_tag p = TagVariantPart ->
    In d (die_children p) -> static_member d ->
    variable_entry cx top d None
| var_variant t p v d :
    found top t p -> In t [TagStructure; TagClass] -> die_tag p = TagVariantPart ->
    In v (die_children p) -> die_tag v = TagVariant -> In d (die_children v) -> static_member d ->
    variable_entry cx top d None
| var_rust t p v m s d :
    found top t p -> In t [TagStructure; TagClass] -> die_tag p = TagVariantPart ->
    In v (die_children p) -> die_tag v = TagVariant -> cx_rust cx = true ->
    only_member v m -> given_type (die_attrs m) <> type_offset_none ->
    cx_tree cx (given_type (die_attrs m)) = Some s -> die_tag s = TagStructure ->
    In d (die_children s) -> static_member d ->
    variable_entry cx top d None.

(** The entries of variables that refer to no other, or to one that in turn has a variable. *)
Inductive has_variable (cx : context) (top : list die) : die -> Prop :=
| has_own d : variable_entry cx top d None -> has_variable cx top d
| has_reference d e o :
    variable_entry cx top d (Some o) -> has_variable cx top e -> die_offset e = o ->
    has_variable cx top d.

(** ** What a variable is *)

(** The address and the size given by a location that is an expression; the last one counts,
    and one without a size does not give one. *)
Definition given_address :=
  fun l => given (fun a => match a with
                           | ALocation (PExpression pieces _) => option_map fst (variable_location pieces)
                           | _ => None
                           end) l opt64_none.
Definition given_size :=
  fun l => given (fun a => match a with
                           | ALocation (PExpression pieces _) =>
                               match variable_location pieces with
                               | Some (_, size) => if opt64_is_some size then Some size else None
                               | None => None
                               end
                           | _ => None
                           end) l opt64_none.

(** The variable that an entry describes: like for functions. *)
Inductive describes_variable (low_pc : option N) (top : list die) : die -> dw_variable -> Prop :=
| dvar_own outer ns d attrs :
    located low_pc top outer ns d -> attrs = die_attrs d ->
    (outer = TagNamespace /\ die_tag d = TagVariable /\ given_variable_specification attrs = None
     \/ In outer [TagStructure; TagClass; TagUnion] /\ static_member d) ->
    describes_variable low_pc top d
      (mkVariable (die_offset d) ns (given_name attrs) (given_linkage_name attrs) (given_type attrs)
         (given_source attrs) (given_address attrs) (given_size attrs) (given_declaration attrs))
| dvar_refer ns d attrs target e g :
    located low_pc top TagNamespace ns d -> attrs = die_attrs d -> die_tag d = TagVariable ->
    given_variable_specification attrs = Some target ->
    describes_variable low_pc top e g -> die_offset e = target ->
    describes_variable low_pc top d
      (mkVariable (die_offset d) (vr_namespace g) (or_else (given_name attrs) (vr_name g))
         (or_else (given_linkage_name attrs) (vr_linkage_name g))
         (if given_type attrs =? type_offset_none then vr_ty g else given_type attrs)
         (given_source attrs) (given_address attrs) (given_size attrs) (given_declaration attrs)).

(** No structure of a Rust program has static members. *)
Definition no_rust_statics (cx : context) : Prop :=
  cx_rust cx = true ->
  forall o s d, cx_tree cx o = Some s -> In d (die_children s) -> ~ static_member d.
