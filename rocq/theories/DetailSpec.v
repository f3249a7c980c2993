(** What the details of a function should be: a specification that refers to the tree of entries,
    to what an expression evaluates to, and to nothing of the walk over the tree. *)
From Coq Require Import List NArith ZArith Bool String.
From Verif Require Import Base RangeModel NamespaceModel TypeModel LocationModel DieModel DieSpec FileModel
  EntryModel DetailModel.
Import ListNotations.
Local Open Scope N_scope.

(** An entry, with what the expressions of its unit are evaluated with. *)
Definition entry := (reading * die)%type.
Definition e_attrs (e : entry) : list attr := die_attrs (snd e).
Definition e_offset (e : entry) : N := die_offset (snd e).

(** ** Which entries count *)

(** The entries of some kind that belong to the function with [d] inside: [d] itself, or those in
    a lexical block, at any depth.  What is inside an entry of another kind belongs to that one. *)
Fixpoint through_blocks (wanted : tag -> bool) (d : die) : list die :=
  match d with
  | Die t _ _ children =>
      if wanted t then [d]
      else match t with TagLexicalBlock => flat_map (through_blocks wanted) children | _ => [] end
  end.
Definition is_variable (t : tag) : bool := match t with TagVariable => true | _ => false end.
Definition is_inlined (t : tag) : bool := match t with TagInlined => true | _ => false end.
Definition is_call (t : tag) : bool := match t with TagCallSite _ => true | _ => false end.
Definition is_parameter (d : die) : bool := match die_tag d with TagParameter => true | _ => false end.

(** The entry that is given as the abstract origin of another, with its unit. *)
Definition abstract_origin (sp : space) (attrs : list attr) : option entry :=
  match given_origin attrs with
  | Some o => if o =? u64_max then None else sp o
  | None => None
  end.

(** The entries for the parameters and variables of a function: first those of the abstract origin, then its
    own ones. *)
Definition entries_for (pick : list die -> list die) (sp : space) (rd : reading) (attrs : list attr)
    (children : list die) : list entry :=
  match abstract_origin sp attrs with
  | Some (rd', d) => map (pair rd') (pick (die_children d))
  | None => []
  end ++ map (pair rd) (pick children).
Definition parameter_entries := entries_for (filter is_parameter).
Definition variable_entries := entries_for (flat_map (through_blocks is_variable)).

(** ** Several entries for one item *)

Definition refers_to (off : N) (e : entry) : bool :=
  match given_origin (e_attrs e) with Some o => o =? off | None => false end.

(** Each item has an entry that refers to no earlier item, and those after it that refer
    to it.  [seen] has the offsets of the items before.  (Two items with one offset: only the first one can be
    referred to.) *)
Fixpoint groups (seen : list N) (l : list entry) : list (entry * list entry) :=
  match l with
  | [] => []
  | e :: l' =>
      if existsb (fun o => refers_to o e) seen then groups seen l'
      else
        (e, if existsb (N.eqb (e_offset e)) seen then [] else filter (refers_to (e_offset e)) l')
        :: groups (e_offset e :: seen) l'
  end.

(** What the last entry that gives something gives. *)
Definition latest {B} (pick : entry -> option B) (l : list entry) (default : B) : B :=
  last (flat_map (fun e => match pick e with Some v => [v] | None => [] end) l) default.
Definition latest_name := fun l =>
  latest (fun e => match given_name (e_attrs e) with Some s => Some (Some s) | None => None end) l None.
Definition latest_type := fun l =>
  latest (fun e => if given_type (e_attrs e) =? type_offset_none then None else Some (given_type (e_attrs e)))
    l type_offset_none.

(** Where an entry says that something is: an expression counts for all addresses, and those that
    cannot be evaluated do not count. *)
Definition places_at (e : entry) : list (range * piece) :=
  flat_map (fun x : range * list op =>
              match evaluate (rd_address_size (fst e)) (rd_address (fst e)) (snd x) with
              | Some ps => map (pair (fst x)) ps
              | None => []
              end)
    (flat_map (fun a => match a with
                        | ALocation (PExpression _ ops) => [(mkRange 0 u64_max, ops)]
                        | ALocation (PList l) => l
                        | _ => []
                        end) (e_attrs e)).

(** The places at fixed addresses, with their sizes in bits. *)
Definition fixed_at (e : entry) : list (N * opt64) :=
  flat_map (fun x : range * piece => if pc_is_value (snd x) then [] else
    match pc_location (snd x) with LAddress a => [(a, pc_bit_size (snd x))] | _ => [] end) (places_at e).
Definition proper_places (l : list entry) : Prop :=
  forall e a n, In e l -> In (a, n) (fixed_at e) -> a <> u64_max /\ n < two64.
(** The first fixed address, and its size in bytes. *)
Definition address_at (e : entry) : option N :=
  match fixed_at e with (a, _) :: _ => Some a | [] => None end.
Definition size_at (e : entry) : option N :=
  match fixed_at e with
  | (_, n) :: _ => match opt64_get n with Some k => Some (div_ceil k 8) | None => None end
  | [] => None
  end.

Definition parameter_of (g : entry * list entry) : parameter :=
  let all := fst g :: snd g in
  mkParameter (e_offset (fst g)) (latest_name all) (latest_type all) (flat_map places_at all).

Definition variable_of (g : entry * list entry) : variable :=
  let all := fst g :: snd g in
  mkVariableAt (e_offset (fst g)) (latest_name all) (latest_type all)
    (latest (fun e => match so_file (given_source (e_attrs e)) with
                      | Some _ => Some (given_source (e_attrs e))
                      | None => None
                      end) all (given_source (e_attrs (fst g))))
    (latest address_at all u64_max) (latest size_at all u64_max) (flat_map places_at all).

(** ** Calls *)

Definition given_pieces (rd : reading) (pick : attr -> option (list op)) (l : list attr) : list piece :=
  given (fun a => match pick a with
                  | Some ops => evaluate (rd_address_size rd) (rd_address rd) ops
                  | None => None
                  end) l [].
Definition given_optional_type :=
  fun l => given (fun a => match a with AType (Some o) => Some (Some o) | _ => None end) l None.
Definition given_call_source (l : list attr) : source :=
  mkSource
    (given (fun a => match a with ACallFile (Some (_, Some dir)) => Some dir | _ => None end) l None)
    (given (fun a => match a with ACallFile (Some (file, _)) => Some file | _ => None end) l None)
    (given_position (fun a => match a with ACallLine v => v | _ => None end) l)
    (given_position (fun a => match a with ACallColumn v => v | _ => None end) l).

(** What is called, given the offset of an entry. *)
Inductive leads_to (sp : space) (h : offsets) (off : N) : site_origin -> Prop :=
| leads_function rd d f :
    sp off = Some (rd, d) -> die_tag d = TagSubprogram -> off <> u64_max -> of_function h off = Some f ->
    leads_to sp h off (Direct f)
| leads_variable rd d v :
    sp off = Some (rd, d) -> die_tag d = TagVariable -> off <> u64_max -> of_variable h off = Some v ->
    leads_to sp h off (ByVariable v)
| leads_local rd d :
    sp off = Some (rd, d) -> die_tag d = TagVariable -> off = u64_max \/ of_variable h off = None ->
    leads_to sp h off (ByLocal off)
| leads_parameter rd d :
    sp off = Some (rd, d) -> die_tag d = TagParameter -> leads_to sp h off (ByParameter off)
| leads_member rd d :
    sp off = Some (rd, d) -> die_tag d = TagMember -> leads_to sp h off (ByMember off).

(** The last element of a list that has something. *)
Inductive last_such {A B} (R : A -> B -> Prop) : list A -> option B -> Prop :=
| last_none l : (forall a b, In a l -> ~ R a b) -> last_such R l None
| last_one before a after b :
    R a b -> (forall a' b', In a' after -> ~ R a' b') -> last_such R (before ++ a :: after) (Some b).

Definition attr_leads_to (sp : space) (h : offsets) (a : attr) (r : site_origin) : Prop :=
  exists o, (a = ACallOrigin (Some o) \/ a = AAbstractOrigin (Some o)) /\ leads_to sp h o r.

(** The parameter of a call: the parameter of the function called that it refers to says more about
    its name and type than the entry itself. *)
Definition argument_of (sp : space) (rd : reading) (d : die) : argument :=
  let attrs := die_attrs d in
  let named :=
    attrs ++
    match given (fun a => match a with
                          | ACallParameter (Some o) | AAbstractOrigin (Some o) => Some (Some o)
                          | _ => None
                          end) attrs None with
    | Some o => match sp o with Some (_, p) => die_attrs p | None => [] end
    | None => []
    end in
  mkArgument (given_name named) (given_optional_type named)
    (given_pieces rd (fun a => match a with ALocation (PExpression _ ops) => Some ops | _ => None end) attrs)
    (given_pieces rd (fun a => match a with ACallValue v => v | _ => None end) attrs)
    (given_pieces rd (fun a => match a with ACallDataLocation v => v | _ => None end) attrs)
    (given_pieces rd (fun a => match a with ACallDataValue v => v | _ => None end) attrs).

Inductive calls (sp : space) (h : offsets) (rd : reading) : die -> call_site -> Prop :=
| calls_at gnu off attrs children origin :
    last_such (attr_leads_to sp h) attrs origin ->
    calls sp h rd (Die (TagCallSite gnu) off attrs children)
      (mkCallSite
         (if existsb (fun a => match a with ACallTail => true | _ => false end) attrs
          then TailCall else NormalCall)
         (given (fun a => match a with
                          | ACallReturnPc v => Some v
                          | ALowPc (Some n) => if gnu then Some (Some n) else None
                          | _ => None
                          end) attrs None)
         (given (fun a => match a with ACallPc v => Some v | _ => None end) attrs None)
         origin
         (given_pieces rd (fun a => match a with ACallTarget _ v => v | _ => None end) attrs)
         (existsb (fun a => match a with ACallTarget true _ => true | _ => false end) attrs)
         (given_optional_type attrs) (given_call_source attrs)
         (map (argument_of sp rd)
            (filter (fun d => match die_tag d with TagCallParameter => true | _ => false end) children))).

(** ** Inlined functions *)

Definition given_low := fun l => given (fun a => match a with ALowPc v => Some v | _ => None end) l None.
Definition given_extent :=
  fun l => given (fun a => match a with AHighPcSize n => Some (Some n) | _ => None end) l None.

(** The size and the ranges of the code of an inlined function. *)
Inductive covers (l : list attr) : opt64 -> list range -> Prop :=
| cov_ranges rs kept :
    given_ranges l = Some rs -> Forall (fun p => snd p < two64) rs ->
    kept = map (fun p => mkRange (fst p) (snd p)) (filter (fun p => fst p <? snd p) rs) ->
    covers l (fold_right N.add 0 (map (fun r => rend r - rbegin r) kept) mod two64) kept
| cov_length low n :
    given_ranges l = None -> given_extent l = Some n -> given_low l = Some low ->
    covers l n [mkRange low ((low + n) mod two64)]
| cov_only_length n :
    given_ranges l = None -> given_extent l = Some n -> given_low l = None -> covers l n []
| cov_up_to low high :
    given_ranges l = None -> given_extent l = None -> given_low l = Some low ->
    given_high_pc l = Some high -> low < high -> high < two64 ->
    covers l (high - low) [mkRange low high]
| cov_backwards low high :
    given_ranges l = None -> given_extent l = None -> given_low l = Some low ->
    given_high_pc l = Some high -> high <= low -> low < two64 ->
    covers l ((high + two64 - low) mod two64) []
| cov_unknown :
    given_ranges l = None -> given_extent l = None -> given_low l = None \/ given_high_pc l = None ->
    covers l u64_max [].

(** All values are 64-bit ones. *)
Definition attr_64 (a : attr) : Prop :=
  match a with
  | ALowPc (Some n) | AHighPcAddress (Some n) | AHighPcSize n => n < two64
  | ARanges (Some rs) => Forall (fun p => fst p < two64 /\ snd p < two64) rs
  | _ => True
  end.

(** The inlined function that an entry describes; those inlined into it in turn are inside its
    entry. *)
Inductive inlines (sp : space) (h : offsets) (rd : reading) : die -> inlined_function -> Prop :=
| inlines_at off attrs children size ranges inner sites :
    covers attrs size ranges ->
    Forall2 (inlines sp h rd) (flat_map (through_blocks is_inlined) children) inner ->
    Forall2 (calls sp h rd) (flat_map (through_blocks is_call) children) sites ->
    inlines sp h rd (Die TagInlined off attrs children)
      (mkInlinedFunction (match given_origin attrs with Some o => o | None => u64_max end)
         size ranges (given_call_source attrs)
         (map parameter_of (groups [] (parameter_entries sp rd attrs children)))
         (map variable_of (groups [] (variable_entries sp rd attrs children))) inner sites).

(** All the entries of the tree at an offset have 64-bit values, and all places are proper ones. *)
Definition tree_64 (d : die) : Prop := forall e, In e (entries d) -> Forall attr_64 (die_attrs e).
Definition all_proper (sp : space) : Prop :=
  forall o rd d, sp o = Some (rd, d) -> proper_places (map (pair rd) (entries d)).
