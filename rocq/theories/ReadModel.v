(** Model of how debugging information is read: relocations and the reader that applies them
    (/repo/parser/src/file/dwarf.rs:30-250), the units that offsets lie in (280-315), and the enumerators of
    an enumeration (1095-1123, 1842-1911; parser/src/types.rs:1165-1185).

    [usize] has 64 bits, so that the conversions from [u64] (39-42, 149, 155, 161) always succeed. *)
From Coq Require Import List Arith NArith ZArith Bool String.
From Verif Require Import Base NamespaceModel TypeModel DieModel ItemModel.
Import ListNotations.
Local Open Scope N_scope.

(** ** Relocations *)

(** [object::RelocationTarget], with the address of the symbol or section if there is one with
    that index, and [object::RelocationKind]. *)
Inductive reloc_target := ToSymbol (address : option N) | ToSection (address : option N) | ToOther.
Inductive reloc_kind := RelAbsolute | RelRelative | RelOther.
(** [object::Relocation], with its offset.  [rl_bytes] (the size of the field) is not read. *)
Record object_reloc := mkReloc {
  rl_offset : nat; rl_bytes : nat; rl_target : reloc_target; rl_kind : reloc_kind;
  rl_addend : Z; rl_implicit : bool }.

(** What is kept of a relocation: its offset, the sum that is its addend from then on, and whether the value
    in the section counts, too. *)
Record reloc_entry := mkEntry { re_offset : nat; re_addend : N; re_implicit : bool }.

(** [i64 as u64]. *)
Definition as_u64 (z : Z) : N := Z.to_N (z mod Z.of_N two64).

(** dwarf.rs:44-71. *)
Definition target_address (t : reloc_target) : option N :=
  match t with ToSymbol a | ToSection a => a | ToOther => None end.

(** dwarf.rs:32-108, [add_relocations].  The map is the list of the insertions. *)
Definition reloc_insertion (section_address : N) (r : object_reloc) : option reloc_entry :=
  match target_address (rl_target r) with
  | None => None
  | Some target =>
      match rl_kind r with
      | RelAbsolute => Some (mkEntry (rl_offset r) (add64 target (as_u64 (rl_addend r))) (rl_implicit r))
      | RelRelative =>
          Some (mkEntry (rl_offset r)
                  (sub64 (sub64 (add64 target (as_u64 (rl_addend r))) section_address)
                     (N.of_nat (rl_offset r))) (rl_implicit r))
      | RelOther => None
      end
  end.
Definition add_relocations (section_address : N) (l : list object_reloc) : list reloc_entry :=
  flat_map (fun r => match reloc_insertion section_address r with Some e => [e] | None => [] end) l.
(** [HashMap::get]: the last insertion counts. *)
Definition reloc_get (m : list reloc_entry) (offset : nat) : option reloc_entry :=
  fold_left (fun x e => if Nat.eqb (re_offset e) offset then Some e else x) m None.

(** dwarf.rs:118-135, [Relocate::relocate].  (Only absolute and relative relocations are in
    the map.) *)
Definition relocate (m : list reloc_entry) (offset : nat) (value : N) : N :=
  match reloc_get m offset with
  | Some e => if re_implicit e then add64 value (re_addend e) else re_addend e
  | None => value
  end.

(** ** Readers *)

(** The bytes of a word. *)
Fixpoint little_endian (l : list N) : N :=
  match l with [] => 0 | b :: l' => b + 256 * little_endian l' end.
Definition word (big_endian : bool) (l : list N) : N := little_endian (if big_endian then rev l else l).

(** dwarf.rs:110-115, [Relocate]: a part of the section.  [offset_from] (191-193) of the section is where it
    starts. *)
Record window := mkWindow { w_start : nat; w_len : nat }.

(** What can be done with a reader.  The three that read words of 4 or 8 bytes are told apart as in
    the source; [ReadPlain] stands for everything that reads bytes without relocation (238-247 and gimli's
    default methods). *)
Inductive act :=
| Skip (n : nat) | Truncate (n : nat) | MakeEmpty | Split (n : nat) | Copy
| ReadAddress (size : nat) | ReadLength (wide : bool) | ReadOffset (wide : bool) | ReadSizedOffset (size : nat)
| ReadPlain (n : nat).

Definition word_size (wide : bool) : nat := if wide then 8%nat else 4%nat.
Definition allowed_size (n : nat) : bool :=
  Nat.eqb n 1 || Nat.eqb n 2 || Nat.eqb n 4 || Nat.eqb n 8.

(** What is read: the number of bytes, and whether a relocation is applied. *)
Definition reads (a : act) : option (nat * bool) :=
  match a with
  | ReadAddress n | ReadSizedOffset n => if allowed_size n then Some (n, true) else None
  | ReadLength wide | ReadOffset wide => Some (word_size wide, true)
  | ReadPlain n => Some (n, false)
  | _ => None
  end.

Section Reader.
  Variable big_endian : bool.
  Variable section : list N.
  Variable relocations : list reloc_entry.

  (** The bytes at the start of a part of the section. *)
  Definition bytes_at (start n : nat) : list N := firstn n (skipn start section).

  (** dwarf.rs:145-176 (reading and [split]) and 178-248 (the rest): what is left of the reader, a
      second reader, and the value read.  If there are not enough bytes, nothing happens. *)
  Definition perform (w : window) (a : act) : window * option window * option N :=
    let advance := fun n => mkWindow (w_start w + n) (w_len w - n) in
    match a with
    | Skip n => if (n <=? w_len w)%nat then (advance n, None, None) else (w, None, None)
    | Truncate n => if (n <=? w_len w)%nat then (mkWindow (w_start w) n, None, None) else (w, None, None)
    | MakeEmpty => (mkWindow (w_start w) 0, None, None)
    | Split n =>
        if (n <=? w_len w)%nat then (advance n, Some (mkWindow (w_start w) n), None) else (w, None, None)
    | Copy => (w, Some w, None)
    | _ =>
        match reads a with
        | Some (n, relocated) =>
            if (n <=? w_len w)%nat then
              let value := word big_endian (bytes_at (w_start w) n) in
              (advance n, None, Some (if relocated then relocate relocations (w_start w) value else value))
            else (w, None, None)
        | None => (w, None, None)
        end
    end.

  (** All the readers there are, and what is done with which.  The result has the reader, what is done with it
      and what is read. *)
  Definition replace {A} (i : nat) (x : A) (l : list A) : list A := firstn i l ++ x :: skipn (S i) l.
  Fixpoint perform_all (ws : list window) (todo : list (nat * act)) : list (window * act * option N) :=
    match todo with
    | [] => []
    | (i, a) :: todo' =>
        match nth_error ws i with
        | Some w =>
            let '(w', new, value) := perform w a in
            (w, a, value) ::
            perform_all (replace i w' ws ++ match new with Some x => [x] | None => [] end) todo'
        | None => perform_all ws todo'
        end
    end.
  (** dwarf.rs:424-432: the first reader is the whole section. *)
  Definition read_section (todo : list (nat * act)) : list (window * act * option N) :=
    perform_all [mkWindow 0 (List.length section)] todo.
End Reader.

(** ** Units *)

(** Where a unit is in the section: its header, and its entries from [ud_first] on. *)
Record unit_place := mkPlace { ud_begin : N; ud_first : N; ud_end : N }.
(** [UnitSectionOffset::to_unit_offset] (gimli). *)
Definition to_unit_offset (o : N) (u : unit_place) : option N :=
  if (ud_begin u + ud_first u <=? o) && (o <? ud_end u) then Some (o - ud_begin u) else None.
(** dwarf.rs:280-291, [unit]. *)
Fixpoint find_unit (us : list unit_place) (o : N) : option (unit_place * N) :=
  match us with
  | [] => None
  | u :: us' => match to_unit_offset o u with Some x => Some (u, x) | None => find_unit us' o end
  end.

(** ** Enumerators *)

(** parser/src/types.rs:467-480, [is_unsigned]. *)
Definition is_unsigned (e : encoding) : bool :=
  match e with
  | EncUnsigned | EncUnsignedChar | EncBoolean | EncAddress => true
  | EncOther | EncSigned | EncSignedChar | EncFloat => false
  end.
(** dwarf.rs:1107-1122: [DW_AT_encoding]. *)
Definition encoding_of_code (code : N) : encoding :=
  match code with
  | 1 => EncAddress | 2 => EncBoolean | 4 => EncFloat | 5 => EncSigned | 6 => EncSignedChar
  | 7 => EncUnsigned | 8 => EncUnsignedChar | _ => EncOther
  end.

(** [DW_AT_const_value] as it is in the entry: [FixedData k n] is [DW_FORM_data1] to [8], with
    [k] bytes. *)
Inductive const_form := FixedData (k : nat) (n : N) | SignedData (z : Z) | UnsignedData (n : N) | NoConst.

(** gimli's [udata_value] and [sdata_value]. *)
Definition udata_value (c : const_form) : option N :=
  match c with
  | FixedData _ n => Some n
  | SignedData z => if (z <? 0)%Z then None else Some (Z.to_N z)
  | UnsignedData n => Some n
  | NoConst => None
  end.
(** [n as i8 as i64] and so on. *)
Definition sign_extend (k : nat) (n : N) : Z :=
  let bits := Z.of_nat (8 * k) in
  if (2 ^ (bits - 1) <=? Z.of_N n)%Z then (Z.of_N n - 2 ^ bits)%Z else Z.of_N n.
Definition sdata_value (c : const_form) : option Z :=
  match c with
  | FixedData k n => Some (sign_extend k n)
  | SignedData z => Some z
  | UnsignedData n => if n <? 9223372036854775808 then Some (Z.of_N n) else None
  | NoConst => None
  end.

Inductive enumerator_attr := EnName (v : option string) | EnConst (c : const_form) | EnOther.

(** dwarf.rs:1862-1911, [parse_enumerator]. *)
Definition parse_enumerator (e : encoding) (attrs : list enumerator_attr) : enumerator :=
  fold_left (fun x a =>
    match a with
    | EnName v => mkEnumerator v (en_value x)
    | EnConst c =>
        match (if is_unsigned e then option_map EvUnsigned (udata_value c)
               else option_map EvSigned (sdata_value c)) with
        | Some v => mkEnumerator (en_name x) v
        | None => x
        end
    | EnOther => x
    end) attrs (mkEnumerator None EvOther).

(** dwarf.rs:1842-1860, [parse_enumerators]: the children of the entry; those that are no enumerators are
    [None]. *)
Definition parse_enumerators (e : encoding) (children : list (option (list enumerator_attr))) : list enumerator :=
  flat_map (fun c => match c with Some attrs => [parse_enumerator e attrs] | None => [] end) children.

(** types.rs:1165-1185, [EnumerationType::{encoding, enumerators}]; [encodings] has the encoding of each
    base type. *)
Definition enumeration_encoding (h : type_env) (encodings : N -> encoding) (x : enumeration) : option encoding :=
  match from_offset h (e_ty x) with
  | Some t => match t_kind t with TBase _ => Some (encodings (t_offset t)) | _ => None end
  | None => None
  end.
Definition enumerators (h : type_env) (encodings : N -> encoding) (x : enumeration)
    (children : list (option (list enumerator_attr))) : list enumerator :=
  parse_enumerators
    match enumeration_encoding h encodings x with Some e => e | None => EncSigned end children.
