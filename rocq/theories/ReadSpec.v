(** What reading should give: relocated words, unit ranges, units by offset, and enumerators, said without
    the functions of the model. *)
From Coq Require Import List Arith NArith ZArith Bool String.
From Verif Require Import Base RangeModel RangeSpec DieModel ItemModel DieSpec ReadModel.
Import ListNotations.
Local Open Scope N_scope.

(** ** Relocations *)

(** The relocations that are applied: absolute and relative ones, to an address that is known. *)
Inductive applies : object_reloc -> N -> bool -> Prop :=
| ap_symbol_abs o n t z i : applies (mkReloc o n (ToSymbol (Some t)) RelAbsolute z i) t false
| ap_symbol_rel o n t z i : applies (mkReloc o n (ToSymbol (Some t)) RelRelative z i) t true
| ap_section_abs o n t z i : applies (mkReloc o n (ToSection (Some t)) RelAbsolute z i) t false
| ap_section_rel o n t z i : applies (mkReloc o n (ToSection (Some t)) RelRelative z i) t true.
Definition applied (r : object_reloc) : Prop := exists t rel, applies r t rel.

(** The value of a field: target + addend, less the address of the field for relative relocations, where the
    addend is the sum of that in the relocation and that in the field if it is implicit; modulo 2^64. *)
Definition field_value (section_address : N) (r : object_reloc) (stored : N) (v : N) : Prop :=
  exists t rel, applies r t rel /\
    Z.of_N v =
      ((Z.of_N t + rl_addend r + (if rl_implicit r then Z.of_N stored else 0)
        - (if rel then Z.of_N section_address + Z.of_nat (rl_offset r) else 0)) mod 2 ^ 64)%Z.

(** The value of a word at an offset: if several relocations apply to it, the last counts. *)
Inductive word_value (section_address : N) (rs : list object_reloc) (offset : nat) (stored v : N) : Prop :=
| wv_plain : (forall r, In r rs -> applied r -> rl_offset r <> offset) -> v = stored ->
    word_value section_address rs offset stored v
| wv_reloc before r after : rs = before ++ r :: after -> rl_offset r = offset ->
    (forall x, In x after -> applied x -> rl_offset x <> offset) ->
    field_value section_address r stored v -> word_value section_address rs offset stored v.

Definition apart (a n b m : nat) : Prop := (a + n <= b \/ b + m <= a)%nat.
(** The byte at an offset, and the word of [n] bytes there: the sum of the bytes times 256^i. *)
Definition word_at (big_endian : bool) (section : list N) (start n : nat) : N :=
  fold_right N.add 0
    (map (fun i => nth (start + i) section 0 *
                   256 ^ N.of_nat (if big_endian then n - 1 - i else i)) (seq 0 n)).

(** A section in which the relocations have been applied by a linker. *)
Record linked (big_endian : bool) (section_address : N) (rs : list object_reloc)
    (section image : list N) : Prop := mkLinked {
  lk_length : List.length image = List.length section;
  lk_fields : forall r, In r rs -> applied r ->
    field_value section_address r (word_at big_endian section (rl_offset r) (rl_bytes r))
      (word_at big_endian image (rl_offset r) (rl_bytes r));
  lk_rest : forall i, (i < List.length section)%nat ->
    (forall r, In r rs -> applied r -> apart i 1 (rl_offset r) (rl_bytes r)) ->
    nth i image 0 = nth i section 0 }.

(** The fields of different relocations do not overlap, and none is empty or outside the section. *)
Definition fields_apart (rs : list object_reloc) : Prop :=
  forall before r after, rs = before ++ r :: after -> applied r ->
    forall x, In x after -> applied x -> apart (rl_offset r) (rl_bytes r) (rl_offset x) (rl_bytes x).
Definition fields_inside (len : nat) (rs : list object_reloc) : Prop :=
  forall r, In r rs -> applied r -> (0 < rl_bytes r /\ rl_offset r + rl_bytes r <= len)%nat.

(** How many bytes are read by an action, and whether relocations are taken into account. *)
Inductive action_reads : act -> nat -> bool -> Prop :=
| ar_address n : In n [1; 2; 4; 8]%nat -> action_reads (ReadAddress n) n true
| ar_sized n : In n [1; 2; 4; 8]%nat -> action_reads (ReadSizedOffset n) n true
| ar_length (wide : bool) : action_reads (ReadLength wide) (if wide then 8 else 4) true
| ar_offset (wide : bool) : action_reads (ReadOffset wide) (if wide then 8 else 4) true
| ar_plain n : action_reads (ReadPlain n) n false.
(** Nothing reads a part of a field, and fields are read as words that can be relocated. *)
Definition reads_whole_fields (rs : list object_reloc) (w : window) (a : act) : Prop :=
  forall n relocated, action_reads a n relocated -> (n <= w_len w)%nat ->
    forall r, In r rs -> applied r ->
      apart (w_start w) n (rl_offset r) (rl_bytes r) \/
      relocated = true /\ rl_offset r = w_start w /\ rl_bytes r = n.

(** ** Unit ranges *)

(** A sequence of the line-number program: a row after the end of the last sequence (or the first row), and
    the next row that ends a sequence. *)
Definition sequence_of (rows : line_rows) (r : range) : Prop :=
  exists before middle after,
    rows = before ++ (rbegin r, false) :: middle ++ (rend r, true) :: after /\
    Forall (fun x => snd x = false) middle /\
    (before = [] \/ exists b a, before = b ++ [(a, true)]).

(** The extent of a unit.  What counts is the line-number program if there is one, else the
    ranges, else the addresses of the attributes. *)
Definition low_given (l : list attr) : option N :=
  given (fun a => match a with ALowPc v => Some v | _ => None end) l None.
Definition high_given (l : list attr) : option N :=
  given (fun a => match a with AHighPcAddress (Some h) => Some (Some h) | _ => None end) l None.
Definition size_given (l : list attr) : option N :=
  given (fun a => match a with AHighPcSize n => Some (Some n) | _ => None end) l None.
Inductive unit_extent (l : list attr) : option line_rows -> range -> Prop :=
| ux_rows rows r : sequence_of rows r -> rbegin r <> 0 -> unit_extent l (Some rows) r
| ux_ranges rs r : given_ranges l = Some rs -> In (rbegin r, rend r) rs -> unit_extent l None r
| ux_high r : given_ranges l = None -> low_given l = Some (rbegin r) -> high_given l = Some (rend r) ->
    unit_extent l None r
| ux_size r n : given_ranges l = None -> low_given l = Some (rbegin r) -> high_given l = None ->
    size_given l = Some n -> rend r = rbegin r + n -> rend r < 2 ^ 64 -> unit_extent l None r.

(** ** Units *)

(** The offset is one of the entries of the unit. *)
Definition inside_unit (o : N) (u : unit_place) : Prop := ud_begin u + ud_first u <= o < ud_end u.
(** The units follow one another. *)
Definition units_apart (us : list unit_place) : Prop :=
  ForallOrdPairs (fun u v => ud_end u <= ud_begin v) us /\ Forall (fun u => ud_begin u <= ud_end u) us.

(** ** Enumerators *)

(** What the constants stand for. *)
Inductive const_means : bool -> const_form -> enumerator_value -> Prop :=
| cm_fixed_unsigned k n : const_means true (FixedData k n) (EvUnsigned n)
| cm_fixed_signed k n z m : (Z.of_N n = z + m * 2 ^ (8 * Z.of_nat k))%Z ->
    (- 2 ^ (8 * Z.of_nat k) <= 2 * z < 2 ^ (8 * Z.of_nat k))%Z ->
    const_means false (FixedData k n) (EvSigned z)
| cm_signed z : const_means false (SignedData z) (EvSigned z)
| cm_signed_unsigned n : const_means true (SignedData (Z.of_N n)) (EvUnsigned n)
| cm_unsigned n : const_means true (UnsignedData n) (EvUnsigned n)
| cm_unsigned_signed n : n < 2 ^ 63 -> const_means false (UnsignedData n) (EvSigned (Z.of_N n)).
Definition const_sane (c : const_form) : Prop :=
  match c with FixedData k n => In k [1; 2; 4; 8]%nat /\ n < 256 ^ N.of_nat k | _ => True end.

(** The encodings of numbers without sign. *)
Definition unsigned_encodings : list encoding := [EncUnsigned; EncUnsignedChar; EncBoolean; EncAddress].

(** The enumerator of an entry: its last name, and its last constant that stands for something. *)
Inductive enumerator_of (unsigned : bool) (attrs : list enumerator_attr) (e : enumerator) : Prop :=
| eo_intro :
    (forall before v after, attrs = before ++ EnName v :: after ->
       (forall x, ~ In (EnName x) after) -> en_name e = v) ->
    ((forall x, ~ In (EnName x) attrs) -> en_name e = None) ->
    (forall before c after v, attrs = before ++ EnConst c :: after -> const_means unsigned c v ->
       (forall c' v', In (EnConst c') after -> ~ const_means unsigned c' v') -> en_value e = v) ->
    ((forall c v, In (EnConst c) attrs -> ~ const_means unsigned c v) -> en_value e = EvOther) ->
    enumerator_of unsigned attrs e.

(** ** Parts *)

(** The places in the section that are left to a reader. *)
Definition left_to (w : window) : list nat := seq (w_start w) (w_len w).
(** What becomes of them: [w'] is the reader afterwards and [new] the second one. *)
Inductive parts (w : window) : act -> window -> option window -> Prop :=
| pt_skip n w' skipped : left_to w = skipped ++ left_to w' -> List.length skipped = n -> parts w (Skip n) w' None
| pt_truncate n w' rest : left_to w = left_to w' ++ rest -> List.length (left_to w') = n -> parts w (Truncate n) w' None
| pt_empty w' : left_to w' = [] -> parts w MakeEmpty w' None
| pt_split n w' x : left_to w = left_to x ++ left_to w' -> List.length (left_to x) = n -> parts w (Split n) w' (Some x)
| pt_copy : parts w Copy w (Some w).
(** The number of bytes that have to be there. *)
Inductive asks_for : act -> nat -> Prop :=
| af_skip n : asks_for (Skip n) n
| af_truncate n : asks_for (Truncate n) n
| af_empty : asks_for MakeEmpty 0
| af_split n : asks_for (Split n) n
| af_copy : asks_for Copy 0.
