(** Specification of what is read from code: memory, calls, PLT entries, notes, listings. *)
From Coq Require Import List NArith ZArith Bool String.
From Verif Require Import Base RangeModel TypeModel NamespaceModel FileModel FileSpec CfiModel LocationModel
  PrintModel NameModel CodeModel.
Import ListNotations.
Local Open Scope N_scope.

(** ** Register numbers *)

(** System V psABI for AMD64, figure 3.36, and for i386, figure 2.14: the general registers in
    the order of their DWARF numbers, and the number of the first vector register. *)
Record numbering := mkNumbering { nu_general : list general; nu_vector : N; nu_vectors : N }.
Definition amd64 : numbering :=
  mkNumbering [GA; GD; GC; GB; GSI; GDI; GBP; GSP; GR 8; GR 9; GR 10; GR 11; GR 12; GR 13; GR 14; GR 15]
    17 16.
Definition i386 : numbering := mkNumbering [GA; GC; GD; GB; GSP; GBP; GSI; GDI] 21 8.

(** The number of a register; a part of a register has the number of the whole. *)
Inductive numbered (t : numbering) : x86_reg -> N -> Prop :=
| nu_reg g w n : nth_error (nu_general t) (N.to_nat n) = Some g -> numbered t (XGeneral g w) n
| nu_xmm n : n < nu_vectors t -> numbered t (XXmm n) (nu_vector t + n)
| nu_ymm n : n < nu_vectors t -> numbered t (XYmm n) (nu_vector t + n).

(** ** Memory *)

(** [l] are the bytes that the first segment that has all of them loads at [a], [a + 1], ... *)
Definition loaded (segments : list segment) (a size : N) (l : list N) : Prop :=
  exists before s after, segments = before ++ s :: after /\
    (forall t, In t before -> ~ segment_holds t (mkRange a (a + size))) /\
    segment_holds s (mkRange a (a + size)) /\ bytes_of s (mkRange a (a + size)) l.

(** [v] is the number with the digits [l] to base 256, lowest first. *)
Definition number_of (l : list N) (v : N) : Prop :=
  v < 256 ^ N.of_nat (List.length l) /\
  forall i, (i < List.length l)%nat -> nth_error l i = Some (v / 256 ^ N.of_nat i mod 256).

Definition is_byte (b : N) : Prop := b < 256.
Definition good_segment (s : segment) : Prop := segment_fits s /\ Forall is_byte (sg_bytes s).

(** The pointer of [size] bytes stored at [a] is [v]. *)
Definition stored (segments : list segment) (a size v : N) : Prop :=
  exists l, loaded segments a size l /\ number_of l v.

(** ** Calls *)

(** Where a memory operand relative to the next instruction points, and its size. *)
Inductive relative (i : insn) : operand -> Z -> N -> N -> Prop :=
| rel_64 d a : Z.of_N a = ((Z.of_N (in_address i) + Z.of_nat (List.length (in_bytes i)) + d) mod 2 ^ 64)%Z ->
    relative i (PMem XRip d) d a 8
| rel_32 d a : Z.of_N a = ((Z.of_N (in_address i) + Z.of_nat (List.length (in_bytes i)) + d) mod 2 ^ 64)%Z ->
    relative i (PMem XEip d) d a 4.

(** The address that a call with this operand goes to. *)
Inductive target (segments : list segment) (i : insn) : operand -> N -> Prop :=
| tg_immediate z t : Z.of_N t = (z mod 2 ^ 64)%Z -> target segments i (PImm z) t
| tg_pointer op d a size t :
    relative i op d a size -> stored segments a size t -> target segments i op t.

(** The call made by an instruction: to the target of its first operand that has one. *)
Inductive makes (segments : list segment) (i : insn) : call -> Prop :=
| mk_call before op after t :
    in_call i = true -> in_operands i = before ++ op :: after ->
    (forall o, In o before -> forall u, ~ target segments i o u) ->
    target segments i op t -> makes segments i (mkCall (in_address i) t).

(** The calls made by some instructions, in order. *)
Inductive all_calls (segments : list segment) : list insn -> list call -> Prop :=
| ac_nil : all_calls segments [] []
| ac_call i c l cs : makes segments i c -> all_calls segments l cs ->
    all_calls segments (i :: l) (c :: cs)
| ac_none i l cs : (forall c, ~ makes segments i c) -> all_calls segments l cs ->
    all_calls segments (i :: l) cs.

(** Pointers that are read do not extend past the end of the address space. *)
Definition reads_fit (i : insn) : Prop :=
  forall op d a size, In op (in_operands i) -> relative i op d a size -> a + size < 2 ^ 64.

(** The calls made by the code of some ranges.  Of a range that is not loaded, or that
    cannot be disassembled, none are known. *)
Inductive code_of (disasm : list N -> N -> option (list insn)) (segments : list segment) (r : range)
  : list insn -> Prop :=
| co_code l insns : loaded segments (rbegin r) (rend r - rbegin r) l ->
    disasm l (rbegin r) = Some insns -> code_of disasm segments r insns
| co_bad l : loaded segments (rbegin r) (rend r - rbegin r) l ->
    disasm l (rbegin r) = None -> code_of disasm segments r []
| co_absent : (forall s, In s segments -> ~ segment_holds s r) -> code_of disasm segments r [].

Inductive range_calls (disasm : list N -> N -> option (list insn)) (segments : list segment)
  : list range -> list call -> Prop :=
| rc_nil : range_calls disasm segments [] []
| rc_cons r l insns a b : code_of disasm segments r insns -> all_calls segments insns a ->
    range_calls disasm segments l b -> range_calls disasm segments (r :: l) (a ++ b).

(** ** PLT entries *)

(** Section [s] is a PLT that is loaded and disassembled to [insns]. *)
Definition plt_code (disasm : list N -> N -> option (list insn)) (segments : list segment)
    (s : named_section) (insns : list insn) : Prop :=
  exists name a l, sec_name s = Some name /\ String.prefix ".plt" name = true /\
    sec_address s = Some a /\ loaded segments a (sec_size s) l /\ disasm l a = Some insns.

(** The PLT entry at [a] jumps through a relocated pointer to [symbol]: the entries are 16
    bytes long. *)
Definition plt_entry (disasm : list N -> N -> option (list insn)) (segments : list segment)
    (relocations : list (N * string)) (sections : list named_section) (a : N) (symbol : string)
  : Prop :=
  exists s insns i op d t size, In s sections /\ plt_code disasm segments s insns /\
    In i insns /\ a mod 16 = 0 /\ a <= in_address i < a + 16 /\
    In op (in_operands i) /\ relative i op d t size /\ In (t, symbol) relocations.

(** ** Notes *)

(** The register that an operand reads or writes, or uses as base. *)
Inductive uses : operand -> N -> Prop :=
| us_reg r n : numbered amd64 r n -> uses (PReg r) n
| us_base r d n : numbered amd64 r n -> uses (PMem r d) n.

(** Part of [x] is at [p] when the code at address [a] runs. *)
Definition located (x : local) (a : N) (p : location) : Prop :=
  exists r pc, In (r, pc) (lo_locations x) /\ pc_is_value pc = false /\ pc_location pc = p /\
    rbegin r <= a < rend r.

(** An immediate operand that is not shown as a jump inside the range. *)
Definition plain (r : range) (i : insn) (op : operand) (imm : N) : Prop :=
  exists z, op = PImm z /\ Z.of_N imm = (z mod 2 ^ 64)%Z /\ imm <> 0 /\
    ~ (in_jump i = true /\ rbegin r <= imm < rend r).

(** What is noted for operand [op], whose registers are looked at at address [a]. *)
Inductive noted (n : names) (r : range) (i : insn) (a : N) (op : operand) : note -> Prop :=
| no_function imm f : plain r i op imm -> nm_function n imm = Some f ->
    noted n r i a op (NFunction imm f)
| no_plt imm s : plain r i op imm -> nm_function n imm = None -> nm_plt n imm = Some s ->
    noted n r i a op (NPlt imm s)
| no_relocation imm s : plain r i op imm -> nm_function n imm = None -> nm_plt n imm = None ->
    nm_relocation n imm = Some s -> noted n r i a op (NRelocation imm s)
| no_register reg x : uses op reg -> In x (nm_parameters n) \/ In x (nm_variables n) ->
    located x a (LRegister reg) -> noted n r i a op (NRegister reg x)
| no_register_offset base disp reg offset x : op = PMem base disp -> numbered amd64 base reg ->
    In x (nm_parameters n) \/ In x (nm_variables n) -> located x a (LRegisterOffset reg offset) ->
    (offset <= disp < offset + Z.of_N (unwrap_or_0 (lo_size x)))%Z ->
    noted n r i a op (NRegisterOffset reg offset x)
| no_ip_function d t size f : relative i op d t size -> nm_function n t = Some f ->
    noted n r i a op (NIpFunction d f)
| no_ip_variable d t size v : relative i op d t size -> nm_function n t = None ->
    nm_variable n t = Some v -> noted n r i a op (NIpVariable d v)
| no_ip_relocation d t size s : relative i op d t size -> nm_function n t = None ->
    nm_variable n t = None -> nm_relocation n t = Some s -> noted n r i a op (NIpRelocation d s)
| no_ip_value d t size v : relative i op d t size -> nm_function n t = None ->
    nm_variable n t = None -> nm_relocation n t = None -> stored (nm_regions n) t size v ->
    noted n r i a op (NIpValue d v (nm_function n v)).

(** The sizes and offsets of the locals are signed 64-bit numbers that do not overflow. *)
Definition local_fits (x : local) : Prop :=
  unwrap_or_0 (lo_size x) < 2 ^ 63 /\
  forall a r offset, located x a (LRegisterOffset r offset) ->
    (- 2 ^ 63 <= offset /\ offset + Z.of_N (unwrap_or_0 (lo_size x)) < 2 ^ 63)%Z.

(** ** Listings *)

Definition insns_of (l : list entry) : list insn :=
  flat_map (fun e => match e with EInsn i => [i] | ECfi _ => [] end) l.
Definition cfis_of (l : list entry) : list cfi :=
  flat_map (fun e => match e with ECfi c => [c] | EInsn _ => [] end) l.

(** The elements of a list are in ascending order of the addresses that they have. *)
Definition ascending {A} (address : A -> option N) (l : list A) : Prop :=
  forall p x q y s, l = p ++ x :: q ++ y :: s -> forall a b,
    address x = Some a -> address y = Some b -> a <= b.

(** A signed number in hexadecimal. *)
Definition signed_hex (z : Z) : text :=
  ((if (z <? 0)%Z then txt "-" else []) ++ txt "0x" ++ hex (Z.to_N (Z.abs z)))%list.

(** The operands of a directive, as the assembler takes them; registers by name, if any. *)
Definition register_operand (name : N -> option string) (r : N) : text :=
  match name r with Some s => txt s | None => dec r end.
Inductive directive_is (name : N -> option string) : directive -> string -> list text -> Prop :=
| di_def_cfa r o : directive_is name (DefCfa r o) "def_cfa" [register_operand name r; signed_hex o]
| di_def_cfa_register r : directive_is name (DefCfaRegister r) "def_cfa_register" [register_operand name r]
| di_def_cfa_offset o : directive_is name (DefCfaOffset o) "def_cfa_offset" [signed_hex o]
| di_offset r o : directive_is name (Offset r o) "offset" [register_operand name r; signed_hex o]
| di_val_offset r o : directive_is name (ValOffset r o) "val_offset" [register_operand name r; signed_hex o]
| di_register a b : directive_is name (Register a b) "register" [register_operand name a; register_operand name b]
| di_restore r : directive_is name (Restore r) "restore" [register_operand name r]
| di_undefined r : directive_is name (Undefined r) "undefined" [register_operand name r]
| di_same_value r : directive_is name (SameValue r) "same_value" [register_operand name r]
| di_start : directive_is name StartProc "startproc" []
| di_end : directive_is name EndProc "endproc" []
| di_signal : directive_is name SignalFrame "signalframe" []
| di_remember : directive_is name RememberState "remember_state" []
| di_restore_state : directive_is name RestoreState "restore_state" [].

Fixpoint comma_separated (l : list text) : text :=
  match l with [] => [] | [s] => s | s :: l' => (s ++ txt ", " ++ comma_separated l')%list end.
Definition directive_line (mnemonic : string) (operands : list text) : text :=
  (txt ".cfi_" ++ txt mnemonic ++ match operands with [] => [] | l => txt " " ++ comma_separated l end)%list.

(** The offset of a directive is a signed 64-bit number other than the least, whose negation
    overflows; the offset of the canonical frame address alone is not negative. *)
Definition offset_fits (d : directive) : Prop :=
  match d with
  | DefCfa _ o | Offset _ o | ValOffset _ o => (- 2 ^ 63 < o < 2 ^ 63)%Z
  | DefCfaOffset o => (0 <= o < 2 ^ 63)%Z
  | _ => True
  end.
