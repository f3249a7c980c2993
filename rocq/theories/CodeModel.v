(** Model of /repo/main/src/code.rs: reading memory, the calls made by code, the targets of
    PLT entries, and what is printed for an instruction.

    Disassembling is done by the crate capstone.  The model starts from its result:
    [disasm bytes address] is what [disasm_all] gives ([None] if it fails), with the details
    of each instruction.  Only x86 is modelled, because [Code::new] (code.rs:34-38) gives
    nothing for other machines.  Additions wrap as in release mode. *)
From Coq Require Import List NArith ZArith Bool String.
From Verif Require Import Base RangeModel TypeModel NamespaceModel FileModel CfiModel LocationModel
  PrintModel NameModel.
Import ListNotations.
Local Open Scope N_scope.

(** ** Instructions *)

(** Capstone's x86 registers.  A general register is its number and the part of it that is
    meant: [GR n] stands for [r8] to [r15].  [XOther] is every register that code.rs does not
    name. *)
Inductive general := GA | GD | GC | GB | GSI | GDI | GBP | GSP | GR (n : N).
Inductive width := W64 | W32 | W16 | W8High | W8Low.
Inductive x86_reg :=
| XGeneral (g : general) (w : width)
| XXmm (n : N)
| XYmm (n : N)
| XRip
| XEip
| XInvalid
| XOther.

(** Capstone's [X86OperandType]; of a memory operand the parts that are read. *)
Inductive operand :=
| PReg (r : x86_reg)
| PImm (i : Z)
| PMem (base : x86_reg) (disp : Z)
| POther.

(** Capstone's [Insn] and [InsnDetail].  [in_ops] is the operand text split at [", "]
    ([[]] if there is none). *)
Record insn := mkInsn {
  in_address : N; in_bytes : list N; in_mnemonic : option text; in_ops : list text;
  in_call : bool; in_jump : bool; in_operands : list operand }.

Definition in_end (i : insn) : N := add64 (in_address i) (N.of_nat (List.length (in_bytes i))).

(** code.rs:500-549, [convert_reg]. *)
Definition convert_reg (r : x86_reg) : option N :=
  match r with
  | XGeneral GA _ => Some 0
  | XGeneral GD _ => Some 1
  | XGeneral GC _ => Some 2
  | XGeneral GB _ => Some 3
  | XGeneral GSI _ => Some 4
  | XGeneral GDI _ => Some 5
  | XGeneral GBP _ => Some 6
  | XGeneral GSP _ => Some 7
  | XGeneral (GR n) _ => if (8 <=? n) && (n <=? 15) then Some n else None
  | XXmm n | XYmm n => if n <=? 15 then Some (17 + n) else None
  | XRip | XEip | XInvalid | XOther => None
  end.

(** code.rs:448-455, [is_imm]. *)
Definition is_imm (op : operand) : option N :=
  match op with PImm i => Some (as_u64 i) | _ => None end.

(** code.rs:457-468, [is_reg]. *)
Definition is_reg (op : operand) : option N :=
  match op with PReg r => convert_reg r | PMem base _ => convert_reg base | _ => None end.

(** code.rs:470-478, [is_reg_offset]. *)
Definition is_reg_offset (op : operand) : option (N * Z) :=
  match op with
  | PMem base disp => match convert_reg base with Some r => Some (r, disp) | None => None end
  | _ => None
  end.

(** code.rs:480-498, [is_ip_offset]: offset, address and size. *)
Definition is_ip_offset (i : insn) (op : operand) : option (Z * N * N) :=
  let at_ disp size := Some (disp, add64 (in_end i) (as_u64 disp), size) in
  match op with
  | PMem XRip disp => at_ disp 8
  | PMem XEip disp => at_ disp 4
  | _ => None
  end.

(** ** Memory *)

(** code.rs:83-94, [Code::range]; the regions are the segments of the file (43-48). *)
Fixpoint code_range (regions : list segment) (r : range) : bytes_result :=
  match regions with
  | [] => BNone
  | s :: l =>
      if (sg_address s <=? rbegin r)
         && (rend r <=? add64 (sg_address s) (N.of_nat (List.length (sg_bytes s))))
      then slice_bytes (sg_bytes s) (sub64 (rbegin r) (sg_address s)) (sub64 (rend r) (rbegin r))
      else code_range l r
  end.

(** [from_le_bytes]. *)
Fixpoint le_value (l : list N) : N :=
  match l with [] => 0 | b :: l' => b + 256 * le_value l' end.

(** A result, or a panic. *)
Inductive outcome A := Done (x : A) | Panic.
Arguments Done {A} x.
Arguments Panic {A}.

(** code.rs:96-106, [Code::read_mem]. *)
Definition read_mem (regions : list segment) (address size : N) : outcome (option N) :=
  match code_range regions (mkRange address (add64 address size)) with
  | BNone => Done None
  | BPanic => Panic
  | BBytes l =>
      if size =? 4 then if (List.length l =? 4)%nat then Done (Some (le_value l)) else Panic
      else if size =? 8 then if (List.length l =? 8)%nat then Done (Some (le_value l)) else Panic
      else Done None
  end.

(** ** Calls *)

(** code.rs:26-30, [Call]. *)
Record call := mkCall { ca_from : N; ca_to : N }.

(** code.rs:162-178: the loop over the operands. *)
Fixpoint call_operands (regions : list segment) (i : insn) (ops : list operand)
  : outcome (option call) :=
  match ops with
  | [] => Done None
  | op :: ops' =>
      match is_imm op with
      | Some imm => Done (Some (mkCall (in_address i) imm))
      | None =>
          match is_ip_offset i op with
          | Some (_, address, size) =>
              match read_mem regions address size with
              | Panic => Panic
              | Done (Some value) => Done (Some (mkCall (in_address i) value))
              | Done None => call_operands regions i ops'
              end
          | None => call_operands regions i ops'
          end
      end
  end.

(** code.rs:149-179, [call] and [call_x86]. *)
Definition call_of (regions : list segment) (i : insn) : outcome (option call) :=
  if in_call i then call_operands regions i (in_operands i) else Done None.

Fixpoint calls_of (regions : list segment) (l : list insn) : outcome (list call) :=
  match l with
  | [] => Done []
  | i :: l' =>
      match call_of regions i, calls_of regions l' with
      | Done (Some c), Done cs => Done (c :: cs)
      | Done None, Done cs => Done cs
      | _, _ => Panic
      end
  end.

Section Disassembler.
  Variable disasm : list N -> N -> option (list insn).

  (** code.rs:75-77 and 141-147, [Code::calls]. *)
  Definition code_calls (regions : list segment) (r : range) : outcome (list call) :=
    match code_range regions r with
    | BNone => Done []
    | BPanic => Panic
    | BBytes l =>
        match disasm l (rbegin r) with
        | None => Done []
        | Some insns => calls_of regions insns
        end
    end.

  (** main/src/print/function.rs:415-423, [calls]. *)
  Fixpoint function_calls (regions : list segment) (ranges : list range) : outcome (list call) :=
    match ranges with
    | [] => Done []
    | r :: l =>
        match code_calls regions r, function_calls regions l with
        | Done a, Done b => Done (a ++ b)
        | _, _ => Panic
        end
    end.

  (** ** Procedure linkage tables *)

  (** The parts of [Section] that are read (parser/src/file/mod.rs:704-731). *)
  Record named_section := mkNamed { sec_name : option string; sec_address : option N; sec_size : N }.

  (** code.rs:51-54: the map of relocations. *)
  Definition relocation_map (l : list (N * string)) : N -> option string :=
    fold_left (fun m x => map_insert m (fst x) (snd x)) l empty_map.

  (** code.rs:127-134: the loop over the operands of an instruction of a PLT. *)
  Definition plt_insn (relocations : N -> option string) (m : N -> option string) (i : insn)
    : N -> option string :=
    fold_left (fun m op =>
      match is_ip_offset i op with
      | Some (_, target, _) =>
          match relocations target with
          | Some symbol => map_insert m (N.ldiff (in_address i) 15) symbol
          | None => m
          end
      | None => m
      end) (in_operands i) m.

  (** code.rs:109-139, [find_plts]. *)
  Fixpoint find_plts (relocations : N -> option string) (segments : list segment)
      (sections : list named_section) (m : N -> option string) : outcome (N -> option string) :=
    match sections with
    | [] => Done m
    | s :: l =>
        match sec_name s, sec_address s with
        | Some name, Some a =>
            if String.prefix ".plt"%string name then
              match segment_bytes segments (mkRange a (add64 a (sec_size s))) with
              | BNone => find_plts relocations segments l m
              | BPanic => Panic
              | BBytes bytes =>
                  match disasm bytes a with
                  | None => Done m
                  | Some insns =>
                      find_plts relocations segments l (fold_left (plt_insn relocations) insns m)
                  end
              end
            else find_plts relocations segments l m
        | _, _ => find_plts relocations segments l m
        end
    end.
End Disassembler.

(** ** Printing an instruction *)

(** A parameter or local variable of the function: what is read of it. *)
Record local := mkLocal { lo_size : option N; lo_locations : list (range * piece); lo_decl : value }.

(** What the names in the notes are looked up in: [FileHash::functions_by_address] and
    [variables_by_address], and the maps of [Code]. *)
Record names := mkNames {
  nm_function : N -> option func; nm_variable : N -> option var;
  nm_relocation : N -> option string; nm_plt : N -> option string;
  nm_regions : list segment;
  nm_parameters : list local; nm_variables : list local }.

(** The lines printed below an instruction (code.rs:287-428). *)
Inductive note :=
| NFunction (imm : N) (f : func)
| NPlt (imm : N) (symbol : string)
| NRelocation (imm : N) (symbol : string)
| NRegister (register : N) (x : local)
| NRegisterOffset (register : N) (offset : Z) (x : local)
| NIpFunction (offset : Z) (f : func)
| NIpVariable (offset : Z) (v : var)
| NIpRelocation (offset : Z) (symbol : string)
| NIpValue (offset : Z) (value : N) (f : option func).

(** code.rs:262-274: one operand of the instruction line. *)
Definition operand_text (r : range) (i : insn) (op : option operand) (s : text) : text :=
  match op with
  | Some op =>
      match is_imm op with
      | Some imm =>
          if in_jump i && range_contains r imm
          then (txt "+" ++ hex (sub64 imm (rbegin r)))%list else s
      | None => s
      end
  | None => s
  end.

(** code.rs:252-277. *)
Fixpoint operand_texts (r : range) (i : insn) (ops : list operand) (l : list text) : list text :=
  match l with
  | [] => []
  | s :: l' => operand_text r i (hd_error ops) s :: operand_texts r i (tl ops) l'
  end.

(** code.rs:297-324. *)
Definition imm_notes (n : names) (r : range) (i : insn) (op : operand) : list note :=
  match is_imm op with
  | Some imm =>
      if in_jump i && range_contains r imm then []
      else if imm =? 0 then []
      else match nm_function n imm with
           | Some f => [NFunction imm f]
           | None =>
               match nm_plt n imm with
               | Some symbol => [NPlt imm symbol]
               | None =>
                   match nm_relocation n imm with
                   | Some symbol => [NRelocation imm symbol]
                   | None => []
                   end
               end
           end
  | None => []
  end.

(** code.rs:325-348. *)
Definition reg_notes (n : names) (address : N) (op : operand) : list note :=
  match is_reg op with
  | Some reg =>
      flat_map (fun x =>
        flat_map (fun y =>
          if (reg =? snd y) && range_contains (fst y) address then [NRegister (snd y) x] else [])
          (registers (lo_locations x)))
        (nm_parameters n ++ nm_variables n)
  | None => []
  end.

(** [x as i64] of a size. *)
Definition size_i64 (x : option N) : Z := as_i64 (Z.of_N (unwrap_or_0 x)).

(** code.rs:349-396. *)
Definition reg_offset_notes (n : names) (address : N) (op : operand) : list note :=
  match is_reg_offset op with
  | Some (reg, ofs) =>
      flat_map (fun x =>
        flat_map (fun y =>
          let '(rg, register, offset) := y in
          if (reg =? register) && (offset <=? ofs)%Z &&
             (ofs <? as_i64 (offset + size_i64 (lo_size x)))%Z && range_contains rg address
          then [NRegisterOffset register offset x] else [])
          (register_offsets (lo_locations x)))
        (nm_parameters n ++ nm_variables n)
  | None => []
  end.

(** code.rs:397-426. *)
Definition ip_notes (n : names) (i : insn) (op : operand) : outcome (list note) :=
  match is_ip_offset i op with
  | Some (offset, address, size) =>
      match nm_function n address with
      | Some f => Done [NIpFunction offset f]
      | None =>
          match nm_variable n address with
          | Some v => Done [NIpVariable offset v]
          | None =>
              match nm_relocation n address with
              | Some symbol => Done [NIpRelocation offset symbol]
              | None =>
                  match read_mem (nm_regions n) address size with
                  | Panic => Panic
                  | Done None => Done []
                  | Done (Some value) => Done [NIpValue offset value (nm_function n value)]
                  end
              end
          end
      end
  | None => Done []
  end.

(** code.rs:287-428: the loop over the operands; [first] is the local variable. *)
Fixpoint operand_notes (n : names) (r : range) (i : insn) (first : bool) (ops : list operand)
  : outcome (list note) :=
  match ops with
  | [] => Done []
  | op :: ops' =>
      let address := if first then in_end i else in_address i in
      match ip_notes n i op, operand_notes n r i false ops' with
      | Done ip, Done rest =>
          Done (imm_notes n r i op ++ reg_notes n address op ++ reg_offset_notes n address op ++ ip
                ++ rest)%list
      | _, _ => Panic
      end
  end.
Definition notes (n : names) (r : range) (i : insn) : outcome (list note) :=
  operand_notes n r i true (in_operands i).

(** ** The listing of a function *)

(** [{:x}] of a signed number: its two's complement. *)
Definition hex_i64 (z : Z) : text := hex (as_u64 z).

(** code.rs:366-372 and 386-392, and print/function.rs:497-506, [write_ofs]: a signed offset
    after a sign. *)
Definition signed_offset (z : Z) : text :=
  if (z <? 0)%Z then (txt " - 0x" ++ hex_i64 (- z))%list
  else if (0 <? z)%Z then (txt " + 0x" ++ hex_i64 z)%list else [].
Definition write_ofs (z : Z) : text :=
  if (z <? 0)%Z then (txt "-0x" ++ hex_i64 (- z))%list else (txt "0x" ++ hex_i64 z)%list.

Section Listing.
  (** [Function::id], [Variable::id] and [Register::name]. *)
  Variable function_id : func -> nat.
  Variable variable_id : var -> nat.
  Variable register_name : N -> option string.

  Definition function_ref (f : func) : value := ref_value (function_id f) (fn_namespace f) (fn_name f).
  Definition variable_ref (v : var) : value := ref_value (variable_id v) (va_namespace v) (va_name v).

  (** The text of a note; code.rs as for the functions that give the notes. *)
  Definition note_value (n : note) : value :=
    match n with
    | NFunction imm f => VSeq (VText (txt "0x" ++ hex imm ++ txt " = ")%list) (function_ref f)
    | NPlt imm s => VText (txt "0x" ++ hex imm ++ txt " = " ++ txt s ++ txt "@plt")%list
    | NRelocation imm s => VText (txt "[0x" ++ hex imm ++ txt "] = " ++ txt s)%list
    | NRegister r x => VSeq (VText (register_text register_name r ++ txt " = ")%list) (lo_decl x)
    | NRegisterOffset r o x =>
        VSeq (VText (txt "[" ++ register_text register_name r ++ signed_offset o ++ txt "] = ")%list)
          (lo_decl x)
    | NIpFunction o f => VSeq (VText (txt "ip + 0x" ++ hex_i64 o ++ txt " = ")%list) (function_ref f)
    | NIpVariable o v => VSeq (VText (txt "ip + 0x" ++ hex_i64 o ++ txt " = ")%list) (variable_ref v)
    | NIpRelocation o s => VText (txt "[ip + 0x" ++ hex_i64 o ++ txt "] = " ++ txt s)%list
    | NIpValue o v f =>
        VSeq (VText (txt "[ip + 0x" ++ hex_i64 o ++ txt "] = 0x" ++ hex v)%list)
          (match f with Some f => VSeq (VText (txt " = ")) (function_ref f) | None => VNil end)
    end.

  (** [{:02x} ] of a byte. *)
  Definition byte_text (b : N) : text :=
    ((if (List.length (hex b) <? 2)%nat then txt "0" else []) ++ hex b ++ txt " ")%list.

  Fixpoint join (sep : text) (l : list text) : text :=
    match l with [] => [] | [s] => s | s :: l' => (s ++ sep ++ join sep l')%list end.

  Definition instruction_line (r : range) (i : insn) : pdoc :=
    let address := Some (sub64 (in_address i) (rbegin r)) in
    match in_mnemonic i with
    | Some m =>
        PInstruction address m
          (VText match operand_texts r i (in_operands i) (in_ops i) with
                 | [] => []
                 | l => (txt " " ++ join (txt ", ") l)%list
                 end)
    | None => PInstruction address (txt ".byte") (VText (flat_map byte_text (in_bytes i)))
    end.

  Definition seq_docs (l : list pdoc) : pdoc := fold_right PSeq PNil l.

  (** code.rs:235-431, [Instruction::print]. *)
  Definition instruction_doc (n : names) (r : range) (i : insn) : outcome pdoc :=
    match notes n r i with
    | Panic => Panic
    | Done l =>
        Done (PSeq (instruction_line r i)
                (seq_docs (map (fun x => PInstruction None [] (note_value x)) l)))
    end.

  (** function.rs:485-563, [print_cfi]. *)
  Definition reg_text (r : N) : text :=
    match register_name r with Some s => txt s | None => dec r end.
  Definition directive_text (d : directive) : text :=
    (match d with
     | StartProc => txt ".cfi_startproc"
     | EndProc => txt ".cfi_endproc"
     | Personality a => txt ".cfi_personality 0x" ++ hex (unwrap_or_0 (opt64_get a))
     | Lsda a => txt ".cfi_lsda 0x" ++ hex (unwrap_or_0 (opt64_get a))
     | SignalFrame => txt ".cfi_signalframe"
     | DefCfa r o => txt ".cfi_def_cfa " ++ reg_text r ++ txt ", " ++ write_ofs o
     | DefCfaRegister r => txt ".cfi_def_cfa_register " ++ reg_text r
     | DefCfaOffset o => txt ".cfi_def_cfa_offset 0x" ++ hex_i64 o
     | Offset r o => txt ".cfi_offset " ++ reg_text r ++ txt ", " ++ write_ofs o
     | ValOffset r o => txt ".cfi_val_offset " ++ reg_text r ++ txt ", " ++ write_ofs o
     | Register d s => txt ".cfi_register " ++ reg_text d ++ txt ", " ++ reg_text s
     | Restore r => txt ".cfi_restore " ++ reg_text r
     | Undefined r => txt ".cfi_undefined " ++ reg_text r
     | SameValue r => txt ".cfi_same_value " ++ reg_text r
     | RememberState => txt ".cfi_remember_state"
     | RestoreState => txt ".cfi_restore_state"
     | Other => txt "<other cfi instruction>"
     end)%list.
  Definition cfi_doc (r : range) (c : cfi) : pdoc :=
    let address := match opt64_get (fst c) with Some a => sub64 a (rbegin r) | None => 0 end in
    PInstruction (Some address) [] (VText (directive_text (snd c))).

  (** function.rs:454-480: the order of instructions and directives. *)
  Inductive entry := EInsn (i : insn) | ECfi (c : cfi).
  Fixpoint entries (insns : list insn) : list cfi -> list entry :=
    fix inner (cfis : list cfi) : list entry :=
      match insns, cfis with
      | i :: insns', c :: cfis' =>
          if opt64_is_none (fst c) || (fst c <=? in_address i)
          then ECfi c :: inner cfis'
          else EInsn i :: entries insns' cfis
      | i :: insns', [] => EInsn i :: entries insns' []
      | [], c :: cfis' => ECfi c :: inner cfis'
      | [], [] => []
      end.

  (** function.rs:442-482: the ranges listed, each with its entries; [Disassembler] as above,
      [cfis] is [File::cfi]. *)
  Fixpoint listing (disasm : list N -> N -> option (list insn)) (regions : list segment)
      (cfis : range -> list cfi) (ranges : list range) : outcome (list (range * option (list entry))) :=
    match ranges with
    | [] => Done []
    | r :: l =>
        match code_range regions r with
        | BPanic => Panic
        | BNone => Done [(r, None)]
        | BBytes bytes =>
            match disasm bytes (rbegin r) with
            | None => Done [(r, None)]
            | Some insns =>
                match listing disasm regions cfis l with
                | Panic => Panic
                | Done rest => Done ((r, Some (entries insns (cfis r))) :: rest)
                end
            end
        end
    end.

  (** function.rs:425-483, [print_instructions]. *)
  Definition entry_doc (n : names) (r : range) (e : entry) : outcome pdoc :=
    match e with EInsn i => instruction_doc n r i | ECfi c => Done (cfi_doc r c) end.
  Definition org_doc (r : range) : pdoc :=
    PInstruction None [] (VText (txt ".org 0x" ++ hex (rbegin r))%list).
  Fixpoint all_done {A} (l : list (outcome A)) : outcome (list A) :=
    match l with
    | [] => Done []
    | x :: l' => match x, all_done l' with Done a, Done r => Done (a :: r) | _, _ => Panic end
    end.
  Definition instructions_doc (disasm : list N -> N -> option (list insn))
      (cfis : range -> list cfi) (n : names) (ranges : list range) : outcome pdoc :=
    match listing disasm (nm_regions n) cfis ranges with
    | Panic => Panic
    | Done l =>
        match all_done (map (fun x =>
                match all_done (map (entry_doc n (fst x))
                                  (match snd x with Some es => es | None => [] end)) with
                | Done ds => Done (PSeq (org_doc (fst x)) (seq_docs ds))
                | Panic => Panic
                end) l) with
        | Done ds => Done (seq_docs ds)
        | Panic => Panic
        end
    end.
End Listing.
