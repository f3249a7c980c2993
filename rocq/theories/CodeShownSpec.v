(** Specification of the calls and instructions that are listed for a function. *)
From Coq Require Import List Arith NArith ZArith Bool String.
From Verif Require Import Base RangeModel TypeModel NamespaceModel FileModel CfiModel LocationModel PrintModel PrintSpec NameModel ItemModel ItemSpec
  CodeModel CodeSpec EntryModel EntrySpec.
Import ListNotations.
Local Open Scope N_scope.

(** A parameter or variable of a function: how it is declared, its size and where it is. *)
Inductive local_in (sc : scene) (f : func) : text -> option N -> list (range * piece) -> Prop :=
| lin_parameter p : In p (de_parameters (sc_details sc f)) ->
    local_in sc f (match fo_name p with Some n => txt n ++ txt ": " | None => [] end ++ written_type (sc_view sc) (fo_ty p))
      (vw_sizes (sc_view sc) (fo_ty p)) (fo_locations p)
| lin_variable v : In v (de_variables (sc_details sc f)) ->
    local_in sc f (match sl_name v with Some n => txt n | None => txt "<anon>" end ++ txt ": " ++ written_type (sc_view sc) (sl_ty v))
      (slot_bytes sc v) (sl_locations v).
(** Part of it is at [p] when the code at an address runs. *)
Definition sits (places : list (range * piece)) (address : N) (p : location) : Prop :=
  exists r pc, In (r, pc) places /\ pc_is_value pc = false /\ pc_location pc = p /\ rbegin r <= address < rend r.
Definition bytes_in (size : option N) : Z := match size with Some n => Z.of_N n | None => 0 end.
Definition spaced_offset (z : Z) : text :=
  if (z =? 0)%Z then [] else (if (z <? 0)%Z then txt " - " else txt " + ") ++ txt "0x" ++ hex (Z.abs_N z).
Definition as_64 (z : Z) : N := Z.to_N (z mod 2 ^ 64).

(** What is said about an operand of an instruction. *)
Inductive remark (sc : scene) (p : program) (f : func) (r : range) (i : insn) (address : N) (op : operand) : text -> Prop :=
| rm_function n g : plain r i op n -> sc_function_at sc n = Some g -> remark sc p f r i address op (txt "0x" ++ hex n ++ txt " = " ++ function_name g)
| rm_plt n s : plain r i op n -> sc_function_at sc n = None -> pg_plt p n = Some s ->
    remark sc p f r i address op (txt "0x" ++ hex n ++ txt " = " ++ txt s ++ txt "@plt")
| rm_relocation n s : plain r i op n -> sc_function_at sc n = None -> pg_plt p n = None -> pg_relocation p n = Some s ->
    remark sc p f r i address op (txt "[0x" ++ hex n ++ txt "] = " ++ txt s)
| rm_register reg t size places : uses op reg -> local_in sc f t size places -> sits places address (LRegister reg) ->
    remark sc p f r i address op (register_shown sc reg ++ txt " = " ++ t)
| rm_memory base disp reg z t size places : op = PMem base disp -> numbered amd64 base reg -> local_in sc f t size places ->
    sits places address (LRegisterOffset reg z) -> (z <= disp < z + bytes_in size)%Z ->
    remark sc p f r i address op (txt "[" ++ register_shown sc reg ++ spaced_offset z ++ txt "] = " ++ t)
| rm_code d t size g : relative i op d t size -> sc_function_at sc t = Some g ->
    remark sc p f r i address op (txt "ip + 0x" ++ hex (as_64 d) ++ txt " = " ++ function_name g)
| rm_data d t size v : relative i op d t size -> sc_function_at sc t = None -> sc_variable_at sc t = Some v ->
    remark sc p f r i address op (txt "ip + 0x" ++ hex (as_64 d) ++ txt " = " ++ path_and_name (va_namespace v) (va_name v))
| rm_relocated d t size s : relative i op d t size -> sc_function_at sc t = None -> sc_variable_at sc t = None -> pg_relocation p t = Some s ->
    remark sc p f r i address op (txt "[ip + 0x" ++ hex (as_64 d) ++ txt "] = " ++ txt s)
| rm_value d t size v : relative i op d t size -> sc_function_at sc t = None -> sc_variable_at sc t = None -> pg_relocation p t = None ->
    stored (pg_regions p) t size v ->
    remark sc p f r i address op (txt "[ip + 0x" ++ hex (as_64 d) ++ txt "] = 0x" ++ hex v ++
      match sc_function_at sc v with Some g => txt " = " ++ function_name g | None => [] end).
(** Everything that can be said, operand by operand.  For the first one, things are where they are after the instruction. *)
Inductive remarks (sc : scene) (p : program) (f : func) (k : nat) (r : range) (i : insn) : bool -> list operand -> list line -> Prop :=
| rms_none (first : bool) : remarks sc p f k r i first [] []
| rms_operand (first : bool) op ops ts ls :
    (forall t, In t ts <-> remark sc p f r i (if first then (in_address i + N.of_nat (List.length (in_bytes i))) mod 2 ^ 64 else in_address i) op t) ->
    remarks sc p f k r i false ops ls ->
    remarks sc p f k r i first (op :: ops) (map (fun t => Line k (instruction_text None [] t)) ts ++ ls).

(** The text of an operand: jumps within the range are relative to its start. *)
Inductive operand_shown (r : range) (i : insn) (s : text) : option operand -> text -> Prop :=
| os_jump z a : Z.of_N a = (z mod 2 ^ 64)%Z -> in_jump i = true -> rbegin r <= a < rend r ->
    operand_shown r i s (Some (PImm z)) (txt "+" ++ hex (a - rbegin r))
| os_other op : ~ (exists z a, op = Some (PImm z) /\ Z.of_N a = (z mod 2 ^ 64)%Z /\ in_jump i = true /\ rbegin r <= a < rend r) -> operand_shown r i s op s.
(** How far an address is from the start of the range. *)
Definition into (r : range) (a : N) : N := (a + 2 ^ 64 - rbegin r) mod 2 ^ 64.
Inductive insn_shown (k : nat) (r : range) (i : insn) : line -> Prop :=
| ish_known m ts : in_mnemonic i = Some m -> List.length ts = List.length (in_ops i) ->
    (forall j s t, nth_error (in_ops i) j = Some s -> nth_error ts j = Some t -> operand_shown r i s (nth_error (in_operands i) j) t) ->
    insn_shown k r i (Line k (instruction_text (Some (into r (in_address i))) m (match ts with [] => [] | _ => txt " " ++ comma_separated ts end)))
| ish_unknown : in_mnemonic i = None ->
    insn_shown k r i (Line k (instruction_text (Some (into r (in_address i))) (txt ".byte")
      (flat_map (fun b => match hex b with [] | [_] => txt "0" ++ hex b | _ => hex b end ++ txt " ") (in_bytes i)))).
Inductive directive_shown (name : N -> option string) : directive -> text -> Prop :=
| dsh_assembler d m l : directive_is name d m l -> directive_shown name d (directive_line m l)
| dsh_personality a : directive_shown name (Personality a) (txt ".cfi_personality 0x" ++ hex (if a =? u64_max then 0 else a))
| dsh_lsda a : directive_shown name (Lsda a) (txt ".cfi_lsda 0x" ++ hex (if a =? u64_max then 0 else a))
| dsh_other : directive_shown name Other (txt "<other cfi instruction>").
Inductive entry_shown (sc : scene) (p : program) (f : func) (k : nat) (r : range) : CodeModel.entry -> list line -> Prop :=
| esh_insn i l ls : insn_shown k r i l -> remarks sc p f k r i true (in_operands i) ls -> entry_shown sc p f k r (EInsn i) (l :: ls)
| esh_directive c t : directive_shown (sc_register sc) (snd c) t ->
    entry_shown sc p f k r (ECfi c) [Line k (instruction_text (Some (if fst c =? u64_max then 0 else into r (fst c))) [] t)].
(** Instructions and directives, each kind in its order; a directive is where it takes effect. *)
Definition together (insns : list insn) (cfis : list cfi) (es : list CodeModel.entry) : Prop :=
  insns_of es = insns /\ cfis_of es = cfis /\
  (ascending (fun i => Some (in_address i)) insns -> ascending (fun c : cfi => opt64_get (fst c)) cfis ->
   forall a x b y c, es = a ++ x :: b ++ y :: c ->
     match x, y with
     | EInsn i, ECfi d => fst d <> u64_max -> in_address i < fst d
     | ECfi d, EInsn i => fst d <> u64_max -> fst d <= in_address i
     | _, _ => True
     end).
(** The ranges, up to the first one whose code is not known. *)
Inductive listing_shown (sc : scene) (p : program) (f : func) (k : nat) : list range -> list line -> Prop :=
| lsh_none : listing_shown sc p f k [] []
| lsh_range r l bytes insns es ls ls' : CodeSpec.loaded (pg_regions p) (rbegin r) (rend r - rbegin r) bytes -> pg_disasm p bytes (rbegin r) = Some insns ->
    together insns (pg_cfis p r) es -> each (entry_shown sc p f k r) es ls -> listing_shown sc p f k l ls' ->
    listing_shown sc p f k (r :: l) ((Line k (instruction_text None [] (txt ".org 0x" ++ hex (rbegin r))) :: ls) ++ ls')
| lsh_unknown r l : (forall bytes, CodeSpec.loaded (pg_regions p) (rbegin r) (rend r - rbegin r) bytes -> pg_disasm p bytes (rbegin r) = None) ->
    listing_shown sc p f k (r :: l) [Line k (instruction_text None [] (txt ".org 0x" ++ hex (rbegin r)))].

(** The numbers are those of 64-bit code. *)
Definition local_sizes_fit (sc : scene) (f : func) : Prop :=
  forall t size places, local_in sc f t size places -> (bytes_in size < 2 ^ 63)%Z /\
    forall a reg z, sits places a (LRegisterOffset reg z) -> (- 2 ^ 63 < z /\ z + bytes_in size < 2 ^ 63)%Z.
Definition program_fits (p : program) (f : func) : Prop :=
  Forall good_segment (pg_regions p) /\ Forall (fun r => rbegin r <= rend r /\ rend r < 2 ^ 64) (fn_ranges f) /\
  (forall l a insns, pg_disasm p l a = Some insns -> Forall reads_fit insns) /\ forall r c, In c (pg_cfis p r) -> offset_fits (snd c).

(** The lines of a function end with the calls and the instructions that are asked for. *)
Definition code_listed (o : OptionsModel.options) (sc : scene) (p : program) (f : func) (ls : list line) : Prop :=
  exists front cs code, ls = front ++ under 1 "calls" cs ++ under 1 "instructions" code ++ [Blank] /\
    optional (OptionsModel.p_function_calls (OptionsModel.o_print o))
      (fun cs => exists l, range_calls (pg_disasm p) (pg_regions p) (fn_ranges f) l /\ cs = flat_map (fun c => text_line 2 (call_shown o sc c)) l) cs /\
    optional (OptionsModel.p_function_instructions (OptionsModel.o_print o)) (listing_shown sc p f 2 (fn_ranges f)) code.
