(** Specification of call-frame tables: what addresses an entry covers, where in the code an
    instruction takes effect, and what it does to the unwinding state (DWARF 5, 6.4). *)
From Coq Require Import List NArith ZArith Bool Sorted.
From Verif Require Import Base RangeModel TypeModel CfiModel.
Import ListNotations.
Local Open Scope N_scope.

(** ** Lookup *)

Definition covers (f : fde) (a : N) : Prop := fd_address f <= a /\ a < fd_address f + fd_len f.
Definition disjoint_fdes (entries : list (N * fde)) : Prop :=
  forall e1 e2 a, In e1 entries -> In e2 entries -> covers (snd e1) a -> covers (snd e2) a -> e1 = e2.
(** The entry covers some address, and its end can be represented. *)
Definition proper (f : fde) : Prop := 0 < fd_len f /\ fd_address f + fd_len f <= u64_max.

(** ** Location of an instruction *)

Definition is_set (i : instruction) : bool := match i with ISetLoc _ => true | _ => false end.
Definition delta (i : instruction) : N := match i with IAdvanceLoc d => d | _ => 0 end.
Definition advance (l : list instruction) : N := fold_right N.add 0 (map delta l).

(** [before] are the instructions before the one in question. *)
Inductive at_location (start align : N) : list instruction -> N -> Prop :=
| at_start before :
    (forall i, In i before -> is_set i = false) ->
    at_location start align before ((start + advance before * align) mod 2 ^ 64)
| at_set before a after :
    (forall i, In i after -> is_set i = false) ->
    at_location start align (before ++ ISetLoc a :: after) ((a + advance after * align) mod 2 ^ 64).

(** ** Effect of instructions and directives *)

(** Where the previous frame's value of a register is.  Offsets are from the frame
    address, modulo 2^64. *)
Inductive rule := Unspecified | IsUndefined | IsSame | SavedAt (offset : Z) | ValueAt (offset : Z) | InRegister (r : N).
(** The frame address is a register plus an offset. *)
Record unwinding := mkUnwinding { un_cfa : option (N * Z); un_rules : N -> rule }.
Definition residue (z : Z) : Z := (z mod 2 ^ 64)%Z.
Definition set_cfa (r : N) (offset : Z) (u : unwinding) : unwinding :=
  mkUnwinding (Some (r, residue offset)) (un_rules u).
Definition set_rule (r : N) (x : rule) (u : unwinding) : unwinding :=
  mkUnwinding (un_cfa u) (fun r' => if r' =? r then x else un_rules u r').

(** A state has the current rules and a stack of remembered ones.  [initial] are the
    rules after the CIE's instructions.  [None]: not defined. *)
Definition machine := (unwinding * list unwinding)%type.

(** DWARF 5, 6.4.2. *)
Definition run_instruction (data_align : Z) (initial : N -> rule) (i : instruction) (m : machine)
  : option machine :=
  let '(u, stack) := m in
  match i with
  | ISetLoc _ | IAdvanceLoc _ | INop => Some m
  | IDefCfa r o => Some (set_cfa r (Z.of_N o) u, stack)
  | IDefCfaSf r f => Some (set_cfa r (f * data_align) u, stack)
  | IDefCfaRegister r =>
      match un_cfa u with Some (_, o) => Some (set_cfa r o u, stack) | None => None end
  | IDefCfaOffset o =>
      match un_cfa u with Some (r, _) => Some (set_cfa r (Z.of_N o) u, stack) | None => None end
  | IDefCfaOffsetSf f =>
      match un_cfa u with Some (r, _) => Some (set_cfa r (f * data_align) u, stack) | None => None end
  | IOffset r f => Some (set_rule r (SavedAt (residue (Z.of_N f * data_align))) u, stack)
  | IOffsetExtendedSf r f => Some (set_rule r (SavedAt (residue (f * data_align))) u, stack)
  | IValOffset r f => Some (set_rule r (ValueAt (residue (Z.of_N f * data_align))) u, stack)
  | IValOffsetSf r f => Some (set_rule r (ValueAt (residue (f * data_align))) u, stack)
  | IRegister d s => Some (set_rule d (InRegister s) u, stack)
  | IUndefined r => Some (set_rule r IsUndefined u, stack)
  | ISameValue r => Some (set_rule r IsSame u, stack)
  | IRestore r => Some (set_rule r (initial r) u, stack)
  | IRememberState => Some (u, u :: stack)
  | IRestoreState => match stack with u' :: stack' => Some (u', stack') | [] => None end
  | IOther => None
  end.

(** The assembler's manual, "CFI directives". *)
Definition run_directive (initial : N -> rule) (d : directive) (m : machine) : option machine :=
  let '(u, stack) := m in
  match d with
  | StartProc | EndProc | Personality _ | Lsda _ | SignalFrame => Some m
  | DefCfa r o => Some (set_cfa r o u, stack)
  | DefCfaRegister r =>
      match un_cfa u with Some (_, o) => Some (set_cfa r o u, stack) | None => None end
  | DefCfaOffset o =>
      match un_cfa u with Some (r, _) => Some (set_cfa r o u, stack) | None => None end
  | Offset r o => Some (set_rule r (SavedAt (residue o)) u, stack)
  | ValOffset r o => Some (set_rule r (ValueAt (residue o)) u, stack)
  | Register d s => Some (set_rule d (InRegister s) u, stack)
  | Restore r => Some (set_rule r (initial r) u, stack)
  | Undefined r => Some (set_rule r IsUndefined u, stack)
  | SameValue r => Some (set_rule r IsSame u, stack)
  | RememberState => Some (u, u :: stack)
  | RestoreState => match stack with u' :: stack' => Some (u', stack') | [] => None end
  | Other => None
  end.

(** The directive does what the instruction does, whatever the state. *)
Definition means (data_align : Z) (i : instruction) (d : directive) : Prop :=
  forall initial m, run_directive initial d m = run_instruction data_align initial i m.

(** Instructions that only change the location. *)
Definition silent (i : instruction) : bool :=
  match i with ISetLoc _ | IAdvanceLoc _ | INop => true | _ => false end.

(** [rows] has a row for each other instruction of [l], labelled with the location at it. *)
Inductive listed (label : list instruction -> opt64 -> Prop) (data_align : Z)
  : list instruction -> list instruction -> list cfi -> Prop :=
| listed_nil before : listed label data_align before [] []
| listed_silent before i l rows :
    silent i = true -> listed label data_align (before ++ [i]) l rows ->
    listed label data_align before (i :: l) rows
| listed_row before i l a d rows :
    silent i = false -> label before a -> means data_align i d ->
    listed label data_align (before ++ [i]) l rows ->
    listed label data_align before (i :: l) ((a, d) :: rows).

(** Addresses in the section are 64 bits wide. *)
Definition word (i : instruction) : Prop := match i with ISetLoc a => a < 2 ^ 64 | _ => True end.

(** ** Listing with instructions *)

Definition cfi_rows {insn} (l : list (row (insn := insn))) : list cfi :=
  flat_map (fun x => match x with RCfi c => [c] | RInsn _ => [] end) l.
Definition insn_rows {insn} (l : list (row (insn := insn))) : list insn :=
  flat_map (fun x => match x with RCfi _ => [] | RInsn i => [i] end) l.

(** Rows for the whole function first, then by address. *)
Definition row_le (a b : cfi) : Prop :=
  fst a = opt64_none \/ (fst b <> opt64_none /\ fst a <= fst b).
Definition by_address (l : list cfi) : Prop := StronglySorted row_le l.
