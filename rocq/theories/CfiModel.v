(** Model of the call-frame tables of /repo/parser/src/file/dwarf.rs:4318-4602, and of how
    /repo/main/src/print/function.rs:425-485 lists them between the instructions.

    Reading frame sections is done by gimli: the model starts from the entries it returns.
    Arithmetic wraps as in release mode; a violated assertion in [Address::new] (address
    [!0]) is not modelled as a panic, but gives the absent address as in release mode. *)
From Coq Require Import List NArith ZArith Bool.
From Verif Require Import Base RangeModel TypeModel.
Import ListNotations.
Local Open Scope N_scope.

(** [x as i64] for an integer [x], and [i64] arithmetic in release mode. *)
Definition as_i64 (x : Z) : Z := ((x + 2 ^ 63) mod 2 ^ 64 - 2 ^ 63)%Z.

(** gimli's [CallFrameInstruction].  [IOther] stands for those that the code does not
    distinguish (expressions, [ArgsSize], vendor instructions). *)
Inductive instruction :=
| ISetLoc (address : N)
| IAdvanceLoc (delta : N)
| IDefCfa (r offset : N)
| IDefCfaSf (r : N) (factored : Z)
| IDefCfaRegister (r : N)
| IDefCfaOffset (offset : N)
| IDefCfaOffsetSf (factored : Z)
| IOffset (r factored : N)
| IOffsetExtendedSf (r : N) (factored : Z)
| IValOffset (r factored : N)
| IValOffsetSf (r : N) (factored : Z)
| IRegister (dest src : N)
| IUndefined (r : N)
| ISameValue (r : N)
| IRestore (r : N)
| IRememberState
| IRestoreState
| INop
| IOther.

(** parser/src/cfi.rs:11-64, [CfiDirective] ([ReturnColumn] is never created). *)
Inductive directive :=
| StartProc
| EndProc
| Personality (a : opt64)
| Lsda (a : opt64)
| SignalFrame
| DefCfa (r : N) (offset : Z)
| DefCfaRegister (r : N)
| DefCfaOffset (offset : Z)
| Offset (r : N) (offset : Z)
| ValOffset (r : N) (offset : Z)
| Register (dest src : N)
| Restore (r : N)
| Undefined (r : N)
| SameValue (r : N)
| RememberState
| RestoreState
| Other.
(** parser/src/cfi.rs:7, [Cfi]. *)
Definition cfi := (opt64 * directive)%type.

(** What gimli gives for a CIE and an FDE.  The instruction lists end where reading the
    next instruction fails. *)
Record cie := mkCie { ci_code_align : N; ci_data_align : Z; ci_instructions : list instruction }.
Record fde := mkFde {
  fd_address : N; fd_len : N; fd_personality : option N; fd_lsda : option N;
  fd_signal : bool; fd_cie : cie; fd_instructions : list instruction }.

(** [Ord] for [Range] (derived, parser/src/range.rs:4). *)
Definition cmp_range (a b : range) : comparison :=
  then_with (N.compare (rbegin a) (rbegin b)) (N.compare (rend a) (rend b)).

(** dwarf.rs:4390-4392, [FdeOffsetTable]. *)
Definition fde_table := list (range * N).

(** dwarf.rs:4395-4420, [FdeOffsetTable::new]: [entries] are the FDEs that can be parsed,
    with their offsets. *)
Definition fde_range (f : fde) : range := mkRange (fd_address f) (add64 (fd_address f) (fd_len f)).
Definition table_new (entries : list (N * fde)) : fde_table :=
  stable_sort (fun a b => cmp_range (fst a) (fst b)) (map (fun e => (fde_range (snd e), fst e)) entries).

(** [slice::binary_search_by_key] (std) for the key [begin] on a sorted slice.  With
    several matches any of them can be returned; [choice] stands for that freedom. *)
Fixpoint matches (table : fde_table) (address : N) (i : nat) : list nat :=
  match table with
  | [] => []
  | (r, _) :: table' =>
      if rbegin r =? address then i :: matches table' address (S i) else matches table' address (S i)
  end.
Definition insertion_point (table : fde_table) (address : N) : nat :=
  List.length (filter (fun x => rbegin (fst x) <? address) table).
Definition search (choice : N -> nat) (table : fde_table) (address : N) : nat + nat :=
  match matches table address 0 with
  | [] => inr (insertion_point table address)
  | i :: l => inl (nth (choice address mod List.length (i :: l)) (i :: l) i)
  end.

(** dwarf.rs:4422-4441, [FdeOffsetTable::find]. *)
Definition find_fde (choice : N -> nat) (table : fde_table) (address : N) : option N :=
  let index :=
    match search choice table address with
    | inl x => Some x
    | inr x => if (0 <? x)%nat then Some (x - 1)%nat else None
    end in
  match index with
  | Some i =>
      match nth_error table i with
      | Some (r, offset) =>
          if (rbegin r <=? address) && (address <? rend r) then Some offset else None
      | None => None
      end
  | None => None
  end.

(** dwarf.rs:4516-4602, [convert_cfi]: the directive, if any, and the new [*loc]. *)
Definition convert_cfi (c : cie) (i : instruction) (loc : N) : option directive * N :=
  match i with
  | ISetLoc a => (None, a)
  | IAdvanceLoc delta => (None, add64 loc (mul64 delta (ci_code_align c)))
  | IDefCfa r offset => (Some (DefCfa r (as_i64 (Z.of_N offset))), loc)
  | IDefCfaSf r f => (Some (DefCfa r (as_i64 (f * ci_data_align c))), loc)
  | IDefCfaRegister r => (Some (DefCfaRegister r), loc)
  | IDefCfaOffset offset => (Some (DefCfaOffset (as_i64 (Z.of_N offset))), loc)
  | IDefCfaOffsetSf f => (Some (DefCfaOffset (as_i64 (f * ci_data_align c))), loc)
  | IOffset r f => (Some (Offset r (as_i64 (as_i64 (Z.of_N f) * ci_data_align c))), loc)
  | IOffsetExtendedSf r f => (Some (Offset r (as_i64 (f * ci_data_align c))), loc)
  | IValOffset r f => (Some (ValOffset r (as_i64 (as_i64 (Z.of_N f) * ci_data_align c))), loc)
  | IValOffsetSf r f => (Some (ValOffset r (as_i64 (f * ci_data_align c))), loc)
  | IRegister d s => (Some (Register d s), loc)
  | IUndefined r => (Some (Undefined r), loc)
  | ISameValue r => (Some (SameValue r), loc)
  | IRestore r => (Some (Restore r), loc)
  | IRememberState => (Some RememberState, loc)
  | IRestoreState => (Some RestoreState, loc)
  | INop => (None, loc)
  | IOther => (Some Other, loc)
  end.

(** dwarf.rs:4491-4497 and 4499-4505: the loops over instructions.  [label] is what the
    loop uses as address of a directive. *)
Fixpoint convert_all (c : cie) (label : N -> opt64) (l : list instruction) (loc : N) : list cfi :=
  match l with
  | [] => []
  | i :: l' =>
      let '(d, loc') := convert_cfi c i loc in
      match d with
      | Some d => (label loc', d) :: convert_all c label l' loc'
      | None => convert_all c label l' loc'
      end
  end.

(** dwarf.rs:4467-4513: the part of [get_cfi] after the FDE has been found. *)
Definition fde_cfi (f : fde) : list cfi :=
  [(opt64_none, StartProc)] ++
  match fd_personality f with Some a => [(opt64_none, Personality a)] | None => [] end ++
  match fd_lsda f with Some a => [(opt64_none, Lsda a)] | None => [] end ++
  (if fd_signal f then [(opt64_none, SignalFrame)] else []) ++
  convert_all (fd_cie f) (fun _ => opt64_none) (ci_instructions (fd_cie f)) 0 ++
  convert_all (fd_cie f) (fun loc => loc) (fd_instructions f) (fd_address f) ++
  [(add64 (fd_address f) (fd_len f), EndProc)].

(** dwarf.rs:4444-4514, [get_cfi].  [from_offset] is gimli's [fde_from_offset]. *)
Definition get_cfi (choice : N -> nat) (table : fde_table) (from_offset : N -> option fde)
    (r : range) : option (list cfi) :=
  match find_fde choice table (rbegin r) with
  | Some offset => option_map fde_cfi (from_offset offset)
  | None => None
  end.

(** A frame section: its FDEs by offset. *)
Definition frame_section := list (N * fde).
Fixpoint from_offset (s : frame_section) (offset : N) : option fde :=
  match s with
  | [] => None
  | (o, f) :: s' => if o =? offset then Some f else from_offset s' offset
  end.

(** dwarf.rs:4335-4344, [DwarfFrame::get_cfi], with an empty list for none as in
    dwarf.rs:371-373, [DwarfDebugInfo::get_cfi]. *)
Definition file_cfi (choice : N -> nat) (eh_frame debug_frame : frame_section) (r : range) : list cfi :=
  match get_cfi choice (table_new eh_frame) (from_offset eh_frame) r with
  | Some l => l
  | None =>
      match get_cfi choice (table_new debug_frame) (from_offset debug_frame) r with
      | Some l => l
      | None => []
      end
  end.

(** main/src/print/function.rs:452-482: the loop of [print_instructions] for one range.
    [address] is [Instruction::address]. *)
Section Listing.
  Context {insn : Type}.
  Variable address : insn -> opt64.

  Inductive row := RCfi (c : cfi) | RInsn (i : insn).

  Definition cfi_first (c : cfi) (i : insn) : bool :=
    opt64_is_none (fst c) || match opt64_cmp (fst c) (address i) with Gt => false | _ => true end.

  Fixpoint listing_fuel (fuel : nat) (insns : list insn) (cfis : list cfi) : list row :=
    match fuel with
    | O => []
    | S fuel =>
        match insns, cfis with
        | i :: insns', c :: cfis' =>
            if cfi_first c i then RCfi c :: listing_fuel fuel insns cfis'
            else RInsn i :: listing_fuel fuel insns' cfis
        | i :: insns', [] => RInsn i :: listing_fuel fuel insns' cfis
        | [], c :: cfis' => RCfi c :: listing_fuel fuel insns cfis'
        | [], [] => []
        end
    end.
  Definition listing (insns : list insn) (cfis : list cfi) : list row :=
    listing_fuel (List.length insns + List.length cfis) insns cfis.
End Listing.
Arguments RCfi {insn} c.
Arguments RInsn {insn} i.
