(** Model of the evaluation of location expressions in /repo/parser/src/file/dwarf.rs:3599-4024
    and of /repo/parser/src/location.rs.

    Decoding operations is done by gimli: the model starts from the list of operations, where
    [OInvalid] stands for bytes that cannot be decoded.  Arithmetic wraps as in release mode, and
    [Size::new] and [Address::new] do not check that their argument is not [!0].
    [evaluate] (dwarf.rs:4026-4070), which runs gimli's own evaluator, is not modelled; what
    is done with its result is. *)
From Coq Require Import List NArith ZArith Bool.
From Verif Require Import Base RangeModel TypeModel CfiModel.
Import ListNotations.
Local Open Scope N_scope.

(** location.rs:44-86, [Location]. *)
Inductive location :=
| LEmpty
| LLiteral (value : N)
| LRegister (r : N)
| LRegisterOffset (r : N) (offset : Z)
| LFrameOffset (offset : Z)
| LCfaOffset (offset : Z)
| LAddress (a : opt64)
| LTlsOffset (offset : N)
| LOther.

(** location.rs:28-40, [Piece]. *)
Record piece := mkPiece {
  pc_bit_offset : N; pc_bit_size : opt64; pc_location : location;
  pc_location_offset : N; pc_is_value : bool }.

(** gimli's [Operation].  Operations that the code treats alike are one constructor with a
    number to tell them apart: [OPushUnknown] is [EntryValue], [ParameterRef],
    [TypedLiteral], [PushObjectAddress], [VariableValue] and [ConstantIndex]; [OUnary] is
    [Neg], [Not], [Abs], [Convert] and [Reinterpret]; [OBinary] is [Mul] up to [Le];
    [OJump] is [Bra], [Skip] and [Call]; [OWasm] is [WasmLocal], [WasmGlobal] and
    [WasmStack].  The type of [RegisterOffset] is not modelled. *)
Inductive op :=
| ONop
| ORegister (r : N)
| OImplicitValue
| OImplicitPointer
| OStackValue
| OPushUnknown (k : N)
| OUnsigned (value : N)
| OSigned (value : Z)
| ORegisterOffset (r : N) (offset : Z)
| OFrameOffset (offset : Z)
| OCallFrameCfa
| OAddress (a : N)
| OAddressIndex (i : N)
| OTls
| OPiece (size_in_bits : N) (bit_offset : option N)
| ODrop
| OSwap
| ORot
| OPick (i : nat)
| OPlusConstant (c : N)
| OPlus
| OMinus
| OUnary (k : N)
| OBinary (k : N)
| ODeref (k : N) (space : bool)
| OJump (k : N)
| OUninitialized
| OWasm (k : N)
| OInvalid.

(** [x as u64] for an integer. *)
Definition as_u64 (x : Z) : N := Z.to_N (x mod 2 ^ 64).
Definition unwrap_or_0 (x : option N) : N := match x with Some n => n | None => 0 end.

Section Evaluate.
  (** [encoding.address_size]. *)
  Variable address_size : N.
  (** [dwarf_unit.address]. *)
  Variable address : N -> option N.

  (** dwarf.rs:3721-3725. *)
  Definition addr_mask : N :=
    if address_size =? 8 then u64_max else N.shiftl 1 (8 * address_size) - 1.

  (** dwarf.rs:3730-3745, [add_piece]: the pieces so far and [next_bit_offset]. *)
  Definition add_piece (st : list piece * N) (l : location) (location_offset : N) (is_value : bool)
      (bit_size : opt64) : list piece * N :=
    let '(pieces, next) := st in
    (pieces ++ [mkPiece next bit_size l location_offset is_value],
     add64 next (unwrap_or_0 (opt64_get bit_size))).

  (** dwarf.rs:3879-3890: adding to an offset. *)
  Definition add_offset (offset : Z) (c : N) : Z :=
    as_i64 (Z.of_N (N.land (add64 (as_u64 offset) c) addr_mask)).

  (** dwarf.rs:3873-3898, [PlusConstant]. *)
  Definition plus_constant (l : location) (c : N) : location :=
    match l with
    | LLiteral v => LLiteral (N.land (add64 v c) addr_mask)
    | LRegisterOffset r o => LRegisterOffset r (add_offset o c)
    | LFrameOffset o => LFrameOffset (add_offset o c)
    | LCfaOffset o => LCfaOffset (add_offset o c)
    | _ => LOther
    end.

  (** What an operation does. *)
  Inductive outcome :=
  | Error
  | Stop
  | Stack (stack : list location)
  | Found (l : location) (is_value : bool) (stack : list location).

  Definition pops (n : nat) (stack : list location) : option (list location) :=
    if (List.length stack <? n)%nat then None else Some (skipn n stack).
  Definition pop_push (n : nat) (stack : list location) : outcome :=
    match pops n stack with Some s => Stack (LOther :: s) | None => Error end.

  (** dwarf.rs:3754-3989: the [match] on the operation, except for [Piece].  The top of the
      stack is the head of the list. *)
  Definition step (o : op) (stack : list location) : outcome :=
    match o with
    | ONop | OUninitialized => Stack stack
    | ORegister r => Found (LRegister r) false stack
    | OImplicitValue => Found LOther true stack
    | OImplicitPointer | OWasm _ => Found LOther false stack
    | OStackValue => match stack with l :: s => Found l true s | [] => Error end
    | OPushUnknown _ => Stack (LOther :: stack)
    | OUnsigned v => Stack (LLiteral v :: stack)
    | OSigned v => Stack (LLiteral (as_u64 v) :: stack)
    | ORegisterOffset r o => Stack (LRegisterOffset r o :: stack)
    | OFrameOffset o => Stack (LFrameOffset o :: stack)
    | OCallFrameCfa => Stack (LCfaOffset 0 :: stack)
    | OAddress a => Stack (LAddress a :: stack)
    | OAddressIndex i =>
        match address i with Some a => Stack (LAddress a :: stack) | None => Stack (LOther :: stack) end
    | OTls =>
        match stack with
        | LLiteral v :: s => Stack (LTlsOffset v :: s)
        | _ :: s => Stack (LOther :: s)
        | [] => Error
        end
    | OPiece _ _ => Error (* not used *)
    | ODrop => match stack with _ :: s => Stack s | [] => Error end
    | OSwap => match stack with one :: two :: s => Stack (two :: one :: s) | _ => Error end
    | ORot =>
        match stack with one :: two :: three :: s => Stack (two :: three :: one :: s) | _ => Error end
    | OPick i => match nth_error stack i with Some l => Stack (l :: stack) | None => Error end
    | OPlusConstant c => match stack with l :: s => Stack (plus_constant l c :: s) | [] => Error end
    | OPlus | OMinus =>
        (* The result of the [match] is not pushed. *)
        match pops 2 stack with Some s => Stack s | None => Error end
    | OUnary _ => pop_push 1 stack
    | OBinary _ => pop_push 2 stack
    | ODeref _ space => pop_push (if space then 2 else 1) stack
    | OJump _ => Stop
    | OInvalid => Error
    end.

  (** dwarf.rs:3753-4024: the loop, and what follows it. *)
  Fixpoint run (ops : list op) (stack : list location) (st : list piece * N) : option (list piece) :=
    match ops with
    | [] =>
        match fst st, stack with
        | [], l :: _ => Some (fst (add_piece st l 0 false opt64_none))
        | pieces, _ => Some pieces
        end
    | OPiece size off :: ops' =>
        match stack with
        | l :: s => run ops' s (add_piece st l (unwrap_or_0 off) false size)
        | [] => run ops' [] (add_piece st LEmpty (unwrap_or_0 off) false size)
        end
    | o :: ops' =>
        match step o stack with
        | Error => None
        | Stop => Some (fst st)
        | Stack s => run ops' s st
        | Found l is_value s =>
            match ops' with
            | [] =>
                match fst st with
                | [] => Some (fst (add_piece st l 0 is_value opt64_none))
                | _ => None
                end
            | OPiece size off :: ops'' =>
                run ops'' s (add_piece st l (unwrap_or_0 off) is_value size)
            | _ => None
            end
        end
    end.

  (** dwarf.rs:3710-4024, [evaluate_simple_internal]. *)
  Definition evaluate (ops : list op) : option (list piece) := run ops [] ([], 0).
End Evaluate.

(** [u64::div_ceil]. *)
Definition div_ceil (a b : N) : N := a / b + (if a mod b =? 0 then 0 else 1).

(** The fields of [LocalVariable] (parser/src/variable.rs) that locations are for. *)
Record local_variable := mkLocal {
  lv_address : opt64; lv_size : opt64; lv_locations : list (range * piece) }.

(** dwarf.rs:3646-3667: the loop over the pieces. *)
Definition use_piece (v : local_variable) (p : piece) : local_variable :=
  if pc_is_value p then v
  else
    match pc_location p with
    | LAddress a =>
        if negb (opt64_is_none (lv_address v)) then v
        else
          mkLocal a
            match opt64_get (pc_bit_size p) with
            | Some n => div_ceil n 8
            | None => lv_size v
            end (lv_locations v)
    | _ => v
    end.

(** dwarf.rs:3635-3672, [evaluate_local_variable_location]. *)
Definition evaluate_local (address_size : N) (address : N -> option N) (v : local_variable)
    (r : range) (ops : list op) : local_variable :=
  match evaluate address_size address ops with
  | None => v
  | Some pieces =>
      let v' := fold_left use_piece pieces v in
      mkLocal (lv_address v') (lv_size v') (lv_locations v' ++ map (fun p => (r, p)) pieces)
  end.

(** dwarf.rs:3283-3304: a list of locations, each with a range. *)
Definition evaluate_locals (address_size : N) (address : N -> option N) (l : list (range * list op))
    (v : local_variable) : local_variable :=
  fold_left (fun v x => evaluate_local address_size address v (fst x) (snd x)) l v.

(** dwarf.rs:3675-3690, [evaluate_parameter_location], for a list of locations (2604-2622). *)
Definition evaluate_parameters (address_size : N) (address : N -> option N)
    (l : list (range * list op)) (locations : list (range * piece)) : list (range * piece) :=
  fold_left
    (fun acc x =>
       match evaluate address_size address (snd x) with
       | None => acc
       | Some pieces => acc ++ map (fun p => (fst x, p)) pieces
       end) l locations.

(** location.rs:17-22, [FrameLocation]. *)
Record frame_location := mkFrame { fl_offset : Z; fl_bit_size : opt64 }.

(** location.rs:88-100, [registers]. *)
Definition registers (l : list (range * piece)) : list (range * N) :=
  flat_map (fun x =>
    if pc_is_value (snd x) then []
    else match pc_location (snd x) with LRegister r => [(fst x, r)] | _ => [] end) l.

(** location.rs:102-121, [frame_locations]. *)
Definition frame_locations (l : list (range * piece)) : list (range * frame_location) :=
  flat_map (fun x =>
    if pc_is_value (snd x) then []
    else match pc_location (snd x) with
         | LFrameOffset o | LCfaOffset o => [(fst x, mkFrame o (pc_bit_size (snd x)))]
         | _ => []
         end) l.

(** location.rs:123-135, [register_offsets]. *)
Definition register_offsets (l : list (range * piece)) : list (range * N * Z) :=
  flat_map (fun x =>
    if pc_is_value (snd x) then []
    else match pc_location (snd x) with LRegisterOffset r o => [(fst x, r, o)] | _ => [] end) l.

(** gimli's [Location] and the part of its [Piece] that is used. *)
Inductive gimli_location := GAddress (a : N) | GRegister (r : N) | GOther.
Definition gimli_piece := (gimli_location * option N)%type.

(** dwarf.rs:3577-3597, [evaluate_member_location], from the result of [evaluate]. *)
Definition member_location (pieces : list gimli_piece) : option N :=
  match pieces with
  | [(GAddress a, _)] => Some (mul64 a 8)
  | _ => None
  end.

(** dwarf.rs:3599-3633, [evaluate_variable_location], from the result of [evaluate]. *)
Definition variable_location (pieces : list gimli_piece) : option (opt64 * opt64) :=
  fold_left
    (fun result p =>
       match fst p with
       | GAddress a =>
           match result with
           | Some _ => result
           | None => Some (a, match snd p with Some n => div_ceil n 8 | None => opt64_none end)
           end
       | _ => result
       end) pieces None.
