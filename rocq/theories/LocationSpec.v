(** Specification of location expressions: the stack machine of DWARF 5, 2.5 and 2.6. *)
From Coq Require Import List NArith ZArith Bool.
From Verif Require Import Base RangeModel TypeModel LocationModel.
Import ListNotations.
Local Open Scope Z_scope.

(** What an expression is evaluated in.  The operations that the code does not interpret
    compute arbitrary functions of what they pop. *)
Record environment := mkEnvironment {
  en_address_size : N;
  en_register : N -> Z;
  en_frame_base : Z;
  en_cfa : Z;
  en_tls : Z -> Z;
  en_address : N -> Z;
  en_push : N -> Z;
  en_unary : N -> Z -> Z;
  en_binary : N -> Z -> Z -> Z;
  en_deref : N -> Z -> option Z -> Z }.

(** Where an object or a part of it is. *)
Inductive place :=
| Nowhere
| Memory (a : Z)
| InRegister (r : N)
| Value (v : Z)
| Implicit
| ImplicitPointer
| Foreign (k : N).
(** A place, the size in bits of the part that is there (all of the object if none), and
    the offset in bits of the part in the place. *)
Definition part := (place * option N * N)%type.

Section Machine.
  Variable E : environment.

  (** Values are integers of the size of an address. *)
  Definition word (z : Z) : Z := z mod 2 ^ (8 * Z.of_N (en_address_size E)).

  (** Operations on the stack (2.5.1); the top is the head. *)
  Inductive computes : op -> list Z -> list Z -> Prop :=
  | c_nop s : computes ONop s s
  | c_uninitialized s : computes OUninitialized s s
  | c_unknown k s : computes (OPushUnknown k) s (word (en_push E k) :: s)
  | c_unsigned v s : computes (OUnsigned v) s (word (Z.of_N v) :: s)
  | c_signed v s : computes (OSigned v) s (word v :: s)
  | c_register r o s : computes (ORegisterOffset r o) s (word (en_register E r + o) :: s)
  | c_frame o s : computes (OFrameOffset o) s (word (en_frame_base E + o) :: s)
  | c_cfa s : computes OCallFrameCfa s (word (en_cfa E) :: s)
  | c_address a s : computes (OAddress a) s (word (Z.of_N a) :: s)
  | c_index i s : computes (OAddressIndex i) s (word (en_address E i) :: s)
  | c_tls x s : computes OTls (x :: s) (word (en_tls E x) :: s)
  | c_drop x s : computes ODrop (x :: s) s
  | c_swap x y s : computes OSwap (x :: y :: s) (y :: x :: s)
  | c_rot x y z s : computes ORot (x :: y :: z :: s) (y :: z :: x :: s)
  | c_pick i x s : nth_error s i = Some x -> computes (OPick i) s (x :: s)
  | c_plus_constant c x s : computes (OPlusConstant c) (x :: s) (word (x + Z.of_N c) :: s)
  | c_plus x y s : computes OPlus (x :: y :: s) (word (y + x) :: s)
  | c_minus x y s : computes OMinus (x :: y :: s) (word (y - x) :: s)
  | c_unary k x s : computes (OUnary k) (x :: s) (word (en_unary E k x) :: s)
  | c_binary k x y s : computes (OBinary k) (x :: y :: s) (word (en_binary E k x y) :: s)
  | c_deref k x s : computes (ODeref k false) (x :: s) (word (en_deref E k x None) :: s)
  | c_xderef k x y s : computes (ODeref k true) (x :: y :: s) (word (en_deref E k x (Some y)) :: s).

  (** Operations that give a place (2.6.1.1.3 and 2.6.1.1.4). *)
  Inductive gives : op -> list Z -> place -> list Z -> Prop :=
  | g_register r s : gives (ORegister r) s (InRegister r) s
  | g_implicit s : gives OImplicitValue s Implicit s
  | g_pointer s : gives OImplicitPointer s ImplicitPointer s
  | g_value x s : gives OStackValue (x :: s) (Value x) s
  | g_foreign k s : gives (OWasm k) s (Foreign k) s.

  (** [runs ops stack parts result]: running [ops], having found [parts], gives [result].
      A jump may go anywhere. *)
  Inductive runs : list op -> list Z -> list part -> list part -> Prop :=
  | r_none : runs [] [] [] []
  | r_memory x s : runs [] (x :: s) [] [(Memory x, None, 0%N)]
  | r_parts s parts : parts <> [] -> runs [] s parts parts
  | r_compute o s s' ops parts result :
      computes o s s' -> runs ops s' parts result -> runs (o :: ops) s parts result
  | r_piece_memory n off x s ops parts result :
      runs ops s (parts ++ [(Memory x, Some n, unwrap_or_0 off)]) result ->
      runs (OPiece n off :: ops) (x :: s) parts result
  | r_piece_nowhere n off ops parts result :
      runs ops [] (parts ++ [(Nowhere, Some n, unwrap_or_0 off)]) result ->
      runs (OPiece n off :: ops) [] parts result
  | r_place o s p s' : gives o s p s' -> runs [o] s [] [(p, None, 0%N)]
  | r_place_piece o s p s' n off ops parts result :
      gives o s p s' -> runs ops s' (parts ++ [(p, Some n, unwrap_or_0 off)]) result ->
      runs (o :: OPiece n off :: ops) s parts result
  | r_jump k ops s ops' s' parts result :
      runs ops' s' parts result -> runs (OJump k :: ops) s parts result.

  (** The number that a location in memory or a value stands for. *)
  Definition number (l : location) : option Z :=
    match l with
    | LLiteral v => Some (Z.of_N v)
    | LRegisterOffset r o => Some (en_register E r + o)
    | LFrameOffset o => Some (en_frame_base E + o)
    | LCfaOffset o => Some (en_cfa E + o)
    | LAddress a => Some (Z.of_N a)
    | LTlsOffset o => Some (en_tls E (word (Z.of_N o)))
    | LEmpty | LRegister _ | LOther => None
    end.

  (** What is reported is right; [LOther] does not say what it is. *)
  Definition right_place (l : location) (is_value : bool) (p : place) : Prop :=
    (is_value = true <-> p = Implicit \/ exists v, p = Value v) /\
    match l with
    | LOther => True
    | LEmpty => p = Nowhere
    | LRegister r => p = InRegister r
    | _ => exists z, number l = Some z /\ (p = Memory (word z) \/ p = Value (word z))
    end.
  Definition right_part (p : piece) (x : part) : Prop :=
    let '(pl, size, off) := x in
    right_place (pc_location p) (pc_is_value p) pl /\
    pc_bit_size p = match size with Some n => n | None => opt64_none end /\
    pc_location_offset p = off.
End Machine.

(** Addition and subtraction on the stack. *)
Definition is_sum (o : op) : bool := match o with OPlus | OMinus => true | _ => false end.
Definition is_jump (o : op) : bool := match o with OJump _ => true | _ => false end.
Definition without (f : op -> bool) (ops : list op) : Prop := forall o, In o ops -> f o = false.

(** The index table of the unit. *)
Definition indexes (E : environment) (address : N -> option N) : Prop :=
  forall i a, address i = Some a -> en_address E i = Z.of_N a.

(** ** Offsets of parts *)

(** The parts follow each other, starting at [start], modulo 2^64. *)
Fixpoint follow (start : N) (l : list piece) : Prop :=
  match l with
  | [] => True
  | p :: l' =>
      pc_bit_offset p = (start mod 2 ^ 64)%N /\
      follow (start + match opt64_get (pc_bit_size p) with Some n => n | None => 0 end)%N l'
  end.
