(** Model of /repo/parser/src/namespace.rs. *)
From Coq Require Import List Arith NArith Bool String.
From Verif Require Import Base.
Import ListNotations.

(** parser/src/namespace.rs:6-13, [enum NamespaceKind]. *)
Inductive ns_kind := KNamespace | KFunction | KType.

Definition ns_kind_eqb (a b : ns_kind) : bool :=
  match a, b with
  | KNamespace, KNamespace | KFunction, KFunction | KType, KType => true
  | _, _ => false
  end.

(** parser/src/namespace.rs:17-21, [struct Namespace]; [Arc] is transparent. *)
Inductive namespace := Ns (parent : option namespace) (name : option string) (kind : ns_kind).

Definition ns_parent (n : namespace) := let '(Ns p _ _) := n in p.
Definition ns_name (n : namespace) := let '(Ns _ s _) := n in s.
Definition ns_kind_of (n : namespace) := let '(Ns _ _ k) := n in k.

(** parser/src/namespace.rs:53-58, [Namespace::len]. *)
Fixpoint ns_len (n : namespace) : nat :=
  match n with
  | Ns (Some p) _ _ => ns_len p + 1
  | Ns None _ _ => 1
  end.

(** parser/src/namespace.rs:60-69, [Namespace::up]. *)
Fixpoint ns_up (n : namespace) (len : nat) {struct len} : namespace :=
  match len with
  | O => n
  | S len' => match n with Ns (Some p) _ _ => ns_up p len' | Ns None _ _ => n end
  end.

(** parser/src/namespace.rs:71-79, [Namespace::is_anon_type]. *)
Fixpoint ns_is_anon_type' (n : namespace) : bool :=
  match n with
  | Ns p name kind =>
      ns_kind_eqb kind KType
      && ((match name with None => true | Some _ => false end)
          || match p with Some q => ns_is_anon_type' q | None => false end)
  end.

Definition ns_is_anon_type (n : option namespace) : bool :=
  match n with Some q => ns_is_anon_type' q | None => false end.

(** parser/src/namespace.rs:81-99, [Namespace::_is_within].  [nth_error] cannot
    fail where it is used, because of the length test. *)
Fixpoint ns_is_within' (n : namespace) (path : list string) : bool * nat :=
  match n with
  | Ns parent name _ =>
      let '(ret, offset) :=
        match parent with Some p => ns_is_within' p path | None => (true, O) end in
      if ret then
        if offset <? List.length path then
          match name with
          | Some s =>
              (match nth_error path offset with Some t => String.eqb s t | None => false end,
               offset + 1)
          | None => (false, offset + 1)
          end
        else (true, offset)
      else (false, O)
  end.

(** parser/src/namespace.rs:104-106, [Namespace::is_within]. *)
Definition ns_is_within (n : namespace) (path : list string) : bool :=
  let '(ret, offset) := ns_is_within' n path in
  ret && (offset =? List.length path).

(** [a.name.cmp(&b.name)] on [Option<&str>]. *)
Definition cmp_name : option string -> option string -> comparison := cmp_option cmp_string.

(** parser/src/namespace.rs:108-120, [Namespace::_cmp].  [None] is a violated
    [debug_assert_eq!]. *)
Fixpoint ns_cmp' (a b : namespace) : option comparison :=
  if ns_len a =? ns_len b then
    match a, b with
    | Ns (Some p1) n1 _, Ns (Some p2) n2 _ =>
        match ns_cmp' p1 p2 with
        | None => None
        | Some Eq => Some (cmp_name n1 n2)
        | Some ord => Some ord
        end
    | Ns _ n1 _, Ns _ n2 _ => Some (cmp_name n1 n2)
    end
  else None.

(** parser/src/namespace.rs:122-142, [Namespace::cmp]. *)
Definition ns_cmp (a b : namespace) : option comparison :=
  let len_a := ns_len a in
  let len_b := ns_len b in
  match Nat.compare len_a len_b with
  | Eq => ns_cmp' a b
  | Lt => match ns_cmp' a (ns_up b (len_b - len_a)) with Some Eq => Some Lt | other => other end
  | Gt => match ns_cmp' (ns_up a (len_a - len_b)) b with Some Eq => Some Gt | other => other end
  end.

(** parser/src/namespace.rs:144-159, [Namespace::cmp_ns_and_name]. *)
Definition cmp_ns_and_name (ns1 : option namespace) (name1 : option string)
    (ns2 : option namespace) (name2 : option string) : option comparison :=
  match ns1, ns2 with
  | Some a, Some b =>
      match ns_cmp a b with
      | Some Eq => Some (cmp_name name1 name2)
      | o => o
      end
  | Some _, None => Some Gt
  | None, Some _ => Some Lt
  | None, None => Some (cmp_name name1 name2)
  end.
