(** Names with arguments in angle brackets. *)
From Coq Require Import List Arith NArith Bool String.
From Verif Require Import PrintModel.
Import ListNotations.

Definition opens (c : N) : bool := N.eqb c 60.
Definition closes (c : N) : bool := N.eqb c 62.
Definition is_brace (c : N) : bool := N.eqb c 123 || N.eqb c 125.

(** The part outside of angle brackets; the outermost brackets are included. *)
Fixpoint outside (depth : nat) (t : text) : text :=
  match t with
  | [] => []
  | c :: t =>
      if opens c then (if depth =? 0 then [c] else []) ++ outside (S depth) t
      else if closes c then (if depth <=? 1 then [c] else []) ++ outside (pred depth) t
      else (if depth =? 0 then [c] else []) ++ outside depth t
  end.
(** How deep angle brackets are nested. *)
Fixpoint nesting (depth : nat) (t : text) : nat :=
  match t with
  | [] => depth
  | c :: t => Nat.max depth (nesting (if opens c then S depth else if closes c then pred depth else depth) t)
  end.
(** Every opening bracket is closed. *)
Fixpoint bracketed (depth : nat) (t : text) : Prop :=
  match t with
  | [] => depth = 0
  | c :: t =>
      if opens c then bracketed (S depth) t
      else if closes c then 0 < depth /\ bracketed (pred depth) t
      else bracketed depth t
  end.

(** Arguments: identifiers with the namespaces they are in, separated by punctuation or
    by further arguments. *)
Definition path : Type := list text * text.
Inductive separator := Punctuation (c : N) | Arguments (t : text).
Definition arguments : Type := list (path * separator) * path.

Definition path_text (p : path) : text := flat_map (fun n => n ++ txt "::") (fst p) ++ snd p.
Definition separator_text (s : separator) : text :=
  match s with Punctuation c => [c] | Arguments t => txt "<" ++ t ++ txt ">" end.
Definition arguments_text (a : arguments) : text :=
  flat_map (fun x => path_text (fst x) ++ separator_text (snd x)) (fst a) ++ path_text (snd a).
(** Without namespaces, and with arguments of arguments left out. *)
Definition separator_short (s : separator) : text :=
  match s with Punctuation c => [c] | Arguments _ => txt "<...>" end.
Definition arguments_short (a : arguments) : text :=
  flat_map (fun x => snd (fst x) ++ separator_short (snd x)) (fst a) ++ snd (snd a).

Section Valid.
  Variable alphanumeric : N -> bool.
  Definition special (c : N) : bool := opens c || closes c || is_brace c || N.eqb c 58.
  Definition word_char (c : N) : Prop := special c = false /\ (N.eqb c 95 || alphanumeric c) = true.
  Definition word (t : text) : Prop := Forall word_char t.
  Definition path_ok (p : path) : Prop := Forall word (fst p) /\ word (snd p).
  Definition separator_ok (s : separator) : Prop :=
    match s with
    | Punctuation c => special c = false /\ (N.eqb c 95 || alphanumeric c) = false
    | Arguments t => bracketed 0 t /\ Forall (fun c => is_brace c = false) t
    end.
  Definition arguments_ok (a : arguments) : Prop :=
    Forall (fun x => path_ok (fst x) /\ separator_ok (snd x)) (fst a) /\ path_ok (snd a).
End Valid.
